{
 "claims": [
  {
   "property": "C01",
   "status": "proved",
   "theorems": [
    "C01_entropy_lossless",
    "C01_few_symbols",
    "C01_long_codes_refuted"
   ],
   "note": "all symbol sequences with code words of at most 64 bits; beyond that the encoder is wrong (C01_long_codes_refuted)"
  },
  {
   "property": "C02",
   "status": "proved",
   "theorems": [
    "C02_tree_serialisation"
   ],
   "note": ""
  },
  {
   "property": "C03",
   "status": "proved",
   "theorems": [
    "C03_complete_prefix_code",
    "C03_optimality_refuted"
   ],
   "note": "code words of at most 64 bits; optimality is not claimed and is refuted"
  },
  {
   "property": "C04",
   "status": "proved",
   "theorems": [
    "C04_size_accounting"
   ],
   "note": ""
  },
  {
   "property": "C05",
   "status": "proved",
   "theorems": [
    "C05_sign_maps"
   ],
   "note": ""
  },
  {
   "property": "C06",
   "status": "proved",
   "theorems": [
    "C06_stream_round_trip",
    "C06_stream_total",
    "C06_with_tree_round_trip",
    "C06_with_tree_overflow_refuted"
   ],
   "note": ""
  },
  {
   "property": "C07",
   "status": "proved",
   "theorems": [
    "C07_relative_round_trip",
    "C07_absolute_round_trip",
    "C07_instances"
   ],
   "note": "any arithmetic whose values survive memcpy"
  },
  {
   "property": "C08",
   "status": "proved",
   "theorems": [
    "C08_absolute_bound_double",
    "C08_absolute_bound_float",
    "C08_strict_bound_refuted",
    "C08_nan_neighbour_refuted"
   ],
   "note": "libm as an oracle satisfying libm_ok"
  },
  {
   "property": "C09",
   "status": "proved",
   "theorems": [
    "C09_relative_bound_double",
    "C09_relative_bound_float",
    "C09_nan_neighbour_refuted"
   ],
   "note": "libm as an oracle satisfying libm_ok"
  },
  {
   "property": "C10",
   "status": "proved",
   "theorems": [
    "C10_relative_keeps_critical_points",
    "C10_total"
   ],
   "note": "exact arithmetic"
  },
  {
   "property": "C11",
   "status": "proved",
   "theorems": [
    "C11_absolute_keeps_critical_points",
    "C11_total"
   ],
   "note": "exact arithmetic"
  },
  {
   "property": "C12",
   "status": "proved",
   "theorems": [
    "C12_keeps_critical_points",
    "C12_total",
    "C12_machine_total_double",
    "C12_machine_total_float",
    "C12_round_trip_double",
    "C12_round_trip_float",
    "C12_relative_bound_double",
    "C12_relative_bound_float",
    "C12_tiny_refuted"
   ],
   "note": "Round trip for every mathematical library; the relative bound assumes log2/pow/log2f/exp2 accuracy (libm_ok, log_libm_ok); Huffman codes at most 64 bits (log_short)."
  },
  {
   "property": "C13",
   "status": "proved",
   "theorems": [
    "C13_keeps_critical_cells",
    "C13_any_arithmetic",
    "C13_round_trip_bound_double",
    "C13_round_trip_bound_float",
    "C13_same_test_refuted",
    "C13_bound_refuted",
    "C13_small_bound_refuted"
   ],
   "note": "libm as an oracle satisfying libm_ok in the IEEE theorems"
  },
  {
   "property": "C14",
   "status": "proved",
   "theorems": [
    "C14_each_point_once",
    "C14_same_order",
    "C14_predicts_from_done",
    "C14_decodes_working_copy"
   ],
   "note": "visits are the modelled loop nests of both functions, unrolled in order; decoding theorem holds for every arithmetic whose zero converts to zero; C15 theorems give it through bytes"
  },
  {
   "property": "C15",
   "status": "partial",
   "theorems": [
    "C15_round_trip_bound_double",
    "C15_round_trip_bound_float",
    "C15_machine_total_double",
    "C15_machine_total_float",
    "C15_conversion_refuted",
    "C15_alphabet_refuted"
   ],
   "note": "round trip and bound proved whenever the compressor meets no undefined behaviour and code words fit 64 bits (magnitudes up to 2^500, float 2^56; factor 1+2^-39, float 1+2^-23). Missing: absence of undefined behaviour, which is false: the quantiser's conversion to int overflows on ordinary data with a small bound (C15_conversion_refuted), and with the machine's conversions a symbol can exceed the entropy coder's alphabet (C15_alphabet_refuted)"
  },
  {
   "property": "C16",
   "status": "proved",
   "theorems": [
    "C16_keeps_critical_tets",
    "C16_exact_total",
    "C16_round_trip_bound_double",
    "C16_round_trip_bound_float",
    "C16_no_undefined_double",
    "C16_no_undefined_float",
    "C16_machine_total_double",
    "C16_machine_total_float"
   ],
   "note": "for every answer of the external critical-point test; bound up to a factor 1+2^-40 (rounding of log2), libm_ok, code words of at most 64 bits"
  },
  {
   "property": "C17",
   "status": "proved",
   "theorems": [
    "C17_round_trip_bound_double",
    "C17_round_trip_bound_float",
    "C17_no_ub_double",
    "C17_no_ub_float",
    "C17_machine_total_double",
    "C17_machine_total_float",
    "C17_bound_three_refuted",
    "C17_tiny_refuted"
   ],
   "note": "Hypotheses: accuracy of log2/pow/log2f/exp2 (libm_ok, log_libm_ok), residual code words of at most 64 bits (log3_short), magnitudes 0 or 2^-97..2^100 (double) / 2^38 (float). Bounds between 2.5 and 3 are not covered in floating point."
  },
  {
   "property": "C18",
   "status": "partial",
   "theorems": [
    "C18_round_trip_bound_double_partial",
    "C18_round_trip_bound_float_partial",
    "C18_no_ub_double",
    "C18_no_ub_float",
    "C18_machine_total_double",
    "C18_machine_total_float",
    "C18_zero_component_refuted",
    "C18_bound_three_refuted"
   ],
   "note": "The claim is false for fields with a zero component (signs shift, refuted) and at bound 3 (refuted). Proved for every mesh, fields without zeros, bounds up to 5/2: bytes round trip and relative bound + 2^-13. Hypothesis: Huffman codes of at most 64 bits."
  },
  {
   "property": "C19",
   "status": "partial",
   "theorems": [
    "C19_writes_past_block",
    "C19_reported_size_refuted",
    "C19_small_bound_refuted",
    "C19_round_trip_double_partial",
    "C19_round_trip_float_partial"
   ],
   "note": "The statement is false: the reported (and allocated) size is 8 bytes short on every call, and bounds between 2^-52 and 2^-50 are decoded as 0. Proved: with the 8 bytes and no bound in that gap, round trip and derived relative error bound at every vertex, all grids and fields."
  },
  {
   "property": "C20",
   "status": "proved",
   "theorems": [
    "C20_sum_keeps_sign",
    "C20_online_relative_2d",
    "C20_online_absolute_2d",
    "C20_online_relative_3d",
    "C20_online_absolute_3d",
    "C20_tetrahedron_relative"
   ],
   "note": ""
  },
  {
   "property": "C21",
   "status": "partial",
   "theorems": [
    "C21_round_trip_bound_float",
    "C21_round_trip_bound_double_partial",
    "C21_double_verbatim_refuted",
    "C21_no_undefined_double",
    "C21_no_undefined_float",
    "C21_sz_compress_3d_float",
    "C21_sz_compress_3d_double_partial"
   ],
   "note": "floats: all fields for which the compressor returns; doubles: only without verbatim values, the general claim is refuted (four bytes skipped per eight-byte value)"
  },
  {
   "property": "C22",
   "status": "proved",
   "theorems": [
    "C22_exact",
    "C22_index_range_double",
    "C22_index_range_float",
    "C22_error_double",
    "C22_error_float",
    "C22_cp_index_range_double",
    "C22_cp_index_range_float"
   ],
   "note": "linear quantiser of the block codecs and of the critical-point codecs"
  },
  {
   "property": "C23",
   "status": "proved",
   "theorems": [
    "C23_bound_rounding",
    "C23_bound_rounding_ieee"
   ],
   "note": "exact arithmetic; in IEEE arithmetic up to a factor 1+2^-40"
  },
  {
   "property": "C24",
   "status": "proved",
   "theorems": [
    "C24_2d_sound",
    "C24_2d_complete",
    "C24_2d_unique",
    "C24_2d_offsets",
    "C24_3d_sound",
    "C24_3d_complete",
    "C24_3d_unique",
    "C24_3d_offsets",
    "C24_3d_cell_numbers"
   ],
   "note": "2D and 3D tables"
  },
  {
   "property": "C25",
   "status": "partial",
   "theorems": [
    "C25_fits_refuted",
    "C25_fits_partial"
   ],
   "note": "the unconditional claim is refuted"
  },
  {
   "property": "C26",
   "status": "proved",
   "theorems": [
    "C26_round_up_power_of_2",
    "C26_interval_estimation",
    "C26_estimate_covers"
   ],
   "note": ""
  },
  {
   "property": "C27",
   "status": "proved",
   "theorems": [
    "C11_absolute_keeps_critical_points",
    "C16_keeps_critical_tets",
    "C27_3d_marked_exact_double",
    "C27_3d_marked_exact_float"
   ],
   "note": "exact arithmetic for critical cells of the real field; any arithmetic for tetrahedra marked by the compressor's own test (3D)"
  },
  {
   "property": "C28",
   "status": "proved",
   "theorems": [
    "C28_relative_keeps_types",
    "C28_log_keeps_types",
    "C28_jacobian_exists"
   ],
   "note": "Exact arithmetic, both relative 2D codecs: in each cell with a critical point the sign of the Jacobian's determinant is kept and, if positive, the signs of trace and discriminant. Log-domain codec: bound at most 1, values zero or at least 2^-98."
  },
  {
   "property": "C29",
   "status": "proved",
   "theorems": [
    "C29_absolute_zero_bound_double",
    "C29_absolute_zero_bound_float",
    "C29_relative_zero_bound_double",
    "C29_relative_zero_bound_float",
    "C29_zero_bound_overflow_refuted"
   ],
   "note": ""
  },
  {
   "property": "C30",
   "status": "proved",
   "theorems": [
    "C30_nonfinite_double",
    "C30_nonfinite_float"
   ],
   "note": ""
  },
  {
   "property": "C31",
   "status": "proved",
   "theorems": [
    "C31_cell_test",
    "C31_keeps_zeros",
    "C31_total",
    "C31_decompressed_double",
    "C31_decompressed_float",
    "C31_tiny_refuted",
    "C31_affine_test_refuted"
   ],
   "note": "csqrt (std::sqrt of a complex) is an oracle, universally quantified in C31_cell_test and C31_decompressed_*, computed exactly in C31_keeps_zeros. Boundary: values below 2^-99 lose critical points (C31_tiny_refuted); the library's test itself finds nothing in affine cells (C31_affine_test_refuted)."
  },
  {
   "property": "C32",
   "status": "partial",
   "theorems": [
    "C32_no_stream",
    "C32_valid_stream_refuted"
   ],
   "note": "the claim is false: no stream is ever produced for such fields"
  },
  {
   "property": "C33",
   "status": "proved",
   "theorems": [
    "C33_no_undefined_conversion_double",
    "C33_no_undefined_conversion_float",
    "C33_machine_total_double",
    "C33_machine_total_float",
    "C33_infinite_component_refuted"
   ],
   "note": ""
  },
  {
   "property": "C34",
   "status": "proved",
   "theorems": [
    "C34_round_trip_bound_float",
    "C34_with_eb_round_trip_bound_double",
    "C34_with_eb_round_trip_bound_float",
    "C34_no_undefined_float",
    "C34_with_eb_no_undefined_double",
    "C34_with_eb_no_undefined_float",
    "C34_sz_compress_2d_float",
    "C34_sz_compress_2d_defined"
   ],
   "note": ""
  },
  {
   "property": "C35",
   "status": "partial",
   "theorems": [
    "C35_verbatim_room_refuted",
    "C35_tiny_grid_refuted"
   ],
   "note": "the claim is false, see the refutations"
  },
  {
   "property": "C36",
   "status": "proved",
   "theorems": [
    "C36_offline_bounds_keep",
    "C36_edge_type_refuted"
   ],
   "note": "types are kept for zeros strictly inside a cell; on an edge the claim is false (refuted)"
  },
  {
   "property": "C37",
   "status": "partial",
   "theorems": [
    "C37_keeps_critical_tets_partial",
    "C37_exact_total"
   ],
   "note": "Proved for tetrahedra whose vertices are null vectors or have no zero component. Missing: vertices with both a zero and a nonzero component; the encoder works with -2^-100 in place of such zeros while the decoder returns 0. A search outside Coq (a Python transcription, fractions with floating-point logarithms) found a 2x2x2 field where such a tetrahedron gains a zero, so the full statement is likely false; no refutation is proved."
  },
  {
   "property": "C38",
   "status": "proved",
   "theorems": [
    "C38_keeps_critical_tets",
    "C38_exact_total"
   ],
   "note": "Exact-arithmetic instance of the same codec."
  },
  {
   "property": "C39",
   "status": "proved",
   "theorems": [
    "C39_keeps_critical_cells",
    "C39_exact_total",
    "C39_boundary_refuted"
   ],
   "note": "exact arithmetic; zeros on the boundary of a triangle can appear because the quantiser accepts errors equal to the bound (C39_boundary_refuted, IEEE doubles through bytes)"
  },
  {
   "property": "C40",
   "status": "proved",
   "theorems": [
    "C40_round_trip_double",
    "C40_round_trip_float",
    "C31_decompressed_double",
    "C31_decompressed_float",
    "C40_machine_total_double",
    "C40_machine_total_float",
    "C40_capacity_refuted"
   ],
   "note": "The relative bound is part of C31_decompressed_*. The output block can be too small (C40_capacity_refuted), so success of the compressor is a hypothesis."
  },
  {
   "property": "C41",
   "status": "proved",
   "theorems": [
    "C41_terminates_double",
    "C41_terminates_float",
    "C41_sampling_in_bounds",
    "C41_small_grid_refuted",
    "C41_undefined_conversion_refuted"
   ],
   "note": "small grids hang and out-of-range conversions to size_t are undefined in C++ (refutations); the positive theorems take x86's conversions"
  },
  {
   "property": "C42",
   "status": "partial",
   "theorems": [
    "C42_round_trip_double",
    "C42_round_trip_float",
    "C42_critical_point_refuted",
    "C42_small_grid_refuted"
   ],
   "note": "round trip and error bound proved for bounds lost against 1 or at least 2^-38; the claim about vertices of bound 0 and critical points is false (log2f in single precision), and a 2 x 2 grid always overruns the block for the bounds"
  },
  {
   "property": "C43",
   "status": "partial",
   "theorems": [
    "C43_round_trip_partial",
    "C43_zero_refuted",
    "C43_zero_field_refuted",
    "C43_tiny_precision_refuted"
   ],
   "note": "sign and relative error of non-zero values proved; zeros proved to come back as +0 or at most the smallest magnitude of the field: that they come back as 0 is false (libm allowed by the accuracy assumption), and fields of zeros or tiny precisions overrun the block for verbatim values"
  },
  {
   "property": "C44",
   "status": "partial",
   "theorems": [
    "C44_round_trip_partial",
    "C44_bound_refuted"
   ],
   "note": "proved if the field starts with a zero or the bounds of non-zero values are at least 1/16; false for smaller bounds: a value of bound 0 comes back as 0"
  },
  {
   "property": "C45",
   "status": "proved",
   "theorems": [
    "C45_round_trip_bound_double",
    "C45_round_trip_bound_float",
    "C45_no_ub_double",
    "C45_no_ub_float",
    "C45_machine_total_double",
    "C45_machine_total_float",
    "C45_large_refuted"
   ],
   "note": "the cube root is the repository's own (Acbrt.v). For magnitudes beyond the range the requested bound is not respected (C45_large_refuted)"
  },
  {
   "property": "C46",
   "status": "proved",
   "theorems": [
    "C46_bounds_keep_critical_tets",
    "C46_codec_keeps_critical_tets"
   ],
   "note": "exact arithmetic with an exact cube root; positions of critical points (which tetrahedra contain one), not their types"
  },
  {
   "property": "C47",
   "status": "partial",
   "theorems": [
    "C47_absolute_keeps_double",
    "C47_absolute_keeps_float",
    "C47_multilevel_keeps_double",
    "C47_multilevel_keeps_float",
    "C47_no_creation_float_refuted",
    "C47_no_creation_double_refuted"
   ],
   "note": "first half proved for both codecs and both types; the converse is false: a 2x19 field in which rounding of the minors creates a zero strictly inside a triangle (absolute codec, double and float)"
  },
  {
   "property": "C48",
   "status": "partial",
   "theorems": [
    "C48_stream_determines_field_double",
    "C48_stream_determines_field_float",
    "C48_no_undefined_double",
    "C48_no_undefined_float",
    "C48_no_reader_refuted",
    "C48_zero_bounds_double_refuted",
    "C48_zero_bounds_float_refuted"
   ],
   "note": "Proved: quantising is total and some reader recovers every field from the bytes within the per-value bounds. Refuted: the library ships no such reader (sz_decompress_3d runs off the stream), and every call with more than a twentieth of the bounds equal to zero overflows the array of verbatim values."
  },
  {
   "property": "C49",
   "status": "partial",
   "theorems": [
    "C49_round_trip_partial",
    "C49_round_trip_small_overhead",
    "C49_unknown_compressor",
    "C49_small_block_refuted",
    "C49_error_reported_refuted",
    "C49_preview_refuted",
    "C49_program_2d_float",
    "C49_program_2d_double",
    "C49_program_3d_float",
    "C49_program_3d_double"
   ],
   "note": "Zstd is an oracle with the contract of zstd.h. Round trip proved for less than 100 or at least 320 bytes (any length if Zstd adds at most 20 bytes). Refuted: in between the contract does not guarantee success; failures are not reported; the preview of data longer than 65536 bytes need not contain any of it. The programs are proved for streams outside 100..319 bytes."
  },
  {
   "property": "C50",
   "status": "partial",
   "theorems": [
    "C50_report_double",
    "C50_report_float",
    "C50_program_2d_float",
    "C50_program_2d_double",
    "C50_nan_reported_refuted",
    "C50_relative_refuted",
    "C50_empty_refuted"
   ],
   "note": "Proved for finite data; false in part: NaN values after the first are not reported, values of magnitude at most 1 are left out of the relative error, and an empty array is read. Sums, PSNR, NRMSE and correlation: C59."
  },
  {
   "property": "C51",
   "status": "partial",
   "theorems": [
    "C51_counts_2d",
    "C51_false_2d",
    "C51_lists_2d",
    "C51_ids_2d",
    "C51_runs_2d",
    "C51_absolute_double",
    "C51_absolute_float",
    "C51_multilevel_double",
    "C51_multilevel_float",
    "C51_counts_3d",
    "C51_every_tetrahedron",
    "C51_ids_3d",
    "C51_false_3d_partial",
    "C51_runs_3d",
    "C51_no_false_negatives_3d_double",
    "C51_no_false_negatives_3d_float",
    "C51_exact_2d",
    "C51_exact_3d",
    "C51_clean_report_border_refuted",
    "C51_clean_report_zero_refuted",
    "C51_keys_3d_refuted"
   ],
   "note": "Counts, meaning of FN/FP/FT and the reports after the codecs are proved (3D: no lost point in machine arithmetic for every FTK; 2D: changes only at triangles without an exact critical point; exact arithmetic: empty reports). False as stated: a clean 2D report misses border cells and triangles with a zero vector, and in 3D different tetrahedra share a key on grids above 2^32/6 points, so C51_false_3d_partial asks for 6n <= 2^31. FTK functions are parameters; reading and writing of the .dat files and the re-use of saved results are not modelled."
  },
  {
   "property": "C52",
   "status": "proved",
   "theorems": [
    "C52_entries_2d",
    "C52_entries_3d",
    "C52_types_2d",
    "C52_types_3d",
    "C52_relative_report"
   ],
   "note": "Real arithmetic; the FTK functions are parameters with the stated specifications (oracles meeting them are constructed). In 2D the type of a singular Jacobian is not specified; in 3D a discriminant below the machine epsilon gives type 0."
  },
  {
   "property": "C53",
   "status": "proved",
   "theorems": [
    "C53_never_stops",
    "C53_quantised",
    "C53_negative_bound_refuted"
   ],
   "note": "Slack: 1+2^-24 for the rounded comparison, 1+2^-23 with quantised bounds (rounded logarithm). Streams of 100 to 319 bytes are excluded (C49: Zstd may fail there). A negative bound makes the program stop."
  },
  {
   "property": "C54",
   "status": "partial",
   "theorems": [
    "C54_quantised_bounds_partial",
    "C54_indices_ambiguous_refuted",
    "C54_index_buffer_refuted"
   ],
   "note": "False as stated. Proved: the new bounds. Refuted: index 0 stands for the bound 0 and for the base bound (for every libm), so two lists of different bounds have the same stream; 64 different powers of two need 959 bytes in a buffer of 256."
  },
  {
   "property": "C55",
   "status": "partial",
   "theorems": [
    "C55_relative_bound_partial",
    "C55_relative_test_stops_refuted"
   ],
   "note": "The exact bound is false: proved with factor 1+2^-38; refuted by a field for which the program stops at value 0 although the compressor respected its absolute bound."
  },
  {
   "property": "C56",
   "status": "partial",
   "theorems": [
    "C56_program_2d",
    "C56_program_3d",
    "C56_longer_2d",
    "C56_longer_3d",
    "C56_longer_file_refuted",
    "C56_short_file"
   ],
   "note": "Files of exactly the grid's size: proved for float. Not true for longer files: the report reads past the decompressed arrays. Between 100 and 319 bytes the lossless stage may fail (C49)."
  },
  {
   "property": "C57",
   "status": "partial",
   "theorems": [
    "C57_program",
    "C57_missing_mesh",
    "C57_missing_mesh_refuted"
   ],
   "note": "Bound, file and report proved; not true that a missing mesh file stops the program: it runs with no tetrahedra and writes its result."
  },
  {
   "property": "C58",
   "status": "proved",
   "theorems": [
    "C58_program",
    "C58_write_read",
    "C58_partial_value"
   ],
   "note": "The relative error is reported for values of magnitude above 1 only (C50)."
  },
  {
   "property": "C59",
   "status": "partial",
   "theorems": [
    "C59_statistics_float",
    "C59_statistics_double",
    "C59_within_bound",
    "C59_identical",
    "C59_self_correlation_float",
    "C59_self_correlation_double",
    "C59_correlation_range_float",
    "C59_correlation_range_double",
    "C59_log10_exists",
    "C59_constant_refuted",
    "C59_zero_refuted",
    "C59_overflow_refuted",
    "C59_correlation_refuted"
   ],
   "note": "Proved for errors and ranges of at least 2^-60 (float, data up to 2^60) or 2^-480 (double, data up to 2^400), in every array of up to 2^30 values; the correlation for arrays with two values that differ by at least 2^-60 (float) or 2^-400 (double): from -1 to 1 up to 2^-20, and 1 up to 2^-50 for an array with itself. Outside false: a constant field gives NRMSE, relative error and correlation that are not numbers; squares of float errors below 2^-75 vanish, so NRMSE is 0 for arrays that differ; squares of errors above 2^64 overflow, so NRMSE is infinite. A correlation of 1 does not mean equal arrays."
  }
 ]
}
