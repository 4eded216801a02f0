{"id": "C01", "title": "Entropy coding is lossless", "statement": "Entropy-encoding any non-empty sequence of symbols and decoding the produced bytes with the tree that was used returns exactly the original sequence, provided no code word is longer than 64 bits; this includes the degenerate one-symbol alphabet, whose code table entry is produced by an undefined 64-bit shift that never reaches the output. At most 65 distinct symbols guarantee the proviso.", "quantifier": "every symbol alphabet size, every non-empty symbol sequence over it, every order in which the compiler evaluates the two queue removals, every value the undefined shift may produce", "why_tests_cant": "the bit-packing state machine depends on the alignment left by all previous symbols and on tree shapes; tests sample a few frequency profiles", "anchors": ["src/sz_huffman.cpp: init, build_code, encode, decode, qinsert, qremove"]}
{"id": "C02", "title": "The entropy coder's tree survives serialisation", "statement": "A Huffman tree written into the stream and read back decodes every bit sequence exactly as the original tree did, for each of the three index widths (1, 2 or 4 bytes) chosen from the node count.", "quantifier": "every full binary tree, every node count in each width class, every symbol labelling that fits in 32 bits", "why_tests_cant": "width boundaries at 256 and 65536 nodes are hard to hit and zero is used both as 'no child' and as a valid index", "anchors": ["src/sz_huffman.cpp: convert_HuffTree_to_bytes_anyStates, reconstruct_HuffTree_from_bytes_anyStates, pad_tree_*, unpad_tree_*"]}
{"id": "C03", "title": "Code words form a complete prefix code", "statement": "Every symbol that occurs in the data gets a code word, no code word is a prefix of another symbol's, and every infinite bit string starts with some code word, although the priority queue used to build the tree does not maintain the heap order.", "quantifier": "every non-empty symbol sequence", "why_tests_cant": "relies on the multiset of queue entries being preserved by faulty sift operations for all frequency profiles", "anchors": ["src/sz_huffman.cpp: init, qinsert, qremove, new_node, build_code"]}
{"id": "C04", "title": "The entropy coder's size accounting is exact", "statement": "The size reported for the encoded symbols equals the total number of code bits rounded up to whole bytes, the bytes actually stored never reach further than eight bytes past that size, and bytes outside that window are left unchanged; hence consecutive streams can be concatenated by advancing by the reported sizes.", "quantifier": "every symbol sequence with code words of at most 64 bits, every previous buffer content", "why_tests_cant": "an over-run is invisible unless the following bytes are inspected for each alignment", "anchors": ["src/sz_huffman.cpp: encode", "src/sz_compression_utils.cpp: Huffman_encode_tree_and_data"]}
{"id": "C05", "title": "One-bit sign maps round-trip", "statement": "Packing a sequence of 0/1 flags into bytes and unpacking it with the same length returns the same flags, and both directions consume exactly ceil(n/8) bytes, leaving the rest of the buffer untouched.", "quantifier": "every flag sequence of length n >= 1", "why_tests_cant": "boundary n mod 8 interacts with the special handling of the last byte", "anchors": ["src/sz_compression_utils.cpp: convertIntArray2ByteArray_fast_1b_to_result_sz", "src/sz_decompression_utils.cpp: convertByteArray2IntArray_fast_1b_sz"]}
{"id": "C06", "title": "Self-describing symbol streams round-trip", "statement": "A symbol array encoded together with its tree is recovered from the byte stream alone, and the reader stops exactly where the writer stopped, so that any data following it is read correctly.", "quantifier": "every non-empty symbol array over any declared state count, any trailing bytes", "why_tests_cant": "needs the composition of header, tree, size field and code bytes for all inputs", "anchors": ["src/sz_compression_utils.cpp: Huffman_encode_tree_and_data", "src/sz_decompression_utils.cpp: Huffman_decode_tree_and_data", "src/sz_huffman.cpp: encode_withTree, decode_withTree"]}
{"id": "C07", "title": "2D online codecs: the decompressor reproduces the compressor's state", "statement": "For sz_compress_cp_preserve_2d_online and sz_compress_cp_preserve_2d_online_abs, decompressing the produced bytes (stream inside the allocated block, no entropy code word longer than 64 bits) yields exactly (bit for bit) the field the compressor's internal working copy holds at the end, i.e. both sides predict from identical values.", "quantifier": "every grid size, every input field (including NaN and infinities), every bound, every floating-point arithmetic", "why_tests_cant": "one mismatch in the order of floating-point operations or in the handling of an unpredictable point desynchronises everything after it; depends on the whole history of previously coded points", "anchors": ["src/sz_compress_cp_preserve_2d.cpp: sz_compress_cp_preserve_2d_online", "src/sz_decompress_cp_preserve_2d.cpp: sz_decompress_cp_preserve_2d_online"]}
{"id": "C08", "title": "2D absolute-error codec respects the requested bound", "statement": "After compression with sz_compress_cp_preserve_2d_online_abs and decompression, each point is either reproduced exactly or each of its components differs from the original by strictly less than max_eb*(1+2^-40), in IEEE arithmetic with a log2 accurate to 2^-40. The factor cannot be dropped (log2 may round up to the next grid index) and finiteness of the data cannot be dropped (a NaN neighbour disables the bound).", "quantifier": "every grid size, every finite double field up to 2^500 / float field up to 2^56, every bound up to the same magnitude", "why_tests_cant": "floating-point rounding in prediction and reconstruction could exceed the bound on rare inputs", "anchors": ["src/sz_compress_cp_preserve_2d.cpp: sz_compress_cp_preserve_2d_online_abs", "include/sz_cp_preserve_utils.hpp: eb_exponential_quantize", "src/sz_decompress_cp_preserve_2d.cpp"]}
{"id": "C09", "title": "2D relative-error codec respects the requested pointwise relative bound", "statement": "After sz_compress_cp_preserve_2d_online and decompression each point is either reproduced exactly or each component x is reconstructed to x' with |x'-x| < max_pwr_eb*|x|*(1+2^-39), in IEEE arithmetic; hence zeros stay zero and, for bounds below 1, signs are kept. Finiteness of the data cannot be dropped.", "quantifier": "every grid size, every finite field (double: magnitudes 0 or in [2^-500,2^500]; float: up to 2^56), every bound at most 1", "why_tests_cant": "as C08, and the bound is data dependent", "anchors": ["src/sz_compress_cp_preserve_2d.cpp: sz_compress_cp_preserve_2d_online"]}
{"id": "C10", "title": "2D relative-error codec preserves critical points", "statement": "For every triangle of the mesh, the piecewise linear interpolant of the decompressed field has a zero in that triangle exactly when the original field has one (exact arithmetic).", "quantifier": "every grid size, every real-valued field, every bound in (0,1], every cell", "why_tests_cant": "cells are touched up to three times by perturbations of different vertices; only an invariant over the whole scan order settles it", "anchors": ["src/sz_compress_cp_preserve_2d.cpp: derive_cp_eb_for_positions_online, sz_compress_cp_preserve_2d_online"]}
{"id": "C11", "title": "2D absolute-error codec preserves critical points", "statement": "As C10 for sz_compress_cp_preserve_2d_online_abs.", "quantifier": "every grid size, every real-valued field, every absolute bound, every cell", "why_tests_cant": "as C10", "anchors": ["src/sz_compress_cp_preserve_2d.cpp: derive_cp_eb_for_positions_online_abs, sz_compress_cp_preserve_2d_online_abs"]}
{"id": "C12", "title": "2D log-domain codec: encoder and decoder agree, signs and zeros are kept", "statement": "For sz_compress_cp_preserve_2d_online_log and its decompressor, on fields without NaN: every point is reproduced bit for bit, or both its components are non-zero and each equals the compressor's working copy, except that a component whose reconstructed logarithm is below -99 comes back as +0. Zeros are reproduced exactly. If the magnitudes are 0 or at least 2^-97 (and not huge) the relative error is at most max_pwr_eb + 2^-13 and signs are kept. In exact arithmetic a mesh cell has a critical point after decompression exactly when it had one before. The encoder returns for every input on the machine. Without the lower limit on magnitudes, non-zero values can come back as zeros (refuted).", "quantifier": "every grid size, every field, every bound, every behaviour of log2/exp2", "why_tests_cant": "the decoder recomputes logarithms of verbatim points while the encoder transformed the whole field in advance", "anchors": ["src/sz_compress_cp_preserve_2d.cpp: sz_compress_cp_preserve_2d_online_log", "include/sz_cp_preserve_utils.hpp: log_transform", "src/sz_decompress_cp_preserve_2d.cpp: sz_decompress_cp_preserve_2d_online_log"]}
{"id": "C13", "title": "relax_FN codec keeps the set of critical cells", "statement": "sz_compress_cp_preserve_2d_online_abs_relax_FN: in exact arithmetic the decompressed field has an isolated critical point (invertible interpolant with a zero in the cell) in a cell iff the original has, such cells are reproduced exactly, and every value is within the bound. In any arithmetic each cell is unchanged, or the compressor's test was false before and is false afterwards for some order of the cell's vertices (in double arithmetic the order matters: the answer of the full test can change). For bounds of at least 2^-47 decompression returns the working copy and the bound holds up to rounding; below 4*2^-52 decompression fails.", "quantifier": "every grid size, field, bound, cell; float and double", "why_tests_cant": "last writer of each cell must have verified it; order dependent", "anchors": ["src/sz_compress_cp_preserve_2d.cpp: sz_compress_cp_preserve_2d_online_abs_relax_FN, check_cp, compute_cp"]}
{"id": "C14", "title": "Multilevel (sz3) traversal visits every point exactly once and predicts only from finished points", "statement": "In the 2D sz3 codec every grid point is processed exactly once, compressor and decompressor visit points in the same order, and each prediction only reads points already processed, hence the decompressed field equals the compressor's final working copy.", "quantifier": "every grid size r1,r2 >= 1", "why_tests_cant": "level/stride/remainder arithmetic has many boundary cases", "anchors": ["src/sz_compress_cp_preserve_2d.cpp: sz3_compress_cp_preserve_2d_online_abs", "src/sz_decompress_cp_preserve_2d.cpp: sz3_decompress_cp_preserve_2d_online", "include/sz3_utils.hpp"]}
{"id": "C15", "title": "sz3 codec error bound", "statement": "Compressing a finite field with the 2D multilevel (sz3) codec and decompressing the result gives back each component either bit for bit or within the requested bound (half of it on points whose two coordinates are multiples of 4), up to rounding.", "quantifier": "every grid size, field, bound", "why_tests_cant": "as C08; acceptance test is non-strict", "anchors": ["src/sz_compress_cp_preserve_2d.cpp: sz3_compress_cp_preserve_2d_online_abs", "src/sz_decompress_cp_preserve_2d.cpp: sz3_decompress_cp_preserve_2d_online", "include/sz3_utils.hpp: quantize_and_overwrite"]}
{"id": "C16", "title": "3D absolute-error codec: agreement, bound, critical points", "statement": "For sz_compress_cp_preserve_3d_online_abs: decompression reproduces the compressor's working copy; every value is exact or strictly within the requested bound; and in exact arithmetic the linear interpolant on every tetrahedron has a zero iff the original has.", "quantifier": "every grid size, field, bound, tetrahedron; every outcome of the external inside test on degenerate cells", "why_tests_cant": "24 tetrahedra around each point, history dependent", "anchors": ["src/sz_compress_cp_preserve_3d.cpp: sz_compress_cp_preserve_3d_online_abs", "src/sz_decompress_cp_preserve_3d.cpp: sz_decompress_cp_preserve_3d_online_abs"]}
{"id": "C17", "title": "3D log-domain codec: the stream can be read back, relative error and zeros", "statement": "For sz_compress_cp_preserve_3d_online_log and its decompressor, with a bound up to 2.5 and a field of zeros and values of usual magnitude (at least 2^-97): the decompressor returns a field in which every point is reproduced bit for bit, or every zero component comes back as +0 and every other component comes back with the same sign and relative error at most the bound + 2^-13. The encoder returns for every input on the machine and performs no undefined conversion on such fields. At bound 3 the symbol of a predicted point collides with the symbol of a verbatim point and the stream of a constant field cannot be read back (refuted); nonzero values below 2^-99 can come back as zeros (refuted).", "quantifier": "every grid size, every field of usual magnitudes, every bound up to 2.5, every library meeting the accuracy hypotheses", "why_tests_cant": "an escape symbol inside the array of bound indices can collide with a legal index; logarithms are recomputed by the decoder", "anchors": ["src/sz_compress_cp_preserve_3d.cpp: sz_compress_cp_preserve_3d_online_log", "src/sz_decompress_cp_preserve_3d.cpp: sz_decompress_cp_preserve_3d_online_log"]}
{"id": "C18", "title": "Unstructured 3D codec round trip", "statement": "For sz_compress_cp_preserve_3d_unstructured the decompressor returns the field held by the compressor's working copy.", "quantifier": "every vertex/cell list, every field", "why_tests_cant": "sign map cursor depends on history", "anchors": ["src/sz_compress_cp_preserve_3d.cpp: sz_compress_cp_preserve_3d_unstructured", "src/sz_decompress_cp_preserve_3d.cpp: sz_decompress_cp_preserve_3d_unstructured"]}
{"id": "C19", "title": "Offline 2D codec: reported size and stream contents", "statement": "The size reported by sz_compress_cp_preserve_2d_offline covers every byte the decompressor reads, and decompression reproduces the compressor's predictions.", "quantifier": "every grid size and field", "why_tests_cant": "an 8-byte discrepancy at the tail only matters when the buffer is copied by its reported size", "anchors": ["src/sz_compress_cp_preserve_2d.cpp: sz_compress_cp_preserve_2d_offline", "src/sz_decompress_cp_preserve_2d.cpp: sz_decompress_cp_preserve_2d_offline"]}
{"id": "C20", "title": "Derived error bounds keep determinant signs", "statement": "The function that computes the maximal relative perturbation under which a sum of products keeps its sign returns a bound such that every strictly smaller independent relative perturbation of the terms keeps the sign.", "quantifier": "all real coefficients, all perturbations", "why_tests_cant": "continuum of perturbations", "anchors": ["include/sz_cp_preserve_utils.hpp: max_eb_to_keep_sign", "src/sz_compress_cp_preserve_2d.cpp: max_eb_to_keep_sign_2d_online", "src/sz_compress_cp_preserve_3d.cpp: max_eb_to_keep_sign_3d_online"]}
{"id": "C21", "title": "Block-based 3D compressor error bound and round trip", "statement": "sz_compress_3d / sz_decompress_3d: every value is reproduced within the precision or stored verbatim, and the decoder follows the encoder.", "quantifier": "every block size, grid size, field, precision", "why_tests_cant": "mix of regression and Lorenzo blocks with shared state", "anchors": ["src/sz_compress_3d.cpp", "src/sz_decompress_3d.cpp", "include/sz_3d_utils.hpp"]}
{"id": "C22", "title": "Linear quantiser: no false sentinel, error within the bin", "statement": "Whenever the linear quantiser predicts, its index lies strictly between 0 and the capacity (0 is reserved for 'stored verbatim'), and in exact arithmetic the reconstruction differs from the input by at most the bin half width.", "quantifier": "all values, predictions, bounds, radii", "why_tests_cant": "index boundary at capacity-1", "anchors": ["include/sz_compression_utils.hpp: quantize", "include/sz_decompression_utils.hpp: recover", "src/sz_compress_cp_preserve_2d.cpp", "include/sz3_utils.hpp"]}
{"id": "C23", "title": "Rounding an error bound to the exponential grid never enlarges it", "statement": "The quantised bound is at most the requested one, is at least 1/base of it, or is 0 when the request is at most the threshold; the decoder reconstructs the same value from the index.", "quantifier": "all positive bounds, bases, thresholds", "why_tests_cant": "logarithm near integer boundaries", "anchors": ["include/sz_cp_preserve_utils.hpp: eb_exponential_quantize"]}
{"id": "C24", "title": "The hard-wired neighbourhood tables describe exactly the cells around a vertex", "statement": "For every interior or boundary vertex the table of six triangles (24 tetrahedra in 3D) restricted by the in-range test lists exactly the mesh cells that contain the vertex, each once, with the correct other vertices.", "quantifier": "every grid size, every vertex, every cell", "why_tests_cant": "boundary handling at all sides and both orientations", "anchors": ["src/sz_compress_cp_preserve_2d.cpp: offsets, index_offset, cell_offset, compute_cp", "src/sz_compress_cp_preserve_3d.cpp: coordinates, compute_offset"]}
{"id": "C25", "title": "Output buffer capacity", "statement": "The bytes written by a 2D online compressor fit in the buffer it allocates. (False: a field with a zero component everywhere never fits; what holds is that the stream is written without touching other memory whenever the sum of the sizes of its parts plus 8 fits.)", "quantifier": "every grid size and field", "why_tests_cant": "only incompressible fields overflow", "anchors": ["src/sz_compress_cp_preserve_2d.cpp: malloc(2*num_elements*sizeof(T))"]}
{"id": "C26", "title": "Interval estimation and power-of-two rounding", "statement": "round_up_power_of_2 returns the least power of two not below its argument for all arguments representable; quantisation interval estimation returns a power of two within its limits.", "quantifier": "all 32-bit arguments", "why_tests_cant": "2^32 arguments times data", "anchors": ["src/sz_compression_utils.cpp: round_up_power_of_2", "include/sz_compression_utils.hpp: estimate_quantization_intervals"]}
{"id": "C27", "title": "Vertices of critical cells are lossless in the absolute codecs", "statement": "In 2D/3D absolute codecs every vertex of a cell containing a critical point is reproduced exactly, so the critical point's position is unchanged.", "quantifier": "every grid, every field", "why_tests_cant": "order dependence", "anchors": ["src/sz_compress_cp_preserve_2d.cpp: sz_compress_cp_preserve_2d_online_abs"]}
{"id": "C28", "title": "2D relative codec keeps the type of each critical point", "statement": "For cells with a critical point the classification (saddle, attracting/repelling node/focus, centre) by the Jacobian's determinant, trace and discriminant is unchanged (exact arithmetic).", "quantifier": "every grid, field, cell", "why_tests_cant": "continuum of perturbations, three successive vertex updates", "anchors": ["src/sz_compress_cp_preserve_2d.cpp: max_eb_to_keep_type_online, derive_cp_eb_for_positions_online"]}
{"id": "C29", "title": "A zero bound means lossless", "statement": "With bound 0 (or negative) the 2D online codecs' streams, in a block that is large enough, decode to the input bit for bit; the block the code allocates is never large enough in that case, and a NaN neighbour makes the statement false.", "quantifier": "every grid, every finite field of moderate magnitude", "why_tests_cant": "all inputs", "anchors": ["src/sz_compress_cp_preserve_2d.cpp"]}
{"id": "C30", "title": "Non-finite values survive", "statement": "NaN and infinite values (and their payload bits) in the input of the 2D online and abs codecs are reproduced bit for bit at the same positions.", "quantifier": "every grid, every field, every IEEE bit pattern", "why_tests_cant": "NaN comparisons silently fall through branches", "anchors": ["src/sz_compress_cp_preserve_2d.cpp"]}
{"id": "C31", "title": "Bilinear codec keeps each cell's critical points", "statement": "After sz_compress_cp_preserve_2d_bilinear_online_log and sz_decompress_cp_preserve_2d_online_log, for components that are zero or of magnitude between 2^-97 and 2^100, the library's own bilinear cell test returns on every cell of the decompressed field exactly the list of critical point types it returns on the original. In exact arithmetic the bilinear interpolant of every regular cell (of a field decompressed into solvable cells) has as many zeros as before, of the same types in the same order.", "quantifier": "every grid, every field in range, every bound in [0,1], every complex square root", "why_tests_cant": "continuum of fields; cells are re-tested while their corners are being changed one after the other; the decoder recomputes values through exp2 of a logarithm", "anchors": ["src/sz_compress_cp_preserve_2d_bilinear.cpp", "src/sz_decompress_cp_preserve_2d.cpp: sz_decompress_cp_preserve_2d_online_log"]}
{"id": "C32", "title": "3D codecs on fields with no predictable point", "statement": "Compressing a field in which every point must be stored verbatim (e.g. an all-zero field) terminates with a valid stream.", "quantifier": "every such field and grid", "why_tests_cant": "corner case: empty symbol array", "anchors": ["src/sz_compress_cp_preserve_3d.cpp", "src/sz_huffman.cpp: init"]}
{"id": "C33", "title": "No undefined float-to-integer conversion in the 2D online codecs", "statement": "On finite fields of moderate magnitude the 2D online compressors perform no out-of-range double-to-int conversion and no out-of-bounds access to the field: they always return a code. If out-of-range conversions give INT_MIN (x86), they return on every input whatever (NaN, infinities, any bound). With an infinite component the relative codec does perform an undefined conversion.", "quantifier": "every grid, every finite field up to 2^500 (double) / 2^56 (float), every finite bound; on x86 every bit pattern", "why_tests_cant": "undefined behaviour is invisible on the test machine and depends on magnitudes", "anchors": ["src/sz_compress_cp_preserve_2d.cpp", "include/sz_compression_utils.hpp: 52-82"]}
{"id": "C34", "title": "Block-based 2D compressors: error bound and round trip", "statement": "sz_compress_2d / sz_decompress_2d and sz_compress_2d_with_eb / sz_decompress_2d_with_eb: the decompressor accepts every stream the compressor returns and each value is exact or within the precision (its own bound in the with_eb variant), up to one rounding of the check; a value with bound 0 is exact.", "quantifier": "every grid, block size, field, precision, per-value bounds, regression coefficients and predictor selection", "why_tests_cant": "interplay of regression and Lorenzo blocks over every grid and block size", "anchors": ["src/sz_compress_2d.cpp", "src/sz_decompress_2d.cpp", "include/sz_compression_utils.hpp", "include/sz_decompression_utils.hpp"]}
{"id": "C35", "title": "sz_compress_3d stays inside its buffers", "statement": "sz_compress_3d never writes outside the buffers it allocates: the verbatim array (a twentieth of the values) and the output block (1.2 times the input).", "quantifier": "every grid and field", "why_tests_cant": "depends on how many values the predictor misses and on grids smaller than the header", "anchors": ["src/sz_compress_3d.cpp: 20-30", "src/sz_compress_3d.cpp: 60-110"]}
{"id": "C36", "title": "Offline bounds keep critical points and their types", "statement": "The per-point error bounds that the offline 2D compressors compute from a field never exceed the requested bound, and any field whose values differ from the original by less than their relative bound has critical points in exactly the same cells; a critical point strictly inside a cell keeps its type.", "quantifier": "every field, grid size and requested bound; every perturbation below the bounds", "why_tests_cant": "continuum of simultaneous perturbations of all vertices; boundary cases on cell edges", "anchors": ["src/sz_compress_cp_preserve_2d.cpp: sz_compress_cp_preserve_2d_offline, sz_compress_cp_preserve_2d_offline_log, max_eb_to_keep_position_and_type"]}
{"id": "C37", "title": "3D log-domain codec keeps critical tetrahedra", "statement": "In exact arithmetic, for sz_compress_cp_preserve_3d_online_log with a bound below 3 on fields of zeros and values of magnitude at least 2^-97, the linear interpolant of a mesh tetrahedron has a zero after decompression exactly when it had one before; the encoder always returns.", "quantifier": "every grid size, field, bound below 3, and mesh tetrahedron", "why_tests_cant": "continuum of fields and bounds; each point is coded against neighbours that have already been changed", "anchors": ["src/sz_compress_cp_preserve_3d.cpp: sz_compress_cp_preserve_3d_online_log", "src/sz_decompress_cp_preserve_3d.cpp: sz_decompress_cp_preserve_3d_online_log"]}
{"id": "C38", "title": "Unstructured codec keeps critical tetrahedra", "statement": "In exact arithmetic, for sz_compress_cp_preserve_3d_unstructured with a bound below 3 on a field without zero components and with magnitudes at least 2^-97, the linear interpolant of every tetrahedron of the given mesh with four different vertices has a zero after decompression exactly when it had one before; the encoder always returns.", "quantifier": "every point count, every list of tetrahedra over those points, every field, every bound below 3", "why_tests_cant": "all meshes, including ones with arbitrarily many tetrahedra around a point; continuum of fields; points are coded against neighbours that have already been changed", "anchors": ["src/sz_compress_cp_preserve_3d.cpp: sz_compress_cp_preserve_3d_unstructured", "src/sz_decompress_cp_preserve_3d.cpp: sz_decompress_cp_preserve_3d_unstructured"]}
{"id": "C39", "title": "sz3 codec keeps critical triangles", "statement": "In exact arithmetic, after compression and decompression with the 2D multilevel (sz3) codec every triangle whose linear interpolant had a zero has exactly its original vectors, and no triangle without a zero gets one strictly inside a non-degenerate image.", "quantifier": "every grid size r1,r2 >= 1, every real field, every bound", "why_tests_cant": "continuum of fields; points are coded in multilevel order against neighbours that have already been changed; the acceptance test is non-strict so boundary cases matter", "anchors": ["src/sz_compress_cp_preserve_2d.cpp: sz3_compress_cp_preserve_2d_online_abs", "src/sz_decompress_cp_preserve_2d.cpp: sz3_decompress_cp_preserve_2d_online", "include/sz3_utils.hpp"]}
{"id": "C40", "title": "Bilinear codec: round trip and relative bound", "statement": "For every mathematical library and every NaN-free field accepted by sz_compress_cp_preserve_2d_bilinear_online_log, decompression returns exactly the compressor's working copy up to values whose reconstructed logarithm is below -99; with an accurate library each decompressed component differs from the original by at most (max_pwr_eb + 2^-13) relatively. Where out-of-range float-to-int conversions return INT_MIN (x86) the coding loop completes on every field.", "quantifier": "every grid, field, bound in [0,1]; every libm for the round trip", "why_tests_cant": "all fields; the stream depends on every earlier point through the prediction", "anchors": ["src/sz_compress_cp_preserve_2d_bilinear.cpp", "src/sz_decompress_cp_preserve_2d.cpp: sz_decompress_cp_preserve_2d_online_log"]}
{"id": "C41", "title": "sz_compress_3d's sampling ends and stays inside the field", "statement": "Before it compresses, sz_compress_3d samples the field to choose the number of intervals and a mean. For every grid of at least nine values this sampling terminates, reads only inside the field and leads to a complete encoding with no undefined step up to the output block; on every grid it reads only inside. On a 1 x 1 x 2 grid it does not terminate.", "quantifier": "every grid, block size, field and precision of at least 2^-60", "why_tests_cant": "termination and absence of stray reads for all grid shapes; the stride pattern depends on all three extents", "anchors": ["include/sz_optimize_quant_intervals.hpp: 38-142", "src/sz_compress_3d.cpp", "include/sz_regression_utils.hpp"]}
{"id": "C42", "title": "Offline codec in the log domain: round trip and error bound", "statement": "sz_compress_cp_preserve_2d_offline_log followed by sz_decompress_cp_preserve_2d_offline_log on the reported number of bytes gives every value back: zeros as zeros, every other value with its sign and within the relative bound computed for its vertex (up to 2^-13). Vertices whose bound is 0 come back unchanged and no critical point is created or destroyed.", "quantifier": "every grid, double or float field with values 0 or of magnitude 2^-97 to 2^100, requested bound", "why_tests_cant": "all fields; the failure needs a triangle within 2^-52 of a zero and a bound of exactly 0", "anchors": ["src/sz_compress_cp_preserve_2d.cpp: sz_compress_cp_preserve_2d_offline_log", "src/sz_decompress_cp_preserve_2d.cpp: sz_decompress_cp_preserve_2d_offline_log", "include/sz_cp_preserve_utils.hpp: log_transform"]}
{"id": "C43", "title": "Point-wise relative compression: round trip, sign and relative error", "statement": "sz_compress_2d_pwr with a relative precision p followed by the matching decompression of the reported number of bytes gives every non-zero value back with its sign and within p (up to 2^-13) relative to its magnitude, and every zero as zero; every field can be compressed.", "quantifier": "every grid, float field with values 0 or of magnitude 2^-97 to 2^100, precision 2^-16 to 1", "why_tests_cant": "all fields and precisions; the failing zero sits exactly on the threshold the decompressor compares with", "anchors": ["src/sz_compress_pwr.cpp: 1-60", "src/sz_decompress_pwr.cpp: 1-25"]}
{"id": "C44", "title": "Point-wise relative compression with one bound per value", "statement": "With one relative bound per value, compression followed by decompression (given the array of bounds the compressor leaves behind) gives every zero back as zero and every other value with its sign and within its own bound (up to 2^-13).", "quantifier": "every grid, float field with values 0 or of magnitude 2^-97 to 2^100, bounds in [0,1]", "why_tests_cant": "all fields and bound arrays; the failure needs a bound near 0 at the smallest magnitude of the field", "anchors": ["src/sz_compress_pwr.cpp: 62-126", "src/sz_decompress_pwr.cpp: 26-50"]}
{"id": "C45", "title": "Offline 3D codec: round trip, bound per vertex, no undefined behaviour", "statement": "sz_compress_cp_preserve_3d_offline_log followed by sz_decompress_cp_preserve_3d_online_log gives every vertex back within a bound of its own that is at most the requested one (up to 2^-13): sign kept, zeros as +0; a vertex whose own bound is not positive comes back bit for bit. The compressor performs no undefined conversion.", "quantifier": "every grid, every field with components 0 or of magnitude 2^-97 to 2^38 (double or float), requested bound in [0,5/2]", "why_tests_cant": "all fields and grids; the failure outside the range needs a sum of products beyond the single-precision range next to a small cell bound", "anchors": ["src/sz_compress_cp_preserve_3d.cpp: 258-574", "include/sz_cp_preserve_utils.hpp: 105-124", "src/sz_decompress_cp_preserve_3d.cpp: 8-112"]}
{"id": "C46", "title": "Offline 3D codec keeps critical points of every tetrahedron", "statement": "In exact arithmetic the bounds the offline 3D compressor computes before compression are sound: any field whose values differ from the original by less than the bound of their vertex has a critical point in exactly the tetrahedra in which the original has one; the compressor runs to the end and what the decompressor delivers is such a field.", "quantifier": "every grid, every real field (codec: components 0 or of magnitude at least 2^-97), every requested bound >= 0 (codec: below 3), all twelve components of a tetrahedron changing at once", "why_tests_cant": "quantifies over all simultaneous perturbations of the vertices shared by many tetrahedra", "anchors": ["src/sz_compress_cp_preserve_3d.cpp: 258-413", "include/sz_cp_preserve_utils.hpp: 105-124"]}
{"id": "C47", "title": "Critical points in the machine's arithmetic: none is lost, rounding may create one", "statement": "Computed in IEEE arithmetic as the code does, sz_compress_cp_preserve_2d_online_abs and sz3_compress_cp_preserve_2d_online_abs, followed by their decompressors, return bit for bit the vectors at the vertices of every triangle whose (exact) linear interpolant has a zero. Conversely, a triangle without a zero has none after decompression.", "quantifier": "every grid, every field of finite values of magnitude up to 2^500 (double) or 2^56 (float), every bound up to the same limits, any libm within the stated accuracy", "why_tests_cant": "a wrong sign of a rounded determinant occurs only for nearly parallel vectors; random fields essentially never produce one", "anchors": ["src/sz_compress_cp_preserve_2d.cpp: 724-770, 991-1243, 1540-1811", "src/sz_decompress_cp_preserve_2d.cpp"]}
{"id": "C48", "title": "3D compression with one bound per value: stream and memory", "statement": "sz_compress_3d_with_eb writes only inside the memory it allocates, and the stream it returns, together with the dimensions and the bounds, determines the field: each value exactly or within its own bound (a value with bound 0 exactly); the library can decompress the stream.", "quantifier": "every grid, block size, field of float or double and every array of finite non-negative bounds, in particular any number of zero bounds", "why_tests_cant": "no test calls the function and no decompressor for it exists; the overflow depends on the fraction of zero bounds", "anchors": ["src/sz_compress_3d.cpp: 446-574", "include/sz_compress_block_processing.hpp: 240-280", "src/sz_decompress_3d.cpp: 261-297"]}
{"id": "C49", "title": "Lossless stage and the structured test programs, end to end", "statement": "A byte string compressed with sz_lossless_compress comes back unchanged from sz_lossless_decompress with its original length, is_lossless_compressed_data recognises the stream, sz_lossless_decompress65536bytes yields at least its first 32768 bytes, and a failure of Zstd is reported to the caller. Hence the 2D and 3D test programs (codec, Zstd, and back) recover fields within the error bound, with every triangle that has a critical point (2D), or every tetrahedron marked by the compressor's test (3D), bit for bit.", "quantifier": "every byte string up to 2^52 bytes, every implementation of Zstd that keeps the contract of zstd.h, every content of fresh memory; every field, grid and bound of the codecs' own theorems", "why_tests_cant": "the block given to Zstd is smaller than ZSTD_compressBound only for some lengths, which the installed Zstd happens to tolerate; failures of Zstd are invisible in the return value", "anchors": ["src/sz_lossless.cpp: 3-63", "test/sz_compress_cp_preserve_2d_test.cpp: 26-45", "test/sz_compress_cp_preserve_3d_test.cpp: 28-44"]}
{"id": "C50", "title": "The error report of the test programs", "statement": "verify(original, decompressed, n) prints as maximum absolute error a number that bounds the error of every value and is attained by one (up to one rounding), as maximum point-wise relative error a number that bounds the relative error of every value, the exact range of the original data, and it makes corrupted (NaN) values visible; after the 2D program the reported maximum is within the requested bound.", "quantifier": "all arrays of finite floats or doubles of moderate size and any length; all runs of the 2D program", "why_tests_cant": "the tests rely on this report as their own oracle", "anchors": ["include/utils.hpp: 49-106", "test/sz_compress_cp_preserve_2d_test.cpp: 26-49"]}
{"id": "C51", "title": "The report of the critical point extraction programs", "statement": "cp_extraction_2d and cp_extraction_3d compare the critical points of the original and the decompressed field: the printed counts add up; FN counts exactly the simplices detected in the original only, FP those detected in the decompressed field only, FT those detected in both with different types; after the cp-preserving compressors the report shows no lost critical point; and a report without FN, FP, FT means that no simplex with a critical point changed.", "quantifier": "every pair of fields of float or double, every grid within the index range, every behaviour of the FTK functions; all runs of the compressors", "why_tests_cant": "the programs are the oracle by which the compressors are judged; omissions of the oracle are invisible in its own report", "anchors": ["test/cp_extraction_2d.cpp: 16-293", "test/cp_extraction_3d.cpp: 23-382", "src/sz_cp_preserve_utils.cpp", "src/sz_compress_cp_preserve_3d.cpp"]}
{"id": "C52", "title": "Positions and types in the lists of critical points", "statement": "every entry in the lists of cp_extraction_2d and cp_extraction_3d gives, for the simplex it names, the point at which the linearly interpolated field is zero, in grid coordinates, and the type (saddle, attracting or repelling node or focus, centre; in 3D the number of eigenvalues with negative real part and whether two are complex) of the Jacobian of that interpolation; TP and FT are the entries of the decompressed field whose simplex has an entry of the same, of a different type in the original; after the relative 2D compressor no point is lost or added, and a type differs only where the Jacobian is singular.", "quantifier": "every field and grid (3D: at most 2^31 keys), exact arithmetic and FTK functions that are exact on exact data; TP and FT: any arithmetic, any FTK functions", "why_tests_cant": "vertex order, coordinate order and index offsets of eight simplex kinds must agree for every field; a test compares a few fields by eye", "anchors": ["test/cp_extraction_2d.cpp: 33-147, 256-281", "test/cp_extraction_3d.cpp: 30-209, 333-359", "src/sz_compress_cp_preserve_2d.cpp"]}
{"id": "C53", "title": "Program with one bound per value never reports a violation", "statement": "A run of the test program sz_compress_2d_with_eb on any float data (also infinities and NaN) and bounds that are not negative gets through its own check of every value and prints its report; with the bounds as given or quantised, every decompressed value equals the input or is within its bound; a value whose bound does not exceed the base bound is exact when the bounds are quantised.", "quantifier": "every field, grid, bound, base bound, Zstd and libm within their contracts", "why_tests_cant": "the check compares in the other direction than the compressor and after a lossless stage; that no rounding, overflow, NaN or verbatim value ever trips it is a statement about all fields", "anchors": ["test/sz_compress_2d_with_eb.cpp: 11-83", "src/sz_compress_3d.cpp (sz_compress_2d_with_eb)", "include/sz_cp_preserve_utils.hpp: 14-22"]}
{"id": "C54", "title": "Stored indices of quantised bounds", "statement": "The index stream whose size the program sz_compress_2d_with_eb adds to the compressed size fits in the memory allocated for it and determines the bounds the decompressor needs; each new bound is zero or between the base bound and the bound given.", "quantifier": "every list of bounds, every base bound, libm within its contract", "why_tests_cant": "two different bounds share an index only in one interval; the buffer overflows only for few values or many different bounds", "anchors": ["test/sz_compress_2d_with_eb.cpp: 11-28", "include/sz_cp_preserve_utils.hpp: 14-22"]}
{"id": "C55", "title": "Program with one relative bound per value", "statement": "The test program sz_compress_test_with_eb delivers every value within its relative bound and never stops at its own check; values whose product of bound and magnitude is below 2^-24 are exact.", "quantifier": "every double field, bounds and log base 2 or 4, Zstd and libm within their contracts", "why_tests_cant": "the bound is multiplied, divided, passed through a logarithm and a power; a violation needs a product just below a power of the base", "anchors": ["test/sz_compress_test_with_eb.cpp: 11-117"]}
{"id": "C56", "title": "The 2D and 3D programs, from files to files", "statement": "The test programs for structured grids, run on float files of exactly the grid's size, finish without undefined behaviour and write files of the same size: every value is unchanged or within the bound, cells with a critical point (3D: tetrahedra the compressor's own test marks) are unchanged byte for byte, and the maximal differences they print are within the bound. Files with more values than the grid do no harm.", "quantifier": "every grid, every float file in range, every bound, Zstd and libm within their contracts, compressed size below 100 or at least 320 bytes", "why_tests_cant": "reading, coding, lossless stage, verification and writing are chained over files of any length; the number of values checked and written is taken from the last file read, not from the grid", "anchors": ["test/sz_compress_cp_preserve_2d_test.cpp: 7-58", "test/sz_compress_cp_preserve_3d_test.cpp: 7-65", "include/utils.hpp: 12-49"]}
{"id": "C57", "title": "The program for unstructured meshes, from files to file", "statement": "The test program for unstructured meshes, run on a file of tetrahedra, a file of points and a file of float vectors of the same number, finishes without undefined behaviour and writes a file of the same size in which every value is unchanged or within the relative bound (up to 2^-13); the relative error it prints is within the bound (up to 2^-12). If the mesh cannot be opened it does not produce a result.", "quantifier": "every mesh with vertex numbers in range, every non-zero float field in range, bounds up to 5/2, Zstd and libm within their contracts, compressed size below 100 or at least 320 bytes", "why_tests_cant": "a missing file leaves the count of the previous file in place; the bound holds for the logarithms, not for the values", "anchors": ["test/sz_compress_cp_preserve_3d_unstructured_test.cpp: 8-57", "include/utils.hpp: 12-49"]}
{"id": "C58", "title": "The program for point-wise relative compression; reading and writing files", "statement": "The test program sz_compress_test finishes without undefined behaviour on a float file of r1*r2*r3 values, prints a value range that is the difference of the largest and the smallest value up to one rounding, and reports a relative error within the precision (up to 2^-12). A file written by writefile is read back by readfile with its number of values; an incomplete value at the end of a file is ignored.", "quantifier": "every float file in range with a non-zero value, every precision from 2^-16 to 1, every libm and Zstd within their contracts", "why_tests_cant": "the maximum is taken over all values and all fields; the reported error depends on logarithm, quantisation and exponential", "anchors": ["test/sz_compress_test.cpp: 9-48", "include/utils.hpp: 12-49"]}
{"id": "C59", "title": "What the statistics of the error report mean", "statement": "For finite data, verify() prints finite statistics: NRMSE times the printed range is at most the largest absolute error and at least this error over the square root of the number of values; the relative error is the largest absolute error over the range; PSNR is at least 20 log10(range/largest error) and exceeds it by at most 10 log10 of the number of values (all up to rounding). NRMSE is 0 exactly if the arrays are equal, the correlation of two arrays lies between -1 and 1, and is 1 (up to rounding) for an array compared with itself.", "quantifier": "all pairs of finite arrays of up to 2^30 values, float and double; every log10 with absolute error at most 2^-40", "why_tests_cant": "the rounding errors of a sum grow with the number of values; squares are formed in the type of the data and can underflow or overflow; a zero range divides", "anchors": ["include/utils.hpp: 51-106"]}
