# Formal model of cpSZ — design

Everything is Rocq/Coq 8.16.1, in `rocq/theories`, logical root `Verif`. The C++ code is
only read, never run. The property theorems are in the files `Prop_*.v`, each closed by one lemma, with
`Print Assumptions` beneath and an `Example` showing that its hypotheses can be met.

## Trusted base

* the Coq kernel (checked again by `coqchk`);
* the axioms `Print Assumptions` prints under every property theorem. Theorems about the entropy coder, the
  bit packing, the tables, and the codecs over an arbitrary arithmetic are closed under the global context. Theorems
  about reals or IEEE numbers print a subset of the standard library's
  `ClassicalDedekindReals.sig_forall_dec`, `ClassicalDedekindReals.sig_not_dec`,
  `FunctionalExtensionality.functional_extensionality_dep`, `Classical_Prop.classic`. No axiom of our own, no other library's;
* the reading of the C++ text: each model definition cites file and lines.

Assumptions that are *hypotheses of the theorems*, not axioms:

* `ser_ok A` — memcpy of a value to bytes and back is the identity (proved for the IEEE instances);
* `libm_ok` — `log2` on positive doubles has absolute error at most 2^-40 and is exact on powers of two (see `IEEEQuant.v`),
  `pow(base, id)` of a representable power of two is exact. `log_libm_ok` — accuracy of `log2f`, `exp2` (see `LogErr2D.v`).
  Both records are inhabited (`LibmModel.v`, `LogLibm.v`);
* `short_codes` — the Huffman code words have at most 64 bits. Beyond 64 bits the encoder is wrong (C01_long_codes_refuted);
  65 distinct symbols are never too many;
* the external function `ftk` (3D critical-point test) is universally quantified;
* `ord`, `ub` — order in which `qinsert` compares equal keys and the value of shifts the C standard leaves undefined are
  universally quantified;
* `junk` — the uninitialised output block, universally quantified.

## Modelling conventions

* `unsigned char` buffers: `list Z`; every read or write outside the buffer, or read of memory not yet written by the
  decompressor, is a distinct `None` outcome, and so is a floating-point to `int` conversion out of range
  (`lm_x86 = false`; with `lm_x86 = true` the x86 result INT_MIN is used instead).
* Loops are structural recursion; `int`/`size_t` index arithmetic in `Z` with the no-overflow precondition stated
  where a length is written to the stream; 64-bit code words wrap explicitly.
* Floating point: codecs are written **once**, over a record `Arith` that contains only operations
  (type `T` of the data, type `D` = `double`, conversions, comparisons, libm oracles). No law is assumed.
  Three uses:
  1. encoder/decoder agreement is proved for *every* `Arith` (hence for x87, any libm, NaN, infinities, ...);
  2. IEEE instances `DA`/`FA` (Flocq `binary64`/`binary32`) for error bounds, absence of undefined behaviour and
     bit-exact counterexamples;
  3. the exact instance `XA` over the extended reals `Fin r | +inf | -inf | NaN` for the critical point geometry
     (`x/0` as in IEEE up to the sign of zero, comparison with NaN false).
* libm, `malloc`, `printf`, the ftk library are not modelled except as oracles.
* Zstd itself: an oracle (`zstd` record in `Lossless`) that keeps the contract `zstd_ok` of zstd.h: a frame fits its destination, decompresses to its source, and compression succeeds with ZSTD_compressBound bytes. A hypothesis of the C49 theorems, satisfied by `store0`.
* atoi, atof, clocks, the texts printed, visualisation tools: not modelled. Files are lists of bytes, or absent; opening a file for writing succeeds.

## Files

| files | what is modelled / proved |
|-------|---------------------------|
| `Base`, `Huffman`, `HuffQueue`, `HuffCode`, `HuffRound`, `HuffStream`, `HuffProps` | sz_huffman.cpp: array heap, tree, code table, bit-level encoder, table serialisation, decoder; tree and data wrapper of sz_compression_utils.cpp. `build_tree_loop` and `code_count_loop` follow the C loops over all frequency cells; the codec uses `build_tree` and `code_count`, which skip empty cells and are proved equal to them (`build_tree_is_loop`, `code_count_is_loop`) |
| `BitPack`, `Stream` | sign map packing; header fields and pieces of a stream |
| `Arith`, `Mesh2D`, `Derive2D`, `Codec2D` | 2D online / online_abs compressor and decompressor (sz_compress_cp_preserve_2d.cpp, sz_decompress_cp_preserve_2d.cpp) |
| `Sync2D`, `Stream2D`, `Trace2D` | decoder follows encoder, for every `Arith`; byte streams |
| `Exact`, `Cells2D`, `Geo2D`, `Preserve2D`, `Total2D` | exact arithmetic: neighbourhood table, critical points kept, totality |
| `IEEE`, `IEEELaws`, `IEEEQuant`, `IEEE2D`, `IEEEAbs2D`, `IEEERel2D`, `TotalAny`, `IEEETotal2D`, `LibmModel` | IEEE instances, error bounds, no undefined conversion |
| `Fit2D`, `Api2D`, `Witness2D`, `Examples2D`, `Refute2D` | buffer size, statements from field to bytes to field, concrete runs, refutations |
| `IEEEKeep2D`, `Sz3Keep`, `KeepApi2D`, `KeepRefute2D` | critical points under the absolute and multilevel codecs in IEEE arithmetic: kept; creation refuted |
| `Type2D` | types of critical points |
| `Offline2D`, `OfflineSound2D`, `OfflineField2D`, `OfflineRefute2D` | error bounds of the offline codecs; soundness in exact arithmetic |
| `OfflineCodec2D`, `OfflineApi2D`, `OfflineWitness2D` | bytes of the offline 2D codec: sizes, round trip, IEEE bounds, refutations |
| `OffLog2D`, `OffLogApi2D`, `OffLogWitness2D` | offline 2D codec in the log domain |
| `Off3D`, `OffSound3D`, `OffField3D`, `OffCells3D`, `Acbrt`, `OffIEEE3D`, `OffApi3D`, `OffWitness3D` | offline 3D codec: the bounds, their soundness, the repository's cube root `acbrt1` on binary32 |
| `Pwr2D`, `PwrErr2D`, `PwrApi2D`, `PwrWitness2D` | point-wise relative compression (sz_compress_pwr.cpp, sz_decompress_pwr.cpp), with one precision and with one bound per value |
| `Scan`, `Relax*2D` | relax_FN variant |
| `Log*2D`, `LogLibm` | online_log variant |
| `Bil*2D`, `BilExact` | bilinear codec (sz_compress_cp_preserve_2d_bilinear.cpp); the complex square root is an oracle |
| `Mesh3D`, `Derive3D`, `Abs3D` | 3D online_abs compressor and decompressor (sz_compress_cp_preserve_3d.cpp, sz_decompress_cp_preserve_3d.cpp) |
| `Sync3D`, `Cells3D`, `Geo3D`, `Geo3DRel`, `Preserve3D`, `Total3D`, `Lossless3D`, `IEEE3D`, `Api3D`, `Refute3D` | the same programme for 3D |
| `LinQuant`, `Block` | linear quantiser; sz_compress_2d, _2d_with_eb, _3d and their decompressors. Regression fitting, predictor selection, mean and interval estimation are arguments: the theorems of `Prop_Block` hold for whatever they answer |
| `Sample3D`, `Plan`, `PlanApi` | those decisions themselves: sampling, interval estimation, mean, regression fit, selection; sz_compress_2d and sz_compress_3d complete. `sqrt` of the grid size is the integer square root (exact below 2^52 values); counters do not wrap; conversions to size_t/ptrdiff_t are parameters, instantiated as x86 does them or undefined when out of range |
| `Lossless`, `LosslessApi` | src/sz_lossless.cpp; test/sz_compress_cp_preserve_2d_test.cpp:26-45 and the 3D one (`pipeline`) |
| `Verify`, `VerifyApi` | include/utils.hpp:51-106 verify(): range, largest absolute and relative error |
| `VerifyStats`, `VerifyStatsApi` | include/utils.hpp:51-106 verify(): the sums, the error relative to the range, NRMSE, PSNR, correlation. log10 is a parameter (`log10_ok`: absolute error at most 2^-40; `C59_log10_exists`). The loops are one fold per sum |
| `Programs`, `ProgramsApi`, `ProgramsWitness` | test/sz_compress_cp_preserve_{2d,3d,3d_unstructured}_test.cpp, test/sz_compress_test.cpp; include/utils.hpp:12-28, 44-49 (readfile, writefile): from the bytes of the input files to the bytes of the output files, the reports and the printed size |
| `EbTool`, `EbToolApi`, `EbToolEx` | test/sz_compress_2d_with_eb.cpp, test/sz_compress_test_with_eb.cpp: quantisation of the bounds, code of the indices, pipeline, check of every value, report; no files, no clock |
| `CpTool`, `CpToolProps`, `CpToolApi`, `CpToolCodec`, `CpToolSem`, `CpToolEx` | test/cp_extraction_2d.cpp, test/cp_extraction_3d.cpp: simplices, detection, the map, comparison and counts (FTK functions as parameters); no files |
| `Block3Eb`, `Block3EbRefute` | sz_compress_3d_with_eb; /repo has no decompressor for it, `read_3d_eb` is our own (only inside an existential of C48) |
| `BlockSync`, `BlockTile`, `BlockBytes`, `BlockIEEE`, `BlockApi`, `BlockTotal`, `BlockRefute` | agreement, tiling, bytes, IEEE bounds, totality, refutations |
| `Prop_*` | property theorems, each closed by one lemma |

## Per property

| id | how |
|----|-----|
| C01–C04 | tree invariant (leaf multiset = symbols with positive count); bit-level invariant of the encoder state machine; induction on the tree for the serialised tables |
| C05 | eight-element-wise induction |
| C06 | composition of pieces |
| C07, C29 | simulation invariant over the scan: decoder arrays = encoder working copy on processed points |
| C08, C09, C30 | monotonicity of rounding; the quantised bound is a power of two. The bounds hold with a factor 1+2^-40 from `log2`; the sharp bounds are refuted |
| C10, C11, C27 | `has_cp` := exists barycentric weights; determinant argument per update, induction over the scan |
| C12 | as C07/C08 in the log domain; tiny values refuted |
| C13 | invariant: each cell test equals the original's; sharper claims refuted |
| C14 | `Sz3.v` models encoder and decoder loop nests as visit lists (point, stride, interpolation kind); `Sz3Order.v` proves each point is visited once and reads only visited points; `Sz3Sync.v` proves the decoder rebuilds the working copy for every arithmetic |
| C15 | `Sz3Err.v` (IEEE error analysis of the linear quantiser after rounding), `Sz3Api.v` (bytes, API, totality with machine conversions), `Sz3Refute.v` (undefined conversion, symbol outside the alphabet). Partial: absence of undefined behaviour is false |
| C39 | `Sz3Cells.v`: invariant over the multilevel order that each triangle keeps its vectors or has no interior zero; exact arithmetic `XO` with either treatment of out-of-range conversions; boundary refuted in IEEE |
| C16, C24, C27, C32 | as 2D; C32 is false and refuted |
| C17 | `Log3D` (model), `LogSync3D` (decoder returns the encoder's logarithms as long as no predicted point gets the escape symbol), `LogErr3D` (IEEE: index below 24, relative error), `LogApi3D` (bytes), `LogTotal3D`; collision at bound 3 and tiny values refuted in `LogRefute3D` |
| C37 | `LogCells3D`: exact arithmetic, through the 3D relative bound (`Geo3DRel`); partial: vertices with a zero and a nonzero component are excluded |
| C18 | `Uns3D` (model), `UnsSync` (decoder follows the encoder through any mesh), `UnsErr` (IEEE), `UnsApi` (bytes), `UnsRefute` (zero components shift the signs of later values; bound 3 collides with the escape symbol); partial because the claim is false with zeros |
| C38 | `UnsCells`: exact arithmetic, through the 3D relative bound (`Geo3DRel`); every listed tetrahedron |
| C19 | size accounting: the writes need 8 bytes more than requested, always; otherwise composition of the block codec (with trailing bytes) and the entropy coder. The stated claim is refuted |
| C20 | exact arithmetic: a sum with roots compared, induction over the terms |
| C36 | the bound of a triangle keeps the signs of the minors (position) and of det, trace, disc (type), for simultaneous changes of its three vertices; invariant: each array entry is at most the bound of each triangle around it |
| C42 | composition of the entropy coder, the sign maps and the block codec with per-point bounds (any arithmetic); IEEE analysis as C12. The claim about bound 0 is refuted by a concrete run |
| C45 | `OffIEEE3D` (no NaN and no bound above the requested one for moderate data, through `acbrt1` and its sign), then the 3D log codec with bounds from an array (`LogErr3D`, `LogApi3D`); concrete refutation for large magnitudes |
| C47 | `IEEEKeep2D`: rounding is monotone, so no computed minor of a triangle with a zero has a wrong sign, the test recognises it and its bound is 0; induction over the scan (`Sz3Keep`: over the visiting order); `KeepRefute2D`: concrete runs from bytes to bytes in which rounding creates a zero |
| C46 | `OffSound3D`: the cube-root quotient keeps the sign of a sum of triple products when all factors change; `OffField3D`: each array entry is at most the bound of each tetrahedron around it; `OffCells3D`: the codec's output is such a change |
| C43, C44 | sign map and block codec of the logarithms (any arithmetic); IEEE analysis of the threshold that marks zeros. Zeros on the threshold, bounds near 0 and fields stored verbatim refuted by concrete runs |
| C21, C34 | simulation over blocks with the shared Lorenzo buffer; tiling lemma: every point is visited once. C21 is false for doubles with verbatim values (refuted) |
| C22 | real arithmetic of the bin; rounding bounds for the index |
| C51 | loops as folds into a key-value list, its keys distinct; the simplex behind a key is unique; detection depends on the vectors only, so unchanged vectors give unchanged entries; the 3D compressor's test is the program's own, hence no lost point; 2D through C47, exact arithmetic through C11 and C16 |
| C52 | the entry behind a key is the site's; the local coordinates are the vertices of the site relative to its cell, so interpolation weights give the grid position; 2D: eigenvalues from trace and discriminant; 3D: the program's matrix X^-1 U is similar to the Jacobian U X^-1 for each of the six tetrahedra, hence the same characteristic polynomial; relative codec: C17 (types) and nonzero vectors stay nonzero |
| C53 | the compressor accepted each value by the same comparison with the difference reversed; rounding is odd, so the check gives the same answer; verbatim values give 0 or NaN; pipeline by C49; quantised bounds by the logarithm's contract for any threshold |
| C54 | new bounds: as C53; refutations: index 0 by the logarithm's contract, overrun by computation |
| C55 | as C53 with bounds t·abs(x) (rounded product), base 2 or 4, index capped at 255; refutation by computation with a libm within the contract |
| C56 | `Programs` composes readfile, codec (C15, C16), lossless stage (C49), verify (C50), writefile; longer files: the report runs past the arrays, proved for every file |
| C57 | as C56 with the codec of C18; no mesh file = empty mesh, by computation of the model; example of a run |
| C58 | as C56 with C43; the range by induction over the file and the rounding error of one subtraction |
| C59 | every rounding of the sums bounded by induction over the array, (1 + 2^-53)^n <= 1 + 2^-22; PSNR through ln; constant fields and under- or overflowing squares refute the rest. Correlation: the rounded sums against the exact ones, Cauchy-Schwarz by induction over the arrays; some value is far from the mean, so the deviations do not vanish |
| C50 | induction over the loop with comparisons of finite values; a subtraction is off by half an ulp of its result (Flocq, Plus_error); the program through C49 |
| C49 | the size in double precision against ZSTD_COMPRESSBOUND (rounding monotone, integers below 2^53 exact), then the contract; the programs compose it with C15, C47 and C16, C27. The gap from 100 to 319 bytes, lost errors and the preview are refuted with a Zstd that stores |
| C48 | as C34, in 3D; the claim as stated is false: no decompressor exists, and zero bounds overflow the verbatim array (counting: the traversal is a permutation of the positions) |
| C35 | false: the verbatim array and the block overflow (refuted) |
| C23 | real analysis and IEEE rounding |
| C25 | size accounting; the unconditional claim is refuted |
| C26 | bit smearing by induction on the shift; the histogram scan by induction, capacity bounded through the rounding |
| C41 | fuel recursion with a decreasing rank on the sampling position; the hang of the 1 x 1 x 2 grid by induction on the fuel |
| C28 | Jacobian of the interpolant as a relation; the bound of a vertex keeps the signs of det, and of trace and disc if det > 0 (in the node case trace cannot vanish without disc changing sign); transitivity over the scan |
| C31 | `Bil2D` (model of the bound derivation, cell test, order of the scan), `BilSync2D` (the working copy passes the test on every cell, any arithmetic), `BilErr2D` (IEEE: decompressed value = working copy), `BilExact` (the test lists exactly the zeros of a solvable cell, with the types by det/trace/disc of the Jacobian), `BilTotal2D`, `BilApi2D` (bytes), `BilRefute2D` (tiny values; affine cells; block too small) |
| C40 | the same files; decoder is the log decoder of C12 |

Findings (violations proved as `*_refuted` theorems): rounding of the minors lets the absolute codec create a critical point (none is ever lost); NaN neighbours drop the bound; the bound can be exceeded by rounding of
`log2`; undefined conversion on infinite input (relative codec); the output block overflows for fields that are stored verbatim;
relax_FN desynchronises for bounds between 2^-52 and 2^-50; the log codecs decode tiny values to 0; a 3D field without a
predictable point makes the entropy coder dereference a null tree root; sz_decompress_3d loses its place on doubles with verbatim values;
the offline 2D codec reports and allocates 8 bytes less than it writes and loses values whose bound is tiny; the offline bounds do not protect the type of critical points on cell edges; sz_compress_3d overflows its verbatim array and, on grids of at most eight values, its output block; the offline log codec creates a critical point at vertices of bound 0 and overruns a block on 2 x 2 grids; point-wise relative compression can return a non-zero number for a zero, loses values of bound 0 and overruns its verbatim array on a field of zeros; in the offline 3D codec a cell bound that overflows to NaN erases the bounds of its vertices, so at bound 0 values change; sz_compress_3d_with_eb has no decompressor (sz_decompress_3d rejects or misreads its blocks) and, at bounds of 0, writes past its array of verbatim values; sz_lossless_compress gives Zstd less than ZSTD_compressBound for 100 to 319 bytes, and failures of Zstd are never reported; verify() hides NaN values and the relative error of values up to 1.

### Reading seeded/LOG.jsonl

`theorems_failed` lists every lemma whose proof script broke, usually a helper before the property theorem. A failing script alone does not show that the property statement excludes the mutant: equivalent mutants fail too where the script depends on the text of the definition (for example `sum_sq` without the absolute value). The mutants of `Programs.v` that led to tightened C56-C58 statements were judged by reading the statements; they were not run again after the tightening.
