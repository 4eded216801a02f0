(** Property theorems about the test programs, from files to files: the 2D and 3D programs (C56), the program for unstructured meshes (C57), the program for
    point-wise relative compression and the file functions (C58). *)
From Coq Require Import Reals Lra Lia ZArith List Bool.
From Flocq Require Import Core.Core IEEE754.BinarySingleNaN IEEE754.Binary IEEE754.Bits.
From Verif Require Import Base Huffman HuffStream HuffProps Stream Arith Mesh2D Mesh3D Derive2D Derive3D Codec2D Stream2D Exact Cells2D Geo2D Preserve2D Cells3D Preserve3D
  IEEE IEEELaws IEEEQuant IEEE2D IEEEAbs2D Api2D LibmModel LogLibm Witness2D Examples2D Refute2D RelaxApi2D Sz3 Sz3Cells Sz3Api Sz3Refute KeepApi2D Abs3D Sync3D Api3D Refute3D
  Log2D LogErr2D LogApi2D Log3D LogErr3D LogApi3D LinQuant Block BlockIEEE BlockRefute OfflineWitness2D Plan Total3D IEEE3D Uns3D UnsSync UnsErr UnsApi UnsRefute
  Pwr2D PwrErr2D PwrApi2D PwrWitness2D Lossless LosslessApi Verify VerifyApi Programs ProgramsApi ProgramsWitness.
Import ListNotations.
Local Open Scope Z_scope.

(** The 2D program: on two files of r1 * r2 floats it writes two files of the same length; every value is as before or within the bound of its level, and in every
    cell with a critical point the files agree byte for byte; the reported maximal differences are within the bound. *)
Theorem C56_program_2d : forall (lm : Libm binary32 binary64), libm_ok (FA lm) (FA_ieee lm) -> forall z, zstd_ok compress_bound z -> forall heap, sizes heap -> forall ord ub wrap max_eb r1 r2 U V junk buf size,
  (size < 100)%nat \/ (320 <= size)%nat ->
  1 <= r1 -> 1 <= r2 -> Z.of_nat (length U) = r1 * r2 -> Z.of_nat (length V) = r1 * r2 -> Z.of_nat (length junk) <= 2 ^ 52 ->
  is_finite 53 1024 max_eb = true -> (B2R 53 1024 max_eb <= bpow radix2 56)%R -> (forall x, In x U \/ In x V -> finite_le 56 x) ->
  compress_sz3 (FA lm) wrap max_eb ord ub r1 r2 U V junk = Some (buf, size) -> sz3_short (FA lm) wrap max_eb ord r1 r2 U V ->
  exists n U' V' rU rV, main_2d (FA lm) z heap ord ub wrap max_eb r1 r2 (Some (tser_array (FA lm) U)) (Some (tser_array (FA lm) V)) junk =
      Some {| o_size := n; o_reports := [rU; rV]; o_files := [tser_array (FA lm) U'; tser_array (FA lm) V'] |} /\
    pipeline z heap (compress_sz3 (FA lm) wrap max_eb ord ub r1 r2 U V junk) (decompress_sz3 (FA lm) wrap r1 r2) = Some (U', V') /\
    verify (FA lm) U U' (length U) = Some rU /\ verify (FA lm) V V' (length V) = Some rV /\
    0 <= n <= room (Z.of_nat size) /\ length U' = length U /\ length V' = length V /\
    (forall i j, 0 <= i < r1 -> 0 <= j < r2 -> forall x x',
      (aget U (i * r2 + j) = Some x /\ aget U' (i * r2 + j) = Some x') \/ (aget V (i * r2 + j) = Some x /\ aget V' (i * r2 + j) = Some x') ->
      x' = x \/ (0 < B2R 53 1024 max_eb)%R /\ differs_le (level_bound (B2R 53 1024 max_eb) i j * (1 + bpow radix2 (-23))) x x') /\
    (forall a b d, cell r1 r2 a b d -> has_cp (vecF r2 U V a) (vecF r2 U V b) (vecF r2 U V d) ->
      forall x, In x [a; b; d] -> aget U' (lin r2 x) = aget U (lin r2 x) /\ aget V' (lin r2 x) = aget V (lin r2 x)) /\
    forall r, In r [rU; rV] -> is_finite 24 128 (r_diff r) = true /\ (B2R 24 128 (r_diff r) <= Rmax 0 (B2R 53 1024 max_eb) * (1 + bpow radix2 (-21)))%R.
Proof. exact main_2d_run. Qed.
Print Assumptions C56_program_2d.

Example C56_program_2d_nonvacuous : (exists buf, compress_sz3 (FA (lm32 true)) true two ord0 ub0 8 8 (map b32 q8) (map b32 s8) (repeat 0 512) = Some (buf, 452%nat)) /\
  libm_ok (FA (lm32 true)) (FA_ieee (lm32 true)) /\ zstd_ok compress_bound store0 /\ sizes heap0 /\ (320 <= 452)%nat /\
  Z.of_nat (length (map b32 q8)) = 8 * 8 /\ Z.of_nat (length (map b32 s8)) = 8 * 8 /\ Z.of_nat (length (repeat 0 512)) <= 2 ^ 52 /\
  is_finite 53 1024 two = true /\ (B2R 53 1024 two <= bpow radix2 56)%R /\ (forall x, In x (map b32 q8) \/ In x (map b32 s8) -> finite_le 56 x) /\
  sz3_short (FA (lm32 true)) true two ord0 8 8 (map b32 q8) (map b32 s8) /\
  cell 8 8 (6, 6) (7, 6) (7, 7) /\ has_cp (vecF 8 (map b32 q8) (map b32 s8) (6, 6)) (vecF 8 (map b32 q8) (map b32 s8) (7, 6)) (vecF 8 (map b32 q8) (map b32 s8) (7, 7)).
Proof. exact main_2d_example. Qed.

(** The 3D program. *)
Theorem C56_program_3d : forall (lm : Libm binary32 binary64), libm_ok (FA lm) (FA_ieee lm) -> forall z, zstd_ok compress_bound z -> forall heap, sizes heap -> forall ord ub ftk max_eb r1 r2 r3 (U V W : list binary32) junk buf size,
  (size < 100)%nat \/ (320 <= size)%nat ->
  0 < r1 -> 0 < r2 -> 0 < r3 -> sized r1 r2 r3 U -> sized r1 r2 r3 V -> sized r1 r2 r3 W -> Z.of_nat (length junk) <= 2 ^ 52 ->
  finite_le 38 max_eb -> (forall x, In x U \/ In x V \/ In x W -> finite_le 38 x) ->
  compress_abs3 (FA lm) ftk max_eb ord ub r1 r2 r3 U V W junk = Some (buf, size) ->
  short_codes3 (enc_abs3 (FA lm) ftk max_eb) ord r1 r2 r3 U V W ->
  exists n (U' V' W' : list binary32) rU rV rW, main_3d (FA lm) ftk z heap ord ub max_eb r1 r2 r3 (Some (tser_array (FA lm) U)) (Some (tser_array (FA lm) V)) (Some (tser_array (FA lm) W)) junk =
      Some {| o_size := n; o_reports := [rU; rV; rW]; o_files := [tser_array (FA lm) U'; tser_array (FA lm) V'; tser_array (FA lm) W'] |} /\
    pipeline z heap (compress_abs3 (FA lm) ftk max_eb ord ub r1 r2 r3 U V W junk) (decompress_abs3 (FA lm) r1 r2 r3) = Some (U', V', W') /\
    verify (FA lm) U U' (length U) = Some rU /\ verify (FA lm) V V' (length V) = Some rV /\ verify (FA lm) W W' (length W) = Some rW /\
    0 <= n <= room (Z.of_nat size) /\ length U' = length U /\ length V' = length V /\ length W' = length W /\
    (forall p u v w u' v' w', aget U p = Some u -> aget V p = Some v -> aget W p = Some w ->
      aget U' p = Some u' -> aget V' p = Some v' -> aget W' p = Some w' ->
      let b := (B2R 53 1024 max_eb * (1 + bpow radix2 (-40)))%R in
      (u' = u /\ v' = v /\ w' = w) \/ (differs_lt b u u' /\ differs_lt b v v' /\ differs_lt b w w')) /\
    (forall a b d e, tet r1 r2 r3 [a; b; d; e] -> check_cp3 (FA lm) ftk U V W r2 r3 a b d e = Some true ->
      forall x, In x [a; b; d; e] ->
      aget U' (lin3 r2 r3 x) = aget U (lin3 r2 r3 x) /\ aget V' (lin3 r2 r3 x) = aget V (lin3 r2 r3 x) /\
      aget W' (lin3 r2 r3 x) = aget W (lin3 r2 r3 x)) /\
    forall r, In r [rU; rV; rW] -> is_finite 24 128 (r_diff r) = true /\ (B2R 24 128 (r_diff r) <= Rmax 0 (B2R 53 1024 max_eb) * (1 + bpow radix2 (-23)))%R.
Proof. exact main_3d_run. Qed.
Print Assumptions C56_program_3d.

Example C56_program_3d_nonvacuous : (exists buf, compress_abs3 (FA (lm32 true)) ftk0 ex_eb ord0 ub0 2 2 8 (map b32 e3U) (map b32 e3V) (map b32 e3W) (repeat 0 384) = Some (buf, 349%nat)) /\
  libm_ok (FA (lm32 true)) (FA_ieee (lm32 true)) /\ zstd_ok compress_bound store0 /\ sizes heap0 /\ (320 <= 349)%nat /\
  sized 2 2 8 (map b32 e3U) /\ sized 2 2 8 (map b32 e3V) /\ sized 2 2 8 (map b32 e3W) /\ Z.of_nat (length (repeat 0 384)) <= 2 ^ 52 /\
  finite_le 38 ex_eb /\ (forall x, In x (map b32 e3U) \/ In x (map b32 e3V) \/ In x (map b32 e3W) -> finite_le 38 x) /\
  short_codes3 (enc_abs3 (FA (lm32 true)) ftk0 ex_eb) ord0 2 2 8 (map b32 e3U) (map b32 e3V) (map b32 e3W) /\
  tet 2 2 8 [(0, 0, 0); (1, 0, 0); (1, 1, 0); (1, 1, 1)] /\
  check_cp3 (FA (lm32 true)) ftk0 (map b32 e3U) (map b32 e3V) (map b32 e3W) 2 8 (0, 0, 0) (1, 0, 0) (1, 1, 0) (1, 1, 1) = Some true.
Proof. exact main_3d_example. Qed.

(** Not true: more values in a file than the grid has do no harm.  The report runs over the number of values in the last file, past the end of the
    decompressed arrays. *)
Theorem C56_longer_2d : forall (lm : Libm binary32 binary64), libm_ok (FA lm) (FA_ieee lm) -> forall z, zstd_ok compress_bound z -> forall heap, sizes heap -> forall ord ub wrap max_eb r1 r2 U V U1 V1 junk buf size,
  (size < 100)%nat \/ (320 <= size)%nat ->
  1 <= r1 -> 1 <= r2 -> Z.of_nat (length U) = r1 * r2 -> Z.of_nat (length V) = r1 * r2 -> Z.of_nat (length junk) <= 2 ^ 52 ->
  is_finite 53 1024 max_eb = true -> (B2R 53 1024 max_eb <= bpow radix2 56)%R -> (forall x, In x U \/ In x V -> finite_le 56 x) ->
  compress_sz3 (FA lm) wrap max_eb ord ub r1 r2 U V junk = Some (buf, size) -> sz3_short (FA lm) wrap max_eb ord r1 r2 U V -> V1 <> [] ->
  main_2d (FA lm) z heap ord ub wrap max_eb r1 r2 (Some (tser_array (FA lm) (U ++ U1))) (Some (tser_array (FA lm) (V ++ V1))) junk = None.
Proof. exact main_2d_longer. Qed.
Print Assumptions C56_longer_2d.
Theorem C56_longer_3d : forall (lm : Libm binary32 binary64), libm_ok (FA lm) (FA_ieee lm) -> forall z, zstd_ok compress_bound z -> forall heap, sizes heap -> forall ord ub ftk max_eb r1 r2 r3 (U V W U1 V1 W1 : list binary32) junk buf size,
  (size < 100)%nat \/ (320 <= size)%nat ->
  0 < r1 -> 0 < r2 -> 0 < r3 -> sized r1 r2 r3 U -> sized r1 r2 r3 V -> sized r1 r2 r3 W -> Z.of_nat (length junk) <= 2 ^ 52 ->
  finite_le 38 max_eb -> (forall x, In x U \/ In x V \/ In x W -> finite_le 38 x) ->
  compress_abs3 (FA lm) ftk max_eb ord ub r1 r2 r3 U V W junk = Some (buf, size) ->
  short_codes3 (enc_abs3 (FA lm) ftk max_eb) ord r1 r2 r3 U V W -> W1 <> [] ->
  main_3d (FA lm) ftk z heap ord ub max_eb r1 r2 r3 (Some (tser_array (FA lm) (U ++ U1))) (Some (tser_array (FA lm) (V ++ V1))) (Some (tser_array (FA lm) (W ++ W1))) junk = None.
Proof. exact main_3d_longer. Qed.
Print Assumptions C56_longer_3d.

Theorem C56_longer_file_refuted : exists (U V : list binary32) junk run, libm_ok (FA (lm32 true)) (FA_ieee (lm32 true)) /\ (forall x, In x U \/ In x V -> finite_le 56 x) /\
  main_2d (FA (lm32 true)) store0 heap0 ord0 ub0 true two 8 8 (Some (tser_array (FA (lm32 true)) U)) (Some (tser_array (FA (lm32 true)) V)) junk = Some run /\
  main_2d (FA (lm32 true)) store0 heap0 ord0 ub0 true two 8 8 (Some (tser_array (FA (lm32 true)) U)) (Some (tser_array (FA (lm32 true)) (V ++ [b32 (1, 0)]))) junk = None.
Proof. exact longer_file. Qed.
Print Assumptions C56_longer_file_refuted.

(** A file that is missing or too short is read past its end. *)
Theorem C56_short_file : forall A, ser_ok A -> forall z heap ord ub wrap max_eb r1 r2 fU fV junk,
  (forall f, fU = Some f -> Z.of_nat (length f) < r1 * r2 * Z.of_nat (tsize_of A)) \/ (forall f, fV = Some f -> Z.of_nat (length f) < r1 * r2 * Z.of_nat (tsize_of A)) ->
  main_2d A z heap ord ub wrap max_eb r1 r2 fU fV junk = None.
Proof. exact main_2d_short. Qed.
Print Assumptions C56_short_file.

Example C56_short_file_nonvacuous : ser_ok (FA (lm32 true)) /\
  forall f, Some (tser_array (FA (lm32 true)) (firstn 60 (map b32 q8))) = Some f -> Z.of_nat (length f) < 8 * 8 * Z.of_nat (tsize_of (FA (lm32 true))).
Proof. exact short_file_example. Qed.

(** The program for unstructured meshes: it writes a file of the same length; every value is as before or has the relative bound, up to 2^-13; the reported relative
    error is within the bound, up to 2^-12. *)
Theorem C57_program : forall (lm : Libm binary32 binary64), libm_ok (FA lm) (FA_ieee lm) -> forall z, zstd_ok compress_bound z -> forall heap, sizes heap -> forall ord ub, log_libm_ok (FA lm) (FA_ieee lm) -> forall max_eb n tets (points data : list binary32) junk buf size,
  (size < 100)%nat \/ (320 <= size)%nat ->
  Z.of_nat (length points) = 3 * n -> Z.of_nat (length data) = 3 * n -> Z.of_nat (length junk) <= 2 ^ 52 ->
  is_finite 53 1024 max_eb = true -> (0 <= B2R 53 1024 max_eb <= 5 / 2)%R -> (forall x, In x data -> nonzero_usual 38 x) ->
  compress_uns (FA lm) max_eb ord ub n tets data junk = Some (buf, size) -> uns_short (FA lm) max_eb ord n tets data ->
  exists k (data' : list binary32) r, main_uns (FA lm) z heap ord ub max_eb (Some (tser_array (FA lm) points)) (Some (tser_array (FA lm) data)) (Some (mesh_bytes tets)) junk =
      Some {| o_size := k; o_reports := [r]; o_files := [tser_array (FA lm) data'] |} /\
    pipeline z heap (compress_uns (FA lm) max_eb ord ub n tets data junk) (decompress_uns (FA lm) n) = Some data' /\ verify (FA lm) data data' (length data) = Some r /\
    0 <= k <= room (Z.of_nat size) /\ length data' = length data /\
    (forall p x x', aget data p = Some x -> aget data' p = Some x' -> x' = x \/ rel_differs_le (B2R 53 1024 max_eb + bpow radix2 (-13)) x x') /\
    is_finite 53 1024 (r_pw r) = true /\ (B2R 53 1024 (r_pw r) <= B2R 53 1024 max_eb + bpow radix2 (-12))%R.
Proof. exact main_uns_run. Qed.
Print Assumptions C57_program.

Example C57_program_nonvacuous : (exists buf, compress_uns (FA (lmlog32 false)) (dy 1 0) ord0 ub0 40 mesh2 (map b32 ut) (repeat 0 480) = Some (buf, 386%nat)) /\
  (exists buf, compress_uns (FA (lmlog32 false)) (dy 1 0) ord0 ub0 40 [] (map b32 ut) (repeat 0 480) = Some (buf, 338%nat)) /\
  libm_ok (FA (lmlog32 false)) (FA_ieee (lmlog32 false)) /\ log_libm_ok (FA (lmlog32 false)) (FA_ieee (lmlog32 false)) /\ zstd_ok compress_bound store0 /\ sizes heap0 /\
  Z.of_nat (length (map b32 ut)) = 3 * 40 /\ Z.of_nat (length (repeat 0 480)) <= 2 ^ 52 /\
  is_finite 53 1024 (dy 1 0) = true /\ (0 <= B2R 53 1024 (dy 1 0) <= 5 / 2)%R /\ (forall x, In x (map b32 ut) -> nonzero_usual 38 x) /\
  uns_short (FA (lmlog32 false)) (dy 1 0) ord0 40 mesh2 (map b32 ut) /\ uns_short (FA (lmlog32 false)) (dy 1 0) ord0 40 [] (map b32 ut).
Proof. exact main_uns_example. Qed.

(** Not true: a mesh file that cannot be opened stops the program.  It runs as with no tetrahedra at all, and writes its result. *)
Theorem C57_missing_mesh : forall A z heap ord ub max_eb fpoints fdata junk,
  main_uns A z heap ord ub max_eb fpoints fdata None junk = main_uns A z heap ord ub max_eb fpoints fdata (Some (mesh_bytes [])) junk.
Proof. exact main_uns_no_mesh. Qed.
Print Assumptions C57_missing_mesh.
Theorem C57_missing_mesh_refuted : exists (points data : list binary32) junk run,
  libm_ok (FA (lmlog32 false)) (FA_ieee (lmlog32 false)) /\ log_libm_ok (FA (lmlog32 false)) (FA_ieee (lmlog32 false)) /\
  (forall x, In x data -> nonzero_usual 38 x) /\
  main_uns (FA (lmlog32 false)) store0 heap0 ord0 ub0 (dy 1 0) (Some (tser_array (FA (lmlog32 false)) points)) (Some (tser_array (FA (lmlog32 false)) data)) None junk = Some run /\
  o_files run <> [] /\ o_reports run <> [].
Proof. exact missing_mesh. Qed.
Print Assumptions C57_missing_mesh_refuted.

(** The program for point-wise relative compression: it prints the value range of the file and reports a relative error within the precision, up to 2^-12. *)
Theorem C58_program : forall (lm : Libm binary32 binary64), libm_ok (FA lm) (FA_ieee lm) -> forall z, zstd_ok compress_bound z -> forall heap, sizes heap -> forall ord ub, log_libm_ok (FA lm) (FA_ieee lm) -> forall eb r1 r2 r3 pad (data : list binary32) jl junk buf size,
  (size < 100)%nat \/ (320 <= size)%nat ->
  length pad = 3%nat -> Z.of_nat (length jl) < 2 ^ 64 -> Z.of_nat (length junk) <= 2 ^ 52 ->
  1 <= r1 * r2 * r3 -> Z.of_nat (length data) = r1 * r2 * r3 ->
  (forall x, In x data -> zero_or_usual 100 x) -> (exists x, In x data /\ B2R 24 128 x <> 0%R) ->
  is_finite 53 1024 eb = true -> (bpow radix2 (-16) <= B2R 53 1024 eb <= 1)%R ->
  compress_pwr (FA lm) (FO lm) ord ub (r1 * r2) r3 12 true eb pad data jl junk = Some (buf, size) -> short_pwr (FA lm) (FO lm) ord (r1 * r2) r3 12 eb data ->
  exists k (v mx mn : binary32) r, main_test (FA lm) (FO lm) z heap ord ub eb r1 r2 r3 (Some (tser_array (FA lm) data)) pad jl junk =
      Some (v, {| o_size := k; o_reports := [r]; o_files := [] |}) /\
    (exists out (dec : list binary32), pipeline z heap (compress_pwr (FA lm) (FO lm) ord ub (r1 * r2) r3 12 true eb pad data jl junk) (decompress_pwr (FA lm) (FO lm) (r1 * r2) r3) = Some out /\
      written out = Some dec /\ verify (FA lm) data dec (length data) = Some r) /\
    0 <= k <= room (Z.of_nat size) /\
    In mx data /\ In mn data /\ (forall x, In x data -> (B2R 24 128 mn <= B2R 24 128 x <= B2R 24 128 mx)%R) /\ is_finite 24 128 v = true /\
    (Rabs (B2R 24 128 v - (B2R 24 128 mx - B2R 24 128 mn)) <= bpow radix2 (-24) * (B2R 24 128 mx - B2R 24 128 mn))%R /\
    is_finite 53 1024 (r_pw r) = true /\ (B2R 53 1024 (r_pw r) <= B2R 53 1024 eb + bpow radix2 (-12))%R.
Proof. exact main_test_run. Qed.
Print Assumptions C58_program.

Example C58_program_nonvacuous :
  (exists buf, compress_pwr (FA (lmlog32 false)) (FO (lmlog32 false)) ord0 ub0 (2 * 7) 12 12 true (dy 1 0) (repeat 0 3) (map b32 pw168) (repeat 0 806) (repeat 0 412) = Some (buf, 412%nat)) /\
  libm_ok (FA (lmlog32 false)) (FA_ieee (lmlog32 false)) /\ log_libm_ok (FA (lmlog32 false)) (FA_ieee (lmlog32 false)) /\ zstd_ok compress_bound store0 /\ sizes heap0 /\
  Z.of_nat (length (map b32 pw168)) = 2 * 7 * 12 /\
  (forall x, In x (map b32 pw168) -> zero_or_usual 100 x) /\ (exists x, In x (map b32 pw168) /\ B2R 24 128 x <> 0%R) /\
  is_finite 53 1024 (dy 1 0) = true /\ (bpow radix2 (-16) <= B2R 53 1024 (dy 1 0) <= 1)%R /\
  short_pwr (FA (lmlog32 false)) (FO (lmlog32 false)) ord0 (2 * 7) 12 12 (dy 1 0) (map b32 pw168).
Proof. exact main_test_example. Qed.

(** A file that was written is read back, with its number of values; a file of values followed by less than one value is read as the values. *)
Theorem C58_write_read : forall A, ser_ok A -> forall (l : list (T A)) n f num, 0 <= n -> writefile A l n = Some f ->
  readfile A (Some f) num = (Some (firstn (Z.to_nat n) l), n) /\ Z.of_nat (length f) = n * Z.of_nat (tsize_of A).
Proof. exact write_read. Qed.
Print Assumptions C58_write_read.
Theorem C58_partial_value : forall A, ser_ok A -> forall (l : list (T A)) tail num, (length tail < tsize_of A)%nat ->
  readfile A (Some (tser_array A l ++ tail)) num = (Some l, Z.of_nat (length l)).
Proof. exact read_as_ser. Qed.
Print Assumptions C58_partial_value.

Example C58_write_read_nonvacuous : ser_ok (FA (lm32 true)) /\ (exists f, writefile (FA (lm32 true)) (map b32 q8) 64 = Some f) /\ (length [1; 2; 3]%Z < tsize_of (FA (lm32 true)))%nat.
Proof. exact write_read_example. Qed.
