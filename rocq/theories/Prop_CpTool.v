(** Property theorems C51: the programs that extract and compare critical points (test/cp_extraction_2d.cpp, test/cp_extraction_3d.cpp).  [tool2], [tool3]: one
    run on the original and the decompressed field; the parameters [inv2], [lerp2], [eig2] ([inv3], [lerp3], [roots3]) are the functions of the FTK library
    (inverse interpolation, interpolation, Jacobian with eigenvalues), here any functions.  [r_origin], [r_decompressed], [r_tp], [r_fp], [r_fn], [r_ft]: the
    lists whose lengths are printed.  [detects2], [detects3]: no vector of the simplex is zero and the inverse interpolation succeeds. *)
From Coq Require Import Reals Lra Lia ZArith List Bool.
From Flocq Require Import Core.Core IEEE754.BinarySingleNaN IEEE754.Binary IEEE754.Bits.
From Verif Require Import Base Huffman HuffStream HuffProps Stream Arith Mesh2D Derive2D Codec2D Stream2D Exact Cells2D Geo2D Preserve2D
  IEEE IEEELaws IEEEQuant IEEE2D IEEEAbs2D Api2D LibmModel Witness2D Examples2D Mesh3D Derive3D Abs3D Cells3D Geo3D Preserve3D Total3D Api3D Refute3D
  Sz3 Sz3Cells Sz3Api Refute2D Sz3Refute KeepApi2D KeepRefute2D CpTool CpToolApi CpToolCodec.
Import ListNotations.
Local Open Scope Z_scope.

(** The printed counts add up. *)
Theorem C51_counts_2d : forall A inv2 lerp2 eig2 U V U' V' r1 r2 r, tool2 A inv2 lerp2 eig2 U V U' V' r1 r2 = Some r ->
  length (r_origin r) = (length (r_tp r) + length (r_ft r) + length (r_fn r))%nat /\
  length (r_decompressed r) = (length (r_tp r) + length (r_ft r) + length (r_fp r))%nat.
Proof. exact tool2_counts. Qed.
Print Assumptions C51_counts_2d.

(** What the counts mean: FN are the examined triangles detected in the original only, FP those detected in the decompressed field only. *)
Theorem C51_false_2d : forall A inv2 lerp2 eig2 U V U' V' r1 r2 r, tool2 A inv2 lerp2 eig2 U V U' V' r1 r2 = Some r ->
  (forall id, (exists e, In e (r_fn r) /\ e_id e = id) <->
     exists a b d, examined2 r1 r2 a b d id /\ detects2 A inv2 U V r2 a b d /\ ~ detects2 A inv2 U' V' r2 a b d) /\
  (forall id, (exists e, In e (r_fp r) /\ e_id e = id) <->
     exists a b d, examined2 r1 r2 a b d id /\ ~ detects2 A inv2 U V r2 a b d /\ detects2 A inv2 U' V' r2 a b d) /\
  (forall e, In e (r_ft r) -> exists a b d, examined2 r1 r2 a b d (e_id e) /\ detects2 A inv2 U V r2 a b d /\ detects2 A inv2 U' V' r2 a b d).
Proof. exact tool2_false. Qed.
Print Assumptions C51_false_2d.

(** The two lists are the detected triangles among the examined ones. *)
Theorem C51_lists_2d : forall A inv2 lerp2 eig2 U V U' V' r1 r2 r id, tool2 A inv2 lerp2 eig2 U V U' V' r1 r2 = Some r ->
  ((exists e, In e (r_origin r) /\ e_id e = id) <-> exists a b d, examined2 r1 r2 a b d id /\ detects2 A inv2 U V r2 a b d) /\
  ((exists e, In e (r_decompressed r) /\ e_id e = id) <-> exists a b d, examined2 r1 r2 a b d id /\ detects2 A inv2 U' V' r2 a b d).
Proof. exact tool2_lists. Qed.
Print Assumptions C51_lists_2d.

(** The number in an entry names one triangle. *)
Theorem C51_ids_2d : forall r1 r2 a b d a' b' d' id, examined2 r1 r2 a b d id -> examined2 r1 r2 a' b' d' id -> (a, b, d) = (a', b', d').
Proof. exact examined2_unique. Qed.
Print Assumptions C51_ids_2d.

(** The program runs to the end. *)
Theorem C51_runs_2d : forall A inv2 lerp2 eig2 U V U' V' r1 r2, r1 * r2 <= 2 ^ 30 ->
  Z.of_nat (length U) = r1 * r2 -> Z.of_nat (length V) = r1 * r2 -> Z.of_nat (length U') = r1 * r2 -> Z.of_nat (length V') = r1 * r2 ->
  exists r, tool2 A inv2 lerp2 eig2 U V U' V' r1 r2 = Some r.
Proof. exact tool2_total. Qed.
Print Assumptions C51_runs_2d.

Example C51_false_2d_nonvacuous : let run U U' := option_map (fun r => (length (r_origin r), length (r_decompressed r), length (r_tp r), length (r_fn r), length (r_fp r)))
    (tool2 (DA (lm64 true)) (fun _ => Some (one64, one64, one64)) (fun _ _ => (one64, one64)) (fun _ _ => (one64, one64, one64)) U U U' U' 4 4) in
  run (repeat one64 16) (repeat nil64 16) = Some (2, 0, 0, 2, 0)%nat /\ run (repeat nil64 16) (repeat one64 16) = Some (0, 2, 0, 0, 2)%nat /\
  run (repeat one64 16) (repeat one64 16) = Some (2, 2, 2, 0, 0)%nat.
Proof. exact run_false2. Qed.

(** After the absolute codec: a reported change concerns only triangles without a critical point. *)
Theorem C51_absolute_double : forall lm, libm_ok (DA lm) (DA_ieee lm) -> forall max_eb ord ub r1 r2 U V junk buf size,
  0 <= r1 -> 0 < r2 -> Z.of_nat (length U) = r1 * r2 -> Z.of_nat (length V) = r1 * r2 -> Z.of_nat (length junk) < 2 ^ 64 ->
  finite_le 500 max_eb -> (forall x, In x U \/ In x V -> finite_le 500 x) ->
  compress_online_abs (DA lm) max_eb ord ub r1 r2 U V junk = Some (buf, size) ->
  short_codes (enc_online_abs (DA lm) max_eb) ord r1 r2 U V ->
  exists U' V', decompress_online (DA lm) r1 r2 (firstn size buf) = Some (U', V') /\
    forall inv2 lerp2 eig2 r, tool2 (DA lm) inv2 lerp2 eig2 U V U' V' r1 r2 = Some r ->
    forall e, In e (r_fn r) \/ In e (r_fp r) \/ In e (r_ft r) -> exists a b d, examined2 r1 r2 a b d (e_id e) /\
      ~ has_cp (vecF r2 U V a) (vecF r2 U V b) (vecF r2 U V d).
Proof. exact tool2_abs_double. Qed.
Print Assumptions C51_absolute_double.

(** The same for floats. *)
Theorem C51_absolute_float : forall lm, libm_ok (FA lm) (FA_ieee lm) -> forall max_eb ord ub r1 r2 U V junk buf size,
  0 <= r1 -> 0 < r2 -> Z.of_nat (length U) = r1 * r2 -> Z.of_nat (length V) = r1 * r2 -> Z.of_nat (length junk) < 2 ^ 64 ->
  finite_le 56 max_eb -> (forall x, In x U \/ In x V -> finite_le 56 x) ->
  compress_online_abs (FA lm) max_eb ord ub r1 r2 U V junk = Some (buf, size) ->
  short_codes (enc_online_abs (FA lm) max_eb) ord r1 r2 U V ->
  exists U' V', decompress_online (FA lm) r1 r2 (firstn size buf) = Some (U', V') /\
    forall inv2 lerp2 eig2 r, tool2 (FA lm) inv2 lerp2 eig2 U V U' V' r1 r2 = Some r ->
    forall e, In e (r_fn r) \/ In e (r_fp r) \/ In e (r_ft r) -> exists a b d, examined2 r1 r2 a b d (e_id e) /\
      ~ has_cp (vecF r2 U V a) (vecF r2 U V b) (vecF r2 U V d).
Proof. exact tool2_abs_float. Qed.
Print Assumptions C51_absolute_float.

Example C51_absolute_nonvacuous : exists buf size U' V' r, compress_online_abs (DA (lm64 true)) two ord0 ub0 4 6 U4 V4 (repeat 0 384) = Some (buf, size) /\
  short_codes (enc_online_abs (DA (lm64 true)) two) ord0 4 6 U4 V4 /\ libm_ok (DA (lm64 true)) (DA_ieee (lm64 true)) /\
  finite_le 500 two /\ (forall x, In x U4 \/ In x V4 -> finite_le 500 x) /\ Z.of_nat (length U4) = 4 * 6 /\ Z.of_nat (length V4) = 4 * 6 /\
  decompress_online (DA (lm64 true)) 4 6 (firstn size buf) = Some (U', V') /\
  tool2 (DA (lm64 true)) (fun _ => None) (fun _ _ => (one64, one64)) (fun _ _ => (one64, one64, one64)) U4 V4 U' V' 4 6 = Some r.
Proof. exact run_abs2. Qed.

(** After the multilevel codec. *)
Theorem C51_multilevel_double : forall lm, libm_ok (DA lm) (DA_ieee lm) -> forall wrap max_eb ord ub r1 r2 U V junk buf size,
  1 <= r1 -> 1 <= r2 -> Z.of_nat (length U) = r1 * r2 -> Z.of_nat (length V) = r1 * r2 -> Z.of_nat (length junk) < 2 ^ 64 ->
  is_finite 53 1024 max_eb = true -> (B2R 53 1024 max_eb <= bpow radix2 500)%R -> (forall x, In x U \/ In x V -> finite_le 500 x) ->
  compress_sz3 (DA lm) wrap max_eb ord ub r1 r2 U V junk = Some (buf, size) -> sz3_short (DA lm) wrap max_eb ord r1 r2 U V ->
  exists U' V', decompress_sz3 (DA lm) wrap r1 r2 (firstn size buf) = Some (U', V') /\
    forall inv2 lerp2 eig2 r, tool2 (DA lm) inv2 lerp2 eig2 U V U' V' r1 r2 = Some r ->
    forall e, In e (r_fn r) \/ In e (r_fp r) \/ In e (r_ft r) -> exists a b d, examined2 r1 r2 a b d (e_id e) /\
      ~ has_cp (vecF r2 U V a) (vecF r2 U V b) (vecF r2 U V d).
Proof. exact tool2_sz3_double. Qed.
Print Assumptions C51_multilevel_double.

(** The same for floats. *)
Theorem C51_multilevel_float : forall lm, libm_ok (FA lm) (FA_ieee lm) -> forall wrap max_eb ord ub r1 r2 U V junk buf size,
  1 <= r1 -> 1 <= r2 -> Z.of_nat (length U) = r1 * r2 -> Z.of_nat (length V) = r1 * r2 -> Z.of_nat (length junk) < 2 ^ 64 ->
  is_finite 53 1024 max_eb = true -> (B2R 53 1024 max_eb <= bpow radix2 56)%R -> (forall x, In x U \/ In x V -> finite_le 56 x) ->
  compress_sz3 (FA lm) wrap max_eb ord ub r1 r2 U V junk = Some (buf, size) -> sz3_short (FA lm) wrap max_eb ord r1 r2 U V ->
  exists U' V', decompress_sz3 (FA lm) wrap r1 r2 (firstn size buf) = Some (U', V') /\
    forall inv2 lerp2 eig2 r, tool2 (FA lm) inv2 lerp2 eig2 U V U' V' r1 r2 = Some r ->
    forall e, In e (r_fn r) \/ In e (r_fp r) \/ In e (r_ft r) -> exists a b d, examined2 r1 r2 a b d (e_id e) /\
      ~ has_cp (vecF r2 U V a) (vecF r2 U V b) (vecF r2 U V d).
Proof. exact tool2_sz3_float. Qed.
Print Assumptions C51_multilevel_float.

Example C51_multilevel_nonvacuous : exists buf U' V' r,
  compress_sz3 (DA (lm64 true)) true two ord0 ub0 6 6 U6 V6 (repeat 0 576) = Some (buf, 380%nat) /\ sz3_short (DA (lm64 true)) true two ord0 6 6 U6 V6 /\
  (forall x, In x U6 \/ In x V6 -> finite_le 500 x) /\ decompress_sz3 (DA (lm64 true)) true 6 6 (firstn 380 buf) = Some (U', V') /\
  tool2 (DA (lm64 true)) (fun _ => None) (fun _ _ => (one64, one64)) (fun _ _ => (one64, one64, one64)) U6 V6 U' V' 6 6 = Some r.
Proof. exact run_tool2. Qed.

(** Three dimensions: the printed counts add up. *)
Theorem C51_counts_3d : forall A inv3 lerp3 roots3 U V W U' V' W' r1 r2 r3 r, tool3 A inv3 lerp3 roots3 U V W U' V' W' r1 r2 r3 = Some r ->
  length (r_origin r) = (length (r_tp r) + length (r_ft r) + length (r_fn r))%nat /\
  length (r_decompressed r) = (length (r_tp r) + length (r_ft r) + length (r_fp r))%nat.
Proof. exact tool3_counts. Qed.
Print Assumptions C51_counts_3d.

(** Every tetrahedron of the mesh is looked at. *)
Theorem C51_every_tetrahedron : forall r1 r2 r3 a b c d, tet r1 r2 r3 [a; b; c; d] <-> exists id, examined3 r1 r2 r3 a b c d id.
Proof. exact examined3_tet. Qed.
Print Assumptions C51_every_tetrahedron.

(** The number in an entry names one tetrahedron. *)
Theorem C51_ids_3d : forall r1 r2 r3 a b c d a' b' c' d' id, examined3 r1 r2 r3 a b c d id -> examined3 r1 r2 r3 a' b' c' d' id -> (a, b, c, d) = (a', b', c', d').
Proof. exact examined3_unique. Qed.
Print Assumptions C51_ids_3d.

(** The counts, for grids whose tetrahedra have different keys. *)
Theorem C51_false_3d_partial : forall A inv3 lerp3 roots3 U V W U' V' W' r1 r2 r3 r, 6 * (r1 * r2 * r3) <= 2 ^ 31 -> tool3 A inv3 lerp3 roots3 U V W U' V' W' r1 r2 r3 = Some r ->
  (forall e, In e (r_fn r) -> exists a b c d, examined3 r1 r2 r3 a b c d (e_id e) /\ detects3 A inv3 U V W r2 r3 a b c d /\ ~ detects3 A inv3 U' V' W' r2 r3 a b c d) /\
  (forall e, In e (r_fp r) -> exists a b c d, examined3 r1 r2 r3 a b c d (e_id e) /\ ~ detects3 A inv3 U V W r2 r3 a b c d /\ detects3 A inv3 U' V' W' r2 r3 a b c d) /\
  (forall a b c d id, examined3 r1 r2 r3 a b c d id -> detects3 A inv3 U V W r2 r3 a b c d -> exists e, In e (r_origin r) /\ e_id e = id) /\
  (forall a b c d id, examined3 r1 r2 r3 a b c d id -> detects3 A inv3 U' V' W' r2 r3 a b c d -> exists e, In e (r_decompressed r) /\ e_id e = id).
Proof. exact tool3_false. Qed.
Print Assumptions C51_false_3d_partial.

(** The program runs to the end. *)
Theorem C51_runs_3d : forall A inv3 lerp3 roots3 U V W U' V' W' r1 r2 r3, 1 <= r1 -> 1 <= r2 -> 1 <= r3 -> r1 * r2 * r3 < 2 ^ 31 ->
  sized r1 r2 r3 U -> sized r1 r2 r3 V -> sized r1 r2 r3 W -> sized r1 r2 r3 U' -> sized r1 r2 r3 V' -> sized r1 r2 r3 W' ->
  exists r, tool3 A inv3 lerp3 roots3 U V W U' V' W' r1 r2 r3 = Some r.
Proof. exact tool3_total. Qed.
Print Assumptions C51_runs_3d.

(** After the 3D absolute codec the program reports no lost critical point, whatever the FTK functions do, and no changed type; an added one lies in a
    tetrahedron the compressor saw without one. *)
Theorem C51_no_false_negatives_3d_double : forall lm inv3 lerp3 roots3 max_eb ord ub r1 r2 r3 (U V W : list binary64) junk buf size, 0 <= r1 -> 0 < r2 -> 0 < r3 -> sized r1 r2 r3 U -> sized r1 r2 r3 V -> sized r1 r2 r3 W -> Z.of_nat (length junk) < 2 ^ 64 ->
  compress_abs3 (DA lm) (found3 (DA lm) inv3) max_eb ord ub r1 r2 r3 U V W junk = Some (buf, size) ->
  short_codes3 (enc_abs3 (DA lm) (found3 (DA lm) inv3) max_eb) ord r1 r2 r3 U V W ->
  exists U' V' W', decompress_abs3 (DA lm) r1 r2 r3 (firstn size buf) = Some (U', V', W') /\
    forall r, tool3 (DA lm) inv3 lerp3 roots3 U V W U' V' W' r1 r2 r3 = Some r ->
      r_fn r = [] /\ (6 * (r1 * r2 * r3) <= 2 ^ 32 -> r_ft r = []) /\
      (6 * (r1 * r2 * r3) <= 2 ^ 31 -> forall e, In e (r_fp r) -> exists a b c d, examined3 r1 r2 r3 a b c d (e_id e) /\
         check_cp3 (DA lm) (found3 (DA lm) inv3) U V W r2 r3 a b c d = Some false).
Proof. exact tool3_abs_double. Qed.
Print Assumptions C51_no_false_negatives_3d_double.

(** The same for floats. *)
Theorem C51_no_false_negatives_3d_float : forall lm inv3 lerp3 roots3 max_eb ord ub r1 r2 r3 (U V W : list binary32) junk buf size, 0 <= r1 -> 0 < r2 -> 0 < r3 -> sized r1 r2 r3 U -> sized r1 r2 r3 V -> sized r1 r2 r3 W -> Z.of_nat (length junk) < 2 ^ 64 ->
  compress_abs3 (FA lm) (found3 (FA lm) inv3) max_eb ord ub r1 r2 r3 U V W junk = Some (buf, size) ->
  short_codes3 (enc_abs3 (FA lm) (found3 (FA lm) inv3) max_eb) ord r1 r2 r3 U V W ->
  exists U' V' W', decompress_abs3 (FA lm) r1 r2 r3 (firstn size buf) = Some (U', V', W') /\
    forall r, tool3 (FA lm) inv3 lerp3 roots3 U V W U' V' W' r1 r2 r3 = Some r ->
      r_fn r = [] /\ (6 * (r1 * r2 * r3) <= 2 ^ 32 -> r_ft r = []) /\
      (6 * (r1 * r2 * r3) <= 2 ^ 31 -> forall e, In e (r_fp r) -> exists a b c d, examined3 r1 r2 r3 a b c d (e_id e) /\
         check_cp3 (FA lm) (found3 (FA lm) inv3) U V W r2 r3 a b c d = Some false).
Proof. exact tool3_abs_float. Qed.
Print Assumptions C51_no_false_negatives_3d_float.

Example C51_3d_nonvacuous : exists buf U' V' W' r,
  compress_abs3 (DA (lm64 false)) (found3 (DA (lm64 false)) inv0) ex_eb ord0 ub0 2 2 6 ex3U ex3V ex3W (repeat 0 576) = Some (buf, 337%nat) /\
  short_codes3 (enc_abs3 (DA (lm64 false)) (found3 (DA (lm64 false)) inv0) ex_eb) ord0 2 2 6 ex3U ex3V ex3W /\
  sized 2 2 6 ex3U /\ sized 2 2 6 ex3V /\ sized 2 2 6 ex3W /\
  decompress_abs3 (DA (lm64 false)) 2 2 6 (firstn 337 buf) = Some (U', V', W') /\
  tool3 (DA (lm64 false)) inv0 (fun _ _ => (one64, one64, one64)) (fun _ _ => (one64, (one64, one64, one64))) ex3U ex3V ex3W U' V' W' 2 2 6 = Some r /\
  r_origin r <> [] /\ (ex3U, ex3V, ex3W) <> (U', V', W').
Proof. exact run_tool3. Qed.

(** Exact arithmetic and an exact test: the reports are empty after the absolute codecs. *)
Theorem C51_exact_2d : forall max_eb r1 r2 u v U' V' c, 0 <= r1 -> 0 < r2 -> Z.of_nat (length u) = r1 * r2 -> Z.of_nat (length v) = r1 * r2 ->
  enc_online_abs XA (Fin max_eb) r1 r2 (map Fin u) (map Fin v) = Some (U', V', c) ->
  exists u' v', decode r1 r2 c = Some (map Fin u', map Fin v') /\
    forall inv2 lerp2 eig2 r, exact2 inv2 -> tool2 XA inv2 lerp2 eig2 (map Fin u) (map Fin v) (map Fin u') (map Fin v') r1 r2 = Some r ->
    r_fn r = [] /\ r_fp r = [] /\ r_ft r = [].
Proof. exact tool2_exact. Qed.
Print Assumptions C51_exact_2d.

(** The same in three dimensions. *)
Theorem C51_exact_3d : forall ftk max_eb r1 r2 r3 u v w U' V' W' c, 0 <= r1 -> 0 < r2 -> 0 < r3 -> Z.of_nat (length u) = r1 * r2 * r3 -> Z.of_nat (length v) = r1 * r2 * r3 -> Z.of_nat (length w) = r1 * r2 * r3 ->
  6 * (r1 * r2 * r3) <= 2 ^ 32 ->
  enc_abs3 XA ftk (Fin max_eb) r1 r2 r3 (map Fin u) (map Fin v) (map Fin w) = Some (U', V', W', c) ->
  exists u' v' w', decode3 r1 r2 r3 c = Some (map Fin u', map Fin v', map Fin w') /\
    forall inv3 lerp3 roots3 r, exact3 inv3 ->
    tool3 XA inv3 lerp3 roots3 (map Fin u) (map Fin v) (map Fin w) (map Fin u') (map Fin v') (map Fin w') r1 r2 r3 = Some r ->
    r_fn r = [] /\ r_fp r = [] /\ r_ft r = [].
Proof. exact tool3_exact. Qed.
Print Assumptions C51_exact_3d.

Example C51_exact_nonvacuous : exact2 test2 /\ exact3 test3 /\
  (exists r, enc_online_abs XA (Fin 1) 4 4 (map Fin (repeat 1%R 16)) (map Fin (repeat 1%R 16)) = Some r) /\
  exists s c, enc_abs3 XA (fun _ _ _ _ => false) (Fin 1) 2 2 3 (map Fin (repeat 1%R 12)) (map Fin (repeat 1%R 12)) (map Fin (repeat 1%R 12)) = Some (s, c).
Proof. exact run_exact. Qed.

(** A clean report does not mean that the critical points are unchanged: cells at the border are not looked at. *)
Theorem C51_clean_report_border_refuted : forall lm, exists r1 r2 (U V U' V' : list binary64) a b d,
  Z.of_nat (length U) = r1 * r2 /\ Z.of_nat (length V) = r1 * r2 /\ Z.of_nat (length U') = r1 * r2 /\ Z.of_nat (length V') = r1 * r2 /\
  cell r1 r2 a b d /\ has_cp (vecF r2 U V a) (vecF r2 U V b) (vecF r2 U V d) /\ ~ has_cp (vecF r2 U' V' a) (vecF r2 U' V' b) (vecF r2 U' V' d) /\
  forall inv2 lerp2 eig2, tool2 (DA lm) inv2 lerp2 eig2 U V U' V' r1 r2 =
    Some {| r_origin := []; r_decompressed := []; r_tp := []; r_fp := []; r_fn := []; r_ft := [] |}.
Proof. exact border_unseen. Qed.
Print Assumptions C51_clean_report_border_refuted.

(** Nor are triangles with a zero vector. *)
Theorem C51_clean_report_zero_refuted : forall lm, exists r1 r2 (U V U' V' : list binary64) a b d id,
  Z.of_nat (length U) = r1 * r2 /\ Z.of_nat (length V) = r1 * r2 /\ Z.of_nat (length U') = r1 * r2 /\ Z.of_nat (length V') = r1 * r2 /\
  examined2 r1 r2 a b d id /\ has_cp (vecF r2 U V a) (vecF r2 U V b) (vecF r2 U V d) /\ ~ has_cp (vecF r2 U' V' a) (vecF r2 U' V' b) (vecF r2 U' V' d) /\
  forall (inv2 : tri2 (DA lm) -> _) lerp2 eig2, inv2 ((one64, one64), (one64, one64), (one64, one64)) = None -> tool2 (DA lm) inv2 lerp2 eig2 U V U' V' r1 r2 =
    Some {| r_origin := []; r_decompressed := []; r_tp := []; r_fp := []; r_fn := []; r_ft := [] |}.
Proof. exact zeros_unseen. Qed.
Print Assumptions C51_clean_report_zero_refuted.

(** On large grids two tetrahedra have one key, and the 3D program counts fewer than it found. *)
Theorem C51_keys_3d_refuted : exists r1 r2 r3 a b c d id a' b' c' d' id', 2 <= r1 /\ 2 <= r2 /\ 2 <= r3 /\ r1 * r2 * r3 < 2 ^ 31 /\
  examined3 r1 r2 r3 a b c d id /\ examined3 r1 r2 r3 a' b' c' d' id' /\ id <> id' /\
  forall A inv3 lerp3 roots3 U V W U' V' W' r, tool3 A inv3 lerp3 roots3 U V W U' V' W' r1 r2 r3 = Some r ->
    detects3 A inv3 U V W r2 r3 a b c d -> detects3 A inv3 U V W r2 r3 a' b' c' d' ->
    exists l, NoDup l /\ (forall p q s t, In (p, q, s, t) l -> tet r1 r2 r3 [p; q; s; t] /\ detects3 A inv3 U V W r2 r3 p q s t) /\
      (length (r_origin r) < length l)%nat.
Proof. exact keys_collide. Qed.
Print Assumptions C51_keys_3d_refuted.

Example C51_keys_3d_reached : forall lm, exists inv3 lerp3 roots3 U r, tool3 (DA lm) inv3 lerp3 roots3 U U U U U U 3 2 300000000 = Some r /\
  forall a b c d id, examined3 3 2 300000000 a b c d id -> detects3 (DA lm) inv3 U U U 2 300000000 a b c d.
Proof. exact keys_collide_reached. Qed.

