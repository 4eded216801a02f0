(** Property theorems about the 3D absolute-error codec and the 3D neighbourhood table: C16, C24, C27, C32.
    [ftk] is the external critical-point test; every theorem holds for whatever it answers.  Conventions as in Prop_2D. *)
From Coq Require Import Reals Lra Lia ZArith List Bool Permutation.
From Flocq Require Import Core.Core IEEE754.BinarySingleNaN IEEE754.Binary IEEE754.Bits.
From Verif Require Import Base Huffman HuffStream HuffProps Stream Arith Codec2D Sync2D Scan Stream2D Exact Total2D IEEE IEEELaws IEEEQuant IEEE2D IEEEAbs2D Api2D
  LibmModel Witness2D Examples2D Mesh3D Derive3D Abs3D Sync3D Cells3D Geo3D Preserve3D Total3D Lossless3D IEEE3D Api3D Refute3D.
Import ListNotations.
Local Open Scope Z_scope.

(** Exact arithmetic: a tetrahedron's linear interpolant has a zero after decompression iff it had one before. *)
Theorem C16_keeps_critical_tets : forall ftk max_eb r1 r2 r3 u v w U' V' W' c,
  0 <= r1 -> 0 < r2 -> 0 < r3 -> Z.of_nat (length u) = r1 * r2 * r3 ->
  Z.of_nat (length v) = r1 * r2 * r3 -> Z.of_nat (length w) = r1 * r2 * r3 ->
  enc_abs3 XA ftk (Fin max_eb) r1 r2 r3 (map Fin u) (map Fin v) (map Fin w) = Some (U', V', W', c) ->
  exists u' v' w', decode3 r1 r2 r3 c = Some (map Fin u', map Fin v', map Fin w') /\
  forall t, tet r1 r2 r3 t ->
    (has_cp3 (map (vecR3 r2 r3 u v w) t) <-> has_cp3 (map (vecR3 r2 r3 u' v' w') t)) /\
    (has_cp3 (map (vecR3 r2 r3 u v w) t) -> forall x, In x t -> vecR3 r2 r3 u' v' w' x = vecR3 r2 r3 u v w x).
Proof. exact abs3_preserves. Qed.
Print Assumptions C16_keeps_critical_tets.
Theorem C16_exact_total : forall ftk max_eb r1 r2 r3 u v w,
  (max_eb <= big * big)%R -> 0 <= r1 -> 0 < r2 -> 0 < r3 -> sized r1 r2 r3 u -> sized r1 r2 r3 v -> sized r1 r2 r3 w ->
  exists s c, enc_abs3 XA ftk (Fin max_eb) r1 r2 r3 (map Fin u) (map Fin v) (map Fin w) = Some (s, c).
Proof. exact abs3_total. Qed.
Print Assumptions C16_exact_total.
Example C16_exact_nonvacuous :
  tet 2 2 3 [(0, 0, 0); (1, 0, 0); (1, 1, 0); (1, 1, 1)] /\ tet 2 2 3 [(0, 0, 1); (1, 0, 1); (1, 1, 1); (1, 1, 2)] /\
  has_cp3 (map (vecR3 2 3 g3 g3 g3) [(0, 0, 0); (1, 0, 0); (1, 1, 0); (1, 1, 1)]) /\
  ~ has_cp3 (map (vecR3 2 3 g3 g3 g3) [(0, 0, 1); (1, 0, 1); (1, 1, 1); (1, 1, 2)]) /\
  exists s c, enc_abs3 XA (fun _ _ _ _ => false) (Fin 1) 2 2 3 (map Fin g3) (map Fin g3) (map Fin g3) = Some (s, c).
Proof. exact g3_ok. Qed.

(** Bytes: the decompressor returns the working copy; every value is exact or within the bound. *)
Theorem C16_round_trip_bound_double : forall lm (L : libm_ok (DA lm) (DA_ieee lm)) ftk max_eb ord ub r1 r2 r3 (U V W : list binary64) junk buf size,
  0 <= r1 -> 0 < r2 -> 0 < r3 -> sized r1 r2 r3 U -> sized r1 r2 r3 V -> sized r1 r2 r3 W -> Z.of_nat (length junk) < 2 ^ 64 ->
  finite_le 336 max_eb -> (forall x, In x U \/ In x V \/ In x W -> finite_le 336 x) ->
  compress_abs3 (DA lm) ftk max_eb ord ub r1 r2 r3 U V W junk = Some (buf, size) ->
  short_codes3 (enc_abs3 (DA lm) ftk max_eb) ord r1 r2 r3 U V W ->
  exists U' V' W', decompress_abs3 (DA lm) r1 r2 r3 (firstn size buf) = Some (U', V', W') /\
    (exists c, enc_abs3 (DA lm) ftk max_eb r1 r2 r3 U V W = Some (U', V', W', c)) /\
    length U' = length U /\ length V' = length V /\ length W' = length W /\
    forall p u v w u' v' w', aget U p = Some u -> aget V p = Some v -> aget W p = Some w ->
      aget U' p = Some u' -> aget V' p = Some v' -> aget W' p = Some w' ->
      let b := (B2R 53 1024 max_eb * (1 + bpow radix2 (-40)))%R in
      (u' = u /\ v' = v /\ w' = w) \/ (differs_lt b u u' /\ differs_lt b v v' /\ differs_lt b w w').
Proof. exact abs3_api_double. Qed.
Print Assumptions C16_round_trip_bound_double.

Theorem C16_round_trip_bound_float : forall lm (L : libm_ok (FA lm) (FA_ieee lm)) ftk max_eb ord ub r1 r2 r3 (U V W : list binary32) junk buf size,
  0 <= r1 -> 0 < r2 -> 0 < r3 -> sized r1 r2 r3 U -> sized r1 r2 r3 V -> sized r1 r2 r3 W -> Z.of_nat (length junk) < 2 ^ 64 ->
  finite_le 38 max_eb -> (forall x, In x U \/ In x V \/ In x W -> finite_le 38 x) ->
  compress_abs3 (FA lm) ftk max_eb ord ub r1 r2 r3 U V W junk = Some (buf, size) ->
  short_codes3 (enc_abs3 (FA lm) ftk max_eb) ord r1 r2 r3 U V W ->
  exists U' V' W', decompress_abs3 (FA lm) r1 r2 r3 (firstn size buf) = Some (U', V', W') /\
    (exists c, enc_abs3 (FA lm) ftk max_eb r1 r2 r3 U V W = Some (U', V', W', c)) /\
    length U' = length U /\ length V' = length V /\ length W' = length W /\
    forall p u v w u' v' w', aget U p = Some u -> aget V p = Some v -> aget W p = Some w ->
      aget U' p = Some u' -> aget V' p = Some v' -> aget W' p = Some w' ->
      let b := (B2R 53 1024 max_eb * (1 + bpow radix2 (-40)))%R in
      (u' = u /\ v' = v /\ w' = w) \/ (differs_lt b u u' /\ differs_lt b v v' /\ differs_lt b w w').
Proof. exact abs3_api_float. Qed.
Print Assumptions C16_round_trip_bound_float.

(** No undefined conversion on moderate data. *)
Theorem C16_no_undefined_double : forall lm (L : libm_ok (DA lm) (DA_ieee lm)) ftk max_eb r1 r2 r3 (U V W : list binary64),
  0 <= r1 -> 0 < r2 -> 0 < r3 -> sized r1 r2 r3 U -> sized r1 r2 r3 V -> sized r1 r2 r3 W ->
  finite_le 336 max_eb -> (forall x, In x U \/ In x V \/ In x W -> finite_le 336 x) ->
  exists s c, enc_abs3 (DA lm) ftk max_eb r1 r2 r3 U V W = Some (s, c).
Proof. exact abs3_noub_double. Qed.
Print Assumptions C16_no_undefined_double.

Theorem C16_machine_total_double : forall lm ftk max_eb r1 r2 r3 (U V W : list binary64),
  lm_x86 lm = true ->
  0 <= r1 -> 0 < r2 -> 0 < r3 -> sized r1 r2 r3 U -> sized r1 r2 r3 V -> sized r1 r2 r3 W ->
  exists s c, enc_abs3 (DA lm) ftk max_eb r1 r2 r3 U V W = Some (s, c).
Proof. exact abs3_machine_double. Qed.
Print Assumptions C16_machine_total_double.

Theorem C16_no_undefined_float : forall lm (L : libm_ok (FA lm) (FA_ieee lm)) ftk max_eb r1 r2 r3 (U V W : list binary32),
  0 <= r1 -> 0 < r2 -> 0 < r3 -> sized r1 r2 r3 U -> sized r1 r2 r3 V -> sized r1 r2 r3 W ->
  finite_le 38 max_eb -> (forall x, In x U \/ In x V \/ In x W -> finite_le 38 x) ->
  exists s c, enc_abs3 (FA lm) ftk max_eb r1 r2 r3 U V W = Some (s, c).
Proof. exact abs3_noub_float. Qed.
Print Assumptions C16_no_undefined_float.

Theorem C16_machine_total_float : forall lm ftk max_eb r1 r2 r3 (U V W : list binary32),
  lm_x86 lm = true ->
  0 <= r1 -> 0 < r2 -> 0 < r3 -> sized r1 r2 r3 U -> sized r1 r2 r3 V -> sized r1 r2 r3 W ->
  exists s c, enc_abs3 (FA lm) ftk max_eb r1 r2 r3 U V W = Some (s, c).
Proof. exact abs3_machine_float. Qed.
Print Assumptions C16_machine_total_float.

(** C27: a tetrahedron marked by the critical-point test comes back bit for bit. *)
Theorem C27_3d_marked_exact_double : forall lm ftk max_eb ord ub r1 r2 r3 (U V W : list binary64) junk buf size,
  0 <= r1 -> 0 < r2 -> 0 < r3 -> sized r1 r2 r3 U -> sized r1 r2 r3 V -> sized r1 r2 r3 W -> Z.of_nat (length junk) < 2 ^ 64 ->
  compress_abs3 (DA lm) ftk max_eb ord ub r1 r2 r3 U V W junk = Some (buf, size) ->
  short_codes3 (enc_abs3 (DA lm) ftk max_eb) ord r1 r2 r3 U V W ->
  exists U' V' W', decompress_abs3 (DA lm) r1 r2 r3 (firstn size buf) = Some (U', V', W') /\
    forall a b d e, tet r1 r2 r3 [a; b; d; e] -> check_cp3 (DA lm) ftk U V W r2 r3 a b d e = Some true ->
    forall x, In x [a; b; d; e] ->
      aget U' (lin3 r2 r3 x) = aget U (lin3 r2 r3 x) /\ aget V' (lin3 r2 r3 x) = aget V (lin3 r2 r3 x) /\
      aget W' (lin3 r2 r3 x) = aget W (lin3 r2 r3 x).
Proof. exact abs3_flagged_double. Qed.
Print Assumptions C27_3d_marked_exact_double.

Theorem C27_3d_marked_exact_float : forall lm ftk max_eb ord ub r1 r2 r3 (U V W : list binary32) junk buf size,
  0 <= r1 -> 0 < r2 -> 0 < r3 -> sized r1 r2 r3 U -> sized r1 r2 r3 V -> sized r1 r2 r3 W -> Z.of_nat (length junk) < 2 ^ 64 ->
  compress_abs3 (FA lm) ftk max_eb ord ub r1 r2 r3 U V W junk = Some (buf, size) ->
  short_codes3 (enc_abs3 (FA lm) ftk max_eb) ord r1 r2 r3 U V W ->
  exists U' V' W', decompress_abs3 (FA lm) r1 r2 r3 (firstn size buf) = Some (U', V', W') /\
    forall a b d e, tet r1 r2 r3 [a; b; d; e] -> check_cp3 (FA lm) ftk U V W r2 r3 a b d e = Some true ->
    forall x, In x [a; b; d; e] ->
      aget U' (lin3 r2 r3 x) = aget U (lin3 r2 r3 x) /\ aget V' (lin3 r2 r3 x) = aget V (lin3 r2 r3 x) /\
      aget W' (lin3 r2 r3 x) = aget W (lin3 r2 r3 x).
Proof. exact abs3_flagged_float. Qed.
Print Assumptions C27_3d_marked_exact_float.

Example C16_C27_nonvacuous :
  (exists buf, compress_abs3 (DA (lm64 false)) ftk0 ex_eb ord0 ub0 2 2 6 ex3U ex3V ex3W (repeat 0 576) = Some (buf, 337%nat)) /\
  changed3 (enc_abs3 (DA (lm64 false)) ftk0 ex_eb 2 2 6 ex3U ex3V ex3W) ex3U ex3V ex3W = Some 36 /\
  libm_ok (DA (lm64 false)) (DA_ieee (lm64 false)) /\ (forall x, In x ex3U \/ In x ex3V \/ In x ex3W -> finite_le 336 x) /\
  sized 2 2 6 ex3U /\ sized 2 2 6 ex3V /\ sized 2 2 6 ex3W /\ finite_le 336 ex_eb /\
  short_codes3 (enc_abs3 (DA (lm64 false)) ftk0 ex_eb) ord0 2 2 6 ex3U ex3V ex3W /\
  tet 2 2 6 [(0, 0, 0); (1, 0, 0); (1, 1, 0); (1, 1, 1)] /\
  check_cp3 (DA (lm64 false)) ftk0 ex3U ex3V ex3W 2 6 (0, 0, 0) (1, 0, 0) (1, 1, 0) (1, 1, 1) = Some true.
Proof. exact ex3_ok. Qed.

(** C24 for the 3D tables.  [tet]: monotone paths from the lowest to the highest corner of a cube; [around x n]: the vertices
    of entry n of the table seen from x. *)
Theorem C24_3d_sound : forall r1 r2 r3 i j k n, (n < 24)%nat -> in_grid r1 r2 r3 (i, j, k) -> in_mesh3 r1 r2 r3 i j k n = true ->
  exists c, tet r1 r2 r3 c /\ Permutation c (around (i, j, k) n).
Proof. exact table3_sound. Qed.
Print Assumptions C24_3d_sound.
Theorem C24_3d_complete : forall r1 r2 r3 i j k c, tet r1 r2 r3 c -> In (i, j, k) c ->
  exists n, (n < 24)%nat /\ in_mesh3 r1 r2 r3 i j k n = true /\ Permutation c (around (i, j, k) n).
Proof. exact table3_complete. Qed.
Print Assumptions C24_3d_complete.
Theorem C24_3d_unique : forall x n n', (n < 24)%nat -> (n' < 24)%nat -> Permutation (around x n) (around x n') -> n = n'.
Proof. exact table3_unique. Qed.
Print Assumptions C24_3d_unique.
Theorem C24_3d_offsets : forall r2 r3 x n p, lin3 r2 r3 x + offset3 r2 r3 n p = lin3 r2 r3 (nbr3 x n p).
Proof. exact offset3_lin. Qed.
Print Assumptions C24_3d_offsets.
(** The table of results of the critical-point test is looked up at the right place. *)
Theorem C24_3d_cell_numbers : forall A ftk U V W r1 r2 r3 cp i j k a b c d,
  compute_cp3 A ftk U V W r1 r2 r3 = Some cp -> tet r1 r2 r3 [a; b; c; d] -> In (i, j, k) [a; b; c; d] ->
  exists n x, (n < 24)%nat /\ in_mesh3 r1 r2 r3 i j k n = true /\ Permutation [a; b; c; d] (around (i, j, k) n) /\
    check_cp3 A ftk U V W r2 r3 a b c d = Some x /\
    aget cp (simplex_offset r2 r3 n + 6 * (i * (r2 - 1) * (r3 - 1) + j * (r3 - 1) + k)) = Some x.
Proof. exact cp_lookup. Qed.
Print Assumptions C24_3d_cell_numbers.
Example C24_3d_nonvacuous : in_grid 2 2 6 (0, 0, 0) /\ tet 2 2 6 [(0, 0, 0); (1, 0, 0); (1, 1, 0); (1, 1, 1)] /\
  existsb (in_mesh3 2 2 6 0 0 0) twenty_four = true /\ existsb (fun n => negb (in_mesh3 2 2 6 0 0 0 n)) twenty_four = true.
Proof. split; [unfold in_grid; cbn; lia|]. split; [exact ex_tet|]. split; reflexivity. Qed.

(** C32.  False: if every point has a zero component, no stream is produced for any buffer (the entropy coder is called
    with no symbol and reads through the null root of its tree). *)
Theorem C32_no_stream : forall A, deq A (dofZ A 0) (dofZ A 0) = true -> forall ftk max_eb ord ub r1 r2 r3 U V W junk,
  0 <= r1 -> 0 < r2 -> 0 < r3 ->
  (forall p u v w, aget U p = Some u -> aget V p = Some v -> aget W p = Some w ->
     teq A u (t0 A) = true \/ teq A v (t0 A) = true \/ teq A w (t0 A) = true) ->
  compress_abs3 A ftk max_eb ord ub r1 r2 r3 U V W junk = None.
Proof. exact abs3_no_stream. Qed.
Print Assumptions C32_no_stream.
Theorem C32_valid_stream_refuted : exists U V W, length U = 8%nat /\ length V = 8%nat /\ length W = 8%nat /\
  compress_abs3 (DA (lm64 false)) ftk0 ex_eb ord0 ub0 2 2 2 U V W (repeat 0 192) = None /\
  exists s c, enc_abs3 (DA (lm64 false)) ftk0 ex_eb 2 2 2 U V W = Some (s, c).
Proof. exact abs3_no_stream_refuted. Qed.
Print Assumptions C32_valid_stream_refuted.
