(** Property theorems about the multilevel codec: C14, C15, C39.  Conventions as in Prop_2D.  [wrap]: signed overflow wraps around (machine)
    instead of being undefined; [lm_x86]: out-of-range conversions to int give -2^31 (machine) instead of being undefined. *)
From Coq Require Import Reals Lra Lia ZArith List Bool Permutation.
From Flocq Require Import Core.Core IEEE754.BinarySingleNaN IEEE754.Binary IEEE754.Bits.
From Verif Require Import Base Huffman HuffStream HuffProps Stream Arith Mesh2D Derive2D Codec2D Sync2D Trace2D Scan Stream2D Exact IEEE IEEELaws IEEEQuant
  IEEE2D IEEEAbs2D TotalAny Total2D Api2D LibmModel Witness2D Examples2D Refute2D RelaxApi2D Cells2D Geo2D Preserve2D LogRefute2D UnsRefute
  Sz3 Sz3Order Sz3Sync Sz3Err Sz3Cells Sz3Api Sz3Refute.
Import ListNotations.
Local Open Scope Z_scope.

(** Every index of the grid is processed exactly once. *)
Theorem C14_each_point_once : forall r1 r2, 1 <= r1 -> 1 <= r2 -> Permutation (map v_p (visits r1 r2)) (zrange 0 (r1 * r2)).
Proof. exact sz3_each_once. Qed.
Print Assumptions C14_each_point_once.

(** Compressor and decompressor process the same points in the same order with the same interpolation. *)
Theorem C14_same_order : forall r1 r2, dec_visits r1 r2 = map (fun v => (v_p v, v_s v, v_kind v)) (visits r1 r2).
Proof. exact dec_visits_same. Qed.
Print Assumptions C14_same_order.

(** The prediction of the m-th point depends only on the m points before it. *)
Theorem C14_predicts_from_done : forall A r1 r2 m v (w w' : list (T A)), 1 <= r1 -> 1 <= r2 -> nth_error (visits r1 r2) m = Some v ->
  (forall q, In q (map v_p (firstn m (visits r1 r2))) -> aget w q = aget w' q) ->
  predict A (aget w) (v_p v) (v_s v) (v_kind v) = predict A (aget w') (v_p v) (v_s v) (v_kind v).
Proof. exact sz3_reads_done. Qed.
Print Assumptions C14_predicts_from_done.

(** For any arithmetic whose zero converts to zero: the decoder rebuilds the final working copies from the codes, provided the symbols 0
    are the verbatim values, which is the case of every run below. *)
Theorem C14_decodes_working_copy : forall A, teq A (d2t A (d0 A)) (t0 A) = true -> forall wrap max_eb r1 r2 U V U' V' c,
  1 <= r1 -> 1 <= r2 -> Z.of_nat (length U) = r1 * r2 -> Z.of_nat (length V) = r1 * r2 ->
  enc_sz3 A wrap max_eb r1 r2 U V = Some ((U', V'), c) -> count_occ Z.eq_dec (c_q c) 0 = length (c_unp c) ->
  decode_sz3 A wrap 4 (eps_double A) intv_radius r1 r2 c = Some (U', V').
Proof. exact sz3_field_sync. Qed.
Print Assumptions C14_decodes_working_copy.

Example C14_nonvacuous : 1 <= 6 /\ length (visits 6 6) = 36%nat /\ map v_p (firstn 4 (visits 6 6)) = [0; 24; 4; 28] /\
  map v_kind (visits 5 7) = [First; Last; Last; Last; Linear; Linear; Linear; Last; Linear; Last; Linear; Last;
    Quad1; Quad2; Quad1; Quad2; Quad1; Quad2; Quad1; Quad2; Quad1; Cubic; Quad2; Quad1; Cubic; Quad2; Quad1; Cubic; Quad2; Quad1; Cubic; Quad2;
    Quad1; Cubic; Quad2].
Proof. vm_compute. intuition congruence. Qed.

(** Bytes: whatever is compressed is decompressed to the final working copy, and each component comes back bit for bit or within the bound
    (half the bound on points whose two coordinates are multiples of 4), up to a factor 1 + 2^-39 due to rounding. *)
Theorem C15_round_trip_bound_double : forall lm, libm_ok (DA lm) (DA_ieee lm) -> forall wrap max_eb ord ub r1 r2 U V junk buf size,
  1 <= r1 -> 1 <= r2 -> Z.of_nat (length U) = r1 * r2 -> Z.of_nat (length V) = r1 * r2 -> Z.of_nat (length junk) < 2 ^ 64 ->
  is_finite 53 1024 max_eb = true -> (B2R 53 1024 max_eb <= bpow radix2 500)%R -> (forall x, In x U \/ In x V -> finite_le 500 x) ->
  compress_sz3 (DA lm) wrap max_eb ord ub r1 r2 U V junk = Some (buf, size) -> sz3_short (DA lm) wrap max_eb ord r1 r2 U V ->
  exists U' V', decompress_sz3 (DA lm) wrap r1 r2 (firstn size buf) = Some (U', V') /\
    (exists c, enc_sz3 (DA lm) wrap max_eb r1 r2 U V = Some ((U', V'), c)) /\ length U' = length U /\ length V' = length V /\
    forall i j, 0 <= i < r1 -> 0 <= j < r2 -> forall x x',
      (aget U (i * r2 + j) = Some x /\ aget U' (i * r2 + j) = Some x') \/ (aget V (i * r2 + j) = Some x /\ aget V' (i * r2 + j) = Some x') ->
      x' = x \/ (0 < B2R 53 1024 max_eb)%R /\ differs_le (level_bound (B2R 53 1024 max_eb) i j * (1 + bpow radix2 (-39))) x x'.
Proof. exact sz3_api_double. Qed.
Print Assumptions C15_round_trip_bound_double.

Theorem C15_round_trip_bound_float : forall lm, libm_ok (FA lm) (FA_ieee lm) -> forall wrap max_eb ord ub r1 r2 U V junk buf size,
  1 <= r1 -> 1 <= r2 -> Z.of_nat (length U) = r1 * r2 -> Z.of_nat (length V) = r1 * r2 -> Z.of_nat (length junk) < 2 ^ 64 ->
  is_finite 53 1024 max_eb = true -> (B2R 53 1024 max_eb <= bpow radix2 56)%R -> (forall x, In x U \/ In x V -> finite_le 56 x) ->
  compress_sz3 (FA lm) wrap max_eb ord ub r1 r2 U V junk = Some (buf, size) -> sz3_short (FA lm) wrap max_eb ord r1 r2 U V ->
  exists U' V', decompress_sz3 (FA lm) wrap r1 r2 (firstn size buf) = Some (U', V') /\
    (exists c, enc_sz3 (FA lm) wrap max_eb r1 r2 U V = Some ((U', V'), c)) /\ length U' = length U /\ length V' = length V /\
    forall i j, 0 <= i < r1 -> 0 <= j < r2 -> forall x x',
      (aget U (i * r2 + j) = Some x /\ aget U' (i * r2 + j) = Some x') \/ (aget V (i * r2 + j) = Some x /\ aget V' (i * r2 + j) = Some x') ->
      x' = x \/ (0 < B2R 53 1024 max_eb)%R /\ differs_le (level_bound (B2R 53 1024 max_eb) i j * (1 + bpow radix2 (-23))) x x'.
Proof. exact sz3_api_float. Qed.
Print Assumptions C15_round_trip_bound_float.

(** With the machine's conversions and wrap-around the encoding loop never fails, whatever the data. *)
Theorem C15_machine_total_double : forall (lm : Libm _ _) max_eb r1 r2 U V, lm_x86 lm = true -> 1 <= r1 -> 1 <= r2 ->
  Z.of_nat (length U) = r1 * r2 -> Z.of_nat (length V) = r1 * r2 -> exists s c, enc_sz3 (DA lm) true max_eb r1 r2 U V = Some (s, c).
Proof. exact sz3_machine_double. Qed.
Print Assumptions C15_machine_total_double.
Theorem C15_machine_total_float : forall (lm : Libm _ _) max_eb r1 r2 U V, lm_x86 lm = true -> 1 <= r1 -> 1 <= r2 ->
  Z.of_nat (length U) = r1 * r2 -> Z.of_nat (length V) = r1 * r2 -> exists s c, enc_sz3 (FA lm) true max_eb r1 r2 U V = Some (s, c).
Proof. exact sz3_machine_float. Qed.
Print Assumptions C15_machine_total_float.

(** A run with coded points (symbol 26) and verbatim points (symbol 0), with the hypotheses of the theorems above. *)
Example C15_nonvacuous :
  (exists buf, compress_sz3 (DA (lm64 true)) true two ord0 ub0 6 6 U6 V6 (repeat 0 576) = Some (buf, 380%nat)) /\
  option_map (fun '(a, b) => (firstn 6 a, firstn 12 b)) (sz3_symbols (DA (lm64 true)) true two 6 6 U6 V6) =
    Some ([26; 26; 26; 0; 26; 26], [32800; 32800; 32800; 32768; 32768; 32800; 0; 0; 32768; 32768; 32800; 32800]) /\
  libm_ok (DA (lm64 true)) (DA_ieee (lm64 true)) /\ sz3_short (DA (lm64 true)) true two ord0 6 6 U6 V6 /\
  (forall x, In x U6 \/ In x V6 -> finite_le 500 x) /\ is_finite 53 1024 two = true /\ (0 < B2R 53 1024 two <= bpow radix2 500)%R /\
  Z.of_nat (length U6) = 6 * 6 /\ Z.of_nat (length V6) = 6 * 6 /\ Z.of_nat (length (repeat 0 576)) < 2 ^ 64.
Proof. exact (sz3_example true true). Qed.

(** Without the machine's conversions the quantiser's conversion is undefined on ordinary data: bound 2^-40, integers up to 144. *)
Theorem C15_conversion_refuted : forall wrap, exists max_eb r1 r2 U V, B2R 53 1024 max_eb = bpow radix2 (-40) /\
  (forall x, In x U \/ In x V -> finite_le 500 x) /\ 1 <= r1 /\ 1 <= r2 /\ Z.of_nat (length U) = r1 * r2 /\ Z.of_nat (length V) = r1 * r2 /\
  enc_sz3 (DA (lm64 false)) wrap max_eb r1 r2 U V = None.
Proof. exact sz3_ub_refuted. Qed.
Print Assumptions C15_conversion_refuted.

(** With them a symbol can fall outside the alphabet given to the entropy coder. *)
Theorem C15_alphabet_refuted : exists r1 r2 U V s c q, (forall x, In x U \/ In x V -> finite_le 500 x) /\
  1 <= r1 /\ 1 <= r2 /\ Z.of_nat (length U) = r1 * r2 /\ Z.of_nat (length V) = r1 * r2 /\
  enc_sz3 (DA (lm64 true)) true two r1 r2 U V = Some (s, c) /\ In q (c_q c) /\ 131072 <= q.
Proof. exact sz3_alphabet_refuted. Qed.
Print Assumptions C15_alphabet_refuted.

(** Exact arithmetic, with either treatment of conversions ([o]) and overflow: a triangle with a zero of the linear interpolant keeps its
    vectors; a triangle without one never gets a zero strictly inside a non-degenerate image. *)
Theorem C39_keeps_critical_cells : forall o, o = None \/ o = Some (- 2 ^ 31) -> forall wrap max_eb r1 r2 u v U' V' c,
  1 <= r1 -> 1 <= r2 -> Z.of_nat (length u) = r1 * r2 -> Z.of_nat (length v) = r1 * r2 ->
  enc_sz3 (XO o) wrap (Fin max_eb) r1 r2 (map Fin u) (map Fin v) = Some ((U', V'), c) ->
  exists u' v', decode_sz3 (XO o) wrap 4 (eps_double (XO o)) intv_radius r1 r2 c = Some (map Fin u', map Fin v') /\
  forall a b d, cell r1 r2 a b d ->
    (has_cp (vecR r2 u v a) (vecR r2 u v b) (vecR r2 u v d) -> forall x, In x [a; b; d] -> vecR r2 u' v' x = vecR r2 u v x) /\
    (~ has_cp (vecR r2 u v a) (vecR r2 u v b) (vecR r2 u v d) -> ~ crosses (vecR r2 u' v' a) (vecR r2 u' v' b) (vecR r2 u' v' d)).
Proof. exact sz3_preserves. Qed.
Print Assumptions C39_keeps_critical_cells.

Theorem C39_exact_total : forall max_eb r1 r2 u v, (max_eb <= big)%R -> 1 <= r1 -> 1 <= r2 ->
  Z.of_nat (length u) = r1 * r2 -> Z.of_nat (length v) = r1 * r2 ->
  exists s c, enc_sz3 (XO (Some (- 2 ^ 31))) true (Fin max_eb) r1 r2 (map Fin u) (map Fin v) = Some (s, c).
Proof. exact sz3_exact_total. Qed.
Print Assumptions C39_exact_total.

Example C39_nonvacuous : Z.of_nat (length xu) = 3 * 3 /\ Z.of_nat (length xv) = 3 * 3 /\
  (exists a b d, cell 3 3 a b d /\ has_cp (vecR 3 xu xv a) (vecR 3 xu xv b) (vecR 3 xu xv d)) /\
  (exists a b d, cell 3 3 a b d /\ ~ has_cp (vecR 3 xu xv a) (vecR 3 xu xv b) (vecR 3 xu xv d)) /\
  exists s c, enc_sz3 (XO (Some (- 2 ^ 31))) true (Fin 1) 3 3 (map Fin xu) (map Fin xv) = Some (s, c).
Proof. exact sz3_exact_example. Qed.

(** A zero on the boundary of a triangle without one can appear: the quantiser accepts errors equal to the bound. *)
Theorem C39_boundary_refuted : forall x86 wrap, exists r1 r2 U V buf size U' V' a b d,
  (forall x, In x U \/ In x V -> finite_le 500 x) /\ Z.of_nat (length U) = r1 * r2 /\ Z.of_nat (length V) = r1 * r2 /\
  sz3_short (DA (lm64 x86)) wrap two ord0 r1 r2 U V /\
  compress_sz3 (DA (lm64 x86)) wrap two ord0 ub0 r1 r2 U V (repeat 0 576) = Some (buf, size) /\
  decompress_sz3 (DA (lm64 x86)) wrap r1 r2 (firstn size buf) = Some (U', V') /\ cell r1 r2 a b d /\
  ~ has_cp (vecB r2 U V a) (vecB r2 U V b) (vecB r2 U V d) /\ has_cp (vecB r2 U' V' a) (vecB r2 U' V' b) (vecB r2 U' V' d).
Proof. exact sz3_boundary_refuted. Qed.
Print Assumptions C39_boundary_refuted.
