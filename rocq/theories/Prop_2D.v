(** Property theorems about the 2D online codecs: C07-C11, C23-C25, C27, C29, C30, C33.
    DA lm: double data; FA lm: float data; XA: exact real arithmetic.  lm gives the results of libm; [libm_ok] says
    that pow is exact on the powers that occur and that log2 is off by at most 2^-40.
    junk: the allocated block; ord, ub: unspecified and undefined details of the entropy coder.
    [short_codes]: no Huffman code word is longer than 64 bits. *)
From Coq Require Import Reals Lra Lia ZArith List Bool.
From Flocq Require Import Core.Core IEEE754.BinarySingleNaN IEEE754.Binary IEEE754.Bits.
From Verif Require Import Base Huffman HuffStream HuffProps Stream Arith Mesh2D Derive2D Codec2D Sync2D Trace2D Stream2D Exact Cells2D Geo2D
  Preserve2D Total2D IEEE IEEELaws IEEEQuant IEEE2D IEEEAbs2D IEEERel2D TotalAny IEEETotal2D Fit2D Api2D LibmModel Witness2D Examples2D Refute2D.
Import ListNotations.
Local Open Scope Z_scope.

(** C07, for any arithmetic whose values survive memcpy. *)
Theorem C07_relative_round_trip : forall A, ser_ok A -> forall max_eb ord ub r1 r2 U V junk buf size,
  0 <= r1 -> 0 < r2 -> Z.of_nat (length U) = r1 * r2 -> Z.of_nat (length V) = r1 * r2 -> Z.of_nat (length junk) < 2 ^ 64 ->
  compress_online A max_eb ord ub r1 r2 U V junk = Some (buf, size) ->
  exists U' V' c, enc_online A max_eb r1 r2 U V = Some (U', V', c) /\
    (code_words_64 ord c -> decompress_online A r1 r2 (firstn size buf) = Some (U', V')).
Proof. exact online_round_trip. Qed.
Print Assumptions C07_relative_round_trip.

Theorem C07_absolute_round_trip : forall A, ser_ok A -> forall max_eb ord ub r1 r2 U V junk buf size,
  0 <= r1 -> 0 < r2 -> Z.of_nat (length U) = r1 * r2 -> Z.of_nat (length V) = r1 * r2 -> Z.of_nat (length junk) < 2 ^ 64 ->
  compress_online_abs A max_eb ord ub r1 r2 U V junk = Some (buf, size) ->
  exists U' V' c, enc_online_abs A max_eb r1 r2 U V = Some (U', V', c) /\
    (code_words_64 ord c -> decompress_online A r1 r2 (firstn size buf) = Some (U', V')).
Proof. exact online_abs_round_trip. Qed.
Print Assumptions C07_absolute_round_trip.

Theorem C07_instances : (forall lm, ser_ok (DA lm)) /\ (forall lm, ser_ok (FA lm)).
Proof. split; [exact DA_ser|exact FA_ser]. Qed.
Print Assumptions C07_instances.
Example C07_nonvacuous :
  (exists buf, compress_online (DA (lm64 false)) rx_eb ord0 ub0 4 4 rxU rxV (repeat 0 256) = Some (buf, 134%nat)) /\
  changed (enc_online (DA (lm64 false)) rx_eb 4 4 rxU rxV) rxU rxV = Some 16 /\
  short_codes (enc_online (DA (lm64 false)) rx_eb) ord0 4 4 rxU rxV.
Proof.
  split; [apply out_size_some, ex_rel_runs|]. split; [exact ex_rel_lossy|].
  apply short_small; try reflexivity; try lia; eexists; eexists; reflexivity.
Qed.

(** C08.  Float fields: magnitudes up to 2^56; double: 2^500. *)
Theorem C08_absolute_bound_double : forall lm, libm_ok (DA lm) (DA_ieee lm) ->
  forall max_eb ord ub r1 r2 U V junk buf size,
  0 <= r1 -> 0 < r2 -> Z.of_nat (length U) = r1 * r2 -> Z.of_nat (length V) = r1 * r2 -> Z.of_nat (length junk) < 2 ^ 64 ->
  finite_le 500 max_eb -> (forall x, In x U \/ In x V -> finite_le 500 x) ->
  compress_online_abs (DA lm) max_eb ord ub r1 r2 U V junk = Some (buf, size) ->
  short_codes (enc_online_abs (DA lm) max_eb) ord r1 r2 U V ->
  exists U' V', decompress_online (DA lm) r1 r2 (firstn size buf) = Some (U', V') /\
    length U' = length U /\ length V' = length V /\
    forall k u v u' v', aget U k = Some u -> aget V k = Some v -> aget U' k = Some u' -> aget V' k = Some v' ->
      let b := (B2R 53 1024 max_eb * (1 + bpow radix2 (-40)))%R in
      (u' = u /\ v' = v) \/ (differs_lt b u u' /\ differs_lt b v v').
Proof. exact abs_api_double. Qed.
Print Assumptions C08_absolute_bound_double.

Theorem C08_absolute_bound_float : forall lm, libm_ok (FA lm) (FA_ieee lm) ->
  forall max_eb ord ub r1 r2 U V junk buf size,
  0 <= r1 -> 0 < r2 -> Z.of_nat (length U) = r1 * r2 -> Z.of_nat (length V) = r1 * r2 -> Z.of_nat (length junk) < 2 ^ 64 ->
  finite_le 56 max_eb -> (forall x, In x U \/ In x V -> finite_le 56 x) ->
  compress_online_abs (FA lm) max_eb ord ub r1 r2 U V junk = Some (buf, size) ->
  short_codes (enc_online_abs (FA lm) max_eb) ord r1 r2 U V ->
  exists U' V', decompress_online (FA lm) r1 r2 (firstn size buf) = Some (U', V') /\
    length U' = length U /\ length V' = length V /\
    forall k u v u' v', aget U k = Some u -> aget V k = Some v -> aget U' k = Some u' -> aget V' k = Some v' ->
      let b := (B2R 53 1024 max_eb * (1 + bpow radix2 (-40)))%R in
      (u' = u /\ v' = v) \/ (differs_lt b u u' /\ differs_lt b v v').
Proof. exact abs_api_float. Qed.
Print Assumptions C08_absolute_bound_float.

Example C08_nonvacuous :
  libm_ok (DA (lm64 false)) (DA_ieee (lm64 false)) /\ finite_le 500 ex_eb /\
  (forall x, In x exU \/ In x exV -> finite_le 500 x) /\
  (exists buf, compress_online_abs (DA (lm64 false)) ex_eb ord0 ub0 4 4 exU exV (repeat 0 256) = Some (buf, 159%nat)) /\
  short_codes (enc_online_abs (DA (lm64 false)) ex_eb) ord0 4 4 exU exV /\
  changed (enc_online_abs (DA (lm64 false)) ex_eb 4 4 exU exV) exU exV = Some 16 /\
  libm_ok (FA (lm32 false)) (FA_ieee (lm32 false)).
Proof.
  split; [apply lm64_ok|]. split; [apply dy_finite; lia|]. split; [exact ex_fin|].
  split; [apply out_size_some, ex_abs_runs|]. split; [|split; [exact ex_abs_lossy|apply lm32_ok]].
  apply short_small; try reflexivity; try lia; eexists; eexists; reflexivity.
Qed.

(** Without the factor 1 + 2^-40 the statement is false: log2 rounds up. *)
Theorem C08_strict_bound_refuted : exists lm max_eb U V U' V' c u u',
  libm_ok (DA lm) (DA_ieee lm) /\ enc_online_abs (DA lm) max_eb 1 1 U V = Some (U', V', c) /\
  (forall x, In x U \/ In x V -> finite_le 500 x) /\ finite_le 500 max_eb /\
  aget U 0 = Some u /\ aget U' 0 = Some u' /\ u' <> u /\ is_finite 53 1024 u' = true /\
  (0 < B2R 53 1024 max_eb < Rabs (B2R 53 1024 u' - B2R 53 1024 u))%R.
Proof. exact strict_refuted. Qed.
Print Assumptions C08_strict_bound_refuted.

(** Without finiteness of the data it is false: a NaN neighbour makes the codec forget the bound
    (here 0; V'[0] = 1/2 for V[0] = 5/8). *)
Theorem C08_nan_neighbour_refuted : forall x86, exists U V U' V' c v v',
  enc_online_abs (DA (lm64 x86)) (dy 0 0) 2 2 U V = Some (U', V', c) /\ length U = 4%nat /\ length V = 4%nat /\
  aget V 0 = Some v /\ aget V' 0 = Some v' /\ B2R 53 1024 v = (5 / 8)%R /\ B2R 53 1024 v' = (1 / 2)%R /\
  is_finite 53 1024 v' = true.
Proof. exact nan_abs_refuted. Qed.
Print Assumptions C08_nan_neighbour_refuted.

(** C09. *)
Theorem C09_relative_bound_double : forall lm, libm_ok (DA lm) (DA_ieee lm) ->
  forall max_eb ord ub r1 r2 U V junk buf size,
  0 <= r1 -> 0 < r2 -> Z.of_nat (length U) = r1 * r2 -> Z.of_nat (length V) = r1 * r2 -> Z.of_nat (length junk) < 2 ^ 64 ->
  is_finite 53 1024 max_eb = true -> (B2R 53 1024 max_eb <= 1)%R ->
  (forall x, In x U \/ In x V -> finite_le 500 x /\ normal_enough x) ->
  compress_online (DA lm) max_eb ord ub r1 r2 U V junk = Some (buf, size) ->
  short_codes (enc_online (DA lm) max_eb) ord r1 r2 U V ->
  exists U' V', decompress_online (DA lm) r1 r2 (firstn size buf) = Some (U', V') /\
    length U' = length U /\ length V' = length V /\
    forall k u v u' v', aget U k = Some u -> aget V k = Some v -> aget U' k = Some u' -> aget V' k = Some v' ->
      let b x := (Rabs (B2R 53 1024 x) * B2R 53 1024 max_eb * (1 + bpow radix2 (-39)))%R in
      (u' = u /\ v' = v) \/ (differs_lt (b u) u u' /\ differs_lt (b v) v v').
Proof. exact rel_api_double. Qed.
Print Assumptions C09_relative_bound_double.

Theorem C09_relative_bound_float : forall lm, libm_ok (FA lm) (FA_ieee lm) ->
  forall max_eb ord ub r1 r2 U V junk buf size,
  0 <= r1 -> 0 < r2 -> Z.of_nat (length U) = r1 * r2 -> Z.of_nat (length V) = r1 * r2 -> Z.of_nat (length junk) < 2 ^ 64 ->
  is_finite 53 1024 max_eb = true -> (B2R 53 1024 max_eb <= 1)%R ->
  (forall x, In x U \/ In x V -> finite_le 56 x) ->
  compress_online (FA lm) max_eb ord ub r1 r2 U V junk = Some (buf, size) ->
  short_codes (enc_online (FA lm) max_eb) ord r1 r2 U V ->
  exists U' V', decompress_online (FA lm) r1 r2 (firstn size buf) = Some (U', V') /\
    length U' = length U /\ length V' = length V /\
    forall k u v u' v', aget U k = Some u -> aget V k = Some v -> aget U' k = Some u' -> aget V' k = Some v' ->
      let b x := (Rabs (B2R 24 128 x) * B2R 53 1024 max_eb * (1 + bpow radix2 (-39)))%R in
      (u' = u /\ v' = v) \/ (differs_lt (b u) u u' /\ differs_lt (b v) v v').
Proof. exact rel_api_float. Qed.
Print Assumptions C09_relative_bound_float.

Example C09_nonvacuous :
  libm_ok (DA (lm64 false)) (DA_ieee (lm64 false)) /\ is_finite 53 1024 rx_eb = true /\ (B2R 53 1024 rx_eb <= 1)%R /\
  (forall x, In x rxU \/ In x rxV -> finite_le 500 x /\ normal_enough x) /\
  (exists buf, compress_online (DA (lm64 false)) rx_eb ord0 ub0 4 4 rxU rxV (repeat 0 256) = Some (buf, 134%nat)) /\
  short_codes (enc_online (DA (lm64 false)) rx_eb) ord0 4 4 rxU rxV /\
  changed (enc_online (DA (lm64 false)) rx_eb 4 4 rxU rxV) rxU rxV = Some 16.
Proof.
  split; [apply lm64_ok|]. split; [reflexivity|]. split.
  { pose proof (dy_val 1 (-3) ltac:(lia) ltac:(lia)) as E. apply val_fin_iff in E. destruct E as [_ E]. unfold rx_eb. rewrite E.
    rewrite Rmult_1_l. change 1%R with (bpow radix2 0). apply bpow_le. lia. }
  split; [exact rx_fin|]. split; [apply out_size_some, ex_rel_runs|]. split; [|exact ex_rel_lossy].
  apply short_small; try reflexivity; try lia; eexists; eexists; reflexivity.
Qed.

Theorem C09_nan_neighbour_refuted : forall x86, exists U V U' V' c u u',
  enc_online (DA (lm64 x86)) (dy 0 0) 2 2 U V = Some (U', V', c) /\ length U = 4%nat /\ length V = 4%nat /\
  aget U 0 = Some u /\ aget U' 0 = Some u' /\ B2R 53 1024 u = (5 / 2)%R /\ B2R 53 1024 u' = 2%R /\
  is_finite 53 1024 u' = true.
Proof. exact nan_rel_refuted. Qed.
Print Assumptions C09_nan_neighbour_refuted.

(** C10.  Exact arithmetic. *)
Theorem C10_relative_keeps_critical_points : forall max_eb r1 r2 u v U' V' c,
  (0 <= r1)%Z -> (0 < r2)%Z -> Z.of_nat (length u) = (r1 * r2)%Z -> Z.of_nat (length v) = (r1 * r2)%Z ->
  enc_online XA (Fin max_eb) r1 r2 (map Fin u) (map Fin v) = Some (U', V', c) ->
  exists u' v', decode r1 r2 c = Some (map Fin u', map Fin v') /\
  forall a b d, cell r1 r2 a b d ->
    (has_cp (vecR r2 u v a) (vecR r2 u v b) (vecR r2 u v d) <->
     has_cp (vecR r2 u' v' a) (vecR r2 u' v' b) (vecR r2 u' v' d)).
Proof. exact rel_preserves. Qed.
Print Assumptions C10_relative_keeps_critical_points.

Theorem C10_total : forall max_eb r1 r2 u v, (max_eb <= big)%R -> (0 <= r1)%Z -> (0 < r2)%Z ->
  Z.of_nat (length u) = (r1 * r2)%Z -> Z.of_nat (length v) = (r1 * r2)%Z ->
  Forall (fun x => Rabs x <= big)%R u -> Forall (fun x => Rabs x <= big)%R v ->
  exists r, enc_online XA (Fin max_eb) r1 r2 (map Fin u) (map Fin v) = Some r.
Proof. exact rel_total. Qed.
Print Assumptions C10_total.

(** C11 and the 2D part of C27. *)
Theorem C11_absolute_keeps_critical_points : forall max_eb r1 r2 u v U' V' c,
  (0 <= r1)%Z -> (0 < r2)%Z -> Z.of_nat (length u) = (r1 * r2)%Z -> Z.of_nat (length v) = (r1 * r2)%Z ->
  enc_online_abs XA (Fin max_eb) r1 r2 (map Fin u) (map Fin v) = Some (U', V', c) ->
  exists u' v', decode r1 r2 c = Some (map Fin u', map Fin v') /\
  forall a b d, cell r1 r2 a b d ->
    let t w := has_cp (w a) (w b) (w d) in
    (t (vecR r2 u v) <-> t (vecR r2 u' v')) /\
    (t (vecR r2 u v) -> forall x, In x [a; b; d] -> vecR r2 u' v' x = vecR r2 u v x).
Proof. exact abs_preserves. Qed.
Print Assumptions C11_absolute_keeps_critical_points.

Theorem C11_total : forall max_eb r1 r2 u v, (max_eb <= big)%R -> (0 <= r1)%Z -> (0 < r2)%Z ->
  Z.of_nat (length u) = (r1 * r2)%Z -> Z.of_nat (length v) = (r1 * r2)%Z ->
  Forall (fun x => Rabs x <= big)%R u -> Forall (fun x => Rabs x <= big)%R v ->
  exists r, enc_online_abs XA (Fin max_eb) r1 r2 (map Fin u) (map Fin v) = Some r.
Proof. exact abs_total. Qed.
Print Assumptions C11_total.

(** A field with a critical cell and a non-critical one; both encoders succeed on it. *)
Example C10_C11_nonvacuous :
  (exists r, enc_online XA (Fin 1) 2 2 (map Fin gu) (map Fin gv) = Some r) /\
  (exists r, enc_online_abs XA (Fin 1) 2 2 (map Fin gu) (map Fin gv) = Some r) /\
  cell 2 2 (0, 0) (1, 0) (1, 1) /\ cell 2 2 (0, 0) (0, 1) (1, 1) /\
  has_cp (vecR 2 gu gv (0, 0)) (vecR 2 gu gv (1, 0)) (vecR 2 gu gv (1, 1)) /\
  ~ has_cp (vecR 2 gu gv (0, 0)) (vecR 2 gu gv (0, 1)) (vecR 2 gu gv (1, 1)).
Proof.
  destruct g_small as [G1 G2]. pose proof big_ge_1 as B.
  split; [apply rel_total; auto; try lia; try reflexivity|]. split; [apply abs_total; auto; try lia; try reflexivity|].
  split; [apply (cell_lower 2 2 0 0); lia|]. split; [apply (cell_upper 2 2 0 0); lia|]. split; [exact g_cp|exact g_nocp].
Qed.

(** C23.  Exact arithmetic. *)
Theorem C23_bound_rounding : forall base thr eb id abs_eb,
  (2 <= base)%Z -> (0 < thr)%R ->
  eb_exponential_quantize XA base (Fin thr) (Fin eb) = Some (id, abs_eb) ->
  (eb <= thr /\ id = 0%Z /\ abs_eb = Fin 0)%R \/
  (thr < eb /\ (0 <= id)%Z /\ exists a, abs_eb = Fin a /\ a = powerRZ (IZR base) id * thr /\ 0 < a /\
   a <= eb < IZR base * a)%R.
Proof. exact quantize_exact. Qed.
Print Assumptions C23_bound_rounding.
(** Double arithmetic with rounded log2: enlarged by at most a factor 1 + 2^-40. *)
Theorem C23_bound_rounding_ieee : forall A (I : ieee A), libm_ok A I -> forall b t thr eb0 e id ab,
  (1 <= b <= 2)%Z -> (0 <= t <= 52)%Z -> vD A I thr = Fin (bpow radix2 (- t)) ->
  eb_exponential_quantize A (2 ^ b) thr eb0 = Some (id, ab) -> (0 < id)%Z ->
  vD A I eb0 = Fin e -> (e * bpow radix2 t <= bpow radix2 1022)%R ->
  (b * id <= 1023)%Z /\ (bpow radix2 (- t) < e)%R /\
  vD A I ab = Fin (bpow radix2 (b * id - t)) /\ (bpow radix2 (b * id - t) <= e * (1 + bpow radix2 (-40)))%R.
Proof. exact quantize_ieee. Qed.
Print Assumptions C23_bound_rounding_ieee.
Example C23_nonvacuous : exists id ab, eb_exponential_quantize XA 4 (Fin (bpow radix2 (-52))) (Fin 1) = Some (id, ab).
Proof. exact quantize_example. Qed.

(** C24 for the 2D tables. *)
Theorem C24_2d_sound : forall r1 r2 i j k, (k < 6)%nat -> 0 <= i < r1 -> 0 <= j < r2 -> in_mesh r1 r2 i j k = true ->
  exists a b c, cell r1 r2 a b c /\ same_cell a b c (nbr i j k 0) (nbr i j k 1) (i, j).
Proof. exact table_sound. Qed.
Print Assumptions C24_2d_sound.
Theorem C24_2d_complete : forall r1 r2 a b c i j, cell r1 r2 a b c -> In (i, j) [a; b; c] ->
  exists k, (k < 6)%nat /\ in_mesh r1 r2 i j k = true /\ same_cell a b c (nbr i j k 0) (nbr i j k 1) (i, j).
Proof. exact table_complete. Qed.
Print Assumptions C24_2d_complete.
Theorem C24_2d_unique : forall i j k k', (k < 6)%nat -> (k' < 6)%nat ->
  same_cell (nbr i j k 0) (nbr i j k 1) (i, j) (nbr i j k' 0) (nbr i j k' 1) (i, j) -> k = k'.
Proof. exact table_unique. Qed.
Print Assumptions C24_2d_unique.
Theorem C24_2d_offsets : forall r2 i j k, (k < 6)%nat ->
  i * r2 + j + offset r2 k = lin r2 (nbr i j k 0) /\ i * r2 + j + offset r2 (S k) = lin r2 (nbr i j k 1).
Proof. exact offset_lin. Qed.
Print Assumptions C24_2d_offsets.
Example C24_nonvacuous : in_mesh 3 3 1 1 0 = true /\ in_mesh 3 3 0 0 0 = false /\ cell 3 3 (0, 0) (0, 1) (1, 1).
Proof. split; [reflexivity|]. split; [reflexivity|]. apply (cell_upper 3 3 0 0); lia. Qed.

(** C25.  False: a field whose every point has a zero component never fits. *)
Theorem C25_fits_refuted : forall A (I : ieee A), libm_ok A I -> ser_ok A -> forall max_eb ord ub r1 r2 U V junk,
  0 <= r1 -> 0 < r2 ->
  (forall p u v, aget U p = Some u -> aget V p = Some v -> vT A I u = Fin 0 \/ vT A I v = Fin 0) ->
  compress_online A max_eb ord ub r1 r2 U V junk = None /\ compress_online_abs A max_eb ord ub r1 r2 U V junk = None.
Proof. exact overflow_both. Qed.
Print Assumptions C25_fits_refuted.
Example C25_refuted_nonvacuous : exists r, enc_online_abs (DA (lm64 false)) ex_eb 100 100 (zeros64 (100 * 100)) (zeros64 (100 * 100)) = Some r.
Proof. exact zeros_encode. Qed.
(** What holds: whenever the parts of the stream and 8 spare bytes fit, the stream is written and has the sum of
    their sizes. *)
Theorem C25_fits_partial : forall A (I : ieee A), libm_ok A I -> forall req abs_eb ord ub r1 r2 U V U' V' c junk n1 n2,
  0 < r1 -> 0 < r2 -> Z.of_nat (length U) = (r1 * r2)%Z -> Z.of_nat (length V) = (r1 * r2)%Z ->
  enc_field A req abs_eb r1 r2 U V = Some (U', V', c) -> code_words_64 ord c ->
  ser_ok A -> Z.of_nat (length junk) = (2 * (r1 * r2) * Z.of_nat (tsize_of A))%Z -> (Z.of_nat (length junk) < 2 ^ 64)%Z ->
  piece_size_ok ord ub (Huff 2048 (c_eb c)) n1 -> piece_size_ok ord ub (Huff 131072 (c_q c)) n2 ->
  (24 + Z.of_nat (length (c_unp c) * tsize_of A) + n1 + n2 + 8 <= Z.of_nat (length junk))%Z ->
  exists buf, write_stream A ord ub (r1 * r2) c junk
    = Some (buf, Z.to_nat (24 + Z.of_nat (length (c_unp c) * tsize_of A) + n1 + n2)).
Proof. exact fits. Qed.
Print Assumptions C25_fits_partial.
Example C25_partial_nonvacuous :
  exists buf, compress_online_abs (DA (lm64 false)) ex_eb ord0 ub0 4 4 exU exV (repeat 0 256) = Some (buf, 159%nat) /\ (159 + 8 <= 256)%nat.
Proof. destruct (out_size_some _ _ ex_abs_runs) as [b E]. exists b. split; [exact E|lia]. Qed.

(** C29.  The stream is written into a block of any size: the codec's own block never suffices (last theorem). *)
Theorem C29_absolute_zero_bound_double : forall lm, libm_ok (DA lm) (DA_ieee lm) ->
  forall max_eb ord ub r1 r2 U V U' V' c junk buf size,
  0 <= r1 -> 0 < r2 -> Z.of_nat (length U) = r1 * r2 -> Z.of_nat (length V) = r1 * r2 -> Z.of_nat (length junk) < 2 ^ 64 ->
  is_finite 53 1024 max_eb = true -> (B2R 53 1024 max_eb <= 0)%R -> (forall x, In x U \/ In x V -> finite_le 500 x) ->
  enc_online_abs (DA lm) max_eb r1 r2 U V = Some (U', V', c) -> code_words_64 ord c ->
  write_pieces ord ub (stream_pieces (DA lm) c) junk 0 = Some (buf, size) ->
  decompress_online (DA lm) r1 r2 (firstn size buf) = Some (U, V).
Proof. exact abs_zero_api_double. Qed.
Print Assumptions C29_absolute_zero_bound_double.

Theorem C29_absolute_zero_bound_float : forall lm, libm_ok (FA lm) (FA_ieee lm) ->
  forall max_eb ord ub r1 r2 U V U' V' c junk buf size,
  0 <= r1 -> 0 < r2 -> Z.of_nat (length U) = r1 * r2 -> Z.of_nat (length V) = r1 * r2 -> Z.of_nat (length junk) < 2 ^ 64 ->
  is_finite 53 1024 max_eb = true -> (B2R 53 1024 max_eb <= 0)%R -> (forall x, In x U \/ In x V -> finite_le 56 x) ->
  enc_online_abs (FA lm) max_eb r1 r2 U V = Some (U', V', c) -> code_words_64 ord c ->
  write_pieces ord ub (stream_pieces (FA lm) c) junk 0 = Some (buf, size) ->
  decompress_online (FA lm) r1 r2 (firstn size buf) = Some (U, V).
Proof. exact abs_zero_api_float. Qed.
Print Assumptions C29_absolute_zero_bound_float.

Theorem C29_relative_zero_bound_double : forall lm, libm_ok (DA lm) (DA_ieee lm) ->
  forall max_eb ord ub r1 r2 U V U' V' c junk buf size,
  0 <= r1 -> 0 < r2 -> Z.of_nat (length U) = r1 * r2 -> Z.of_nat (length V) = r1 * r2 -> Z.of_nat (length junk) < 2 ^ 64 ->
  is_finite 53 1024 max_eb = true -> (B2R 53 1024 max_eb <= 0)%R -> (forall x, In x U \/ In x V -> finite_le 500 x /\ normal_enough x) ->
  enc_online (DA lm) max_eb r1 r2 U V = Some (U', V', c) -> code_words_64 ord c ->
  write_pieces ord ub (stream_pieces (DA lm) c) junk 0 = Some (buf, size) ->
  decompress_online (DA lm) r1 r2 (firstn size buf) = Some (U, V).
Proof. exact rel_zero_api_double. Qed.
Print Assumptions C29_relative_zero_bound_double.

Theorem C29_relative_zero_bound_float : forall lm, libm_ok (FA lm) (FA_ieee lm) ->
  forall max_eb ord ub r1 r2 U V U' V' c junk buf size,
  0 <= r1 -> 0 < r2 -> Z.of_nat (length U) = r1 * r2 -> Z.of_nat (length V) = r1 * r2 -> Z.of_nat (length junk) < 2 ^ 64 ->
  is_finite 53 1024 max_eb = true -> (B2R 53 1024 max_eb <= 0)%R -> (forall x, In x U \/ In x V -> finite_le 56 x) ->
  enc_online (FA lm) max_eb r1 r2 U V = Some (U', V', c) -> code_words_64 ord c ->
  write_pieces ord ub (stream_pieces (FA lm) c) junk 0 = Some (buf, size) ->
  decompress_online (FA lm) r1 r2 (firstn size buf) = Some (U, V).
Proof. exact rel_zero_api_float. Qed.
Print Assumptions C29_relative_zero_bound_float.

Example C29_nonvacuous : zx_out = Some 336%nat /\ zx_rel_out = Some 336%nat.
Proof. exact zx_runs. Qed.
(** ... so with its own block of 2 * r1 * r2 * sizeof(T) bytes the absolute codec writes out of bounds. *)
Theorem C29_zero_bound_overflow_refuted : forall A (I : ieee A), ser_ok A -> forall B max_eb m ord ub r1 r2 U V junk,
  0 <= B -> 2 * B + 8 < eT A I -> vD A I max_eb = Fin m -> (m <= 0)%R -> 0 <= r1 -> 0 < r2 ->
  moderate A I B U -> moderate A I B V -> compress_online_abs A max_eb ord ub r1 r2 U V junk = None.
Proof. exact zero_bound_overflow. Qed.
Print Assumptions C29_zero_bound_overflow_refuted.

(** C30. *)
Theorem C30_nonfinite_double : forall lm, libm_ok (DA lm) (DA_ieee lm) ->
  forall compress enc max_eb ord ub r1 r2 U V junk buf size,
  (compress = compress_online (DA lm) max_eb /\ enc = enc_online (DA lm) max_eb) \/
  (compress = compress_online_abs (DA lm) max_eb /\ enc = enc_online_abs (DA lm) max_eb) ->
  0 <= r1 -> 0 < r2 -> Z.of_nat (length U) = r1 * r2 -> Z.of_nat (length V) = r1 * r2 -> Z.of_nat (length junk) < 2 ^ 64 ->
  compress ord ub r1 r2 U V junk = Some (buf, size) -> short_codes enc ord r1 r2 U V ->
  exists U' V', decompress_online (DA lm) r1 r2 (firstn size buf) = Some (U', V') /\
    forall k u v, aget U k = Some u -> aget V k = Some v -> is_finite 53 1024 u = false \/ is_finite 53 1024 v = false ->
      aget U' k = Some u /\ aget V' k = Some v.
Proof. exact nonfinite_api_double. Qed.
Print Assumptions C30_nonfinite_double.

Theorem C30_nonfinite_float : forall lm, libm_ok (FA lm) (FA_ieee lm) ->
  forall compress enc max_eb ord ub r1 r2 U V junk buf size,
  (compress = compress_online (FA lm) max_eb /\ enc = enc_online (FA lm) max_eb) \/
  (compress = compress_online_abs (FA lm) max_eb /\ enc = enc_online_abs (FA lm) max_eb) ->
  0 <= r1 -> 0 < r2 -> Z.of_nat (length U) = r1 * r2 -> Z.of_nat (length V) = r1 * r2 -> Z.of_nat (length junk) < 2 ^ 64 ->
  compress ord ub r1 r2 U V junk = Some (buf, size) -> short_codes enc ord r1 r2 U V ->
  exists U' V', decompress_online (FA lm) r1 r2 (firstn size buf) = Some (U', V') /\
    forall k u v, aget U k = Some u -> aget V k = Some v -> is_finite 24 128 u = false \/ is_finite 24 128 v = false ->
      aget U' k = Some u /\ aget V' k = Some v.
Proof. exact nonfinite_api_float. Qed.
Print Assumptions C30_nonfinite_float.

Example C30_nonvacuous :
  (exists buf, compress_online_abs (DA (lm64 true)) ex_eb ord0 ub0 1 16 nfU nfV (repeat 0 256) = Some (buf, 179%nat)) /\
  short_codes (enc_online_abs (DA (lm64 true)) ex_eb) ord0 1 16 nfU nfV /\
  aget nfU 15 = Some dnan /\ is_finite 53 1024 dnan = false.
Proof.
  split; [apply out_size_some, nf_runs|]. split; [|split; reflexivity].
  apply short_small; try reflexivity; try lia; eexists; eexists; reflexivity.
Qed.

(** C33.  No undefined conversion on moderate finite fields ... *)
Theorem C33_no_undefined_conversion_double : forall lm, libm_ok (DA lm) (DA_ieee lm) -> forall max_eb r1 r2 U V,
  0 <= r1 -> 0 < r2 -> Z.of_nat (length U) = r1 * r2 -> Z.of_nat (length V) = r1 * r2 ->
  is_finite 53 1024 max_eb = true -> (forall x, In x U \/ In x V -> finite_le 500 x) ->
  ((B2R 53 1024 max_eb <= 1)%R -> exists r, enc_online (DA lm) max_eb r1 r2 U V = Some r) /\
  ((B2R 53 1024 max_eb <= bpow radix2 500)%R -> exists r, enc_online_abs (DA lm) max_eb r1 r2 U V = Some r).
Proof. exact noub_double. Qed.
Print Assumptions C33_no_undefined_conversion_double.
Theorem C33_no_undefined_conversion_float : forall lm, libm_ok (FA lm) (FA_ieee lm) -> forall max_eb r1 r2 U V,
  0 <= r1 -> 0 < r2 -> Z.of_nat (length U) = r1 * r2 -> Z.of_nat (length V) = r1 * r2 ->
  is_finite 53 1024 max_eb = true -> (forall x, In x U \/ In x V -> finite_le 56 x) ->
  ((B2R 53 1024 max_eb <= 1)%R -> exists r, enc_online (FA lm) max_eb r1 r2 U V = Some r) /\
  ((B2R 53 1024 max_eb <= bpow radix2 56)%R -> exists r, enc_online_abs (FA lm) max_eb r1 r2 U V = Some r).
Proof. exact noub_float. Qed.
Print Assumptions C33_no_undefined_conversion_float.
(** ... and if out-of-range conversions give INT_MIN, the encoders return on every input. *)
Theorem C33_machine_total_double : forall (lm : Libm _ _) max_eb r1 r2 U V, lm_x86 lm = true ->
  0 <= r1 -> 0 < r2 -> Z.of_nat (length U) = r1 * r2 -> Z.of_nat (length V) = r1 * r2 ->
  (exists r, enc_online (DA lm) max_eb r1 r2 U V = Some r) /\ (exists r, enc_online_abs (DA lm) max_eb r1 r2 U V = Some r).
Proof. exact machine_double. Qed.
Print Assumptions C33_machine_total_double.
Theorem C33_machine_total_float : forall (lm : Libm _ _) max_eb r1 r2 U V, lm_x86 lm = true ->
  0 <= r1 -> 0 < r2 -> Z.of_nat (length U) = r1 * r2 -> Z.of_nat (length V) = r1 * r2 ->
  (exists r, enc_online (FA lm) max_eb r1 r2 U V = Some r) /\ (exists r, enc_online_abs (FA lm) max_eb r1 r2 U V = Some r).
Proof. exact machine_float. Qed.
Print Assumptions C33_machine_total_float.
Example C33_nonvacuous : (forall x, In x exU \/ In x exV -> finite_le 500 x) /\ lm_x86 (lm64 true) = true.
Proof. split; [exact ex_fin|reflexivity]. Qed.
(** For an infinite component the conversion is undefined. *)
Theorem C33_infinite_component_refuted : enc_online (DA (lm64 false)) (dy 1 (-1)) 1 1 [dinf] [dy 1 0] = None.
Proof. exact inf_ub. Qed.
Print Assumptions C33_infinite_component_refuted.
