(** Property theorems about the 2D log-domain codec (C12).  Conventions as in Prop_2D. *)
From Coq Require Import Reals Lra Lia ZArith List Bool.
From Flocq Require Import Core.Core IEEE754.BinarySingleNaN IEEE754.Binary IEEE754.Bits.
From Verif Require Import Base Huffman HuffStream HuffProps Stream Arith Mesh2D Derive2D Codec2D Sync2D Trace2D Scan Stream2D Exact Cells2D Geo2D
  Preserve2D Total2D IEEE IEEELaws IEEEQuant IEEE2D Api2D LibmModel Witness2D Examples2D Refute2D
  Log2D LogSync2D LogCells2D LogErr2D LogLibm LogApi2D LogRefute2D LogTotal2D.
Import ListNotations.
Local Open Scope Z_scope.

(** Exact arithmetic. *)
Theorem C12_keeps_critical_points : forall max_eb r1 r2 u v s c,
  (0 <= max_eb <= 1)%R -> 0 <= r1 -> 0 < r2 -> Z.of_nat (length u) = r1 * r2 -> Z.of_nat (length v) = r1 * r2 ->
  (forall x, In x u \/ In x v -> not_tiny x) ->
  enc_log XA (Fin max_eb) r1 r2 (map Fin u) (map Fin v) = Some (s, c) ->
  exists u' v', decode_log XA 2 intv_radius r1 r2 (map (fun x => log_sign XA (Fin x)) u) (map (fun x => log_sign XA (Fin x)) v) c
                  = Some (map Fin u', map Fin v') /\
  forall a b d, cell r1 r2 a b d ->
    (has_cp (vecR r2 u v a) (vecR r2 u v b) (vecR r2 u v d) <->
     has_cp (vecR r2 u' v' a) (vecR r2 u' v' b) (vecR r2 u' v' d)).
Proof. exact log_preserves. Qed.
Print Assumptions C12_keeps_critical_points.

Theorem C12_total : forall max_eb r1 r2 u v, (0 <= max_eb <= 1)%R -> 0 <= r1 -> 0 < r2 ->
  Z.of_nat (length u) = r1 * r2 -> Z.of_nat (length v) = r1 * r2 ->
  exists s c, enc_log XA (Fin max_eb) r1 r2 (map Fin u) (map Fin v) = Some (s, c).
Proof. exact log_total. Qed.
Print Assumptions C12_total.

Example C12_exact_nonvacuous :
  (exists s c, enc_log XA (Fin 1) 2 2 (map Fin gu) (map Fin gv) = Some (s, c)) /\
  (forall x, In x gu \/ In x gv -> not_tiny x) /\
  cell 2 2 (0, 0) (1, 0) (1, 1) /\ cell 2 2 (0, 0) (0, 1) (1, 1) /\
  has_cp (vecR 2 gu gv (0, 0)) (vecR 2 gu gv (1, 0)) (vecR 2 gu gv (1, 1)) /\
  ~ has_cp (vecR 2 gu gv (0, 0)) (vecR 2 gu gv (0, 1)) (vecR 2 gu gv (1, 1)).
Proof. exact ex_log_exact. Qed.

(** The machine, where an unrepresentable conversion gives INT_MIN: the encoder returns for every input. *)
Theorem C12_machine_total_double : forall (lm : Libm _ _) max_eb r1 r2 U V, lm_x86 lm = true ->
  0 <= r1 -> 0 < r2 -> Z.of_nat (length U) = r1 * r2 -> Z.of_nat (length V) = r1 * r2 ->
  exists s c, enc_log (DA lm) max_eb r1 r2 U V = Some (s, c).
Proof. exact log_machine_double. Qed.
Print Assumptions C12_machine_total_double.
Theorem C12_machine_total_float : forall (lm : Libm _ _) max_eb r1 r2 U V, lm_x86 lm = true ->
  0 <= r1 -> 0 < r2 -> Z.of_nat (length U) = r1 * r2 -> Z.of_nat (length V) = r1 * r2 ->
  exists s c, enc_log (FA lm) max_eb r1 r2 U V = Some (s, c).
Proof. exact log_machine_float. Qed.
Print Assumptions C12_machine_total_float.

(** Bytes, for every mathematical library and every field without NaN: [U'], [V'] are the compressor's working copies, [LU], [LV] its
    reconstructed logarithms. *)
Theorem C12_round_trip_double : forall lm max_eb ord ub r1 r2 U V junk buf size,
  0 <= r1 -> 0 < r2 -> Z.of_nat (length U) = r1 * r2 -> Z.of_nat (length V) = r1 * r2 -> Z.of_nat (length junk) < 2 ^ 64 ->
  (forall x, In x U \/ In x V -> not_nan x) ->
  compress_log (DA lm) max_eb ord ub r1 r2 U V junk = Some (buf, size) -> log_short (DA lm) max_eb ord r1 r2 U V ->
  exists Ud Vd U' V' LU LV c,
    decompress_log (DA lm) r1 r2 (firstn size buf) = Some (Ud, Vd) /\ enc_log (DA lm) max_eb r1 r2 U V = Some (U', V', LU, LV, c) /\
    length Ud = length U /\ length Vd = length V /\
    forall k u v ud vd, aget U k = Some u -> aget V k = Some v -> aget Ud k = Some ud -> aget Vd k = Some vd ->
      (ud = u /\ vd = v /\ aget U' k = Some u /\ aget V' k = Some v) \/
      (is_zero u = false /\ is_zero v = false /\ exists lu lv u' v',
         aget LU k = Some lu /\ aget LV k = Some lv /\ aget U' k = Some u' /\ aget V' k = Some v' /\
         ud = (if blt 53 1024 lu (b64_ofZ (-99)) then B754_zero 53 1024 false else u') /\
         vd = (if blt 53 1024 lv (b64_ofZ (-99)) then B754_zero 53 1024 false else v')).
Proof. exact log_api_double. Qed.
Print Assumptions C12_round_trip_double.

Theorem C12_round_trip_float : forall lm max_eb ord ub r1 r2 U V junk buf size,
  0 <= r1 -> 0 < r2 -> Z.of_nat (length U) = r1 * r2 -> Z.of_nat (length V) = r1 * r2 -> Z.of_nat (length junk) < 2 ^ 64 ->
  (forall x, In x U \/ In x V -> not_nan x) ->
  compress_log (FA lm) max_eb ord ub r1 r2 U V junk = Some (buf, size) -> log_short (FA lm) max_eb ord r1 r2 U V ->
  exists Ud Vd U' V' LU LV c,
    decompress_log (FA lm) r1 r2 (firstn size buf) = Some (Ud, Vd) /\ enc_log (FA lm) max_eb r1 r2 U V = Some (U', V', LU, LV, c) /\
    length Ud = length U /\ length Vd = length V /\
    forall k u v ud vd, aget U k = Some u -> aget V k = Some v -> aget Ud k = Some ud -> aget Vd k = Some vd ->
      (ud = u /\ vd = v /\ aget U' k = Some u /\ aget V' k = Some v) \/
      (is_zero u = false /\ is_zero v = false /\ exists lu lv u' v',
         aget LU k = Some lu /\ aget LV k = Some lv /\ aget U' k = Some u' /\ aget V' k = Some v' /\
         ud = (if blt 24 128 lu (b32_ofZ (-99)) then B754_zero 24 128 false else u') /\
         vd = (if blt 24 128 lv (b32_ofZ (-99)) then B754_zero 24 128 false else v')).
Proof. exact log_api_float. Qed.
Print Assumptions C12_round_trip_float.

(** Relative error.  [zero_or_usual k]: zero, or of magnitude between 2^-97 and 2^k. *)
Theorem C12_relative_bound_double : forall lm, libm_ok (DA lm) (DA_ieee lm) -> log_libm_ok (DA lm) (DA_ieee lm) -> forall max_eb ord ub r1 r2 U V junk buf size,
  0 <= r1 -> 0 < r2 -> Z.of_nat (length U) = r1 * r2 -> Z.of_nat (length V) = r1 * r2 -> Z.of_nat (length junk) < 2 ^ 64 ->
  is_finite 53 1024 max_eb = true -> (0 <= B2R 53 1024 max_eb <= 1)%R -> (forall x, In x U \/ In x V -> zero_or_usual 100 x) ->
  compress_log (DA lm) max_eb ord ub r1 r2 U V junk = Some (buf, size) -> log_short (DA lm) max_eb ord r1 r2 U V ->
  exists U' V', decompress_log (DA lm) r1 r2 (firstn size buf) = Some (U', V') /\
    (exists LU LV c, enc_log (DA lm) max_eb r1 r2 U V = Some (U', V', LU, LV, c)) /\
    length U' = length U /\ length V' = length V /\
    forall k u v u' v', aget U k = Some u -> aget V k = Some v -> aget U' k = Some u' -> aget V' k = Some v' ->
      let b := (B2R 53 1024 max_eb + bpow radix2 (-13))%R in
      (u' = u /\ v' = v) \/ (rel_differs_le b u u' /\ rel_differs_le b v v').
Proof. exact log_bound_double. Qed.
Print Assumptions C12_relative_bound_double.

Theorem C12_relative_bound_float : forall lm, libm_ok (FA lm) (FA_ieee lm) -> log_libm_ok (FA lm) (FA_ieee lm) -> forall max_eb ord ub r1 r2 U V junk buf size,
  0 <= r1 -> 0 < r2 -> Z.of_nat (length U) = r1 * r2 -> Z.of_nat (length V) = r1 * r2 -> Z.of_nat (length junk) < 2 ^ 64 ->
  is_finite 53 1024 max_eb = true -> (0 <= B2R 53 1024 max_eb <= 1)%R -> (forall x, In x U \/ In x V -> zero_or_usual 56 x) ->
  compress_log (FA lm) max_eb ord ub r1 r2 U V junk = Some (buf, size) -> log_short (FA lm) max_eb ord r1 r2 U V ->
  exists U' V', decompress_log (FA lm) r1 r2 (firstn size buf) = Some (U', V') /\
    (exists LU LV c, enc_log (FA lm) max_eb r1 r2 U V = Some (U', V', LU, LV, c)) /\
    length U' = length U /\ length V' = length V /\
    forall k u v u' v', aget U k = Some u -> aget V k = Some v -> aget U' k = Some u' -> aget V' k = Some v' ->
      let b := (B2R 53 1024 max_eb + bpow radix2 (-13))%R in
      (u' = u /\ v' = v) \/ (rel_differs_le b u u' /\ rel_differs_le b v v').
Proof. exact log_bound_float. Qed.
Print Assumptions C12_relative_bound_float.

(** A run that codes points, with the hypotheses of the four theorems above. *)
Example C12_nonvacuous :
  (exists buf, compress_log (DA (lmlog64 false)) one ord0 ub0 1 16 lgU lgV (repeat 0 256) = Some (buf, 172%nat)) /\
  libm_ok (DA (lmlog64 false)) (DA_ieee (lmlog64 false)) /\ log_libm_ok (DA (lmlog64 false)) (DA_ieee (lmlog64 false)) /\
  log_short (DA (lmlog64 false)) one ord0 1 16 lgU lgV /\ (forall x, In x lgU \/ In x lgV -> zero_or_usual 100 x) /\
  is_finite 53 1024 one = true /\ (0 <= B2R 53 1024 one <= 1)%R.
Proof. exact (ex_log_ok false). Qed.

(** Without a lower limit on the magnitudes the bound fails: nonzero values come back as zeros, though the working copy has none. *)
Theorem C12_tiny_refuted : forall x86, exists U buf size Ud Vd U' V' LU LV c,
  (forall x, In x U -> is_finite 53 1024 x = true /\ @is_zero 53 1024 x = false) /\
  compress_log (DA (lmlog64 x86)) one ord0 ub0 1 10 U U (repeat 0 160) = Some (buf, size) /\
  enc_log (DA (lmlog64 x86)) one 1 10 U U = Some (U', V', LU, LV, c) /\
  decompress_log (DA (lmlog64 x86)) 1 10 (firstn size buf) = Some (Ud, Vd) /\
  length Ud = 10%nat /\ (forall x, In x Ud -> @is_zero 53 1024 x = true) /\ (forall x, In x U' -> @is_zero 53 1024 x = false).
Proof. exact log_tiny_refuted. Qed.
Print Assumptions C12_tiny_refuted.
