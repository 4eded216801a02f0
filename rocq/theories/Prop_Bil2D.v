(** Property theorems about the bilinear codec (C31, C40).  Conventions as in Prop_2D. *)
From Coq Require Import Reals Lra Lia ZArith List Bool.
From Flocq Require Import Core.Core IEEE754.BinarySingleNaN IEEE754.Binary IEEE754.Bits.
From Verif Require Import Base Huffman HuffStream HuffProps Stream Arith Mesh2D Derive2D Codec2D Sync2D Trace2D Scan Stream2D Exact
  IEEE IEEELaws IEEEQuant IEEE2D Api2D LibmModel Witness2D Examples2D Refute2D
  Log2D LogSync2D LogCells2D LogErr2D LogLibm LogApi2D LogRefute2D LogTotal2D Bil2D BilSync2D BilErr2D BilExact BilTotal2D BilApi2D BilRefute2D.
Import ListNotations.
Local Open Scope Z_scope.

(** The working copy, in any arithmetic and for any complex square root: the cell test gives the same types on every cell. *)
Theorem C31_cell_test : forall A cs max_eb r1 r2 U V U' V' LU LV c, 0 <= r1 -> 0 < r2 ->
  enc_bil A cs max_eb r1 r2 U V = Some (U', V', LU, LV, c) ->
  forall i j, 0 <= i < r1 - 1 -> 0 <= j < r2 - 1 -> cell_types A cs r2 U' V' i j = cell_types A cs r2 U V i j.
Proof. exact bil_cells. Qed.
Print Assumptions C31_cell_test.

(** Exact arithmetic, the decompressed field: a cell that is [regular] before and [solvable] after has as many zeros after as before, of the
    same types. *)
Theorem C31_keeps_zeros : forall max_eb r1 r2 U V s c,
  (0 <= max_eb <= 1)%R -> 0 <= r1 -> 0 < r2 -> Z.of_nat (length U) = r1 * r2 -> Z.of_nat (length V) = r1 * r2 ->
  (forall x, In x U \/ In x V -> not_tiny x) ->
  enc_bil XA csqrt0 (Fin max_eb) r1 r2 (map Fin U) (map Fin V) = Some (s, c) ->
  exists U' V', decode_log XA 2 intv_radius r1 r2 (map (fun x => log_sign XA (Fin x)) U) (map (fun x => log_sign XA (Fin x)) V) c
                  = Some (map Fin U', map Fin V') /\
  forall a b, 0 <= a < r1 - 1 -> 0 <= b < r2 - 1 -> exists u v u' v',
    cell_quad r2 U a b = Some u /\ cell_quad r2 V a b = Some v /\ cell_quad r2 U' a b = Some u' /\ cell_quad r2 V' a b = Some v' /\
    (regular u v -> solvable u' v' ->
     exists l l', zero_list u v l /\ zero_list u' v' l' /\ map (zero_type u v) l = map (zero_type u' v') l').
Proof. exact bil_keeps_zeros. Qed.
Print Assumptions C31_keeps_zeros.

Theorem C31_total : forall cs max_eb r1 r2 u v, (0 <= max_eb <= 1)%R -> 0 <= r1 -> 0 < r2 ->
  Z.of_nat (length u) = r1 * r2 -> Z.of_nat (length v) = r1 * r2 ->
  exists s c, enc_bil XA cs (Fin max_eb) r1 r2 (map Fin u) (map Fin v) = Some (s, c).
Proof. exact bil_total. Qed.
Print Assumptions C31_total.

Example C31_exact_nonvacuous :
  (exists s c, enc_bil XA csqrt0 (Fin 1) 2 2 (map Fin bqU) (map Fin bqV) = Some (s, c)) /\
  (forall x, In x bqU \/ In x bqV -> not_tiny x) /\
  exists u v, cell_quad 2 bqU 0 0 = Some u /\ cell_quad 2 bqV 0 0 = Some v /\
    regular u v /\ interp u (/ 2) (/ 2) = 0%R /\ interp v (/ 2) (/ 2) = 0%R /\ zero_type u v (/ 2, / 2)%R = 2.
Proof. exact ex_bil_exact. Qed.

(** Bytes.  [zero_or_usual k]: zero, or of magnitude between 2^-97 and 2^k.  The decompressed field is within the bound and its cells have the
    types of the original. *)
Theorem C31_decompressed_double : forall lm cs, libm_ok (DA lm) (DA_ieee lm) -> log_libm_ok (DA lm) (DA_ieee lm) -> forall max_eb ord ub r1 r2 U V junk buf size,
  0 <= r1 -> 0 < r2 -> Z.of_nat (length U) = r1 * r2 -> Z.of_nat (length V) = r1 * r2 -> Z.of_nat (length junk) < 2 ^ 64 ->
  is_finite 53 1024 max_eb = true -> (0 <= B2R 53 1024 max_eb <= 1)%R -> (forall x, In x U \/ In x V -> zero_or_usual 100 x) ->
  compress_bil (DA lm) cs max_eb ord ub r1 r2 U V junk = Some (buf, size) -> bil_short (DA lm) cs max_eb ord r1 r2 U V ->
  exists U' V', decompress_log (DA lm) r1 r2 (firstn size buf) = Some (U', V') /\
    length U' = length U /\ length V' = length V /\
    (forall k u v u' v', aget U k = Some u -> aget V k = Some v -> aget U' k = Some u' -> aget V' k = Some v' ->
      let b := (B2R 53 1024 max_eb + bpow radix2 (-13))%R in
      (u' = u /\ v' = v) \/ (rel_differs_le b u u' /\ rel_differs_le b v v')) /\
    forall i j, 0 <= i < r1 - 1 -> 0 <= j < r2 - 1 -> cell_types (DA lm) cs r2 U' V' i j = cell_types (DA lm) cs r2 U V i j.
Proof. exact bil_bound_double. Qed.
Print Assumptions C31_decompressed_double.

Theorem C31_decompressed_float : forall lm cs, libm_ok (FA lm) (FA_ieee lm) -> log_libm_ok (FA lm) (FA_ieee lm) -> forall max_eb ord ub r1 r2 U V junk buf size,
  0 <= r1 -> 0 < r2 -> Z.of_nat (length U) = r1 * r2 -> Z.of_nat (length V) = r1 * r2 -> Z.of_nat (length junk) < 2 ^ 64 ->
  is_finite 53 1024 max_eb = true -> (0 <= B2R 53 1024 max_eb <= 1)%R -> (forall x, In x U \/ In x V -> zero_or_usual 100 x) ->
  compress_bil (FA lm) cs max_eb ord ub r1 r2 U V junk = Some (buf, size) -> bil_short (FA lm) cs max_eb ord r1 r2 U V ->
  exists U' V', decompress_log (FA lm) r1 r2 (firstn size buf) = Some (U', V') /\
    length U' = length U /\ length V' = length V /\
    (forall k u v u' v', aget U k = Some u -> aget V k = Some v -> aget U' k = Some u' -> aget V' k = Some v' ->
      let b := (B2R 53 1024 max_eb + bpow radix2 (-13))%R in
      (u' = u /\ v' = v) \/ (rel_differs_le b u u' /\ rel_differs_le b v v')) /\
    forall i j, 0 <= i < r1 - 1 -> 0 <= j < r2 - 1 -> cell_types (FA lm) cs r2 U' V' i j = cell_types (FA lm) cs r2 U V i j.
Proof. exact bil_bound_float. Qed.
Print Assumptions C31_decompressed_float.

(** A run that codes points, with cells of all types but 5 and 6, with the hypotheses of the theorems above and below. *)
Example C31_nonvacuous :
  (exists buf, compress_bil (DA (lmlog64 false)) zero_re one ord0 ub0 2 16 bqU64 bqV64 (repeat 0 768) = Some (buf, 613%nat)) /\
  libm_ok (DA (lmlog64 false)) (DA_ieee (lmlog64 false)) /\ log_libm_ok (DA (lmlog64 false)) (DA_ieee (lmlog64 false)) /\
  bil_short (DA (lmlog64 false)) zero_re one ord0 2 16 bqU64 bqV64 /\ (forall x, In x bqU64 \/ In x bqV64 -> zero_or_usual 100 x) /\
  is_finite 53 1024 one = true /\ (0 <= B2R 53 1024 one <= 1)%R.
Proof. exact (ex_bil_ok false). Qed.
Example C31_nonvacuous_types : map (cell_types (DA (lmlog64 false)) zero_re 16 bqU64 bqV64 0) (zrange 0 15) =
  map Some [[2]; [1]; [3]; [4]; [3]; [2]; [3]; [2]; [3]; [2]; [3]; []; [3]; [1]; [3]].
Proof. exact (ex_bil_types false). Qed.

(** Without a lower limit on the magnitudes critical points are lost: values below 2^-99 come back as zeros. *)
Theorem C31_tiny_refuted : forall x86, exists U V buf size Ud Vd,
  (forall x, In x U \/ In x V -> is_finite 53 1024 x = true) /\
  compress_bil (DA (lmlog64 x86)) zero_re one ord0 ub0 2 16 U V (repeat 0 768) = Some (buf, size) /\
  decompress_log (DA (lmlog64 x86)) 2 16 (firstn size buf) = Some (Ud, Vd) /\
  cell_types (DA (lmlog64 x86)) zero_re 16 U V 0 2 = Some [3] /\ cell_types (DA (lmlog64 x86)) zero_re 16 Ud Vd 0 2 = Some [].
Proof. exact bil_tiny_refuted. Qed.
Print Assumptions C31_tiny_refuted.

(** The test itself is not complete: it finds nothing in the cell of an affine field, which has a zero in its middle. *)
Theorem C31_affine_test_refuted : forall lm cs, exists U V u v,
  cell_quad 2 (map (B2R 53 1024) U) 0 0 = Some u /\ cell_quad 2 (map (B2R 53 1024) V) 0 0 = Some v /\
  interp u (/ 2) (/ 2) = 0%R /\ interp v (/ 2) (/ 2) = 0%R /\ cell_types (DA lm) cs 2 U V 0 0 = Some [].
Proof. exact bil_affine_missed. Qed.
Print Assumptions C31_affine_test_refuted.

(** ** C40: round trip *)
(** For every mathematical library and every field without NaN: [U'], [V'] are the compressor's working copies, [LU], [LV] its
    reconstructed logarithms. *)
Theorem C40_round_trip_double : forall lm cs max_eb ord ub r1 r2 U V junk buf size,
  0 <= r1 -> 0 < r2 -> Z.of_nat (length U) = r1 * r2 -> Z.of_nat (length V) = r1 * r2 -> Z.of_nat (length junk) < 2 ^ 64 ->
  (forall x, In x U \/ In x V -> not_nan x) ->
  compress_bil (DA lm) cs max_eb ord ub r1 r2 U V junk = Some (buf, size) -> bil_short (DA lm) cs max_eb ord r1 r2 U V ->
  exists Ud Vd U' V' LU LV c,
    decompress_log (DA lm) r1 r2 (firstn size buf) = Some (Ud, Vd) /\ enc_bil (DA lm) cs max_eb r1 r2 U V = Some (U', V', LU, LV, c) /\
    length Ud = length U /\ length Vd = length V /\
    forall k u v ud vd, aget U k = Some u -> aget V k = Some v -> aget Ud k = Some ud -> aget Vd k = Some vd ->
      (ud = u /\ vd = v /\ aget U' k = Some u /\ aget V' k = Some v) \/
      (is_zero u = false /\ is_zero v = false /\ exists lu lv u' v',
         aget LU k = Some lu /\ aget LV k = Some lv /\ aget U' k = Some u' /\ aget V' k = Some v' /\
         ud = (if blt 53 1024 lu (b64_ofZ (-99)) then B754_zero 53 1024 false else u') /\
         vd = (if blt 53 1024 lv (b64_ofZ (-99)) then B754_zero 53 1024 false else v')).
Proof. exact bil_api_double. Qed.
Print Assumptions C40_round_trip_double.

Theorem C40_round_trip_float : forall lm cs max_eb ord ub r1 r2 U V junk buf size,
  0 <= r1 -> 0 < r2 -> Z.of_nat (length U) = r1 * r2 -> Z.of_nat (length V) = r1 * r2 -> Z.of_nat (length junk) < 2 ^ 64 ->
  (forall x, In x U \/ In x V -> not_nan x) ->
  compress_bil (FA lm) cs max_eb ord ub r1 r2 U V junk = Some (buf, size) -> bil_short (FA lm) cs max_eb ord r1 r2 U V ->
  exists Ud Vd U' V' LU LV c,
    decompress_log (FA lm) r1 r2 (firstn size buf) = Some (Ud, Vd) /\ enc_bil (FA lm) cs max_eb r1 r2 U V = Some (U', V', LU, LV, c) /\
    length Ud = length U /\ length Vd = length V /\
    forall k u v ud vd, aget U k = Some u -> aget V k = Some v -> aget Ud k = Some ud -> aget Vd k = Some vd ->
      (ud = u /\ vd = v /\ aget U' k = Some u /\ aget V' k = Some v) \/
      (is_zero u = false /\ is_zero v = false /\ exists lu lv u' v',
         aget LU k = Some lu /\ aget LV k = Some lv /\ aget U' k = Some u' /\ aget V' k = Some v' /\
         ud = (if blt 24 128 lu (b32_ofZ (-99)) then B754_zero 24 128 false else u') /\
         vd = (if blt 24 128 lv (b32_ofZ (-99)) then B754_zero 24 128 false else v')).
Proof. exact bil_api_float. Qed.
Print Assumptions C40_round_trip_float.

Theorem C40_machine_total_double : forall (lm : Libm binary64 binary64) cs max_eb r1 r2 U V,
lm_x86 lm = true ->
  0 <= r1 -> 0 < r2 -> Z.of_nat (length U) = r1 * r2 -> Z.of_nat (length V) = r1 * r2 ->
  exists s c, enc_bil (DA lm) cs max_eb r1 r2 U V = Some (s, c).
Proof. exact bil_machine_double. Qed.
Print Assumptions C40_machine_total_double.

Theorem C40_machine_total_float : forall (lm : Libm binary32 binary64) cs max_eb r1 r2 U V,
lm_x86 lm = true ->
  0 <= r1 -> 0 < r2 -> Z.of_nat (length U) = r1 * r2 -> Z.of_nat (length V) = r1 * r2 ->
  exists s c, enc_bil (FA lm) cs max_eb r1 r2 U V = Some (s, c).
Proof. exact bil_machine_float. Qed.
Print Assumptions C40_machine_total_float.

(** The output block is too small for some fields: the compressor writes past its end. *)
Theorem C40_capacity_refuted : forall x86, exists U V s c,
  length U = 16%nat /\ length V = 16%nat /\
  enc_bil (DA (lmlog64 x86)) zero_re one 2 8 U V = Some (s, c) /\
  compress_bil (DA (lmlog64 x86)) zero_re one ord0 ub0 2 8 U V (repeat 0 384) = None.
Proof. exact bil_capacity_refuted. Qed.
Print Assumptions C40_capacity_refuted.
