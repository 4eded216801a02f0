(** Property theorems about the block-based codecs and the linear quantiser: C21, C22, C34, C35.
    Regression coefficients, predictor selection, mean and capacity are arguments; the theorems hold for whatever they are. *)
From Coq Require Import Reals Lra Lia ZArith List Bool.
From Flocq Require Import Core.Core IEEE754.BinarySingleNaN IEEE754.Binary IEEE754.Bits.
From Verif Require Import Base Huffman HuffStream HuffProps BitPack Stream Arith Codec2D Sync2D Stream2D Exact IEEE IEEELaws IEEEQuant IEEE2D Api2D RelaxApi2D
  LibmModel Witness2D Examples2D LinQuant Block BlockSync BlockTile BlockBytes BlockIEEE BlockApi BlockTotal BlockRefute.
Import ListNotations.
Local Open Scope Z_scope.

(** Bytes: floats.  The decompressor accepts the stream and every value is exact or within the precision. *)
Theorem C21_round_trip_bound_float : forall lm ord ub r1 r2 r3 bs indep precision capacity mean plan pad (data : list binary32) junk buf size,
  Z.even capacity = true -> 2 <= capacity <= 2 ^ 25 ->
  bs < 2 ^ 31 -> length pad = 3%nat -> Z.of_nat (length junk) < 2 ^ 64 -> is_finite 53 1024 precision = true ->
  compress_3d (FA lm) (FO lm) ord ub r1 r2 r3 bs indep precision capacity mean plan pad data junk = Some (buf, size) ->
  short_blocks ord capacity (encode_3d (FA lm) (FO lm) r1 r2 r3 bs indep precision capacity mean plan data) ->
  exists out, (forall rest, decompress_3d (FA lm) (FO lm) r1 r2 r3 (firstn size buf ++ rest) = Some out) /\
    recovered (fun _ => Some precision) data (Z.to_nat (r1 * r2 * r3)) out.
Proof. exact block3_api_float. Qed.
Print Assumptions C21_round_trip_bound_float.

(** A field with a regression block, a Lorenzo block, a mean value and a verbatim value. *)
Example C21_float_nonvacuous : exists c buf size,
  encode_3d (FA (lm32 false)) (FO (lm32 false)) 4 4 8 4 false half64 1024 (Some (b32_ofZ 3)) ramp_plan ramp32 = Some c /\
  (1 <= reg_count _ _ c)%nat /\ (1 <= length (b_unp _ _ c))%nat /\
  compress_3d (FA (lm32 false)) (FO (lm32 false)) ord0 ub0 4 4 8 4 false half64 1024 (Some (b32_ofZ 3)) ramp_plan [0; 0; 0] ramp32 (repeat 0 614) = Some (buf, size) /\
  short_blocks ord0 1024 (encode_3d (FA (lm32 false)) (FO (lm32 false)) 4 4 8 4 false half64 1024 (Some (b32_ofZ 3)) ramp_plan ramp32).
Proof. exact ramp_ok. Qed.

(** Doubles: only fields of which no value is stored verbatim; C21_double_verbatim_refuted shows why. *)
Theorem C21_round_trip_bound_double_partial : forall lm ord ub r1 r2 r3 bs indep precision capacity mean plan pad (data : list binary64) junk buf size,
  Z.even capacity = true -> 2 <= capacity <= 2 ^ 25 ->
  bs < 2 ^ 31 -> length pad = 7%nat -> Z.of_nat (length junk) < 2 ^ 64 -> is_finite 53 1024 precision = true ->
  compress_3d (DA lm) (DO lm) ord ub r1 r2 r3 bs indep precision capacity mean plan pad data junk = Some (buf, size) ->
  short_blocks ord capacity (encode_3d (DA lm) (DO lm) r1 r2 r3 bs indep precision capacity mean plan data) ->
  (forall c, encode_3d (DA lm) (DO lm) r1 r2 r3 bs indep precision capacity mean plan data = Some c -> b_unp _ _ c = []) ->
  exists out, (forall rest, decompress_3d (DA lm) (DO lm) r1 r2 r3 (firstn size buf ++ rest) = Some out) /\
    recovered (fun _ => Some precision) data (Z.to_nat (r1 * r2 * r3)) out.
Proof. exact block3_api_double. Qed.
Print Assumptions C21_round_trip_bound_double_partial.

Example C21_double_nonvacuous : exists buf size,
  compress_3d (DA (lm64 false)) (DO (lm64 false)) ord0 ub0 4 4 4 4 true half64 1024 None [None] (repeat 0 7) smooth64 (repeat 0 614) = Some (buf, size) /\
  short_blocks ord0 1024 (encode_3d (DA (lm64 false)) (DO (lm64 false)) 4 4 4 4 true half64 1024 None [None] smooth64) /\
  (forall c, encode_3d (DA (lm64 false)) (DO (lm64 false)) 4 4 4 4 true half64 1024 None [None] smooth64 = Some c -> b_unp _ _ c = []).
Proof. exact smooth_ok. Qed.

(** Doubles with a verbatim value: the decompressor reads past the end of the stream. *)
Theorem C21_double_verbatim_refuted : exists (data : list binary64) precision capacity plan pad junk buf size,
  Z.even capacity = true /\ 32 <= capacity <= 131072 /\ Z.of_nat (length data) = 4 * 4 * 4 /\
  is_finite 53 1024 precision = true /\ at_least (-60) precision /\ (forall x, In x data -> finite_le 30 x) /\
  good_plan 4 (num_blocks 4 4 * num_blocks 4 4 * num_blocks 4 4) plan /\ length pad = 7%nat /\
  compress_3d (DA (lm64 false)) (DO (lm64 false)) ord0 ub0 4 4 4 4 false precision capacity None plan pad data junk = Some (buf, size) /\
  decompress_3d (DA (lm64 false)) (DO (lm64 false)) 4 4 4 (firstn size buf) = None.
Proof. exact skip_refuted. Qed.
Print Assumptions C21_double_verbatim_refuted.

(** No undefined conversion and no access outside the block buffers while quantising. *)
Theorem C21_no_undefined_double : forall lm r1 r2 r3 bs indep precision capacity mean plan (data : list binary64),
  1 <= r1 -> 1 <= r2 -> 1 <= r3 -> 1 <= bs < 2 ^ 31 -> 2 <= capacity <= 2 ^ 31 ->
  is_finite 53 1024 precision = true -> at_least (-60) precision ->
  Z.of_nat (length data) = r1 * r2 * r3 -> good_plan 4 (num_blocks r1 bs * num_blocks r2 bs * num_blocks r3 bs) plan ->
  exists c, encode_3d (DA lm) (DO lm) r1 r2 r3 bs indep precision capacity mean plan data = Some c.
Proof. exact block3_total_double. Qed.
Print Assumptions C21_no_undefined_double.

Theorem C21_no_undefined_float : forall lm r1 r2 r3 bs indep precision capacity mean plan (data : list binary32),
  1 <= r1 -> 1 <= r2 -> 1 <= r3 -> 1 <= bs < 2 ^ 31 -> 2 <= capacity <= 2 ^ 31 ->
  is_finite 53 1024 precision = true -> at_least (-60) precision ->
  Z.of_nat (length data) = r1 * r2 * r3 -> good_plan 4 (num_blocks r1 bs * num_blocks r2 bs * num_blocks r3 bs) plan ->
  exists c, encode_3d (FA lm) (FO lm) r1 r2 r3 bs indep precision capacity mean plan data = Some c.
Proof. exact block3_total_float. Qed.
Print Assumptions C21_no_undefined_float.

Example C21_plan_nonvacuous : good_plan 4 (num_blocks 4 4 * num_blocks 4 4 * num_blocks 8 4) ramp_plan /\ Z.of_nat (length ramp32) = 4 * 4 * 8 /\
  is_finite 53 1024 half64 = true /\ at_least (-60) half64.
Proof. exact ramp_plan_ok. Qed.

(** sz_compress_2d (instantiated for float). *)
Theorem C34_round_trip_bound_float : forall lm ord ub r1 r2 bs indep precision plan pad (data : list binary32) junk buf size,
  bs < 2 ^ 31 -> length pad = 3%nat -> Z.of_nat (length junk) < 2 ^ 64 -> is_finite 53 1024 precision = true ->
  compress_2d (FA lm) (FO lm) ord ub r1 r2 bs indep precision plan pad data junk = Some (buf, size) ->
  short_blocks ord 32768 (encode_2d (FA lm) (FO lm) r1 r2 bs precision plan data) ->
  exists out, (forall rest, decompress_2d (FA lm) (FO lm) r1 r2 (firstn size buf ++ rest) = Some out) /\
    recovered (fun _ => Some precision) data (Z.to_nat (r1 * r2)) out.
Proof. exact block2_api_float. Qed.
Print Assumptions C34_round_trip_bound_float.

Example C34_nonvacuous : exists buf size,
  compress_2d (FA (lm32 false)) (FO (lm32 false)) ord0 ub0 8 8 4 false half64 flat_plan [0; 0; 0] flat32 (repeat 0 307) = Some (buf, size) /\
  short_blocks ord0 32768 (encode_2d (FA (lm32 false)) (FO (lm32 false)) 8 8 4 half64 flat_plan flat32).
Proof. exact flat_ok. Qed.

(** sz_compress_2d_with_eb: each value within its own bound. *)
Theorem C34_with_eb_round_trip_bound_double : forall lm ord ub r1 r2 bs indep precisions pad (data : list binary64) junk buf size,
  bs < 2 ^ 31 -> length pad = 7%nat -> Z.of_nat (length junk) < 2 ^ 64 ->
  Z.of_nat (length precisions) = r1 * r2 -> (forall b, In b precisions -> is_finite 53 1024 b = true) ->
  compress_2d_eb (DA lm) (DO lm) ord ub r1 r2 bs indep precisions pad data junk = Some (buf, size) ->
  short_blocks ord 65536 (encode_2d_eb (DA lm) (DO lm) r1 r2 bs precisions data) ->
  exists out, (forall rest, decompress_2d_eb (DA lm) (DO lm) r1 r2 precisions (firstn size buf ++ rest) = Some out) /\
    recovered (aget precisions) data (Z.to_nat (r1 * r2)) out.
Proof. exact block2_eb_api_double. Qed.
Print Assumptions C34_with_eb_round_trip_bound_double.

Theorem C34_with_eb_round_trip_bound_float : forall lm ord ub r1 r2 bs indep precisions pad (data : list binary32) junk buf size,
  bs < 2 ^ 31 -> length pad = 3%nat -> Z.of_nat (length junk) < 2 ^ 64 ->
  Z.of_nat (length precisions) = r1 * r2 -> (forall b, In b precisions -> is_finite 53 1024 b = true) ->
  compress_2d_eb (FA lm) (FO lm) ord ub r1 r2 bs indep precisions pad data junk = Some (buf, size) ->
  short_blocks ord 65536 (encode_2d_eb (FA lm) (FO lm) r1 r2 bs precisions data) ->
  exists out, (forall rest, decompress_2d_eb (FA lm) (FO lm) r1 r2 precisions (firstn size buf ++ rest) = Some out) /\
    recovered (aget precisions) data (Z.to_nat (r1 * r2)) out.
Proof. exact block2_eb_api_float. Qed.
Print Assumptions C34_with_eb_round_trip_bound_float.

Example C34_with_eb_double_nonvacuous : exists buf size,
  compress_2d_eb (DA (lm64 false)) (DO (lm64 false)) ord0 ub0 8 8 4 false flat_ebs (repeat 0 7) flat64 (repeat 0 614) = Some (buf, size) /\
  short_blocks ord0 65536 (encode_2d_eb (DA (lm64 false)) (DO (lm64 false)) 8 8 4 flat_ebs flat64).
Proof. exact flat_eb_ok_double. Qed.

Example C34_with_eb_float_nonvacuous : exists buf size,
  compress_2d_eb (FA (lm32 false)) (FO (lm32 false)) ord0 ub0 8 8 4 false flat_ebs [0; 0; 0] flat32 (repeat 0 307) = Some (buf, size) /\
  short_blocks ord0 65536 (encode_2d_eb (FA (lm32 false)) (FO (lm32 false)) 8 8 4 flat_ebs flat32).
Proof. exact flat_eb_ok_float. Qed.

Theorem C34_no_undefined_float : forall lm r1 r2 bs precision plan (data : list binary32),
  1 <= r1 -> 1 <= r2 -> 1 <= bs < 2 ^ 31 ->
  is_finite 53 1024 precision = true -> at_least (-60) precision ->
  Z.of_nat (length data) = r1 * r2 -> good_plan 3 (num_blocks r1 bs * num_blocks r2 bs) plan ->
  exists c, encode_2d (FA lm) (FO lm) r1 r2 bs precision plan data = Some c.
Proof. exact block2_total_float. Qed.
Print Assumptions C34_no_undefined_float.

Theorem C34_with_eb_no_undefined_double : forall lm r1 r2 bs precisions (data : list binary64),
  1 <= r1 -> 1 <= r2 -> 1 <= bs -> Z.of_nat (length data) = r1 * r2 -> Z.of_nat (length precisions) = r1 * r2 ->
  (forall b, In b precisions -> is_finite 53 1024 b = true /\ (0 <= B2R 53 1024 b)%R) ->
  exists c, encode_2d_eb (DA lm) (DO lm) r1 r2 bs precisions data = Some c.
Proof. exact block2_eb_total_double. Qed.
Print Assumptions C34_with_eb_no_undefined_double.

Theorem C34_with_eb_no_undefined_float : forall lm r1 r2 bs precisions (data : list binary32),
  1 <= r1 -> 1 <= r2 -> 1 <= bs -> Z.of_nat (length data) = r1 * r2 -> Z.of_nat (length precisions) = r1 * r2 ->
  (forall b, In b precisions -> is_finite 53 1024 b = true /\ (0 <= B2R 53 1024 b)%R) ->
  exists c, encode_2d_eb (FA lm) (FO lm) r1 r2 bs precisions data = Some c.
Proof. exact block2_eb_total_float. Qed.
Print Assumptions C34_with_eb_no_undefined_float.

(** The array of verbatim values has room for a twentieth of the values and is never grown. *)
Theorem C35_verbatim_room_refuted : exists (data : list binary32) precision plan,
  Z.of_nat (length data) = 1 * 1 * 20 /\ (forall x, In x data -> x = b32_ofZ 0 \/ x = b32_ofZ (2 ^ 30)) /\
  (exists c, encode_3d (FA (lm32 false)) (FO (lm32 false)) 1 1 20 4 false precision 65536 None plan data = Some c) /\
  forall ord ub pad junk, compress_3d (FA (lm32 false)) (FO (lm32 false)) ord ub 1 1 20 4 false precision 65536 None plan pad data junk = None.
Proof. exact verbatim_room_refuted. Qed.
Print Assumptions C35_verbatim_room_refuted.

(** At most eight values: the header alone exceeds the output block, whatever the data. *)
Theorem C35_tiny_grid_refuted : forall lm ord ub r1 r2 r3 bs indep precision capacity mean plan pad (data : list binary32) junk,
  r1 * r2 * r3 <= 8 -> length pad = 3%nat ->
  compress_3d (FA lm) (FO lm) ord ub r1 r2 r3 bs indep precision capacity mean plan pad data junk = None.
Proof. exact tiny_grid_overflow_3d. Qed.
Print Assumptions C35_tiny_grid_refuted.

(** Exact arithmetic: predicted exactly when the difference is below (capacity-1) precisions; then within one precision (half a bin) and the index within the radius. *)
Theorem C22_exact : forall (pred cur p : R) (cap rad : Z),
  (0 < p -> (0 <= cap <= 2 ^ 31)%Z ->
  (Rabs (cur - pred) < (IZR cap - 1) * p ->
   exists q x, lin_quantize (qT XA XO) (Fin pred) (Fin cur) (Fin p) cap rad = Some (Predicted q (Fin x)) /\
     (- cap < 2 * (q - rad) < cap)%Z /\ Rabs (x - cur) <= p) /\
  ((IZR cap - 1) * p <= Rabs (cur - pred) ->
   lin_quantize (qT XA XO) (Fin pred) (Fin cur) (Fin p) cap rad = Some Unpredictable))%R.
Proof. exact lin_quantize_exact. Qed.
Print Assumptions C22_exact.

Example C22_exact_nonvacuous : (0 < 1)%R /\ (0 <= 16 <= 2 ^ 31) /\ (Rabs (7 - 2) < (IZR 16 - 1) * 1)%R /\ ((IZR 16 - 1) * / 4 <= Rabs (7 - 2))%R.
Proof. exact exact_case. Qed.

(** Machine arithmetic, any precision: the index stays strictly between [lo] and [2*rad-lo]. *)
Theorem C22_index_range_double : forall lm pred cur p rad lo q x,
  0 <= 2 * (rad - lo) <= 2 ^ 31 ->
  lin_quantize (qT (DA lm) (DO lm)) pred cur p (2 * (rad - lo)) rad = Some (Predicted q x) -> lo < q < 2 * rad - lo.
Proof. exact lin_range_double. Qed.
Print Assumptions C22_index_range_double.

Theorem C22_index_range_float : forall lm pred cur p rad lo q x,
  0 <= 2 * (rad - lo) <= 2 ^ 31 ->
  lin_quantize (qT (FA lm) (FO lm)) pred cur p (2 * (rad - lo)) rad = Some (Predicted q x) -> lo < q < 2 * rad - lo.
Proof. exact lin_range_float. Qed.
Print Assumptions C22_index_range_float.

(** Machine arithmetic: the reconstruction is within the precision up to one rounding. *)
Theorem C22_error_double : forall lm pred (cur : binary64) p cap rad q x,
  is_finite 53 1024 p = true ->
  lin_quantize (qT (DA lm) (DO lm)) pred cur p cap rad = Some (Predicted q x) ->
  is_finite 53 1024 cur = true /\ differs_le (B2R 53 1024 p * (1 + bpow radix2 (- 53))) cur x.
Proof. exact lin_bound_double. Qed.
Print Assumptions C22_error_double.

Theorem C22_error_float : forall lm pred (cur : binary32) p cap rad q x,
  is_finite 53 1024 p = true ->
  lin_quantize (qT (FA lm) (FO lm)) pred cur p cap rad = Some (Predicted q x) ->
  is_finite 24 128 cur = true /\ differs_le (B2R 53 1024 p * (1 + bpow radix2 (- 24))) cur x.
Proof. exact lin_bound_float. Qed.
Print Assumptions C22_error_float.

Example C22_machine_nonvacuous : lin_index (lin_quantize (qT (DA (lm64 false)) (DO (lm64 false))) (b32_ofZ 2) (b64_ofZ 7) half64 32 16) = Some 21 /\
  lin_index (lin_quantize (qT (FA (lm32 false)) (FO (lm32 false))) (b32_ofZ 7) (b32_ofZ 2) half64 32 16) = Some 11 /\
  is_finite 53 1024 half64 = true.
Proof. exact machine_case. Qed.

(** The quantiser of the critical-point codecs. *)
Theorem C22_cp_index_range_double : forall lm pred cur (eb : binary64) q x,
  is_finite 53 1024 eb = true -> (0 < B2R 53 1024 eb)%R ->
  quantise (DA lm) pred cur eb = Some (Coded (DA lm) q x) -> 0 < q < capacity.
Proof. exact quantise_range_double. Qed.
Print Assumptions C22_cp_index_range_double.

Theorem C22_cp_index_range_float : forall lm pred cur (eb : binary64) q x,
  is_finite 53 1024 eb = true -> (0 < B2R 53 1024 eb)%R ->
  quantise (FA lm) pred cur eb = Some (Coded (FA lm) q x) -> 0 < q < capacity.
Proof. exact quantise_range_float. Qed.
Print Assumptions C22_cp_index_range_float.

Example C22_cp_nonvacuous : cp_index (quantise (DA (lm64 false)) (b64_ofZ 2) (b64_ofZ 7) half64) = Some 32773 /\
  cp_index (quantise (FA (lm32 false)) (b32_ofZ 7) (b32_ofZ 2) half64) = Some 32763.
Proof. exact cp_case. Qed.
