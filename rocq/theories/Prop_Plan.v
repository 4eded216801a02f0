(** Property theorems about sz_compress_2d and sz_compress_3d with the decisions they take themselves (regression, predictor
    selection, mean, number of intervals): C21, C26, C34, C41.  [to_size true]/[to_diff true] are the 64-bit conversions as x86
    compilers emit them, [to_size false]/[to_diff false] leave out-of-range values undefined. *)
From Coq Require Import Reals Lra Lia ZArith List Bool.
From Flocq Require Import Core.Core IEEE754.BinarySingleNaN IEEE754.Binary IEEE754.Bits.
From Verif Require Import Base Huffman HuffStream HuffProps BitPack Stream Arith Codec2D Sync2D Stream2D IEEE IEEELaws IEEEQuant RelaxApi2D
  LibmModel Witness2D Examples2D LinQuant Block BlockSync BlockTile BlockBytes BlockIEEE BlockApi BlockTotal BlockRefute Sample3D Plan PlanApi.
Import ListNotations.
Local Open Scope Z_scope.

(** sz_compress_3d on floats, whatever it decides and however the conversions behave. *)
Theorem C21_sz_compress_3d_float : forall lm ts td fuel ord ub r1 r2 r3 bs indep precision pad (data : list binary32) junk buf size,
  bs < 2 ^ 31 -> length pad = 3%nat -> Z.of_nat (length junk) < 2 ^ 64 -> is_finite 53 1024 precision = true ->
  sz_compress_3d (FA lm) (FO lm) ts td fuel ord ub r1 r2 r3 bs indep precision pad data junk = Done (buf, size) ->
  short_sz3 (FA lm) (FO lm) ts td fuel ord r1 r2 r3 bs indep precision data ->
  exists out, (forall rest, decompress_3d (FA lm) (FO lm) r1 r2 r3 (firstn size buf ++ rest) = Some out) /\
    recovered (fun _ => Some precision) data (Z.to_nat (r1 * r2 * r3)) out.
Proof. exact sz3_float. Qed.
Print Assumptions C21_sz_compress_3d_float.

Example C21_sz_compress_3d_nonvacuous :
  (exists capacity mean plan c buf size,
     optimize_quant_invl_3d (FA (lm32 false)) (FO (lm32 false)) (to_size false) (to_diff false) 300 5 5 8 half64 hill32 = Done (capacity, mean) /\
     plan3 (FA (lm32 false)) (FO (lm32 false)) 5 5 8 5 half64 mean hill32 = Some plan /\
     encode_3d (FA (lm32 false)) (FO (lm32 false)) 5 5 8 5 false half64 capacity mean plan hill32 = Some c /\
     ((1 <= reg_count _ _ c)%nat /\ (1 <= length (b_unp _ _ c))%nat) /\
     sz_compress_3d (FA (lm32 false)) (FO (lm32 false)) (to_size false) (to_diff false) 300 ord0 ub0 5 5 8 5 false half64 [0; 0; 0] hill32 (repeat 0 960) = Done (buf, size)) /\
  short_sz3 (FA (lm32 false)) (FO (lm32 false)) (to_size false) (to_diff false) 300 ord0 5 5 8 5 false half64 hill32.
Proof. exact hill_ok. Qed.

(** Doubles: only fields of which no value is stored verbatim (C21_double_verbatim_refuted). *)
Theorem C21_sz_compress_3d_double_partial : forall lm ts td fuel ord ub r1 r2 r3 bs indep precision pad (data : list binary64) junk buf size,
  bs < 2 ^ 31 -> length pad = 7%nat -> Z.of_nat (length junk) < 2 ^ 64 -> is_finite 53 1024 precision = true ->
  sz_compress_3d (DA lm) (DO lm) ts td fuel ord ub r1 r2 r3 bs indep precision pad data junk = Done (buf, size) ->
  short_sz3 (DA lm) (DO lm) ts td fuel ord r1 r2 r3 bs indep precision data ->
  (forall capacity mean plan c, optimize_quant_invl_3d (DA lm) (DO lm) ts td fuel r1 r2 r3 precision data = Done (capacity, mean) ->
     plan3 (DA lm) (DO lm) r1 r2 r3 bs precision mean data = Some plan ->
     encode_3d (DA lm) (DO lm) r1 r2 r3 bs indep precision capacity mean plan data = Some c -> b_unp _ _ c = []) ->
  exists out, (forall rest, decompress_3d (DA lm) (DO lm) r1 r2 r3 (firstn size buf ++ rest) = Some out) /\
    recovered (fun _ => Some precision) data (Z.to_nat (r1 * r2 * r3)) out.
Proof. exact sz3_double. Qed.
Print Assumptions C21_sz_compress_3d_double_partial.

Example C21_sz_compress_3d_double_nonvacuous :
  (exists buf size, sz_compress_3d (DA (lm64 false)) (DO (lm64 false)) (to_size false) (to_diff false) 300 ord0 ub0 5 5 8 5 true half64 (repeat 0 7) hill64 (repeat 0 1920) = Done (buf, size)) /\
  short_sz3 (DA (lm64 false)) (DO (lm64 false)) (to_size false) (to_diff false) 300 ord0 5 5 8 5 true half64 hill64 /\
  (forall capacity mean plan c, optimize_quant_invl_3d (DA (lm64 false)) (DO (lm64 false)) (to_size false) (to_diff false) 300 5 5 8 half64 hill64 = Done (capacity, mean) ->
     plan3 (DA (lm64 false)) (DO (lm64 false)) 5 5 8 5 half64 mean hill64 = Some plan ->
     encode_3d (DA (lm64 false)) (DO (lm64 false)) 5 5 8 5 true half64 capacity mean plan hill64 = Some c -> b_unp _ _ c = []).
Proof. exact hill64_ok. Qed.

(** sz_compress_2d on floats, whatever it decides. *)
Theorem C34_sz_compress_2d_float : forall lm ord ub r1 r2 bs indep precision pad (data : list binary32) junk buf size,
  bs < 2 ^ 31 -> length pad = 3%nat -> Z.of_nat (length junk) < 2 ^ 64 -> is_finite 53 1024 precision = true ->
  sz_compress_2d (FA lm) (FO lm) ord ub r1 r2 bs indep precision pad data junk = Some (buf, size) ->
  short_sz2 (FA lm) (FO lm) ord r1 r2 bs precision data ->
  exists out, (forall rest, decompress_2d (FA lm) (FO lm) r1 r2 (firstn size buf ++ rest) = Some out) /\
    recovered (fun _ => Some precision) data (Z.to_nat (r1 * r2)) out.
Proof. exact sz2_float. Qed.
Print Assumptions C34_sz_compress_2d_float.

Example C34_sz_compress_2d_nonvacuous :
  (exists buf size, sz_compress_2d (FA (lm32 false)) (FO (lm32 false)) ord0 ub0 8 8 4 false half64 [0; 0; 0] flat32 (repeat 0 307) = Some (buf, size)) /\
  short_sz2 (FA (lm32 false)) (FO (lm32 false)) ord0 8 8 4 half64 flat32.
Proof. exact flat_sz2_ok. Qed.

(** The regression and the selection of the predictor read only inside the field and give one entry per block, with the right
    number of coefficients: nothing is undefined up to the output block. *)
Theorem C34_sz_compress_2d_defined : forall lm r1 r2 bs precision (data : list binary32),
  1 <= r1 -> 1 <= r2 -> 1 <= bs < 2 ^ 31 ->
  is_finite 53 1024 precision = true -> at_least (-60) precision -> Z.of_nat (length data) = r1 * r2 ->
  exists plan c, plan2 (FA lm) (FO lm) r1 r2 bs precision None data = Some plan /\ encode_2d (FA lm) (FO lm) r1 r2 bs precision plan data = Some c.
Proof. exact sz2_defined_float. Qed.
Print Assumptions C34_sz_compress_2d_defined.

(** The number of quantisation intervals is a power of two from 32 to 131072, for all data and conversions. *)
Theorem C26_interval_estimation : forall (A : Arith) (O : FOps A) ts td fuel r1 r2 r3 precision data capacity mean,
  optimize_quant_invl_3d A O ts td fuel r1 r2 r3 precision data = Done (capacity, mean) ->
  exists e, 5 <= e <= 17 /\ capacity = 2 ^ e.
Proof. exact optimize_capacity. Qed.
Print Assumptions C26_interval_estimation.

(** Unless it is the largest one, it holds more than the target number of the sampled prediction errors (entry [i] of the
    histogram counts the errors that need [i] steps; the target is 99.9 % of them). *)
Theorem C26_estimate_covers : forall intervals target, length intervals = Z.to_nat 32768 -> (forall x, In x intervals -> 0 <= x) ->
  let c := estimate_intervals intervals target in
  (exists e, 5 <= e <= 17 /\ c = 2 ^ e) /\ (c = 2 ^ 17 \/ target < fold_left Z.add (firstn (Z.to_nat (c / 4)) intervals) 0).
Proof. exact estimate_covers. Qed.
Print Assumptions C26_estimate_covers.

Example C26_estimate_nonvacuous : let v := [900; 80; 19; 1; 0; 0; 0; 0; 0; 0; 0; 5] ++ repeat 0 (Z.to_nat 32756) in
  length v = Z.to_nat 32768 /\ (forall x, In x v -> 0 <= x) /\ estimate_intervals v 1003 = 64 /\ 1003 < fold_left Z.add (firstn 16 v) 0.
Proof. exact estimate_covers_ex. Qed.

(** From nine values on the sampling ends and reads only inside the field; then everything up to the output block is defined. *)
Theorem C41_terminates_double : forall lm r1 r2 r3 bs indep precision (data : list binary64),
  1 <= r1 -> 1 <= r2 -> 1 <= r3 -> 9 <= r1 * r2 * r3 < 2 ^ 61 -> 1 <= bs < 2 ^ 31 ->
  is_finite 53 1024 precision = true -> at_least (-60) precision -> Z.of_nat (length data) = r1 * r2 * r3 ->
  exists n, forall fuel, (n <= fuel)%nat -> exists capacity mean plan c,
    optimize_quant_invl_3d (DA lm) (DO lm) (to_size true) (to_diff true) fuel r1 r2 r3 precision data = Done (capacity, mean) /\
    plan3 (DA lm) (DO lm) r1 r2 r3 bs precision mean data = Some plan /\
    encode_3d (DA lm) (DO lm) r1 r2 r3 bs indep precision capacity mean plan data = Some c.
Proof. exact sz3_terminates_double. Qed.
Print Assumptions C41_terminates_double.

Theorem C41_terminates_float : forall lm r1 r2 r3 bs indep precision (data : list binary32),
  1 <= r1 -> 1 <= r2 -> 1 <= r3 -> 9 <= r1 * r2 * r3 < 2 ^ 61 -> 1 <= bs < 2 ^ 31 ->
  is_finite 53 1024 precision = true -> at_least (-60) precision -> Z.of_nat (length data) = r1 * r2 * r3 ->
  exists n, forall fuel, (n <= fuel)%nat -> exists capacity mean plan c,
    optimize_quant_invl_3d (FA lm) (FO lm) (to_size true) (to_diff true) fuel r1 r2 r3 precision data = Done (capacity, mean) /\
    plan3 (FA lm) (FO lm) r1 r2 r3 bs precision mean data = Some plan /\
    encode_3d (FA lm) (FO lm) r1 r2 r3 bs indep precision capacity mean plan data = Some c.
Proof. exact sz3_terminates_float. Qed.
Print Assumptions C41_terminates_float.

(** Any grid: no read outside the field, as long as the conversions are defined. *)
Theorem C41_sampling_in_bounds : forall (A : Arith) (O : FOps A) ts td fuel r1 r2 r3 precision data,
  conversions_defined A ts td -> 1 <= r1 -> 1 <= r2 -> 1 <= r3 -> r1 * r2 * r3 < 2 ^ 61 -> Z.of_nat (length data) = r1 * r2 * r3 ->
  optimize_quant_invl_3d A O ts td fuel r1 r2 r3 precision data <> Undef.
Proof. exact optimize_in_bounds. Qed.
Print Assumptions C41_sampling_in_bounds.

Example C41_conversions_nonvacuous : forall lm, conversions_defined (DA lm) (to_size true) (to_diff true).
Proof. exact x86_defined_double. Qed.

(** A grid of 1 x 1 x 2 values: sz_compress_3d never returns, whatever the values. *)
Theorem C41_small_grid_refuted : exists r1 r2 r3, 1 <= r1 /\ 1 <= r2 /\ 1 <= r3 /\
  forall (A : Arith) (O : FOps A) ts td fuel ord ub bs indep precision pad data junk, Z.of_nat (length data) = r1 * r2 * r3 ->
    sz_compress_3d A O ts td fuel ord ub r1 r2 r3 bs indep precision pad data junk = Looping.
Proof. exact small_grid_hangs. Qed.
Print Assumptions C41_small_grid_refuted.

(** An error of 2^100 at precision 1/2: the conversion to size_t is undefined. *)
Theorem C41_undefined_conversion_refuted : exists (data : list binary64) precision, Z.of_nat (length data) = 2 * 2 * 100 /\
  is_finite 53 1024 precision = true /\ (forall x, In x data -> x = b64_ofZ 0 \/ x = b64_ofZ (2 ^ 100)) /\
  optimize_quant_invl_3d (DA (lm64 false)) (DO (lm64 false)) (to_size false) (to_diff false) 2000 2 2 100 precision data = Undef.
Proof. exact undefined_conversion. Qed.
Print Assumptions C41_undefined_conversion_refuted.
