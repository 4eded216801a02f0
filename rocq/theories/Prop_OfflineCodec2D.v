(** Property theorems about the bytes of the offline 2D codec: C19.  The block malloc(compressed_size) returned is [junk]; [slack] is the
    number of bytes behind it that may be written, 0 in a C++ program without luck. *)
From Coq Require Import Reals Lra Lia ZArith List Bool.
From Flocq Require Import Core.Core IEEE754.BinarySingleNaN IEEE754.Binary IEEE754.Bits.
From Verif Require Import Base Huffman HuffStream HuffProps Stream Arith Codec2D Exact IEEE IEEELaws IEEEQuant IEEE2D Api2D LibmModel Witness2D Examples2D
  LinQuant Block BlockIEEE Offline2D OfflineCodec2D OfflineApi2D OfflineWitness2D.
Import ListNotations.
Local Open Scope R_scope.

(** The compressor stays inside its block only if 8 bytes behind it may be written, whatever the input. *)
Theorem C19_writes_past_block : forall A O cbrt, ser_ok A -> forall slack ord ub max_eb r1 r2 U V pu pv je ju jv junk p,
  offline_parts A O cbrt ord ub max_eb r1 r2 U V pu pv je ju jv = Some p -> length junk = (offline_size p + slack)%nat ->
  (exists r, compress_offline A O cbrt slack ord ub max_eb r1 r2 U V pu pv je ju jv junk = Some r) <-> (8 <= slack)%nat.
Proof. exact offline_overflows. Qed.
Print Assumptions C19_writes_past_block.

(** The reported size does not cover the bytes the decompressor needs. *)
Theorem C19_reported_size_refuted : exists buf size,
  compress_offline (DA (lm64 false)) (DO (lm64 false)) cb0 8 ord0 ub0 (dy 1 (-8)) 4 4 offU offV (repeat 0%Z 7) (repeat 0%Z 7) (repeat 0%Z 128)
    (repeat 0%Z 153) (repeat 0%Z 153) (repeat 0%Z 297) = Some (buf, size) /\
  decompress_offline (DA (lm64 false)) (DO (lm64 false)) 4 4 (firstn size buf) = None /\
  decompress_offline (DA (lm64 false)) (DO (lm64 false)) 4 4 (firstn (size + 8) buf) <> None /\
  forall junk, length junk = size ->
    compress_offline (DA (lm64 false)) (DO (lm64 false)) cb0 0 ord0 ub0 (dy 1 (-8)) 4 4 offU offV (repeat 0%Z 7) (repeat 0%Z 7) (repeat 0%Z 128)
      (repeat 0%Z 153) (repeat 0%Z 153) junk = None.
Proof. exact cut_refuted. Qed.
Print Assumptions C19_reported_size_refuted.

(** Bounds between 2^-52 and 2^-50 are coded by the symbol of the bound 0: every vertex has relative bound 2^-11, the first value 2^-40
    comes back as 0. *)
Theorem C19_small_bound_refuted : exists buf size U' V' x',
  offline_ebs (DA (lm64 false)) cb0 (dy 1 (-11)) 4 4 offU offV = Some (repeat (dy 1 (-11)) 16) /\
  compress_offline (DA (lm64 false)) (DO (lm64 false)) cb0 8 ord0 ub0 (dy 1 (-11)) 4 4 offU offV (repeat 0%Z 7) (repeat 0%Z 7) (repeat 0%Z 128)
    (repeat 0%Z 153) (repeat 0%Z 153) (repeat 0%Z 342) = Some (buf, size) /\
  decompress_offline (DA (lm64 false)) (DO (lm64 false)) 4 4 (firstn (size + 8) buf) = Some (U', V') /\
  aget offU 0 = Some (dy 1 (-40)) /\ aget U' 0 = Some (Some x') /\ val64 x' = Fin 0 /\ val64 (dy 1 (-40)) = Fin (bpow radix2 (-40)).
Proof. exact zero_symbol_refuted. Qed.
Print Assumptions C19_small_bound_refuted.

(** What holds: given the 8 bytes (to write, and to read back), and with no bound in the gap, the decompressor accepts the stream and every
    value is exact or within the relative bound derived for its vertex. *)
Theorem C19_round_trip_double_partial : forall lm, libm_ok (DA lm) (DA_ieee lm) ->
  forall cbrt slack ord ub max_eb r1 r2 (U V : list binary64) pu pv je ju jv junk buf size eb,
  length pu = 7%nat -> length pv = 7%nat ->
  (Z.of_nat (length je) < 2 ^ 64)%Z -> (Z.of_nat (length ju) < 2 ^ 64)%Z -> (Z.of_nat (length jv) < 2 ^ 64)%Z -> (Z.of_nat (length junk) < 2 ^ 64)%Z ->
  offline_ebs (DA lm) cbrt max_eb r1 r2 U V = Some eb -> off_bounds U eb -> off_bounds V eb ->
  short_offline (DA lm) (DO lm) cbrt ord max_eb r1 r2 U V -> (0 <= r1 * r2)%Z ->
  compress_offline (DA lm) (DO lm) cbrt slack ord ub max_eb r1 r2 U V pu pv je ju jv junk = Some (buf, size) ->
  exists U' V', (forall rest, decompress_offline (DA lm) (DO lm) r1 r2 (firstn (size + 8) buf ++ rest) = Some (U', V')) /\
    rel_recovered (1 + bpow radix2 (-37)) eb U (Z.to_nat (r1 * r2)) U' /\ rel_recovered (1 + bpow radix2 (-37)) eb V (Z.to_nat (r1 * r2)) V'.
Proof. exact offline_api_double. Qed.
Print Assumptions C19_round_trip_double_partial.

Example C19_double_nonvacuous : libm_ok (DA (lm64 false)) (DA_ieee (lm64 false)) /\ exists buf size,
  compress_offline (DA (lm64 false)) (DO (lm64 false)) cb0 8 ord0 ub0 (dy 1 (-8)) 4 4 offU offV (repeat 0%Z 7) (repeat 0%Z 7) (repeat 0%Z 128)
    (repeat 0%Z 153) (repeat 0%Z 153) (repeat 0%Z 297) = Some (buf, size) /\
  offline_ebs (DA (lm64 false)) cb0 (dy 1 (-8)) 4 4 offU offV = Some (repeat (dy 1 (-8)) 16) /\
  off_bounds offU (repeat (dy 1 (-8)) 16) /\ off_bounds offV (repeat (dy 1 (-8)) 16) /\
  short_offline (DA (lm64 false)) (DO (lm64 false)) cb0 ord0 (dy 1 (-8)) 4 4 offU offV.
Proof. split; [apply lm64_ok|exact off_example]. Qed.

Theorem C19_round_trip_float_partial : forall lm, libm_ok (FA lm) (FA_ieee lm) ->
  forall cbrt slack ord ub max_eb r1 r2 (U V : list binary32) pu pv je ju jv junk buf size eb,
  length pu = 3%nat -> length pv = 3%nat ->
  (Z.of_nat (length je) < 2 ^ 64)%Z -> (Z.of_nat (length ju) < 2 ^ 64)%Z -> (Z.of_nat (length jv) < 2 ^ 64)%Z -> (Z.of_nat (length junk) < 2 ^ 64)%Z ->
  offline_ebs (FA lm) cbrt max_eb r1 r2 U V = Some eb -> off_bounds U eb -> off_bounds V eb ->
  short_offline (FA lm) (FO lm) cbrt ord max_eb r1 r2 U V -> (0 <= r1 * r2)%Z ->
  compress_offline (FA lm) (FO lm) cbrt slack ord ub max_eb r1 r2 U V pu pv je ju jv junk = Some (buf, size) ->
  exists U' V', (forall rest, decompress_offline (FA lm) (FO lm) r1 r2 (firstn (size + 8) buf ++ rest) = Some (U', V')) /\
    rel_recovered (1 + bpow radix2 (-22)) eb U (Z.to_nat (r1 * r2)) U' /\ rel_recovered (1 + bpow radix2 (-22)) eb V (Z.to_nat (r1 * r2)) V'.
Proof. exact offline_api_float. Qed.
Print Assumptions C19_round_trip_float_partial.

Example C19_float_nonvacuous : libm_ok (FA (lm32 false)) (FA_ieee (lm32 false)) /\ exists buf size,
  compress_offline (FA (lm32 false)) (FO (lm32 false)) cb0 8 ord0 ub0 (dy 1 (-8)) 8 8 offU32 offV32 (repeat 0%Z 3) (repeat 0%Z 3) (repeat 0%Z 512)
    (repeat 0%Z 307) (repeat 0%Z 307) (repeat 0%Z 306) = Some (buf, size) /\
  offline_ebs (FA (lm32 false)) cb0 (dy 1 (-8)) 8 8 offU32 offV32 = Some (repeat (dy 1 (-8)) 64) /\
  off_bounds offU32 (repeat (dy 1 (-8)) 64) /\ off_bounds offV32 (repeat (dy 1 (-8)) 64) /\
  short_offline (FA (lm32 false)) (FO (lm32 false)) cb0 ord0 (dy 1 (-8)) 8 8 offU32 offV32.
Proof. split; [apply lm32_ok|exact off_example_float]. Qed.
