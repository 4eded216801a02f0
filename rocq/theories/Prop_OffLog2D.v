(** Property theorems about the offline 2D codec in the log domain (C42).  [cbrt]: the C library's cube root (any function);
    [eb]: the bounds computed before compression; sizes of the blocks as the caller allocates them. *)
From Coq Require Import Reals Lra Lia ZArith List Bool.
From Flocq Require Import Core.Core IEEE754.BinarySingleNaN IEEE754.Binary IEEE754.Bits.
From Verif Require Import Base Huffman HuffStream Arith Codec2D Exact Geo2D Cells2D IEEE IEEELaws IEEEQuant IEEE2D Api2D LibmModel LogLibm Witness2D Examples2D LinQuant Block
  BlockIEEE Offline2D OfflineCodec2D OfflineWitness2D Log2D LogErr2D LogApi2D OffLog2D OffLogApi2D OffLogWitness2D.
Import ListNotations.
Local Open Scope Z_scope.

(** Decompression of the first [size] bytes, whatever follows, gives every value back: its sign and, up to 2^-13, its relative bound; zeros as +0. *)
Theorem C42_round_trip_double : forall lm, libm_ok (DA lm) (DA_ieee lm) -> log_libm_ok (DA lm) (DA_ieee lm) ->
  forall cbrt ord ub max_eb r1 r2 (U V : list binary64) pu pv je ju jv junk buf size eb,
  length pu = 7%nat -> length pv = 7%nat ->
  Z.of_nat (length je) < 2 ^ 64 -> Z.of_nat (length ju) < 2 ^ 64 -> Z.of_nat (length jv) < 2 ^ 64 -> Z.of_nat (length junk) < 2 ^ 64 ->
  Z.of_nat (length U) = r1 * r2 -> Z.of_nat (length V) = r1 * r2 ->
  (forall x, In x U \/ In x V -> zero_or_usual 100 x) ->
  offline_ebs (DA lm) cbrt max_eb r1 r2 U V = Some eb -> log_bounds eb ->
  short_offlog (DA lm) (DO lm) cbrt ord max_eb r1 r2 U V ->
  compress_offlog (DA lm) (DO lm) cbrt ord ub max_eb r1 r2 U V pu pv je ju jv junk = Some (buf, size) ->
  exists U' V', (forall rest, decompress_offlog (DA lm) (DO lm) r1 r2 (firstn size buf ++ rest) = Some (U', V')) /\
    log_recovered eb U (Z.to_nat (r1 * r2)) U' /\ log_recovered eb V (Z.to_nat (r1 * r2)) V'.
Proof. exact offlog_api_double. Qed.
Print Assumptions C42_round_trip_double.

Theorem C42_round_trip_float : forall lm, libm_ok (FA lm) (FA_ieee lm) -> log_libm_ok (FA lm) (FA_ieee lm) ->
  forall cbrt ord ub max_eb r1 r2 (U V : list binary32) pu pv je ju jv junk buf size eb,
  length pu = 3%nat -> length pv = 3%nat ->
  Z.of_nat (length je) < 2 ^ 64 -> Z.of_nat (length ju) < 2 ^ 64 -> Z.of_nat (length jv) < 2 ^ 64 -> Z.of_nat (length junk) < 2 ^ 64 ->
  Z.of_nat (length U) = r1 * r2 -> Z.of_nat (length V) = r1 * r2 ->
  (forall x, In x U \/ In x V -> zero_or_usual 100 x) ->
  offline_ebs (FA lm) cbrt max_eb r1 r2 U V = Some eb -> log_bounds eb ->
  short_offlog (FA lm) (FO lm) cbrt ord max_eb r1 r2 U V ->
  compress_offlog (FA lm) (FO lm) cbrt ord ub max_eb r1 r2 U V pu pv je ju jv junk = Some (buf, size) ->
  exists U' V', (forall rest, decompress_offlog (FA lm) (FO lm) r1 r2 (firstn size buf ++ rest) = Some (U', V')) /\
    log_recovered eb U (Z.to_nat (r1 * r2)) U' /\ log_recovered eb V (Z.to_nat (r1 * r2)) V'.
Proof. exact offlog_api_float. Qed.
Print Assumptions C42_round_trip_float.

(** The hypotheses hold: a 6 x 6 field of doubles with bounds 0 and 1, a 10 x 10 field of floats with bounds 1. *)
Example C42_nonvacuous_double : exists buf size,
  compress_offlog (DA (lmlog64 false)) (DO (lmlog64 false)) cb0 ord0 ub0 (dy 1 0) 6 6 gcU gcV (repeat 0 7) (repeat 0 7)
    (repeat 0 144) (repeat 0 345) (repeat 0 345) (repeat 0 664) = Some (buf, size) /\
  libm_ok (DA (lmlog64 false)) (DA_ieee (lmlog64 false)) /\ log_libm_ok (DA (lmlog64 false)) (DA_ieee (lmlog64 false)) /\
  (forall x, In x gcU \/ In x gcV -> zero_or_usual 100 x) /\
  offline_ebs (DA (lmlog64 false)) cb0 (dy 1 0) 6 6 gcU gcV = Some gcE /\ log_bounds gcE /\
  short_offlog (DA (lmlog64 false)) (DO (lmlog64 false)) cb0 ord0 (dy 1 0) 6 6 gcU gcV.
Proof. exact gc_example. Qed.
Example C42_nonvacuous_float : exists buf size,
  compress_offlog (FA (lmlog32 false)) (FO (lmlog32 false)) cb0 ord0 ub0 (dy 1 0) 10 10 glU32 glV32 (repeat 0 3) (repeat 0 3)
    (repeat 0 400) (repeat 0 480) (repeat 0 480) (repeat 0 379) = Some (buf, size) /\
  libm_ok (FA (lmlog32 false)) (FA_ieee (lmlog32 false)) /\ log_libm_ok (FA (lmlog32 false)) (FA_ieee (lmlog32 false)) /\
  (forall x, In x glU32 \/ In x glV32 -> zero_or_usual 100 x) /\
  offline_ebs (FA (lmlog32 false)) cb0 (dy 1 0) 10 10 glU32 glV32 = Some (repeat (dy 1 0) 100) /\ log_bounds (repeat (dy 1 0) 100) /\
  short_offlog (FA (lmlog32 false)) (FO (lmlog32 false)) cb0 ord0 (dy 1 0) 10 10 glU32 glV32.
Proof. exact gl_example. Qed.

(** Not true: vertices of bound 0 come back unchanged and no critical point appears.  The logarithm is taken in single precision: the triangle
    (0,0), (1,0), (1,1) of a 6 x 6 field, all of bound 0, gets a zero it did not have. *)
Theorem C42_critical_point_refuted : exists eb buf size U' V' wa wb wc wa',
  libm_ok (DA (lmlog64 false)) (DA_ieee (lmlog64 false)) /\ log_libm_ok (DA (lmlog64 false)) (DA_ieee (lmlog64 false)) /\
  offline_ebs (DA (lmlog64 false)) cb0 (dy 1 0) 6 6 gcU gcV = Some eb /\
  aget eb 0 = Some (dy 0 0) /\ aget eb 6 = Some (dy 0 0) /\ aget eb 7 = Some (dy 0 0) /\
  compress_offlog (DA (lmlog64 false)) (DO (lmlog64 false)) cb0 ord0 ub0 (dy 1 0) 6 6 gcU gcV (repeat 0 7) (repeat 0 7)
    (repeat 0 144) (repeat 0 345) (repeat 0 345) (repeat 0 664) = Some (buf, size) /\
  decompress_offlog (DA (lmlog64 false)) (DO (lmlog64 false)) 6 6 (firstn size buf) = Some (U', V') /\
  cell 6 6 (0, 0) (1, 0) (1, 1) /\
  valuesat 6 (map Some gcU) (map Some gcV) (0, 0) wa /\ valuesat 6 (map Some gcU) (map Some gcV) (1, 0) wb /\ valuesat 6 (map Some gcU) (map Some gcV) (1, 1) wc /\
  valuesat 6 U' V' (0, 0) wa' /\ valuesat 6 U' V' (1, 0) wb /\ valuesat 6 U' V' (1, 1) wc /\
  wa <> wa' /\ ~ has_cp wa wb wc /\ has_cp wa' wb wc.
Proof. exact gc_refuted. Qed.
Print Assumptions C42_critical_point_refuted.

(** Not true: every field can be compressed.  On a grid of at most four points the block for the bounds is overrun, whatever the field. *)
Theorem C42_small_grid_refuted : exists r1 r2, 2 <= r1 /\ 2 <= r2 /\
  forall (A : Arith) O cbrt ord ub max_eb U V pu pv je ju jv junk,
  compress_offlog A O cbrt ord ub max_eb r1 r2 U V pu pv je ju jv junk = None.
Proof. exact small_grid_ex. Qed.
Print Assumptions C42_small_grid_refuted.
