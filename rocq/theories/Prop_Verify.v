(** Property theorems C50: the error report of the test programs (verify in include/utils.hpp).  [r_diff]: "Max absolute error"; [r_pw]: "Max pw relative
    error"; [r_min], [r_max]: the range of the original data. *)
From Coq Require Import Reals Lra Lia ZArith List Bool.
From Flocq Require Import Core.Core IEEE754.BinarySingleNaN IEEE754.Binary IEEE754.Bits.
From Verif Require Import Base Huffman HuffStream HuffProps Stream Arith Mesh2D Derive2D Codec2D Stream2D Exact Cells2D Geo2D Preserve2D
  IEEE IEEELaws IEEEQuant IEEE2D IEEEAbs2D Api2D RelaxApi2D Sz3 Sz3Cells Sz3Api KeepApi2D
  LibmModel Witness2D Examples2D Sz3Refute Lossless LosslessApi Verify VerifyApi.
Import ListNotations.
Local Open Scope Z_scope.

(** Finite data: the reported error bounds every error and is one of them, up to one rounding; the range is exact; the relative error bounds that of every
    value above 1 in magnitude, and is one of these or 0. *)
Theorem C50_report_double : forall (lm : Libm binary64 binary64) (ori dec : list binary64) n,
  (0 < n)%nat -> (n <= length ori)%nat -> (n <= length dec)%nat -> (forall x, In x ori \/ In x dec -> finite_le 1022 x) ->
  exists r, verify (DA lm) ori dec n = Some r /\ is_finite 53 1024 (r_diff r) = true /\ is_finite 53 1024 (r_pw r) = true /\
    (forall i x y, (i < n)%nat -> nth_error ori i = Some x -> nth_error dec i = Some y ->
      (Rabs (B2R 53 1024 y - B2R 53 1024 x) <= B2R 53 1024 (r_diff r) * (1 + bpow radix2 (-53)))%R /\
      (B2R 53 1024 (r_min r) <= B2R 53 1024 x <= B2R 53 1024 (r_max r))%R /\
      (1 < Rabs (B2R 53 1024 x) -> Rabs (B2R 53 1024 y - B2R 53 1024 x) / Rabs (B2R 53 1024 x) <=
         B2R 53 1024 (r_pw r) * (1 + bpow radix2 (-51)) + bpow radix2 (-1074))%R) /\
    (exists i x y, (i < n)%nat /\ nth_error ori i = Some x /\ nth_error dec i = Some y /\
      (B2R 53 1024 (r_diff r) <= Rabs (B2R 53 1024 y - B2R 53 1024 x) * (1 + bpow radix2 (-53)))%R) /\
    (exists i, (i < n)%nat /\ nth_error ori i = Some (r_min r)) /\ (exists i, (i < n)%nat /\ nth_error ori i = Some (r_max r)) /\
    (B2R 53 1024 (r_pw r) = 0%R \/ exists i x y, (i < n)%nat /\ nth_error ori i = Some x /\ nth_error dec i = Some y /\ (1 < Rabs (B2R 53 1024 x))%R /\
      (B2R 53 1024 (r_pw r) <= Rabs (B2R 53 1024 y - B2R 53 1024 x) / Rabs (B2R 53 1024 x) * (1 + bpow radix2 (-51)) + bpow radix2 (-1074))%R).
Proof. exact verify_double. Qed.
Print Assumptions C50_report_double.

(** The same for floats. *)
Theorem C50_report_float : forall (lm : Libm binary32 binary64) (ori dec : list binary32) n,
  (0 < n)%nat -> (n <= length ori)%nat -> (n <= length dec)%nat -> (forall x, In x ori \/ In x dec -> finite_le 126 x) ->
  exists r, verify (FA lm) ori dec n = Some r /\ is_finite 24 128 (r_diff r) = true /\ is_finite 53 1024 (r_pw r) = true /\
    (forall i x y, (i < n)%nat -> nth_error ori i = Some x -> nth_error dec i = Some y ->
      (Rabs (B2R 24 128 y - B2R 24 128 x) <= B2R 24 128 (r_diff r) * (1 + bpow radix2 (-24)))%R /\
      (B2R 24 128 (r_min r) <= B2R 24 128 x <= B2R 24 128 (r_max r))%R /\
      (1 < Rabs (B2R 24 128 x) -> Rabs (B2R 24 128 y - B2R 24 128 x) / Rabs (B2R 24 128 x) <=
         B2R 53 1024 (r_pw r) * (1 + bpow radix2 (-22)) + bpow radix2 (-1074))%R) /\
    (exists i x y, (i < n)%nat /\ nth_error ori i = Some x /\ nth_error dec i = Some y /\
      (B2R 24 128 (r_diff r) <= Rabs (B2R 24 128 y - B2R 24 128 x) * (1 + bpow radix2 (-24)))%R) /\
    (exists i, (i < n)%nat /\ nth_error ori i = Some (r_min r)) /\ (exists i, (i < n)%nat /\ nth_error ori i = Some (r_max r)) /\
    (B2R 53 1024 (r_pw r) = 0%R \/ exists i x y, (i < n)%nat /\ nth_error ori i = Some x /\ nth_error dec i = Some y /\ (1 < Rabs (B2R 24 128 x))%R /\
      (B2R 53 1024 (r_pw r) <= Rabs (B2R 24 128 y - B2R 24 128 x) / Rabs (B2R 24 128 x) * (1 + bpow radix2 (-22)) + bpow radix2 (-1074))%R).
Proof. exact verify_float. Qed.
Print Assumptions C50_report_float.

Example C50_nonvacuous : forall lm, (0 < 2)%nat /\ (forall x, In x [dy 3 0; dy 5 0] \/ In x [dy 3 0; dy 7 0] -> finite_le 500 x) /\
  exists r, verify (DA lm) [dy 3 0; dy 5 0] [dy 3 0; dy 7 0] 2 = Some r /\ r_diff r = dy 2 0.
Proof. exact verify_example. Qed.

(** The 2D program (codec, lossless stage, and back) reports an error within the bound it was given.  Example of a run: C49_program_2d_nonvacuous. *)
Theorem C50_program_2d_float : forall (lm : Libm binary32 binary64) (L : libm_ok (FA lm) (FA_ieee lm)) z heap wrap max_eb ord ub r1 r2 U V junk buf size,
  zstd_ok compress_bound z -> sizes heap -> (size < 100)%nat \/ (320 <= size)%nat ->
  1 <= r1 -> 1 <= r2 -> Z.of_nat (length U) = r1 * r2 -> Z.of_nat (length V) = r1 * r2 -> Z.of_nat (length junk) <= 2 ^ 52 ->
  is_finite 53 1024 max_eb = true -> (B2R 53 1024 max_eb <= bpow radix2 56)%R -> (forall x, In x U \/ In x V -> finite_le 56 x) ->
  compress_sz3 (FA lm) wrap max_eb ord ub r1 r2 U V junk = Some (buf, size) -> sz3_short (FA lm) wrap max_eb ord r1 r2 U V ->
  exists U' V' rU rV, pipeline z heap (compress_sz3 (FA lm) wrap max_eb ord ub r1 r2 U V junk) (decompress_sz3 (FA lm) wrap r1 r2) = Some (U', V') /\
    verify (FA lm) U U' (length U) = Some rU /\ verify (FA lm) V V' (length V) = Some rV /\
    is_finite 24 128 (r_diff rU) = true /\ is_finite 24 128 (r_diff rV) = true /\
    (B2R 24 128 (r_diff rU) <= Rmax 0 (B2R 53 1024 max_eb) * (1 + bpow radix2 (-21)))%R /\
    (B2R 24 128 (r_diff rV) <= Rmax 0 (B2R 53 1024 max_eb) * (1 + bpow radix2 (-21)))%R.
Proof. exact program_2d_report_float. Qed.
Print Assumptions C50_program_2d_float.

(** The same with double data. *)
Theorem C50_program_2d_double : forall (lm : Libm binary64 binary64) (L : libm_ok (DA lm) (DA_ieee lm)) z heap wrap max_eb ord ub r1 r2 U V junk buf size,
  zstd_ok compress_bound z -> sizes heap -> (size < 100)%nat \/ (320 <= size)%nat ->
  1 <= r1 -> 1 <= r2 -> Z.of_nat (length U) = r1 * r2 -> Z.of_nat (length V) = r1 * r2 -> Z.of_nat (length junk) <= 2 ^ 52 ->
  is_finite 53 1024 max_eb = true -> (B2R 53 1024 max_eb <= bpow radix2 500)%R -> (forall x, In x U \/ In x V -> finite_le 500 x) ->
  compress_sz3 (DA lm) wrap max_eb ord ub r1 r2 U V junk = Some (buf, size) -> sz3_short (DA lm) wrap max_eb ord r1 r2 U V ->
  exists U' V' rU rV, pipeline z heap (compress_sz3 (DA lm) wrap max_eb ord ub r1 r2 U V junk) (decompress_sz3 (DA lm) wrap r1 r2) = Some (U', V') /\
    verify (DA lm) U U' (length U) = Some rU /\ verify (DA lm) V V' (length V) = Some rV /\
    is_finite 53 1024 (r_diff rU) = true /\ is_finite 53 1024 (r_diff rV) = true /\
    (B2R 53 1024 (r_diff rU) <= Rmax 0 (B2R 53 1024 max_eb) * (1 + bpow radix2 (-37)))%R /\
    (B2R 53 1024 (r_diff rV) <= Rmax 0 (B2R 53 1024 max_eb) * (1 + bpow radix2 (-37)))%R.
Proof. exact program_2d_report_double. Qed.
Print Assumptions C50_program_2d_double.

(** A decompressed NaN is not reported. *)
Theorem C50_nan_reported_refuted : forall lm,
  exists (ori dec : list binary64) r, (forall x, In x ori -> finite_le 500 x) /\ verify (DA lm) ori dec (length ori) = Some r /\
  is_finite 53 1024 (r_diff r) = true /\ B2R 53 1024 (r_diff r) = 0%R /\ B2R 53 1024 (r_pw r) = 0%R /\ nth_error dec 1 = Some dnan.
Proof. exact verify_nan. Qed.
Print Assumptions C50_nan_reported_refuted.

(** The relative error of small values is not reported. *)
Theorem C50_relative_refuted : forall lm,
  exists (ori dec : list binary64) r x y, (forall v, In v ori \/ In v dec -> finite_le 500 v) /\ verify (DA lm) ori dec (length ori) = Some r /\
  B2R 53 1024 (r_pw r) = 0%R /\ nth_error ori 1 = Some x /\ nth_error dec 1 = Some y /\ (100 * Rabs (B2R 53 1024 x) < Rabs (B2R 53 1024 y - B2R 53 1024 x))%R.
Proof. exact verify_pw. Qed.
Print Assumptions C50_relative_refuted.

(** An empty array is read. *)
Theorem C50_empty_refuted : forall A (dec : list (T A)),
  verify A [] dec 0 = None.
Proof. exact verify_empty. Qed.
Print Assumptions C50_empty_refuted.

