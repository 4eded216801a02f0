(** Property theorems C59: the statistics of the error report (verify in include/utils.hpp).  [s_rel]: "Max relative error"; [s_nrmse], [s_psnr], [s_ac]: NRMSE, PSNR and
    acEff; [s_range]: the range; [r_diff]: "Max absolute error".  [db R d] is 20 log10(R/d).  log10 is a parameter; [log10_ok]: its absolute error is at most 2^-40. *)
From Coq Require Import Reals Lra Lia ZArith List Bool.
From Flocq Require Import Core.Core IEEE754.BinarySingleNaN IEEE754.Binary IEEE754.Bits.
From Verif Require Import Base Arith Exact IEEE IEEELaws Api2D LibmModel Witness2D Examples2D Refute2D Verify VerifyApi VerifyStats OfflineWitness2D PwrWitness2D VerifyStatsApi.
Import ListNotations.
Local Open Scope Z_scope.

(** Float data up to 2^60 in magnitude, at most 2^30 values: the range is that of the data; if the largest error and the range are at least 2^-60, NRMSE times the range
    lies between the largest error over the square root of the number of values and the largest error, the relative error is the quotient, and PSNR is within the corresponding limits. *)
Theorem C59_statistics_float : forall (lm : Libm binary32 binary64) log10 (ori dec : list binary32) n,
  (0 < n)%nat -> Z.of_nat n <= 2 ^ 30 -> (n <= length ori)%nat -> (n <= length dec)%nat -> (forall x, In x ori \/ In x dec -> finite_le 60 x) ->
  exists r s, verify (FA lm) ori dec n = Some r /\ verify_stats (FA lm) log10 ori dec n = Some s /\
    is_finite 24 128 (r_diff r) = true /\ is_finite 53 1024 (s_range s) = true /\
    let d := B2R 24 128 (r_diff r) in let R := B2R 53 1024 (s_range s) in let w := (B2R 24 128 (r_max r) - B2R 24 128 (r_min r))%R in
    (0 <= w)%R /\ (R = 0%R <-> w = 0%R) /\ (Rabs (R - w) <= bpow radix2 (-24) * w)%R /\
    ((bpow radix2 (-60) <= d)%R -> (bpow radix2 (-60) <= R)%R ->
     is_finite 53 1024 (s_nrmse s) = true /\ is_finite 24 128 (s_rel s) = true /\
     (d * (1 - bpow radix2 (-20)) <= B2R 53 1024 (s_nrmse s) * R * sqrt (INR n))%R /\ (B2R 53 1024 (s_nrmse s) * R <= d * (1 + bpow radix2 (-20)))%R /\
     (d * (1 - bpow radix2 (-24)) <= B2R 24 128 (s_rel s) * R <= d * (1 + bpow radix2 (-24)))%R /\
     (log10_ok (FA lm) (FA_ieee lm) log10 -> is_finite 53 1024 (s_psnr s) = true /\
       (db R d - bpow radix2 (-15) <= B2R 53 1024 (s_psnr s) <= db R d + 10 * (ln (INR n) / ln 10) + bpow radix2 (-15))%R)).
Proof. exact stats_float. Qed.
Print Assumptions C59_statistics_float.

(** The same for double data. *)
Theorem C59_statistics_double : forall (lm : Libm binary64 binary64) log10 (ori dec : list binary64) n,
  (0 < n)%nat -> Z.of_nat n <= 2 ^ 30 -> (n <= length ori)%nat -> (n <= length dec)%nat -> (forall x, In x ori \/ In x dec -> finite_le 400 x) ->
  exists r s, verify (DA lm) ori dec n = Some r /\ verify_stats (DA lm) log10 ori dec n = Some s /\
    is_finite 53 1024 (r_diff r) = true /\ is_finite 53 1024 (s_range s) = true /\
    let d := B2R 53 1024 (r_diff r) in let R := B2R 53 1024 (s_range s) in let w := (B2R 53 1024 (r_max r) - B2R 53 1024 (r_min r))%R in
    (0 <= w)%R /\ (R = 0%R <-> w = 0%R) /\ (Rabs (R - w) <= bpow radix2 (-53) * w)%R /\
    ((bpow radix2 (-480) <= d)%R -> (bpow radix2 (-480) <= R)%R ->
     is_finite 53 1024 (s_nrmse s) = true /\ is_finite 53 1024 (s_rel s) = true /\
     (d * (1 - bpow radix2 (-20)) <= B2R 53 1024 (s_nrmse s) * R * sqrt (INR n))%R /\ (B2R 53 1024 (s_nrmse s) * R <= d * (1 + bpow radix2 (-20)))%R /\
     (d * (1 - bpow radix2 (-53)) <= B2R 53 1024 (s_rel s) * R <= d * (1 + bpow radix2 (-53)))%R /\
     (log10_ok (DA lm) (DA_ieee lm) log10 -> is_finite 53 1024 (s_psnr s) = true /\
       (db R d - bpow radix2 (-15) <= B2R 53 1024 (s_psnr s) <= db R d + 10 * (ln (INR n) / ln 10) + bpow radix2 (-15))%R)).
Proof. exact stats_double. Qed.
Print Assumptions C59_statistics_double.

Example C59_statistics_nonvacuous : forall lm,
  (forall x, In x (map b32 [(3, 0); (7, 0)]) \/ In x (map b32 [(3, 0); (5, 0)]) -> finite_le 60 x) /\ log10_ok (FA lm) (FA_ieee lm) log10R /\
  exists r s, verify (FA lm) (map b32 [(3, 0); (7, 0)]) (map b32 [(3, 0); (5, 0)]) 2 = Some r /\ verify_stats (FA lm) log10R (map b32 [(3, 0); (7, 0)]) (map b32 [(3, 0); (5, 0)]) 2 = Some s /\
    r_diff r = b32 (2, 0) /\ s_range s = dy 4 0 /\ (bpow radix2 (-60) <= B2R 24 128 (r_diff r))%R /\ (bpow radix2 (-60) <= B2R 53 1024 (s_range s))%R /\ s_rel s = b32 (1, -1).
Proof. exact stats_example. Qed.

(** Errors within a bound: NRMSE is at most bound over range, PSNR at least that of the bound, up to rounding. *)
Theorem C59_within_bound : forall (lm : Libm binary32 binary64) log10 (ori dec : list binary32) n b,
  (0 < n)%nat -> Z.of_nat n <= 2 ^ 30 -> (n <= length ori)%nat -> (n <= length dec)%nat -> (forall x, In x ori \/ In x dec -> finite_le 60 x) ->
  (forall i x y, (i < n)%nat -> nth_error ori i = Some x -> nth_error dec i = Some y -> (Rabs (B2R 24 128 y - B2R 24 128 x) <= b)%R) ->
  exists r s, verify (FA lm) ori dec n = Some r /\ verify_stats (FA lm) log10 ori dec n = Some s /\
    ((bpow radix2 (-60) <= B2R 24 128 (r_diff r))%R -> (bpow radix2 (-60) <= B2R 53 1024 (s_range s))%R ->
     (B2R 53 1024 (s_nrmse s) * B2R 53 1024 (s_range s) <= b * (1 + bpow radix2 (-19)))%R /\
     (log10_ok (FA lm) (FA_ieee lm) log10 -> (db (B2R 53 1024 (s_range s)) b - bpow radix2 (-14) <= B2R 53 1024 (s_psnr s))%R)).
Proof. exact stats_within. Qed.
Print Assumptions C59_within_bound.

(** An array compared with itself, unless constant: NRMSE and relative error are 0; PSNR is infinite if log10 of 0 is. *)
Theorem C59_identical : forall (lm : Libm binary32 binary64) log10 (ori : list binary32) n,
  (0 < n)%nat -> Z.of_nat n < 2 ^ 53 -> (n <= length ori)%nat -> (forall x, In x ori -> finite_le 126 x) ->
  exists r s, verify (FA lm) ori ori n = Some r /\ verify_stats (FA lm) log10 ori ori n = Some s /\ B2R 24 128 (r_diff r) = 0%R /\
    ((0 < B2R 53 1024 (s_range s))%R -> is_finite 53 1024 (s_nrmse s) = true /\ B2R 53 1024 (s_nrmse s) = 0%R /\
      is_finite 24 128 (s_rel s) = true /\ B2R 24 128 (s_rel s) = 0%R /\
      (log10_ok (FA lm) (FA_ieee lm) log10 -> (forall x : binary64, is_finite 53 1024 x = true -> B2R 53 1024 x = 0%R -> val64 (log10 x) = NInf) -> val64 (s_psnr s) = PInf)).
Proof. exact stats_identical. Qed.
Print Assumptions C59_identical.

(** Functions as asked for log10 exist. *)
Lemma C59_log10_exists : forall lm,
  log10_ok (FA lm) (FA_ieee lm) log10R /\ log10_ok (DA (lm64 true)) (DA_ieee (lm64 true)) log10R /\
  (forall x : binary64, is_finite 53 1024 x = true -> B2R 53 1024 x = 0%R -> val64 (log10R x) = NInf).
Proof. exact log10R_ok. Qed.
Print Assumptions C59_log10_exists.

(** Not true: the statistics of finite data are numbers.  For a constant field NRMSE, relative error and correlation are not. *)
Theorem C59_constant_refuted : forall lm log10,
  exists (ori dec : list binary32) s, (forall x, In x ori \/ In x dec -> finite_le 20 x) /\
  verify_stats (FA lm) log10 ori dec (length ori) = Some s /\
  is_finite 53 1024 (s_nrmse s) = false /\ is_finite 24 128 (s_rel s) = false /\ is_nan 53 1024 (s_ac s) = true.
Proof. exact stats_constant. Qed.
Print Assumptions C59_constant_refuted.

(** Not true: NRMSE 0 means that nothing changed. *)
Theorem C59_zero_refuted : forall lm log10,
  exists (ori dec : list binary32) s, (forall x, In x ori \/ In x dec -> finite_le 20 x) /\ length dec = length ori /\
  verify_stats (FA lm) log10 ori dec (length ori) = Some s /\ is_finite 53 1024 (s_nrmse s) = true /\ B2R 53 1024 (s_nrmse s) = 0%R /\
  exists i x y, nth_error ori i = Some x /\ nth_error dec i = Some y /\ B2R 24 128 x <> B2R 24 128 y.
Proof. exact stats_underflow. Qed.
Print Assumptions C59_zero_refuted.

(** Not true: NRMSE is finite for finite data, errors and range. *)
Theorem C59_overflow_refuted : forall lm log10,
  exists (ori dec : list binary32) s, (forall x, In x ori \/ In x dec -> finite_le 80 x) /\ length dec = length ori /\
  verify_stats (FA lm) log10 ori dec (length ori) = Some s /\ is_finite 24 128 (s_rel s) = true /\ is_finite 53 1024 (s_nrmse s) = false.
Proof. exact stats_overflow. Qed.
Print Assumptions C59_overflow_refuted.

