(** Property theorems C59, the correlation: [s_ac] is what verify (include/utils.hpp) prints as acEff.  [varies p e l n g]: two of the first [n] values of [l] differ by at least 2^g. *)
From Coq Require Import Reals Lra Lia ZArith List Bool.
From Flocq Require Import Core.Core IEEE754.BinarySingleNaN IEEE754.Binary IEEE754.Bits.
From Verif Require Import Base Arith Exact IEEE IEEELaws Api2D Witness2D Examples2D Refute2D Verify VerifyApi VerifyStats PwrWitness2D VerifyStatsApi VerifyCorr VerifyCorrRange VerifyCorrApi.
Import ListNotations.
Local Open Scope Z_scope.

(** A float array compared with itself has correlation 1, up to 2^-50, if its range is at least 2^-60. *)
Theorem C59_self_correlation_float : forall (lm : Libm binary32 binary64) log10 (ori : list binary32) n,
  (0 < n)%nat -> Z.of_nat n <= 2 ^ 30 -> (n <= length ori)%nat -> (forall x, In x ori -> finite_le 60 x) ->
  exists s, verify_stats (FA lm) log10 ori ori n = Some s /\
    ((bpow radix2 (-60) <= B2R 53 1024 (s_range s))%R -> is_finite 53 1024 (s_ac s) = true /\ (Rabs (B2R 53 1024 (s_ac s) - 1) <= bpow radix2 (-50))%R).
Proof. exact correlation_float. Qed.
Print Assumptions C59_self_correlation_float.

Theorem C59_self_correlation_double : forall (lm : Libm binary64 binary64) log10 (ori : list binary64) n,
  (0 < n)%nat -> Z.of_nat n <= 2 ^ 30 -> (n <= length ori)%nat -> (forall x, In x ori -> finite_le 400 x) ->
  exists s, verify_stats (DA lm) log10 ori ori n = Some s /\
    ((bpow radix2 (-400) <= B2R 53 1024 (s_range s))%R -> is_finite 53 1024 (s_ac s) = true /\ (Rabs (B2R 53 1024 (s_ac s) - 1) <= bpow radix2 (-50))%R).
Proof. exact correlation_double. Qed.
Print Assumptions C59_self_correlation_double.

(** Between any two arrays that are not constant the correlation is a number from -1 to 1, up to 2^-20. *)
Theorem C59_correlation_range_float : forall (lm : Libm binary32 binary64) log10 (ori dec : list binary32) n,
  (0 < n)%nat -> Z.of_nat n <= 2 ^ 30 -> (n <= length ori)%nat -> (n <= length dec)%nat -> (forall x, In x ori \/ In x dec -> finite_le 60 x) ->
  varies 24 128 ori n (-60) -> varies 24 128 dec n (-60) ->
  exists s, verify_stats (FA lm) log10 ori dec n = Some s /\ is_finite 53 1024 (s_ac s) = true /\ (Rabs (B2R 53 1024 (s_ac s)) <= 1 + bpow radix2 (-20))%R.
Proof. exact range_float. Qed.
Print Assumptions C59_correlation_range_float.

Theorem C59_correlation_range_double : forall (lm : Libm binary64 binary64) log10 (ori dec : list binary64) n,
  (0 < n)%nat -> Z.of_nat n <= 2 ^ 30 -> (n <= length ori)%nat -> (n <= length dec)%nat -> (forall x, In x ori \/ In x dec -> finite_le 400 x) ->
  varies 53 1024 ori n (-400) -> varies 53 1024 dec n (-400) ->
  exists s, verify_stats (DA lm) log10 ori dec n = Some s /\ is_finite 53 1024 (s_ac s) = true /\ (Rabs (B2R 53 1024 (s_ac s)) <= 1 + bpow radix2 (-20))%R.
Proof. exact range_double. Qed.
Print Assumptions C59_correlation_range_double.

Example C59_correlation_nonvacuous : forall lm log10,
  (forall x, In x (map b32 [(0, 0); (2, 0)]) \/ In x (map b32 [(2, 0); (0, 0)]) -> finite_le 60 x) /\
  varies 24 128 (map b32 [(0, 0); (2, 0)]) 2 (-60) /\ varies 24 128 (map b32 [(2, 0); (0, 0)]) 2 (-60) /\
  exists s, verify_stats (FA lm) log10 (map b32 [(0, 0); (2, 0)]) (map b32 [(2, 0); (0, 0)]) 2 = Some s /\ s_ac s = dy (-1) 0 /\ s_range s = dy 2 0 /\ (bpow radix2 (-60) <= B2R 53 1024 (s_range s))%R.
Proof. exact corr_example. Qed.

(** Not true: correlation 1 means that nothing changed.  It is exactly 1 between an array and its double. *)
Theorem C59_correlation_refuted : forall lm log10,
  exists (ori dec : list binary32) s, (forall x, In x ori \/ In x dec -> finite_le 20 x) /\ length dec = length ori /\
  verify_stats (FA lm) log10 ori dec (length ori) = Some s /\ s_ac s = dy 1 0 /\
  exists i x y, nth_error ori i = Some x /\ nth_error dec i = Some y /\ (B2R 24 128 y - B2R 24 128 x = 2)%R.
Proof. exact corr_double. Qed.
Print Assumptions C59_correlation_refuted.
