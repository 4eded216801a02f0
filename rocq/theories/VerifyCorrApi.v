(** Examples and counterexamples for the correlation verify() prints.  Nothing of /repo is modelled here. *)
From Coq Require Import Reals Lra Lia ZArith List Bool.
From Flocq Require Import Core.Core IEEE754.BinarySingleNaN IEEE754.Binary IEEE754.Bits.
From Verif Require Import Base Arith Exact IEEE IEEELaws Api2D LibmModel Witness2D Examples2D Refute2D Verify VerifyApi VerifyStats OfflineWitness2D PwrWitness2D VerifyStatsApi VerifyCorr VerifyCorrRange.
Import ListNotations.
Local Open Scope Z_scope.

(** The correlation as bits. *)
Definition seen_ac (lm : Libm binary32 binary64) log10 (ori dec : list binary32) : option (Z * Z) :=
  option_map (fun s : stats (FA lm) => (bits_of_b64 (s_ac s), bits_of_b64 (s_range s))) (verify_stats (FA lm) log10 ori dec (length ori)).
Lemma seen_ac_inv lm log10 ori dec a b : seen_ac lm log10 ori dec = Some (bits_of_b64 a, bits_of_b64 b) -> exists s, verify_stats (FA lm) log10 ori dec (length ori) = Some s /\ s_ac s = a /\ s_range s = b.
Proof.
  unfold seen_ac. destruct (verify_stats (FA lm) log10 ori dec (length ori)) as [s|]; [|discriminate]. cbn [option_map]. intros H. exists s. split; [reflexivity|].
  assert (H' : (bits_of_b64 (s_ac s), bits_of_b64 (s_range s)) = (bits_of_b64 a, bits_of_b64 b)) by congruence.
  pose proof (f_equal fst H') as E1. pose proof (f_equal snd H') as E2. split; apply bits_inj; [exact E1|exact E2].
Qed.

Lemma b32_val m e : Z.abs m <= 2 ^ 4 -> -126 <= e <= 90 -> B2R 24 128 (b32 (m, e)) = (IZR m * bpow radix2 e)%R.
Proof. intros Hm He. pose proof (b32_dy m e ltac:(lia) ltac:(lia)) as V. apply (val_fin_iff 24 128) in V. destruct V as [_ V]. exact V. Qed.
Lemma varies_two m1 m2 : Z.abs m1 <= 2 ^ 4 -> Z.abs m2 <= 2 ^ 4 -> m1 <> m2 -> varies 24 128 (map b32 [(m1, 0); (m2, 0)]) 2 (-60).
Proof.
  intros H1 H2 HN. exists 0%nat, 1%nat, (b32 (m1, 0)), (b32 (m2, 0)). split; [lia|]. split; [lia|]. split; [reflexivity|]. split; [reflexivity|].
  rewrite !b32_val by lia. change (bpow radix2 0) with 1%R. rewrite !Rmult_1_r, <- minus_IZR, <- abs_IZR. apply Rle_trans with 1%R; [change 1%R with (bpow radix2 0); apply bpow_le; lia|].
  change 1%R with (IZR 1). apply IZR_le. lia.
Qed.

(** Three arrays that vary; the range of the first; its correlations with its double and its reverse. *)
Lemma corr_example lm log10 :
  (forall x, In x (map b32 [(0, 0); (2, 0)]) \/ In x (map b32 [(2, 0); (0, 0)]) -> finite_le 60 x) /\
  varies 24 128 (map b32 [(0, 0); (2, 0)]) 2 (-60) /\ varies 24 128 (map b32 [(2, 0); (0, 0)]) 2 (-60) /\
  exists s, verify_stats (FA lm) log10 (map b32 [(0, 0); (2, 0)]) (map b32 [(2, 0); (0, 0)]) 2 = Some s /\ s_ac s = dy (-1) 0 /\ s_range s = dy 2 0 /\ (bpow radix2 (-60) <= B2R 53 1024 (s_range s))%R.
Proof.
  split; [intros x [[<-|[<-|[]]]|[<-|[<-|[]]]]; apply b32_finite; lia|]. split; [apply varies_two; lia|]. split; [apply varies_two; lia|].
  assert (E : seen_ac lm log10 (map b32 [(0, 0); (2, 0)]) (map b32 [(2, 0); (0, 0)]) = Some (bits_of_b64 (dy (-1) 0), bits_of_b64 (dy 2 0))) by (vm_compute; reflexivity).
  apply seen_ac_inv in E. destruct E as (s & E & E1 & E2). exists s. split; [exact E|]. split; [exact E1|]. split; [exact E2|]. rewrite E2.
  pose proof (dy_val 2 0 ltac:(lia) ltac:(lia)) as V. apply (val_fin_iff 53 1024) in V. destruct V as [_ V]. rewrite V. change (bpow radix2 0) with 1%R.
  apply Rle_trans with 1%R; [change 1%R with (bpow radix2 0); apply bpow_le; lia|lra].
Qed.

(** Correlation exactly 1 between an array and its double. *)
Theorem corr_double lm log10 : exists (ori dec : list binary32) s, (forall x, In x ori \/ In x dec -> finite_le 20 x) /\ length dec = length ori /\
  verify_stats (FA lm) log10 ori dec (length ori) = Some s /\ s_ac s = dy 1 0 /\
  exists i x y, nth_error ori i = Some x /\ nth_error dec i = Some y /\ (B2R 24 128 y - B2R 24 128 x = 2)%R.
Proof.
  assert (E : seen_ac lm log10 (map b32 [(0, 0); (2, 0)]) (map b32 [(0, 0); (4, 0)]) = Some (bits_of_b64 (dy 1 0), bits_of_b64 (dy 2 0))) by (vm_compute; reflexivity).
  apply seen_ac_inv in E. destruct E as (s & E & E1 & _). exists (map b32 [(0, 0); (2, 0)]), (map b32 [(0, 0); (4, 0)]), s.
  split; [intros x [[<-|[<-|[]]]|[<-|[<-|[]]]]; apply b32_finite; lia|]. split; [reflexivity|]. split; [exact E|]. split; [exact E1|].
  exists 1%nat, (b32 (2, 0)), (b32 (4, 0)). split; [reflexivity|]. split; [reflexivity|]. rewrite !b32_val by lia. change (bpow radix2 0) with 1%R. lra.
Qed.
