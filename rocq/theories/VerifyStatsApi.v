(** What the statistics of the error report say: theorems for float and double, refutations.  Nothing of /repo is modelled here. *)
From Coq Require Import Reals Lra Lia ZArith List Bool.
From Coq Require Import ZifyBool ZifyNat.
From Flocq Require Import Core.Core IEEE754.BinarySingleNaN IEEE754.Binary IEEE754.Bits.
From Verif Require Import Base Arith Exact IEEE IEEELaws Api2D LibmModel Witness2D Examples2D Refute2D Verify VerifyApi VerifyStats OfflineWitness2D PwrWitness2D.
Import ListNotations.
Local Open Scope Z_scope.

(** 20 log10(range / error), as a real number. *)
Definition db (range err : R) : R := (20 * (ln (range / err) / ln 10))%R.

Section Values.
Local Open Scope R_scope.
Lemma stats_psnr A (I : ieee A) log10 ori dec n s : verify_stats A log10 ori dec n = Some s ->
  s_psnr s = dsub A (dmul A (dofZ A 20) (log10 (s_range s))) (dmul A (dofZ A 10) (log10 (s_mse s))).
Proof.
  unfold verify_stats. destruct (verify A ori dec n) as [r|]; [|discriminate]. intros E. injection E as <-. reflexivity.
Qed.
End Values.

Theorem stats_float (lm : Libm binary32 binary64) log10 (ori dec : list binary32) n :
  (0 < n)%nat -> Z.of_nat n <= 2 ^ 30 -> (n <= length ori)%nat -> (n <= length dec)%nat -> (forall x, In x ori \/ In x dec -> finite_le 60 x) ->
  exists r s, verify (FA lm) ori dec n = Some r /\ verify_stats (FA lm) log10 ori dec n = Some s /\
    is_finite 24 128 (r_diff r) = true /\ is_finite 53 1024 (s_range s) = true /\
    let d := B2R 24 128 (r_diff r) in let R := B2R 53 1024 (s_range s) in let w := (B2R 24 128 (r_max r) - B2R 24 128 (r_min r))%R in
    (0 <= w)%R /\ (R = 0%R <-> w = 0%R) /\ (Rabs (R - w) <= bpow radix2 (-24) * w)%R /\
    ((bpow radix2 (-60) <= d)%R -> (bpow radix2 (-60) <= R)%R ->
     is_finite 53 1024 (s_nrmse s) = true /\ is_finite 24 128 (s_rel s) = true /\
     (d * (1 - bpow radix2 (-20)) <= B2R 53 1024 (s_nrmse s) * R * sqrt (INR n))%R /\ (B2R 53 1024 (s_nrmse s) * R <= d * (1 + bpow radix2 (-20)))%R /\
     (d * (1 - bpow radix2 (-24)) <= B2R 24 128 (s_rel s) * R <= d * (1 + bpow radix2 (-24)))%R /\
     (log10_ok (FA lm) (FA_ieee lm) log10 -> is_finite 53 1024 (s_psnr s) = true /\
       (db R d - bpow radix2 (-15) <= B2R 53 1024 (s_psnr s) <= db R d + 10 * (ln (INR n) / ln 10) + bpow radix2 (-15))%R)).
Proof.
  intros Hn NB L1 L2 HF.
  destruct (stats_bounds (FA lm) (FA_ieee lm) log10 ori dec n 60 (-60) (-60)) as (r & s & d & R & EV & ES & Vd & VR & (lo & hi & Vl & Vh & HW & HZ & HE) & HB);
    try (cbn [FA_ieee pT eT]; lia); auto.
  { intros x Hx. apply (finite_bnd 24 128). apply HF. auto. }
  exists r, s. split; [exact EV|]. split; [exact ES|].
  apply (val_fin_iff 24 128) in Vd, Vl, Vh. apply (val_fin_iff 53 1024) in VR. destruct Vd as [Fd <-], Vl as [_ <-], Vh as [_ <-], VR as [FR <-].
  split; [exact Fd|]. split; [exact FR|]. cbv zeta. split; [exact HW|]. split; [rewrite HZ; split; intros; lra|]. split; [exact HE|].
  intros HD HR. destruct (HB HD HR) as (ms & nr & rel & Vm & Vn & Vr & Bm & Bm' & MU & ML & N1 & N2 & N3). clear HB.
  apply (val_fin_iff 53 1024) in Vn. apply (val_fin_iff 24 128) in Vr. destruct Vn as [Fn <-], Vr as [Fr <-].
  split; [exact Fn|]. split; [exact Fr|]. split; [exact N1|]. split; [exact N2|]. split; [exact N3|]. intros HL.
  destruct (psnr_bounds (FA lm) (FA_ieee lm) log10 (B2R 53 1024 (s_range s)) (s_range s) (s_mse s) (B2R 24 128 (r_diff r)) ms n) as (p & Vp & Bp); auto; try apply Bm.
  - eapply Rlt_le_trans; [apply bpow_gt_0|exact HD].
  - apply (val_fin_iff 53 1024). auto.
  - split; [eapply Rle_trans; [|exact HR]; apply bpow_le; lia|]. pose proof (abs_B2R_lt_emax 53 1024 (s_range s)) as B. apply Rlt_le. eapply Rle_lt_trans; [apply Rle_abs|exact B].
  - rewrite <- (stats_psnr (FA lm) (FA_ieee lm) _ _ _ _ _ ES) in Vp. apply (val_fin_iff 53 1024) in Vp. destruct Vp as [Fp <-]. split; [exact Fp|exact Bp].
Qed.

Theorem stats_double (lm : Libm binary64 binary64) log10 (ori dec : list binary64) n :
  (0 < n)%nat -> Z.of_nat n <= 2 ^ 30 -> (n <= length ori)%nat -> (n <= length dec)%nat -> (forall x, In x ori \/ In x dec -> finite_le 400 x) ->
  exists r s, verify (DA lm) ori dec n = Some r /\ verify_stats (DA lm) log10 ori dec n = Some s /\
    is_finite 53 1024 (r_diff r) = true /\ is_finite 53 1024 (s_range s) = true /\
    let d := B2R 53 1024 (r_diff r) in let R := B2R 53 1024 (s_range s) in let w := (B2R 53 1024 (r_max r) - B2R 53 1024 (r_min r))%R in
    (0 <= w)%R /\ (R = 0%R <-> w = 0%R) /\ (Rabs (R - w) <= bpow radix2 (-53) * w)%R /\
    ((bpow radix2 (-480) <= d)%R -> (bpow radix2 (-480) <= R)%R ->
     is_finite 53 1024 (s_nrmse s) = true /\ is_finite 53 1024 (s_rel s) = true /\
     (d * (1 - bpow radix2 (-20)) <= B2R 53 1024 (s_nrmse s) * R * sqrt (INR n))%R /\ (B2R 53 1024 (s_nrmse s) * R <= d * (1 + bpow radix2 (-20)))%R /\
     (d * (1 - bpow radix2 (-53)) <= B2R 53 1024 (s_rel s) * R <= d * (1 + bpow radix2 (-53)))%R /\
     (log10_ok (DA lm) (DA_ieee lm) log10 -> is_finite 53 1024 (s_psnr s) = true /\
       (db R d - bpow radix2 (-15) <= B2R 53 1024 (s_psnr s) <= db R d + 10 * (ln (INR n) / ln 10) + bpow radix2 (-15))%R)).
Proof.
  intros Hn NB L1 L2 HF.
  destruct (stats_bounds (DA lm) (DA_ieee lm) log10 ori dec n 400 (-480) (-480)) as (r & s & d & R & EV & ES & Vd & VR & (lo & hi & Vl & Vh & HW & HZ & HE) & HB);
    try (cbn [DA_ieee pT eT]; lia); auto.
  { intros x Hx. apply (finite_bnd 53 1024). apply HF. auto. }
  exists r, s. split; [exact EV|]. split; [exact ES|].
  apply (val_fin_iff 53 1024) in Vd, Vl, Vh. apply (val_fin_iff 53 1024) in VR. destruct Vd as [Fd <-], Vl as [_ <-], Vh as [_ <-], VR as [FR <-].
  split; [exact Fd|]. split; [exact FR|]. cbv zeta. split; [exact HW|]. split; [rewrite HZ; split; intros; lra|]. split; [exact HE|].
  intros HD HR. destruct (HB HD HR) as (ms & nr & rel & Vm & Vn & Vr & Bm & Bm' & MU & ML & N1 & N2 & N3). clear HB.
  apply (val_fin_iff 53 1024) in Vn. apply (val_fin_iff 53 1024) in Vr. destruct Vn as [Fn <-], Vr as [Fr <-].
  split; [exact Fn|]. split; [exact Fr|]. split; [exact N1|]. split; [exact N2|]. split; [exact N3|]. intros HL.
  destruct (psnr_bounds (DA lm) (DA_ieee lm) log10 (B2R 53 1024 (s_range s)) (s_range s) (s_mse s) (B2R 53 1024 (r_diff r)) ms n) as (p & Vp & Bp); auto; try apply Bm.
  - eapply Rlt_le_trans; [apply bpow_gt_0|exact HD].
  - apply (val_fin_iff 53 1024). auto.
  - split; [eapply Rle_trans; [|exact HR]; apply bpow_le; lia|]. pose proof (abs_B2R_lt_emax 53 1024 (s_range s)) as B. apply Rlt_le. eapply Rle_lt_trans; [apply Rle_abs|exact B].
  - rewrite <- (stats_psnr (DA lm) (DA_ieee lm) _ _ _ _ _ ES) in Vp. apply (val_fin_iff 53 1024) in Vp. destruct Vp as [Fp <-]. split; [exact Fp|exact Bp].
Qed.

(** If every error is at most [b]. *)
Theorem stats_within (lm : Libm binary32 binary64) log10 (ori dec : list binary32) n b :
  (0 < n)%nat -> Z.of_nat n <= 2 ^ 30 -> (n <= length ori)%nat -> (n <= length dec)%nat -> (forall x, In x ori \/ In x dec -> finite_le 60 x) ->
  (forall i x y, (i < n)%nat -> nth_error ori i = Some x -> nth_error dec i = Some y -> (Rabs (B2R 24 128 y - B2R 24 128 x) <= b)%R) ->
  exists r s, verify (FA lm) ori dec n = Some r /\ verify_stats (FA lm) log10 ori dec n = Some s /\
    ((bpow radix2 (-60) <= B2R 24 128 (r_diff r))%R -> (bpow radix2 (-60) <= B2R 53 1024 (s_range s))%R ->
     (B2R 53 1024 (s_nrmse s) * B2R 53 1024 (s_range s) <= b * (1 + bpow radix2 (-19)))%R /\
     (log10_ok (FA lm) (FA_ieee lm) log10 -> (db (B2R 53 1024 (s_range s)) b - bpow radix2 (-14) <= B2R 53 1024 (s_psnr s))%R)).
Proof.
  intros Hn NB L1 L2 HF HB. destruct (stats_float lm log10 ori dec n Hn NB L1 L2 HF) as (r & s & EV & ES & Fd & FR & _ & _ & _ & H).
  exists r, s. split; [exact EV|]. split; [exact ES|]. intros HD HR. destruct (H HD HR) as (_ & _ & _ & N2 & _ & HP). clear H.
  destruct (verify_within_float lm ori dec n b Hn L1 L2) as (r' & EV' & _ & DB); [|exact HB|].
  { intros x Hx. destruct (HF x Hx) as [F B]. split; [exact F|]. eapply Rle_trans; [exact B|apply bpow_le; lia]. }
  pose proof (eq_trans (eq_sym EV) EV') as K. injection K as <-. set (d := B2R 24 128 (r_diff r)) in *. set (R := B2R 53 1024 (s_range s)) in *.
  assert (DP : (0 < d)%R) by (eapply Rlt_le_trans; [apply bpow_gt_0|exact HD]). assert (RP : (0 < R)%R) by (eapply Rlt_le_trans; [apply bpow_gt_0|exact HR]).
  assert (B24 : bpow radix2 (-24) = (/ 16777216)%R) by reflexivity. rewrite B24 in DB. assert (BP : (0 < b)%R) by lra.
  assert (B20 : bpow radix2 (-20) = (/ 1048576)%R) by reflexivity. assert (B19 : bpow radix2 (-19) = (/ 524288)%R) by reflexivity.
  assert (B15 : bpow radix2 (-15) = (/ 32768)%R) by reflexivity. assert (B14 : bpow radix2 (-14) = (/ 16384)%R) by reflexivity.
  split.
  - eapply Rle_trans; [exact N2|]. rewrite B20, B19. apply Rle_trans with (b * (1 + / 16777216) * (1 + / 1048576))%R; [apply Rmult_le_compat_r; lra|lra].
  - intros HL. destruct (HP HL) as (_ & P1 & _). eapply Rle_trans; [|exact P1]. rewrite B15, B14. unfold db. unfold Rdiv. rewrite !ln_mult, !ln_Rinv by (try apply Rinv_0_lt_compat; lra).
    pose proof ln10_ge as L10. apply ln_mono in DB; [|exact DP]. rewrite ln_mult in DB by lra. pose proof (ln_up (/ 16777216) ltac:(lra)) as U.
    set (e := (/ ln 10)%R). assert (E : (0 <= e <= / 2)%R) by (unfold e; split; [left; apply Rinv_0_lt_compat; lra|apply Rinv_le; lra]).
    assert (H1 : (ln d * e <= (ln b + / 16777216) * e)%R) by (apply Rmult_le_compat_r; lra).
    rewrite !Rmult_plus_distr_r in *. replace (- ln b * e)%R with (- (ln b * e))%R by ring. replace (- ln d * e)%R with (- (ln d * e))%R by ring. lra.
Qed.

Theorem stats_identical (lm : Libm binary32 binary64) log10 (ori : list binary32) n :
  (0 < n)%nat -> Z.of_nat n < 2 ^ 53 -> (n <= length ori)%nat -> (forall x, In x ori -> finite_le 126 x) ->
  exists r s, verify (FA lm) ori ori n = Some r /\ verify_stats (FA lm) log10 ori ori n = Some s /\ B2R 24 128 (r_diff r) = 0%R /\
    ((0 < B2R 53 1024 (s_range s))%R -> is_finite 53 1024 (s_nrmse s) = true /\ B2R 53 1024 (s_nrmse s) = 0%R /\
      is_finite 24 128 (s_rel s) = true /\ B2R 24 128 (s_rel s) = 0%R /\
      (log10_ok (FA lm) (FA_ieee lm) log10 -> (forall x : binary64, is_finite 53 1024 x = true -> B2R 53 1024 x = 0%R -> val64 (log10 x) = NInf) -> val64 (s_psnr s) = PInf)).
Proof.
  intros Hn NB L1 HF.
  destruct (stats_same (FA lm) (FA_ieee lm) log10 ori n 126) as (r & s & R & EV & ES & Vd & VR & Vm & HS); try (cbn [FA_ieee pT eT]; lia); auto.
  { intros x Hx. apply (finite_bnd 24 128). apply HF. auto. }
  exists r, s. split; [exact EV|]. split; [exact ES|]. apply (val_fin_iff 24 128) in Vd. destruct Vd as [_ Vd]. split; [exact Vd|].
  pose proof VR as VR'. apply (val_fin_iff 53 1024) in VR'. destruct VR' as [FR ER]. rewrite ER. intros RP. destruct (HS RP) as [Vn Vr]. clear HS.
  apply (val_fin_iff 53 1024) in Vn. apply (val_fin_iff 24 128) in Vr. destruct Vn as [Fn En], Vr as [Fr Er].
  split; [exact Fn|]. split; [exact En|]. split; [exact Fr|]. split; [exact Er|]. intros HL H0.
  rewrite (stats_psnr (FA lm) (FA_ieee lm) _ _ _ _ _ ES).
  destruct (HL _ _ VR RP) as (y & Vy & By). apply (val_fin_iff 53 1024) in Vm. destruct Vm as [Fm Em]. specialize (H0 _ Fm Em).
  change (vD (FA lm) (FA_ieee lm) (dsub (FA lm) (dmul (FA lm) (dofZ (FA lm) 20) (log10 (s_range s))) (dmul (FA lm) (dofZ (FA lm) 10) (log10 (s_mse s)))) = PInf).
  change (vD (FA lm) (FA_ieee lm) (log10 (s_mse s)) = NInf) in H0.
  rewrite (v_dsub _ (FA_ieee lm)), !(v_dmul _ (FA_ieee lm)), H0, Vy, !(dofZ_small (FA lm) (FA_ieee lm)) by lia.
  destruct (vD_fmt _ (FA_ieee lm) _ _ VR) as [GR BR].
  assert (LO : (bpow radix2 (-1074) <= R)%R).
  { apply (generic_format_ge_bpow radix2 fexp64); auto. intros e. unfold SpecFloat.fexp, SpecFloat.emin. lia. }
  pose proof (log10_small R 1074 LO ltac:(apply Rlt_le; eapply Rle_lt_trans; [apply Rle_abs|eapply Rlt_trans; [exact BR|apply bpow_lt; lia]]) ltac:(lia)) as S.
  assert (B40 : bpow radix2 (-40) = (/ 1099511627776)%R) by reflexivity. rewrite B40 in By. apply Rabs_le_inv in By, S.
  destruct (rnd_mod (20 * y)) as [_ E]; [change (bpow radix2 17) with 131072%R; apply Rabs_le; lra|].
  cbn [xmul]. rewrite E. unfold xinf. rewrite Rlt_bool_false, Rlt_bool_true by lra. reflexivity.
Qed.

(** ** What the statistics do not say *)
Definition seen_stats (lm : Libm binary32 binary64) log10 (ori dec : list binary32) : option (Z * bool * bool * bool) :=
  option_map (fun s : stats (FA lm) => (bits_of_b64 (s_nrmse s), is_finite 53 1024 (s_nrmse s), is_finite 24 128 (s_rel s), is_nan 53 1024 (s_ac s))) (verify_stats (FA lm) log10 ori dec (length ori)).
Lemma seen_stats_inv lm log10 ori dec z a b c : seen_stats lm log10 ori dec = Some (z, a, b, c) -> exists s, verify_stats (FA lm) log10 ori dec (length ori) = Some s /\
  bits_of_b64 (s_nrmse s) = z /\ is_finite 53 1024 (s_nrmse s) = a /\ is_finite 24 128 (s_rel s) = b /\ is_nan 53 1024 (s_ac s) = c.
Proof.
  unfold seen_stats. destruct (verify_stats (FA lm) log10 ori dec (length ori)) as [s|]; [|discriminate]. cbn [option_map]. intros H. injection H as <- <- <- <-. eauto 10.
Qed.
Lemma b32_finite m e k : Z.abs m <= 2 ^ 4 -> -126 <= e <= 90 -> e + 4 <= k -> finite_le k (b32 (m, e)).
Proof.
  intros Hm He Hk. pose proof (b32_dy m e ltac:(lia) ltac:(lia)) as V. apply (val_fin_iff 24 128) in V. destruct V as [V1 V2].
  split; [exact V1|]. unfold b32. cbn [fst snd]. rewrite V2, Rabs_mult, (Rabs_pos_eq (bpow _ _)) by apply bpow_ge_0. rewrite <- abs_IZR.
  apply Rle_trans with (bpow radix2 (e + 4)); [|apply bpow_le; exact Hk]. rewrite bpow_plus, Rmult_comm. apply Rmult_le_compat_l; [apply bpow_ge_0|].
  change (bpow radix2 4) with (IZR (2 ^ 4)). apply IZR_le. lia.
Qed.

(** A constant field: neither NRMSE nor the relative error nor the correlation is a number, whatever the error is. *)
Theorem stats_constant lm log10 : exists (ori dec : list binary32) s, (forall x, In x ori \/ In x dec -> finite_le 20 x) /\
  verify_stats (FA lm) log10 ori dec (length ori) = Some s /\
  is_finite 53 1024 (s_nrmse s) = false /\ is_finite 24 128 (s_rel s) = false /\ is_nan 53 1024 (s_ac s) = true.
Proof.
  assert (E : exists z, seen_stats lm log10 (map b32 [(3, 0); (3, 0)]) (map b32 [(3, 0); (5, 0)]) = Some (z, false, false, true)) by (eexists; vm_compute; reflexivity).
  destruct E as (z & E). apply seen_stats_inv in E. destruct E as (s & E & _ & E1 & E2 & E3).
  exists (map b32 [(3, 0); (3, 0)]), (map b32 [(3, 0); (5, 0)]), s. split; [|auto].
  intros x [[<-|[<-|[]]]|[<-|[<-|[]]]]; apply b32_finite; lia.
Qed.

(** Errors whose squares are below the smallest float: NRMSE is 0 though the arrays differ. *)
Theorem stats_underflow lm log10 : exists (ori dec : list binary32) s, (forall x, In x ori \/ In x dec -> finite_le 20 x) /\ length dec = length ori /\
  verify_stats (FA lm) log10 ori dec (length ori) = Some s /\ is_finite 53 1024 (s_nrmse s) = true /\ B2R 53 1024 (s_nrmse s) = 0%R /\
  exists i x y, nth_error ori i = Some x /\ nth_error dec i = Some y /\ B2R 24 128 x <> B2R 24 128 y.
Proof.
  assert (E : exists c, seen_stats lm log10 (map b32 [(0, 0); (1, 0)]) (map b32 [(1, -80); (1, 0)]) = Some (bits_of_b64 (dy 0 0), true, true, c)) by (eexists; vm_compute; reflexivity).
  destruct E as (c & E). apply seen_stats_inv in E. destruct E as (s & E & E0 & E1 & _).
  exists (map b32 [(0, 0); (1, 0)]), (map b32 [(1, -80); (1, 0)]), s. split; [|split; [reflexivity|split; [exact E|split; [exact E1|]]]].
  - intros x [[<-|[<-|[]]]|[<-|[<-|[]]]]; apply b32_finite; lia.
  - apply bits_inj in E0. rewrite E0. split; [apply zero_B2R|]. exists 0%nat, (b32 (0, 0)), (b32 (1, -80)). split; [reflexivity|]. split; [reflexivity|].
    pose proof (b32_dy 0 0 ltac:(lia) ltac:(lia)) as V. apply (val_fin_iff 24 128) in V. destruct V as [_ V]. unfold b32. cbn [fst snd]. rewrite V.
    pose proof (b32_dy 1 (-80) ltac:(lia) ltac:(lia)) as W. apply (val_fin_iff 24 128) in W. destruct W as [_ W]. rewrite W.
    pose proof (bpow_gt_0 radix2 (-80)). lra.
Qed.

(** Errors whose squares exceed the largest float: NRMSE is infinite, though data, errors and range are finite. *)
Theorem stats_overflow lm log10 : exists (ori dec : list binary32) s, (forall x, In x ori \/ In x dec -> finite_le 80 x) /\ length dec = length ori /\
  verify_stats (FA lm) log10 ori dec (length ori) = Some s /\ is_finite 24 128 (s_rel s) = true /\ is_finite 53 1024 (s_nrmse s) = false.
Proof.
  assert (E : exists z c, seen_stats lm log10 (map b32 [(0, 0); (1, 75)]) (map b32 [(1, 70); (1, 75)]) = Some (z, false, true, c)) by (do 2 eexists; vm_compute; reflexivity).
  destruct E as (z & c & E). apply seen_stats_inv in E. destruct E as (s & E & _ & E1 & E2 & _).
  exists (map b32 [(0, 0); (1, 75)]), (map b32 [(1, 70); (1, 75)]), s. split; [|auto].
  intros x [[<-|[<-|[]]]|[<-|[<-|[]]]]; apply b32_finite; lia.
Qed.

(** There are such functions log10. *)
Definition log10R (x : binary64) : binary64 :=
  if is_finite 53 1024 x && Req_bool (B2R 53 1024 x) 0 then B754_infinity 53 1024 true
  else dy (ZnearestE (ln (B2R 53 1024 x) / ln 10 * bpow radix2 41)) (-41).
Lemma log10R_ok lm : log10_ok (FA lm) (FA_ieee lm) log10R /\ log10_ok (DA (lm64 true)) (DA_ieee (lm64 true)) log10R /\
  (forall x : binary64, is_finite 53 1024 x = true -> B2R 53 1024 x = 0%R -> val64 (log10R x) = NInf).
Proof.
  assert (M : forall (x : binary64) r, val64 x = Fin r -> (0 < r)%R -> exists y, val64 (log10R x) = Fin y /\ (Rabs (y - ln r / ln 10) <= bpow radix2 (-40))%R).
  { intros x r V P. pose proof (val_format 53 1024 eq_refl _ _ V) as [GR BR]. apply (val_fin_iff 53 1024) in V. destruct V as [F E]. unfold log10R.
    rewrite E, Req_bool_false by lra. rewrite andb_false_r.
    assert (LO : (bpow radix2 (-1074) <= r)%R) by (apply (generic_format_ge_bpow radix2 fexp64); auto; intros e; unfold SpecFloat.fexp, SpecFloat.emin; lia).
    pose proof (log10_small r 1074 LO ltac:(apply Rlt_le; eapply Rle_lt_trans; [apply Rle_abs|eapply Rlt_trans; [exact BR|apply bpow_lt; lia]]) ltac:(lia)) as S.
    set (a := (ln r / ln 10)%R) in *. set (z := ZnearestE (a * bpow radix2 41)).
    assert (N : (Rabs (IZR z - a * bpow radix2 41) <= / 2)%R) by (rewrite Rabs_minus_sym; apply Znearest_half).
    assert (B41 : bpow radix2 41 = 2199023255552%R) by reflexivity. assert (B41' : bpow radix2 (-41) = (/ 2199023255552)%R) by reflexivity.
    assert (B40' : bpow radix2 (-40) = (/ 1099511627776)%R) by reflexivity.
    rewrite B41 in N. apply Rabs_le_inv in N, S.
    assert (ZB : Z.abs z < 2 ^ 53).
    { apply lt_IZR. rewrite abs_IZR. apply Rle_lt_trans with (1074 * 2199023255552 + 1)%R; [apply Rabs_le; lra|]. change (2 ^ 53)%Z with 9007199254740992%Z. lra. }
    exists (IZR z * bpow radix2 (-41))%R. split; [apply dy_val; lia|]. rewrite B41', B40'. apply Rabs_le. lra. }
  split; [exact M|]. split; [exact M|]. intros x F E. unfold log10R. rewrite F, E, Req_bool_true by reflexivity. reflexivity.
Qed.

(** Two values, one error of 2. *)
Lemma stats_example lm : (forall x, In x (map b32 [(3, 0); (7, 0)]) \/ In x (map b32 [(3, 0); (5, 0)]) -> finite_le 60 x) /\ log10_ok (FA lm) (FA_ieee lm) log10R /\
  exists r s, verify (FA lm) (map b32 [(3, 0); (7, 0)]) (map b32 [(3, 0); (5, 0)]) 2 = Some r /\ verify_stats (FA lm) log10R (map b32 [(3, 0); (7, 0)]) (map b32 [(3, 0); (5, 0)]) 2 = Some s /\
    r_diff r = b32 (2, 0) /\ s_range s = dy 4 0 /\ (bpow radix2 (-60) <= B2R 24 128 (r_diff r))%R /\ (bpow radix2 (-60) <= B2R 53 1024 (s_range s))%R /\ s_rel s = b32 (1, -1).
Proof.
  split; [intros x [[<-|[<-|[]]]|[<-|[<-|[]]]]; apply b32_finite; lia|]. split; [exact (proj1 (log10R_ok lm))|].
  assert (E : match verify (FA lm) (map b32 [(3, 0); (7, 0)]) (map b32 [(3, 0); (5, 0)]) 2 with Some r => bits_of_b32 (r_diff r) | None => 0 end = bits_of_b32 (b32 (2, 0))) by (vm_compute; reflexivity).
  assert (E' : match verify_stats (FA lm) (fun x => x) (map b32 [(3, 0); (7, 0)]) (map b32 [(3, 0); (5, 0)]) 2 with Some s => (bits_of_b64 (s_range s), bits_of_b32 (s_rel s)) | None => (0, 0) end =
    (bits_of_b64 (dy 4 0), bits_of_b32 (b32 (1, -1)))) by (vm_compute; reflexivity).
  destruct (verify (FA lm) (map b32 [(3, 0); (7, 0)]) (map b32 [(3, 0); (5, 0)]) 2) as [r|] eqn:EV; [|vm_compute in E; discriminate].
  assert (ES : exists s, verify_stats (FA lm) log10R (map b32 [(3, 0); (7, 0)]) (map b32 [(3, 0); (5, 0)]) 2 = Some s /\ s_range s = dy 4 0 /\ s_rel s = b32 (1, -1)).
  { unfold verify_stats in *. rewrite EV in *. eexists. split; [reflexivity|]. cbn [s_range s_rel] in *. pose proof (f_equal fst E') as E1. pose proof (f_equal snd E') as E2. cbn [fst snd] in E1, E2. split; [apply bits_inj; exact E1|].
    apply (f_equal b32_of_bits) in E2. unfold b32_of_bits, bits_of_b32 in E2. rewrite !binary_float_of_bits_of_binary_float in E2. exact E2. }
  destruct ES as (s & ES & R1 & R2). exists r, s. split; [reflexivity|]. split; [exact ES|].
  assert (RD : r_diff r = b32 (2, 0)) by (apply (f_equal b32_of_bits) in E; unfold b32_of_bits, bits_of_b32 in E; rewrite !binary_float_of_bits_of_binary_float in E; exact E).
  split; [exact RD|]. split; [exact R1|]. split; [|split; [|exact R2]].
  - rewrite RD. pose proof (b32_dy 2 0 ltac:(lia) ltac:(lia)) as V. apply (val_fin_iff 24 128) in V. destruct V as [_ V]. unfold b32. cbn [fst snd]. rewrite V.
    change (bpow radix2 0) with 1%R. apply Rle_trans with (bpow radix2 0); [apply bpow_le; lia|change (bpow radix2 0) with 1%R; lra].
  - rewrite R1. destruct (dy_B2R 4 0 ltac:(lia) ltac:(lia)) as [_ ->]. change (bpow radix2 0) with 1%R. apply Rle_trans with (bpow radix2 0); [apply bpow_le; lia|change (bpow radix2 0) with 1%R; lra].
Qed.
