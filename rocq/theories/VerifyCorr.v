(** The correlation of an array with itself, as verify() computes it.  Nothing of /repo is modelled here. *)
From Coq Require Import Reals Lra Lia ZArith List Bool.
From Coq Require Import ZifyBool ZifyNat.
From Flocq Require Import Core.Core IEEE754.BinarySingleNaN IEEE754.Binary IEEE754.Bits.
From Verif Require Import Base Arith Exact IEEE IEEELaws Api2D Verify VerifyStats.
Import ListNotations.
Local Open Scope Z_scope.

Section Laws.
Context (A : Arith) (I : ieee A).
Notation vT := (vT A I).
Notation vD := (vD A I).
Notation pT := (pT A I).
Notation eT := (eT A I).
Local Open Scope R_scope.
Local Notation rnd := (round radix2 (SpecFloat.fexp pT eT) ZnearestE).
Local Notation rnd64 := (round radix2 fexp64 ZnearestE).
Local Notation u := (bpow radix2 (-53)).

Lemma quot64 x y a b : vD x = Fin a -> vD y = Fin b -> 0 < b -> Rabs (a / b) <= bpow radix2 1000 -> vD (ddiv A x y) = Fin (rnd64 (a / b)).
Proof.
  intros Vx Vy Hb HB. rewrite (v_ddiv A I) by (rewrite Vy; intros F; injection F as F; lra). rewrite Vx, Vy, xdiv_fin by lra. cbn [rndx]. apply sat_fin.
  apply Rle_lt_trans with (bpow radix2 1000); [|apply bpow_lt; lia]. apply (rnd_bound 53 1024 eq_refl); [apply (fmt_bpow 53 1024 eq_refl); lia|exact HB].
Qed.

Lemma corr_self E e : vD E = Fin e -> bpow radix2 (-900) <= e <= bpow radix2 900 ->
  exists c, vD (ddiv A (ddiv A E (dsqrt A E)) (dsqrt A E)) = Fin c /\ Rabs (c - 1) <= bpow radix2 (-50).
Proof.
  intros VE [E1 E2]. assert (P : 0 < e) by (eapply Rlt_le_trans; [apply bpow_gt_0|exact E1]).
  set (q := sqrt e). assert (Q : q * q = e) by (apply sqrt_sqrt; lra). assert (Q0 : 0 < q) by (apply sqrt_lt_R0; lra).
  assert (Q1 : bpow radix2 (-450) <= q).
  { unfold q. rewrite <- (sqrt_square (bpow radix2 (-450))) by apply bpow_ge_0. apply sqrt_le_1_alt. rewrite <- bpow_plus. exact E1. }
  assert (Q2 : q <= bpow radix2 450).
  { unfold q. rewrite <- (sqrt_square (bpow radix2 450)) by apply bpow_ge_0. apply sqrt_le_1_alt. rewrite <- bpow_plus. exact E2. }
  assert (B53 : u = / 9007199254740992) by reflexivity.
  pose proof (rel_err 53 1024 q eq_refl ltac:(eapply Rle_trans; [apply bpow_le|exact Q1]; lia)) as S. change (- (53))%Z with (-53)%Z in S. set (s := rnd64 q) in *.
  assert (S1 : bpow radix2 (-450) <= s) by (unfold s; apply Rle_trans with (Rabs s); [apply (rnd_bound_ge 53 1024 eq_refl); [apply (fmt_bpow 53 1024 eq_refl); lia|rewrite Rabs_pos_eq by lra; exact Q1]|rewrite Rabs_pos_eq; [apply Rle_refl|nra]]).
  assert (S0 : 0 < s) by (eapply Rlt_le_trans; [apply bpow_gt_0|exact S1]).
  assert (S2 : s <= bpow radix2 450) by (rewrite <- (Rabs_pos_eq s) by lra; apply (rnd_bound 53 1024 eq_refl); [apply (fmt_bpow 53 1024 eq_refl); lia|rewrite Rabs_pos_eq by lra; exact Q2]).
  assert (VS : vD (dsqrt A E) = Fin s).
  { rewrite (v_dsqrt A I), VE. cbn [xsqrt]. rewrite Rlt_bool_false by lra. cbn [rndx]. fold q. fold s. apply sat_fin. rewrite Rabs_pos_eq by lra.
    eapply Rle_lt_trans; [exact S2|]. apply bpow_lt. lia. }
  (* e / s and the second quotient are close to q and 1 *)
  assert (R1 : 1 - 2 * u <= q / s <= 1 + 2 * u).
  { split; apply Rmult_le_reg_r with s; try lra; unfold Rdiv; rewrite Rmult_assoc, Rinv_l, Rmult_1_r by lra.
    - apply Rle_trans with ((1 - 2 * u) * (q * (1 + u))); [apply Rmult_le_compat_l; [rewrite B53; lra|rewrite B53 in *; lra]|]. rewrite B53. nra.
    - apply Rle_trans with ((1 + 2 * u) * (q * (1 - u))); [|apply Rmult_le_compat_l; [rewrite B53; lra|rewrite B53 in *; lra]]. rewrite B53. nra. }
  assert (ES : e / s = q * (q / s)) by (rewrite <- Q; unfold Rdiv; ring).
  assert (T1 : bpow radix2 (-451) <= e / s).
  { rewrite ES. change (-451)%Z with (-450 + -1)%Z. rewrite bpow_plus. change (bpow radix2 (-1)) with (/ 2). apply Rmult_le_compat; [apply bpow_ge_0|lra|exact Q1|rewrite B53 in R1; lra]. }
  assert (T2 : e / s <= bpow radix2 451).
  { rewrite ES. change 451%Z with (450 + 1)%Z. rewrite bpow_plus. change (bpow radix2 1) with 2. apply Rmult_le_compat; [lra|rewrite B53 in R1; lra|exact Q2|rewrite B53 in R1; lra]. }
  pose proof (rel_err 53 1024 (e / s) eq_refl ltac:(eapply Rle_trans; [apply bpow_le|exact T1]; lia)) as F. change (- (53))%Z with (-53)%Z in F. set (f := rnd64 (e / s)) in *.
  assert (VF : vD (ddiv A E (dsqrt A E)) = Fin f).
  { apply quot64; auto. rewrite Rabs_pos_eq by (eapply Rle_trans; [apply bpow_ge_0|exact T1]). eapply Rle_trans; [exact T2|]. apply bpow_le. lia. }
  assert (FS : f / s = (f * / (e / s)) * ((q / s) * (q / s))).
  { rewrite <- Q. field. split; lra. }
  set (es := e / s) in *. assert (EP : 0 < es) by (eapply Rlt_le_trans; [apply bpow_gt_0|exact T1]).
  set (h := f * / es) in *. assert (H : 1 - u <= h <= 1 + u).
  { unfold h. split; apply Rmult_le_reg_r with es; try lra; rewrite Rmult_assoc, Rinv_l, Rmult_1_r by lra; lra. }
  set (g := q / s) in *. assert (G : 1 - 5 * u <= h * (g * g) <= 1 + 6 * u).
  { rewrite B53 in *. assert (G2 : 1 - 4 * / 9007199254740992 <= g * g <= 1 + 5 * / 9007199254740992) by nra. nra. }
  rewrite <- FS in G.
  pose proof (rel_err 53 1024 (f / s) eq_refl ltac:(apply Rle_trans with (bpow radix2 (-1)); [apply bpow_le; lia|change (bpow radix2 (-1)) with (/ 2); rewrite B53 in G; lra])) as C.
  change (- (53))%Z with (-53)%Z in C. exists (rnd64 (f / s)). split.
  - apply quot64; auto. rewrite B53 in G. rewrite Rabs_pos_eq by lra. apply Rle_trans with (bpow radix2 1); [change (bpow radix2 1) with 2; lra|apply bpow_le; lia].
  - change (bpow radix2 (-50)) with (/ 1125899906842624). rewrite B53 in *. apply Rabs_le. nra.
Qed.

(** A sum of numbers of magnitude at most 2^k. *)
Lemma sum_abs {X} (f : X -> D A) k l : (-1074 <= k)%Z -> (k + 53 < 1024)%Z -> forall s a c, vD s = Fin a -> Rabs a <= INR c * bpow radix2 k ->
  (Z.of_nat (c + length l) < 2 ^ 53)%Z -> (forall x, In x l -> exists e, vD (f x) = Fin e /\ Rabs e <= bpow radix2 k) ->
  exists a', vD (fold_left (fun s x => dadd A s (f x)) l s) = Fin a' /\ Rabs a' <= INR (c + length l) * bpow radix2 k.
Proof.
  intros K1 K2. induction l as [|x l IH]; intros s a c Vs Ha Hl HF; cbn [fold_left length] in *.
  - exists a. rewrite Nat.add_0_r. auto.
  - destruct (HF x) as (e & Ve & He); [left; reflexivity|].
    assert (G : generic_format radix2 fexp64 (INR (S c) * bpow radix2 k)).
    { apply (generic_format_FLT radix2 (-1074) 53). exists (Float radix2 (Z.of_nat (S c)) k).
      - unfold F2R. cbn [Fnum Fexp]. rewrite <- INR_IZR_INZ. reflexivity.
      - cbn [Fnum]. change (radix_val radix2) with 2%Z. lia.
      - cbn [Fexp]. lia. }
    assert (B : Rabs (rnd64 (a + e)) <= INR (S c) * bpow radix2 k).
    { apply (rnd_bound 53 1024 eq_refl); [exact G|]. eapply Rle_trans; [apply Rabs_triang|]. rewrite S_INR. lra. }
    assert (V1 : vD (dadd A s (f x)) = Fin (rnd64 (a + e))).
    { rewrite (v_dadd A I), Vs, Ve. cbn [xadd rndx]. apply sat_fin. eapply Rle_lt_trans; [exact B|].
      apply Rlt_le_trans with (bpow radix2 53 * bpow radix2 k); [|rewrite <- bpow_plus; apply bpow_le; lia].
      apply Rmult_lt_compat_r; [apply bpow_gt_0|]. rewrite INR_IZR_INZ. change (bpow radix2 53) with (IZR (2 ^ 53)). apply IZR_lt. lia. }
    replace (c + S (length l))%nat with (S c + length l)%nat in * by lia.
    apply (IH _ _ (S c) V1 B Hl). intros y Hy. apply HF. right. exact Hy.
Qed.

Lemma in_combine_same {X} (l : list X) x y : In (x, y) (combine l l) -> x = y /\ In x l.
Proof. induction l as [|a l IH]; cbn; [intros []|intros [E|H]; [injection E as <- <-; auto|destruct (IH H); auto]]. Qed.
Lemma in_combine_diag {X} (l : list X) x : In x l -> In (x, x) (combine l l).
Proof. induction l as [|a l IH]; cbn; [intros []|intros [<-|H]; auto]. Qed.

Theorem stats_corr log10 ori n k g : (24 <= pT)%Z -> (k + 1 < eT)%Z -> (3 - eT - pT <= k + 1)%Z -> (2 * k + 85 < 900)%Z -> (-500 <= k)%Z -> (-420 <= g)%Z ->
  (0 < n)%nat -> (Z.of_nat n <= 2 ^ 30)%Z -> (n <= length ori)%nat ->
  (forall x, In x ori -> exists a, vT x = Fin a /\ Rabs a <= bpow radix2 k) ->
  exists s R, verify_stats A log10 ori ori n = Some s /\ vD (s_range s) = Fin R /\
    (bpow radix2 g <= R -> exists c, vD (s_ac s) = Fin c /\ Rabs (c - 1) <= bpow radix2 (-50)).
Proof.
  intros PT K1 K2 K3 K4 G1 Hn NB L1 HF. pose proof (HeD A I) as HE.
  destruct (verify_report A I ori ori n k K1 K2 Hn L1 L1) as (r & d & p & lo & hi & EV & Vd & _ & Vl & Vh & H1 & _ & H3 & H4 & _); [intros x [H|H]; auto|].
  assert (HLH : lo <= hi).
  { destruct H3 as (i & Hi & E). destruct (H1 i _ _ lo lo Hi E E Vl Vl) as (_ & B & _). lra. }
  assert (BL : Rabs lo <= bpow radix2 k /\ Rabs hi <= bpow radix2 k).
  { destruct H3 as (i & Hi & E). destruct H4 as (i' & Hi' & E'). split.
    - destruct (HF (r_min r)) as (a & Va & B); [eapply nth_error_In; eauto|]. assert (a = lo) by congruence. subst. exact B.
    - destruct (HF (r_max r)) as (a & Va & B); [eapply nth_error_In; eauto|]. assert (a = hi) by congruence. subst. exact B. }
  destruct BL as [BL BH].
  assert (GL : generic_format radix2 (SpecFloat.fexp pT eT) lo) by (apply (vT_fmt A I _ _ Vl)).
  assert (GH : generic_format radix2 (SpecFloat.fexp pT eT) hi) by (apply (vT_fmt A I _ _ Vh)).
  set (R := rnd (hi - lo)).
  assert (VR : vT (tsub A (r_max r) (r_min r)) = Fin R).
  { rewrite (v_tsub A I), Vh, Vl. cbn [xsub rndx]. apply sat_fin. apply Rle_lt_trans with (bpow radix2 (k + 1)); [|apply bpow_lt; lia].
    apply (rnd_bound pT eT (HpT A I)); [apply (fmt_bpow pT eT (HpT A I)); lia|].
    rewrite bpow_plus. change (bpow radix2 1) with 2. apply Rabs_le. apply Rabs_le_inv in BL, BH. lra. }
  eexists. exists R. split; [unfold verify_stats; rewrite EV; reflexivity|]. cbn [s_range s_ac]. split; [rewrite (v_t2d A I); exact VR|]. intros HG.
  set (xs := firstn n ori). assert (LX : length xs = n) by (unfold xs; rewrite firstn_length; lia).
  assert (HX : forall x, In x xs -> exists a, vT x = Fin a /\ Rabs a <= bpow radix2 k).
  { intros x Hx. apply HF. unfold xs in Hx. rewrite <- (firstn_skipn n ori). apply in_or_app. left. exact Hx. }
  assert (N1 : 1 <= INR n) by (change 1 with (INR 1); apply le_INR; lia).
  assert (N2 : INR n <= bpow radix2 30) by (rewrite INR_IZR_INZ; change (bpow radix2 30) with (IZR (2 ^ 30)); apply IZR_le; lia).
  assert (NV : vD (dofZ A (Z.of_nat n)) = Fin (INR n)) by (rewrite (dofZ_small A I), <- INR_IZR_INZ by lia; reflexivity).
  assert (V0 : vD (dofZ A 0) = Fin 0) by (apply (dofZ_small A I); lia).
  destruct (sum_abs (t2d A) k xs) with (s := dofZ A 0) (a := 0) (c := 0%nat) as (sm & VS & BS); try lia; auto.
  { rewrite Rabs_R0. cbn. lra. }
  { intros x Hx. destruct (HX x Hx) as (a & Va & Ba). exists a. split; [rewrite (v_t2d A I); exact Va|exact Ba]. }
  cbn [plus] in BS. rewrite LX in BS.
  assert (QB : Rabs (sm / INR n) <= bpow radix2 k).
  { unfold Rdiv. rewrite Rabs_mult, (Rabs_pos_eq (/ INR n)) by (left; apply Rinv_0_lt_compat; lra).
    apply Rmult_le_reg_r with (INR n); [lra|]. rewrite Rmult_assoc, Rinv_l, Rmult_1_r by lra. lra. }
  set (m := rnd64 (sm / INR n)).
  assert (MB : Rabs m <= bpow radix2 k) by (apply (rnd_bound 53 1024 eq_refl); [apply (fmt_bpow 53 1024 eq_refl); lia|exact QB]).
  assert (VM : vD (mean A xs (dofZ A (Z.of_nat n))) = Fin m).
  { unfold mean. apply quot64; auto; [lra|]. eapply Rle_trans; [exact QB|]. apply bpow_le. lia. }
  set (mu := mean A xs (dofZ A (Z.of_nat n))) in *. set (dx := map (t2d A) xs) in *.
  assert (HT : forall x, In x dx -> exists a, vD x = Fin a /\ Rabs a <= bpow radix2 k).
  { intros x Hx. apply in_map_iff in Hx. destruct Hx as (y & <- & Hy). destruct (HX y Hy) as (a & Va & Ba). exists a. split; [rewrite (v_t2d A I); exact Va|exact Ba]. }
  assert (HP : forall x a, In x dx -> vD x = Fin a -> vD (dmul A (dsub A x mu) (dsub A x mu)) = Fin (rnd64 (rnd64 (a - m) * rnd64 (a - m))) /\
     0 <= rnd64 (rnd64 (a - m) * rnd64 (a - m)) <= bpow radix2 (2 * k + 2)).
  { intros x a Hx Va. destruct (HT x Hx) as (a' & Va' & Ba). assert (a' = a) by congruence. subst a'. set (t := rnd64 (a - m)).
    assert (TB : Rabs t <= bpow radix2 (k + 1)).
    { apply (rnd_bound 53 1024 eq_refl); [apply (fmt_bpow 53 1024 eq_refl); lia|]. rewrite bpow_plus. change (bpow radix2 1) with 2.
      apply Rabs_le. apply Rabs_le_inv in Ba, MB. lra. }
    assert (VT : vD (dsub A x mu) = Fin t).
    { rewrite (v_dsub A I), Va, VM. cbn [xsub rndx]. fold t. apply sat_fin. eapply Rle_lt_trans; [exact TB|]. apply bpow_lt. lia. }
    assert (PB : 0 <= rnd64 (t * t) <= bpow radix2 (2 * k + 2)).
    { assert (P0 : 0 <= t * t) by (pose proof (Rle_0_sqr t) as Q; exact Q). assert (P1 : 0 <= rnd64 (t * t)) by (rewrite <- (rnd_0 53 1024); apply (rnd_le 53 1024 eq_refl); exact P0).
      split; [exact P1|]. rewrite <- (Rabs_pos_eq (rnd64 (t * t))) by exact P1. apply (rnd_bound 53 1024 eq_refl); [apply (fmt_bpow 53 1024 eq_refl); lia|].
      rewrite Rabs_mult. replace (2 * k + 2)%Z with ((k + 1) + (k + 1))%Z by lia. rewrite bpow_plus. apply Rmult_le_compat; auto using Rabs_pos. }
    split; [|exact PB]. rewrite (v_dmul A I), VT. cbn [xmul rndx]. apply sat_fin. rewrite Rabs_pos_eq by lra. eapply Rle_lt_trans; [apply PB|]. apply bpow_lt. lia. }
  assert (LD : length (combine dx dx) = n) by (rewrite combine_length; unfold dx; rewrite map_length; lia).
  destruct (sum_bound A I (fun xy => dmul A (dsub A (fst xy) mu) (dsub A (snd xy) mu)) (bpow radix2 (2 * k + 2)) (2 * k + 2) (combine dx dx)) with (s := dofZ A 0) (a := 0) (c := 0%nat)
    as (S & VS3 & S1 & S2 & S3); try lia; auto.
  { apply bpow_ge_0. } { apply Rle_refl. } { cbn. lra. } { cbn. lra. }
  { intros [x y] HI. apply in_combine_same in HI. destruct HI as [<- HI]. cbn [fst snd]. destruct (HT x HI) as (a & Va & _). eexists. apply (HP x a HI Va). }
  change (fold_left _ (combine dx dx) (dofZ A 0)) with (sum_prod A (combine dx dx) mu mu) in VS3. cbn [plus] in S2. rewrite LD in S2.
  assert (B53 : u = / 9007199254740992) by reflexivity. assert (B30 : bpow radix2 30 = 1073741824) by reflexivity.
  assert (W : (1 + u) ^ n <= 2).
  { eapply Rle_trans; [apply pow_small; [rewrite B53; lra|]|]; rewrite B53; lra. }
  assert (SU : S / INR n <= bpow radix2 (2 * k + 3)).
  { apply Rmult_le_reg_r with (INR n); [lra|]. unfold Rdiv. rewrite Rmult_assoc, Rinv_l, Rmult_1_r by lra. eapply Rle_trans; [exact S2|].
    replace (2 * k + 3)%Z with (2 * k + 2 + 1)%Z by lia. rewrite (bpow_plus _ (2 * k + 2) 1). change (bpow radix2 1) with 2.
    pose proof (bpow_gt_0 radix2 (2 * k + 2)) as BP. set (bb := bpow radix2 (2 * k + 2)) in *. assert (0 < INR n * bb) by (apply Rmult_lt_0_compat; lra).
    apply Rle_trans with (INR n * bb * 2); [apply Rmult_le_compat_l; lra|lra]. }
  (* some value is not the mean *)
  assert (WID : bpow radix2 (g - 1) <= hi - lo).
  { destruct (sub_err A I hi lo GH GL) as [E _]. fold R in E. rewrite (Rabs_pos_eq (hi - lo)) in E by lra. apply Rabs_le_inv in E.
    assert (T1 : bpow radix2 (- pT) <= bpow radix2 (-24)) by (apply bpow_le; lia). change (bpow radix2 (-24)) with (/ 16777216) in T1.
    assert (bpow radix2 (- pT) * (hi - lo) <= / 16777216 * (hi - lo)) by (apply Rmult_le_compat_r; lra).
    replace (bpow radix2 (g - 1)) with (bpow radix2 g / 2) by (replace (g - 1)%Z with (g + -1)%Z by lia; rewrite bpow_plus; change (bpow radix2 (-1)) with (/ 2); lra). lra. }
  assert (FAR : exists x a, In x dx /\ vD x = Fin a /\ bpow radix2 (g - 2) <= Rabs (a - m)).
  { assert (IN : forall i y b, (i < n)%nat -> nth_error ori i = Some y -> vT y = Fin b -> In (t2d A y) dx /\ vD (t2d A y) = Fin b).
    { intros i y b Hi E Vy. split; [|rewrite (v_t2d A I); exact Vy]. unfold dx. apply in_map. unfold xs. 
      pose proof (proj2 (in_combine_nth ori ori n L1 L1 y y) (ex_intro _ i (conj Hi (conj E E)))) as C. apply in_combine_l in C. exact C. }
    destruct H3 as (i & Hi & E). destruct H4 as (i' & Hi' & E').
    destruct (IN i _ lo Hi E Vl) as [A1 A2]. destruct (IN i' _ hi Hi' E' Vh) as [B1 B2].
    replace (bpow radix2 (g - 1)) with (bpow radix2 (g - 2) * 2) in WID by (replace (g - 1)%Z with (g - 2 + 1)%Z by lia; rewrite (bpow_plus _ (g - 2) 1); reflexivity).
    destruct (Rle_lt_dec m ((lo + hi) / 2)) as [C|C].
    - exists (t2d A (r_max r)), hi. split; [exact B1|]. split; [exact B2|]. rewrite Rabs_pos_eq; lra.
    - exists (t2d A (r_min r)), lo. split; [exact A1|]. split; [exact A2|]. rewrite Rabs_left1; lra. }
  destruct FAR as (x & a & Hx & Va & FAR).
  assert (SL : bpow radix2 (2 * g - 4) <= S).
  { destruct (HP x a Hx Va) as [VP _]. eapply Rle_trans; [|apply (S3 (x, x) _ (in_combine_diag dx x Hx) VP)].
    assert (T : bpow radix2 (g - 2) <= Rabs (rnd64 (a - m))) by (apply (rnd_bound_ge 53 1024 eq_refl); [apply (fmt_bpow 53 1024 eq_refl); lia|exact FAR]).
    set (t := rnd64 (a - m)) in *. assert (P0 : 0 <= t * t) by (pose proof (Rle_0_sqr t) as Q; exact Q).
    assert (P1 : 0 <= rnd64 (t * t)) by (rewrite <- (rnd_0 53 1024); apply (rnd_le 53 1024 eq_refl); exact P0).
    rewrite <- (Rabs_pos_eq (rnd64 (t * t))) by exact P1. apply (rnd_bound_ge 53 1024 eq_refl); [apply (fmt_bpow 53 1024 eq_refl); lia|].
    rewrite Rabs_mult. replace (2 * g - 4)%Z with ((g - 2) + (g - 2))%Z by lia. rewrite bpow_plus. apply Rmult_le_compat; auto using bpow_ge_0. }
  assert (SL' : bpow radix2 (2 * g - 34) <= S / INR n).
  { replace (2 * g - 34)%Z with (2 * g - 4 + - (30))%Z by lia. rewrite (bpow_plus _ (2 * g - 4)), bpow_opp.
    apply Rmult_le_compat; [apply bpow_ge_0|left; apply Rinv_0_lt_compat, bpow_gt_0|exact SL|apply Rinv_le; lra]. }
  assert (SP : 0 <= S / INR n) by (eapply Rle_trans; [apply bpow_ge_0|exact SL']).
  apply (corr_self _ (rnd64 (S / INR n))).
  - apply quot64; auto; [lra|]. rewrite Rabs_pos_eq by exact SP. eapply Rle_trans; [exact SU|]. apply bpow_le. lia.
  - assert (P1 : 0 <= rnd64 (S / INR n)) by (rewrite <- (rnd_0 53 1024); apply (rnd_le 53 1024 eq_refl); exact SP). rewrite <- (Rabs_pos_eq (rnd64 (S / INR n))) by exact P1. split.
    + apply (rnd_bound_ge 53 1024 eq_refl); [apply (fmt_bpow 53 1024 eq_refl); lia|]. rewrite Rabs_pos_eq by exact SP. eapply Rle_trans; [|exact SL']. apply bpow_le. lia.
    + apply (rnd_bound 53 1024 eq_refl); [apply (fmt_bpow 53 1024 eq_refl); lia|]. rewrite Rabs_pos_eq by exact SP. eapply Rle_trans; [exact SU|]. apply bpow_le. lia.
Qed.
End Laws.

Theorem correlation_float (lm : Libm binary32 binary64) log10 (ori : list binary32) n :
  (0 < n)%nat -> Z.of_nat n <= 2 ^ 30 -> (n <= length ori)%nat -> (forall x, In x ori -> finite_le 60 x) ->
  exists s, verify_stats (FA lm) log10 ori ori n = Some s /\
    ((bpow radix2 (-60) <= B2R 53 1024 (s_range s))%R -> is_finite 53 1024 (s_ac s) = true /\ (Rabs (B2R 53 1024 (s_ac s) - 1) <= bpow radix2 (-50))%R).
Proof.
  intros Hn NB L1 HF. destruct (stats_corr (FA lm) (FA_ieee lm) log10 ori n 60 (-60)) as (s & R & ES & VR & H); try (cbn [FA_ieee pT eT]; lia); auto.
  { intros x Hx. apply (finite_bnd 24 128). apply HF. auto. }
  exists s. split; [exact ES|]. apply (val_fin_iff 53 1024) in VR. destruct VR as [_ <-]. intros HG. destruct (H HG) as (c & Vc & Bc).
  apply (val_fin_iff 53 1024) in Vc. destruct Vc as [Fc <-]. auto.
Qed.
Theorem correlation_double (lm : Libm binary64 binary64) log10 (ori : list binary64) n :
  (0 < n)%nat -> Z.of_nat n <= 2 ^ 30 -> (n <= length ori)%nat -> (forall x, In x ori -> finite_le 400 x) ->
  exists s, verify_stats (DA lm) log10 ori ori n = Some s /\
    ((bpow radix2 (-400) <= B2R 53 1024 (s_range s))%R -> is_finite 53 1024 (s_ac s) = true /\ (Rabs (B2R 53 1024 (s_ac s) - 1) <= bpow radix2 (-50))%R).
Proof.
  intros Hn NB L1 HF. destruct (stats_corr (DA lm) (DA_ieee lm) log10 ori n 400 (-400)) as (s & R & ES & VR & H); try (cbn [DA_ieee pT eT]; lia); auto.
  { intros x Hx. apply (finite_bnd 53 1024). apply HF. auto. }
  exists s. split; [exact ES|]. apply (val_fin_iff 53 1024) in VR. destruct VR as [_ <-]. intros HG. destruct (H HG) as (c & Vc & Bc).
  apply (val_fin_iff 53 1024) in Vc. destruct Vc as [Fc <-]. auto.
Qed.
