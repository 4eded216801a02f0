(** include/utils.hpp:51-106 verify(): the statistics it prints besides those of Verify.v: the largest error relative to the range, PSNR, NRMSE and the
    correlation of the two arrays.  [log10] (lines 97) is a parameter.  The loops of the code are one fold per sum: the sums do not depend on each other. *)
From Coq Require Import Reals Lra Lia ZArith List Bool.
From Coq Require Import ZifyBool ZifyNat.
From Flocq Require Import Plus_error Relative.
From Flocq Require Import Core.Core IEEE754.BinarySingleNaN IEEE754.Binary IEEE754.Bits.
From Verif Require Import Base Arith Exact IEEE IEEELaws RelaxErr2D Api2D Verify.
Import ListNotations.
Local Open Scope Z_scope.

Section Model.
Context (A : Arith) (log10 : D A -> D A).
Notation T := (T A).
Notation D := (D A).

Record stats := { s_range : D; s_rel : T; s_mse : D; s_psnr : D; s_nrmse : D; s_ac : D }.

(** Line 88: err times err is a product of Type, converted to double when it is added to sum. *)
Definition sum_sq (l : list (T * T)) : D :=
  fold_left (fun s xy => let err := tabs A (tsub A (snd xy) (fst xy)) in dadd A s (t2d A (tmul A err err))) l (dofZ A 0).
(** Lines 59-65: a sum of converted values, divided by the converted number of values. *)
Definition mean (l : list T) (n : D) : D := ddiv A (fold_left (fun s x => dadd A s (t2d A x)) l (dofZ A 0)) n.
(** Lines 85-87: sums of products of differences from the means. *)
Definition sum_prod (l : list (D * D)) (m1 m2 : D) : D :=
  fold_left (fun s xy => dadd A s (dmul A (dsub A (fst xy) m1) (dsub A (snd xy) m2))) l (dofZ A 0).

(** Lines 59-105; [None] as in [verify]. *)
Definition verify_stats (ori dec : list T) (num_elements : nat) : option stats :=
  match verify A ori dec num_elements with
  | None => None
  | Some r =>
      let xs := firstn num_elements ori in
      let ys := firstn num_elements dec in
      let n := dofZ A (Z.of_nat num_elements) in
      let mean1 := mean xs n in
      let mean2 := mean ys n in
      let dx := map (t2d A) xs in
      let dy := map (t2d A) ys in
      let std1 := dsqrt A (ddiv A (sum_prod (combine dx dx) mean1 mean1) n) in
      let std2 := dsqrt A (ddiv A (sum_prod (combine dy dy) mean2 mean2) n) in
      let ee := ddiv A (sum_prod (combine dx dy) mean1 mean2) n in
      let mse := ddiv A (sum_sq (combine xs ys)) n in
      let range := t2d A (tsub A (r_max r) (r_min r)) in
      Some {| s_range := range;
              s_rel := tdiv A (r_diff r) (tsub A (r_max r) (r_min r));
              s_mse := mse;
              s_psnr := dsub A (dmul A (dofZ A 20) (log10 range)) (dmul A (dofZ A 10) (log10 mse));
              s_nrmse := ddiv A (dsqrt A mse) range;
              s_ac := ddiv A (ddiv A ee std1) std2 |}
  end.
End Model.
Arguments s_range {A}. Arguments s_rel {A}. Arguments s_mse {A}. Arguments s_psnr {A}. Arguments s_nrmse {A}. Arguments s_ac {A}.

Section Rel.
Local Open Scope R_scope.
Lemma rel_err p e x : Prec_gt_0 p -> bpow radix2 (2 - e) <= x ->
  x * (1 - bpow radix2 (- p)) <= round radix2 (SpecFloat.fexp p e) ZnearestE x <= x * (1 + bpow radix2 (- p)).
Proof.
  intros Hp H. assert (P : 0 < x) by (eapply Rlt_le_trans; [apply bpow_gt_0|exact H]).
  pose proof (relative_error_N_FLT radix2 (3 - e - p) p Hp (fun z => negb (Z.even z)) x) as RE.
  rewrite (Rabs_pos_eq x) in RE by lra.
  assert (E : Rabs (round radix2 (FLT_exp (3 - e - p) p) (Znearest (fun z => negb (Z.even z))) x - x) <= / 2 * bpow radix2 (- p + 1) * x).
  { apply RE. replace (3 - e - p + p - 1)%Z with (2 - e)%Z by lia. exact H. }
  change (round radix2 (FLT_exp (3 - e - p) p) (Znearest (fun z => negb (Z.even z))) x) with (round radix2 (SpecFloat.fexp p e) ZnearestE x) in E.
  rewrite bpow_plus in E. change (bpow radix2 1) with 2 in E. apply Rabs_le_inv in E. lra.
Qed.

Lemma pow_small u m : 0 <= u -> 2 * INR m * u <= 1 -> (1 + u) ^ m <= 1 + 2 * INR m * u.
Proof.
  intros U. induction m as [|m IH]; intros H; [cbn; lra|]. rewrite S_INR in *. pose proof (pos_INR m).
  assert (X : 2 * INR m * u <= 1) by nra. specialize (IH X). cbn [pow]. nra.
Qed.
Lemma sqrt_le_self x : 1 <= x -> sqrt x <= x.
Proof. intros H. apply Rsqr_incr_0_var; [|lra]. rewrite Rsqr_sqrt by lra. unfold Rsqr. nra. Qed.
Lemma sqrt_ge_self x : 0 <= x <= 1 -> x <= sqrt x.
Proof. intros H. apply Rsqr_incr_0_var; [|apply sqrt_pos]. rewrite Rsqr_sqrt by lra. unfold Rsqr. nra. Qed.
End Rel.

(** What is asked of log10: an absolute error of at most 2^-40. *)
Definition log10_ok (A : Arith) (I : ieee A) (log10 : D A -> D A) : Prop :=
  forall x r, vD A I x = Fin r -> (0 < r)%R -> exists y, vD A I (log10 x) = Fin y /\ (Rabs (y - ln r / ln 10) <= bpow radix2 (-40))%R.

Section Laws.
Context (A : Arith) (I : ieee A).
Notation vT := (vT A I).
Notation vD := (vD A I).
Notation pT := (pT A I).
Notation eT := (eT A I).
Local Instance pT_gt' : Prec_gt_0 pT := HpT A I.
Local Open Scope R_scope.
Local Notation rnd := (round radix2 (SpecFloat.fexp pT eT) ZnearestE).
Local Notation rnd64 := (round radix2 fexp64 ZnearestE).
Local Notation u := (bpow radix2 (-53)).

Lemma add_up a b : 0 <= a -> 0 <= b -> generic_format radix2 fexp64 a -> generic_format radix2 fexp64 b ->
  rnd64 (a + b) <= (a + b) * (1 + u) /\ a <= rnd64 (a + b) /\ b <= rnd64 (a + b).
Proof.
  intros Ha Hb Ga Gb. split; [|split].
  - assert (P53 : Prec_gt_0 53) by reflexivity. destruct (FLT_plus_error_N_ex radix2 (-1074) 53 (fun z => negb (Z.even z)) a b Ga Gb) as (eps & He & E).
    change (round radix2 (FLT_exp (-1074) 53) (Znearest (fun z => negb (Z.even z))) (a + b)) with (rnd64 (a + b)) in E. rewrite E.
    apply Rmult_le_compat_l; [lra|]. apply Rabs_le_inv in He.
    assert (U : Relative.u_ro radix2 53 = u) by (unfold Relative.u_ro; rewrite bpow_plus; change (bpow radix2 1) with 2; change (- (53))%Z with (-53)%Z; lra).
    rewrite U in He. pose proof (bpow_gt_0 radix2 (-53)) as P.
    assert (u / (1 + u) <= u); [|lra]. apply Rle_trans with (u * / 1); [|lra]. apply Rmult_le_compat_l; [lra|]. apply Rinv_le; lra.
  - rewrite <- (rnd_id 53 1024 a Ga) at 1. apply (rnd_le 53 1024 eq_refl). lra.
  - rewrite <- (rnd_id 53 1024 b Gb) at 1. apply (rnd_le 53 1024 eq_refl). lra.
Qed.

(** A sum of nonnegative numbers that are at most [M], added one after the other. *)
Lemma sum_bound {X} (f : X -> D A) M j l : 0 <= M -> M <= bpow radix2 j -> (-1074 <= j)%Z -> (j + 53 < 1024)%Z -> forall s a c,
  vD s = Fin a -> 0 <= a <= INR c * M * (1 + u) ^ c -> a <= INR c * bpow radix2 j -> (Z.of_nat (c + length l) < 2 ^ 53)%Z ->
  (forall x, In x l -> exists e, vD (f x) = Fin e /\ 0 <= e <= M) ->
  exists a', vD (fold_left (fun s x => dadd A s (f x)) l s) = Fin a' /\ a <= a' /\ a' <= INR (c + length l) * M * (1 + u) ^ (c + length l) /\
    (forall x e, In x l -> vD (f x) = Fin e -> e <= a').
Proof.
  intros M0 MJ J1 J2. induction l as [|x l IH]; intros s a c Vs Ha Hj Hl HF; cbn [fold_left length] in *.
  - exists a. rewrite Nat.add_0_r. repeat split; auto; try lra. intros ? ? [].
  - destruct (HF x) as (e & Ve & He0); [left; reflexivity|]. destruct He0 as [He0 HeM].
    destruct (vD_fmt A I _ _ Vs) as [Ga _]. destruct (vD_fmt A I _ _ Ve) as [Ge _].
    destruct (add_up a e (proj1 Ha) He0 Ga Ge) as (U1 & U2 & U3). set (b := rnd64 (a + e)) in *.
    assert (BJ : b <= INR (S c) * bpow radix2 j).
    { assert (G : generic_format radix2 fexp64 (INR (S c) * bpow radix2 j)).
      { apply (generic_format_FLT radix2 (-1074) 53). exists (Float radix2 (Z.of_nat (S c)) j).
        - unfold F2R. cbn [Fnum Fexp]. rewrite <- INR_IZR_INZ. reflexivity.
        - cbn [Fnum]. change (radix_val radix2) with 2%Z. lia.
        - cbn [Fexp]. lia. }
      unfold b. rewrite <- (rnd_id 53 1024 _ G). apply (rnd_le 53 1024 eq_refl). rewrite S_INR. lra. }
    assert (Vb : vD (dadd A s (f x)) = Fin b).
    { rewrite (v_dadd A I), Vs, Ve. cbn [xadd rndx]. apply sat_fin. fold b. rewrite Rabs_pos_eq by lra.
      eapply Rle_lt_trans; [exact BJ|]. apply Rlt_le_trans with (bpow radix2 53 * bpow radix2 j); [|rewrite <- bpow_plus; apply bpow_le; lia].
      apply Rmult_lt_compat_r; [apply bpow_gt_0|]. rewrite INR_IZR_INZ. change (bpow radix2 53) with (IZR (2 ^ 53)). apply IZR_lt. lia. }
    assert (BU : b <= INR (S c) * M * (1 + u) ^ S c).
    { eapply Rle_trans; [exact U1|]. cbn [pow]. rewrite S_INR. set (w := (1 + u) ^ c) in *.
      assert (W : 1 <= w) by (unfold w; apply pow_R1_Rle; pose proof (bpow_gt_0 radix2 (-53)); lra).
      replace ((INR c + 1) * M * ((1 + u) * w)) with (((INR c + 1) * M * w) * (1 + u)) by ring.
      apply Rmult_le_compat_r; [pose proof (bpow_gt_0 radix2 (-53)); lra|]. assert (M <= M * w) by (rewrite <- (Rmult_1_r M) at 1; apply Rmult_le_compat_l; lra). lra. }
    destruct (IH (dadd A s (f x)) b (S c) Vb) as (a' & V & H1 & H2 & H3); [lra|exact BJ|lia|intros; apply HF; right; auto|].
    exists a'. split; [exact V|]. split; [lra|]. split; [replace (c + S (length l))%nat with (S c + length l)%nat by lia; exact H2|].
    intros x' e' [->|HI] He'; [|eauto]. assert (e' = e) by congruence. lra.
Qed.

Lemma mul_sq e : 0 <= e -> generic_format radix2 (SpecFloat.fexp pT eT) e -> forall d, e <= d -> 0 <= rnd (e * e) <= rnd (d * d).
Proof.
  intros He _ d Hd. split.
  - rewrite <- (rnd_0 pT eT). apply (rnd_le pT eT (HpT A I)). nra.
  - apply (rnd_le pT eT (HpT A I)). apply Rmult_le_compat; lra.
Qed.

Theorem stats_bounds log10 ori dec n k q g : (24 <= pT)%Z -> (2 * k + 3 < eT)%Z -> (3 - eT - pT <= k + 1)%Z -> (2 * k + 85 < 1024)%Z -> (-537 <= k)%Z ->
  (2 - eT <= 2 * q)%Z -> (-990 <= 2 * q)%Z -> (-1003 <= q - k)%Z -> (3 - eT <= q - k)%Z -> (k + 3 - g < 1024)%Z -> (k + 2 - g <= eT)%Z ->
  (0 < n)%nat -> (Z.of_nat n <= 2 ^ 30)%Z -> (n <= length ori)%nat -> (n <= length dec)%nat ->
  (forall x, In x ori \/ In x dec -> exists a, vT x = Fin a /\ Rabs a <= bpow radix2 k) ->
  exists r s d R, verify A ori dec n = Some r /\ verify_stats A log10 ori dec n = Some s /\ vT (r_diff r) = Fin d /\ vD (s_range s) = Fin R /\
    (exists lo hi, vT (r_min r) = Fin lo /\ vT (r_max r) = Fin hi /\ 0 <= hi - lo /\ (R = 0 <-> hi = lo) /\
       Rabs (R - (hi - lo)) <= bpow radix2 (- pT) * (hi - lo)) /\
    (bpow radix2 q <= d -> bpow radix2 g <= R ->
     exists ms nr rel, vD (s_mse s) = Fin ms /\ vD (s_nrmse s) = Fin nr /\ vT (s_rel s) = Fin rel /\
       0 < ms < bpow radix2 1024 /\ bpow radix2 (-1022) <= ms /\ ms <= d * d * (1 + bpow radix2 (-20)) /\ d * d * (1 - bpow radix2 (-20)) <= ms * INR n /\
       d * (1 - bpow radix2 (-20)) <= nr * R * sqrt (INR n) /\ nr * R <= d * (1 + bpow radix2 (-20)) /\
       d * (1 - bpow radix2 (- pT)) <= rel * R <= d * (1 + bpow radix2 (- pT))).
Proof.
  intros PT K1 K2 K3 K4 Q1 Q2 Q3 Q4 G1 G2 Hn NB L1 L2 HF. pose proof (HeD A I) as HE.
  destruct (verify_report A I ori dec n k ltac:(pose proof (HeD A I); lia) K2 Hn L1 L2 HF) as (r & d & p & lo & hi & EV & Vd & _ & Vl & Vh & H1 & H2 & H3 & H4 & _).
  assert (ES : exists s, verify_stats A log10 ori dec n = Some s) by (unfold verify_stats; rewrite EV; eauto).
  destruct ES as (s & ES). exists r, s, d.
  assert (HLH : lo <= hi).
  { destruct H3 as (i & Hi & E). assert (HD : exists y, nth_error dec i = Some y) by (destruct (nth_error dec i) eqn:F; [eauto|apply nth_error_None in F; lia]).
    destruct HD as (y & Ey). destruct (HF y) as (b & Vb & _); [right; eapply nth_error_In; eauto|]. destruct (H1 i _ y lo b Hi E Ey Vl Vb) as (_ & B & _). lra. }
  assert (BL : Rabs lo <= bpow radix2 k /\ Rabs hi <= bpow radix2 k).
  { destruct H3 as (i & Hi & E). destruct H4 as (i' & Hi' & E'). split.
    - destruct (HF (r_min r)) as (a & Va & B); [left; eapply nth_error_In; eauto|]. assert (a = lo) by congruence. subst. exact B.
    - destruct (HF (r_max r)) as (a & Va & B); [left; eapply nth_error_In; eauto|]. assert (a = hi) by congruence. subst. exact B. }
  destruct BL as [BL BH].
  assert (GL : generic_format radix2 (SpecFloat.fexp pT eT) lo) by (apply (vT_fmt A I _ _ Vl)).
  assert (GH : generic_format radix2 (SpecFloat.fexp pT eT) hi) by (apply (vT_fmt A I _ _ Vh)).
  set (R := rnd (hi - lo)).
  assert (RB : Rabs R <= bpow radix2 (k + 1)).
  { apply (rnd_bound pT eT (HpT A I)); [apply (fmt_bpow pT eT (HpT A I)); lia|].
    rewrite bpow_plus. change (bpow radix2 1) with 2. apply Rabs_le. apply Rabs_le_inv in BL, BH. lra. }
  assert (VR : vT (tsub A (r_max r) (r_min r)) = Fin R).
  { rewrite (v_tsub A I), Vh, Vl. cbn [xsub rndx]. apply sat_fin. eapply Rle_lt_trans; [exact RB|]. apply bpow_lt. lia. }
  assert (R0 : 0 <= R) by (unfold R; rewrite <- (rnd_0 pT eT); apply (rnd_le pT eT (HpT A I)); lra).
  assert (SE : Rabs (R - (hi - lo)) <= bpow radix2 (- pT) * (hi - lo)).
  { destruct (sub_err A I hi lo GH GL) as [S1 _]. fold R in S1. rewrite (Rabs_pos_eq (hi - lo)) in S1 by lra. exact S1. }
  assert (T1 : bpow radix2 (- pT) <= bpow radix2 (-24)) by (apply bpow_le; lia).
  pose proof (bpow_gt_0 radix2 (- pT)) as T0.
  assert (N24 : bpow radix2 (-24) = / 16777216) by reflexivity.
  unfold verify_stats in ES. rewrite EV in ES. injection ES as ES. exists R. split; [exact EV|]. split; [unfold verify_stats; rewrite EV; f_equal; exact ES|].
  split; [exact Vd|]. subst s. cbn [s_range s_nrmse s_rel s_mse]. split; [rewrite (v_t2d A I); exact VR|]. split.
  { exists lo, hi. split; [exact Vl|]. split; [exact Vh|]. split; [lra|]. split; [|exact SE]. split.
    - intros E. rewrite E in SE. replace (0 - (hi - lo)) with (- (hi - lo)) in SE by ring. rewrite Rabs_Ropp, Rabs_pos_eq in SE by lra. nra.
    - intros ->. unfold R. rewrite Rminus_eq_0. apply rnd_0. }
  intros HQ HG. set (l := combine (firstn n ori) (firstn n dec)) in *.
  assert (LL : length l = n) by (unfold l; rewrite combine_length, !firstn_length; lia).
  assert (RP : 0 < R) by (eapply Rlt_le_trans; [apply bpow_gt_0|exact HG]).
  assert (DP : 0 < d) by (eapply Rlt_le_trans; [apply bpow_gt_0|exact HQ]).
  assert (HL : forall x y, In (x, y) l -> exists e, vT (diff_of A x y) = Fin e /\ 0 <= e /\ e <= bpow radix2 (k + 1)).
  { intros x y HI. apply in_combine_nth in HI; auto. destruct HI as (i & Hi & E1 & E2).
    destruct (HF x) as (a & Ha & Ba); [left; eapply nth_error_In; eauto|]. destruct (HF y) as (b & Hb & Bb); [right; eapply nth_error_In; eauto|].
    exists (Rabs (rnd (b - a))). split; [apply (diff_val A I x y a b k); auto; lia|]. split; [apply Rabs_pos|].
    apply (rnd_bound pT eT (HpT A I)); [apply (fmt_bpow pT eT (HpT A I)); lia|].
    rewrite bpow_plus. change (bpow radix2 1) with 2. apply Rabs_le. apply Rabs_le_inv in Ba, Bb. lra. }
  (* the largest error is one of the errors *)
  assert (HM : (forall x y e, In (x, y) l -> vT (diff_of A x y) = Fin e -> e <= d) /\ (exists x y, In (x, y) l /\ vT (diff_of A x y) = Fin d)).
  { unfold verify in EV. destruct ori as [|x0 o'] eqn:EO in EV; [discriminate|]. destruct dec as [|y0 d'] eqn:ED in EV; [discriminate|].
    rewrite <- EO, <- ED in EV. replace ((n <=? length ori)%nat && (n <=? length dec)%nat) with true in EV by lia. injection EV as EV.
    assert (I0 : In (x0, y0) l) by (unfold l; apply (in_combine_nth ori dec n L1 L2); exists 0%nat; rewrite EO, ED; auto).
    fold l in EV. set (r0 := {| r_max := x0; r_min := x0; r_diff := tabs A (tsub A y0 x0); r_pw := dofZ A 0 |}) in *.
    destruct (step_diff A I l r0) as (m & Vm & _ & D1 & D2).
    - destruct (HL _ _ I0) as (e & He & _). exists e. exact He.
    - intros x y HI. destruct (HL _ _ HI) as (e & He & _). exists e. exact He.
    - rewrite EV in Vm. assert (m = d) by congruence. subst m. split; [exact D1|]. destruct D2 as [D2|D2]; [exists x0, y0; auto|exact D2]. }
  destruct HM as [HM1 (xm & ym & HMI & HMV)].
  assert (DB : d <= bpow radix2 (k + 1)) by (destruct (HL _ _ HMI) as (e & He & _ & B); assert (e = d) by congruence; lra).
  assert (QK : (q <= k + 1)%Z) by (apply (le_bpow radix2); lra).
  set (M := rnd (d * d)).
  assert (MB : M <= bpow radix2 (2 * k + 2)).
  { rewrite <- (Rabs_pos_eq M). 2:{ unfold M. rewrite <- (rnd_0 pT eT). apply (rnd_le pT eT (HpT A I)). nra. }
    apply (rnd_bound pT eT (HpT A I)); [apply (fmt_bpow pT eT (HpT A I)); lia|].
    rewrite Rabs_pos_eq by nra. replace (2 * k + 2)%Z with ((k + 1) + (k + 1))%Z by lia. rewrite bpow_plus. apply Rmult_le_compat; lra. }
  assert (VQ : forall x y e, In (x, y) l -> vT (diff_of A x y) = Fin e -> vD (t2d A (tmul A (diff_of A x y) (diff_of A x y))) = Fin (rnd (e * e)) /\ 0 <= rnd (e * e) <= M).
  { intros x y e HI Ve. destruct (HL _ _ HI) as (e' & He' & E0 & EB). assert (e' = e) by congruence. subst e'. clear He'.
    assert (MS : 0 <= rnd (e * e) <= M) by (apply (mul_sq e E0 (proj1 (vT_fmt A I _ _ Ve)) d (HM1 _ _ _ HI Ve))). split; [|exact MS].
    rewrite (v_t2d A I), (v_tmul A I), Ve. cbn [xmul rndx]. apply sat_fin. rewrite Rabs_pos_eq by lra.
    eapply Rle_lt_trans; [apply MS|]. eapply Rle_lt_trans; [exact MB|]. apply bpow_lt. lia. }
  assert (M1 : d * d * (1 - bpow radix2 (- pT)) <= M <= d * d * (1 + bpow radix2 (- pT))).
  { apply rel_err; [exact (HpT A I)|]. apply Rle_trans with (bpow radix2 q * bpow radix2 q).
    - rewrite <- bpow_plus. apply bpow_le. lia.
    - pose proof (bpow_gt_0 radix2 q). apply Rmult_le_compat; lra. }
  assert (V0 : vD (dofZ A 0) = Fin 0) by (rewrite (v_dofZ A I); apply rndx_fin; [apply generic_format_0|rewrite Rabs_R0; apply bpow_gt_0]).
  destruct (sum_bound (fun xy : T A * T A => let err := tabs A (tsub A (snd xy) (fst xy)) in t2d A (tmul A err err)) M (2 * k + 2) l) with (s := dofZ A 0) (a := 0) (c := 0%nat)
    as (S & VS & _ & S2 & S3); try lia; auto.
  { nra. }
  { cbn. lra. }
  { cbn. lra. }
  { intros [x y] HI. cbn [fst snd]. destruct (HL _ _ HI) as (e & He & _). exists (rnd (e * e)). apply (VQ x y e HI He). }
  change (fold_left _ l (dofZ A 0)) with (sum_sq A l) in VS.
  assert (S1 : M <= S) by (apply (S3 (xm, ym) M HMI); cbn [fst snd]; apply (VQ xm ym d HMI HMV)).
  clear S3. cbn [plus] in S2. rewrite LL in S2.
  assert (NV : vD (dofZ A (Z.of_nat n)) = Fin (INR n)).
  { rewrite (v_dofZ A I), <- INR_IZR_INZ. apply rndx_fin.
    - rewrite INR_IZR_INZ. apply (fmt_IZR 53 1024); first [reflexivity|lia].
    - rewrite INR_IZR_INZ, Rabs_pos_eq by (apply IZR_le; lia). apply Rle_lt_trans with (bpow radix2 30); [change (bpow radix2 30) with (IZR (2 ^ 30)); apply IZR_le; lia|].
      apply bpow_lt. lia. }
  assert (N1 : 1 <= INR n) by (change 1 with (INR 1); apply le_INR; lia).
  assert (N2 : INR n <= bpow radix2 30) by (rewrite INR_IZR_INZ; change (bpow radix2 30) with (IZR (2 ^ 30)); apply IZR_le; lia).
  assert (B30 : bpow radix2 30 = 1073741824) by reflexivity.
  assert (B53 : u = / 9007199254740992) by reflexivity.
  assert (W : 1 <= (1 + u) ^ n <= 1 + bpow radix2 (-22)).
  { split; [apply pow_R1_Rle; lra|]. eapply Rle_trans; [apply pow_small; [lra|]|]; [|change (bpow radix2 (-22)) with (/ 4194304)]; rewrite B53; lra. }
  set (w := (1 + u) ^ n) in *. change (bpow radix2 (-22)) with (/ 4194304) in W.
  assert (MP : 0 < M) by nra.
  (* the mean square *)
  assert (Q0 : bpow radix2 (-1022) <= S / INR n).
  { apply Rle_trans with (bpow radix2 (2 * q - 1) * / bpow radix2 30).
    - rewrite <- bpow_opp, <- bpow_plus. apply bpow_le. lia.
    - apply Rmult_le_compat; [apply bpow_ge_0|left; apply Rinv_0_lt_compat; lra| |apply Rinv_le; lra].
      eapply Rle_trans; [|exact S1]. eapply Rle_trans; [|apply M1]. replace (2 * q - 1)%Z with (q + q + -1)%Z by lia. rewrite !bpow_plus. change (bpow radix2 (-1)) with (/ 2).
      pose proof (bpow_gt_0 radix2 q). apply Rmult_le_compat; [nra|lra|apply Rmult_le_compat; lra|lra]. }
  pose proof (rel_err 53 1024 (S / INR n) eq_refl Q0) as E1. set (ms := rnd64 (S / INR n)) in *. change (- (53))%Z with (-53)%Z in E1.
  assert (SN : S / INR n <= M * w).
  { apply Rmult_le_reg_r with (INR n); [lra|]. unfold Rdiv. rewrite Rmult_assoc, Rinv_l by lra. lra. }
  assert (SN' : M <= S / INR n * INR n) by (unfold Rdiv; rewrite Rmult_assoc, Rinv_l by lra; lra).
  assert (QP : 0 < S / INR n) by (eapply Rlt_le_trans; [apply bpow_gt_0|exact Q0]).
  set (sn := S / INR n) in *.
  assert (MSP : 0 < ms) by nra.
  assert (MU : ms <= d * d * ((1 + / 16777216) * (1 + / 4194304) * (1 + u))).
  { apply Rle_trans with (M * w * (1 + u)); [eapply Rle_trans; [apply E1|]; apply Rmult_le_compat_r; lra|].
    rewrite <- !Rmult_assoc. apply Rmult_le_compat_r; [lra|]. apply Rmult_le_compat; [lra|lra| |lra].
    eapply Rle_trans; [apply M1|]. apply Rmult_le_compat_l; [nra|lra]. }
  assert (ML : d * d * ((1 - / 16777216) * (1 - u)) <= ms * INR n).
  { apply Rle_trans with (M * (1 - u)).
    - rewrite <- Rmult_assoc. apply Rmult_le_compat_r; [lra|]. eapply Rle_trans; [|apply M1]. apply Rmult_le_compat_l; [nra|lra].
    - apply Rle_trans with (sn * INR n * (1 - u)); [apply Rmult_le_compat_r; lra|]. replace (sn * INR n * (1 - u)) with (sn * (1 - u) * INR n) by ring.
      apply Rmult_le_compat_r; lra. }
  assert (MBND : ms < bpow radix2 (2 * k + 5)).
  { replace (2 * k + 5)%Z with ((k + 1) + (k + 1) + 3)%Z by lia. rewrite !bpow_plus with (e2 := 3%Z). rewrite bpow_plus. change (bpow radix2 3) with 8.
    eapply Rle_lt_trans; [exact MU|]. apply Rle_lt_trans with (bpow radix2 (k + 1) * bpow radix2 (k + 1) * 2).
    - apply Rmult_le_compat; [nra|rewrite B53; lra|apply Rmult_le_compat; lra|rewrite B53; lra].
    - pose proof (bpow_gt_0 radix2 (k + 1)). assert (0 < bpow radix2 (k + 1) * bpow radix2 (k + 1)) by nra. lra. }
  assert (VM : vD (ddiv A (sum_sq A l) (dofZ A (Z.of_nat n))) = Fin ms).
  { rewrite (v_ddiv A I) by (rewrite NV; intros F; injection F as F; lra). rewrite VS, NV, xdiv_fin by lra. cbn [rndx]. apply sat_fin. fold sn. fold ms.
    rewrite Rabs_pos_eq by lra. eapply Rlt_trans; [exact MBND|]. apply bpow_lt. lia. }
  (* its root *)
  set (a1 := (1 + / 16777216) * (1 + / 4194304) * (1 + u)) in *. set (a2 := (1 - / 16777216) * (1 - u)) in *.
  assert (A1 : 1 <= a1 <= 1 + / 3000000) by (unfold a1; rewrite B53; lra).
  assert (A2 : 1 - / 8000000 <= a2 <= 1) by (unfold a2; rewrite B53; lra).
  assert (SU : sqrt ms <= d * a1).
  { eapply Rle_trans; [apply sqrt_le_1_alt; exact MU|]. rewrite sqrt_mult_alt, sqrt_square by nra. apply Rmult_le_compat_l; [lra|]. apply sqrt_le_self. lra. }
  assert (SL : d * a2 <= sqrt ms * sqrt (INR n)).
  { rewrite <- sqrt_mult_alt by lra. eapply Rle_trans; [|apply sqrt_le_1_alt; exact ML]. rewrite sqrt_mult_alt, sqrt_square by nra. apply Rmult_le_compat_l; [lra|].
    apply sqrt_ge_self. lra. }
  assert (NQ : 1 <= sqrt (INR n) <= bpow radix2 15).
  { split; [rewrite <- sqrt_1; apply sqrt_le_1_alt; lra|]. rewrite <- (sqrt_square (bpow radix2 15)) by apply bpow_ge_0. apply sqrt_le_1_alt. rewrite <- bpow_plus. exact N2. }
  assert (B15 : bpow radix2 15 = 32768) by reflexivity.
  assert (SB : bpow radix2 (q - 16) <= sqrt ms).
  { apply Rmult_le_reg_r with (bpow radix2 15); [apply bpow_gt_0|]. apply Rle_trans with (sqrt ms * sqrt (INR n)).
    - eapply Rle_trans; [|exact SL]. rewrite <- bpow_plus. replace (q - 16 + 15)%Z with (q + -1)%Z by lia. rewrite bpow_plus. change (bpow radix2 (-1)) with (/ 2).
      apply Rmult_le_compat; [apply bpow_ge_0|lra|lra|lra].
    - apply Rmult_le_compat_l; [apply sqrt_pos|lra]. }
  assert (Q5 : bpow radix2 (-1022) <= sqrt ms) by (eapply Rle_trans; [apply bpow_le|exact SB]; lia).
  pose proof (rel_err 53 1024 (sqrt ms) eq_refl Q5) as E2. set (rs := rnd64 (sqrt ms)) in *. change (- (53))%Z with (-53)%Z in E2.
  assert (SQP : 0 < sqrt ms) by (apply sqrt_lt_R0; lra).
  assert (SU4 : sqrt ms <= bpow radix2 (k + 2)).
  { eapply Rle_trans; [exact SU|]. replace (k + 2)%Z with (k + 1 + 1)%Z by lia. rewrite (bpow_plus _ (k + 1) 1). change (bpow radix2 1) with 2. apply Rmult_le_compat; lra. }
  assert (RSB : 0 < rs <= bpow radix2 (k + 3)).
  { replace (k + 3)%Z with (k + 2 + 1)%Z by lia. rewrite (bpow_plus _ (k + 2) 1). change (bpow radix2 1) with 2. split; [nra|]. eapply Rle_trans; [apply E2|].
    apply Rmult_le_compat; lra. }
  assert (VRS : vD (dsqrt A (ddiv A (sum_sq A l) (dofZ A (Z.of_nat n)))) = Fin rs).
  { rewrite (v_dsqrt A I), VM. cbn [xsqrt]. rewrite Rlt_bool_false by lra. cbn [rndx]. fold rs. apply sat_fin. rewrite Rabs_pos_eq by lra.
    eapply Rle_lt_trans; [apply RSB|]. apply bpow_lt. lia. }
  (* the quotient by the range *)
  assert (RLE : R <= bpow radix2 (k + 1)) by (rewrite Rabs_pos_eq in RB by lra; exact RB).
  assert (GK : (g <= k + 1)%Z) by (apply (le_bpow radix2); lra).
  assert (Q6 : bpow radix2 (-1022) <= rs / R).
  { apply Rle_trans with (bpow radix2 (q - 17) * / bpow radix2 (k + 1)).
    - rewrite <- bpow_opp, <- bpow_plus. apply bpow_le. lia.
    - apply Rmult_le_compat; [apply bpow_ge_0|left; apply Rinv_0_lt_compat, bpow_gt_0| |apply Rinv_le; lra].
      eapply Rle_trans; [|apply E2]. replace (q - 17)%Z with (q - 16 + -1)%Z by lia. rewrite (bpow_plus _ (q - 16) (-1)). change (bpow radix2 (-1)) with (/ 2).
      apply Rmult_le_compat; [apply bpow_ge_0|lra|lra|lra]. }
  pose proof (rel_err 53 1024 (rs / R) eq_refl Q6) as E3. set (nr := rnd64 (rs / R)) in *. change (- (53))%Z with (-53)%Z in E3.
  assert (QR : rs / R * R = rs) by (unfold Rdiv; rewrite Rmult_assoc, Rinv_l by lra; lra).
  assert (VN : vD (ddiv A (dsqrt A (ddiv A (sum_sq A l) (dofZ A (Z.of_nat n)))) (t2d A (tsub A (r_max r) (r_min r)))) = Fin nr).
  { assert (VR' : vD (t2d A (tsub A (r_max r) (r_min r))) = Fin R) by (rewrite (v_t2d A I); exact VR).
    rewrite (v_ddiv A I) by (rewrite VR'; intros F; injection F as F; lra). rewrite VRS, VR', xdiv_fin by lra. cbn [rndx]. fold nr. apply sat_fin.
    apply Rle_lt_trans with (bpow radix2 (k + 3 - g)); [|apply bpow_lt; lia].
    apply (rnd_bound 53 1024 eq_refl); [apply (fmt_bpow 53 1024 eq_refl); lia|].
    rewrite Rabs_pos_eq by (left; apply Rdiv_lt_0_compat; lra). unfold Zminus. rewrite bpow_plus, bpow_opp.
    apply Rmult_le_compat; [lra|left; apply Rinv_0_lt_compat; lra|apply RSB|apply Rinv_le; [apply bpow_gt_0|exact HG]]. }
  (* the largest error over the range *)
  assert (Q7 : bpow radix2 (2 - eT) <= d / R).
  { apply Rle_trans with (bpow radix2 q * / bpow radix2 (k + 1)).
    - rewrite <- bpow_opp, <- bpow_plus. apply bpow_le. lia.
    - apply Rmult_le_compat; [apply bpow_ge_0|left; apply Rinv_0_lt_compat, bpow_gt_0|exact HQ|apply Rinv_le; lra]. }
  pose proof (rel_err pT eT (d / R) (HpT A I) Q7) as E4. set (rl := rnd (d / R)) in *.
  assert (DR : d / R * R = d) by (unfold Rdiv; rewrite Rmult_assoc, Rinv_l by lra; lra).
  assert (VL : vT (tdiv A (r_diff r) (tsub A (r_max r) (r_min r))) = Fin rl).
  { rewrite (v_tdiv A I) by (rewrite VR; intros F; injection F as F; lra). rewrite Vd, VR, xdiv_fin by lra. cbn [rndx]. fold rl. apply sat_fin.
    apply Rle_lt_trans with (bpow radix2 (k + 1 - g)); [|apply bpow_lt; lia].
    apply (rnd_bound pT eT (HpT A I)). 
    - apply (fmt_bpow pT eT (HpT A I)). assert (2 - eT < k + 1 - g + 1)%Z; [|pose proof (HpT A I) as P; unfold Prec_gt_0 in P; lia].
      apply (lt_bpow radix2). eapply Rle_lt_trans; [exact Q7|]. apply Rle_lt_trans with (bpow radix2 (k + 1 - g)); [|apply bpow_lt; lia].
      unfold Zminus. rewrite bpow_plus, bpow_opp. apply Rmult_le_compat; [lra|left; apply Rinv_0_lt_compat; lra|exact DB|apply Rinv_le; [apply bpow_gt_0|exact HG]].
    - rewrite Rabs_pos_eq by (left; apply Rdiv_lt_0_compat; lra). unfold Zminus. rewrite bpow_plus, bpow_opp.
      apply Rmult_le_compat; [lra|left; apply Rinv_0_lt_compat; lra|exact DB|apply Rinv_le; [apply bpow_gt_0|exact HG]]. }
  exists ms, nr, rl. split; [exact VM|]. split; [exact VN|]. split; [exact VL|].
  assert (B20 : bpow radix2 (-20) = / 1048576) by reflexivity. rewrite B20.
  split; [split; [exact MSP|eapply Rlt_trans; [exact MBND|apply bpow_lt; lia]]|].
  split. { unfold ms. apply Rle_trans with (Rabs ms); [|rewrite Rabs_pos_eq by lra; apply Rle_refl]. apply (rnd_bound_ge 53 1024 eq_refl); [apply (fmt_bpow 53 1024 eq_refl); lia|].
    rewrite Rabs_pos_eq by lra. exact Q0. }
  split; [eapply Rle_trans; [exact MU|]; apply Rmult_le_compat_l; [nra|lra]|].
  split; [eapply Rle_trans; [|exact ML]; apply Rmult_le_compat_l; [nra|lra]|].
  assert (NU : nr * R <= rs * (1 + u)) by (apply Rle_trans with (rs / R * (1 + u) * R); [apply Rmult_le_compat_r; lra|replace (rs / R * (1 + u) * R) with (rs / R * R * (1 + u)) by ring; rewrite QR; lra]).
  assert (NL : rs * (1 - u) <= nr * R) by (apply Rle_trans with (rs / R * (1 - u) * R); [replace (rs / R * (1 - u) * R) with (rs / R * R * (1 - u)) by ring; rewrite QR; lra|apply Rmult_le_compat_r; lra]).
  split; [|split].
  - apply Rle_trans with (rs * (1 - u) * sqrt (INR n)); [|apply Rmult_le_compat_r; lra].
    apply Rle_trans with (sqrt ms * (1 - u) * (1 - u) * sqrt (INR n)); [|apply Rmult_le_compat_r; [lra|]; apply Rmult_le_compat_r; [rewrite B53; lra|apply E2]].
    replace (sqrt ms * (1 - u) * (1 - u) * sqrt (INR n)) with (sqrt ms * sqrt (INR n) * ((1 - u) * (1 - u))) by ring.
    apply Rle_trans with (d * a2 * ((1 - u) * (1 - u))); [|apply Rmult_le_compat_r; [rewrite B53; lra|exact SL]].
    rewrite Rmult_assoc. apply Rmult_le_compat_l; [lra|]. apply Rle_trans with ((1 - / 8000000) * ((1 - u) * (1 - u))); [rewrite B53; lra|].
    apply Rmult_le_compat_r; [rewrite B53; lra|lra].
  - eapply Rle_trans; [exact NU|]. apply Rle_trans with (sqrt ms * (1 + u) * (1 + u)); [apply Rmult_le_compat_r; [lra|apply E2]|].
    apply Rle_trans with (d * a1 * ((1 + u) * (1 + u))); [rewrite <- Rmult_assoc; apply Rmult_le_compat_r; [lra|]; apply Rmult_le_compat_r; [lra|exact SU]|].
    rewrite Rmult_assoc. apply Rmult_le_compat_l; [lra|]. apply Rle_trans with ((1 + / 3000000) * ((1 + u) * (1 + u))); [apply Rmult_le_compat_r; [rewrite B53; lra|lra]|rewrite B53; lra].
  - split.
    + apply Rle_trans with (d / R * (1 - bpow radix2 (- pT)) * R); [replace (d / R * (1 - bpow radix2 (- pT)) * R) with (d / R * R * (1 - bpow radix2 (- pT))) by ring; rewrite DR; lra|].
      apply Rmult_le_compat_r; lra.
    + apply Rle_trans with (d / R * (1 + bpow radix2 (- pT)) * R); [apply Rmult_le_compat_r; lra|replace (d / R * (1 + bpow radix2 (- pT)) * R) with (d / R * R * (1 + bpow radix2 (- pT))) by ring; rewrite DR; lra].
Qed.

(** An array compared with itself. *)
Theorem stats_same log10 ori n k : (k + 1 < eT)%Z -> (3 - eT - pT <= k + 1)%Z -> (0 < n)%nat -> (Z.of_nat n < 2 ^ 53)%Z -> (n <= length ori)%nat ->
  (forall x, In x ori -> exists a, vT x = Fin a /\ Rabs a <= bpow radix2 k) ->
  exists r s R, verify A ori ori n = Some r /\ verify_stats A log10 ori ori n = Some s /\ vT (r_diff r) = Fin 0 /\ vD (s_range s) = Fin R /\ vD (s_mse s) = Fin 0 /\
    (0 < R -> vD (s_nrmse s) = Fin 0 /\ vT (s_rel s) = Fin 0).
Proof.
  intros K1 K2 Hn NB L1 HF.
  destruct (verify_report A I ori ori n k K1 K2 Hn L1 L1) as (r & d & p & lo & hi & EV & Vd & _ & Vl & Vh & H1 & H2 & H3 & H4 & _); [intros x [H|H]; auto|].
  assert (ES : exists s, verify_stats A log10 ori ori n = Some s) by (unfold verify_stats; rewrite EV; eauto).
  destruct ES as (s & ES). exists r, s.
  assert (D0 : d = 0).
  { destruct H2 as (i & x & y & a & b & Hi & Ex & Ey & Va & Vb & HD). assert (x = y) by congruence. subst y. assert (a = b) by congruence. subst b.
    replace (a - a) with 0 in HD by ring. rewrite Rabs_R0, Rmult_0_l in HD.
    destruct (H1 i x x a a Hi Ex Ey Va Va) as (HD' & _). replace (a - a) with 0 in HD' by ring. rewrite Rabs_R0 in HD'. pose proof (bpow_gt_0 radix2 (- pT)). nra. }
  subst d.
  assert (BL : Rabs lo <= bpow radix2 k /\ Rabs hi <= bpow radix2 k).
  { destruct H3 as (i & Hi & E). destruct H4 as (i' & Hi' & E'). split.
    - destruct (HF (r_min r)) as (a & Va & B); [eapply nth_error_In; eauto|]. assert (a = lo) by congruence. subst. exact B.
    - destruct (HF (r_max r)) as (a & Va & B); [eapply nth_error_In; eauto|]. assert (a = hi) by congruence. subst. exact B. }
  destruct BL as [BL BH]. exists (rnd (hi - lo)).
  assert (VR : vT (tsub A (r_max r) (r_min r)) = Fin (rnd (hi - lo))).
  { rewrite (v_tsub A I), Vh, Vl. cbn [xsub rndx]. apply sat_fin. apply Rle_lt_trans with (bpow radix2 (k + 1)); [|apply bpow_lt; lia].
    apply (rnd_bound pT eT (HpT A I)); [apply (fmt_bpow pT eT (HpT A I)); lia|].
    rewrite bpow_plus. change (bpow radix2 1) with 2. apply Rabs_le. apply Rabs_le_inv in BL, BH. lra. }
  assert (VR' : vD (t2d A (tsub A (r_max r) (r_min r))) = Fin (rnd (hi - lo))) by (rewrite (v_t2d A I); exact VR).
  unfold verify_stats in ES. rewrite EV in ES. injection ES as ES. split; [exact EV|]. split; [unfold verify_stats; rewrite EV; f_equal; exact ES|].
  split; [exact Vd|]. subst s. cbn [s_range s_nrmse s_rel s_mse]. split; [exact VR'|].
  set (l := combine (firstn n ori) (firstn n ori)) in *.
  assert (LL : length l = n) by (unfold l; rewrite combine_length, !firstn_length; lia).
  assert (V0 : vD (dofZ A 0) = Fin 0) by (rewrite (v_dofZ A I); apply rndx_fin; [apply generic_format_0|rewrite Rabs_R0; apply bpow_gt_0]).
  destruct (sum_bound (fun xy : T A * T A => let err := tabs A (tsub A (snd xy) (fst xy)) in t2d A (tmul A err err)) 0 0 l) with (s := dofZ A 0) (a := 0) (c := 0%nat)
    as (S & VS & S1 & S2 & _); try lia; auto; try (cbn; lra).
  { intros [x y] HI. cbn [fst snd]. apply in_combine_nth in HI; auto. destruct HI as (i & Hi & E1 & E2). assert (x = y) by congruence. subst y.
    destruct (HF x) as (a & Va & Ba); [eapply nth_error_In; eauto|]. exists 0. split; [|lra].
    change (tabs A (tsub A x x)) with (diff_of A x x).
    assert (VE : vT (diff_of A x x) = Fin 0) by (rewrite (diff_val A I x x a a k) by auto; rewrite Rminus_eq_0, rnd_0, Rabs_R0; reflexivity).
    rewrite (v_t2d A I), (v_tmul A I), VE. cbn [xmul]. rewrite Rmult_0_l. apply rndx_fin; [apply generic_format_0|rewrite Rabs_R0; apply bpow_gt_0]. }
  change (fold_left _ l (dofZ A 0)) with (sum_sq A l) in VS. assert (S0 : S = 0) by (rewrite Rmult_0_r, Rmult_0_l in S2; lra). subst S. clear S1 S2.
  assert (N1 : 1 <= INR n) by (change 1 with (INR 1); apply le_INR; lia).
  assert (NV : vD (dofZ A (Z.of_nat n)) = Fin (INR n)).
  { rewrite (v_dofZ A I), <- INR_IZR_INZ. apply rndx_fin.
    - rewrite INR_IZR_INZ. apply (fmt_IZR 53 1024); first [reflexivity|lia].
    - rewrite INR_IZR_INZ, Rabs_pos_eq by (apply IZR_le; lia). apply Rle_lt_trans with (bpow radix2 53); [change (bpow radix2 53) with (IZR (2 ^ 53)); apply IZR_le; lia|].
      apply bpow_lt. lia. }
  assert (Z64 : rndx 53 1024 (Fin 0) = Fin 0) by (apply rndx_fin; [apply generic_format_0|rewrite Rabs_R0; apply bpow_gt_0]).
  assert (VM : vD (ddiv A (sum_sq A l) (dofZ A (Z.of_nat n))) = Fin 0).
  { rewrite (v_ddiv A I) by (rewrite NV; intros F; injection F as F; lra). rewrite VS, NV, xdiv_fin by lra. unfold Rdiv. rewrite Rmult_0_l. exact Z64. }
  split; [exact VM|]. intros RP. split.
  - rewrite (v_ddiv A I) by (rewrite VR'; intros F; injection F as F; lra). rewrite (v_dsqrt A I), VM, VR'. cbn [xsqrt]. rewrite Rlt_bool_false by lra. rewrite sqrt_0, Z64.
    rewrite xdiv_fin by lra. unfold Rdiv. rewrite Rmult_0_l. exact Z64.
  - rewrite (v_tdiv A I) by (rewrite VR; intros F; injection F as F; lra). rewrite Vd, VR, xdiv_fin by lra. unfold Rdiv. rewrite Rmult_0_l.
    apply rndx_fin; [apply generic_format_0|rewrite Rabs_R0; apply bpow_gt_0].
Qed.

Lemma ln10_ge : 2 <= ln 10.
Proof.
  assert (X : exp 2 <= 10).
  { replace 2 with (1 + 1) by ring. rewrite exp_plus. pose proof exp_le_3. pose proof (exp_pos 1). nra. }
  rewrite <- (ln_exp 2). destruct X as [X|X]; [left; apply ln_increasing; [apply exp_pos|exact X]|rewrite X; lra].
Qed.
Lemma ln_mono a b : 0 < a -> a <= b -> ln a <= ln b.
Proof. intros H [L|<-]; [left; apply ln_increasing; auto|lra]. Qed.
Lemma ln_bpow e : ln (bpow radix2 e) = IZR e * ln 2.
Proof. rewrite bpow_powerRZ. change (IZR radix2) with 2. rewrite powerRZ_Rpower by lra. unfold Rpower. rewrite ln_exp. reflexivity. Qed.
Lemma ln_up x : 0 <= x -> ln (1 + x) <= x.
Proof. intros [H|<-]; [|rewrite Rplus_0_r, ln_1; lra]. rewrite <- (ln_exp x) at 2. apply ln_mono; [lra|]. left. apply exp_ineq1. lra. Qed.
Lemma ln_down x : 0 <= x <= / 2 -> - (2 * x) <= ln (1 - x).
Proof.
  intros H. assert (E : ln (1 - x) = - ln (1 + x / (1 - x))).
  { rewrite <- ln_Rinv by (assert (0 <= x / (1 - x)) by (apply Rmult_le_pos; [lra|left; apply Rinv_0_lt_compat; lra]); lra). f_equal. field. split; lra. }
  rewrite E. apply Ropp_le_contravar.
  assert (X : 0 <= x / (1 - x) <= 2 * x).
  { split; [apply Rmult_le_pos; [lra|left; apply Rinv_0_lt_compat; lra]|]. unfold Rdiv. rewrite Rmult_comm. apply Rmult_le_compat_r; [lra|]. replace 2 with (/ / 2) by lra. apply Rinv_le; lra. }
  eapply Rle_trans; [apply ln_up; lra|lra].
Qed.
Lemma log10_small x k : bpow radix2 (- k) <= x -> x <= bpow radix2 k -> (0 <= k)%Z -> Rabs (ln x / ln 10) <= IZR k.
Proof.
  intros H1 H2 Hk. pose proof ln10_ge as L10. assert (P : 0 < x) by (eapply Rlt_le_trans; [apply bpow_gt_0|exact H1]).
  assert (L2 : 0 < ln 2 <= 1).
  { split; [rewrite <- ln_1; apply ln_increasing; lra|]. replace 2 with (1 + 1) by ring. apply ln_up. lra. }
  apply ln_mono in H1; [|apply bpow_gt_0]. apply ln_mono in H2; [|exact P]. rewrite ln_bpow in H1, H2. rewrite opp_IZR in H1.
  assert (K : 0 <= IZR k) by (apply IZR_le; lia).
  assert (B : Rabs (ln x) <= IZR k) by (apply Rabs_le; assert (IZR k * ln 2 <= IZR k * 1) by (apply Rmult_le_compat_l; lra); lra).
  unfold Rdiv. rewrite Rabs_mult. rewrite (Rabs_pos_eq (/ ln 10)) by (left; apply Rinv_0_lt_compat; lra).
  rewrite <- (Rmult_1_r (IZR k)). apply Rmult_le_compat; [apply Rabs_pos|left; apply Rinv_0_lt_compat; lra|exact B|]. rewrite <- Rinv_1. apply Rinv_le; lra.
Qed.

Lemma dofZ_small z : (Z.abs z <= 2 ^ 53)%Z -> vD (dofZ A z) = Fin (IZR z).
Proof.
  intros H. rewrite (v_dofZ A I). apply rndx_fin; [apply (fmt_IZR 53 1024); first [reflexivity|lia]|].
  rewrite <- abs_IZR. apply Rle_lt_trans with (IZR (2 ^ 53)); [apply IZR_le; exact H|]. change (IZR (2 ^ 53)) with (bpow radix2 53). apply bpow_lt. lia.
Qed.

(** A rounded number of moderate size. *)
Lemma rnd_mod x : Rabs x <= bpow radix2 17 -> Rabs (rnd64 x - x) <= bpow radix2 (-35) /\ rndx 53 1024 (Fin x) = Fin (rnd64 x).
Proof.
  intros H. split.
  - eapply Rle_trans; [apply (rnd_err 53 1024 eq_refl)|]. change (3 - 1024 - 53)%Z with (-1074)%Z. change (- (53))%Z with (-53)%Z.
    apply Rle_trans with (u * bpow radix2 17 + bpow radix2 (-36)).
    + apply Rplus_le_compat; [apply Rmult_le_compat_l; [apply bpow_ge_0|exact H]|apply bpow_le; lia].
    + rewrite <- bpow_plus. change (-53 + 17)%Z with (-36)%Z. change (-35)%Z with (-36 + 1)%Z. rewrite bpow_plus. change (bpow radix2 1) with 2. lra.
  - cbn [rndx]. apply sat_fin. apply Rle_lt_trans with (bpow radix2 17); [|apply bpow_lt; lia].
    apply (rnd_bound 53 1024 eq_refl); [apply (fmt_bpow 53 1024 eq_refl); lia|exact H].
Qed.

Theorem psnr_value log10 R m r1 ms : log10_ok A I log10 -> vD r1 = Fin R -> vD m = Fin ms ->
  bpow radix2 (-1024) <= R <= bpow radix2 1024 -> bpow radix2 (-1024) <= ms <= bpow radix2 1024 ->
  exists p, vD (dsub A (dmul A (dofZ A 20) (log10 r1)) (dmul A (dofZ A 10) (log10 m))) = Fin p /\
    Rabs (p - (20 * (ln R / ln 10) - 10 * (ln ms / ln 10))) <= bpow radix2 (-30).
Proof.
  intros HL VR VM BR BM. pose proof (bpow_gt_0 radix2 (-1024)) as P0.
  destruct (HL _ _ VR) as (y1 & V1 & E1); [lra|]. destruct (HL _ _ VM) as (y2 & V2 & E2); [lra|].
  pose proof (log10_small R 1024 ltac:(apply BR) ltac:(apply BR) ltac:(lia)) as S1. pose proof (log10_small ms 1024 ltac:(apply BM) ltac:(apply BM) ltac:(lia)) as S2.
  set (a := ln R / ln 10) in *. set (b := ln ms / ln 10) in *. clear HL VR VM BR BM P0.
  assert (B40 : bpow radix2 (-40) = / 1099511627776) by reflexivity. assert (B35 : bpow radix2 (-35) = / 34359738368) by reflexivity.
  assert (B30 : bpow radix2 (-30) = / 1073741824) by reflexivity. assert (B17 : bpow radix2 17 = 131072) by reflexivity.
  rewrite B40 in *. apply Rabs_le_inv in E1, E2, S1, S2.
  destruct (rnd_mod (20 * y1)) as [R1 F1]; [rewrite B17; apply Rabs_le; lra|]. destruct (rnd_mod (10 * y2)) as [R2 F2]; [rewrite B17; apply Rabs_le; lra|].
  rewrite B35 in *. apply Rabs_le_inv in R1, R2.
  destruct (rnd_mod (rnd64 (20 * y1) - rnd64 (10 * y2))) as [R3 F3]; [rewrite B17; apply Rabs_le; lra|]. rewrite B35 in R3. apply Rabs_le_inv in R3.
  exists (rnd64 (rnd64 (20 * y1) - rnd64 (10 * y2))). split.
  - rewrite (v_dsub A I), !(v_dmul A I), !dofZ_small, V1, V2 by lia. cbn [xmul]. rewrite F1, F2. cbn [xsub]. exact F3.
  - rewrite B30. apply Rabs_le. lra.
Qed.

(** PSNR against the largest error: at least that of an error of this size everywhere, at most that of an error at one value alone. *)
Theorem psnr_bounds log10 R r1 m d ms n : log10_ok A I log10 -> (0 < n)%nat -> 0 < d -> vD r1 = Fin R -> vD m = Fin ms ->
  bpow radix2 (-1024) <= R <= bpow radix2 1024 -> bpow radix2 (-1022) <= ms -> ms < bpow radix2 1024 ->
  ms <= d * d * (1 + bpow radix2 (-20)) -> d * d * (1 - bpow radix2 (-20)) <= ms * INR n ->
  exists p, vD (dsub A (dmul A (dofZ A 20) (log10 r1)) (dmul A (dofZ A 10) (log10 m))) = Fin p /\
    20 * (ln (R / d) / ln 10) - bpow radix2 (-15) <= p <= 20 * (ln (R / d) / ln 10) + 10 * (ln (INR n) / ln 10) + bpow radix2 (-15).
Proof.
  intros HL Hn DP VR VM BR M1 M2 MU ML. pose proof (bpow_gt_0 radix2 (-1024)) as P0. pose proof (bpow_gt_0 radix2 (-1022)) as P1.
  destruct (psnr_value log10 R m r1 ms HL VR VM BR) as (p & Vp & Ep).
  { split; [eapply Rle_trans; [|exact M1]; apply bpow_le; lia|lra]. }
  exists p. split; [exact Vp|]. pose proof ln10_ge as L10.
  assert (N1 : 1 <= INR n) by (change 1 with (INR 1); apply le_INR; lia).
  assert (B20 : bpow radix2 (-20) = / 1048576) by reflexivity. assert (B30 : bpow radix2 (-30) = / 1073741824) by reflexivity. assert (B15 : bpow radix2 (-15) = / 32768) by reflexivity.
  rewrite B20 in *. rewrite B30 in Ep. rewrite B15. apply Rabs_le_inv in Ep.
  assert (LR : ln (R / d) = ln R - ln d) by (unfold Rdiv; rewrite ln_mult, ln_Rinv by (try apply Rinv_0_lt_compat; lra); ring).
  apply ln_mono in MU; [|lra]. rewrite !ln_mult in MU by nra.
  apply ln_mono in ML; [|apply Rmult_lt_0_compat; nra]. rewrite !ln_mult in ML by nra.
  pose proof (ln_up (/ 1048576) ltac:(lra)) as U. pose proof (ln_down (/ 1048576) ltac:(lra)) as W. rewrite LR. clear - Ep MU ML U W L10.
  set (e := / ln 10). assert (E : 0 <= e <= / 2) by (unfold e; split; [left; apply Rinv_0_lt_compat; lra|apply Rinv_le; lra]). unfold Rdiv in *. fold e in Ep |- *.
  assert (H1 : ln ms * e <= (2 * ln d + / 1048576) * e) by (apply Rmult_le_compat_r; lra).
  assert (H2 : (2 * ln d - 2 * / 1048576) * e <= (ln ms + ln (INR n)) * e) by (apply Rmult_le_compat_r; lra).
  set (x := ln R * e) in *. set (y := ln ms * e) in *. rewrite !Rmult_plus_distr_r in *. unfold Rminus in *. rewrite !Rmult_plus_distr_r in *.
  replace (- ln d * e) with (- (ln d * e)) by ring. replace (2 * ln d * e) with (2 * (ln d * e)) in * by ring. fold x.
  replace (- (2 * / 1048576) * e) with (- (2 * / 1048576 * e)) in * by ring. fold y in H2. set (t := ln d * e) in *. set (nn := ln (INR n) * e) in *.
  lra.
Qed.
End Laws.
