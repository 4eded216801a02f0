(** include/utils.hpp:51-106 verify(): the error report of the test programs.  Modelled: minimum, maximum, largest absolute error, largest
    point-wise relative error.  The sums, PSNR, NRMSE and the correlation are in VerifyStats.v. *)
From Coq Require Import Reals Lra Lia ZArith List Bool.
From Coq Require Import ZifyBool ZifyNat.
From Flocq Require Import Plus_error Relative.
From Flocq Require Import Core.Core IEEE754.BinarySingleNaN IEEE754.Binary IEEE754.Bits.
From Verif Require Import Base Arith Exact IEEE IEEELaws Api2D.
Import ListNotations.
Local Open Scope Z_scope.

Section Model.
Context (A : Arith).
Notation T := (T A).
Notation D := (D A).

Record report := { r_min : T; r_max : T; r_diff : T; r_pw : D }.

(** Lines 71-84: one round of the second loop.  fabs is the double one, so the quotient is a double. *)
Definition verify_step (r : report) (xy : T * T) : report :=
  let (x, y) := xy in
  let err := tabs A (tsub A y x) in
  let rel := ddiv A (t2d A err) (dabs A (t2d A x)) in
  {| r_max := if tlt A (r_max r) x then x else r_max r;
     r_min := if tlt A x (r_min r) then x else r_min r;
     r_diff := if tlt A (r_diff r) err then err else r_diff r;
     r_pw := if negb (teq A x (tofZ A 0)) && dlt A (dofZ A 1) (dabs A (t2d A x)) && dlt A (r_pw r) rel then rel else r_pw r |}.

(** Lines 54-57 and the loop; [None]: element 0 of an empty array is read, or an array is shorter than [num_elements]. *)
Definition verify (ori dec : list T) (num_elements : nat) : option report :=
  match ori, dec with
  | x0 :: _, y0 :: _ =>
      if (num_elements <=? length ori)%nat && (num_elements <=? length dec)%nat then
        Some (fold_left verify_step (combine (firstn num_elements ori) (firstn num_elements dec))
          {| r_max := x0; r_min := x0; r_diff := tabs A (tsub A y0 x0); r_pw := dofZ A 0 |})
      else None
  | _, _ => None
  end.
End Model.
Arguments r_min {A}. Arguments r_max {A}. Arguments r_diff {A}. Arguments r_pw {A}.

Section Laws.
Context (A : Arith) (I : ieee A).
Notation vT := (vT A I).
Notation vD := (vD A I).
Notation pT := (pT A I).
Notation eT := (eT A I).
Local Instance pT_gt : Prec_gt_0 pT := HpT A I.
Local Open Scope R_scope.
Local Notation rnd := (round radix2 (SpecFloat.fexp pT eT) ZnearestE).
Local Notation rnd64 := (round radix2 fexp64 ZnearestE).

(** The difference as the program computes it. *)
Definition diff_of (x y : T A) : T A := tabs A (tsub A y x).
Definition fin (x : T A) : Prop := exists a, vT x = Fin a.

(** Largest element, by the comparison of the program. *)
Lemma step_diff l : forall r, fin (r_diff r) -> (forall x y, In (x, y) l -> fin (diff_of x y)) ->
  let r' := fold_left (verify_step A) l r in
  exists m, vT (r_diff r') = Fin m /\ (forall a, vT (r_diff r) = Fin a -> a <= m) /\
    (forall x y a, In (x, y) l -> vT (diff_of x y) = Fin a -> a <= m) /\
    (vT (r_diff r) = Fin m \/ exists x y, In (x, y) l /\ vT (diff_of x y) = Fin m).
Proof.
  induction l as [|[x y] l IH]; intros r [a Ha] HF r'; cbn [fold_left] in *.
  - exists a. subst r'. split; [auto|]. split; [intros b Hb; assert (a = b) by congruence; lra|]. split; [intros ? ? ? []|auto].
  - destruct (HF x y) as [e He]; [left; reflexivity|].
    set (r1 := verify_step A r (x, y)) in *.
    assert (E1 : exists m1, vT (r_diff r1) = Fin m1 /\ a <= m1 /\ e <= m1 /\ (m1 = a \/ m1 = e)).
    { subst r1. cbn [verify_step r_diff]. change (tabs A (tsub A y x)) with (diff_of x y). rewrite (v_tlt A I), Ha, He.
      destruct (xlt (Fin a) (Fin e)) eqn:E.
      - apply xlt_fin in E. exists e. rewrite He. repeat split; auto; lra.
      - apply xlt_fin_false in E. exists a. rewrite Ha. repeat split; auto; lra. }
    destruct E1 as (m1 & V1 & L1 & L2 & C1). destruct (IH r1) as (m & V & H1 & H2 & H3); [exists m1; auto|intros; apply HF; right; auto|].
    exists m. split; [exact V|]. specialize (H1 _ V1). split; [intros b Hb; assert (a = b) by congruence; lra|]. split.
    + intros x' y' b [E|HI] Hb; [|eauto]. injection E as <- <-. assert (e = b) by congruence. lra.
    + destruct H3 as [H3|(x' & y' & HI & H3)]; [|right; exists x', y'; split; [right; auto|auto]].
      assert (m1 = m) by congruence. destruct C1 as [->| ->]; [left; congruence|right; exists x, y; split; [left; reflexivity|congruence]].
Qed.

Lemma step_max l : forall r, fin (r_max r) -> (forall x y, In (x, y) l -> fin x) ->
  let r' := fold_left (verify_step A) l r in
  exists m, vT (r_max r') = Fin m /\ (forall x y a, In (x, y) l -> vT x = Fin a -> a <= m) /\
    (forall a, vT (r_max r) = Fin a -> a <= m) /\ (r_max r' = r_max r \/ exists x y, In (x, y) l /\ r_max r' = x).
Proof.
  induction l as [|[x y] l IH]; intros r [a Ha] HF r'; cbn [fold_left] in *.
  - exists a. subst r'. split; [auto|]. split; [intros ? ? ? []|]. split; [intros b Hb; assert (a = b) by congruence; lra|auto].
  - destruct (HF x y) as [e He]; [left; reflexivity|]. set (r1 := verify_step A r (x, y)) in *.
    assert (E1 : exists m1, vT (r_max r1) = Fin m1 /\ a <= m1 /\ e <= m1 /\ (r_max r1 = r_max r \/ r_max r1 = x)).
    { subst r1. cbn [verify_step r_max]. rewrite (v_tlt A I), Ha, He. destruct (xlt (Fin a) (Fin e)) eqn:E.
      - apply xlt_fin in E. exists e. rewrite He. repeat split; auto; lra.
      - apply xlt_fin_false in E. exists a. rewrite Ha. repeat split; auto; lra. }
    destruct E1 as (m1 & V1 & L1 & L2 & C1). destruct (IH r1) as (m & V & H1 & H2 & H3); [exists m1; auto|intros x' y' HI; apply (HF x' y'); right; auto|].
    exists m. split; [exact V|]. specialize (H2 _ V1). split; [|split].
    + intros x' y' b [E|HI] Hb; [|eauto]. injection E as <- <-. assert (e = b) by congruence. lra.
    + intros b Hb; assert (a = b) by congruence; lra.
    + subst r'. destruct H3 as [H3|(x' & y' & HI & H3)]; [|right; exists x', y'; split; [right; auto|auto]].
      rewrite H3. destruct C1 as [->| ->]; [auto|right; exists x, y; split; [left; reflexivity|reflexivity]].
Qed.

Lemma step_min l : forall r, fin (r_min r) -> (forall x y, In (x, y) l -> fin x) ->
  let r' := fold_left (verify_step A) l r in
  exists m, vT (r_min r') = Fin m /\ (forall x y a, In (x, y) l -> vT x = Fin a -> m <= a) /\
    (forall a, vT (r_min r) = Fin a -> m <= a) /\ (r_min r' = r_min r \/ exists x y, In (x, y) l /\ r_min r' = x).
Proof.
  induction l as [|[x y] l IH]; intros r [a Ha] HF r'; cbn [fold_left] in *.
  - exists a. subst r'. split; [auto|]. split; [intros ? ? ? []|]. split; [intros b Hb; assert (a = b) by congruence; lra|auto].
  - destruct (HF x y) as [e He]; [left; reflexivity|]. set (r1 := verify_step A r (x, y)) in *.
    assert (E1 : exists m1, vT (r_min r1) = Fin m1 /\ m1 <= a /\ m1 <= e /\ (r_min r1 = r_min r \/ r_min r1 = x)).
    { subst r1. cbn [verify_step r_min]. rewrite (v_tlt A I), Ha, He. destruct (xlt (Fin e) (Fin a)) eqn:E.
      - apply xlt_fin in E. exists e. rewrite He. repeat split; auto; lra.
      - apply xlt_fin_false in E. exists a. rewrite Ha. repeat split; auto; lra. }
    destruct E1 as (m1 & V1 & L1 & L2 & C1). destruct (IH r1) as (m & V & H1 & H2 & H3); [exists m1; auto|intros x' y' HI; apply (HF x' y'); right; auto|].
    exists m. split; [exact V|]. specialize (H2 _ V1). split; [|split].
    + intros x' y' b [E|HI] Hb; [|eauto]. injection E as <- <-. assert (e = b) by congruence. lra.
    + intros b Hb; assert (a = b) by congruence; lra.
    + subst r'. destruct H3 as [H3|(x' & y' & HI & H3)]; [|right; exists x', y'; split; [right; auto|auto]].
      rewrite H3. destruct C1 as [->| ->]; [auto|right; exists x, y; split; [left; reflexivity|reflexivity]].
Qed.

(** The quotient of an error and a value of magnitude above 1. *)
Lemma step_pw l : forall r, (exists q, vD (r_pw r) = Fin q) -> (forall x y, In (x, y) l -> fin x /\ fin (diff_of x y)) ->
  let r' := fold_left (verify_step A) l r in
  exists m, vD (r_pw r') = Fin m /\ (forall q, vD (r_pw r) = Fin q -> q <= m) /\
    (forall x y a e, In (x, y) l -> vT x = Fin a -> vT (diff_of x y) = Fin e -> 1 < Rabs a -> rnd64 (e / Rabs a) <= m) /\
    (vD (r_pw r) = Fin m \/ exists x y a e, In (x, y) l /\ vT x = Fin a /\ vT (diff_of x y) = Fin e /\ 1 < Rabs a /\ m = rnd64 (e / Rabs a)).
Proof.
  induction l as [|[x y] l IH]; intros r [q Hq] HF r'; cbn [fold_left] in *.
  - exists q. subst r'. split; [auto|]. split; [intros b Hb; assert (q = b) by congruence; lra|]. split; [intros ? ? ? ? []|auto].
  - destruct (HF x y) as [[a Ha] [e He]]; [left; reflexivity|]. set (r1 := verify_step A r (x, y)) in *.
    assert (EX : vD (dabs A (t2d A x)) = Fin (Rabs a)) by (rewrite (v_dabs A I), (v_t2d A I), Ha; reflexivity).
    assert (EE : vD (t2d A (diff_of x y)) = Fin e) by (rewrite (v_t2d A I); auto).
    assert (E1 : vD (dofZ A 1) = Fin 1).
    { rewrite (v_dofZ A I). apply rndx_fin; [apply (fmt_IZR 53 1024); first [reflexivity|lia]|]. rewrite Rabs_R1. change 1 with (bpow radix2 0). apply bpow_lt. lia. }
    assert (E0 : vT (tofZ A 0) = Fin 0).
    { rewrite (v_tofZ A I). apply rndx_fin; [apply generic_format_0|]. rewrite Rabs_R0. apply bpow_gt_0. }
    assert (Hr : 1 < Rabs a -> vD (ddiv A (t2d A (diff_of x y)) (dabs A (t2d A x))) = Fin (rnd64 (e / Rabs a))).
    { intros H. rewrite (v_ddiv A I), EE, EX by (rewrite EX; intros F; injection F as F; lra).
      rewrite xdiv_fin by lra. cbn [rndx]. apply sat_fin.
      destruct (vD_fmt A I _ _ EE) as [G B]. apply Rle_lt_trans with (Rabs e); [|exact B].
      apply (rnd_bound 53 1024 eq_refl); [apply generic_format_abs; exact G|].
      unfold Rdiv. rewrite Rabs_mult, (Rabs_pos_eq (/ Rabs a)) by (left; apply Rinv_0_lt_compat; lra).
      rewrite <- (Rmult_1_r (Rabs e)) at 2. apply Rmult_le_compat_l; [apply Rabs_pos|]. rewrite <- Rinv_1. apply Rinv_le; lra. }
    assert (E2 : exists m1, vD (r_pw r1) = Fin m1 /\ q <= m1 /\ (1 < Rabs a -> rnd64 (e / Rabs a) <= m1) /\
                   (m1 = q \/ 1 < Rabs a /\ m1 = rnd64 (e / Rabs a))).
    { subst r1. cbn [verify_step r_pw]. change (tabs A (tsub A y x)) with (diff_of x y). rewrite (v_teq A I), !(v_dlt A I), E0, E1, EX, Ha, Hq.
      destruct (Rlt_dec 1 (Rabs a)) as [H|H].
      - rewrite (Hr H). replace (xeq (Fin a) (Fin 0)) with false.
        2:{ cbn. symmetry. apply Req_bool_false. intros ->. rewrite Rabs_R0 in H. lra. }
        replace (xlt (Fin 1) (Fin (Rabs a))) with true by (symmetry; apply xlt_fin; auto). cbn [negb andb].
        destruct (xlt (Fin q) _) eqn:E.
        + apply xlt_fin in E. exists (rnd64 (e / Rabs a)). rewrite (Hr H). repeat split; auto; lra.
        + apply xlt_fin_false in E. exists q. rewrite Hq. repeat split; auto; lra.
      - replace (xlt (Fin 1) (Fin (Rabs a))) with false by (symmetry; apply xlt_fin_false; lra).
        rewrite andb_false_r. cbn [andb]. exists q. rewrite Hq. repeat split; auto; lra. }
    destruct E2 as (m1 & V1 & L1 & L2 & C1). destruct (IH r1) as (m & V & H1 & H2 & H3); [exists m1; auto|intros x' y' HI; apply (HF x' y'); right; auto|].
    exists m. split; [exact V|]. specialize (H1 _ V1). split; [intros b Hb; assert (q = b) by congruence; lra|]. split.
    + intros x' y' a' e' [E|HI] Va Ve HA; [|eauto]. injection E as <- <-.
      assert (a = a') by congruence. assert (e = e') by congruence. subst a' e'. specialize (L2 HA). lra.
    + destruct H3 as [H3|(x' & y' & a' & e' & HI & H3)]; [|right; exists x', y', a', e'; split; [right; auto|auto]].
      assert (m1 = m) by congruence. destruct C1 as [->|[HA ->]]; [left; congruence|right; exists x, y, a, e]. split; [left; reflexivity|]. repeat split; auto.
Qed.

(** A subtraction is off by at most half a unit in the last place, and not at all where the result is tiny. *)
Lemma sub_err a b : generic_format radix2 (SpecFloat.fexp pT eT) a -> generic_format radix2 (SpecFloat.fexp pT eT) b ->
  Rabs (rnd (a - b) - (a - b)) <= bpow radix2 (- pT) * Rabs (a - b) /\ Rabs (rnd (a - b) - (a - b)) <= bpow radix2 (- pT) * Rabs (rnd (a - b)).
Proof.
  intros Ga Gb. apply generic_format_opp in Gb.
  assert (U : Relative.u_ro radix2 pT = bpow radix2 (- pT)).
  { unfold Relative.u_ro. rewrite bpow_plus. change (bpow radix2 1) with 2. lra. }
  pose proof (bpow_gt_0 radix2 (- pT)) as P. unfold Rminus at 2 4 6 8. split.
  - destruct (FLT_plus_error_N_ex radix2 (3 - eT - pT) pT (fun z => negb (Z.even z)) a (- b) Ga Gb) as (eps & He & E).
    unfold Rminus. change (round radix2 (SpecFloat.fexp pT eT) ZnearestE) with (round radix2 (FLT_exp (3 - eT - pT) pT) (Znearest (fun z => negb (Z.even z)))).
    rewrite E. replace ((a + - b) * (1 + eps) + - (a + - b)) with (eps * (a + - b)) by ring. rewrite Rabs_mult.
    apply Rmult_le_compat_r; [apply Rabs_pos|]. eapply Rle_trans; [exact He|]. rewrite U.
    apply Rle_trans with (bpow radix2 (- pT) * / 1); [|lra]. apply Rmult_le_compat_l; [lra|]. apply Rinv_le; lra.
  - destruct (FLT_plus_error_N_round_ex radix2 (3 - eT - pT) pT (fun z => negb (Z.even z)) a (- b) Ga Gb) as (eps & He & E).
    unfold Rminus. change (round radix2 (SpecFloat.fexp pT eT) ZnearestE) with (round radix2 (FLT_exp (3 - eT - pT) pT) (Znearest (fun z => negb (Z.even z)))).
    set (z := round _ _ _ (a + - b)) in *. rewrite E. replace (z + - (z * (1 + eps))) with (- eps * z) by ring. rewrite Rabs_mult, Rabs_Ropp.
    apply Rmult_le_compat_r; [apply Rabs_pos|]. rewrite <- U. exact He.
Qed.

Lemma diff_val x y a b k : (k + 1 < eT)%Z -> (3 - eT - pT <= k + 1)%Z -> vT x = Fin a -> vT y = Fin b -> Rabs a <= bpow radix2 k -> Rabs b <= bpow radix2 k ->
  vT (diff_of x y) = Fin (Rabs (rnd (b - a))).
Proof.
  intros K1 K2 Ha Hb Ba Bb. unfold diff_of. rewrite (v_tabs A I), (v_tsub A I), Ha, Hb. cbn [xsub rndx].
  rewrite sat_fin; [reflexivity|]. apply Rle_lt_trans with (bpow radix2 (k + 1)); [|apply bpow_lt; lia].
  apply (rnd_bound pT eT (HpT A I)); [apply (fmt_bpow pT eT (HpT A I)); lia|].
  rewrite bpow_plus. change (bpow radix2 1) with 2. apply Rabs_le. apply Rabs_le_inv in Ba, Bb. lra.
Qed.

Lemma quotient_back e a m d : 0 <= e -> 0 <= d -> d <= e * (1 + bpow radix2 (- pT)) -> 1 < a -> rnd64 (e / a) <= m ->
  d / a <= m * (1 + bpow radix2 (2 - pT)) + bpow radix2 (-1074).
Proof.
  intros He Hd H Ha Hm.
  assert (Q : 0 <= e / a) by (apply Rmult_le_pos; [lra|left; apply Rinv_0_lt_compat; lra]).
  assert (M0 : 0 <= m).
  { eapply Rle_trans; [|exact Hm]. rewrite <- (rnd_0 53 1024). apply (rnd_le 53 1024 eq_refl). exact Q. }
  assert (QX : e / a <= m * (1 + bpow radix2 (-53)) + bpow radix2 (-1075) * (1 + bpow radix2 (-53))).
  { pose proof (relative_error_N_FLT'_ex radix2 (-1074) 53 eq_refl (fun n => negb (Z.even n)) (e / a)) as (ep & et & H1 & H2 & _ & E).
    change (round radix2 (FLT_exp (-1074) 53) (Znearest (fun n => negb (Z.even n))) (e / a)) with (rnd64 (e / a)) in E.
    assert (U : Relative.u_ro radix2 53 = bpow radix2 (-53)).
    { unfold Relative.u_ro. change (-53)%Z with (- (53) + 1 + -1)%Z. rewrite (bpow_plus radix2 (- (53) + 1)). change (bpow radix2 (-1)) with (/ 2). ring. }
    rewrite U in H1. set (u := bpow radix2 (-53)) in *. assert (U0 : 0 < u) by apply bpow_gt_0.
    assert (HB : / 2 * bpow radix2 (-1074) = bpow radix2 (-1075)).
    { change (-1075)%Z with (-1074 + -1)%Z. rewrite bpow_plus. change (bpow radix2 (-1)) with (/ 2). ring. }
    rewrite HB in H2. apply Rabs_le_inv in H1, H2. set (t := bpow radix2 (-1075)) in *.
    assert (E2 : e / a * (1 + ep) <= m + t) by lra.
    assert (E3 : e / a * / (1 + u) <= m + t).
    { eapply Rle_trans; [|exact E2]. apply Rmult_le_compat_l; [exact Q|]. replace (/ (1 + u)) with (1 - u / (1 + u)) by (field; lra). lra. }
    apply Rmult_le_compat_r with (r := 1 + u) in E3; [|lra]. rewrite Rmult_assoc, Rinv_l, Rmult_1_r in E3 by lra. lra. }
  apply Rle_trans with (e / a * (1 + bpow radix2 (- pT))).
  { unfold Rdiv. rewrite (Rmult_comm e), Rmult_assoc, (Rmult_comm d). apply Rmult_le_compat_l; [left; apply Rinv_0_lt_compat; lra|exact H]. }
  pose proof (HpD A I) as HP. fold pT in HP.
  assert (P1 : bpow radix2 (-53) <= bpow radix2 (- pT)) by (apply bpow_le; lia).
  assert (P2 : 0 < bpow radix2 (-53)) by apply bpow_gt_0.
  assert (P3 : bpow radix2 (- pT) <= / 4) by (change (/ 4) with (bpow radix2 (-2)); apply bpow_le; lia).
  assert (P4 : bpow radix2 (2 - pT) = 4 * bpow radix2 (- pT)) by (unfold Z.sub; rewrite bpow_plus; reflexivity).
  assert (P5 : bpow radix2 (-1074) = 2 * bpow radix2 (-1075)) by (change (-1074)%Z with (-1075 + 1)%Z; rewrite bpow_plus; change (bpow radix2 1) with 2; ring).
  assert (P6 : 0 < bpow radix2 (-1075)) by apply bpow_gt_0. rewrite P4, P5.
  set (v := bpow radix2 (- pT)) in *. set (u := bpow radix2 (-53)) in *. set (t := bpow radix2 (-1075)) in *. clearbody v u t.
  assert (W : (1 + u) * (1 + v) <= 1 + 4 * v).
  { assert (u * v <= v * / 4) by (rewrite (Rmult_comm u); apply Rmult_le_compat_l; lra). lra. }
  apply Rle_trans with ((m * (1 + u) + t * (1 + u)) * (1 + v)); [apply Rmult_le_compat_r; lra|].
  replace ((m * (1 + u) + t * (1 + u)) * (1 + v)) with (m * ((1 + u) * (1 + v)) + t * ((1 + u) * (1 + v))) by ring.
  apply Rplus_le_compat; [apply Rmult_le_compat_l; lra|]. rewrite (Rmult_comm 2). apply Rmult_le_compat_l; lra.
Qed.

Lemma quotient_to e a d : 0 <= d -> 0 <= e <= d * (1 + bpow radix2 (- pT)) -> 1 < a ->
  rnd64 (e / a) <= d / a * (1 + bpow radix2 (2 - pT)) + bpow radix2 (-1074).
Proof.
  intros Hd [He H] Ha. assert (IA : 0 < / a) by (apply Rinv_0_lt_compat; lra).
  assert (Q : 0 <= e / a) by (apply Rmult_le_pos; lra). assert (Qd : 0 <= d / a) by (apply Rmult_le_pos; lra).
  assert (HQ : e / a <= d / a * (1 + bpow radix2 (- pT))).
  { unfold Rdiv. rewrite (Rmult_comm d), Rmult_assoc, (Rmult_comm e). apply Rmult_le_compat_l; lra. }
  pose proof (relative_error_N_FLT'_ex radix2 (-1074) 53 eq_refl (fun n => negb (Z.even n)) (e / a)) as (ep & et & H1 & H2 & _ & E).
  change (round radix2 (FLT_exp (-1074) 53) (Znearest (fun n => negb (Z.even n))) (e / a)) with (rnd64 (e / a)) in E. rewrite E.
  assert (U : Relative.u_ro radix2 53 = bpow radix2 (-53)).
  { unfold Relative.u_ro. change (-53)%Z with (- (53) + 1 + -1)%Z. rewrite (bpow_plus radix2 (- (53) + 1)). change (bpow radix2 (-1)) with (/ 2). ring. }
  rewrite U in H1. set (u := bpow radix2 (-53)) in *. assert (U0 : 0 < u) by apply bpow_gt_0.
  assert (U1 : u / (1 + u) <= u).
  { unfold Rdiv. rewrite <- (Rmult_1_r u) at 3. apply Rmult_le_compat_l; [lra|]. rewrite <- Rinv_1. apply Rinv_le; lra. }
  apply Rabs_le_inv in H1, H2.
  pose proof (HpD A I) as HP. fold pT in HP.
  assert (P1 : u <= bpow radix2 (- pT)) by (apply bpow_le; lia).
  assert (P3 : bpow radix2 (- pT) <= / 4) by (change (/ 4) with (bpow radix2 (-2)); apply bpow_le; lia).
  assert (P4 : bpow radix2 (2 - pT) = 4 * bpow radix2 (- pT)) by (unfold Z.sub; rewrite bpow_plus; reflexivity).
  pose proof (bpow_gt_0 radix2 (-1074)) as P6. rewrite P4.
  set (v := bpow radix2 (- pT)) in *. set (t := bpow radix2 (-1074)) in *. clearbody v u t.
  assert (W : (1 + u) * (1 + v) <= 1 + 4 * v).
  { assert (u * v <= v * / 4) by (rewrite (Rmult_comm u); apply Rmult_le_compat_l; lra). lra. }
  apply Rplus_le_compat; [|lra].
  apply Rle_trans with (d / a * (1 + v) * (1 + u)); [apply Rmult_le_compat; lra|].
  rewrite Rmult_assoc, (Rmult_comm (1 + v)). apply Rmult_le_compat_l; lra.
Qed.

Lemma in_combine_nth {X Y} (l1 : list X) (l2 : list Y) n : (n <= length l1)%nat -> (n <= length l2)%nat -> forall x y,
  In (x, y) (combine (firstn n l1) (firstn n l2)) <-> exists i, (i < n)%nat /\ nth_error l1 i = Some x /\ nth_error l2 i = Some y.
Proof.
  revert l1 l2. induction n as [|n IH]; intros l1 l2 H1 H2 x y.
  - cbn. split; [tauto|intros (i & ? & _); lia].
  - destruct l1 as [|a l1], l2 as [|b l2]; cbn [length] in *; try lia. cbn [firstn combine In]. rewrite IH by lia. split.
    + intros [E|(i & Hi & E)]; [injection E as <- <-; exists 0%nat; repeat split; auto; lia|exists (S i); split; [lia|exact E]].
    + intros ([|i] & Hi & E1 & E2); [left; cbn in E1, E2; congruence|right; exists i; split; [lia|auto]].
Qed.

Theorem verify_report ori dec n k : (k + 1 < eT)%Z -> (3 - eT - pT <= k + 1)%Z ->
  (0 < n)%nat -> (n <= length ori)%nat -> (n <= length dec)%nat -> (forall x, In x ori \/ In x dec -> exists a, vT x = Fin a /\ Rabs a <= bpow radix2 k) ->
  exists r d p lo hi, verify A ori dec n = Some r /\ vT (r_diff r) = Fin d /\ vD (r_pw r) = Fin p /\ vT (r_min r) = Fin lo /\ vT (r_max r) = Fin hi /\
    (forall i x y a b, (i < n)%nat -> nth_error ori i = Some x -> nth_error dec i = Some y -> vT x = Fin a -> vT y = Fin b ->
       Rabs (b - a) <= d * (1 + bpow radix2 (- pT)) /\ lo <= a <= hi /\
       (1 < Rabs a -> Rabs (b - a) / Rabs a <= p * (1 + bpow radix2 (2 - pT)) + bpow radix2 (-1074))) /\
    (exists i x y a b, (i < n)%nat /\ nth_error ori i = Some x /\ nth_error dec i = Some y /\ vT x = Fin a /\ vT y = Fin b /\
       d <= Rabs (b - a) * (1 + bpow radix2 (- pT))) /\
    (exists i, (i < n)%nat /\ nth_error ori i = Some (r_min r)) /\ (exists i, (i < n)%nat /\ nth_error ori i = Some (r_max r)) /\
    (p = 0 \/ exists i x y a b, (i < n)%nat /\ nth_error ori i = Some x /\ nth_error dec i = Some y /\ vT x = Fin a /\ vT y = Fin b /\
       1 < Rabs a /\ p <= Rabs (b - a) / Rabs a * (1 + bpow radix2 (2 - pT)) + bpow radix2 (-1074)).
Proof.
  intros K1 K2 Hn L1 L2 HF. destruct ori as [|x0 ori'] eqn:EO; [cbn in L1; lia|]. destruct dec as [|y0 dec'] eqn:ED; [cbn in L2; lia|].
  rewrite <- EO, <- ED in *. set (l := combine (firstn n ori) (firstn n dec)).
  set (r0 := {| r_max := x0; r_min := x0; r_diff := diff_of x0 y0; r_pw := dofZ A 0 |}).
  assert (I0 : In (x0, y0) l).
  { unfold l. apply in_combine_nth; auto. exists 0%nat. rewrite EO, ED. auto. }
  assert (HL : forall x y, In (x, y) l -> exists a b, vT x = Fin a /\ vT y = Fin b /\ Rabs a <= bpow radix2 k /\ Rabs b <= bpow radix2 k).
  { intros x y HI. apply in_combine_nth in HI; auto. destruct HI as (i & _ & E1 & E2). apply nth_error_In in E1, E2.
    destruct (HF x) as (a & Ha & Ba); auto. destruct (HF y) as (b & Hb & Bb); auto. exists a, b. auto. }
  assert (HD : forall x y, In (x, y) l -> fin (diff_of x y)).
  { intros x y HI. destruct (HL x y HI) as (a & b & Ha & Hb & Ba & Bb). eexists. apply (diff_val x y a b k); auto. }
  assert (HX : forall x y, In (x, y) l -> fin x) by (intros x y HI; destruct (HL x y HI) as (a & b & Ha & _); exists a; auto).
  destruct (step_diff l r0 (HD _ _ I0) HD) as (d & Vd & _ & D1 & D2).
  destruct (step_max l r0 (HX _ _ I0) HX) as (hi & Vh & M1 & _ & M2).
  destruct (step_min l r0 (HX _ _ I0) HX) as (lo & Vl & N1 & _ & N2).
  assert (E0 : vD (r_pw r0) = Fin 0).
  { cbn [r0 r_pw]. rewrite (v_dofZ A I). apply rndx_fin; [apply generic_format_0|]. rewrite Rabs_R0. apply bpow_gt_0. }
  destruct (step_pw l r0) as (p & Vp & _ & P1 & P2); [exists 0; exact E0|intros x y HI; split; [apply (HX x y HI)|auto]|].
  exists (fold_left (verify_step A) l r0), d, p, lo, hi. split; [|split; [exact Vd|split; [exact Vp|split; [exact Vl|split; [exact Vh|]]]]].
  { unfold verify. rewrite EO, ED, <- EO, <- ED. replace ((n <=? length ori)%nat && (n <=? length dec)%nat) with true by lia. reflexivity. }
  assert (FM : forall x y a b, In (x, y) l -> vT x = Fin a -> vT y = Fin b -> generic_format radix2 (SpecFloat.fexp pT eT) a /\ generic_format radix2 (SpecFloat.fexp pT eT) b /\
     vT (diff_of x y) = Fin (Rabs (rnd (b - a)))).
  { intros x y a b HI Ha Hb. split; [apply (vT_fmt A I x); auto|]. split; [apply (vT_fmt A I y); auto|].
    destruct (HL x y HI) as (a' & b' & Ha' & Hb' & Ba & Bb). assert (a' = a) by congruence. assert (b' = b) by congruence. subst. apply (diff_val x y a b k); auto. }
  assert (BK : forall a b, generic_format radix2 (SpecFloat.fexp pT eT) a -> generic_format radix2 (SpecFloat.fexp pT eT) b ->
     Rabs (b - a) <= Rabs (rnd (b - a)) * (1 + bpow radix2 (- pT)) /\ Rabs (rnd (b - a)) <= Rabs (b - a) * (1 + bpow radix2 (- pT))).
  { intros a b Ga Gb. destruct (sub_err b a Gb Ga) as [S1 S2]. set (z := rnd (b - a)) in *. set (w := b - a) in *.
    pose proof (Rabs_triang (z - w) w) as T1. pose proof (Rabs_triang (w - z) z) as T2. rewrite <- (Rabs_Ropp (w - z)) in T2.
    replace (z - w + w) with z in T1 by ring. replace (w - z + z) with w in T2 by ring. replace (- (w - z)) with (z - w) in T2 by ring. lra. }
  split; [|split; [|split; [|split]]].
  - intros i x y a b Hi Ex Ey Ha Hb. assert (HI : In (x, y) l) by (apply in_combine_nth; eauto).
    destruct (FM x y a b HI Ha Hb) as (Ga & Gb & Ve). destruct (BK a b Ga Gb) as [B1 B2]. pose proof (D1 x y _ HI Ve) as Hd.
    pose proof (bpow_gt_0 radix2 (- pT)) as Hpp. split; [|split].
    + eapply Rle_trans; [exact B1|]. apply Rmult_le_compat_r; lra.
    + split; [eapply N1; eauto|eapply M1; eauto].
    + intros HA. apply (quotient_back (Rabs (rnd (b - a)))); auto using Rabs_pos. eapply P1; eauto.
  - assert (W : exists x y, In (x, y) l /\ vT (diff_of x y) = Fin d) by (destruct D2 as [D2|D2]; [exists x0, y0; auto|exact D2]).
    destruct W as (x & y & HI & Ve). destruct (HL x y HI) as (a & b & Ha & Hb & _). destruct (FM x y a b HI Ha Hb) as (Ga & Gb & Ve').
    destruct (BK a b Ga Gb) as [B1 B2]. assert (d = Rabs (rnd (b - a))) by congruence. subst d.
    pose proof HI as HI'. apply in_combine_nth in HI'; auto. destruct HI' as (i & Hi & E1 & E2). exists i, x, y, a, b. auto 10.
  - destruct N2 as [N2|(x & y & HI & N2)].
    + rewrite N2. exists 0%nat. rewrite EO. auto.
    + rewrite N2. apply in_combine_nth in HI; auto. destruct HI as (i & Hi & E1 & _). eauto.
  - destruct M2 as [M2|(x & y & HI & M2)].
    + rewrite M2. exists 0%nat. rewrite EO. auto.
    + rewrite M2. apply in_combine_nth in HI; auto. destruct HI as (i & Hi & E1 & _). eauto.
  - destruct P2 as [P2|(x & y & a & e & HI & Va & Ve & HA & ->)]; [left; congruence|right].
    destruct (HL x y HI) as (a' & b & Ha' & Hb & _). assert (a' = a) by congruence. subst a'.
    destruct (FM x y a b HI Va Hb) as (Ga & Gb & Ve'). destruct (BK a b Ga Gb) as [B1 B2]. assert (e = Rabs (rnd (b - a))) by congruence. subst e.
    apply in_combine_nth in HI; auto. destruct HI as (i & Hi & E1 & E2). exists i, x, y, a, b. repeat split; auto.
    apply quotient_to; auto using Rabs_pos.
Qed.
End Laws.
