(** Critical points of a linear field on a triangle, and soundness of the derived bounds in exact arithmetic. *)
From Coq Require Import Reals Lra Psatz ZArith List Bool.
From Flocq Require Import Core.Raux.
From Verif Require Import Base Arith Mesh2D Derive2D Exact.
Import ListNotations.
Local Open Scope R_scope.

(** Specification: the linear interpolant of the three vectors vanishes somewhere in the closed triangle. *)
Definition has_cp (w0 w1 w2 : R * R) : Prop :=
  exists l0 l1 l2, 0 <= l0 /\ 0 <= l1 /\ 0 <= l2 /\ l0 + l1 + l2 = 1 /\
    l0 * fst w0 + l1 * fst w1 + l2 * fst w2 = 0 /\ l0 * snd w0 + l1 * snd w1 + l2 * snd w2 = 0.

Lemma has_cp_swap a b c : has_cp a b c -> has_cp b a c.
Proof. intros (x & y & z & H). exists y, x, z. intuition lra. Qed.
Lemma has_cp_rot a b c : has_cp a b c -> has_cp b c a.
Proof. intros (x & y & z & H). exists y, z, x. intuition lra. Qed.

(** The three minors and their sum as computed by the code. *)
Definition mM0 (w0 w1 w2 : R * R) := fst w2 * snd w0 - fst w0 * snd w2.
Definition mM1 (w0 w1 w2 : R * R) := fst w1 * snd w2 - fst w2 * snd w1.
Definition mM2 (w0 w1 w2 : R * R) := fst w0 * snd w1 - fst w1 * snd w0.
Definition mM w0 w1 w2 := mM0 w0 w1 w2 + mM1 w0 w1 w2 + mM2 w0 w1 w2.

Lemma cp_minors w0 w1 w2 l0 l1 l2 :
  l0 + l1 + l2 = 1 ->
  l0 * fst w0 + l1 * fst w1 + l2 * fst w2 = 0 -> l0 * snd w0 + l1 * snd w1 + l2 * snd w2 = 0 ->
  mM0 w0 w1 w2 = l1 * mM w0 w1 w2 /\ mM1 w0 w1 w2 = l0 * mM w0 w1 w2 /\ mM2 w0 w1 w2 = l2 * mM w0 w1 w2.
Proof.
  destruct w0 as [u0 v0], w1 as [u1 v1], w2 as [u2 v2]. unfold mM, mM0, mM1, mM2. cbn [fst snd].
  intros S HU HV.
  assert (E1 : l1 * (u0 * v1 - u1 * v0) = l2 * (u2 * v0 - u0 * v2)).
  { assert (u0 * (l0 * v0 + l1 * v1 + l2 * v2) - v0 * (l0 * u0 + l1 * u1 + l2 * u2) = 0) by (rewrite HU, HV; ring). lra. }
  assert (E2 : l0 * (u0 * v1 - u1 * v0) = l2 * (u1 * v2 - u2 * v1)).
  { assert (v1 * (l0 * u0 + l1 * u1 + l2 * u2) - u1 * (l0 * v0 + l1 * v1 + l2 * v2) = 0) by (rewrite HU, HV; ring). lra. }
  assert (E3 : l0 * (u2 * v0 - u0 * v2) = l1 * (u1 * v2 - u2 * v1)).
  { assert (u2 * (l0 * v0 + l1 * v1 + l2 * v2) - v2 * (l0 * u0 + l1 * u1 + l2 * u2) = 0) by (rewrite HU, HV; ring). lra. }
  assert (l2 = 1 - l0 - l1) by lra. subst l2. repeat split; lra.
Qed.

(** Two strictly opposed minors exclude a critical point. *)
Lemma no_cp0 w0 w1 w2 : mM0 w0 w1 w2 * (mM1 w0 w1 w2 + mM2 w0 w1 w2) < 0 -> ~ has_cp w0 w1 w2.
Proof.
  intros H (l0 & l1 & l2 & P0 & P1 & P2 & S & HU & HV).
  destruct (cp_minors _ _ _ _ _ _ S HU HV) as (E0 & E1 & E2). rewrite E0, E1, E2 in H.
  replace (l1 * mM w0 w1 w2 * (l0 * mM w0 w1 w2 + l2 * mM w0 w1 w2)) with
    (l1 * (l0 + l2) * (mM w0 w1 w2 * mM w0 w1 w2)) in H by ring.
  assert (0 <= l1 * (l0 + l2)) by (apply Rmult_le_pos; lra).
  assert (0 <= mM w0 w1 w2 * mM w0 w1 w2) by nra. nra.
Qed.
Lemma no_cp1 w0 w1 w2 : mM1 w0 w1 w2 * (mM0 w0 w1 w2 + mM2 w0 w1 w2) < 0 -> ~ has_cp w0 w1 w2.
Proof.
  intros H (l0 & l1 & l2 & P0 & P1 & P2 & S & HU & HV).
  destruct (cp_minors _ _ _ _ _ _ S HU HV) as (E0 & E1 & E2). rewrite E0, E1, E2 in H.
  replace (l0 * mM w0 w1 w2 * (l1 * mM w0 w1 w2 + l2 * mM w0 w1 w2)) with
    (l0 * (l1 + l2) * (mM w0 w1 w2 * mM w0 w1 w2)) in H by ring.
  assert (0 <= l0 * (l1 + l2)) by (apply Rmult_le_pos; lra).
  assert (0 <= mM w0 w1 w2 * mM w0 w1 w2) by nra. nra.
Qed.
Lemma no_cp2 w0 w1 w2 : mM2 w0 w1 w2 * (mM0 w0 w1 w2 + mM1 w0 w1 w2) < 0 -> ~ has_cp w0 w1 w2.
Proof.
  intros H (l0 & l1 & l2 & P0 & P1 & P2 & S & HU & HV).
  destruct (cp_minors _ _ _ _ _ _ S HU HV) as (E0 & E1 & E2). rewrite E0, E1, E2 in H.
  replace (l2 * mM w0 w1 w2 * (l1 * mM w0 w1 w2 + l0 * mM w0 w1 w2)) with
    (l2 * (l1 + l0) * (mM w0 w1 w2 * mM w0 w1 w2)) in H by ring.
  assert (0 <= l2 * (l1 + l0)) by (apply Rmult_le_pos; lra).
  assert (0 <= mM w0 w1 w2 * mM w0 w1 w2) by nra. nra.
Qed.

(** Minors that are nowhere strictly opposed to their sum give a critical point. *)
Lemma yes_cp w0 w1 w2 : mM w0 w1 w2 <> 0 ->
  0 <= mM0 w0 w1 w2 * mM w0 w1 w2 -> 0 <= mM1 w0 w1 w2 * mM w0 w1 w2 -> 0 <= mM2 w0 w1 w2 * mM w0 w1 w2 ->
  has_cp w0 w1 w2.
Proof.
  intros HM H0 H1 H2. set (m := mM w0 w1 w2) in *.
  assert (Hq : forall x, 0 <= x * m -> 0 <= x / m).
  { intros x Hx. replace (x / m) with (x * m / (m * m)) by (field; auto).
    apply Rmult_le_pos; auto. apply Rlt_le, Rinv_0_lt_compat. nra. }
  exists (mM1 w0 w1 w2 / m), (mM0 w0 w1 w2 / m), (mM2 w0 w1 w2 / m).
  repeat split; auto.
  - unfold Rdiv. rewrite <- !Rmult_plus_distr_r. fold m.
    replace (mM1 w0 w1 w2 + mM0 w0 w1 w2 + mM2 w0 w1 w2) with m by (unfold m, mM; ring). field. auto.
  - apply (Rmult_eq_reg_r m); auto. unfold Rdiv.
    replace ((mM1 w0 w1 w2 * / m * fst w0 + mM0 w0 w1 w2 * / m * fst w1 + mM2 w0 w1 w2 * / m * fst w2) * m)
      with ((mM1 w0 w1 w2 * fst w0 + mM0 w0 w1 w2 * fst w1 + mM2 w0 w1 w2 * fst w2) * (/ m * m)) by ring.
    rewrite Rinv_l by auto. unfold mM0, mM1, mM2. ring.
  - apply (Rmult_eq_reg_r m); auto. unfold Rdiv.
    replace ((mM1 w0 w1 w2 * / m * snd w0 + mM0 w0 w1 w2 * / m * snd w1 + mM2 w0 w1 w2 * / m * snd w2) * m)
      with ((mM1 w0 w1 w2 * snd w0 + mM0 w0 w1 w2 * snd w1 + mM2 w0 w1 w2 * snd w2) * (/ m * m)) by ring.
    rewrite Rinv_l by auto. unfold mM0, mM1, mM2. ring.
Qed.

(** ** Sign-keeping bounds *)
Lemma sign_kept (c a b e e1 e2 : R) :
  e * (Rabs a + Rabs b) < Rabs c -> Rabs e1 <= e -> Rabs e2 <= e -> 0 < c * (c + a * e1 + b * e2).
Proof.
  intros H H1 H2.
  assert (Hd : Rabs (a * e1 + b * e2) <= e * (Rabs a + Rabs b)).
  { eapply Rle_trans; [apply Rabs_triang|]. rewrite !Rabs_mult.
    pose proof (Rabs_pos a). pose proof (Rabs_pos b). pose proof (Rabs_pos e1). pose proof (Rabs_pos e2). nra. }
  assert (Hlt : Rabs (a * e1 + b * e2) < Rabs c) by lra.
  set (d := a * e1 + b * e2) in *. replace (c + a * e1 + b * e2) with (c + d) by (unfold d; ring).
  apply Rabs_def2 in Hlt. destruct Hlt as [L1 L2].
  unfold Rabs in L1, L2. destruct (Rcase_abs c); nra.
Qed.

Lemma keep_abs_sound a b c e e1 e2 :
  below e (max_eb_to_keep_sign_2d_online_abs XA (Fin a) (Fin b) (Fin c)) ->
  Rabs e1 <= e -> Rabs e2 <= e -> 0 < c * (c + a * e1 + b * e2).
Proof.
  unfold max_eb_to_keep_sign_2d_online_abs. cbn [t2d tdiv tabs tadd XA xabs xadd]. intros H H1 H2.
  pose proof (Rabs_pos a). pose proof (Rabs_pos b).
  destruct (Req_dec (Rabs a + Rabs b) 0) as [Hz|Hz].
  - rewrite xdiv_zero in H by auto.
    assert (Ha : Rabs a = 0) by lra. assert (Hb : Rabs b = 0) by lra.
    assert (Hc : 0 < Rabs c).
    { destruct (Req_dec c 0) as [->|Hc]; [|apply Rabs_pos_lt; auto].
      rewrite Rabs_R0, xinf_zero in H. discriminate. }
    apply (sign_kept c a b e); auto. rewrite Hz. lra.
  - rewrite xdiv_fin in H by auto. apply below_fin in H.
    apply (sign_kept c a b e); auto.
    apply (Rmult_lt_compat_r (Rabs a + Rabs b)) in H; [|lra].
    unfold Rdiv in H. rewrite Rmult_assoc, Rinv_l in H by auto. lra.
Qed.

Lemma keep_abs_notnan a b c :
  (a <> 0 \/ b <> 0 \/ c <> 0) -> notnan (max_eb_to_keep_sign_2d_online_abs XA (Fin a) (Fin b) (Fin c)).
Proof.
  unfold max_eb_to_keep_sign_2d_online_abs. cbn [t2d tdiv tabs tadd XA xabs xadd]. intros H.
  pose proof (Rabs_pos a). pose proof (Rabs_pos b).
  destruct (Req_dec (Rabs a + Rabs b) 0) as [Hz|Hz].
  - rewrite xdiv_zero by auto.
    assert (a = 0) by (destruct (Req_dec a 0); auto; apply Rabs_no_R0 in H2; lra).
    assert (b = 0) by (destruct (Req_dec b 0); auto; apply Rabs_no_R0 in H3; lra).
    assert (c <> 0) by tauto. rewrite xinf_pos by (apply Rabs_pos_lt; auto). discriminate.
  - rewrite xdiv_fin by auto. discriminate.
Qed.

Lemma keep_rel_sound a b c e e1 e2 : 0 <= e ->
  below e (max_eb_to_keep_sign_2d_online XA (Fin a) (Fin b) (Fin c)) ->
  Rabs e1 <= e -> Rabs e2 <= e -> 0 < (a + b + c) * (a * (1 + e1) + b * (1 + e2) + c).
Proof.
  unfold max_eb_to_keep_sign_2d_online. cbn [t2d ddiv tabs tadd XA xabs xadd deq dofZ]. intros He H H1 H2.
  pose proof (Rabs_pos a). pose proof (Rabs_pos b).
  destruct (xeq (Fin (Rabs a + Rabs b)) (Fin 0)) eqn:E.
  - apply below_fin in H. lra.
  - apply xeq_fin_false in E. rewrite xdiv_fin in H by auto. apply below_fin in H.
    replace (a * (1 + e1) + b * (1 + e2) + c) with ((a + b + c) + a * e1 + b * e2) by ring.
    apply (sign_kept _ a b e); auto.
    apply (Rmult_lt_compat_r (Rabs a + Rabs b)) in H; [|lra].
    unfold Rdiv in H. rewrite Rmult_assoc, Rinv_l in H by auto. lra.
Qed.

Lemma keep_rel_notnan a b c : notnan (max_eb_to_keep_sign_2d_online XA (Fin a) (Fin b) (Fin c)).
Proof.
  unfold max_eb_to_keep_sign_2d_online. cbn [t2d ddiv tabs tadd XA xabs xadd deq dofZ].
  destruct (xeq (Fin (Rabs a + Rabs b)) (Fin 0)) eqn:E; [discriminate|].
  apply xeq_fin_false in E. rewrite xdiv_fin by auto. discriminate.
Qed.

(** The in-triangle flag of the code for minor m: m == 0 || M/m >= 1. *)
Lemma flag_false m M : (deq XA (Fin m) (Fin 0) || dle XA (Fin 1) (ddiv XA (Fin M) (Fin m)))%bool = false ->
  m <> 0 /\ m * (M - m) < 0.
Proof.
  cbn [deq dle ddiv XA]. intros H. apply orb_false_iff in H as [H1 H2]. apply xeq_fin_false in H1.
  rewrite xdiv_fin in H2 by auto. apply xle_fin_false in H2. split; auto.
  assert (M / m * (m * m) < 1 * (m * m)) by (apply Rmult_lt_compat_r; nra).
  replace (M / m * (m * m)) with (M * m) in H by (field; auto). lra.
Qed.
Lemma flag_true m M : (deq XA (Fin m) (Fin 0) || dle XA (Fin 1) (ddiv XA (Fin M) (Fin m)))%bool = true ->
  0 <= m * (M - m) /\ 0 <= m * M.
Proof.
  cbn [deq dle ddiv XA]. intros H. destruct (Req_dec m 0) as [->|Hm]; [lra|].
  apply orb_true_iff in H as [H|H]; [apply xeq_fin in H; contradiction|].
  rewrite xdiv_fin in H by auto. apply xle_fin in H.
  assert (1 * (m * m) <= M / m * (m * m)) by (apply Rmult_le_compat_r; nra).
  replace (M / m * (m * m)) with (M * m) in H0 by (field; auto). nra.
Qed.

Lemma flag_zero m : (deq XA (Fin m) (Fin 0) || dle XA (Fin 1) (ddiv XA (Fin m) (Fin m)))%bool = true.
Proof.
  cbn [deq dle ddiv XA]. destruct (Req_dec m 0) as [->|H].
  - apply orb_true_iff. left. apply xeq_fin. auto.
  - rewrite xdiv_fin by auto. apply orb_true_iff. right. apply xle_fin. unfold Rdiv. rewrite Rinv_r by auto. lra.
Qed.

(** Soundness of a derived bound [r] for vertex 2 under absolute perturbation. *)
Definition abs_sound (w0 w1 w2 : R * R) (r : XR) : Prop :=
  notnan r /\
  forall e w2', 0 <= e -> below e r ->
    Rabs (fst w2' - fst w2) <= e -> Rabs (snd w2' - snd w2) <= e ->
    ~ has_cp w0 w1 w2 /\ ~ has_cp w0 w1 w2' /\ mM w0 w1 w2 <> 0.

Lemma below_zero e : 0 <= e -> ~ below e (Fin 0).
Proof. intros H K. apply below_fin in K. lra. Qed.

Lemma opp_kept p q p' q' : p * q < 0 -> 0 < p * p' -> 0 < q * q' -> p' * q' < 0.
Proof.
  intros H H1 H2. assert (H3 : 0 < (p * q) * (p' * q')).
  { replace ((p * q) * (p' * q')) with ((p * p') * (q * q')) by ring. apply Rmult_lt_0_compat; auto. }
  nra.
Qed.

Section AbsCases.
Variables u0 u1 u2 v0 v1 v2 : R.
Let w0 := (u0, v0). Let w1 := (u1, v1). Let w2 := (u2, v2).
Let M0 := u2 * v0 - u0 * v2. Let M1 := u1 * v2 - u2 * v1. Let M2 := u0 * v1 - u1 * v0.

(** What the three branches of the code's "no critical point" case guarantee. *)
Definition no_cp_bound (r : XR) : Prop :=
  notnan r /\ forall e w2', 0 <= e -> below e r ->
    Rabs (fst w2' - u2) <= e -> Rabs (snd w2' - v2) <= e -> ~ has_cp w0 w1 w2 /\ ~ has_cp w0 w1 w2'.

Lemma abs_case0 : M0 * (M1 + M2) < 0 -> no_cp_bound
  (minf XA (max_eb_to_keep_sign_2d_online_abs XA (Fin v0) (Fin (- u0)) (Fin M0))
           (max_eb_to_keep_sign_2d_online_abs XA (Fin (- v1)) (Fin u1) (Fin (u1 * v2 - u2 * v1 + u0 * v1 - u1 * v0)))).
Proof.
  intros G. split.
  - apply notnan_minf, keep_abs_notnan. right; right. intros X.
    replace (M1 + M2) with (u1 * v2 - u2 * v1 + u0 * v1 - u1 * v0) in G by (unfold M1, M2; ring). rewrite X in G. lra.
  - intros e [u v] He HB D1 D2. cbn [fst snd] in *. apply below_minf in HB as [B1 B2].
    + apply (keep_abs_sound _ _ _ e (u - u2) (v - v2)) in B1; auto.
      apply (keep_abs_sound _ _ _ e (u - u2) (v - v2)) in B2; auto.
      split; apply no_cp0; unfold mM0, mM1, mM2, w0, w1, w2; cbn [fst snd]; [exact G|].
      apply (opp_kept _ _ _ _ G).
      * replace (u * v0 - u0 * v) with (M0 + v0 * (u - u2) + - u0 * (v - v2)) by (unfold M0; ring). auto.
      * replace (u1 * v - u * v1 + (u0 * v1 - u1 * v0)) with
          (u1 * v2 - u2 * v1 + u0 * v1 - u1 * v0 + - v1 * (u - u2) + u1 * (v - v2)) by ring.
        replace (M1 + M2) with (u1 * v2 - u2 * v1 + u0 * v1 - u1 * v0) by (unfold M1, M2; ring). auto.
    + apply keep_abs_notnan. right; right. intros X. rewrite X in G. lra.
    + apply keep_abs_notnan. right; right. intros X.
      replace (M1 + M2) with (u1 * v2 - u2 * v1 + u0 * v1 - u1 * v0) in G by (unfold M1, M2; ring). rewrite X in G. lra.
Qed.

Lemma abs_case1 : M1 * (M0 + M2) < 0 -> no_cp_bound
  (minf XA (max_eb_to_keep_sign_2d_online_abs XA (Fin (- v1)) (Fin u1) (Fin M1))
           (max_eb_to_keep_sign_2d_online_abs XA (Fin v0) (Fin (- u0)) (Fin (u2 * v0 - u0 * v2 + u0 * v1 - u1 * v0)))).
Proof.
  intros G.
  assert (E : M0 + M2 = u2 * v0 - u0 * v2 + u0 * v1 - u1 * v0) by (unfold M0, M2; ring).
  split.
  - apply notnan_minf, keep_abs_notnan. right; right. intros X. rewrite E, X in G. lra.
  - intros e [u v] He HB D1 D2. cbn [fst snd] in *. apply below_minf in HB as [B1 B2].
    + apply (keep_abs_sound _ _ _ e (u - u2) (v - v2)) in B1; auto.
      apply (keep_abs_sound _ _ _ e (u - u2) (v - v2)) in B2; auto.
      split; apply no_cp1; unfold mM0, mM1, mM2, w0, w1, w2; cbn [fst snd]; [exact G|].
      apply (opp_kept _ _ _ _ G).
      * replace (u1 * v - u * v1) with (M1 + - v1 * (u - u2) + u1 * (v - v2)) by (unfold M1; ring). auto.
      * replace (u * v0 - u0 * v + (u0 * v1 - u1 * v0)) with
          (u2 * v0 - u0 * v2 + u0 * v1 - u1 * v0 + v0 * (u - u2) + - u0 * (v - v2)) by ring.
        rewrite E. auto.
    + apply keep_abs_notnan. right; right. intros X. rewrite X in G. lra.
    + apply keep_abs_notnan. right; right. intros X. rewrite E, X in G. lra.
Qed.

Lemma abs_case2 : M2 * (M0 + M1) < 0 -> no_cp_bound
  (max_eb_to_keep_sign_2d_online_abs XA (Fin (v0 - v1)) (Fin (u1 - u0)) (Fin (u2 * v0 - u0 * v2 + u1 * v2 - u2 * v1))).
Proof.
  intros G.
  assert (E : M0 + M1 = u2 * v0 - u0 * v2 + u1 * v2 - u2 * v1) by (unfold M0, M1; ring).
  split.
  - apply keep_abs_notnan. right; right. intros X. rewrite E, X in G. lra.
  - intros e [u v] He B1 D1 D2. cbn [fst snd] in *.
    apply (keep_abs_sound _ _ _ e (u - u2) (v - v2)) in B1; auto.
    split; apply no_cp2; unfold mM0, mM1, mM2, w0, w1, w2; cbn [fst snd]; [exact G|].
    apply (opp_kept _ _ _ _ G).
    + fold M2. assert (M2 <> 0) by (intros X; rewrite X in G; lra). nra.
    + replace (u * v0 - u0 * v + (u1 * v - u * v1)) with
        (u2 * v0 - u0 * v2 + u1 * v2 - u2 * v1 + (v0 - v1) * (u - u2) + (u1 - u0) * (v - v2)) by ring.
      rewrite E. auto.
Qed.

Lemma no_cp_dmax r1 r2 : no_cp_bound r1 -> no_cp_bound r2 -> no_cp_bound (dmax XA r1 r2).
Proof.
  intros [N1 H1] [N2 H2]. split; [apply notnan_dmax; auto|].
  intros e w He HB. apply below_dmax in HB as [HB|HB]; eauto.
Qed.

Lemma no_cp_zero : no_cp_bound (Fin 0).
Proof. split; [discriminate|]. intros e w He HB. exfalso. eapply below_zero; eauto. Qed.
End AbsCases.

Theorem derive_abs_sound u0 u1 u2 v0 v1 v2 :
  no_cp_bound u0 u1 u2 v0 v1 v2
    (derive_cp_eb_for_positions_online_abs XA (Fin u0) (Fin u1) (Fin u2) (Fin v0) (Fin v1) (Fin v2)).
Proof.
  unfold derive_cp_eb_for_positions_online_abs. cbn [t2d tsub tmul tadd tneg dadd dofZ XA xsub xmul xadd xneg].
  set (M0 := u2 * v0 - u0 * v2). set (M1 := u1 * v2 - u2 * v1). set (M2 := u0 * v1 - u1 * v0).
  change (u2 * v0 - u0 * v2) with M0.
  set (M := M0 + M1 + M2).
  pose proof (no_cp_zero u0 u1 u2 v0 v1 v2) as Z.
  destruct (deq XA (Fin M) (Fin 0)) eqn:EM; [exact Z|].
  destruct (deq XA (Fin M0) (Fin 0) || dle XA (Fin 1) (ddiv XA (Fin M) (Fin M0)))%bool eqn:F0;
  destruct (deq XA (Fin M1) (Fin 0) || dle XA (Fin 1) (ddiv XA (Fin M) (Fin M1)))%bool eqn:F1;
  destruct (deq XA (Fin M2) (Fin 0) || dle XA (Fin 1) (ddiv XA (Fin M) (Fin M2)))%bool eqn:F2; cbn [andb];
  try exact Z;
  repeat match goal with
  | H : (_ || _)%bool = false |- _ => apply flag_false in H as [_ H]
  end.
  all: repeat apply no_cp_dmax; auto;
    first [apply abs_case0 | apply abs_case1 | apply abs_case2];
    match goal with H : ?x < 0 |- ?y < 0 => replace y with x by (unfold M, M0, M1, M2; ring); exact H end.
Qed.

(** ** Relative bounds *)
Section RelCases.
Variables u0 u1 u2 v0 v1 v2 : R.
Let w0 := (u0, v0). Let w1 := (u1, v1). Let w2 := (u2, v2).
Let M0 := u2 * v0 - u0 * v2. Let M1 := u1 * v2 - u2 * v1. Let M2 := u0 * v1 - u1 * v0.

(** Relative perturbations of vertex 2 smaller than [r] neither create nor destroy a critical point. *)
Definition rel_bound (r : XR) : Prop :=
  notnan r /\ forall e e1 e2, 0 <= e -> below e r -> Rabs e1 <= e -> Rabs e2 <= e ->
    (has_cp w0 w1 w2 <-> has_cp w0 w1 (u2 * (1 + e1), v2 * (1 + e2))).

Lemma rel_case0 : M0 * (M1 + M2) < 0 -> rel_bound
  (minf XA (max_eb_to_keep_sign_2d_online XA (Fin (u2 * v0)) (Fin (- u0 * v2)) (Fin 0))
           (max_eb_to_keep_sign_2d_online XA (Fin (- u2 * v1)) (Fin (u1 * v2)) (Fin (u0 * v1 - u1 * v0)))).
Proof.
  intros G. split; [apply notnan_minf, keep_rel_notnan|].
  intros e e1 e2 He HB D1 D2. apply below_minf in HB as [B1 B2]; try apply keep_rel_notnan.
  apply (keep_rel_sound _ _ _ e e1 e2) in B1; auto. apply (keep_rel_sound _ _ _ e e1 e2) in B2; auto.
  assert (N : ~ has_cp w0 w1 w2) by (apply no_cp0; exact G).
  assert (N' : ~ has_cp w0 w1 (u2 * (1 + e1), v2 * (1 + e2))).
  { apply no_cp0. unfold mM0, mM1, mM2, w0, w1. cbn [fst snd]. apply (opp_kept _ _ _ _ G).
    - replace (M0 * (u2 * (1 + e1) * v0 - u0 * (v2 * (1 + e2)))) with
        ((u2 * v0 + - u0 * v2 + 0) * (u2 * v0 * (1 + e1) + - u0 * v2 * (1 + e2) + 0)) by (unfold M0; ring). auto.
    - replace ((M1 + M2) * (u1 * (v2 * (1 + e2)) - u2 * (1 + e1) * v1 + (u0 * v1 - u1 * v0))) with
        ((- u2 * v1 + u1 * v2 + (u0 * v1 - u1 * v0)) *
         (- u2 * v1 * (1 + e1) + u1 * v2 * (1 + e2) + (u0 * v1 - u1 * v0))) by (unfold M1, M2; ring). auto. }
  tauto.
Qed.

Lemma rel_case1 : M1 * (M0 + M2) < 0 -> rel_bound
  (minf XA (max_eb_to_keep_sign_2d_online XA (Fin (- u2 * v1)) (Fin (u1 * v2)) (Fin 0))
           (max_eb_to_keep_sign_2d_online XA (Fin (u2 * v0)) (Fin (- u0 * v2)) (Fin (u0 * v1 - u1 * v0)))).
Proof.
  intros G. split; [apply notnan_minf, keep_rel_notnan|].
  intros e e1 e2 He HB D1 D2. apply below_minf in HB as [B1 B2]; try apply keep_rel_notnan.
  apply (keep_rel_sound _ _ _ e e1 e2) in B1; auto. apply (keep_rel_sound _ _ _ e e1 e2) in B2; auto.
  assert (N : ~ has_cp w0 w1 w2) by (apply no_cp1; exact G).
  assert (N' : ~ has_cp w0 w1 (u2 * (1 + e1), v2 * (1 + e2))).
  { apply no_cp1. unfold mM0, mM1, mM2, w0, w1. cbn [fst snd]. apply (opp_kept _ _ _ _ G).
    - replace (M1 * (u1 * (v2 * (1 + e2)) - u2 * (1 + e1) * v1)) with
        ((- u2 * v1 + u1 * v2 + 0) * (- u2 * v1 * (1 + e1) + u1 * v2 * (1 + e2) + 0)) by (unfold M1; ring). auto.
    - replace ((M0 + M2) * (u2 * (1 + e1) * v0 - u0 * (v2 * (1 + e2)) + (u0 * v1 - u1 * v0))) with
        ((u2 * v0 + - u0 * v2 + (u0 * v1 - u1 * v0)) *
         (u2 * v0 * (1 + e1) + - u0 * v2 * (1 + e2) + (u0 * v1 - u1 * v0))) by (unfold M0, M2; ring). auto. }
  tauto.
Qed.

Lemma rel_case2 : M2 * (M0 + M1) < 0 -> rel_bound
  (max_eb_to_keep_sign_2d_online XA (Fin (u2 * v0 - u2 * v1)) (Fin (u1 * v2 - u0 * v2)) (Fin 0)).
Proof.
  intros G. split; [apply keep_rel_notnan|].
  intros e e1 e2 He B1 D1 D2. apply (keep_rel_sound _ _ _ e e1 e2) in B1; auto.
  assert (N : ~ has_cp w0 w1 w2) by (apply no_cp2; exact G).
  assert (N' : ~ has_cp w0 w1 (u2 * (1 + e1), v2 * (1 + e2))).
  { apply no_cp2. unfold mM0, mM1, mM2, w0, w1. cbn [fst snd]. apply (opp_kept _ _ _ _ G).
    - fold M2. assert (M2 <> 0) by (intros X; rewrite X in G; lra). nra.
    - replace ((M0 + M1) * (u2 * (1 + e1) * v0 - u0 * (v2 * (1 + e2)) + (u1 * (v2 * (1 + e2)) - u2 * (1 + e1) * v1))) with
        ((u2 * v0 - u2 * v1 + (u1 * v2 - u0 * v2) + 0) *
         ((u2 * v0 - u2 * v1) * (1 + e1) + (u1 * v2 - u0 * v2) * (1 + e2) + 0)) by (unfold M0, M1; ring). auto. }
  tauto.
Qed.

(** The position bound keeps the strict signs of both minors that involve vertex 2. *)
Lemma position_sound e e1 e2 : 0 <= e ->
  below e (max_eb_to_keep_position_online XA (Fin (u0 * v1)) (Fin (u1 * v0)) (Fin (u1 * v2)) (Fin (u2 * v1))
                                          (Fin (u2 * v0)) (Fin (u0 * v2))) ->
  Rabs e1 <= e -> Rabs e2 <= e ->
  0 < M0 * (u2 * (1 + e1) * v0 - u0 * (v2 * (1 + e2))) /\
  0 < M1 * (u1 * (v2 * (1 + e2)) - u2 * (1 + e1) * v1).
Proof.
  intros He HB D1 D2. unfold max_eb_to_keep_position_online in HB. cbn [tneg XA xneg t0 tofZ] in HB.
  apply below_minf in HB as [B1 B2]; try apply keep_rel_notnan.
  apply (keep_rel_sound _ _ _ e e1 e2) in B1; auto. apply (keep_rel_sound _ _ _ e e1 e2) in B2; auto.
  split.
  - replace (M0 * (u2 * (1 + e1) * v0 - u0 * (v2 * (1 + e2)))) with
      ((u2 * v0 + - (u0 * v2) + 0) * (u2 * v0 * (1 + e1) + - (u0 * v2) * (1 + e2) + 0)) by (unfold M0; ring). auto.
  - replace (M1 * (u1 * (v2 * (1 + e2)) - u2 * (1 + e1) * v1)) with
      ((- (u2 * v1) + u1 * v2 + 0) * (- (u2 * v1) * (1 + e1) + u1 * v2 * (1 + e2) + 0)) by (unfold M1; ring). auto.
Qed.

Lemma same_sign_cp m0 m1 m2 m0' m1' : m0 + m1 + m2 <> 0 ->
  0 <= m0 * (m0 + m1 + m2) -> 0 <= m1 * (m0 + m1 + m2) -> 0 <= m2 * (m0 + m1 + m2) ->
  0 < m0 * m0' -> 0 < m1 * m1' ->
  0 < (m0 + m1 + m2) * (m0' + m1' + m2) /\
  0 <= m0' * (m0' + m1' + m2) /\ 0 <= m1' * (m0' + m1' + m2) /\ 0 <= m2 * (m0' + m1' + m2).
Proof.
  intros H H0 H1 H2 P0 P1.
  destruct (Rtotal_order (m0 + m1 + m2) 0) as [L|[E|L]]; [|contradiction|].
  - assert (m0 <= 0) by nra. assert (m1 <= 0) by nra. assert (m2 <= 0) by nra.
    assert (m0' < 0) by nra. assert (m1' < 0) by nra. repeat split; nra.
  - assert (0 <= m0) by nra. assert (0 <= m1) by nra. assert (0 <= m2) by nra.
    assert (0 < m0') by nra. assert (0 < m1') by nra. repeat split; nra.
Qed.

Lemma rel_cp_case typ : M0 + M1 + M2 <> 0 ->
  0 <= M0 * (M0 + M1 + M2) -> 0 <= M1 * (M0 + M1 + M2) -> 0 <= M2 * (M0 + M1 + M2) -> notnan typ ->
  rel_bound (minf XA (max_eb_to_keep_position_online XA (Fin (u0 * v1)) (Fin (u1 * v0)) (Fin (u1 * v2))
                        (Fin (u2 * v1)) (Fin (u2 * v0)) (Fin (u0 * v2))) typ).
Proof.
  intros HM H0 H1 H2 HT. split; [apply notnan_minf; auto|].
  intros e e1 e2 He HB D1 D2. apply below_minf in HB as [B1 _]; auto.
  2:{ unfold max_eb_to_keep_position_online. cbn [tneg XA xneg t0 tofZ]. apply notnan_minf, keep_rel_notnan. }
  destruct (position_sound e e1 e2 He B1 D1 D2) as [P0 P1].
  destruct (same_sign_cp _ _ _ _ _ HM H0 H1 H2 P0 P1) as (PM & Q0 & Q1 & Q2).
  assert (Y : has_cp w0 w1 w2) by (apply yes_cp; auto).
  assert (Y' : has_cp w0 w1 (u2 * (1 + e1), v2 * (1 + e2))).
  { apply yes_cp; unfold mM, mM0, mM1, mM2, w0, w1; cbn [fst snd]; auto. fold M2. intros X. rewrite X in PM. lra. }
  tauto.
Qed.

Lemma rel_dmax r1 r2 : rel_bound r1 -> rel_bound r2 -> rel_bound (dmax XA r1 r2).
Proof.
  intros [N1 H1] [N2 H2]. split; [apply notnan_dmax; auto|].
  intros e e1 e2 He HB. apply below_dmax in HB as [HB|HB]; eauto.
Qed.

Lemma rel_zero : rel_bound (Fin 0).
Proof. split; [discriminate|]. intros e e1 e2 He HB. exfalso. eapply below_zero; eauto. Qed.

Lemma type_notnan c0 c1 c2 c3 : u2 <> 0 -> v2 <> 0 -> c0 + c1 <> 0 \/ c2 + c3 <> 0 ->
  notnan (max_eb_to_keep_type_online XA (Fin u0) (Fin u1) (Fin u2) (Fin v0) (Fin v1) (Fin v2)
                                     (Fin c0, Fin c1, Fin c2, Fin c3)).
Proof.
  intros Hu Hv Hc. unfold max_eb_to_keep_type_online.
  cbn [t2d tsub tmul tadd tneg dadd dsub dmul dofZ dabs dneg XA xsub xmul xadd xneg xabs tle t0 tofZ].
  set (C := - (c1 * c2 - c0 * c3) * _). destruct (xle (Fin C) (Fin 0)); [apply notnan_minf, keep_rel_notnan|].
  set (A := - c0 * u2 - c1 * u2). set (B := - c2 * v2 - c3 * v2).
  set (CC := _ + (A + B)). set (delta := CC * CC - _).
  cbn [deq dlt XA].
  destruct (xeq (Fin delta) (Fin 0)) eqn:E0; [discriminate|]. apply xeq_fin_false in E0.
  destruct (xlt (Fin 0) (Fin delta)) eqn:E1.
  - destruct (xeq _ _) eqn:E2; [discriminate|]. apply xeq_fin_false in E2.
    apply notnan_minf. cbn [ddiv XA]. rewrite xdiv_fin by auto. discriminate.
  - apply xlt_fin_false in E1. apply notnan_minf. cbn [ddiv dsqrt XA xsqrt].
    set (a := (Rabs A + Rabs B) * (Rabs A + Rabs B)).
    assert (Ha : 0 < a).
    { assert (0 < Rabs A + Rabs B); [|unfold a; nra].
      pose proof (Rabs_pos A). pose proof (Rabs_pos B). destruct Hc as [Hc|Hc].
      - assert (A <> 0) by (replace A with (- ((c0 + c1) * u2)) by (unfold A; ring); apply Ropp_neq_0_compat, Rmult_integral_contrapositive; auto).
        pose proof (Rabs_pos_lt A). intuition lra.
      - assert (B <> 0) by (replace B with (- ((c2 + c3) * v2)) by (unfold B; ring); apply Ropp_neq_0_compat, Rmult_integral_contrapositive; auto).
        pose proof (Rabs_pos_lt B). intuition lra. }
    assert (Hs : forall b, 0 <= b * b - 4 * a * delta).
    { intros b. assert (0 <= a * - delta) by (apply Rmult_le_pos; lra). pose proof (Rle_0_sqr b). unfold Rsqr in *. lra. }
    rewrite Rlt_bool_false by apply Hs. cbn [xadd]. rewrite xdiv_fin by lra. discriminate.
Qed.
End RelCases.

Theorem derive_rel_sound u0 u1 u2 v0 v1 v2 c0 c1 c2 c3 :
  u2 <> 0 -> v2 <> 0 -> c0 + c1 <> 0 \/ c2 + c3 <> 0 ->
  rel_bound u0 u1 u2 v0 v1 v2
    (derive_cp_eb_for_positions_online XA (Fin u0) (Fin u1) (Fin u2) (Fin v0) (Fin v1) (Fin v2)
                                       (Fin c0, Fin c1, Fin c2, Fin c3)).
Proof.
  intros Hu Hv Hc. unfold derive_cp_eb_for_positions_online.
  pose proof (type_notnan u0 u1 u2 v0 v1 v2 c0 c1 c2 c3 Hu Hv Hc) as HT.
  set (typ := max_eb_to_keep_type_online _ _ _ _ _ _ _ _) in *.
  cbn [t2d tsub tmul tadd tneg dadd dofZ XA xsub xmul xadd xneg t0 tofZ].
  set (M0 := u2 * v0 - u0 * v2). set (M1 := u1 * v2 - u2 * v1). set (M2 := u0 * v1 - u1 * v0).
  set (M := M0 + M1 + M2).
  pose proof (rel_zero u0 u1 u2 v0 v1 v2) as Z.
  destruct (deq XA (Fin M) (Fin 0)) eqn:EM; [exact Z|]. apply xeq_fin_false in EM.
  destruct (deq XA (Fin M0) (Fin 0) || dle XA (Fin 1) (ddiv XA (Fin M) (Fin M0)))%bool eqn:F0;
  destruct (deq XA (Fin M1) (Fin 0) || dle XA (Fin 1) (ddiv XA (Fin M) (Fin M1)))%bool eqn:F1;
  destruct (deq XA (Fin M2) (Fin 0) || dle XA (Fin 1) (ddiv XA (Fin M) (Fin M2)))%bool eqn:F2; cbn [andb].
  { apply flag_true in F0 as [_ F0]. apply flag_true in F1 as [_ F1]. apply flag_true in F2 as [_ F2].
    apply rel_cp_case; auto. }
  all: repeat match goal with H : (_ || _)%bool = false |- _ => apply flag_false in H as [_ H] end.
  all: repeat apply rel_dmax; auto;
    first [apply rel_case0 | apply rel_case1 | apply rel_case2];
    match goal with H : ?x < 0 |- ?y < 0 => replace y with x by (unfold M, M0, M1, M2; ring); exact H end.
Qed.
