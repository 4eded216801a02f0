(** Types of critical points: the Jacobian of the linear interpolant of a cell, and the 2D relative codecs keeping the signs
    that classify it (exact arithmetic). *)
From Coq Require Import Reals Lra Lia ZArith List Bool Permutation.
From Coq Require Import ZifyBool ZifyNat.
From Flocq Require Import Core.Raux.
From Verif Require Import Base Huffman Arith Mesh2D Derive2D Codec2D Sync2D Trace2D Exact Cells2D Geo2D Preserve2D.
Import ListNotations.
Local Open Scope R_scope.

(** ** Jacobian and classification *)
(** Partial derivatives of (u,v) along columns (x) and rows (y). *)
Record jac := { ux : R; uy : R; vx : R; vy : R }.
Definition jtr (J : jac) : R := ux J + vy J.
Definition jdet (J : jac) : R := ux J * vy J - uy J * vx J.
Definition jdisc (J : jac) : R := jtr J * jtr J - 4 * jdet J.

(** [J] is the linear part of the affine field through the vectors at the points (row, column) of [cell]. *)
Definition linear_part (w : Z * Z -> R * R) (cell : list (Z * Z)) (J : jac) : Prop :=
  exists u0 v0, forall p, In p cell ->
    fst (w p) = u0 + ux J * IZR (snd p) + uy J * IZR (fst p) /\ snd (w p) = v0 + vx J * IZR (snd p) + vy J * IZR (fst p).

Definition same_sign (a b : R) : Prop := (0 < a <-> 0 < b) /\ (a < 0 <-> b < 0).

(** Saddle (negative determinant); otherwise attracting, repelling or centre (trace), node or focus (discriminant). *)
Definition same_type (J J' : jac) : Prop :=
  same_sign (jdet J) (jdet J') /\ (0 < jdet J -> same_sign (jtr J) (jtr J') /\ same_sign (jdisc J) (jdisc J')).

Lemma same_sign_refl a : same_sign a a.
Proof. split; tauto. Qed.
Lemma same_sign_prod a b : 0 < a * b -> same_sign a b.
Proof. intros H. split; split; intros; nra. Qed.
Lemma same_sign_trans a b c : same_sign a b -> same_sign b c -> same_sign a c.
Proof. unfold same_sign. tauto. Qed.
Lemma same_type_refl J : same_type J J.
Proof. split; [apply same_sign_refl|]. split; apply same_sign_refl. Qed.
Lemma same_type_trans J1 J2 J3 : same_type J1 J2 -> same_type J2 J3 -> same_type J1 J3.
Proof.
  intros [H1 K1] [H2 K2]. split; [eapply same_sign_trans; eauto|]. intros H. destruct (K1 H) as [K3 K4].
  destruct H1 as [H1 _]. destruct (K2 (proj1 H1 H)) as [K5 K6]. split; eapply same_sign_trans; eauto.
Qed.

Lemma linear_part_incl w l l' J : incl l' l -> linear_part w l J -> linear_part w l' J.
Proof. intros H (a & b & G). exists a, b. intros p Hp. apply G, H, Hp. Qed.
Lemma linear_part_ext w w' l J : (forall p, In p l -> w' p = w p) -> linear_part w l J -> linear_part w' l J.
Proof. intros H (a & b & G). exists a, b. intros p Hp. rewrite H by auto. auto. Qed.

(** ** A cell around a vertex *)
Section Around.
Variables (i j : Z) (k : nat).
Hypothesis Hk : (k < 6)%nat.

Local Notation P := [nbr i j k 0; nbr i j k 1; (i, j)].

Lemma inv_C_jac : exists c0 c1 c2 c3, inv_C XA k = (Fin c0, Fin c1, Fin c2, Fin c3) /\ (c0 + c1 <> 0 \/ c2 + c3 <> 0) /\
  forall w J, linear_part w P J ->
    let u0 := fst (w (nbr i j k 0)) in let u1 := fst (w (nbr i j k 1)) in let u2 := fst (w (i, j)) in
    let v0 := snd (w (nbr i j k 0)) in let v1 := snd (w (nbr i j k 1)) in let v2 := snd (w (i, j)) in
    jtr J = c0 * (u0 - u2) + c1 * (u1 - u2) + c2 * (v0 - v2) + c3 * (v1 - v2) /\
    jdet J = - (c1 * c2 - c0 * c3) * (u0 * v1 - u0 * v2 + u1 * v2 - u1 * v0 + u2 * v0 - u2 * v1).
Proof using Hk.
  unfold inv_C, adjugate. cbn [tofZ tsub tmul tneg tdiv XA xsub xmul xneg].
  assert (Hk' := Hk). destruct k as [|[|[|[|[|[|k']]]]]]; [| | | | | |exfalso; lia]; unfold tab, tab_x, tab_y; cbn [nth];
    rewrite !xdiv_fin by lra; do 4 eexists; (split; [reflexivity|]); (split; [first [left; lra|right; lra]|]);
    intros w J (a & b & G); cbn zeta;
    unfold nbr, off_x, off_y, tab, tab_x, tab_y in *; cbn [nth] in *;
    match type of G with forall p, In p [?x; ?y; ?z] -> _ =>
      destruct (G x (or_introl eq_refl)) as [E1 E2]; destruct (G y (or_intror (or_introl eq_refl))) as [E3 E4];
      destruct (G z (or_intror (or_intror (or_introl eq_refl)))) as [E5 E6] end;
    cbn [fst snd] in E1, E2, E3, E4, E5, E6; rewrite E1, E2, E3, E4, E5, E6; unfold jtr, jdet;
    rewrite ?plus_IZR, ?minus_IZR; split; field.
Qed.

Lemma linear_part_exists w : exists J, linear_part w P J.
Proof using Hk.
  assert (Hk' := Hk).
  exists (let u0 := fst (w (nbr i j k 0)) in let u1 := fst (w (nbr i j k 1)) in let u2 := fst (w (i, j)) in
    let v0 := snd (w (nbr i j k 0)) in let v1 := snd (w (nbr i j k 1)) in let v2 := snd (w (i, j)) in
    let x0 := IZR (off_x k 0) in let x1 := IZR (off_x k 1) in let y0 := IZR (off_y k 0) in let y1 := IZR (off_y k 1) in
    let d := x0 * y1 - x1 * y0 in
    {| ux := ((u0 - u2) * y1 - (u1 - u2) * y0) / d; uy := ((u1 - u2) * x0 - (u0 - u2) * x1) / d;
       vx := ((v0 - v2) * y1 - (v1 - v2) * y0) / d; vy := ((v1 - v2) * x0 - (v0 - v2) * x1) / d |}).
  match goal with |- linear_part _ _ ?J =>
    exists (fst (w (i, j)) - ux J * IZR j - uy J * IZR i), (snd (w (i, j)) - vx J * IZR j - vy J * IZR i) end.
  intros p Hp. cbn zeta. cbn [ux uy vx vy].
  destruct k as [|[|[|[|[|[|k']]]]]]; [| | | | | |exfalso; lia]; destruct Hp as [<-|[<-|[<-|[]]]];
    unfold nbr, off_x, off_y, tab, tab_x, tab_y; cbn [nth fst snd]; rewrite ?plus_IZR, ?minus_IZR; split; field; lra.
Qed.
End Around.

(** ** The type bound *)
Section TypeCase.
Variables u0 u1 u2 v0 v1 v2 c0 c1 c2 c3 : R.
Let kap := - (c1 * c2 - c0 * c3).
Let tA := - c0 * u2 - c1 * u2. Let tB := - c2 * v2 - c3 * v2. Let tC := c0 * u0 + c1 * u1 + c2 * v0 + c3 * v1.
Let dD := kap * (u2 * v0 - u2 * v1). Let dE := kap * (u1 * v2 - u0 * v2). Let dF := kap * (u0 * v1 - u1 * v0).
Let tr e1 e2 := tC + tA * (1 + e1) + tB * (1 + e2).
Let dt e1 e2 := dF + dD * (1 + e1) + dE * (1 + e2).
Let del e1 e2 := tr e1 e2 * tr e1 e2 - 4 * dt e1 e2.
Let s1 := Rabs (2 * tA * tr 0 0 - 4 * dD).
Let s2 := Rabs (2 * tB * tr 0 0 - 4 * dE).

Lemma del_expand e1 e2 : del e1 e2 = del 0 0 + e1 * (2 * tA * tr 0 0 - 4 * dD) + e2 * (2 * tB * tr 0 0 - 4 * dE) + (tA * e1 + tB * e2) * (tA * e1 + tB * e2).
Proof. unfold del, tr, dt. ring. Qed.

Lemma lin_abs e e1 e2 : Rabs e1 <= e -> Rabs e2 <= e ->
  Rabs (e1 * (2 * tA * tr 0 0 - 4 * dD) + e2 * (2 * tB * tr 0 0 - 4 * dE)) <= e * (s1 + s2).
Proof.
  intros H1 H2. eapply Rle_trans; [apply Rabs_triang|]. rewrite !Rabs_mult. fold s1 s2.
  assert (0 <= s1) by apply Rabs_pos. assert (0 <= s2) by apply Rabs_pos.
  pose proof (Rabs_pos e1). pose proof (Rabs_pos e2). nra.
Qed.

(** Positive discriminant: it stays positive, and then the trace cannot change sign either. *)
Lemma node_case e e1 e2 : 0 <= e -> e * (s1 + s2) < del 0 0 \/ s1 + s2 = 0 /\ 0 < del 0 0 -> Rabs e1 <= e -> Rabs e2 <= e ->
  0 < dt 0 0 -> 0 < dt e1 e2 -> 0 < del e1 e2 /\ 0 < tr 0 0 * tr e1 e2.
Proof.
  intros He HB H1 H2 P0 P1.
  assert (G : forall f1 f2, Rabs f1 <= e -> Rabs f2 <= e -> 0 < del f1 f2).
  { intros f1 f2 F1 F2. rewrite del_expand. pose proof (lin_abs e f1 f2 F1 F2) as L.
    assert (LB : e * (s1 + s2) < del 0 0) by (destruct HB as [HB|[HB1 HB2]]; [exact HB|rewrite HB1; lra]).
    pose proof (Rle_0_sqr (tA * f1 + tB * f2)) as Q. unfold Rsqr in Q. apply Rabs_le_inv in L. lra. }
  split; [auto|].
  destruct (Rlt_le_dec 0 (tr 0 0 * tr e1 e2)) as [|N]; [auto|exfalso].
  assert (Z0 : tr 0 0 <> 0).
  { intros Z. assert (K := G 0 0). rewrite Rabs_R0 in K. specialize (K He He). unfold del in K. rewrite Z in K. lra. }
  assert (HD : tr 0 0 - tr e1 e2 <> 0).
  { intros K. assert (E : tr e1 e2 = tr 0 0) by lra. rewrite E in N. assert (0 < tr 0 0 * tr 0 0) by nra. lra. }
  set (t := tr 0 0 / (tr 0 0 - tr e1 e2)).
  assert (T01 : 0 <= t <= 1).
  { unfold t. destruct (Rtotal_order (tr 0 0) 0) as [L|[L|L]]; [|contradiction|].
    - assert (0 <= tr e1 e2) by nra. assert (tr 0 0 - tr e1 e2 < 0) by lra.
      replace (tr 0 0 / (tr 0 0 - tr e1 e2)) with (- tr 0 0 / (tr e1 e2 - tr 0 0)) by (field; lra).
      split; [apply Rmult_le_pos; [lra|apply Rlt_le, Rinv_0_lt_compat; lra]|].
      apply Rmult_le_reg_r with (tr e1 e2 - tr 0 0); [lra|]. unfold Rdiv. rewrite Rmult_assoc, Rinv_l by lra. lra.
    - assert (tr e1 e2 <= 0) by nra.
      split; [apply Rmult_le_pos; [lra|apply Rlt_le, Rinv_0_lt_compat; lra]|].
      apply Rmult_le_reg_r with (tr 0 0 - tr e1 e2); [lra|]. unfold Rdiv. rewrite Rmult_assoc, Rinv_l by lra. lra. }
  assert (K : 0 < del (t * e1) (t * e2)).
  { apply G; rewrite Rabs_mult, (Rabs_pos_eq t) by lra; pose proof (Rabs_pos e1); pose proof (Rabs_pos e2); nra. }
  assert (TT : tr (t * e1) (t * e2) = 0).
  { replace (tr (t * e1) (t * e2)) with (tr 0 0 - t * (tr 0 0 - tr e1 e2)) by (unfold tr; ring).
    unfold t. field_simplify; [|exact HD]. lra. }
  assert (DD : dt (t * e1) (t * e2) = (1 - t) * dt 0 0 + t * dt e1 e2) by (unfold dt; ring).
  unfold del in K. rewrite TT, DD in K.
  assert (0 < (1 - t) * dt 0 0 + t * dt e1 e2); [|lra].
  destruct (Rle_lt_dec t (1 / 2)); nra.
Qed.

(** Negative discriminant: it stays negative below the root of the quadratic. *)
Lemma focus_case e e1 e2 : let a := (Rabs tA + Rabs tB) * (Rabs tA + Rabs tB) in let b := s1 + s2 in
  0 <= e -> 0 < a -> del 0 0 < 0 -> e < (- b + sqrt (b * b - 4 * a * del 0 0)) / (2 * a) -> Rabs e1 <= e -> Rabs e2 <= e ->
  del e1 e2 < 0.
Proof.
  cbn zeta. set (a := _ * _). set (b := s1 + s2). intros He Ha Hd Hr H1 H2.
  assert (Hb : 0 <= b) by (unfold b, s1, s2; pose proof (Rabs_pos (2 * tA * tr 0 0 - 4 * dD)); pose proof (Rabs_pos (2 * tB * tr 0 0 - 4 * dE)); lra).
  set (q := sqrt _) in Hr.
  assert (Hq0 : 0 <= q) by apply sqrt_pos.
  assert (Hq : q * q = b * b - 4 * a * del 0 0) by (apply sqrt_sqrt; nra).
  assert (L : 2 * a * e + b < q).
  { apply (Rmult_lt_compat_r (2 * a)) in Hr; [|lra]. unfold Rdiv in Hr. rewrite Rmult_assoc, Rinv_l in Hr by lra. lra. }
  assert (N : del 0 0 + b * e + a * e * e < 0).
  { assert (0 <= a * e) by (apply Rmult_le_pos; lra).
    assert ((2 * a * e + b) * (2 * a * e + b) < q * q) by (apply Rmult_le_0_lt_compat; lra).
    apply (Rmult_lt_reg_l (4 * a)); [lra|].
    replace (4 * a * (del 0 0 + b * e + a * e * e)) with ((2 * a * e + b) * (2 * a * e + b) - (b * b - 4 * a * del 0 0)) by ring. lra. }
  rewrite del_expand. pose proof (lin_abs e e1 e2 H1 H2) as HL. apply Rabs_le_inv in HL. fold b in HL.
  assert (HA : Rabs (tA * e1 + tB * e2) <= (Rabs tA + Rabs tB) * e).
  { eapply Rle_trans; [apply Rabs_triang|]. rewrite !Rabs_mult. pose proof (Rabs_pos tA). pose proof (Rabs_pos tB). nra. }
  assert (HS : (tA * e1 + tB * e2) * (tA * e1 + tB * e2) <= a * e * e).
  { rewrite <- (Rabs_pos_eq ((tA * e1 + tB * e2) * (tA * e1 + tB * e2))) by apply Rle_0_sqr. rewrite Rabs_mult.
    replace (a * e * e) with (((Rabs tA + Rabs tB) * e) * ((Rabs tA + Rabs tB) * e)) by (unfold a; ring).
    pose proof (Rabs_pos (tA * e1 + tB * e2)). apply Rmult_le_compat; auto. }
  lra.
Qed.

(** What the type bound guarantees once the sign of the determinant is known to be kept. *)
Lemma type_sound e e1 e2 : u2 <> 0 -> v2 <> 0 -> c0 + c1 <> 0 \/ c2 + c3 <> 0 -> 0 <= e ->
  below e (max_eb_to_keep_type_online XA (Fin u0) (Fin u1) (Fin u2) (Fin v0) (Fin v1) (Fin v2) (Fin c0, Fin c1, Fin c2, Fin c3)) ->
  Rabs e1 <= e -> Rabs e2 <= e -> 0 < dt 0 0 -> 0 < dt e1 e2 ->
  same_sign (tr 0 0) (tr e1 e2) /\ same_sign (del 0 0) (del e1 e2).
Proof.
  intros Hu Hv Hc He HB H1 H2 P0 P1. unfold max_eb_to_keep_type_online in HB.
  cbn [t2d tsub tmul tadd tneg dadd dsub dmul dofZ dabs dneg XA xsub xmul xadd xneg xabs tle t0 tofZ] in HB.
  match type of HB with context [xle (Fin ?x) (Fin 0)] => replace x with (dt 0 0) in HB by (unfold dt, dF, dD, dE, kap; ring) end.
  replace (xle (Fin (dt 0 0)) (Fin 0)) with false in HB by (symmetry; apply xle_fin_false; exact P0).
  fold kap in HB. fold tA in HB. fold tB in HB. fold tC in HB. fold dD in HB. fold dE in HB. fold dF in HB.
  replace (tC + (tA + tB)) with (tr 0 0) in HB by (unfold tr; ring).
  replace (tr 0 0 * tr 0 0 - 4 * (dF + (dD + dE))) with (del 0 0) in HB by (unfold del, dt; ring).
  fold s1 in HB. fold s2 in HB. cbn [deq dlt XA] in HB.
  destruct (xeq (Fin (del 0 0)) (Fin 0)) eqn:E0; [apply below_fin in HB; lra|]. apply xeq_fin_false in E0.
  destruct (xlt (Fin 0) (Fin (del 0 0))) eqn:E1.
  - apply xlt_fin in E1.
    assert (HN : e * (s1 + s2) < del 0 0 \/ s1 + s2 = 0 /\ 0 < del 0 0).
    { destruct (xeq (Fin (s1 + s2)) (Fin 0)) eqn:E2; [apply xeq_fin in E2; auto|]. apply xeq_fin_false in E2. left.
      cbn [ddiv XA] in HB. rewrite xdiv_fin in HB by auto.
      apply below_minf in HB as [_ HB]; [|apply keep_rel_notnan|discriminate]. apply below_fin in HB.
      assert (0 < s1 + s2).
      { assert (0 <= s1) by apply Rabs_pos. assert (0 <= s2) by apply Rabs_pos. lra. }
      apply (Rmult_lt_compat_r (s1 + s2)) in HB; [|lra]. unfold Rdiv in HB. rewrite Rmult_assoc, Rinv_l in HB by auto. lra. }
    destruct (node_case e e1 e2 He HN H1 H2 P0 P1) as [Q1 Q2].
    split; apply same_sign_prod; auto. nra.
  - apply xlt_fin_false in E1. cbn [ddiv dsqrt XA xsqrt] in HB.
    set (a := (Rabs tA + Rabs tB) * (Rabs tA + Rabs tB)) in HB.
    assert (Ha : 0 < a).
    { assert (0 < Rabs tA + Rabs tB); [|unfold a; nra].
      pose proof (Rabs_pos tA). pose proof (Rabs_pos tB). destruct Hc as [Hc|Hc].
      - assert (tA <> 0) by (replace tA with (- ((c0 + c1) * u2)) by (unfold tA; ring); apply Ropp_neq_0_compat, Rmult_integral_contrapositive; auto).
        pose proof (Rabs_pos_lt tA). intuition lra.
      - assert (tB <> 0) by (replace tB with (- ((c2 + c3) * v2)) by (unfold tB; ring); apply Ropp_neq_0_compat, Rmult_integral_contrapositive; auto).
        pose proof (Rabs_pos_lt tB). intuition lra. }
    rewrite Rlt_bool_false in HB by (assert (0 <= a * - del 0 0) by (apply Rmult_le_pos; lra); pose proof (Rle_0_sqr (s1 + s2)) as QQ; unfold Rsqr in QQ; lra). cbn [xadd] in HB. rewrite xdiv_fin in HB by lra.
    apply below_minf in HB as [B1 B2]; [|apply keep_rel_notnan|discriminate]. apply below_fin in B2.
    assert (Q : del e1 e2 < 0) by (apply (focus_case e); auto; fold a; lra).
    split.
    + apply same_sign_prod. apply (keep_rel_sound _ _ _ e e1 e2) in B1; auto.
      replace (tr 0 0 * tr e1 e2) with ((tA + tB + tC) * (tA * (1 + e1) + tB * (1 + e2) + tC)) by (unfold tr; ring). exact B1.
    + apply same_sign_prod. nra.
Qed.
End TypeCase.

(** ** A triangle: updates below the derived bound keep existence and type *)
Lemma has_cp_flags w0 w1 w2 : has_cp w0 w1 w2 ->
  let m0 := mM0 w0 w1 w2 in let m1 := mM1 w0 w1 w2 in let m2 := mM2 w0 w1 w2 in
  0 <= m0 * (m1 + m2) /\ 0 <= m1 * (m0 + m2) /\ 0 <= m2 * (m0 + m1).
Proof.
  intros H. cbn zeta. repeat split.
  - destruct (Rlt_le_dec (mM0 w0 w1 w2 * (mM1 w0 w1 w2 + mM2 w0 w1 w2)) 0) as [L|]; [exfalso; exact (no_cp0 _ _ _ L H)|auto].
  - destruct (Rlt_le_dec (mM1 w0 w1 w2 * (mM0 w0 w1 w2 + mM2 w0 w1 w2)) 0) as [L|]; [exfalso; exact (no_cp1 _ _ _ L H)|auto].
  - destruct (Rlt_le_dec (mM2 w0 w1 w2 * (mM0 w0 w1 w2 + mM1 w0 w1 w2)) 0) as [L|]; [exfalso; exact (no_cp2 _ _ _ L H)|auto].
Qed.

Theorem derive_type_sound u0 u1 u2 v0 v1 v2 c0 c1 c2 c3 e e1 e2 :
  u2 <> 0 -> v2 <> 0 -> c0 + c1 <> 0 \/ c2 + c3 <> 0 -> 0 <= e ->
  below e (derive_cp_eb_for_positions_online XA (Fin u0) (Fin u1) (Fin u2) (Fin v0) (Fin v1) (Fin v2) (Fin c0, Fin c1, Fin c2, Fin c3)) ->
  Rabs e1 <= e -> Rabs e2 <= e -> has_cp (u0, v0) (u1, v1) (u2, v2) ->
  let k := - (c1 * c2 - c0 * c3) in
  let tr x y := c0 * (u0 - x) + c1 * (u1 - x) + c2 * (v0 - y) + c3 * (v1 - y) in
  let dt x y := k * (u0 * v1 - u0 * y + u1 * y - u1 * v0 + x * v0 - x * v1) in
  let d x y := tr x y * tr x y - 4 * dt x y in
  same_sign (dt u2 v2) (dt (u2 * (1 + e1)) (v2 * (1 + e2))) /\
  (0 < dt u2 v2 -> same_sign (tr u2 v2) (tr (u2 * (1 + e1)) (v2 * (1 + e2))) /\ same_sign (d u2 v2) (d (u2 * (1 + e1)) (v2 * (1 + e2)))).
Proof.
  intros Hu Hv Hc He HB D1 D2 HCP k tr dt d. unfold derive_cp_eb_for_positions_online in HB.
  pose proof (type_notnan u0 u1 u2 v0 v1 v2 c0 c1 c2 c3 Hu Hv Hc) as HT.
  set (typ := max_eb_to_keep_type_online _ _ _ _ _ _ _ _) in *.
  cbn [t2d tsub tmul tadd tneg dadd dofZ XA xsub xmul xadd xneg t0 tofZ] in HB.
  set (M0 := u2 * v0 - u0 * v2) in *. set (M1 := u1 * v2 - u2 * v1) in *. set (M2 := u0 * v1 - u1 * v0) in *.
  set (M := M0 + M1 + M2) in *.
  destruct (deq XA (Fin M) (Fin 0)) eqn:EM; [apply below_fin in HB; lra|]. apply xeq_fin_false in EM.
  destruct (has_cp_flags _ _ _ HCP) as (G0 & G1 & G2). unfold mM0, mM1, mM2 in G0, G1, G2. cbn [fst snd] in G0, G1, G2. fold M0 M1 M2 in G0, G1, G2.
  assert (F0 : (deq XA (Fin M0) (Fin 0) || dle XA (Fin 1) (ddiv XA (Fin M) (Fin M0)))%bool = true).
  { apply not_false_iff_true. intros E. apply flag_false in E as [_ E]. unfold M in E. lra. }
  assert (F1 : (deq XA (Fin M1) (Fin 0) || dle XA (Fin 1) (ddiv XA (Fin M) (Fin M1)))%bool = true).
  { apply not_false_iff_true. intros E. apply flag_false in E as [_ E]. unfold M in E. lra. }
  assert (F2 : (deq XA (Fin M2) (Fin 0) || dle XA (Fin 1) (ddiv XA (Fin M) (Fin M2)))%bool = true).
  { apply not_false_iff_true. intros E. apply flag_false in E as [_ E]. unfold M in E. lra. }
  rewrite F0, F1, F2 in HB. cbn [andb] in HB.
  apply flag_true in F0 as [_ F0]. apply flag_true in F1 as [_ F1]. apply flag_true in F2 as [_ F2].
  apply below_minf in HB as [B1 B2]; auto.
  2:{ unfold max_eb_to_keep_position_online. cbn [tneg XA xneg t0 tofZ]. apply notnan_minf, keep_rel_notnan. }
  destruct (position_sound u0 u1 u2 v0 v1 v2 e e1 e2 He B1 D1 D2) as [P0 P1]. fold M0 in P0. fold M1 in P1.
  destruct (same_sign_cp _ _ _ _ _ EM F0 F1 F2 P0 P1) as (PM & _).
  set (M' := u2 * (1 + e1) * v0 - u0 * (v2 * (1 + e2)) + (u1 * (v2 * (1 + e2)) - u2 * (1 + e1) * v1) + M2) in PM.
  assert (E1 : dt u2 v2 = k * M) by (unfold dt, M, M0, M1, M2; ring).
  assert (E2 : dt (u2 * (1 + e1)) (v2 * (1 + e2)) = k * M') by (unfold dt, M', M2; ring).
  assert (SS : same_sign (dt u2 v2) (dt (u2 * (1 + e1)) (v2 * (1 + e2)))).
  { rewrite E1, E2. destruct (Req_dec k 0) as [->|Hk]; [rewrite !Rmult_0_l; apply same_sign_refl|].
    apply same_sign_prod. replace (k * M * (k * M')) with (k * k * (M * M')) by ring.
    apply Rmult_lt_0_compat; [|exact PM]. destruct (Rtotal_order k 0) as [L|[L|L]]; [|contradiction|]; nra. }
  split; [exact SS|]. intros PD. assert (PD' := proj1 (proj1 SS) PD).
  destruct (type_sound u0 u1 u2 v0 v1 v2 c0 c1 c2 c3 e e1 e2 Hu Hv Hc He B2 D1 D2) as [Q1 Q2].
  - match goal with |- 0 < ?x => replace x with (dt u2 v2) by (unfold dt, k; ring) end. exact PD.
  - match goal with |- 0 < ?x => replace x with (dt (u2 * (1 + e1)) (v2 * (1 + e2))) by (unfold dt, k; ring) end. exact PD'.
  - split.
    + match type of Q1 with same_sign ?x ?y => replace x with (tr u2 v2) in Q1 by (unfold tr; ring);
        replace y with (tr (u2 * (1 + e1)) (v2 * (1 + e2))) in Q1 by (unfold tr; ring) end. exact Q1.
    + match type of Q2 with same_sign ?x ?y => replace x with (d u2 v2) in Q2 by (unfold d, tr, dt, k; ring);
        replace y with (d (u2 * (1 + e1)) (v2 * (1 + e2))) in Q2 by (unfold d, tr, dt, k; ring) end. exact Q2.
Qed.

(** ** Fields *)
(** Existence and type of the critical point of every cell agree. *)
Definition type_rel (w w' : Z * Z -> R * R) (a b c : Z * Z) : Prop :=
  (has_cp (w a) (w b) (w c) <-> has_cp (w' a) (w' b) (w' c)) /\
   (has_cp (w a) (w b) (w c) -> forall J J', linear_part w [a; b; c] J -> linear_part w' [a; b; c] J' -> same_type J J').

Lemma cell_jac r1 r2 a b c w : cell r1 r2 a b c -> exists J, linear_part w [a; b; c] J.
Proof.
  intros HC. destruct a as [i j] eqn:Ea. destruct (table_complete _ _ _ _ _ i j HC (or_introl eq_refl)) as (k & Hk & _ & HS).
  destruct (linear_part_exists i j k Hk w) as [J HJ]. exists J. eapply linear_part_incl; [|exact HJ].
  intros p Hp. exact (Permutation_in _ HS Hp).
Qed.

Lemma linear_part_eq r1 r2 a b c w J J' : cell r1 r2 a b c -> linear_part w [a; b; c] J -> linear_part w [a; b; c] J' ->
  jtr J = jtr J' /\ jdet J = jdet J'.
Proof.
  intros HC H1 H2. destruct a as [i j] eqn:Ea. destruct (table_complete _ _ _ _ _ i j HC (or_introl eq_refl)) as (k & Hk & _ & HS).
  destruct (inv_C_jac i j k Hk) as (c0 & c1 & c2 & c3 & _ & _ & G).
  assert (I : incl [nbr i j k 0; nbr i j k 1; (i, j)] [(i, j); b; c]) by (intros p Hp; exact (Permutation_in _ (Permutation_sym HS) Hp)).
  destruct (G w J) as [E1 E2]; [eapply linear_part_incl; eauto|]. destruct (G w J') as [E3 E4]; [eapply linear_part_incl; eauto|].
  rewrite E1, E2, E3, E4. auto.
Qed.
Lemma same_type_eq J1 J2 : jtr J1 = jtr J2 -> jdet J1 = jdet J2 -> same_type J1 J2.
Proof.
  intros E1 E2. split; [rewrite E2; apply same_sign_refl|]. intros _. unfold jdisc. rewrite E1, E2. split; apply same_sign_refl.
Qed.

Lemma type_rel_refl r1 r2 w a b c : cell r1 r2 a b c -> type_rel w w a b c.
Proof.
  intros HC. split; [tauto|]. intros _ J J' H1 H2. destruct (linear_part_eq _ _ _ _ _ _ _ _ HC H1 H2). apply same_type_eq; auto.
Qed.
Lemma type_rel_trans r1 r2 w1 w2 w3 a b c : cell r1 r2 a b c -> type_rel w1 w2 a b c -> type_rel w2 w3 a b c -> type_rel w1 w3 a b c.
Proof.
  intros HC [H1 K1] [H2 K2]. split; [tauto|]. intros H J J' L1 L2. destruct (cell_jac _ _ _ _ _ w2 HC) as [J2 L].
  eapply same_type_trans; [apply K1; eauto|apply K2; eauto; tauto].
Qed.

Lemma type_change max_eb r1 r2 U V U' V' i j r d0 d1 :
  (0 <= i < r1)%Z -> (0 <= j < r2)%Z -> allfin U -> allfin V ->
  required_eb_rel XA (Fin max_eb) U V r1 r2 i j = Some (Fin r) ->
  atR U (i * r2 + j) <> 0 -> atR V (i * r2 + j) <> 0 ->
  Rabs (d0 - atR U (i * r2 + j)) < Rabs (atR U (i * r2 + j)) * r ->
  Rabs (d1 - atR V (i * r2 + j)) < Rabs (atR V (i * r2 + j)) * r ->
  aset U (i * r2 + j) (Fin d0) = Some U' -> aset V (i * r2 + j) (Fin d1) = Some V' ->
  forall a b d, cell r1 r2 a b d -> type_rel (vec r2 U V) (vec r2 U' V') a b d.
Proof.
  intros Hi Hj FU FV Er Nu Nv T0 T1 EU EV a b d HC.
  pose proof (rel_change max_eb r1 r2 U V U' V' i j r d0 d1 Hi Hj FU FV Er Nu Nv T0 T1 EU EV a b d HC) as [HI _].
  split; [exact HI|]. intros HCP J J' LJ LJ'.
  assert (GU : forall k, k <> (i * r2 + j)%Z -> aget U' k = aget U k).
  { intros k Hk. rewrite (proj2 (proj2 (aset_Some _ _ _ _ EU))). replace (k =? i * r2 + j)%Z with false by lia. auto. }
  assert (GV : forall k, k <> (i * r2 + j)%Z -> aget V' k = aget V k).
  { intros k Hk. rewrite (proj2 (proj2 (aset_Some _ _ _ _ EV))). replace (k =? i * r2 + j)%Z with false by lia. auto. }
  destruct (cell_points _ _ _ _ _ HC) as [ND HP]. rewrite Forall_forall in HP.
  destruct (in_dec ZZ_dec (i, j) [a; b; d]) as [HIn|HIn].
  2:{ assert (G : forall x, In x [a; b; d] -> vec r2 U V x = vec r2 U' V' x).
      { intros x Hx. symmetry. apply (vec_other r2 U V U' V' i j); auto. - apply HP; auto. - intros ->. auto. }
      destruct (linear_part_eq _ _ _ _ _ _ _ _ HC LJ (linear_part_ext _ _ _ _ G LJ')). apply same_type_eq; auto. }
  destruct (table_complete _ _ _ _ _ _ _ HC HIn) as (k & Hk & HM & HS). unfold same_cell in HS.
  assert (E0 : vec r2 U' V' (nbr i j k 0) = vec r2 U V (nbr i j k 0)).
  { apply (vec_other r2 U V U' V' i j); auto.
    - apply HP. apply (Permutation_in _ (Permutation_sym HS)). left; auto.
    - intros E. assert (ND' := Permutation_NoDup HS ND). rewrite E in ND'. inversion ND'; subst.
      match goal with H : ~ In _ _ |- _ => apply H; right; left; auto end. }
  assert (E1 : vec r2 U' V' (nbr i j k 1) = vec r2 U V (nbr i j k 1)).
  { apply (vec_other r2 U V U' V' i j); auto.
    - apply HP. apply (Permutation_in _ (Permutation_sym HS)). right; left; auto.
    - intros E. assert (ND' := Permutation_NoDup HS ND). rewrite E in ND'. inversion ND' as [|? ? _ ND'']; subst.
      inversion ND''; subst. match goal with H : ~ In _ _ |- _ => apply H; left; auto end. }
  set (u := atR U (i * r2 + j)) in *. set (v := atR V (i * r2 + j)) in *.
  assert (A0 : atR U' (i * r2 + j) = d0).
  { unfold atR. rewrite (proj2 (proj2 (aset_Some _ _ _ _ EU))), Z.eqb_refl. reflexivity. }
  assert (A1 : atR V' (i * r2 + j) = d1).
  { unfold atR. rewrite (proj2 (proj2 (aset_Some _ _ _ _ EV))), Z.eqb_refl. reflexivity. }
  pose proof (Rabs_pos_lt _ Nu) as Pu. pose proof (Rabs_pos_lt _ Nv) as Pv.
  set (f0 := (d0 - u) / u). set (f1 := (d1 - v) / v).
  assert (R0 : Rabs f0 < r).
  { unfold f0, Rdiv. rewrite Rabs_mult, Rabs_inv. apply (Rmult_lt_reg_r (Rabs u)); auto. rewrite Rmult_assoc, Rinv_l by lra. lra. }
  assert (R1 : Rabs f1 < r).
  { unfold f1, Rdiv. rewrite Rabs_mult, Rabs_inv. apply (Rmult_lt_reg_r (Rabs v)); auto. rewrite Rmult_assoc, Rinv_l by lra. lra. }
  set (e := Rmax (Rabs f0) (Rabs f1)).
  assert (HB : below e (Fin r)) by (apply below_fin; unfold e; apply Rmax_lub_lt; auto).
  assert (He0 : 0 <= e) by (unfold e; eapply Rle_trans; [apply Rabs_pos|apply Rmax_l]).
  unfold required_eb_rel in Er. apply (req_loop_below _ _ _ _ _ _ _ e) in Er; auto; [|
    intros k' w Hk' HM' Hv; apply in_six in Hk'; apply (tri_values_vec _ _ _ _ _ _ _ Hk' FU FV) in Hv; cbn zeta in Hv;
    rewrite Hv; destruct (inv_C_fin k' Hk') as (x0 & x1 & x2 & x3 & Ex & Hx); rewrite Ex; apply derive_rel_sound; auto | discriminate].
  destruct Er as [_ HK]. assert (Hk6 := Hk). apply in_six in Hk6. destruct (HK k Hk6 HM) as (w & Hv & Bk).
  apply (tri_values_vec _ _ _ _ _ _ _ Hk FU FV) in Hv. cbn zeta in Hv. rewrite Hv in Bk.
  destruct (inv_C_jac i j k Hk) as (c0 & c1 & c2 & c3 & EC & Hc & HJ). rewrite EC in Bk.
  assert (I : incl [nbr i j k 0; nbr i j k 1; (i, j)] [a; b; d]) by (intros p Hp; exact (Permutation_in _ (Permutation_sym HS) Hp)).
  destruct (HJ _ _ (linear_part_incl _ _ _ _ I LJ)) as [TJ DJ]. destruct (HJ _ _ (linear_part_incl _ _ _ _ I LJ')) as [TJ' DJ'].
  cbn zeta in TJ, DJ, TJ', DJ'. rewrite E0, E1 in TJ', DJ'.
  assert (CC : has_cp (vec r2 U V (nbr i j k 0)) (vec r2 U V (nbr i j k 1)) (vec r2 U V (i, j))) by (eapply has_cp_perm; [exact HS|exact HCP]).
  set (wa := vec r2 U V (nbr i j k 0)) in *. set (wb := vec r2 U V (nbr i j k 1)) in *.
  assert (EW : vec r2 U V (i, j) = (u, v)) by reflexivity.
  assert (EW' : vec r2 U' V' (i, j) = (u * (1 + f0), v * (1 + f1))).
  { unfold vec, lin. cbn [fst snd]. rewrite A0, A1. unfold f0, f1. f_equal; field; auto. }
  rewrite EW in CC, TJ, DJ, Bk. rewrite EW' in TJ', DJ'. cbn [fst snd] in TJ, DJ, TJ', DJ', Bk.
  rewrite (surjective_pairing wa), (surjective_pairing wb) in CC.
  destruct (derive_type_sound (fst wa) (fst wb) u (snd wa) (snd wb) v c0 c1 c2 c3 e f0 f1 Nu Nv Hc He0 Bk (Rmax_l _ _) (Rmax_r _ _) CC) as [Q1 Q2].
  split; [rewrite DJ, DJ'; exact Q1|]. intros PD. unfold jdisc. rewrite TJ, DJ, TJ', DJ'. apply Q2. rewrite <- DJ. exact PD.
Qed.

Lemma type_step max_eb r1 r2 U V U' V' i j c :
  (0 <= i < r1)%Z -> (0 <= j < r2)%Z -> allfin U -> allfin V ->
  outcome XA (required_eb_rel XA (Fin max_eb)) (fun cur eb => dmul XA (t2d XA (tabs XA cur)) eb) r1 r2 U V i j U' V' c ->
  allfin U' /\ allfin V' /\
  forall a b d, cell r1 r2 a b d -> type_rel (vec r2 U V) (vec r2 U' V') a b d.
Proof.
  intros Hi Hj FU FV HO. pose proof (outcome_local _ _ _ _ _ _ _ _ _ _ _ _ HO) as (_ & _ & GU & GV).
  destruct HO as [u v Eu Ev|u v eb id0 id1 q0 q1 x0 x1 U' V' Eu Ev Er Hp C0 C1 EU EV].
  - split; auto. split; auto. intros. eapply type_rel_refl; eauto.
  - pose proof (atR_fin _ _ _ FU Eu) as Fu. pose proof (atR_fin _ _ _ FV Ev) as Fv. subst u v.
    destruct (coded_exact _ _ _ _ _ _ _ _ _ FU C0) as (d0 & e0 & -> & E0 & D0 & T0).
    destruct (coded_exact _ _ _ _ _ _ _ _ _ FV C1) as (d1 & e1 & -> & E1 & D1 & T1).
    set (u := atR U (i * r2 + j)) in *. set (v := atR V (i * r2 + j)) in *.
    cbn [dmul t2d tabs XA xabs] in E0, E1.
    assert (HE : exists r, eb = Fin r).
    { destruct eb; eauto; exfalso; cbn [xmul] in E0; unfold xinf in E0;
        repeat match type of E0 with context [if ?b then _ else _] => destruct b end; discriminate. }
    destruct HE as [r ->]. cbn [xmul] in E0, E1. injection E0 as E0. injection E1 as E1.
    split; [eapply allfin_aset; [exact FU|exact EU]|]. split; [eapply allfin_aset; [exact FV|exact EV]|].
    assert (Nu : u <> 0) by (intros X; rewrite X, Rabs_R0 in E0; lra).
    assert (Nv : v <> 0) by (intros X; rewrite X, Rabs_R0 in E1; lra).
    apply (type_change max_eb r1 r2 U V U' V' i j r d0 d1); auto; fold u v; lra.
Qed.

(** Any relation between fields that holds for each step and composes holds for the whole scan. *)
Section Field.
Variables (req : list XR -> list XR -> Z -> Z -> Z -> Z -> option XR) (abs_eb : XR -> XR -> XR) (r1 r2 : Z).
Hypothesis step : forall U V U' V' i j c, (0 <= i < r1)%Z -> (0 <= j < r2)%Z -> allfin U -> allfin V ->
  outcome XA req abs_eb r1 r2 U V i j U' V' c ->
  allfin U' /\ allfin V' /\ forall a b d, cell r1 r2 a b d -> type_rel (vec r2 U V) (vec r2 U' V') a b d.

Lemma field_types U V U' V' c :
  (0 <= r1)%Z -> (0 < r2)%Z -> Z.of_nat (length U) = (r1 * r2)%Z -> Z.of_nat (length V) = (r1 * r2)%Z ->
  allfin U -> allfin V -> enc_field XA req abs_eb r1 r2 U V = Some (U', V', c) ->
  allfin U' /\ allfin V' /\ forall a b d, cell r1 r2 a b d -> type_rel (vec r2 U V) (vec r2 U' V') a b d.
Proof.
  intros H1 H2 LU LV FU FV H.
  destruct (field_trace XA _ _ _ _ _ _ _ _ _ H1 H2 LU LV H) as (L1 & L2 & HT).
  assert (G : forall n : nat, (Z.of_nat n <= r1 * r2)%Z ->
    allfin (mix (Z.of_nat n) U' U) /\ allfin (mix (Z.of_nat n) V' V) /\
    forall a b d, cell r1 r2 a b d -> type_rel (vec r2 U V) (vec r2 (mix (Z.of_nat n) U' U) (mix (Z.of_nat n) V' V)) a b d).
  { induction n as [|n IH]; intros Hn.
    - cbn [Z.of_nat]. rewrite !mix_0. split; auto. split; auto. intros. eapply type_rel_refl; eauto.
    - destruct IH as (F1 & F2 & IC); [lia|]. set (p := Z.of_nat n) in *.
      assert (Hj : (0 <= p mod r2 < r2)%Z) by (apply Z.mod_pos_bound; auto).
      assert (Hi : (0 <= p / r2 < r1)%Z).
      { split; [apply Z.div_pos; lia|]. apply Z.div_lt_upper_bound; lia. }
      destruct (HT (p / r2)%Z (p mod r2)%Z Hi Hj) as [cq HO].
      replace (p / r2 * r2 + p mod r2)%Z with p in HO by (pose proof (Z.div_mod p r2); lia).
      destruct (step _ _ _ _ _ _ _ Hi Hj F1 F2 HO) as (F1' & F2' & SC).
      replace (Z.of_nat (S n)) with (p + 1)%Z by lia. split; auto. split; auto.
      intros a b d HC. eapply type_rel_trans; [exact HC|apply IC|apply SC]; auto. }
  destruct (G (Z.to_nat (r1 * r2)) ltac:(lia)) as (G1 & G2 & G3).
  assert (EU : mix (Z.of_nat (Z.to_nat (r1 * r2))) U' U = U') by (apply mix_all; [exact L1|eapply Z.le_trans; [apply Z.eq_le_incl; exact LU|lia]]).
  assert (EV : mix (Z.of_nat (Z.to_nat (r1 * r2))) V' V = V') by (apply mix_all; [exact L2|eapply Z.le_trans; [apply Z.eq_le_incl; exact LV|lia]]).
  rewrite EU in *. rewrite EV in *. auto.
Qed.
End Field.

Lemma type_rel_vecR r1 r2 u v u' v' a b d : cell r1 r2 a b d ->
  type_rel (vec r2 (map Fin u) (map Fin v)) (vec r2 (map Fin u') (map Fin v')) a b d -> type_rel (vecR r2 u v) (vecR r2 u' v') a b d.
Proof.
  intros HC [H1 H2].
  assert (G : forall x y z, In z [a; b; d] -> vec r2 (map Fin x) (map Fin y) z = vecR r2 x y z) by (intros; eapply vec_map; eauto).
  rewrite !G in H1 by (cbn; auto). rewrite !G in H2 by (cbn; auto). split; [exact H1|]. intros HCP J J' L1 L2.
  apply H2; auto; (eapply linear_part_ext; [|eassumption]; intros; apply G; auto).
Qed.

Theorem rel_keeps_types max_eb r1 r2 u v U' V' c :
  (0 <= r1)%Z -> (0 < r2)%Z -> Z.of_nat (length u) = (r1 * r2)%Z -> Z.of_nat (length v) = (r1 * r2)%Z ->
  enc_online XA (Fin max_eb) r1 r2 (map Fin u) (map Fin v) = Some (U', V', c) ->
  exists u' v', decode r1 r2 c = Some (map Fin u', map Fin v') /\
  forall a b d, cell r1 r2 a b d -> type_rel (vecR r2 u v) (vecR r2 u' v') a b d.
Proof.
  intros H1 H2 Lu Lv H. exists (map toR U'), (map toR V').
  destruct (field_types _ _ r1 r2 (fun U V U' V' i j c => type_step max_eb r1 r2 U V U' V' i j c)
              (map Fin u) (map Fin v) U' V' c H1 H2 ltac:(rewrite map_length; auto) ltac:(rewrite map_length; auto)
              (allfin_map u) (allfin_map v) H) as (F1 & F2 & HC).
  rewrite <- (allfin_inv U' F1), <- (allfin_inv V' F2).
  split. { eapply decode_ok; eauto; rewrite map_length; auto. }
  intros a b d Hc. specialize (HC a b d Hc). rewrite (allfin_inv U' F1), (allfin_inv V' F2) in HC.
  eapply type_rel_vecR; eauto.
Qed.
