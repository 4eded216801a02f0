(** The offline 3D bounds in exact arithmetic: below the bound of a tetrahedron, no simultaneous relative change of its twelve values
    creates or removes a critical point.  Nothing of /repo is modelled here. *)
From Coq Require Import Reals Lra Lia Psatz ZArith List Bool.
From Coq Require Import ZifyBool ZifyNat.
From Flocq Require Import Core.Raux.
From Verif Require Import Base Arith Mesh2D Mesh3D Derive2D Derive3D Exact Geo2D Type2D Offline2D OfflineSound2D Geo3D Geo3DRel LinQuant BlockRefute Off3D.
Import ListNotations.
Local Open Scope R_scope.

(** The cube root: exact on positive numbers; positive at 0. *)
Definition cube_root0 (acbrt : XR -> XR) : Prop :=
  (forall x, 0 < x -> exists y, acbrt (Fin x) = Fin y /\ 0 < y /\ y * y * y = x) /\ exists c, acbrt (Fin 0) = Fin c /\ 0 < c.

Lemma ppart_app a b : ppart (a ++ b) = ppart a + ppart b.
Proof. unfold ppart, sum. rewrite map_app. induction a as [|x a IH]; cbn [map app fold_right]; [lra|]. rewrite IH. lra. Qed.
Lemma npart_app a b : npart (a ++ b) = npart a + npart b.
Proof. unfold npart, sum. rewrite map_app. induction a as [|x a IH]; cbn [map app fold_right]; [lra|]. rewrite IH. lra. Qed.
Lemma ones_app a b : ones (a ++ b) = ones a ++ ones b.
Proof. apply map_app. Qed.
Lemma sum_app a b : sum (a ++ b) = sum a + sum b.
Proof. unfold sum. induction a as [|x a IH]; cbn [app fold_right]; [lra|]. rewrite IH. lra. Qed.

Section Keep.
Variable acbrt : XR -> XR.
Hypothesis HC : cube_root0 acbrt.
Local Notation keep := (keep3 XA XO acbrt).
Local Notation P l := (ppart (ones (map fst l))).
Local Notation N l := (npart (ones (map fst l))).

(** The bound exists, lies in [0,1] and keeps the sign of the sum, which is then not zero. *)
Lemma keep3_sound (l : list (R * R)) :
  exists b, keep (Fin (P l)) (Fin (N l)) = Fin b /\ 0 <= b <= 1 /\
  forall e, 0 <= e < b -> Forall (fun x => change e 3 (snd x)) l ->
    0 < sum (map fst l) * sum (map (fun x => fst x * snd x) l).
Proof using HC.
  set (p := P l). set (n := N l).
  assert (S1 : sum (map fst l) = p - n).
  { unfold p, n. rewrite parts_sum. unfold ones. rewrite !map_map. f_equal. apply map_ext. intros. cbn. ring. }
  assert (NN : 0 <= p /\ 0 <= n).
  { destruct (parts_range 0 1 (map (fun x => (fst x, 1)) l)) as (H1 & H2 & _); [lra|apply Forall_map, Forall_forall; cbn; intros; lra|].
    rewrite map_map in H1, H2. cbn [fst] in H1, H2. split; [exact H1|exact H2]. }
  assert (RG : forall e, 0 <= e <= 1 -> Forall (fun x => change e 3 (snd x)) l ->
            (1 - e) ^ 3 * p <= ppart l <= (1 + e) ^ 3 * p /\ (1 - e) ^ 3 * n <= npart l <= (1 + e) ^ 3 * n).
  { intros e He F. apply (parts_range ((1 - e) ^ 3) ((1 + e) ^ 3) l); [apply pow_le; lra|].
    eapply Forall_impl; [|exact F]. intros x Hx. cbn beta. apply change_range; auto. }
  rewrite S1. setoid_rewrite <- parts_sum. clearbody p n. clear S1. destruct NN as [Hp Hn]. destruct HC as [HR (c & Ec & Pc)].
  assert (RT : forall x, 0 <= x -> exists y, acbrt (Fin x) = Fin y /\ 0 < y /\ (x = 0 -> y = c) /\ (0 < x -> x = y ^ 3)).
  { intros x [Hx| <-].
    - destruct (HR x Hx) as (y & E & Py & C). exists y. repeat split; auto; intros; [lra|]. cbn. lra.
    - exists c. repeat split; auto. lra. }
  destruct (RT p Hp) as (y & Ey & Py & Y0 & Y1). destruct (RT n Hn) as (z & Ez & Pz & Z0 & Z1).
  unfold keep3. rewrite Ey, Ez. cbn [fsub fadd fabsf fdiv XO xsub xadd xabs]. rewrite xdiv_fin by lra.
  exists (Rabs (y - z) / (y + z)). split; [reflexivity|].
  assert (B1 : 0 <= Rabs (y - z) / (y + z) <= 1).
  { split; [apply Rmult_le_pos; [apply Rabs_pos|left; apply Rinv_0_lt_compat; lra]|].
    apply (Rmult_le_reg_r (y + z)); [lra|]. unfold Rdiv. rewrite Rmult_assoc, Rinv_l by lra. rewrite Rmult_1_r, Rmult_1_l.
    unfold Rabs; destruct (Rcase_abs _); lra. }
  split; [exact B1|]. intros e He F. destruct (RG e ltac:(lra) F) as [R1 R2].
  assert (Q1 : 0 < (1 - e) ^ 3) by (apply pow_lt; lra). assert (Q2 : 0 < (1 + e) ^ 3) by (apply pow_lt; lra).
  set (a := (1 - e) ^ 3) in *. set (b := (1 + e) ^ 3) in *.
  destruct Hp as [Hp|Hp], Hn as [Hn|Hn].
  - specialize (Y1 Hp). specialize (Z1 Hn).
    apply (sign_of_gap p n (ppart l) (npart l) 3 y z e); auto; try lia; fold a b; lra.
  - subst n. assert (npart l = 0) by lra. assert (0 < ppart l) by (assert (0 < a * p) by (apply Rmult_lt_0_compat; auto); lra). rewrite H. nra.
  - subst p. assert (ppart l = 0) by lra. assert (0 < npart l) by (assert (0 < a * n) by (apply Rmult_lt_0_compat; auto); lra). rewrite H. nra.
  - exfalso. rewrite (Y0 (eq_sym Hp)), (Z0 (eq_sym Hn)) in He. rewrite Rminus_diag_eq, Rabs_R0 in He by auto. unfold Rdiv in He. lra.
Qed.
End Keep.

(** ** One tetrahedron *)
Section Tet.
Variable acbrt : XR -> XR.
Hypothesis HC : cube_root0 acbrt.
Variables (x0 x1 x2 x3 : V3).                              (* original vectors *)
Variables (e : R) (a0 a1 a2 a3 b0 b1 b2 b3 c0 c1 c2 c3 : R).   (* relative changes *)
Hypothesis He : 0 <= e.
Hypotheses (A0 : Rabs a0 <= e) (A1 : Rabs a1 <= e) (A2 : Rabs a2 <= e) (A3 : Rabs a3 <= e)
           (B0 : Rabs b0 <= e) (B1 : Rabs b1 <= e) (B2 : Rabs b2 <= e) (B3 : Rabs b3 <= e)
           (C0 : Rabs c0 <= e) (C1 : Rabs c1 <= e) (C2 : Rabs c2 <= e) (C3 : Rabs c3 <= e).
Let y0 := scaled x0 a0 b0 c0. Let y1 := scaled x1 a1 b1 c1. Let y2 := scaled x2 a2 b2 c2. Let y3 := scaled x3 a3 b3 c3.

(** A term of a minor and its factor. *)
Let tm (s : R) (u a v b w c : R) : R * R := (s * (u * v * w), (1 + a) * (1 + b) * (1 + c)).
Let u0 := cx x0. Let u1 := cx x1. Let u2 := cx x2. Let u3 := cx x3.
Let v0 := cy x0. Let v1 := cy x1. Let v2 := cy x2. Let v3 := cy x3.
Let w0 := cz x0. Let w1 := cz x1. Let w2 := cz x2. Let w3 := cz x3.
Let L0 := [tm (-1) u3 a3 v1 b1 w2 c2; tm 1 u3 a3 v2 b2 w1 c1; tm 1 u1 a1 v3 b3 w2 c2; tm (-1) u2 a2 v3 b3 w1 c1; tm (-1) u1 a1 v2 b2 w3 c3; tm 1 u2 a2 v1 b1 w3 c3].
Let L1 := [tm (-1) u3 a3 v2 b2 w0 c0; tm 1 u3 a3 v0 b0 w2 c2; tm 1 u2 a2 v3 b3 w0 c0; tm (-1) u0 a0 v3 b3 w2 c2; tm 1 u0 a0 v2 b2 w3 c3; tm (-1) u2 a2 v0 b0 w3 c3].
Let L2 := [tm (-1) u3 a3 v0 b0 w1 c1; tm 1 u3 a3 v1 b1 w0 c0; tm 1 u0 a0 v3 b3 w1 c1; tm (-1) u1 a1 v3 b3 w0 c0; tm (-1) u0 a0 v1 b1 w3 c3; tm 1 u1 a1 v0 b0 w3 c3].
Let L3 := [tm 1 u0 a0 v1 b1 w2 c2; tm (-1) u0 a0 v2 b2 w1 c1; tm 1 u1 a1 v2 b2 w0 c0; tm (-1) u1 a1 v0 b0 w2 c2; tm 1 u2 a2 v0 b0 w1 c1; tm (-1) u2 a2 v1 b1 w0 c0].

Lemma tm_change s u a v b w c : Rabs a <= e -> Rabs b <= e -> Rabs c <= e -> change e 3 (snd (tm s u a v b w c)).
Proof using Type. intros H1 H2 H3. exists [a; b; c]. repeat split; auto. cbn. ring. Qed.
Lemma L_change : Forall (fun x => change e 3 (snd x)) (L0 ++ L1 ++ L2 ++ L3).
Proof using All. unfold L0, L1, L2, L3. cbn [app]. repeat (constructor; [apply tm_change; assumption|]). constructor. Qed.

Let tot (l : list (R * R)) := sum (map fst l).
Let tot' (l : list (R * R)) := sum (map (fun x => fst x * snd x) l).
Lemma tot_minors : tot L0 = m3 x0 x1 x2 x3 0 /\ tot L1 = m3 x0 x1 x2 x3 1 /\ tot L2 = m3 x0 x1 x2 x3 2 /\ tot L3 = m3 x0 x1 x2 x3 3.
Proof using Type.
  unfold tot, sum, L0, L1, L2, L3, tm, m3, det3, u0, u1, u2, u3, v0, v1, v2, v3, w0, w1, w2, w3. cbn [map fst fold_right].
  repeat split; ring.
Qed.
Lemma tot'_minors : tot' L0 = m3 y0 y1 y2 y3 0 /\ tot' L1 = m3 y0 y1 y2 y3 1 /\ tot' L2 = m3 y0 y1 y2 y3 2 /\ tot' L3 = m3 y0 y1 y2 y3 3.
Proof using Type.
  unfold tot', sum, L0, L1, L2, L3, tm, m3, det3, y0, y1, y2, y3, scaled, u0, u1, u2, u3, v0, v1, v2, v3, w0, w1, w2, w3.
  cbn [map fst snd fold_right]. unfold cx, cy, cz. cbn [fst snd]. repeat split; ring.
Qed.
Lemma tot_app a b : tot (a ++ b) = tot a + tot b.
Proof using Type. unfold tot. rewrite map_app. apply sum_app. Qed.
Lemma tot'_app a b : tot' (a ++ b) = tot' a + tot' b.
Proof using Type. unfold tot'. rewrite map_app. apply sum_app. Qed.

(** A bound that lies in [0,1] and, if larger than [e], gives [Q]. *)
Definition fgood (x : XR) (Q : Prop) : Prop := exists b, x = Fin b /\ 0 <= b <= 1 /\ (e < b -> Q).
Lemma fgood_min x y Q Q' : fgood x Q -> fgood y Q' -> fgood (fmin_ XA XO x y) (Q /\ Q').
Proof using Type.
  intros (b & -> & Rb & HP) (c & -> & Rc & HQ). unfold fmin_. cbn [f2d XO dlt XA].
  destruct (xlt (Fin b) (Fin c)) eqn:E.
  - apply xlt_fin in E. exists b. split; [reflexivity|]. split; [auto|]. intros H. split; [auto|apply HQ; lra].
  - apply xlt_fin_false in E. exists c. split; [reflexivity|]. split; [auto|]. intros H. split; [apply HP; lra|auto].
Qed.
Lemma fgood_bump (f : bool) x y Q : fgood x Q -> (f = false -> fgood y Q) -> fgood (if f then x else fmax_ XA XO x y) Q.
Proof using Type.
  intros HX HY. destruct f; auto. destruct HX as (b & -> & Rb & Hb). destruct (HY eq_refl) as (c & -> & Rc & Hc). unfold fmax_. cbn [f2d XO dlt XA].
  destruct (xlt (Fin c) (Fin b)); [exists b|exists c]; auto.
Qed.
Lemma fgood_weak x (Q Q' : Prop) : fgood x Q -> (Q -> Q') -> fgood x Q'.
Proof using Type. intros (b & E & Rb & H) G. exists b. auto. Qed.

Local Notation keep := (keep3 XA XO acbrt).
Local Notation P l := (ppart (ones (map fst l))).
Local Notation N l := (npart (ones (map fst l))).
Lemma fgood_keep l p n : Forall (fun x => change e 3 (snd x)) l -> p = P l -> n = N l -> fgood (keep (Fin p) (Fin n)) (0 < tot l * tot' l).
Proof using HC He. intros F -> ->. destruct (keep3_sound acbrt HC l) as (b & E & Rb & G). exists b. split; [exact E|]. split; [exact Rb|]. intros H. apply (G e); auto. Qed.

Definition no_cps : Prop := ~ has_cp3 [x0; x1; x2; x3] /\ ~ has_cp3 [y0; y1; y2; y3].

(** A minor opposed to the rest, before and after. *)
Lemma opposed_no_cp i l r : (i < 4)%nat -> tot l = m3 x0 x1 x2 x3 i -> tot' l = m3 y0 y1 y2 y3 i ->
  tot r = mS x0 x1 x2 x3 - m3 x0 x1 x2 x3 i -> tot' r = mS y0 y1 y2 y3 - m3 y0 y1 y2 y3 i ->
  inside_flag XA (Fin (mS x0 x1 x2 x3)) (Fin (m3 x0 x1 x2 x3 i)) = false -> 0 < tot l * tot' l /\ 0 < tot r * tot' r -> no_cps.
Proof using Type.
  intros Hi T1 T2 T3 T4 HF [S1 S2]. unfold inside_flag in HF. apply orb_false_iff in HF as [F1 F2]. cbn [deq dlt dofZ ddiv XA] in F1, F2.
  apply xeq_fin_false in F1. rewrite xdiv_fin in F2 by auto. apply xlt_fin_false in F2.
  rewrite T1, T2 in S1. rewrite T3, T4 in S2. set (m := m3 x0 x1 x2 x3 i) in *. set (M := mS x0 x1 x2 x3) in *.
  assert (H : m * (M - m) < 0).
  { assert (Pm : 0 < m * m) by nra. apply (Rmult_le_compat_r (m * m)) in F2; [|lra]. replace (M / m * (m * m)) with (M * m) in F2 by (field; auto).
    assert (M - m <> 0) by (intros Z; rewrite Z in S2; lra). assert (m * (M - m) <> 0) by (apply Rmult_integral_contrapositive; auto). nra. }
  set (m' := m3 y0 y1 y2 y3 i) in *. set (M' := mS y0 y1 y2 y3) in *.
  assert (H' : m' * (M' - m') < 0).
  { clear - S1 S2 H.
    assert (SG : forall s t, 0 < s * t -> (0 < s -> 0 < t) /\ (s < 0 -> t < 0)).
    { intros s t K. split; intros L; [apply (Rmult_lt_reg_l s); lra|]. apply Ropp_lt_cancel. apply (Rmult_lt_reg_l (- s)); lra. }
    destruct (Rlt_le_dec 0 m) as [Q|Q].
    - assert (0 < m') by (apply (SG m m'); auto). assert (M - m < 0) by (apply (Rmult_lt_reg_l m); lra). assert (M' - m' < 0) by (apply (SG (M - m) (M' - m')); auto).
      apply Ropp_lt_cancel. rewrite Ropp_0, <- Ropp_mult_distr_r_reverse. apply Rmult_lt_0_compat; lra.
    - assert (m < 0) by (destruct Q as [Q|Q]; [auto|rewrite Q in S1; lra]). assert (m' < 0) by (apply (SG m m'); auto).
      assert (0 < M - m) by (apply (Rmult_lt_reg_l (- m)); lra). assert (0 < M' - m') by (apply (SG (M - m) (M' - m')); auto).
      apply Ropp_lt_cancel. rewrite Ropp_0, Ropp_mult_distr_l. apply Rmult_lt_0_compat; lra. }
  split; apply (no_cp3 _ _ _ _ i Hi); assumption.
Qed.

Lemma same_direction_no_cp (f : V3 -> R) : f = cx \/ f = cy \/ f = cz ->
  same_direction XA (Fin (f x0)) (Fin (f x1)) (Fin (f x2)) (Fin (f x3)) = true -> e < 1 -> no_cps.
Proof using A0 A1 A2 A3 B0 B1 B2 B3 C0 C1 C2 C3.
  intros Hf H E1. apply same_direction_xa in H.
  assert (G : forall z0 z1 z2 z3, (0 < f z0 /\ 0 < f z1 /\ 0 < f z2 /\ 0 < f z3) \/ (f z0 < 0 /\ f z1 < 0 /\ f z2 < 0 /\ f z3 < 0) -> ~ has_cp3 [z0; z1; z2; z3]).
  { intros z0 z1 z2 z3 HS HH. apply has_cp3_four in HH as (k0 & k1 & k2 & k3 & G0 & G1 & G2 & G3 & E & EX & EY & EZ).
    assert (Z : k0 * f z0 + k1 * f z1 + k2 * f z2 + k3 * f z3 = 0) by (destruct Hf as [E0 | [E0 | E0]]; subst f; auto).
    revert Z. apply one_sign; auto. }
  split; [apply G; auto|]. apply G.
  assert (S : forall t d, Rabs d <= e -> (0 < t -> 0 < t * (1 + d)) /\ (t < 0 -> t * (1 + d) < 0)) by (intros; eapply scaled_sign; eauto).
  assert (K : forall x a b c, Rabs a <= e -> Rabs b <= e -> Rabs c <= e -> (0 < f x -> 0 < f (scaled x a b c)) /\ (f x < 0 -> f (scaled x a b c) < 0)).
  { intros x a b c Ha Hb Hc. unfold scaled. destruct Hf as [E0 | [E0 | E0]]; subst f; unfold cx, cy, cz; cbn [fst snd]; apply S; auto. }
  unfold y0, y1, y2, y3. destruct H as [(H0 & H1 & H2 & H3)|(H0 & H1 & H2 & H3)]; [left|right]; repeat split; apply K; auto.
Qed.

Lemma parts_of (l : list (R * R)) ts : ts = map Fin (map fst l) -> parts XA XO ts = (Fin (P l), Fin (N l)).
Proof using Type. intros ->. unfold parts. rewrite acc_value. reflexivity. Qed.
Lemma part_ones_app (l r : list (R * R)) : P (l ++ r) = P l + P r /\ N (l ++ r) = N l + N r.
Proof using Type. rewrite map_app, ones_app, ppart_app, npart_app. auto. Qed.

Theorem tet_kept : fgood (offline3_eb XA XO acbrt (fin3 x0) (fin3 x1) (fin3 x2) (fin3 x3)) no_cps.
Proof using All.
  unfold offline3_eb, fin3. fold u0 u1 u2 u3 v0 v1 v2 v3 w0 w1 w2 w3. unfold prod3.
  cbn [tmul t2d XA xmul dneg xneg dadd xadd dsub xsub deq dofZ].
  destruct tot_minors as (T0 & T1 & T2 & T3). destruct tot'_minors as (T0' & T1' & T2' & T3').
  assert (E0 : m3 x0 x1 x2 x3 0 = - (u3 * v1 * w2) + u3 * v2 * w1 + (u1 * v3 * w2 - u2 * v3 * w1) + (- (u1 * v2 * w3) + u2 * v1 * w3))
    by (unfold m3, det3, u0, u1, u2, u3, v0, v1, v2, v3, w0, w1, w2, w3; ring).
  assert (E1 : m3 x0 x1 x2 x3 1 = - (u3 * v2 * w0) + u3 * v0 * w2 + (u2 * v3 * w0 - u0 * v3 * w2) + (u0 * v2 * w3 - u2 * v0 * w3))
    by (unfold m3, det3, u0, u1, u2, u3, v0, v1, v2, v3, w0, w1, w2, w3; ring).
  assert (E2 : m3 x0 x1 x2 x3 2 = - (u3 * v0 * w1) + u3 * v1 * w0 + (u0 * v3 * w1 - u1 * v3 * w0) + (- (u0 * v1 * w3) + u1 * v0 * w3))
    by (unfold m3, det3, u0, u1, u2, u3, v0, v1, v2, v3, w0, w1, w2, w3; ring).
  assert (E3 : m3 x0 x1 x2 x3 3 = u0 * v1 * w2 - u0 * v2 * w1 + u1 * v2 * w0 - u1 * v0 * w2 + u2 * v0 * w1 - u2 * v1 * w0)
    by (unfold m3, det3, u0, u1, u2, u3, v0, v1, v2, v3, w0, w1, w2, w3; ring).
  rewrite <- E0, <- E1, <- E2, <- E3. fold (mS x0 x1 x2 x3). clear E0 E1 E2 E3.
  assert (Z : fgood (Fin 0) no_cps) by (exists 0; split; [reflexivity|split; [lra|intros; lra]]).
  destruct (xeq (Fin (mS x0 x1 x2 x3)) (Fin 0)); [exact Z|].
  set (f0 := inside_flag XA _ (Fin (m3 x0 x1 x2 x3 0))). set (f1 := inside_flag XA _ (Fin (m3 x0 x1 x2 x3 1))).
  set (f2 := inside_flag XA _ (Fin (m3 x0 x1 x2 x3 2))). set (f3 := inside_flag XA _ (Fin (m3 x0 x1 x2 x3 3))).
  destruct (f0 && f1 && f2 && f3)%bool.
  { destruct (same_direction XA (Fin u0) _ _ _) eqn:D1.
    { exists 1. split; [reflexivity|]. split; [lra|]. apply (same_direction_no_cp cx); auto. }
    destruct (same_direction XA (Fin v0) _ _ _) eqn:D2.
    { exists 1. split; [reflexivity|]. split; [lra|]. apply (same_direction_no_cp cy); auto. }
    destruct (same_direction XA (Fin w0) _ _ _) eqn:D3; [|exact Z].
    exists 1. split; [reflexivity|]. split; [lra|]. apply (same_direction_no_cp cz); auto. }
  unfold minor_terms, prod3. cbn [map tmul t2d XA xmul dneg xneg].
  rewrite (parts_of L0), (parts_of L1), (parts_of L2), (parts_of L3).
  2-5: cbv [L0 L1 L2 L3 tm]; cbn [map fst]; repeat (apply f_equal2; [apply f_equal; ring|]); reflexivity.
  cbn [fadd XO xadd f2d fofZ].
  pose proof L_change as LC. apply Forall_app in LC as [F0 LC]. apply Forall_app in LC as [F1 LC]. apply Forall_app in LC as [F2 F3].
  set (FC := Forall (fun x : R * R => change e 3 (snd x))) in *.
  assert (FAL : forall a b c, FC a -> FC b -> FC c ->
     FC (a ++ b ++ c)) by (intros; unfold FC; apply Forall_app; split; [|apply Forall_app; split]; assumption).
  assert (PA : forall a b c : list (R * R), P a + P b + P c = P (a ++ b ++ c) /\ N a + N b + N c = N (a ++ b ++ c)).
  { intros a b c. destruct (part_ones_app a (b ++ c)) as [-> ->]. destruct (part_ones_app b c) as [-> ->]. split; ring. }
  assert (TA : forall a b c : list (R * R), tot (a ++ b ++ c) = tot a + tot b + tot c /\ tot' (a ++ b ++ c) = tot' a + tot' b + tot' c).
  { intros. rewrite !tot_app, !tot'_app. split; ring. }
  assert (MS : mS x0 x1 x2 x3 = m3 x0 x1 x2 x3 0 + m3 x0 x1 x2 x3 1 + m3 x0 x1 x2 x3 2 + m3 x0 x1 x2 x3 3) by reflexivity.
  assert (MS' : mS y0 y1 y2 y3 = m3 y0 y1 y2 y3 0 + m3 y0 y1 y2 y3 1 + m3 y0 y1 y2 y3 2 + m3 y0 y1 y2 y3 3) by reflexivity.
  assert (G : forall l a b c : list (R * R), FC l -> FC a -> FC b ->
     FC c ->
     fgood (fmin_ XA XO (keep (Fin (P l)) (Fin (N l))) (keep (Fin (P a + P b + P c)) (Fin (N a + N b + N c))))
       (0 < tot l * tot' l /\ 0 < tot (a ++ b ++ c) * tot' (a ++ b ++ c))).
  { intros l a b c Hl Ha Hb Hc. apply fgood_min; apply fgood_keep; auto; first [apply PA|exact (FAL a b c Ha Hb Hc)]. }
  apply fgood_bump; [apply fgood_bump; [apply fgood_bump; [apply fgood_bump; [exact Z|]|]|]|]; intros HF; (eapply fgood_weak; [apply G; assumption|]);
    [apply (opposed_no_cp 0)|apply (opposed_no_cp 1)|apply (opposed_no_cp 2)|apply (opposed_no_cp 3)]; auto; try lia;
    rewrite ?(proj1 (TA _ _ _)), ?(proj2 (TA _ _ _)); lra.
Qed.
End Tet.
