(** Soundness in exact arithmetic of the 3D relative bound (src/sz_compress_cp_preserve_3d.cpp:598-602, 660-745). *)
From Coq Require Import Reals Lra Lia ZArith List Bool.
From Flocq Require Import Core.Raux.
From Verif Require Import Base Arith Mesh3D Derive3D Exact Geo2D Geo3D Type2D.
Import ListNotations.
Local Open Scope R_scope.

(** The bound keeps the sign of a sum under relative changes of three of its terms; it may be 1 when those terms vanish. *)
Lemma keep3_rel_cases a b c d e : 0 <= e -> below e (max_eb_to_keep_sign_3d_online XA (Fin a) (Fin b) (Fin c) (Fin d)) ->
  (a = 0 /\ b = 0 /\ c = 0 /\ e < 1) \/
  (a + b + c + d <> 0 /\ forall e1 e2 e3, Rabs e1 <= e -> Rabs e2 <= e -> Rabs e3 <= e ->
     0 < (a + b + c + d) * (a * (1 + e1) + b * (1 + e2) + c * (1 + e3) + d)).
Proof.
  unfold max_eb_to_keep_sign_3d_online. cbn [ddiv dabs dadd deq dofZ XA xabs xadd]. intros He H.
  destruct (xeq (Fin a) (Fin 0) && xeq (Fin b) (Fin 0) && xeq (Fin c) (Fin 0))%bool eqn:E.
  - left. apply andb_true_iff in E as [E E3]. apply andb_true_iff in E as [E1 E2].
    apply xeq_fin in E1, E2, E3. apply below_fin in H. auto.
  - right. assert (N : Rabs a + Rabs b + Rabs c <> 0).
    { intros X. apply abs3_zero in X as (-> & -> & ->). rewrite (proj2 (xeq_fin 0 0)) in E by auto. discriminate. }
    rewrite xdiv_fin in H by auto. apply below_fin in H.
    pose proof (Rabs_pos a). pose proof (Rabs_pos b). pose proof (Rabs_pos c).
    apply (Rmult_lt_compat_r (Rabs a + Rabs b + Rabs c)) in H; [|lra].
    unfold Rdiv in H. rewrite Rmult_assoc, Rinv_l in H by auto.
    split.
    + intros X. rewrite X, Rabs_R0 in H. nra.
    + intros e1 e2 e3 D1 D2 D3. replace (a * (1 + e1) + b * (1 + e2) + c * (1 + e3) + d) with ((a + b + c + d) + a * e1 + b * e2 + c * e3) by ring.
      apply (sign_kept3 _ a b c e); auto. lra.
Qed.

Lemma keep3_rel_sound a b c d e e1 e2 e3 : 0 <= e ->
  below e (max_eb_to_keep_sign_3d_online XA (Fin a) (Fin b) (Fin c) (Fin d)) -> Rabs e1 <= e -> Rabs e2 <= e -> Rabs e3 <= e ->
  same_sign (a + b + c + d) (a * (1 + e1) + b * (1 + e2) + c * (1 + e3) + d).
Proof.
  intros He H D1 D2 D3. destruct (keep3_rel_cases _ _ _ _ _ He H) as [(-> & -> & -> & _)|[_ G]].
  - replace (0 * (1 + e1) + 0 * (1 + e2) + 0 * (1 + e3) + d) with (0 + 0 + 0 + d) by ring. apply same_sign_refl.
  - apply same_sign_prod, G; auto.
Qed.

Lemma keep3_rel_notnan a b c d : notnan (max_eb_to_keep_sign_3d_online XA (Fin a) (Fin b) (Fin c) (Fin d)).
Proof.
  unfold max_eb_to_keep_sign_3d_online. cbn [ddiv dabs dadd deq dofZ XA xabs xadd].
  destruct (xeq (Fin a) (Fin 0) && xeq (Fin b) (Fin 0) && xeq (Fin c) (Fin 0))%bool eqn:E; [discriminate|].
  assert (N : Rabs a + Rabs b + Rabs c <> 0).
  { intros X. apply abs3_zero in X as (-> & -> & ->). rewrite (proj2 (xeq_fin 0 0)) in E by auto. discriminate. }
  rewrite xdiv_fin by auto. discriminate.
Qed.

(** The components of the last vertex changed by relative amounts. *)
Definition scaled (x : V3) (e1 e2 e3 : R) : V3 := (cx x * (1 + e1), cy x * (1 + e2), cz x * (1 + e3)).
Definition rel3_bound (x0 x1 x2 x3 : V3) (r : XR) : Prop :=
  notnan r /\ forall e e1 e2 e3, 0 <= e -> below e r -> Rabs e1 <= e -> Rabs e2 <= e -> Rabs e3 <= e ->
    (has_cp3 [x0; x1; x2; x3] <-> has_cp3 [x0; x1; x2; scaled x3 e1 e2 e3]).

Lemma rel3_dmax x0 x1 x2 x3 r1 r2 : rel3_bound x0 x1 x2 x3 r1 -> rel3_bound x0 x1 x2 x3 r2 -> rel3_bound x0 x1 x2 x3 (dmax XA r1 r2).
Proof.
  intros [N1 H1] [N2 H2]. split; [apply notnan_dmax; auto|].
  intros e e1 e2 e3 He HB. apply below_dmax in HB as [HB|HB]; eauto.
Qed.
Lemma rel3_zero x0 x1 x2 x3 : rel3_bound x0 x1 x2 x3 (Fin 0).
Proof. split; [discriminate|]. intros e e1 e2 e3 He HB. exfalso. eapply below_zero; eauto. Qed.

Definition zero3 (x : V3) : Prop := cx x = 0 /\ cy x = 0 /\ cz x = 0.

(** When one minor is the whole sum, the only possible zero is at its vertex. *)
Lemma cp3_vertex a b c d i : (i < 4)%nat -> m3 a b c d i <> 0 -> mS a b c d - m3 a b c d i = 0 ->
  has_cp3 [a; b; c; d] <-> zero3 (nth i [a; b; c; d] a).
Proof.
  intros Hi N Z. split.
  - intros HC. apply has_cp3_four in HC as (k0 & k1 & k2 & k3 & G0 & G1 & G2 & G3 & E1 & EX & EY & EZ).
    destruct (cramer a b c d k0 k1 k2 k3 E1 EX EY EZ) as (F0 & F1 & F2 & F3).
    assert (Q : forall k m, m <> 0 -> mS a b c d - m = 0 -> m = k * mS a b c d -> k = 1).
    { intros k m Nm Zm Em. assert (mS a b c d = m) by lra. rewrite H in Em. apply (Rmult_eq_reg_r m); lra. }
    unfold zero3. destruct i as [|[|[|[|]]]]; [| | | |lia]; cbn [nth].
    + assert (k0 = 1) by eauto. assert (k1 = 0) by lra. assert (k2 = 0) by lra. assert (k3 = 0) by lra. subst. repeat split; lra.
    + assert (k1 = 1) by eauto. assert (k0 = 0) by lra. assert (k2 = 0) by lra. assert (k3 = 0) by lra. subst. repeat split; lra.
    + assert (k2 = 1) by eauto. assert (k1 = 0) by lra. assert (k0 = 0) by lra. assert (k3 = 0) by lra. subst. repeat split; lra.
    + assert (k3 = 1) by eauto. assert (k1 = 0) by lra. assert (k2 = 0) by lra. assert (k0 = 0) by lra. subst. repeat split; lra.
  - intros (ZX & ZY & ZZ). apply has_cp3_four. destruct i as [|[|[|[|]]]]; [| | | |lia]; cbn [nth] in ZX, ZY, ZZ.
    + exists 1, 0, 0, 0. repeat split; lra.
    + exists 0, 1, 0, 0. repeat split; lra.
    + exists 0, 0, 1, 0. repeat split; lra.
    + exists 0, 0, 0, 1. repeat split; lra.
Qed.

Lemma opp_same p q p' q' : same_sign p p' -> same_sign q q' -> p * q < 0 -> p' * q' < 0.
Proof.
  unfold same_sign. intros [S1 S2] [T1 T2] H. destruct (Rtotal_order p 0) as [L|[L|L]]; [|rewrite L in H; lra|].
  - assert (0 < q) by (destruct (Rtotal_order q 0) as [X|[X|X]]; nra). apply S2 in L. apply T1 in H0. nra.
  - assert (q < 0) by (destruct (Rtotal_order q 0) as [X|[X|X]]; nra). apply S1 in L. apply T2 in H0. nra.
Qed.

(** A minor (not the last) and the rest, both sums of three terms scaling with the components of the last vertex. *)
Lemma rel3_pair x0 x1 x2 x3 i a b c a' b' c' q : (i < 3)%nat ->
  (forall e1 e2 e3, m3 x0 x1 x2 (scaled x3 e1 e2 e3) i = a * (1 + e1) + b * (1 + e2) + c * (1 + e3) + 0) ->
  (forall e1 e2 e3, mS x0 x1 x2 (scaled x3 e1 e2 e3) - m3 x0 x1 x2 (scaled x3 e1 e2 e3) i
     = a' * (1 + e1) + b' * (1 + e2) + c' * (1 + e3) + q) ->
  a + b + c <> 0 -> (a + b + c) * (a' + b' + c' + q) <= 0 ->
  rel3_bound x0 x1 x2 x3
    (minf XA (max_eb_to_keep_sign_3d_online XA (Fin a) (Fin b) (Fin c) (Fin 0))
             (max_eb_to_keep_sign_3d_online XA (Fin a') (Fin b') (Fin c') (Fin q))).
Proof.
  intros Hi Hp Hq Np Hs. split; [apply notnan_minf; apply keep3_rel_notnan|].
  intros e e1 e2 e3 He HB D1 D2 D3. apply below_minf in HB as [B1 B2]; [|apply keep3_rel_notnan|apply keep3_rel_notnan].
  assert (S0 : scaled x3 0 0 0 = x3) by (destruct x3 as [[? ?] ?]; unfold scaled, cx, cy, cz; cbn; repeat f_equal; ring).
  pose proof (Hp 0 0 0) as Hp0. pose proof (Hq 0 0 0) as Hq0. rewrite S0 in Hp0, Hq0.
  pose proof (keep3_rel_sound _ _ _ _ e e1 e2 e3 He B1 D1 D2 D3) as P1. rewrite Rplus_0_r in P1. rewrite <- Hp in P1.
  destruct (Req_dec (a' + b' + c' + q) 0) as [Zq|Nq].
  - (* the rest vanishes: a zero can only be at vertex i *)
    destruct (keep3_rel_cases _ _ _ _ _ He B2) as [(-> & -> & -> & _)|[N _]]; [|contradiction].
    assert (NP : m3 x0 x1 x2 (scaled x3 e1 e2 e3) i <> 0).
    { intros X. rewrite X in P1. destruct P1 as [P1 P2]. destruct (Rtotal_order (a + b + c) 0) as [L|[L|L]]; [apply P2 in L|contradiction|apply P1 in L]; lra. }
    rewrite (cp3_vertex x0 x1 x2 x3 i), (cp3_vertex x0 x1 x2 (scaled x3 e1 e2 e3) i); auto; try lia; try lra.
    + destruct i as [|[|[|]]]; cbn [nth]; try tauto. lia.
    + rewrite Hq. lra.
  - pose proof (keep3_rel_sound _ _ _ _ e e1 e2 e3 He B2 D1 D2 D3) as Q1. rewrite <- Hq in Q1.
    assert (PQ : (a + b + c) * (a' + b' + c' + q) < 0).
    { destruct (Rtotal_order ((a + b + c) * (a' + b' + c' + q)) 0) as [L|[L|L]]; auto; [|lra]. apply Rmult_integral in L as [|]; contradiction. }
    assert (N1 : ~ has_cp3 [x0; x1; x2; x3]). { apply (no_cp3 _ _ _ _ i ltac:(lia)). rewrite Hq0, Hp0. lra. }
    assert (N2 : ~ has_cp3 [x0; x1; x2; scaled x3 e1 e2 e3]).
    { apply (no_cp3 _ _ _ _ i ltac:(lia)). eapply opp_same; eauto. }
    tauto.
Qed.

Lemma rel3_last x0 x1 x2 x3 a b c p :
  (forall y, m3 x0 x1 x2 y 3 = p) -> p <> 0 ->
  (forall e1 e2 e3, mS x0 x1 x2 (scaled x3 e1 e2 e3) - m3 x0 x1 x2 (scaled x3 e1 e2 e3) 3
     = a * (1 + e1) + b * (1 + e2) + c * (1 + e3) + 0) ->
  p * (a + b + c) <= 0 ->
  rel3_bound x0 x1 x2 x3 (max_eb_to_keep_sign_3d_online XA (Fin a) (Fin b) (Fin c) (Fin 0)).
Proof.
  intros Hp Np Hq Hs. split; [apply keep3_rel_notnan|]. intros e e1 e2 e3 He B2 D1 D2 D3.
  assert (S0 : scaled x3 0 0 0 = x3) by (destruct x3 as [[? ?] ?]; unfold scaled, cx, cy, cz; cbn; repeat f_equal; ring).
  pose proof (Hq 0 0 0) as Hq0. rewrite S0 in Hq0.
  destruct (Req_dec (a + b + c) 0) as [Zq|Nq].
  - destruct (keep3_rel_cases _ _ _ _ _ He B2) as [(-> & -> & -> & L)|[N _]]; [|lra].
    rewrite (cp3_vertex x0 x1 x2 x3 3), (cp3_vertex x0 x1 x2 (scaled x3 e1 e2 e3) 3); try lia; try (rewrite Hp; auto); try lra.
    + cbn [nth]. unfold zero3, scaled, cx, cy, cz. cbn [fst snd].
      assert (G : forall t d, Rabs d <= e -> t = 0 <-> t * (1 + d) = 0).
      { intros t d Hd. split; [intros ->; ring|]. intros H. apply Rmult_integral in H as [|H]; auto. unfold Rabs in Hd. destruct (Rcase_abs d); lra. }
      rewrite <- !G by auto. tauto.
    + pose proof (Hq e1 e2 e3) as X. rewrite Hp in X. lra.
    + rewrite Hp in Hq0. lra.
  - pose proof (keep3_rel_sound _ _ _ _ e e1 e2 e3 He B2 D1 D2 D3) as Q1. rewrite Rplus_0_r, <- Hq in Q1.
    assert (PQ : p * (a + b + c) < 0).
    { destruct (Rtotal_order (p * (a + b + c)) 0) as [L|[L|L]]; auto; [|lra]. apply Rmult_integral in L as [|]; contradiction. }
    assert (N1 : ~ has_cp3 [x0; x1; x2; x3]). { apply (no_cp3 _ _ _ _ 3 ltac:(lia)). rewrite Hq0, Hp. lra. }
    assert (N2 : ~ has_cp3 [x0; x1; x2; scaled x3 e1 e2 e3]).
    { apply (no_cp3 _ _ _ _ 3 ltac:(lia)). apply (opp_same p (a + b + c)); auto. rewrite Hp. apply same_sign_refl. }
    tauto.
Qed.


(** All components of one coordinate of one strict sign: no zero, whatever relative change below 1. *)
Lemma one_sign a b c d k0 k1 k2 k3 : 0 <= k0 -> 0 <= k1 -> 0 <= k2 -> 0 <= k3 -> k0 + k1 + k2 + k3 = 1 ->
  (0 < a /\ 0 < b /\ 0 < c /\ 0 < d) \/ (a < 0 /\ b < 0 /\ c < 0 /\ d < 0) -> k0 * a + k1 * b + k2 * c + k3 * d <> 0.
Proof.
  intros G0 G1 G2 G3 E H X.
  assert (P : forall k t, 0 <= k -> 0 < t -> 0 <= k * t) by (intros; apply Rmult_le_pos; lra).
  assert (PP : forall k t, 0 < k -> 0 < t -> 0 < k * t) by (intros; apply Rmult_lt_0_compat; lra).
  destruct H as [(A & B & C & DD)|(A & B & C & DD)].
  - pose proof (P _ _ G0 A). pose proof (P _ _ G1 B). pose proof (P _ _ G2 C). pose proof (P _ _ G3 DD).
    destruct (Rlt_le_dec 0 k0) as [L|L]; [pose proof (PP _ _ L A); lra|].
    destruct (Rlt_le_dec 0 k1) as [L1|L1]; [pose proof (PP _ _ L1 B); lra|].
    destruct (Rlt_le_dec 0 k2) as [L2|L2]; [pose proof (PP _ _ L2 C); lra|].
    assert (L3 : 0 < k3) by lra. pose proof (PP _ _ L3 DD). lra.
  - assert (A' : 0 < - a) by lra. assert (B' : 0 < - b) by lra. assert (C' : 0 < - c) by lra. assert (D' : 0 < - d) by lra.
    pose proof (P _ _ G0 A'). pose proof (P _ _ G1 B'). pose proof (P _ _ G2 C'). pose proof (P _ _ G3 D').
    destruct (Rlt_le_dec 0 k0) as [L|L]; [pose proof (PP _ _ L A'); lra|].
    destruct (Rlt_le_dec 0 k1) as [L1|L1]; [pose proof (PP _ _ L1 B'); lra|].
    destruct (Rlt_le_dec 0 k2) as [L2|L2]; [pose proof (PP _ _ L2 C'); lra|].
    assert (L3 : 0 < k3) by lra. pose proof (PP _ _ L3 D'). lra.
Qed.

Lemma sgn_xa x : sgn XA (Fin x) = ((if Rlt_bool 0 x then 1 else 0) - (if Rlt_bool x 0 then 1 else 0))%Z.
Proof. reflexivity. Qed.
Lemma same_direction_xa a b c d : same_direction XA (Fin a) (Fin b) (Fin c) (Fin d) = true ->
  (0 < a /\ 0 < b /\ 0 < c /\ 0 < d) \/ (a < 0 /\ b < 0 /\ c < 0 /\ d < 0).
Proof.
  unfold same_direction. rewrite !sgn_xa.
  destruct (Rlt_bool_spec 0 a), (Rlt_bool_spec a 0); try lra; cbn [Z.sub Z.eqb Z.add Z.opp]; try discriminate; [left|right];
  destruct (Rlt_bool_spec 0 b), (Rlt_bool_spec b 0); try lra; try discriminate;
  destruct (Rlt_bool_spec 0 c), (Rlt_bool_spec c 0); try lra; try discriminate;
  destruct (Rlt_bool_spec 0 d), (Rlt_bool_spec d 0); try lra; try discriminate.
Qed.
Lemma scaled_sign t d e : Rabs d <= e -> e < 1 -> (0 < t -> 0 < t * (1 + d)) /\ (t < 0 -> t * (1 + d) < 0).
Proof. intros H L. assert (0 < 1 + d) by (unfold Rabs in H; destruct (Rcase_abs d); lra). split; intros; nra. Qed.

Lemma rel3_one_sign x0 x1 x2 x3 (f : V3 -> R) : f = cx \/ f = cy \/ f = cz ->
  same_direction XA (Fin (f x0)) (Fin (f x1)) (Fin (f x2)) (Fin (f x3)) = true -> rel3_bound x0 x1 x2 x3 (Fin 1).
Proof.
  intros Hf H. split; [discriminate|]. intros e e1 e2 e3 He HB D1 D2 D3. apply below_fin in HB.
  apply same_direction_xa in H.
  assert (G : forall y, (0 < f x3 -> 0 < f y) -> (f x3 < 0 -> f y < 0) -> ~ has_cp3 [x0; x1; x2; y]).
  { intros y P N HC. apply has_cp3_four in HC as (k0 & k1 & k2 & k3 & G0 & G1 & G2 & G3 & E1 & EX & EY & EZ).
    assert (Z : k0 * f x0 + k1 * f x1 + k2 * f x2 + k3 * f y = 0) by (destruct Hf as [E0 | [E0 | E0]]; subst f; auto).
    revert Z. apply one_sign; auto. destruct H as [(H1 & H2 & H3 & H4)|(H1 & H2 & H3 & H4)]; [left|right]; auto. }
  assert (N1 : ~ has_cp3 [x0; x1; x2; x3]) by (apply G; auto).
  assert (N2 : ~ has_cp3 [x0; x1; x2; scaled x3 e1 e2 e3]).
  { destruct Hf as [E0 | [E0 | E0]]; subst f; apply G; unfold scaled, cx, cy, cz; cbn [fst snd]; eapply scaled_sign; eauto. }
  tauto.
Qed.

(** Below the bound, the tetrahedron contains a critical point before iff after the change of its last vertex. *)
Theorem derive3_rel_sound x0 x1 x2 x3 :
  rel3_bound x0 x1 x2 x3 (derive3_rel XA (fin3 x0) (fin3 x1) (fin3 x2) (fin3 x3)).
Proof.
  unfold derive3_rel, fin3.
  cbn [t2d tsub tmul tadd tneg dadd dmul dofZ XA xsub xmul xadd xneg].
  pose proof (rel3_zero x0 x1 x2 x3) as Z.
  match goal with |- context [deq XA (Fin (?a0 + ?b0 + ?c0 + (?a1 + ?b1 + ?c1) + (?a2 + ?b2 + ?c2) + ?d))] =>
    set (u30 := a0); set (v30 := b0); set (w30 := c0); set (u31 := a1); set (v31 := b1); set (w31 := c1);
    set (u32 := a2); set (v32 := b2); set (w32 := c2); set (M3 := d) end.
  set (M := u30 + v30 + w30 + (u31 + v31 + w31) + (u32 + v32 + w32) + M3).
  destruct (deq XA (Fin M) (Fin 0)).
  { destruct (same_direction XA (Fin (cx x0)) _ _ _) eqn:E1; [apply (rel3_one_sign x0 x1 x2 x3 cx); auto|].
    destruct (same_direction XA (Fin (cy x0)) _ _ _) eqn:E2; [apply (rel3_one_sign x0 x1 x2 x3 cy); auto|].
    destruct (same_direction XA (Fin (cz x0)) _ _ _) eqn:E3; [apply (rel3_one_sign x0 x1 x2 x3 cz); auto|]. exact Z. }
  assert (B0 : inside_flag XA (Fin M) (Fin (u30 + v30 + w30)) = false -> rel3_bound x0 x1 x2 x3
    (minf XA (max_eb_to_keep_sign_3d_online XA (Fin u30) (Fin v30) (Fin w30) (Fin 0))
       (max_eb_to_keep_sign_3d_online XA (Fin (u31 + u32)) (Fin (v31 + v32)) (Fin (w31 + w32)) (Fin M3)))).
  { intros F. apply inside_flag_false in F as [N F]. apply (rel3_pair _ _ _ _ 0); [lia| | |exact N|].
    - intros. unfold u30, v30, w30. cbn [m3]. unfold det3, scaled, cx, cy, cz. cbn [fst snd]. ring.
    - intros. unfold M3, u31, v31, w31, u32, v32, w32, mS. cbn [m3]. unfold det3, scaled, cx, cy, cz. cbn [fst snd]. ring.
    - match type of F with ?x <= 0 => match goal with |- ?y <= 0 => replace y with x by (unfold M; ring) end end. exact F. }
  assert (B1 : inside_flag XA (Fin M) (Fin (u31 + v31 + w31)) = false -> rel3_bound x0 x1 x2 x3
    (minf XA (max_eb_to_keep_sign_3d_online XA (Fin u31) (Fin v31) (Fin w31) (Fin 0))
       (max_eb_to_keep_sign_3d_online XA (Fin (u30 + u32)) (Fin (v30 + v32)) (Fin (w30 + w32)) (Fin M3)))).
  { intros F. apply inside_flag_false in F as [N F]. apply (rel3_pair _ _ _ _ 1); [lia| | |exact N|].
    - intros. unfold u31, v31, w31. cbn [m3]. unfold det3, scaled, cx, cy, cz. cbn [fst snd]. ring.
    - intros. unfold M3, u30, v30, w30, u32, v32, w32, mS. cbn [m3]. unfold det3, scaled, cx, cy, cz. cbn [fst snd]. ring.
    - match type of F with ?x <= 0 => match goal with |- ?y <= 0 => replace y with x by (unfold M; ring) end end. exact F. }
  assert (B2 : inside_flag XA (Fin M) (Fin (u32 + v32 + w32)) = false -> rel3_bound x0 x1 x2 x3
    (minf XA (max_eb_to_keep_sign_3d_online XA (Fin u32) (Fin v32) (Fin w32) (Fin 0))
       (max_eb_to_keep_sign_3d_online XA (Fin (u30 + u31)) (Fin (v30 + v31)) (Fin (w30 + w31)) (Fin M3)))).
  { intros F. apply inside_flag_false in F as [N F]. apply (rel3_pair _ _ _ _ 2); [lia| | |exact N|].
    - intros. unfold u32, v32, w32. cbn [m3]. unfold det3, scaled, cx, cy, cz. cbn [fst snd]. ring.
    - intros. unfold M3, u30, v30, w30, u31, v31, w31, mS. cbn [m3]. unfold det3, scaled, cx, cy, cz. cbn [fst snd]. ring.
    - match type of F with ?x <= 0 => match goal with |- ?y <= 0 => replace y with x by (unfold M; ring) end end. exact F. }
  assert (B3 : inside_flag XA (Fin M) (Fin M3) = false -> rel3_bound x0 x1 x2 x3
    (max_eb_to_keep_sign_3d_online XA (Fin (u30 + u31 + u32)) (Fin (v30 + v31 + v32)) (Fin (w30 + w31 + w32)) (Fin 0))).
  { intros F. apply inside_flag_false in F as [N F]. apply (rel3_last _ _ _ _ _ _ _ M3); [|exact N| |].
    - intros y. unfold M3. cbn [m3]. unfold det3. ring.
    - intros. unfold u30, v30, w30, u31, v31, w31, u32, v32, w32, mS. cbn [m3]. unfold det3, scaled, cx, cy, cz. cbn [fst snd]. ring.
    - match type of F with ?x <= 0 => match goal with |- ?y <= 0 => replace y with x by (unfold M; ring) end end. exact F. }
  destruct (inside_flag XA (Fin M) (Fin (u30 + v30 + w30))); destruct (inside_flag XA (Fin M) (Fin (u31 + v31 + w31)));
  destruct (inside_flag XA (Fin M) (Fin (u32 + v32 + w32))); destruct (inside_flag XA (Fin M) (Fin M3));
  cbn [andb]; try exact Z; repeat apply rel3_dmax; auto.
Qed.
