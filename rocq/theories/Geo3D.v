(** Critical points of linear vector fields on tetrahedra, and soundness in exact arithmetic of the
    3D bound derivations (src/sz_compress_cp_preserve_3d.cpp:598-602, 660-745, 1156-1238). *)
From Coq Require Import Reals Lra Lia ZArith List Bool Permutation.
From Flocq Require Import Core.Raux.
From Verif Require Import Base Arith Mesh3D Derive3D Exact Geo2D.
Import ListNotations.
Local Open Scope R_scope.

(** ** Zeros of the linear interpolant *)
Definition V3 : Type := R * R * R.
Definition cx (p : V3) : R := fst (fst p).
Definition cy (p : V3) : R := snd (fst p).
Definition cz (p : V3) : R := snd p.
Definition wsum {X} (f : X -> R) (l : list X) : R := fold_right (fun x s => f x + s) 0 l.

(** The interpolant of the vectors [l] vanishes at a point with barycentric coordinates >= 0. *)
Definition has_cp3 (l : list V3) : Prop :=
  exists lw : list (V3 * R), map fst lw = l /\ Forall (fun p => 0 <= snd p) lw /\ wsum snd lw = 1 /\
    wsum (fun p => snd p * cx (fst p)) lw = 0 /\ wsum (fun p => snd p * cy (fst p)) lw = 0 /\
    wsum (fun p => snd p * cz (fst p)) lw = 0.

Lemma wsum_perm {X} (f : X -> R) l l' : Permutation l l' -> wsum f l = wsum f l'.
Proof. induction 1; cbn [wsum fold_right] in *; unfold wsum in *; cbn [fold_right] in *; lra. Qed.

Lemma has_cp3_perm l l' : Permutation l l' -> has_cp3 l -> has_cp3 l'.
Proof.
  intros HP (lw & <- & HF & H1 & H2 & H3 & H4).
  apply Permutation_sym in HP. destruct (Permutation_map_inv _ _ HP) as (lw' & -> & HQ).
  exists lw'. split; [reflexivity|]. split; [eapply Permutation_Forall; eauto|].
  rewrite <- !(wsum_perm _ _ _ HQ). auto.
Qed.

Lemma has_cp3_four a b c d : has_cp3 [a; b; c; d] <->
  exists k0 k1 k2 k3, 0 <= k0 /\ 0 <= k1 /\ 0 <= k2 /\ 0 <= k3 /\ k0 + k1 + k2 + k3 = 1 /\
    k0 * cx a + k1 * cx b + k2 * cx c + k3 * cx d = 0 /\
    k0 * cy a + k1 * cy b + k2 * cy c + k3 * cy d = 0 /\
    k0 * cz a + k1 * cz b + k2 * cz c + k3 * cz d = 0.
Proof.
  split.
  - intros (lw & HM & HF & H1 & H2 & H3 & H4).
    destruct lw as [|[p0 k0] [|[p1 k1] [|[p2 k2] [|[p3 k3] [|]]]]]; try discriminate.
    cbn in HM. injection HM as E0 E1 E2 E3. subst.
    inversion HF as [|? ? G0 HF1]; subst. inversion HF1 as [|? ? G1 HF2]; subst.
    inversion HF2 as [|? ? G2 HF3]; subst. inversion HF3 as [|? ? G3 HF4]; subst.
    unfold wsum in *. cbn [fold_right fst snd] in *.
    exists k0, k1, k2, k3. repeat split; auto; lra.
  - intros (k0 & k1 & k2 & k3 & G0 & G1 & G2 & G3 & H1 & H2 & H3 & H4).
    exists [(a, k0); (b, k1); (c, k2); (d, k3)]. unfold wsum. cbn [fold_right map fst snd].
    repeat split; auto; lra.
Qed.

(** ** The minors and Cramer's rule *)
Definition det3 (a b c : V3) : R :=
  cx a * (cy b * cz c - cy c * cz b) - cy a * (cx b * cz c - cx c * cz b) + cz a * (cx b * cy c - cx c * cy b).
Definition m3 (a b c d : V3) (i : nat) : R :=
  match i with O => - det3 b c d | 1%nat => det3 a c d | 2%nat => - det3 a b d | _ => det3 a b c end.
Definition mS (a b c d : V3) : R := m3 a b c d 0 + m3 a b c d 1 + m3 a b c d 2 + m3 a b c d 3.

Section Cramer.
Variables (a b c d : V3) (k0 k1 k2 k3 : R).
Hypothesis H1 : k0 + k1 + k2 + k3 = 1.
Hypothesis HX : k0 * cx a + k1 * cx b + k2 * cx c + k3 * cx d = 0.
Hypothesis HY : k0 * cy a + k1 * cy b + k2 * cy c + k3 * cy d = 0.
Hypothesis HZ : k0 * cz a + k1 * cz b + k2 * cz c + k3 * cz d = 0.

(** The determinant of the vanishing combination and two vertices vanishes. *)
Lemma det_zero p q : k0 * det3 a p q + k1 * det3 b p q + k2 * det3 c p q + k3 * det3 d p q = 0.
Proof.
  unfold det3.
  transitivity ((k0 * cx a + k1 * cx b + k2 * cx c + k3 * cx d) * (cy p * cz q - cy q * cz p)
    - (k0 * cy a + k1 * cy b + k2 * cy c + k3 * cy d) * (cx p * cz q - cx q * cz p)
    + (k0 * cz a + k1 * cz b + k2 * cz c + k3 * cz d) * (cx p * cy q - cx q * cy p)); [ring|].
  rewrite HX, HY, HZ. ring.
Qed.

Lemma cramer : m3 a b c d 0 = k0 * mS a b c d /\ m3 a b c d 1 = k1 * mS a b c d /\
  m3 a b c d 2 = k2 * mS a b c d /\ m3 a b c d 3 = k3 * mS a b c d.
Proof.
  assert (E01 : k0 * m3 a b c d 1 = k1 * m3 a b c d 0).
  { pose proof (det_zero c d) as E. cbn [m3]. unfold det3 in *. lra. }
  assert (E02 : k0 * m3 a b c d 2 = k2 * m3 a b c d 0).
  { pose proof (det_zero b d) as E. cbn [m3]. unfold det3 in *. lra. }
  assert (E03 : k0 * m3 a b c d 3 = k3 * m3 a b c d 0).
  { pose proof (det_zero b c) as E. cbn [m3]. unfold det3 in *. lra. }
  assert (E12 : k1 * m3 a b c d 2 = k2 * m3 a b c d 1).
  { pose proof (det_zero a d) as E. cbn [m3]. unfold det3 in *. lra. }
  assert (E13 : k1 * m3 a b c d 3 = k3 * m3 a b c d 1).
  { pose proof (det_zero a c) as E. cbn [m3]. unfold det3 in *. lra. }
  assert (E23 : k2 * m3 a b c d 3 = k3 * m3 a b c d 2).
  { pose proof (det_zero a b) as E. cbn [m3]. unfold det3 in *. lra. }
  unfold mS.
  set (n0 := m3 a b c d 0) in *. set (n1 := m3 a b c d 1) in *.
  set (n2 := m3 a b c d 2) in *. set (n3 := m3 a b c d 3) in *.
  clearbody n0 n1 n2 n3.
  assert (G : forall x, x = (k0 + k1 + k2 + k3) * x) by (intros; rewrite H1; ring).
  repeat split; [rewrite (G n0) at 1|rewrite (G n1) at 1|rewrite (G n2) at 1|rewrite (G n3) at 1]; lra.
Qed.
End Cramer.

(** A minor of sign strictly opposite to the rest of the sum excludes a zero. *)
Lemma no_cp3 a b c d i : (i < 4)%nat -> m3 a b c d i * (mS a b c d - m3 a b c d i) < 0 -> ~ has_cp3 [a; b; c; d].
Proof.
  intros Hi HS HC. apply has_cp3_four in HC as (k0 & k1 & k2 & k3 & G0 & G1 & G2 & G3 & E1 & EX & EY & EZ).
  destruct (cramer a b c d k0 k1 k2 k3 E1 EX EY EZ) as (F0 & F1 & F2 & F3).
  assert (Q : forall k, 0 <= k <= 1 -> k * mS a b c d * (mS a b c d - k * mS a b c d) < 0 -> False).
  { intros k Hk HQ. replace (k * mS a b c d * (mS a b c d - k * mS a b c d))
      with ((k * (1 - k)) * (mS a b c d * mS a b c d)) in HQ by ring.
    assert (0 <= k * (1 - k)) by nra.
    pose proof (Rle_0_sqr (mS a b c d)) as S. unfold Rsqr in S. nra. }
  destruct i as [|[|[|[|]]]]; [| | | |lia].
  - rewrite F0 in HS. apply (Q k0); [lra|exact HS].
  - rewrite F1 in HS. apply (Q k1); [lra|exact HS].
  - rewrite F2 in HS. apply (Q k2); [lra|exact HS].
  - rewrite F3 in HS. apply (Q k3); [lra|exact HS].
Qed.

(** ** Sign-keeping bounds *)
Lemma sign_kept3 (d a b c e e1 e2 e3 : R) :
  e * (Rabs a + Rabs b + Rabs c) < Rabs d -> Rabs e1 <= e -> Rabs e2 <= e -> Rabs e3 <= e ->
  0 < d * (d + a * e1 + b * e2 + c * e3).
Proof.
  intros H H1 H2 H3.
  assert (G : forall x y, Rabs y <= e -> Rabs (x * y) <= e * Rabs x).
  { intros x y Hy. rewrite Rabs_mult, (Rmult_comm e). apply Rmult_le_compat_l; auto. apply Rabs_pos. }
  assert (Hd : Rabs (a * e1 + b * e2 + c * e3) <= e * (Rabs a + Rabs b + Rabs c)).
  { pose proof (Rabs_triang (a * e1 + b * e2) (c * e3)). pose proof (Rabs_triang (a * e1) (b * e2)).
    pose proof (G a e1 H1). pose proof (G b e2 H2). pose proof (G c e3 H3). lra. }
  assert (Hlt : Rabs (a * e1 + b * e2 + c * e3) < Rabs d) by lra.
  set (x := a * e1 + b * e2 + c * e3) in *.
  replace (d + a * e1 + b * e2 + c * e3) with (d + x) by (unfold x; ring). clearbody x.
  apply Rabs_def2 in Hlt. destruct Hlt as [L1 L2].
  clear - L1 L2. unfold Rabs in L1, L2. destruct (Rcase_abs d); nra.
Qed.

Lemma abs3_zero a b c : Rabs a + Rabs b + Rabs c = 0 -> a = 0 /\ b = 0 /\ c = 0.
Proof.
  intros H. pose proof (Rabs_pos a). pose proof (Rabs_pos b). pose proof (Rabs_pos c).
  repeat split; [destruct (Req_dec a 0) as [|N]|destruct (Req_dec b 0) as [|N]|destruct (Req_dec c 0) as [|N]];
    auto; apply Rabs_pos_lt in N; lra.
Qed.

Lemma keep3_abs_sound a b c d e e1 e2 e3 : 0 <= e ->
  below e (max_eb_to_keep_sign_3d_online_abs XA (Fin a) (Fin b) (Fin c) (Fin d)) ->
  Rabs e1 <= e -> Rabs e2 <= e -> Rabs e3 <= e -> 0 < d * (d + a * e1 + b * e2 + c * e3).
Proof.
  unfold max_eb_to_keep_sign_3d_online_abs. cbn [ddiv dabs dadd deq dofZ XA xabs xadd]. intros He H H1 H2 H3.
  destruct (xeq (Fin (Rabs a + Rabs b + Rabs c)) (Fin 0)) eqn:E.
  - apply xeq_fin in E. apply abs3_zero in E as (-> & -> & ->).
    destruct (xeq (Fin d) (Fin 0)) eqn:Ed; [exfalso; eapply below_zero; eauto|].
    apply xeq_fin_false in Ed. replace (d + 0 * e1 + 0 * e2 + 0 * e3) with d by ring. nra.
  - apply xeq_fin_false in E. rewrite xdiv_fin in H by auto. apply below_fin in H.
    apply (sign_kept3 d a b c e); auto.
    pose proof (Rabs_pos a). pose proof (Rabs_pos b). pose proof (Rabs_pos c).
    apply (Rmult_lt_compat_r (Rabs a + Rabs b + Rabs c)) in H; [|lra].
    unfold Rdiv in H. rewrite Rmult_assoc, Rinv_l in H by auto. lra.
Qed.

Lemma keep3_abs_notnan a b c d : notnan (max_eb_to_keep_sign_3d_online_abs XA (Fin a) (Fin b) (Fin c) (Fin d)).
Proof.
  unfold max_eb_to_keep_sign_3d_online_abs. cbn [ddiv dabs dadd deq dofZ XA xabs xadd].
  destruct (xeq (Fin (Rabs a + Rabs b + Rabs c)) (Fin 0)) eqn:E.
  - destruct (xeq (Fin d) (Fin 0)); discriminate.
  - apply xeq_fin_false in E. rewrite xdiv_fin by auto. discriminate.
Qed.

Lemma inside_flag_false m M : inside_flag XA (Fin M) (Fin m) = false -> m <> 0 /\ m * (M - m) <= 0.
Proof.
  unfold inside_flag. cbn [deq dlt ddiv dofZ XA]. intros H. apply orb_false_iff in H as [H1 H2].
  apply xeq_fin_false in H1. rewrite xdiv_fin in H2 by auto. apply xlt_fin_false in H2. split; auto.
  assert (M / m * (m * m) <= 1 * (m * m)) by (apply Rmult_le_compat_r; nra).
  replace (M / m * (m * m)) with (M * m) in H by (field; auto). lra.
Qed.

(** A bound [r] for the last vertex: a smaller change of its components neither has a zero before nor after. *)
Definition no_cp3_bound (x0 x1 x2 x3 : V3) (r : XR) : Prop :=
  notnan r /\ forall e y, 0 <= e -> below e r ->
    Rabs (cx y - cx x3) <= e -> Rabs (cy y - cy x3) <= e -> Rabs (cz y - cz x3) <= e ->
    ~ has_cp3 [x0; x1; x2; x3] /\ ~ has_cp3 [x0; x1; x2; y].

Lemma no_cp3_dmax x0 x1 x2 x3 r1 r2 :
  no_cp3_bound x0 x1 x2 x3 r1 -> no_cp3_bound x0 x1 x2 x3 r2 -> no_cp3_bound x0 x1 x2 x3 (dmax XA r1 r2).
Proof.
  intros [N1 H1] [N2 H2]. split; [apply notnan_dmax; auto|].
  intros e w He HB. apply below_dmax in HB as [HB|HB]; eauto.
Qed.
Lemma no_cp3_zero x0 x1 x2 x3 : no_cp3_bound x0 x1 x2 x3 (Fin 0).
Proof. split; [discriminate|]. intros e w He HB. exfalso. eapply below_zero; eauto. Qed.

(** A linear form of the last vertex keeps its sign below the bound. *)
Lemma no_cp3_pair x0 x1 x2 x3 i a b c a' b' c' p q : (i < 4)%nat ->
  (forall y, m3 x0 x1 x2 y i = p + a * (cx y - cx x3) + b * (cy y - cy x3) + c * (cz y - cz x3)) ->
  (forall y, mS x0 x1 x2 y - m3 x0 x1 x2 y i
     = q + a' * (cx y - cx x3) + b' * (cy y - cy x3) + c' * (cz y - cz x3)) ->
  p * q <= 0 ->
  no_cp3_bound x0 x1 x2 x3
    (minf XA (max_eb_to_keep_sign_3d_online_abs XA (Fin a) (Fin b) (Fin c) (Fin p))
             (max_eb_to_keep_sign_3d_online_abs XA (Fin a') (Fin b') (Fin c') (Fin q))).
Proof.
  intros Hi Hp Hq Hs. split; [apply notnan_minf; apply keep3_abs_notnan|].
  intros e y He HB D1 D2 D3. apply below_minf in HB as [B1 B2]; [|apply keep3_abs_notnan|apply keep3_abs_notnan].
  assert (Z : Rabs 0 <= e) by (rewrite Rabs_R0; auto).
  pose proof (keep3_abs_sound _ _ _ _ e 0 0 0 He B1 Z Z Z) as P0.
  pose proof (keep3_abs_sound _ _ _ _ e 0 0 0 He B2 Z Z Z) as Q0.
  pose proof (keep3_abs_sound _ _ _ _ e _ _ _ He B1 D1 D2 D3) as P1.
  pose proof (keep3_abs_sound _ _ _ _ e _ _ _ He B2 D1 D2 D3) as Q1.
  replace (p + a * 0 + b * 0 + c * 0) with p in P0 by ring.
  replace (q + a' * 0 + b' * 0 + c' * 0) with q in Q0 by ring.
  assert (PQ : p * q < 0).
  { assert (p <> 0) by (intros ->; lra). assert (q <> 0) by (intros ->; lra).
    destruct (Rtotal_order (p * q) 0) as [L|[L|L]]; auto; [|lra]. apply Rmult_integral in L as [|]; contradiction. }
  split; apply (no_cp3 _ _ _ _ i Hi); rewrite Hq, Hp.
  - replace (p + a * (cx x3 - cx x3) + b * (cy x3 - cy x3) + c * (cz x3 - cz x3)) with p by ring.
    replace (q + a' * (cx x3 - cx x3) + b' * (cy x3 - cy x3) + c' * (cz x3 - cz x3)) with q by ring. exact PQ.
  - apply (opp_kept p q); auto.
Qed.

Lemma no_cp3_last x0 x1 x2 x3 a b c q p :
  (forall y, m3 x0 x1 x2 y 3 = p) -> p <> 0 ->
  (forall y, mS x0 x1 x2 y - m3 x0 x1 x2 y 3
     = q + a * (cx y - cx x3) + b * (cy y - cy x3) + c * (cz y - cz x3)) ->
  p * q <= 0 ->
  no_cp3_bound x0 x1 x2 x3 (max_eb_to_keep_sign_3d_online_abs XA (Fin a) (Fin b) (Fin c) (Fin q)).
Proof.
  intros Hp Np Hq Hs. split; [apply keep3_abs_notnan|].
  intros e y He B2 D1 D2 D3.
  assert (Z : Rabs 0 <= e) by (rewrite Rabs_R0; auto).
  pose proof (keep3_abs_sound _ _ _ _ e 0 0 0 He B2 Z Z Z) as Q0.
  pose proof (keep3_abs_sound _ _ _ _ e _ _ _ He B2 D1 D2 D3) as Q1.
  replace (q + a * 0 + b * 0 + c * 0) with q in Q0 by ring.
  assert (PQ : p * q < 0).
  { assert (q <> 0) by (intros ->; lra).
    destruct (Rtotal_order (p * q) 0) as [L|[L|L]]; auto; [|lra]. apply Rmult_integral in L as [|]; contradiction. }
  split; apply (no_cp3 _ _ _ _ 3 ltac:(lia)); rewrite Hq, Hp.
  - replace (q + a * (cx x3 - cx x3) + b * (cy x3 - cy x3) + c * (cz x3 - cz x3)) with q by ring. exact PQ.
  - apply (opp_kept p q); auto. nra.
Qed.

Definition fin3 (x : V3) : vec3 XA := (Fin (cx x), Fin (cy x), Fin (cz x)).

Theorem derive3_abs_sound x0 x1 x2 x3 :
  no_cp3_bound x0 x1 x2 x3 (derive3_abs XA (fin3 x0) (fin3 x1) (fin3 x2) (fin3 x3)).
Proof.
  unfold derive3_abs, fin3.
  cbn [t2d tsub tmul tadd tneg dadd dmul dofZ XA xsub xmul xadd xneg].
  pose proof (no_cp3_zero x0 x1 x2 x3) as Z.
  match goal with |- context [deq XA (Fin (?a0 * _ + ?b0 * _ + ?c0 * _ + (?a1 * _ + ?b1 * _ + ?c1 * _)
       + (?a2 * _ + ?b2 * _ + ?c2 * _) + ?d))] =>
    set (u30 := a0); set (v30 := b0); set (w30 := c0); set (u31 := a1); set (v31 := b1); set (w31 := c1);
    set (u32 := a2); set (v32 := b2); set (w32 := c2); set (M3 := d) end.
  match goal with |- context [deq XA (Fin (?a + ?b + ?c + M3))] =>
    set (M0 := a); set (M1 := b); set (M2 := c) end.
  destruct (deq XA _ _); [exact Z|].
  set (M := M0 + M1 + M2 + M3).
  assert (B0 : inside_flag XA (Fin M) (Fin M0) = false -> no_cp3_bound x0 x1 x2 x3
    (minf XA (max_eb_to_keep_sign_3d_online_abs XA (Fin u30) (Fin v30) (Fin w30) (Fin M0))
       (max_eb_to_keep_sign_3d_online_abs XA (Fin (u31 + u32)) (Fin (v31 + v32)) (Fin (w31 + w32)) (Fin (M1 + M2 + M3))))).
  { intros F. apply inside_flag_false in F as [_ F]. apply (no_cp3_pair _ _ _ _ 0); [lia| | |].
    - intros y. unfold M0, u30, v30, w30. cbn [m3]. unfold det3. ring.
    - intros y. unfold M1, M2, M3, u31, v31, w31, u32, v32, w32, mS. cbn [m3]. unfold det3. ring.
    - replace (M1 + M2 + M3) with (M - M0) by (unfold M; ring). exact F. }
  assert (B1 : inside_flag XA (Fin M) (Fin M1) = false -> no_cp3_bound x0 x1 x2 x3
    (minf XA (max_eb_to_keep_sign_3d_online_abs XA (Fin u31) (Fin v31) (Fin w31) (Fin M1))
       (max_eb_to_keep_sign_3d_online_abs XA (Fin (u30 + u32)) (Fin (v30 + v32)) (Fin (w30 + w32)) (Fin (M0 + M2 + M3))))).
  { intros F. apply inside_flag_false in F as [_ F]. apply (no_cp3_pair _ _ _ _ 1); [lia| | |].
    - intros y. unfold M1, u31, v31, w31. cbn [m3]. unfold det3. ring.
    - intros y. unfold M0, M2, M3, u30, v30, w30, u32, v32, w32, mS. cbn [m3]. unfold det3. ring.
    - replace (M0 + M2 + M3) with (M - M1) by (unfold M; ring). exact F. }
  assert (B2 : inside_flag XA (Fin M) (Fin M2) = false -> no_cp3_bound x0 x1 x2 x3
    (minf XA (max_eb_to_keep_sign_3d_online_abs XA (Fin u32) (Fin v32) (Fin w32) (Fin M2))
       (max_eb_to_keep_sign_3d_online_abs XA (Fin (u30 + u31)) (Fin (v30 + v31)) (Fin (w30 + w31)) (Fin (M0 + M1 + M3))))).
  { intros F. apply inside_flag_false in F as [_ F]. apply (no_cp3_pair _ _ _ _ 2); [lia| | |].
    - intros y. unfold M2, u32, v32, w32. cbn [m3]. unfold det3. ring.
    - intros y. unfold M0, M1, M3, u30, v30, w30, u31, v31, w31, mS. cbn [m3]. unfold det3. ring.
    - replace (M0 + M1 + M3) with (M - M2) by (unfold M; ring). exact F. }
  assert (B3 : inside_flag XA (Fin M) (Fin M3) = false -> no_cp3_bound x0 x1 x2 x3
    (max_eb_to_keep_sign_3d_online_abs XA (Fin (u30 + u31 + u32)) (Fin (v30 + v31 + v32)) (Fin (w30 + w31 + w32))
       (Fin (M0 + M1 + M2)))).
  { intros F. apply inside_flag_false in F as [N F]. apply (no_cp3_last _ _ _ _ _ _ _ _ M3); [|exact N| |].
    - intros y. unfold M3. cbn [m3]. unfold det3. ring.
    - intros y. unfold M0, M1, M2, u30, v30, w30, u31, v31, w31, u32, v32, w32, mS. cbn [m3]. unfold det3. ring.
    - replace (M0 + M1 + M2) with (M - M3) by (unfold M; ring). exact F. }
  destruct (inside_flag XA (Fin M) (Fin M0)); destruct (inside_flag XA (Fin M) (Fin M1));
  destruct (inside_flag XA (Fin M) (Fin M2)); destruct (inside_flag XA (Fin M) (Fin M3));
  cbn [andb]; try exact Z; repeat apply no_cp3_dmax; auto.
Qed.
