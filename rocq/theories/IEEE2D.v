(** The 2D online codecs in IEEE arithmetic: error bounds, non-finite values, zero bound. *)
From Coq Require Import Reals Lra Lia ZArith List Bool.
From Coq Require Import ZifyBool ZifyNat.
From Flocq Require Import Core.Core IEEE754.BinarySingleNaN IEEE754.Binary IEEE754.Bits Plus_error.
From Verif Require Import Base Huffman Arith Mesh2D Derive2D Codec2D Sync2D Trace2D Exact IEEE IEEELaws IEEEQuant.
Import ListNotations.
Local Open Scope R_scope.

Section B.
Context (A : Arith) (I : ieee A).
Local Notation vT := (vT A I). Local Notation vD := (vD A I).
Local Notation pT := (pT A I). Local Notation eT := (eT A I).
Local Notation HpT := (HpT A I).
Local Notation fexpT := (SpecFloat.fexp pT eT).
Local Instance fexpT_valid : Valid_exp fexpT := fexp_correct pT eT HpT.

(** Finite and at most 2^k in magnitude. *)
Definition bnd (k : Z) (x : T A) : Prop := exists r, vT x = Fin r /\ Rabs r <= bpow radix2 k.
Definition bndD (k : Z) (x : D A) : Prop := exists r, vD x = Fin r /\ Rabs r <= bpow radix2 k.

Lemma pT_ok : (1 < pT <= 53)%Z. Proof. apply HpD. Qed.
Lemma eT_ok : (64 < eT <= 1024)%Z. Proof. apply HeD. Qed.

Lemma rndxT_bnd r k : (0 <= k < eT)%Z -> Rabs r <= bpow radix2 k ->
  exists s, rndx pT eT (Fin r) = Fin s /\ Rabs s <= bpow radix2 k /\ s = round radix2 fexpT ZnearestE r.
Proof.
  intros Hk H. pose proof pT_ok. assert (G : generic_format radix2 fexpT (bpow radix2 k)) by (apply (fmt_bpow pT eT HpT); lia).
  pose proof (rnd_bound pT eT HpT r _ G H) as Hb. cbn [rndx]. eexists. split; [|split; [exact Hb|reflexivity]].
  apply sat_fin. eapply Rle_lt_trans; [exact Hb|]. apply bpow_lt. lia.
Qed.
Lemma rndxD_bnd r k : (0 <= k < 1024)%Z -> Rabs r <= bpow radix2 k ->
  exists s, rndx 53 1024 (Fin r) = Fin s /\ Rabs s <= bpow radix2 k /\ s = round radix2 fexp64 ZnearestE r.
Proof.
  intros Hk H. assert (G : generic_format radix2 fexp64 (bpow radix2 k)) by (apply (fmt_bpow 53 1024 eq_refl); lia).
  pose proof (rnd_bound 53 1024 eq_refl r _ G H) as Hb. cbn [rndx]. eexists. split; [|split; [exact Hb|reflexivity]].
  apply sat_fin. eapply Rle_lt_trans; [exact Hb|]. apply bpow_lt. lia.
Qed.

Lemma bpow_2 k : bpow radix2 (k + 1) = 2 * bpow radix2 k.
Proof. rewrite bpow_plus. change (bpow radix2 1) with 2. ring. Qed.

Lemma bnd_mono k k' x : (k <= k')%Z -> bnd k x -> bnd k' x.
Proof. intros H (r & E & B). exists r. split; auto. eapply Rle_trans; [exact B|]. apply bpow_le. auto. Qed.
Lemma bnd_add k x y : (0 <= k)%Z -> (k + 1 < eT)%Z -> bnd k x -> bnd k y -> bnd (k + 1) (tadd A x y).
Proof.
  intros H0 H (r & E & B) (s & E' & B'). destruct (rndxT_bnd (r + s) (k + 1)) as (z & Ez & Bz & _); [lia| |].
  - rewrite bpow_2. eapply Rle_trans; [apply Rabs_triang|]. lra.
  - exists z. rewrite v_tadd, E, E'. auto.
Qed.
Lemma bnd_sub k x y : (0 <= k)%Z -> (k + 1 < eT)%Z -> bnd k x -> bnd k y -> bnd (k + 1) (tsub A x y).
Proof.
  intros H0 H (r & E & B) (s & E' & B'). destruct (rndxT_bnd (r - s) (k + 1)) as (z & Ez & Bz & _); [lia| |].
  - rewrite bpow_2. unfold Rminus. eapply Rle_trans; [apply Rabs_triang|]. rewrite Rabs_Ropp. lra.
  - exists z. rewrite v_tsub, E, E'. auto.
Qed.
Lemma bnd_mul k l x y : (0 <= k)%Z -> (0 <= l)%Z -> (k + l < eT)%Z -> bnd k x -> bnd l y -> bnd (k + l) (tmul A x y).
Proof.
  intros H0 H1 H (r & E & B) (s & E' & B'). destruct (rndxT_bnd (r * s) (k + l)) as (z & Ez & Bz & _); [lia| |].
  - rewrite bpow_plus, Rabs_mult. apply Rmult_le_compat; auto; apply Rabs_pos.
  - exists z. rewrite v_tmul, E, E'. auto.
Qed.
Lemma bnd_neg k x : bnd k x -> bnd k (tneg A x).
Proof. intros (r & E & B). exists (- r). rewrite v_tneg, E. split; auto. rewrite Rabs_Ropp. auto. Qed.
Lemma bnd_abs k x : bnd k x -> bnd k (tabs A x).
Proof. intros (r & E & B). exists (Rabs r). rewrite v_tabs, E. split; auto. rewrite Rabs_Rabsolu. auto. Qed.
Lemma bnd_t2d k x : bnd k x -> bndD k (t2d A x).
Proof. intros (r & E & B). exists r. rewrite v_t2d. auto. Qed.
Lemma bndD_add k x y : (0 <= k)%Z -> (k + 1 < 1024)%Z -> bndD k x -> bndD k y -> bndD (k + 1) (dadd A x y).
Proof.
  intros H0 H (r & E & B) (s & E' & B'). destruct (rndxD_bnd (r + s) (k + 1)) as (z & Ez & Bz & _); [lia| |].
  - rewrite bpow_2. eapply Rle_trans; [apply Rabs_triang|]. lra.
  - exists z. rewrite v_dadd, E, E'. auto.
Qed.
Lemma bndD_mono k k' x : (k <= k')%Z -> bndD k x -> bndD k' x.
Proof. intros H (r & E & B). exists r. split; auto. eapply Rle_trans; [exact B|]. apply bpow_le. auto. Qed.

Lemma bnd_fin k x : bnd k x -> exists r, vT x = Fin r.
Proof. intros (r & E & _). eauto. Qed.

Lemma vT_0 : vT (t0 A) = Fin 0.
Proof.
  unfold t0. rewrite v_tofZ. apply rndx_fin; [apply generic_format_0|]. rewrite Rabs_R0. apply bpow_gt_0.
Qed.

(** ** Zeros *)
Lemma xeqT_0 x r : vT x = Fin r -> teq A x (t0 A) = true <-> (vT x = Fin r /\ r = 0).
Proof. intros E. rewrite (v_teq A I), E, vT_0. rewrite xeq_fin. intuition. Qed.

Lemma mul_zero_l k x y : vT x = Fin 0 -> bnd k y -> vT (tmul A x y) = Fin 0.
Proof.
  intros E (s & E' & _). rewrite v_tmul, E, E'. cbn [xmul]. rewrite Rmult_0_l. apply rndx_fin; [apply generic_format_0|].
  rewrite Rabs_R0. apply bpow_gt_0.
Qed.
Lemma mul_zero_r k x y : vT y = Fin 0 -> bnd k x -> vT (tmul A x y) = Fin 0.
Proof.
  intros E (s & E' & _). rewrite v_tmul, E, E'. cbn [xmul]. rewrite Rmult_0_r. apply rndx_fin; [apply generic_format_0|].
  rewrite Rabs_R0. apply bpow_gt_0.
Qed.
Lemma sub_same x y r : vT x = Fin r -> vT y = Fin r -> vT (tsub A x y) = Fin 0.
Proof.
  intros E E'. rewrite v_tsub, E, E'. cbn [xsub]. rewrite Rminus_eq_0. apply rndx_fin; [apply generic_format_0|].
  rewrite Rabs_R0. apply bpow_gt_0.
Qed.
Lemma add_zero_r x y r : vD x = Fin r -> vD y = Fin 0 -> vD (dadd A x y) = Fin r.
Proof.
  intros E E'. rewrite v_dadd, E, E'. cbn [xadd]. rewrite Rplus_0_r. destruct (vD_fmt A I _ _ E). apply rndx_fin; auto.
Qed.
Lemma add_zero_l x y r : vD x = Fin 0 -> vD y = Fin r -> vD (dadd A x y) = Fin r.
Proof.
  intros E E'. rewrite v_dadd, E, E'. cbn [xadd]. rewrite Rplus_0_l. destruct (vD_fmt A I _ _ E'). apply rndx_fin; auto.
Qed.

(** |a| + |b| = 0 in the arithmetic only for zeros. *)
Lemma abs_sum_zero k x y : bnd k x -> bnd k y -> vT (tadd A (tabs A x) (tabs A y)) = Fin 0 -> vT x = Fin 0 /\ vT y = Fin 0.
Proof.
  intros (r & E & B) (s & E' & B') H. rewrite v_tadd, !v_tabs, E, E' in H. cbn [xabs xadd] in H.
  apply rndx_fin_inv in H. destruct H as (a & Ea & Ez & _). inversion Ea; subst a. clear Ea.
  assert (G : forall x r, vT x = Fin r -> generic_format radix2 fexpT (Rabs r)).
  { intros x0 r0 E0. apply generic_format_abs. apply (vT_fmt A I _ _ E0). }
  pose proof (Rabs_pos r). pose proof (Rabs_pos s).
  assert (K1 : Rabs r <= 0).
  { eapply Rle_trans; [|right; symmetry; exact Ez]. rewrite <- (rnd_id pT eT (Rabs r)) at 1 by (apply (G x r E)). apply (rnd_le pT eT HpT). lra. }
  assert (K2 : Rabs s <= 0).
  { eapply Rle_trans; [|right; symmetry; exact Ez]. rewrite <- (rnd_id pT eT (Rabs s)) at 1 by (apply (G y s E')). apply (rnd_le pT eT HpT). lra. }
  assert (R0 : forall z, Rabs z <= 0 -> z = 0).
  { intros z Hz. destruct (Req_dec z 0); auto. apply Rabs_pos_lt in H1. lra. }
  rewrite E, E', (R0 r), (R0 s); auto.
Qed.

(** x - y rounds to zero only for equal values. *)
Lemma sub_zero k x y : bnd k x -> bnd k y -> vT (tsub A x y) = Fin 0 -> vT x = vT y.
Proof.
  intros (r & E & _) (s & E' & _) H. rewrite v_tsub, E, E' in H. cbn [xsub] in H.
  apply rndx_fin_inv in H. destruct H as (a & Ea & Ez & _). inversion Ea; subst a. clear Ea.
  rewrite E, E'. f_equal. destruct (Req_dec (r - s) 0) as [D0|N]; [lra|]. exfalso.
  assert (F : Exp_not_FTZ fexpT).
  { apply (FLT_exp_monotone (3 - eT - pT) pT) || idtac. unfold Exp_not_FTZ. intros e.
    unfold SpecFloat.fexp, SpecFloat.emin. pose proof pT_ok. lia. }
  apply (round_plus_neq_0 radix2 fexpT ZnearestE r (- s)).
  - apply (vT_fmt A I _ _ E).
  - apply generic_format_opp. apply (vT_fmt A I _ _ E').
  - unfold Rminus in N. auto.
  - symmetry. exact Ez.
Qed.

(** ** The absolute codec's bound is never NaN on fields of moderate size *)
Lemma keep_abs_notnan k l a b c : (0 <= k)%Z -> (k + 1 < eT)%Z ->
  bnd k a -> bnd k b -> bnd l c -> ~ (vT a = Fin 0 /\ vT b = Fin 0) ->
  vD (max_eb_to_keep_sign_2d_online_abs A a b c) <> NaN.
Proof.
  intros H0 H Ba Bb Bc N. unfold max_eb_to_keep_sign_2d_online_abs. rewrite v_t2d.
  assert (Ns : vT (tadd A (tabs A a) (tabs A b)) <> Fin 0) by (intros E; apply N; eapply abs_sum_zero; eauto).
  destruct (bnd_add k (tabs A a) (tabs A b)) as (s & Es & _); auto using bnd_abs.
  destruct Bc as (c' & Ec & _).
  rewrite v_tdiv by auto. apply rndx_notnan. rewrite v_tabs, Ec, Es. cbn [xabs].
  rewrite xdiv_fin by (intros E; subst s; auto). discriminate.
Qed.

Lemma minf_notnan x y : vD x <> NaN -> vD y <> NaN -> vD (minf A x y) <> NaN.
Proof. unfold minf. destruct (dlt A x y); auto. Qed.
Lemma dmax_notnan x y : vD x <> NaN -> vD y <> NaN -> vD (dmax A x y) <> NaN.
Proof. unfold dmax. destruct (dlt A y x); auto. Qed.

Lemma vD_0 : vD (dofZ A 0) = Fin 0.
Proof. rewrite vD_const by lia. reflexivity. Qed.

Definition flag (M m : D A) : bool := (deq A m (dofZ A 0) || dle A (dofZ A 1) (ddiv A M m))%bool.

Lemma flag_false_ne M m r : flag M m = false -> vD m = Fin r -> r <> 0.
Proof.
  intros H E ->. unfold flag in H. rewrite (v_deq A I), E, vD_0 in H. cbn [xeq] in H. rewrite Req_bool_true in H by auto. discriminate.
Qed.
Lemma flag_same M m r : vD M = Fin r -> vD m = Fin r -> flag M m = true.
Proof.
  intros E1 E2. unfold flag. rewrite (v_deq A I), E2, vD_0. destruct (Req_dec r 0) as [->|N].
  - cbn [xeq]. rewrite Req_bool_true by auto. reflexivity.
  - apply orb_true_iff. right. rewrite (v_dle A I). rewrite v_ddiv by (rewrite E2; congruence).
    rewrite E1, E2, xdiv_fin by auto. replace (r / r) with 1 by (field; auto).
    rewrite (rndx_fin 53 1024 1).
    + rewrite vD_const by lia. apply xle_fin. lra.
    + change 1 with (bpow radix2 0). apply (fmt_bpow 53 1024 eq_refl). lia.
    + rewrite Rabs_R1. change 1 with (bpow radix2 0). apply bpow_lt. lia.
Qed.

Lemma derive_abs_notnan W u0 u1 u2 v0 v1 v2 : (0 <= W)%Z -> (2 * W + 4 < eT)%Z ->
  bnd W u0 -> bnd W u1 -> bnd W u2 -> bnd W v0 -> bnd W v1 -> bnd W v2 ->
  vD (derive_cp_eb_for_positions_online_abs A u0 u1 u2 v0 v1 v2) <> NaN.
Proof.
  intros HW HE B0 B1 B2 C0 C1 C2. unfold derive_cp_eb_for_positions_online_abs.
  assert (Z0 : vD (dofZ A 0) <> NaN) by (rewrite vD_0; discriminate).
  set (M0 := t2d A (tsub A (tmul A u2 v0) (tmul A u0 v2))).
  set (M1 := t2d A (tsub A (tmul A u1 v2) (tmul A u2 v1))).
  set (M2 := t2d A (tsub A (tmul A u0 v1) (tmul A u1 v0))).
  set (M := dadd A (dadd A M0 M1) M2). fold (flag M M0). fold (flag M M1). fold (flag M M2).
  destruct (deq A M (dofZ A 0)); auto.
  assert (P : forall x y, bnd W x -> bnd W y -> bnd (2 * W) (tmul A x y)).
  { intros x y Bx By. replace (2 * W)%Z with (W + W)%Z by lia. apply bnd_mul; auto; lia. }
  assert (S : forall k x y, (2 * W <= k < 2 * W + 4)%Z -> bnd k x -> bnd k y -> bnd (k + 1) (tsub A x y)) by (intros; apply bnd_sub; auto; lia).
  assert (S' : forall k x y, (2 * W <= k < 2 * W + 4)%Z -> bnd k x -> bnd k y -> bnd (k + 1) (tadd A x y)) by (intros; apply bnd_add; auto; lia).
  assert (Bm0 : bnd (2 * W + 1) (tsub A (tmul A u2 v0) (tmul A u0 v2))) by (apply S; auto; lia).
  assert (Bm1 : bnd (2 * W + 1) (tsub A (tmul A u1 v2) (tmul A u2 v1))) by (apply S; auto; lia).
  assert (Bm2 : bnd (2 * W + 1) (tsub A (tmul A u0 v1) (tmul A u1 v0))) by (apply S; auto; lia).
  assert (Q : forall x y z, bnd (2 * W + 1) x -> bnd (2 * W) y -> bnd (2 * W) z -> bnd (2 * W + 1 + 1 + 1) (tsub A (tadd A x y) z)).
  { intros x y z Bx By Bz. apply S; [lia| |apply (bnd_mono (2 * W)); auto; lia]. apply S'; [lia|auto|].
    apply (bnd_mono (2 * W)); auto; lia. }
  destruct (bnd_t2d _ _ Bm0) as (m0 & E0 & _). destruct (bnd_t2d _ _ Bm1) as (m1 & E1 & _). destruct (bnd_t2d _ _ Bm2) as (m2 & E2 & _).
  fold M0 in E0. fold M1 in E1. fold M2 in E2.
  assert (Zm0 : vT u0 = Fin 0 -> vT v0 = Fin 0 -> vD M0 = Fin 0).
  { intros Hu Hv. unfold M0. rewrite v_t2d. eapply sub_same; [eapply mul_zero_r|eapply mul_zero_l]; eauto. }
  assert (Zm1 : vT u1 = Fin 0 -> vT v1 = Fin 0 -> vD M1 = Fin 0).
  { intros Hu Hv. unfold M1. rewrite v_t2d. eapply sub_same; [eapply mul_zero_l|eapply mul_zero_r]; eauto. }
  assert (Zm2 : vT u1 = Fin 0 -> vT v1 = Fin 0 -> vD M2 = Fin 0).
  { intros Hu Hv. unfold M2. rewrite v_t2d. eapply sub_same; [eapply mul_zero_r|eapply mul_zero_l]; eauto. }
  assert (Zm2' : vT u0 = Fin 0 -> vT v0 = Fin 0 -> vD M2 = Fin 0).
  { intros Hu Hv. unfold M2. rewrite v_t2d. eapply sub_same; [eapply mul_zero_l|eapply mul_zero_r]; eauto. }
  assert (Nneg : forall x, vT (tneg A x) = Fin 0 -> bnd W x -> vT x = Fin 0).
  { intros x H (r & E & _). rewrite v_tneg, E in H. cbn [xneg] in H. rewrite E. f_equal. inversion H. lra. }
  assert (N0 : flag M M0 = false -> ~ (vT u0 = Fin 0 /\ vT v0 = Fin 0)).
  { intros F [X Y]. apply (flag_false_ne _ _ _ F E0). rewrite Zm0 in E0 by auto. congruence. }
  assert (N0' : flag M M0 = false -> ~ (vT u1 = Fin 0 /\ vT v1 = Fin 0)).
  { intros F [X Y]. rewrite (flag_same M M0 m0) in F; [discriminate| |auto].
    unfold M. apply add_zero_r; auto. apply add_zero_r; auto. }
  assert (N1 : flag M M1 = false -> ~ (vT u1 = Fin 0 /\ vT v1 = Fin 0)).
  { intros F [X Y]. apply (flag_false_ne _ _ _ F E1). rewrite Zm1 in E1 by auto. congruence. }
  assert (N1' : flag M M1 = false -> ~ (vT u0 = Fin 0 /\ vT v0 = Fin 0)).
  { intros F [X Y]. rewrite (flag_same M M1 m1) in F; [discriminate| |auto].
    unfold M. apply add_zero_r; auto. apply add_zero_l; auto. }
  assert (N2 : flag M M2 = false -> ~ (vT (tsub A v0 v1) = Fin 0 /\ vT (tsub A u1 u0) = Fin 0)).
  { intros F [X Y]. apply (flag_false_ne _ _ _ F E2).
    assert (E3 : vD M2 = Fin 0); [|congruence]. unfold M2. rewrite v_t2d.
    apply (sub_zero W) in X; auto. apply (sub_zero W) in Y; auto.
    destruct (P u0 v1 B0 C1) as (p & Ep & _). eapply sub_same; [exact Ep|].
    rewrite v_tmul in *. rewrite Y, X. exact Ep. }
  destruct (flag M M0 && flag M M1 && flag M M2)%bool; auto.
  assert (R1 : vD (if flag M M0 then dofZ A 0 else dmax A (dofZ A 0)
     (minf A (max_eb_to_keep_sign_2d_online_abs A v0 (tneg A u0) (tsub A (tmul A u2 v0) (tmul A u0 v2)))
        (max_eb_to_keep_sign_2d_online_abs A (tneg A v1) u1
           (tsub A (tadd A (tsub A (tmul A u1 v2) (tmul A u2 v1)) (tmul A u0 v1)) (tmul A u1 v0))))) <> NaN).
  { destruct (flag M M0) eqn:F; auto. apply dmax_notnan; auto. apply minf_notnan.
    - eapply (keep_abs_notnan W); eauto using bnd_neg; [lia|]. intros [X Y]. apply Nneg in Y; auto. apply N0; auto.
    - eapply (keep_abs_notnan W); eauto using bnd_neg; [lia|]. intros [X Y]. apply Nneg in X; auto. apply N0'; auto. }
  assert (R2 : vD (if flag M M1 then (if flag M M0 then dofZ A 0 else dmax A (dofZ A 0)
     (minf A (max_eb_to_keep_sign_2d_online_abs A v0 (tneg A u0) (tsub A (tmul A u2 v0) (tmul A u0 v2)))
        (max_eb_to_keep_sign_2d_online_abs A (tneg A v1) u1
           (tsub A (tadd A (tsub A (tmul A u1 v2) (tmul A u2 v1)) (tmul A u0 v1)) (tmul A u1 v0)))))
     else dmax A (if flag M M0 then dofZ A 0 else dmax A (dofZ A 0)
     (minf A (max_eb_to_keep_sign_2d_online_abs A v0 (tneg A u0) (tsub A (tmul A u2 v0) (tmul A u0 v2)))
        (max_eb_to_keep_sign_2d_online_abs A (tneg A v1) u1
           (tsub A (tadd A (tsub A (tmul A u1 v2) (tmul A u2 v1)) (tmul A u0 v1)) (tmul A u1 v0)))))
       (minf A (max_eb_to_keep_sign_2d_online_abs A (tneg A v1) u1 (tsub A (tmul A u1 v2) (tmul A u2 v1)))
          (max_eb_to_keep_sign_2d_online_abs A v0 (tneg A u0)
             (tsub A (tadd A (tsub A (tmul A u2 v0) (tmul A u0 v2)) (tmul A u0 v1)) (tmul A u1 v0))))) <> NaN).
  { destruct (flag M M1) eqn:F; auto. apply dmax_notnan; auto. apply minf_notnan.
    - eapply (keep_abs_notnan W); eauto using bnd_neg; [lia|]. intros [X Y]. apply Nneg in X; auto. apply N1; auto.
    - eapply (keep_abs_notnan W); eauto using bnd_neg; [lia|]. intros [X Y]. apply Nneg in Y; auto. apply N1'; auto. }
  destruct (flag M M2) eqn:F; auto. apply dmax_notnan; auto.
  eapply (keep_abs_notnan (W + 1)); eauto using bnd_sub; try lia; apply bnd_sub; auto; lia.
Qed.

(** [v] is at most m (and not NaN). *)
Definition atmost (m : R) (v : XR) : Prop := v = NInf \/ exists x, v = Fin x /\ x <= m.

Lemma minf_atmost m x y : atmost m (vD x) -> vD y <> NaN -> atmost m (vD (minf A x y)).
Proof.
  intros Hx Hy. unfold minf. destruct (dlt A x y) eqn:E; auto. rewrite (v_dlt A I) in E.
  destruct Hx as [Hx|(a & Hx & La)]; rewrite Hx in E; destruct (vD y) as [b| | |]; cbn in E; try congruence; try discriminate; unfold atmost; auto.
  apply xlt_fin_false in E. right. exists b. split; auto. lra.
Qed.

Lemma req_loop_atmost f U V r1 r2 i j m : forall ks eb r,
  (forall k w, In k ks -> tri_values A U V r2 (i * r2 + j) k = Some w -> vD (f w k) <> NaN) ->
  atmost m (vD eb) -> req_loop A f U V r1 r2 i j ks eb = Some r -> atmost m (vD r).
Proof.
  induction ks as [|k ks IH]; intros eb r HN Hb H; cbn [req_loop] in H.
  - apply Some_inj in H. subst. auto.
  - destruct (in_mesh r1 r2 i j k).
    + bind_as H w Ew. eapply IH in H; eauto. intros; eapply HN; eauto. right; auto.
      apply minf_atmost; auto. eapply HN; eauto. left; auto.
    + eapply IH in H; eauto. intros; eapply HN; eauto. right; auto.
Qed.

Definition all_bnd (W : Z) (w : list (T A)) : Prop := forall k x, aget w k = Some x -> bnd W x.

Lemma tri_bnd W U V r2 p k w : all_bnd W U -> all_bnd W V -> tri_values A U V r2 p k = Some w ->
  let '(u0, u1, u2, v0, v1, v2) := w in bnd W u0 /\ bnd W u1 /\ bnd W u2 /\ bnd W v0 /\ bnd W v1 /\ bnd W v2.
Proof.
  intros HU HV H. unfold tri_values in H.
  bind_as H u0 E0. bind_as H u1 E1. bind_as H u2 E2. bind_as H v0 E3. bind_as H v1 E4. bind_as H v2 E5.
  apply Some_inj in H. subst w. repeat split; eauto.
Qed.

(** required_eb of the absolute codec never exceeds the requested bound. *)
Lemma required_abs_atmost W max_eb m U V r1 r2 i j r : (0 <= W)%Z -> (2 * W + 4 < eT)%Z ->
  all_bnd W U -> all_bnd W V -> vD max_eb = Fin m ->
  required_eb_abs A max_eb U V r1 r2 i j = Some r -> atmost m (vD r) \/ vD r = Fin 0.
Proof.
  intros HW HE HU HV Hm H. unfold required_eb_abs in H. bind_as H u Eu. bind_as H v Ev.
  destruct (_ || _)%bool.
  - apply Some_inj in H. subst. right. apply vD_0.
  - left. eapply req_loop_atmost in H; eauto.
    + intros k w Hk Ew. apply (tri_bnd W) in Ew; auto. destruct w as [[[[[u0 u1] u2] v0] v1] v2].
      destruct Ew as (?&?&?&?&?&?). apply (derive_abs_notnan W); auto.
    + right. exists m. split; auto. lra.
Qed.

(** ** Coded points are finite *)
Context (L : libm_ok A I).
Lemma coded_finite w r2 i j cur eb0 id q x : coded A w r2 i j cur eb0 id q x -> exists c, vT cur = Fin c.
Proof.
  intros (ab & pr & Hq & Hid & _ & H). apply (quantise_finite A I) in H.
  - destruct H as (p & c & _ & Ec). eauto.
  - unfold eb_exponential_quantize in Hq. destruct (dle A eb0 _); [apply Some_inj in Hq; inversion Hq; lia|].
    bind_as Hq id' Ei. apply Some_inj in Hq. inversion Hq; subst id' ab.
    rewrite v_dmul, v_eps. pose proof (lo_pow_ge A I L 2 id ltac:(lia) Hid) as G. change (2 ^ 2)%Z with 4%Z in G.
    pose proof (bpow_gt_0 radix2 (-52)) as P52.
    destruct (vD (dpow A 4 id)) as [r| | |]; try discriminate G.
    + apply xle_fin in G. cbn [xmul rndx].
      assert (bpow radix2 (-52) <= round radix2 fexp64 ZnearestE (r * bpow radix2 (-52))).
      { rewrite <- (rnd_id 53 1024 (bpow radix2 (-52))) at 1 by (apply (fmt_bpow 53 1024 eq_refl); lia).
        apply (rnd_le 53 1024 eq_refl). nra. }
      destruct (sat_cases 1024 (round radix2 fexp64 ZnearestE (r * bpow radix2 (-52)))) as [[-> _]|[[-> _]|[_ X]]].
      * apply xlt_fin. lra.
      * reflexivity.
      * pose proof (bpow_gt_0 radix2 1024). lra.
    + cbn [xmul]. rewrite xinf_pos by auto. reflexivity.
Qed.

(** Non-finite values (and the other component of the same point) are reproduced bit for bit. *)
Theorem nonfinite_exact req abs_eb r1 r2 U V U' V' c p u v :
  (0 <= r1)%Z -> (0 < r2)%Z -> Z.of_nat (length U) = (r1 * r2)%Z -> Z.of_nat (length V) = (r1 * r2)%Z ->
  enc_field A req abs_eb r1 r2 U V = Some (U', V', c) ->
  aget U p = Some u -> aget V p = Some v ->
  (forall x, vT u <> Fin x) \/ (forall x, vT v <> Fin x) ->
  aget U' p = Some u /\ aget V' p = Some v.
Proof.
  intros H1 H2 LU LV H Eu Ev HN.
  destruct (field_trace A _ _ _ _ _ _ _ _ _ H1 H2 LU LV H) as (L1 & L2 & HT).
  pose proof (aget_Some _ _ _ Eu) as Hp. rewrite LU in Hp.
  assert (Hj : (0 <= p mod r2 < r2)%Z) by (apply Z.mod_pos_bound; auto).
  assert (Hi : (0 <= p / r2 < r1)%Z).
  { split; [apply Z.div_pos; lia|]. apply Z.div_lt_upper_bound; lia. }
  assert (Ep : (p / r2 * r2 + p mod r2 = p)%Z) by (pose proof (Z.div_mod p r2); lia).
  destruct (HT _ _ Hi Hj) as [cq HO]. rewrite Ep in HO.
  assert (GU : forall f o q, length f = length o -> aget (mix q f o) q = @aget (T A) o q \/ (q < 0)%Z).
  { intros f o q Lf. destruct (Z.ltb_spec q 0); [auto|]. left. rewrite aget_mix by auto. rewrite Z.ltb_irrefl. auto. }
  assert (A1 : forall f o, length f = length o -> aget (mix p f o) p = @aget (T A) o p).
  { intros f o Lf. rewrite aget_mix by (auto; lia). rewrite Z.ltb_irrefl. auto. }
  assert (A2 : forall f o, length f = length o -> aget (mix (p + 1) f o) p = @aget (T A) f p).
  { intros f o Lf. rewrite aget_mix by (auto; lia). replace (p <? p + 1)%Z with true by lia. auto. }
  inversion HO as [u1 v1 E1 E2 EU EV|u1 v1 eb id0 id1 q0 q1 x0 x1 U1 V1 E1 E2 E3 E4 C0 C1 S0 S1 EU EV]; subst.
  - rewrite <- (A2 U' U), <- EU, (A1 U' U) by auto. rewrite <- (A2 V' V), <- EV, (A1 V' V) by auto. auto.
  - rewrite Ep in *. rewrite A1 in E1, E2 by auto. rewrite Eu in E1. rewrite Ev in E2.
    apply Some_inj in E1. apply Some_inj in E2. subst u1 v1. exfalso.
    destruct (coded_finite _ _ _ _ _ _ _ _ _ C0) as [x X]. destruct (coded_finite _ _ _ _ _ _ _ _ _ C1) as [y Y].
    destruct HN as [HN|HN]; [apply (HN x)|apply (HN y)]; auto.
Qed.
End B.
