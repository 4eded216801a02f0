(** Error bound of the 2D relative codec in IEEE arithmetic.  Nothing of /repo is modelled here. *)
From Coq Require Import Reals Lra Lia ZArith List Bool.
From Coq Require Import ZifyBool ZifyNat.
From Flocq Require Import Core.Core IEEE754.BinarySingleNaN IEEE754.Binary IEEE754.Bits Relative.
From Verif Require Import Base Huffman Arith Mesh2D Derive2D Codec2D Sync2D Trace2D Exact IEEE IEEELaws IEEEQuant IEEE2D IEEEAbs2D.
Import ListNotations.
Local Open Scope R_scope.

Section B.
Context (A : Arith) (I : ieee A).
Local Notation vT := (vT A I). Local Notation vD := (vD A I).
Local Notation pT := (pT A I). Local Notation eT := (eT A I).
Local Notation HpT := (HpT A I).
Local Notation bnd := (bnd A I).
Local Notation bndD := (bndD A I).
Local Notation fexpT := (SpecFloat.fexp pT eT).
Local Instance fexpT_valid' : Valid_exp fexpT := fexp_correct pT eT HpT.
Local Instance fexp64_valid' : Valid_exp fexp64 := fexp_correct 53 1024 eq_refl.

(** ** Small integers are exact *)
Definition isz (z : Z) (x : T A) : Prop := vT x = Fin (IZR z).

Lemma rndxT_Z z : (Z.abs z <= 2)%Z -> rndx pT eT (Fin (IZR z)) = Fin (IZR z).
Proof.
  intros H. pose proof (pT_ok A I). pose proof (eT_ok A I). apply rndx_fin.
  - apply (fmt_IZR pT eT HpT); [|lia]. apply Z.le_trans with (2 ^ 1)%Z; [lia|]. apply Z.pow_le_mono_r; lia.
  - rewrite <- abs_IZR. apply Rle_lt_trans with (bpow radix2 1); [|apply bpow_lt; lia].
    change (bpow radix2 1) with (IZR 2). apply IZR_le. lia.
Qed.
Lemma isz_ofZ z : (Z.abs z <= 2)%Z -> isz z (tofZ A z).
Proof. intros H. unfold isz. rewrite v_tofZ. apply rndxT_Z; auto. Qed.
Lemma isz_sub a b x y : isz a x -> isz b y -> (Z.abs (a - b) <= 2)%Z -> isz (a - b) (tsub A x y).
Proof. unfold isz. intros E1 E2 H. rewrite v_tsub, E1, E2. cbn [xsub]. rewrite <- minus_IZR. apply rndxT_Z; auto. Qed.
Lemma isz_add a b x y : isz a x -> isz b y -> (Z.abs (a + b) <= 2)%Z -> isz (a + b) (tadd A x y).
Proof. unfold isz. intros E1 E2 H. rewrite v_tadd, E1, E2. cbn [xadd]. rewrite <- plus_IZR. apply rndxT_Z; auto. Qed.
Lemma isz_mul a b x y : isz a x -> isz b y -> (Z.abs (a * b) <= 2)%Z -> isz (a * b) (tmul A x y).
Proof. unfold isz. intros E1 E2 H. rewrite v_tmul, E1, E2. cbn [xmul]. rewrite <- mult_IZR. apply rndxT_Z; auto. Qed.
Lemma isz_neg a x : isz a x -> isz (- a) (tneg A x).
Proof. unfold isz. intros E1. rewrite v_tneg, E1. cbn [xneg]. rewrite opp_IZR. reflexivity. Qed.
Lemma isz_div a b x y : isz a x -> isz b y -> (Z.abs b = 1)%Z -> (Z.abs a <= 2)%Z -> isz (a * b) (tdiv A x y).
Proof.
  unfold isz. intros E1 E2 H Ha. rewrite v_tdiv by (rewrite E2; intros X; inversion X as [X']; apply eq_IZR in X'; lia).
  rewrite E1, E2, xdiv_fin by (apply IZR_neq; lia).
  replace (IZR a / IZR b) with (IZR (a * b)).
  - apply rndxT_Z. assert (b = 1 \/ b = -1)%Z as [-> | ->] by lia; lia.
  - rewrite mult_IZR. assert (b = 1 \/ b = -1)%Z as [-> | ->] by lia; field.
Qed.

Lemma adjugate_val x0 x1 x2 y0 y1 y2 X0 X1 X2 Y0 Y1 Y2 :
  isz X0 x0 -> isz X1 x1 -> isz X2 x2 -> isz Y0 y0 -> isz Y1 y1 -> isz Y2 y2 ->
  (0 <= X0 <= 1)%Z -> (0 <= X1 <= 1)%Z -> (0 <= X2 <= 1)%Z -> (0 <= Y0 <= 1)%Z -> (0 <= Y1 <= 1)%Z -> (0 <= Y2 <= 1)%Z ->
  forall d, ((X0 - X2) * (Y1 - Y2) - (X1 - X2) * (Y0 - Y2) = d)%Z -> (Z.abs d = 1)%Z ->
  exists c0 c1 c2 c3, adjugate A x0 x1 x2 y0 y1 y2 = (c0, c1, c2, c3) /\
    isz ((Y1 - Y2) * d) c0 /\ isz (- (Y0 - Y2) * d) c1 /\ isz (- (X1 - X2) * d) c2 /\ isz ((X0 - X2) * d) c3.
Proof.
  intros E1 E2 E3 E4 E5 E6 B1 B2 B3 B4 B5 B6 d Hd Hd1.
  assert (Hs : forall a b x y, isz a x -> isz b y -> (0 <= a <= 1)%Z -> (0 <= b <= 1)%Z -> isz (a - b) (tsub A x y))
    by (intros; apply isz_sub; auto; lia).
  assert (Hdet : isz d (tsub A (tmul A (tsub A x0 x2) (tsub A y1 y2)) (tmul A (tsub A x1 x2) (tsub A y0 y2)))).
  { rewrite <- Hd. apply isz_sub; [apply isz_mul; auto; nia|apply isz_mul; auto; nia|lia]. }
  unfold adjugate. do 4 eexists. split; [reflexivity|].
  repeat split; apply isz_div; auto using isz_neg; lia.
Qed.

Lemma inv_C_val k : (k < 6)%nat -> exists c0 c1 c2 c3 z0 z1 z2 z3, inv_C A k = (c0, c1, c2, c3) /\
  isz z0 c0 /\ isz z1 c1 /\ isz z2 c2 /\ isz z3 c3 /\ (Z.abs z0 <= 1)%Z /\ (Z.abs z1 <= 1)%Z /\ (Z.abs z2 <= 1)%Z /\ (Z.abs z3 <= 1)%Z /\
  (Z.abs (z0 + z1) <= 1)%Z /\ (Z.abs (z2 + z3) <= 1)%Z /\ (z0 + z1 <> 0 \/ z2 + z3 <> 0)%Z.
Proof.
  intros Hk. unfold inv_C.
  destruct k as [|[|[|[|[|[|k]]]]]]; [..|lia]; cbn [tab tab_x tab_y nth];
    match goal with |- context [adjugate A (tofZ A ?a) (tofZ A ?b) (tofZ A ?c) (tofZ A ?d) (tofZ A ?e) (tofZ A ?f)] =>
      destruct (adjugate_val _ _ _ _ _ _ a b c d e f (isz_ofZ a ltac:(lia)) (isz_ofZ b ltac:(lia)) (isz_ofZ c ltac:(lia))
        (isz_ofZ d ltac:(lia)) (isz_ofZ e ltac:(lia)) (isz_ofZ f ltac:(lia)) ltac:(lia) ltac:(lia) ltac:(lia) ltac:(lia) ltac:(lia) ltac:(lia)
        _ eq_refl eq_refl) as (c0 & c1 & c2 & c3 & E & H0 & H1 & H2 & H3) end;
    (exists c0, c1, c2, c3; eexists _, _, _, _; split; [exact E|]; split; [exact H0|]; split; [exact H1|];
     split; [exact H2|]; split; [exact H3|]; cbn; lia).
Qed.

Lemma isz_bnd z x : isz z x -> (Z.abs z <= 1)%Z -> bnd 0 x.
Proof. intros E H. exists (IZR z). split; auto. rewrite <- abs_IZR. cbn [bpow]. apply IZR_le. lia. Qed.

(** ** keep_sign *)
Lemma keep_sign_notnan k a b c : (0 <= k)%Z -> (k + 2 < eT)%Z -> bnd k a -> bnd k b -> bnd (k + 1) c ->
  vD (max_eb_to_keep_sign_2d_online A a b c) <> NaN.
Proof.
  intros H0 H Ba Bb Bc. unfold max_eb_to_keep_sign_2d_online.
  destruct (bnd_add A I k (tabs A a) (tabs A b)) as (s & Es & _); auto using bnd_abs; try lia.
  destruct (bnd_add A I (k + 1) (tadd A a b) c) as (n & En & _); try lia; auto.
  { apply bnd_add; auto. lia. }
  destruct (deq A _ _) eqn:E; [rewrite vD_0; discriminate|].
  rewrite (v_deq A I), v_t2d, Es, vD_0 in E. apply xeq_fin_false in E.
  rewrite v_ddiv by (rewrite v_t2d, Es; congruence). rewrite !v_t2d, v_tabs, En, Es. cbn [xabs].
  rewrite xdiv_fin by auto. apply rndx_notnan. discriminate.
Qed.

(** ** Doubles *)
Lemma bndD_sub k x y : (0 <= k)%Z -> (k + 1 < 1024)%Z -> bndD k x -> bndD k y -> bndD (k + 1) (dsub A x y).
Proof.
  intros H0 H (r & E & B) (s & E' & B'). destruct (rndxD_bnd (r - s) (k + 1)) as (z & Ez & Bz & _); [lia| |].
  - rewrite bpow_2. unfold Rminus. eapply Rle_trans; [apply Rabs_triang|]. rewrite Rabs_Ropp. lra.
  - exists z. rewrite v_dsub, E, E'. auto.
Qed.
Lemma bndD_mul k l x y : (0 <= k)%Z -> (0 <= l)%Z -> (k + l < 1024)%Z -> bndD k x -> bndD l y -> bndD (k + l) (dmul A x y).
Proof.
  intros H0 H1 H (r & E & B) (s & E' & B'). destruct (rndxD_bnd (r * s) (k + l)) as (z & Ez & Bz & _); [lia| |].
  - rewrite bpow_plus, Rabs_mult. apply Rmult_le_compat; auto; apply Rabs_pos.
  - exists z. rewrite v_dmul, E, E'. auto.
Qed.
Lemma bndD_abs k x : bndD k x -> bndD k (dabs A x).
Proof. intros (r & E & B). exists (Rabs r). rewrite v_dabs, E. split; auto. rewrite Rabs_Rabsolu. auto. Qed.
Lemma bndD_const z k : (Z.abs z <= 2 ^ 53)%Z -> (0 <= k)%Z -> (Z.abs z <= 2 ^ k)%Z -> bndD k (dofZ A z).
Proof.
  intros H Hk H'. exists (IZR z). split; [apply vD_const; auto|]. rewrite <- abs_IZR, <- IZR_Zpower by auto. apply IZR_le. exact H'.
Qed.

(** Sum of two magnitudes is at least each of them. *)
Lemma dabs_sum_ge k x y l : (0 <= k)%Z -> (k + 1 < 1024)%Z -> bndD k x -> bndD k y -> generic_format radix2 fexp64 l ->
  (exists r, (vD x = Fin r \/ vD y = Fin r) /\ l <= Rabs r) ->
  exists s, vD (dadd A (dabs A x) (dabs A y)) = Fin s /\ l <= s /\ 0 <= s <= bpow radix2 (k + 1).
Proof.
  intros H0 H Hx Hy Gl (r & Er & Hl). destruct (bndD_add A I k (dabs A x) (dabs A y)) as (s & Es & Bs); auto using bndD_abs; try lia.
  exists s. split; auto. destruct Hx as (a & Ea & Ba), Hy as (b & Eb & Bb). pose proof Es as Es'.
  rewrite v_dadd, !v_dabs, Ea, Eb in Es. cbn [xabs xadd] in Es. apply rndx_fin_inv in Es. destruct Es as (q & Eq & -> & _).
  inversion Eq; subst q. pose proof (Rabs_pos a). pose proof (Rabs_pos b).
  assert (l <= Rabs a + Rabs b). { destruct Er as [Er|Er]; [rewrite Ea in Er|rewrite Eb in Er]; inversion Er; subst; lra. }
  split; [|split].
  - rewrite <- (rnd_id 53 1024 l Gl) at 1. apply (rnd_le 53 1024 eq_refl). auto.
  - rewrite <- (rnd_0 53 1024). apply (rnd_le 53 1024 eq_refl). lra.
  - apply Rle_trans with (2 := Bs). apply Rle_abs.
Qed.

(** The root of the quadratic for negative discriminant. *)
Lemma root_notnan k a b delta (ra rb rd : R) : (0 <= k)%Z -> (k + 2 < 1024)%Z ->
  vD a = Fin ra -> 0 < ra <= bpow radix2 k -> vD b = Fin rb -> 0 <= rb -> vD delta = Fin rd -> rd <= 0 ->
  vD (ddiv A (dadd A (dneg A b) (dsqrt A (dsub A (dmul A b b) (dmul A (dmul A (dofZ A 4) a) delta)))) (dmul A (dofZ A 2) a)) <> NaN.
Proof.
  intros Hk0 Hk Ea Ha Eb Hb Ed Hd.
  assert (P : forall z (e:Z), (z = 2 ^ e)%Z -> (1 <= e <= 2)%Z -> exists p, vD (dmul A (dofZ A z) a) = Fin p /\ 0 < p).
  { intros z e -> He. exists (IZR (2 ^ e) * ra). assert (0 < IZR (2 ^ e)) by (apply IZR_lt; apply Z.pow_pos_nonneg; lia).
    split; [|nra]. rewrite v_dmul, vD_const by (assert (e = 1 \/ e = 2)%Z as [-> | ->] by lia; lia). rewrite Ea. cbn [xmul].
    change (IZR (2 ^ e)) with (IZR (radix2 ^ e)) in *. rewrite IZR_Zpower in * by lia. rewrite Rmult_comm. apply rndx_fin.
    - apply fmt64_scale; [lia|]. apply (vD_fmt A I _ _ Ea).
    - rewrite Rabs_pos_eq by nra. apply Rle_lt_trans with (bpow radix2 k * bpow radix2 e).
      + apply Rmult_le_compat_r; [lra|lra].
      + rewrite <- bpow_plus. apply bpow_lt. lia. }
  destruct (P 4%Z 2%Z eq_refl ltac:(lia)) as (p4 & E4 & P4). destruct (P 2%Z 1%Z eq_refl ltac:(lia)) as (p2 & E2 & P2).
  rewrite v_ddiv by (rewrite E2; intros X; inversion X; lra). rewrite E2. apply rndx_notnan.
  assert (S : vD (dadd A (dneg A b) (dsqrt A (dsub A (dmul A b b) (dmul A (dmul A (dofZ A 4) a) delta)))) <> NaN).
  { rewrite v_dadd, v_dneg, Eb, v_dsqrt, v_dsub, !(v_dmul A I _ delta), (v_dmul A I b b), E4, Eb, Ed. cbn [xmul xneg].
    assert (Q1 : exists q, (rndx 53 1024 (Fin (rb * rb)) = Fin q /\ 0 <= q) \/ rndx 53 1024 (Fin (rb * rb)) = PInf).
    { cbn [rndx]. assert (0 <= round radix2 fexp64 ZnearestE (rb * rb)).
      { rewrite <- (rnd_0 53 1024). apply (rnd_le 53 1024 eq_refl). nra. }
      destruct (sat_cases 1024 (round radix2 fexp64 ZnearestE (rb * rb))) as [[-> _]|[[-> _]|[_ X]]]; [eauto|exists 0; auto|].
      pose proof (bpow_gt_0 radix2 1024). lra. }
    assert (Q2 : exists q, (rndx 53 1024 (Fin (p4 * rd)) = Fin q /\ q <= 0) \/ rndx 53 1024 (Fin (p4 * rd)) = NInf).
    { cbn [rndx]. assert (round radix2 fexp64 ZnearestE (p4 * rd) <= 0).
      { rewrite <- (rnd_0 53 1024). apply (rnd_le 53 1024 eq_refl). nra. }
      destruct (sat_cases 1024 (round radix2 fexp64 ZnearestE (p4 * rd))) as [[-> _]|[[_ X]|[-> _]]]; [eauto| |exists 0; auto].
      pose proof (bpow_gt_0 radix2 1024). lra. }
    assert (Q3 : exists q, (rndx 53 1024 (xsub (rndx 53 1024 (Fin (rb * rb))) (rndx 53 1024 (Fin (p4 * rd)))) = Fin q /\ 0 <= q) \/
             rndx 53 1024 (xsub (rndx 53 1024 (Fin (rb * rb))) (rndx 53 1024 (Fin (p4 * rd)))) = PInf).
    { destruct Q1 as (q1 & [[-> H1]| ->]), Q2 as (q2 & [[-> H2]| ->]); cbn [xsub xneg xadd]; try (exists 0; right; reflexivity).
      cbn [rndx]. assert (0 <= round radix2 fexp64 ZnearestE (q1 - q2)).
      { rewrite <- (rnd_0 53 1024). apply (rnd_le 53 1024 eq_refl). lra. }
      destruct (sat_cases 1024 (round radix2 fexp64 ZnearestE (q1 - q2))) as [[-> _]|[[-> _]|[_ X]]]; [eauto|exists 0; auto|].
      pose proof (bpow_gt_0 radix2 1024). lra. }
    destruct Q3 as (q3 & [[-> H3]| ->]); unfold xsqrt; [rewrite Rlt_bool_false by lra|]; apply rndx_notnan.
    - cbn [rndx]. destruct (sat_cases 1024 (round radix2 fexp64 ZnearestE (sqrt q3))) as [[-> _]|[[-> _]|[-> _]]]; cbn; discriminate.
    - cbn. discriminate. }
  destruct (vD (dadd A (dneg A b) _)) as [n| | |]; try congruence.
  - rewrite xdiv_fin by lra. discriminate.
  - Local Transparent xdiv. unfold xdiv. destruct (Rlt_bool p2 0); discriminate.
  - unfold xdiv. destruct (Rlt_bool p2 0); discriminate.
Qed.
Local Opaque xdiv.

(** a = 0 or |a| >= 2^-500 (always true of floats). *)
Definition not_tiny (x : T A) : Prop := forall r, vT x = Fin r -> r <> 0 -> bpow radix2 (-500) <= Rabs r.

Lemma lin_exact z0 z1 c0 c1 x r : isz z0 c0 -> isz z1 c1 -> (Z.abs z0 <= 1)%Z -> (Z.abs z1 <= 1)%Z -> (Z.abs (z0 + z1) <= 1)%Z ->
  vT x = Fin r -> vT (tsub A (tmul A (tneg A c0) x) (tmul A c1 x)) = Fin (- IZR (z0 + z1) * r).
Proof.
  unfold isz. intros E0 E1 H0 H1 H01 Er. destruct (vT_fmt A I _ _ Er) as [Gr Br].
  assert (M : forall z, (Z.abs z <= 1)%Z -> rndx pT eT (Fin (IZR z * r)) = Fin (IZR z * r)).
  { intros z Hz. apply rndx_fin.
    - assert (z = 0 \/ z = 1 \/ z = -1)%Z as [-> | [-> | ->]] by lia.
      + rewrite Rmult_0_l. apply generic_format_0.
      + rewrite Rmult_1_l. auto.
      + replace (-1 * r) with (- r) by ring. apply generic_format_opp. auto.
    - assert (z = 0 \/ z = 1 \/ z = -1)%Z as [-> | [-> | ->]] by lia.
      + rewrite Rmult_0_l, Rabs_R0. apply bpow_gt_0.
      + rewrite Rmult_1_l. auto.
      + replace (-1 * r) with (- r) by ring. rewrite Rabs_Ropp. auto. }
  rewrite v_tsub, !v_tmul, v_tneg, E0, E1, Er. cbn [xneg xmul].
  rewrite <- opp_IZR, !M by lia. cbn [xsub]. rewrite <- Rmult_minus_distr_r, <- minus_IZR, <- opp_IZR.
  replace (- z0 - z1)%Z with (- (z0 + z1))%Z by lia. apply M. lia.
Qed.

Lemma keep_type_notnan W k u0 u1 u2 v0 v1 v2 ru rv : (k < 6)%nat -> (0 <= W)%Z -> (2 * W + 10 < eT)%Z ->
  bnd W u0 -> bnd W u1 -> bnd W u2 -> bnd W v0 -> bnd W v1 -> bnd W v2 ->
  vT u2 = Fin ru -> vT v2 = Fin rv -> ru <> 0 -> rv <> 0 -> not_tiny u2 -> not_tiny v2 ->
  vD (max_eb_to_keep_type_online A u0 u1 u2 v0 v1 v2 (inv_C A k)) <> NaN.
Proof.
  intros Hk HW HE B0 B1 B2 C0 C1 C2 Eu Ev Nu Nv Tu Tv. pose proof (eT_ok A I) as He.
  destruct (inv_C_val k Hk) as (c0 & c1 & c2 & c3 & z0 & z1 & z2 & z3 & -> & Z0 & Z1 & Z2 & Z3 & A0 & A1 & A2 & A3 & A01 & A23 & AN).
  pose proof (isz_bnd _ _ Z0 A0) as K0. pose proof (isz_bnd _ _ Z1 A1) as K1.
  pose proof (isz_bnd _ _ Z2 A2) as K2. pose proof (isz_bnd _ _ Z3 A3) as K3.
  assert (One : vD (dofZ A 1) = Fin 1) by (apply vD_const; lia).
  assert (P : forall x y, bnd W x -> bnd W y -> bnd (2 * W) (tmul A x y)).
  { intros x y Bx By. replace (2 * W)%Z with (W + W)%Z by lia. apply bnd_mul; auto; lia. }
  assert (S : forall j x y, (0 <= j < 2 * W + 9)%Z -> bnd j x -> bnd j y -> bnd (j + 1) (tsub A x y)) by (intros; apply bnd_sub; auto; lia).
  assert (S' : forall j x y, (0 <= j < 2 * W + 9)%Z -> bnd j x -> bnd j y -> bnd (j + 1) (tadd A x y)) by (intros; apply bnd_add; auto; lia).
  assert (PS : forall x y x' y', bnd W x -> bnd W y -> bnd W x' -> bnd W y' -> bnd (2 * W + 1) (tsub A (tmul A x y) (tmul A x' y'))).
  { intros. apply S; auto. lia. }
  assert (CM : forall c x, bnd 0 c -> bnd W x -> bnd W (tmul A c x)).
  { intros c x Hc Hx. change W with (0 + W)%Z. apply bnd_mul; auto; lia. }
  unfold max_eb_to_keep_type_online.
  set (eb1 := max_eb_to_keep_sign_2d_online A (tsub A (tmul A u2 v0) (tmul A u2 v1)) (tsub A (tmul A u1 v2) (tmul A u0 v2)) (tsub A (tmul A u0 v1) (tmul A u1 v0))).
  assert (N1 : vD eb1 <> NaN).
  { apply (keep_sign_notnan (2 * W + 1)); auto; try lia. apply (bnd_mono A I (2 * W + 1)); auto. lia. }
  destruct (tle A _ _); [apply minf_notnan; auto; rewrite One; discriminate|].
  set (m := tsub A (tmul A c1 c2) (tmul A c0 c3)).
  assert (Bm : bnd 1 m).
  { change 1%Z with (0 + 1)%Z. apply S; [lia|change 0%Z with (0 + 0)%Z; apply bnd_mul; auto; lia|change 0%Z with (0 + 0)%Z; apply bnd_mul; auto; lia]. }
  set (tA := tsub A (tmul A (tneg A c0) u2) (tmul A c1 u2)).
  set (tB := tsub A (tmul A (tneg A c2) v2) (tmul A c3 v2)).
  set (tC := tadd A (tadd A (tadd A (tmul A c0 u0) (tmul A c1 u1)) (tmul A c2 v0)) (tmul A c3 v1)).
  assert (EA : vT tA = Fin (- IZR (z0 + z1) * ru)) by (apply lin_exact; auto).
  assert (EB : vT tB = Fin (- IZR (z2 + z3) * rv)) by (apply lin_exact; auto).
  assert (BA : bnd (W + 1) tA) by (apply S; auto using bnd_neg; lia).
  assert (BB : bnd (W + 1) tB) by (apply S; auto using bnd_neg; lia).
  assert (BC : bnd (W + 3) tC).
  { replace (W + 3)%Z with (W + 2 + 1)%Z by lia. apply S'; [lia| |apply (bnd_mono A I W); auto; lia].
    replace (W + 2)%Z with (W + 1 + 1)%Z by lia. apply S'; [lia| |apply (bnd_mono A I W); auto; lia].
    apply S'; auto. lia. }
  set (eb2 := max_eb_to_keep_sign_2d_online A tA tB tC).
  assert (N2 : vD eb2 <> NaN).
  { apply (keep_sign_notnan (W + 2)); auto; try lia; [apply (bnd_mono A I (W + 1)); auto; lia|apply (bnd_mono A I (W + 1)); auto; lia|].
    apply (bnd_mono A I (W + 3)); auto; lia. }
  set (dD := t2d A (tmul A (tneg A m) (tsub A (tmul A u2 v0) (tmul A u2 v1)))).
  set (dE := t2d A (tmul A (tneg A m) (tsub A (tmul A u1 v2) (tmul A u0 v2)))).
  set (dF := t2d A (tmul A (tneg A m) (tsub A (tmul A u0 v1) (tmul A u1 v0)))).
  assert (PM : forall x, bnd (2 * W + 1) x -> bndD (2 * W + 2) (t2d A (tmul A (tneg A m) x))).
  { intros x Hx. apply bnd_t2d. replace (2 * W + 2)%Z with (1 + (2 * W + 1))%Z by lia. apply bnd_mul; auto using bnd_neg; lia. }
  assert (BD : bndD (2 * W + 2) dD) by (apply PM; auto).
  assert (BE : bndD (2 * W + 2) dE) by (apply PM; auto).
  assert (BF : bndD (2 * W + 2) dF) by (apply PM; auto).
  apply bnd_t2d in BA. apply bnd_t2d in BB. apply bnd_t2d in BC.
  rewrite <- (v_t2d A I) in EA, EB.
  set (dA := t2d A tA) in *. set (dB := t2d A tB) in *. set (dC := t2d A tC) in *.
  assert (AD : forall j x y, (0 <= j < 1022)%Z -> bndD j x -> bndD j y -> bndD (j + 1) (dadd A x y)) by (intros; apply bndD_add; auto; lia).
  set (dC' := dadd A dC (dadd A dA dB)).
  assert (BC' : bndD (W + 4) dC').
  { replace (W + 4)%Z with (W + 3 + 1)%Z by lia. apply AD; [lia|auto|]. apply (bndD_mono A I (W + 1 + 1)); [lia|]. apply AD; auto. lia. }
  set (dF' := dadd A dF (dadd A dD dE)).
  assert (BF' : bndD (2 * W + 4) dF').
  { replace (2 * W + 4)%Z with (2 * W + 3 + 1)%Z by lia. apply AD; [lia|apply (bndD_mono A I (2 * W + 2)); auto; lia|].
    replace (2 * W + 3)%Z with (2 * W + 2 + 1)%Z by lia. apply AD; auto. lia. }
  assert (F2 : bndD 1 (dofZ A 2)) by (apply bndD_const; lia).
  assert (F4 : bndD 2 (dofZ A 4)) by (apply bndD_const; lia).
  set (delta := dsub A (dmul A dC' dC') (dmul A (dofZ A 4) dF')).
  assert (Bd : bndD (2 * W + 9) delta).
  { replace (2 * W + 9)%Z with (2 * W + 8 + 1)%Z by lia. apply bndD_sub; try lia.
    - replace (2 * W + 8)%Z with (W + 4 + (W + 4))%Z by lia. apply bndD_mul; auto; lia.
    - apply (bndD_mono A I (2 + (2 * W + 4))); [lia|]. apply bndD_mul; auto; lia. }
  set (s1 := dabs A (dsub A (dmul A (dmul A (dofZ A 2) dA) dC') (dmul A (dofZ A 4) dD))).
  set (s2 := dabs A (dsub A (dmul A (dmul A (dofZ A 2) dB) dC') (dmul A (dofZ A 4) dE))).
  assert (Bs : forall a d, bndD (W + 1) a -> bndD (2 * W + 2) d -> bndD (2 * W + 7) (dsub A (dmul A (dmul A (dofZ A 2) a) dC') (dmul A (dofZ A 4) d))).
  { intros a d Ha Hd. replace (2 * W + 7)%Z with (2 * W + 6 + 1)%Z by lia. apply bndD_sub; try lia.
    - replace (2 * W + 6)%Z with (W + 2 + (W + 4))%Z by lia. apply bndD_mul; auto; try lia. replace (W + 2)%Z with (1 + (W + 1))%Z by lia. apply bndD_mul; auto; lia.
    - apply (bndD_mono A I (2 + (2 * W + 2))); [lia|]. apply bndD_mul; auto; lia. }
  assert (Sum : exists s, vD (dadd A s1 s2) = Fin s /\ 0 <= s).
  { destruct (dabs_sum_ge (2 * W + 7) (dsub A (dmul A (dmul A (dofZ A 2) dA) dC') (dmul A (dofZ A 4) dD))
        (dsub A (dmul A (dmul A (dofZ A 2) dB) dC') (dmul A (dofZ A 4) dE)) 0) as (s & Es & _ & Hs & _); auto; try lia.
    - apply generic_format_0.
    - destruct (Bs dA dD BA BD) as (r & Er & _). exists r. split; auto. apply Rabs_pos.
    - exists s. auto. }
  destruct Sum as (s & Es & Hs). destruct Bd as (rd & Ed & _).
  destruct (deq A delta _); [rewrite vD_0; discriminate|].
  destruct (dlt A _ delta) eqn:Hd.
  - destruct (deq A _ _) eqn:E0; [rewrite One; discriminate|].
    rewrite (v_deq A I), Es, vD_0 in E0. apply xeq_fin_false in E0. apply minf_notnan; auto.
    rewrite v_ddiv by (rewrite Es; congruence). rewrite Ed, Es, xdiv_fin by auto. apply rndx_notnan. discriminate.
  - rewrite (v_dlt A I), Ed, vD_0 in Hd. apply xlt_fin_false in Hd. apply minf_notnan; auto.
    assert (G5 : generic_format radix2 fexp64 (bpow radix2 (-500))) by (apply (fmt_bpow 53 1024 eq_refl); lia).
    destruct (dabs_sum_ge (W + 1) dA dB (bpow radix2 (-500))) as (h & Eh & Hh & Hh2); auto; try lia.
    { assert (Zb : forall z, (Z.abs z <= 1)%Z -> z <> 0%Z -> Rabs (- IZR z) = 1).
      { intros z Hz Hnz. assert (z = 1 \/ z = -1)%Z as [-> | ->] by lia; rewrite Rabs_Ropp, <- abs_IZR; reflexivity. }
      destruct AN as [AN|AN].
      - eexists. split; [left; exact EA|]. rewrite Rabs_mult, Zb, Rmult_1_l by auto. apply Tu; auto.
      - eexists. split; [right; exact EB|]. rewrite Rabs_mult, Zb, Rmult_1_l by auto. apply Tv; auto. }
    pose proof (bpow_gt_0 radix2 (-500)) as P500. pose proof (bpow_gt_0 radix2 (-1000)) as P1000.
    assert (H1000 : bpow radix2 (-1000) <= h * h).
    { change (-1000)%Z with (-500 + -500)%Z. rewrite bpow_plus. nra. }
    assert (Ha : exists ra, vD (dmul A (dadd A (dabs A dA) (dabs A dB)) (dadd A (dabs A dA) (dabs A dB))) = Fin ra /\ 0 < ra <= bpow radix2 (2 * W + 4)).
    { rewrite v_dmul, Eh. cbn [xmul]. destruct (rndxD_bnd (h * h) (2 * W + 4)) as (ra & Era & Bra & Rra); [lia| |].
      - rewrite Rabs_pos_eq by nra. replace (2 * W + 4)%Z with ((W + 1 + 1) + (W + 1 + 1))%Z by lia. rewrite (bpow_plus radix2 (W + 1 + 1)).
        apply Rmult_le_compat; lra.
      - exists ra. split; auto. assert (bpow radix2 (-1000) <= ra).
        { rewrite Rra. rewrite <- (rnd_id 53 1024 (bpow radix2 (-1000))) by (apply (fmt_bpow 53 1024 eq_refl); lia).
          apply (rnd_le 53 1024 eq_refl). auto. }
        split; [lra|]. apply Rabs_le_inv in Bra. lra. }
    destruct Ha as (ra & Ea & Hra).
    eapply (root_notnan (2 * W + 4)); eauto; lia.
Qed.

Lemma derive_rel_notnan W k u0 u1 u2 v0 v1 v2 ru rv : (k < 6)%nat -> (0 <= W)%Z -> (2 * W + 10 < eT)%Z ->
  bnd W u0 -> bnd W u1 -> bnd W u2 -> bnd W v0 -> bnd W v1 -> bnd W v2 ->
  vT u2 = Fin ru -> vT v2 = Fin rv -> ru <> 0 -> rv <> 0 -> not_tiny u2 -> not_tiny v2 ->
  vD (derive_cp_eb_for_positions_online A u0 u1 u2 v0 v1 v2 (inv_C A k)) <> NaN.
Proof.
  intros Hk HW HE B0 B1 B2 C0 C1 C2 Eu Ev Nu Nv Tu Tv.
  assert (Z0 : vD (dofZ A 0) <> NaN) by (rewrite vD_0; discriminate).
  assert (P : forall x y, bnd W x -> bnd W y -> bnd (2 * W) (tmul A x y)).
  { intros x y Bx By. replace (2 * W)%Z with (W + W)%Z by lia. apply bnd_mul; auto; lia. }
  assert (PS : forall x y x' y', bnd W x -> bnd W y -> bnd W x' -> bnd W y' -> bnd (2 * W + 1) (tsub A (tmul A x y) (tmul A x' y'))).
  { intros. apply bnd_sub; auto; lia. }
  assert (Bt0 : forall j, (0 <= j)%Z -> bnd j (t0 A)).
  { intros j Hj. exists 0. split; [apply vT_0|]. rewrite Rabs_R0. apply bpow_ge_0. }
  assert (KS : forall a b c, bnd (2 * W) a -> bnd (2 * W) b -> bnd (2 * W + 1) c -> vD (max_eb_to_keep_sign_2d_online A a b c) <> NaN).
  { intros. apply (keep_sign_notnan (2 * W)); auto; lia. }
  assert (KT := keep_type_notnan W k u0 u1 u2 v0 v1 v2 ru rv Hk HW HE B0 B1 B2 C0 C1 C2 Eu Ev Nu Nv Tu Tv).
  unfold derive_cp_eb_for_positions_online.
  destruct (deq A _ _); auto.
  destruct (_ && _)%bool.
  - apply minf_notnan; auto. unfold max_eb_to_keep_position_online. apply minf_notnan; apply KS; auto using bnd_neg; apply Bt0; lia.
  - assert (KP : vD (minf A (max_eb_to_keep_sign_2d_online A (tmul A u2 v0) (tmul A (tneg A u0) v2) (t0 A))
        (max_eb_to_keep_sign_2d_online A (tmul A (tneg A u2) v1) (tmul A u1 v2) (tsub A (tmul A u0 v1) (tmul A u1 v0)))) <> NaN).
    { apply minf_notnan; apply KS; auto using bnd_neg; apply Bt0; lia. }
    assert (KQ : vD (minf A (max_eb_to_keep_sign_2d_online A (tmul A (tneg A u2) v1) (tmul A u1 v2) (t0 A))
        (max_eb_to_keep_sign_2d_online A (tmul A u2 v0) (tmul A (tneg A u0) v2) (tsub A (tmul A u0 v1) (tmul A u1 v0)))) <> NaN).
    { apply minf_notnan; apply KS; auto using bnd_neg; apply Bt0; lia. }
    assert (KR : vD (max_eb_to_keep_sign_2d_online A (tsub A (tmul A u2 v0) (tmul A u2 v1)) (tsub A (tmul A u1 v2) (tmul A u0 v2)) (t0 A)) <> NaN).
    { apply (keep_sign_notnan (2 * W + 1)); auto; try lia. apply Bt0; lia. }
    destruct (_ || _)%bool; destruct (_ || _)%bool; destruct (_ || _)%bool; auto using dmax_notnan.
Qed.

(** ** The codec *)
Context (L : libm_ok A I).

(** A zero component is never coded by the relative codec, whatever the bound. *)
Lemma zero_not_coded w r2 i j u eb id q x : vT u = Fin 0 -> ~ coded A w r2 i j u (dmul A (t2d A (tabs A u)) eb) id q x.
Proof.
  intros E (ab & pr & Hq & Hid & _). unfold eb_exponential_quantize in Hq.
  assert (Ez : vD (dmul A (t2d A (tabs A u)) eb) = Fin 0 \/ vD (dmul A (t2d A (tabs A u)) eb) = NaN).
  { rewrite v_dmul, v_t2d, v_tabs, E. cbn [xabs]. rewrite Rabs_R0. destruct (vD eb) as [e| | |]; cbn [xmul]; auto.
    - left. rewrite Rmult_0_l. apply rndx_fin; [apply generic_format_0|]. rewrite Rabs_R0. apply bpow_gt_0.
    - right. rewrite xinf_zero. reflexivity.
    - right. rewrite Ropp_0, xinf_zero. reflexivity. }
  set (z := dmul A _ eb) in *. destruct (dle A z _) eqn:El.
  - apply Some_inj in Hq. inversion Hq. lia.
  - rewrite (v_dle A I), v_eps in El. pose proof (bpow_gt_0 radix2 (-52)). destruct Ez as [Ez|Ez]; rewrite Ez in El.
    + apply xle_fin_false in El. lra.
    + bind_as Hq id' Ei. apply Some_inj in Hq. inversion Hq; subst id' ab. apply (toint_pos A I) in Ei; [|lia]. apply xtoint_fin in Ei. destruct Ei as (r & Er).
      apply (div_notfin A I) in Er. destruct Er as (l & El2).
      rewrite (lo_log2_nan A I L) in El2; [discriminate|].
      rewrite v_ddiv by (rewrite v_eps; intros X; inversion X; lra). rewrite Ez. reflexivity.
Qed.

(** Rounding the product |x|*eb costs at most a factor 1+2^-53 when the result is used. *)
Lemma prod_bound u eb a e p : vT u = Fin a -> vD eb = Fin e -> 0 < e ->
  vD (dmul A (t2d A (tabs A u)) eb) = Fin p -> bpow radix2 (-52) < p -> p <= Rabs a * e * (1 + bpow radix2 (-53)).
Proof.
  intros Ea Ee He Ep Hp. rewrite v_dmul, v_t2d, v_tabs, Ea, Ee in Ep. cbn [xabs xmul] in Ep.
  apply rndx_fin_inv in Ep. destruct Ep as (q & Eq & -> & _). inversion Eq; subst q. clear Eq.
  set (x := Rabs a * e) in *. assert (Hx0 : 0 <= x) by (unfold x; pose proof (Rabs_pos a); nra).
  assert (Hx : bpow radix2 (-53) <= x).
  { destruct (Rle_lt_dec (bpow radix2 (-53)) x); auto. exfalso.
    assert (round radix2 fexp64 ZnearestE x <= bpow radix2 (-53)).
    { rewrite <- (rnd_id 53 1024 (bpow radix2 (-53))) by (apply (fmt_bpow 53 1024 eq_refl); lia). apply (rnd_le 53 1024 eq_refl). lra. }
    assert (bpow radix2 (-53) <= bpow radix2 (-52)) by (apply bpow_le; lia). lra. }
  pose proof (relative_error_N_FLT radix2 (-1074) 53 eq_refl (fun n => negb (Z.even n)) x) as R.
  assert (Hr : Rabs (round radix2 fexp64 ZnearestE x - x) <= / 2 * bpow radix2 (-53 + 1) * Rabs x).
  { apply R. apply Rle_trans with (bpow radix2 (-53)); [apply bpow_le; lia|]. rewrite Rabs_pos_eq; auto. }
  rewrite (Rabs_pos_eq x) in Hr by auto. apply Rabs_le_inv in Hr.
  replace (/ 2 * bpow radix2 (-53 + 1)) with (bpow radix2 (-53)) in Hr by (rewrite bpow_2; field).
  lra.
Qed.

(** The requested relative bound is respected up to the errors of log2 and of one product. *)
Theorem rel_bound B max_eb m r1 r2 U V U' V' c :
  (0 <= B)%Z -> (2 * B + 14 < eT)%Z -> vD max_eb = Fin m -> m <= 1 ->
  (0 <= r1)%Z -> (0 < r2)%Z -> Z.of_nat (length U) = (r1 * r2)%Z -> Z.of_nat (length V) = (r1 * r2)%Z ->
  moderate A I B U -> moderate A I B V ->
  (forall k x, aget U k = Some x -> not_tiny x) -> (forall k x, aget V k = Some x -> not_tiny x) ->
  enc_online A max_eb r1 r2 U V = Some (U', V', c) ->
  length U' = length U /\ length V' = length V /\
  forall k u v u' v', aget U k = Some u -> aget V k = Some v -> aget U' k = Some u' -> aget V' k = Some v' ->
    (u' = u /\ v' = v) \/
    (exists a b, vT u = Fin a /\ vT v = Fin b /\
       within A I (Rabs a * m * (1 + bpow radix2 (-39))) u u' /\ within A I (Rabs b * m * (1 + bpow radix2 (-39))) v v').
Proof.
  intros HB HB2 Em Hm H1 H2 LU LV MU MV TU TV H. pose proof (eT_ok A I) as He.
  assert (H40 : 0 < bpow radix2 (-40) <= 1).
  { split; [apply bpow_gt_0|]. change 1 with (bpow radix2 0). apply bpow_le. lia. }
  assert (H39 : bpow radix2 (-39) = 2 * bpow radix2 (-40)) by (change (-39)%Z with (-40 + 1)%Z; apply bpow_2).
  assert (H53 : 0 < bpow radix2 (-53) <= bpow radix2 (-40) / 4).
  { split; [apply bpow_gt_0|]. apply Rle_trans with (bpow radix2 (-42)); [apply bpow_le; lia|].
    change (-40)%Z with (-42 + 1 + 1)%Z. rewrite !bpow_2. lra. }
  pose proof (bpow_gt_0 radix2 B) as PB.
  destruct (field_bound A I B (required_eb_rel A max_eb) (fun cur eb => dmul A (t2d A (tabs A cur)) eb)
    (fun a => Rabs a * m * (1 + bpow radix2 (-39)))) with (okp := not_tiny) (11 := H) as (K1 & K2 & K3); auto.
  - intros a Ha. rewrite bpow_2. pose proof (Rabs_pos a). assert (bpow radix2 (-39) <= 1).
    { change 1 with (bpow radix2 0). apply bpow_le. lia. }
    destruct (Rle_lt_dec m 0) as [M0|M0]; [assert (Rabs a * m <= 0) by nra; nra|].
    assert (Rabs a * m <= bpow radix2 B) by nra. nra.
  - intros U0 V0 s1 s2 i j eb u v BU BV Er Hp Gu Gv Tu Tv id0 q0 x0 id1 q1 x1 a b Hc0 Hc1 Ea Ha Eb Hb.
    assert (Na : a <> 0) by (intros ->; eapply zero_not_coded; eauto).
    assert (Nb : b <> 0) by (intros ->; eapply zero_not_coded; eauto).
    rewrite (v_dlt A I), vD_0 in Hp.
    assert (Hat : atmost m (vD eb)).
    { unfold required_eb_rel in Er. eapply req_loop_atmost in Er; eauto.
      - intros k w Hk Ew. pose proof Ew as Ew'. apply (tri_bnd A I (B + 2)) in Ew; auto. destruct w as [[[[[u0 u1] u2] v0] v1] v2].
        destruct Ew as (?&?&?&?&?&?).
        assert (u2 = u /\ v2 = v) as [-> ->].
        { unfold tri_values in Ew'. bind_as Ew' y0 X0. bind_as Ew' y1 X1. bind_as Ew' y2 X2. bind_as Ew' y3 X3. bind_as Ew' y4 X4. bind_as Ew' y5 X5.
          apply Some_inj in Ew'. inversion Ew'; subst. rewrite Gu in X2. rewrite Gv in X5. split; congruence. }
        eapply (derive_rel_notnan (B + 2)); eauto; try lia. cbn [six In] in Hk. lia.
      - right. exists m. split; auto. lra. }
    destruct (atmost_pos _ _ Hat Hp) as (e & Ee & He0 & Hem).
    assert (One : forall w y x id q d, vT y = Fin d -> Rabs d <= bpow radix2 B ->
       coded A w s2 i j y (dmul A (t2d A (tabs A y)) eb) id q x -> within A I (Rabs d * m * (1 + bpow radix2 (-39))) y x).
    { intros w y x id q d Ed Hd Hc.
      assert (Fp : exists p, vD (dmul A (t2d A (tabs A y)) eb) = Fin p /\ Rabs p <= bpow radix2 B).
      { rewrite v_dmul, v_t2d, v_tabs, Ed, Ee. cbn [xabs xmul].
        destruct (rndxD_bnd (Rabs d * e) B) as (p & Ep & Bp & _); [lia| |eauto].
        rewrite Rabs_mult, Rabs_Rabsolu, (Rabs_pos_eq e) by lra. pose proof (Rabs_pos d). nra. }
      destruct Fp as (p & Ep & Bp).
      assert (Hx : p * bpow radix2 52 <= bpow radix2 1022).
      { apply Rle_trans with (bpow radix2 B * bpow radix2 52).
        * apply Rmult_le_compat_r; [apply bpow_ge_0|apply Rabs_le_inv in Bp; lra].
        * rewrite <- bpow_plus. apply bpow_le. lia. }
      destruct (coded_within A I L _ _ _ _ _ _ p _ _ _ Hc Ep Hx) as (Pp & y1 & y2 & X1 & X2 & X3).
      assert (Hp52 : bpow radix2 (-52) < p).
      { destruct Hc as (ab & pr & Hq & Hid & _).
        destruct (quantize_ieee A I L 2 52 (eps_double A) _ p id ab ltac:(lia) ltac:(lia) (v_eps A I) Hq Hid Ep Hx) as (_ & Q & _). exact Q. }
      pose proof (prod_bound _ _ _ _ _ Ed Ee He0 Ep Hp52) as PBd.
      exists y1, y2. split; auto. split; auto. eapply Rlt_le_trans; [exact X3|].
      rewrite H39. set (z := bpow radix2 (-40)) in *. set (t := bpow radix2 (-53)) in *.
      pose proof (Rabs_pos d). assert (De : 0 <= Rabs d * e <= Rabs d * m) by nra. set (X := Rabs d * e) in *. set (Y := Rabs d * m) in *.
      assert (p * (1 + z) <= X * (1 + t) * (1 + z)) by nra.
      assert ((1 + t) * (1 + z) <= 1 + 2 * z) by nra. nra. }
    split; [eapply (One U0 u x0); eauto|eapply (One V0 v x1); eauto].
  - split; auto. split; auto. intros k u v u' v' E1 E2 E3 E4. destruct (K3 _ _ _ _ _ E1 E2 E3 E4) as [X|[(a & Ea & X) (b & Eb & Y)]]; auto.
    right. exists a, b. auto.
Qed.

(** Bound 0 (or negative): lossless. *)
Theorem rel_zero B max_eb m r1 r2 U V U' V' c :
  (0 <= B)%Z -> (2 * B + 14 < eT)%Z -> vD max_eb = Fin m -> m <= 0 ->
  (0 <= r1)%Z -> (0 < r2)%Z -> Z.of_nat (length U) = (r1 * r2)%Z -> Z.of_nat (length V) = (r1 * r2)%Z ->
  moderate A I B U -> moderate A I B V ->
  (forall k x, aget U k = Some x -> not_tiny x) -> (forall k x, aget V k = Some x -> not_tiny x) ->
  enc_online A max_eb r1 r2 U V = Some (U', V', c) -> U' = U /\ V' = V.
Proof.
  intros HB HB2 Em Hm H1 H2 LU LV MU MV TU TV H. pose proof (bpow_gt_0 radix2 (-39)).
  destruct (rel_bound B max_eb m _ _ _ _ _ _ _ HB HB2 Em ltac:(lra) H1 H2 LU LV MU MV TU TV H) as (L1 & L2 & K).
  assert (N : forall x y a, ~ within A I (Rabs a * m * (1 + bpow radix2 (-39))) x y).
  { intros x y d (a & b & _ & _ & Hab). pose proof (Rabs_pos (b - a)). pose proof (Rabs_pos d). assert (Rabs d * m <= 0) by nra. nra. }
  assert (E : forall k u v u' v', aget U k = Some u -> aget V k = Some v -> aget U' k = Some u' -> aget V' k = Some v' -> u' = u /\ v' = v).
  { intros k u v u' v' E1 E2 E3 E4. destruct (K k u v u' v' E1 E2 E3 E4) as [X|(a & b & _ & _ & X & _)]; auto. exfalso. eapply N; eauto. }
  split; apply aget_ext2; auto; intros k x y EX EY.
  - destruct (aget_len U V k y ltac:(lia) EY) as [v Ev]. destruct (aget_len V V' k v ltac:(lia) Ev) as [v' Ev'].
    apply (E k y v x v' EY Ev EX Ev').
  - destruct (aget_len V U k y ltac:(lia) EY) as [u Eu]. destruct (aget_len U U' k u ltac:(lia) Eu) as [u' Eu'].
    apply (E k u y u' x Eu EY Eu' EX).
Qed.
End B.
