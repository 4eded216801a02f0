(** Error bound of the 3D absolute codec in IEEE arithmetic.  Nothing of /repo is modelled here. *)
From Coq Require Import Reals Lra Lia ZArith List Bool Permutation.
From Coq Require Import ZifyBool ZifyNat.
From Flocq Require Import Core.Core IEEE754.BinarySingleNaN IEEE754.Binary IEEE754.Bits.
From Verif Require Import Base Huffman Arith Mesh2D Mesh3D Derive3D Codec2D Sync2D Scan Abs3D Sync3D Exact IEEE IEEELaws IEEEQuant IEEE2D
  IEEEAbs2D IEEETotal2D Cells3D Preserve3D Total3D.
Import ListNotations.
Local Open Scope R_scope.

Section B.
Context (A : Arith) (I : ieee A) (L : libm_ok A I).
Local Notation vT := (vT A I). Local Notation vD := (vD A I).
Local Notation pT := (pT A I). Local Notation eT := (eT A I).
Local Notation HpT := (HpT A I).
Local Notation bnd := (bnd A I).
Local Notation bndD := (bndD A I).
Local Notation all_bnd := (all_bnd A I).

Lemma bndD_abs k x : bndD k x -> bndD k (dabs A x).
Proof. intros (r & E & H). exists (Rabs r). rewrite v_dabs, E. split; auto. rewrite Rabs_Rabsolu. auto. Qed.
Lemma bndD_mul k l x y : (0 <= k)%Z -> (0 <= l)%Z -> (k + l < 1024)%Z -> bndD k x -> bndD l y -> bndD (k + l) (dmul A x y).
Proof.
  intros Hk Hl H (a & Ea & Ha) (b & Eb & Hb). unfold IEEE2D.bndD. rewrite v_dmul, Ea, Eb. cbn [xmul]. destruct (rndxD_bnd (a * b) (k + l)) as (s & E & Hs & _); [lia| |eauto].
  rewrite Rabs_mult, bpow_plus. apply Rmult_le_compat; auto using Rabs_pos.
Qed.

(** ** The derived bound is never NaN *)
Lemma keep3_notnan k a b c d : (0 <= k)%Z -> (k + 2 < 1024)%Z -> bndD k a -> bndD k b -> bndD k c -> bndD k d ->
  vD (max_eb_to_keep_sign_3d_online_abs A a b c d) <> NaN.
Proof.
  intros H0 H Ba Bb Bc (d' & Ed & _). unfold max_eb_to_keep_sign_3d_online_abs.
  assert (Bs : bndD (k + 1 + 1) (dadd A (dadd A (dabs A a) (dabs A b)) (dabs A c))).
  { apply bndD_add; try lia; [apply bndD_add; auto using bndD_abs; lia|]. apply (bndD_mono A I k); [lia|auto using bndD_abs]. }
  destruct Bs as (s & Es & _).
  destruct (deq A _ _) eqn:E.
  - destruct (deq A d _); rewrite vD_const by lia; discriminate.
  - rewrite (v_deq A I), Es, (vD_0 A I) in E. apply xeq_fin_false in E.
    rewrite v_ddiv by (rewrite Es; intros X; injection X as X; auto). apply rndx_notnan.
    rewrite v_dabs, Ed, Es. cbn [xabs]. rewrite xdiv_fin by auto. discriminate.
Qed.

Definition bnd3 (W : Z) (x : vec3 A) : Prop := let '(u, v, w) := x in bnd W u /\ bnd W v /\ bnd W w.

Lemma derive3_abs_notnan W x0 x1 x2 x3 : (0 <= W)%Z -> (3 * W + 9 < 1024)%Z -> (3 * W + 5 < eT)%Z ->
  bnd3 W x0 -> bnd3 W x1 -> bnd3 W x2 -> bnd3 W x3 -> vD (derive3_abs A x0 x1 x2 x3) <> NaN.
Proof.
  destruct x0 as [[u0 v0] w0], x1 as [[u1 v1] w1], x2 as [[u2 v2] w2], x3 as [[u3 v3] w3].
  intros HW H1 H2 (U0 & V0 & W0) (U1 & V1 & W1) (U2 & V2 & W2) (U3 & V3 & W3).
  assert (P : forall x y, bnd W x -> bnd W y -> bnd (2 * W) (tmul A x y)).
  { intros x y Bx By. replace (2 * W)%Z with (W + W)%Z by lia. apply bnd_mul; auto; lia. }
  assert (Q : forall x y z, bnd W x -> bnd W y -> bnd W z -> bnd (3 * W) (tmul A (tmul A x y) z)).
  { intros x y z Bx By Bz. replace (3 * W)%Z with (2 * W + W)%Z by lia. apply bnd_mul; auto; lia. }
  assert (N : forall x, bnd W x -> bnd W (tneg A x)) by (intros; apply bnd_neg; auto).
  assert (PA : forall a b c d, bnd W a -> bnd W b -> bnd W c -> bnd W d -> bndD (2 * W + 1) (t2d A (tadd A (tmul A a b) (tmul A c d)))).
  { intros. apply bnd_t2d, bnd_add; auto; lia. }
  assert (PS : forall a b c d, bnd W a -> bnd W b -> bnd W c -> bnd W d -> bndD (2 * W + 1) (t2d A (tsub A (tmul A a b) (tmul A c d)))).
  { intros. apply bnd_t2d, bnd_sub; auto; lia. }
  unfold derive3_abs.
  set (u30 := t2d A (tadd A (tmul A (tneg A v1) w2) (tmul A v2 w1))). assert (Bu0 : bndD (2 * W + 1) u30) by (apply PA; auto).
  set (u31 := t2d A (tadd A (tmul A (tneg A v2) w0) (tmul A v0 w2))). assert (Bu1 : bndD (2 * W + 1) u31) by (apply PA; auto).
  set (u32 := t2d A (tadd A (tmul A (tneg A v0) w1) (tmul A v1 w0))). assert (Bu2 : bndD (2 * W + 1) u32) by (apply PA; auto).
  set (v30 := t2d A (tsub A (tmul A u1 w2) (tmul A u2 w1))). assert (Bv0 : bndD (2 * W + 1) v30) by (apply PS; auto).
  set (v31 := t2d A (tsub A (tmul A u2 w0) (tmul A u0 w2))). assert (Bv1 : bndD (2 * W + 1) v31) by (apply PS; auto).
  set (v32 := t2d A (tsub A (tmul A u0 w1) (tmul A u1 w0))). assert (Bv2 : bndD (2 * W + 1) v32) by (apply PS; auto).
  set (w30 := t2d A (tadd A (tmul A (tneg A u1) v2) (tmul A u2 v1))). assert (Bw0 : bndD (2 * W + 1) w30) by (apply PA; auto).
  set (w31 := t2d A (tsub A (tmul A u0 v2) (tmul A u2 v0))). assert (Bw1 : bndD (2 * W + 1) w31) by (apply PS; auto).
  set (w32 := t2d A (tadd A (tmul A (tneg A u0) v1) (tmul A u1 v0))). assert (Bw2 : bndD (2 * W + 1) w32) by (apply PA; auto).
  match goal with |- context [dadd A (dadd A (dadd A ?a ?b) ?c) (t2d A ?d)] =>
    set (M0 := a); set (M1 := b); set (M2 := c); set (M3 := t2d A d) end.
  assert (BM : forall a b c, bndD (2 * W + 1) a -> bndD (2 * W + 1) b -> bndD (2 * W + 1) c ->
     bndD (3 * W + 3) (dadd A (dadd A (dmul A a (t2d A u3)) (dmul A b (t2d A v3))) (dmul A c (t2d A w3)))).
  { intros a b c Ba Bb Bc.
    assert (Bp : forall x y, bndD (2 * W + 1) x -> bnd W y -> bndD (3 * W + 1) (dmul A x (t2d A y))).
    { intros x y Bx By. replace (3 * W + 1)%Z with (2 * W + 1 + W)%Z by lia. apply bndD_mul; try lia; auto. apply bnd_t2d; auto. }
    replace (3 * W + 3)%Z with (3 * W + 1 + 1 + 1)%Z by lia. apply bndD_add; try lia.
    - apply bndD_add; auto; lia.
    - apply (bndD_mono A I (3 * W + 1)); [lia|auto]. }
  assert (B0 : bndD (3 * W + 3) M0) by (apply BM; auto).
  assert (B1 : bndD (3 * W + 3) M1) by (apply BM; auto).
  assert (B2 : bndD (3 * W + 3) M2) by (apply BM; auto).
  assert (B3 : bndD (3 * W + 5) M3).
  { apply bnd_t2d.
    assert (M : forall k x, (0 <= k)%Z -> bnd (3 * W) x -> bnd (3 * W + k) x) by (intros; apply (bnd_mono A I (3 * W)); [lia|auto]).
    replace (3 * W + 5)%Z with (3 * W + 4 + 1)%Z by lia. apply bnd_sub; try lia; [|apply M; [lia|apply Q; auto]].
    replace (3 * W + 4)%Z with (3 * W + 3 + 1)%Z by lia. apply bnd_add; try lia; [|apply M; [lia|apply Q; auto]].
    replace (3 * W + 3)%Z with (3 * W + 2 + 1)%Z by lia. apply bnd_sub; try lia; [|apply M; [lia|apply Q; auto]].
    replace (3 * W + 2)%Z with (3 * W + 1 + 1)%Z by lia. apply bnd_add; try lia; [|apply M; [lia|apply Q; auto]].
    apply bnd_sub; try lia; apply Q; auto. }
  set (M := dadd A (dadd A (dadd A M0 M1) M2) M3).
  assert (Z : vD (dofZ A 0) <> NaN) by (rewrite (vD_0 A I); discriminate).
  destruct (deq A M _); [exact Z|].
  assert (Up : forall k x, (k <= 3 * W + 5)%Z -> bndD k x -> bndD (3 * W + 5) x) by (intros; eapply bndD_mono; eauto).
  assert (S2 : forall k x y, (0 <= k)%Z -> (k + 1 < 1024)%Z -> bndD k x -> bndD k y -> bndD (k + 1) (dadd A x y)) by (intros; apply bndD_add; auto).
  assert (KS : forall x, bndD (2 * W + 1) x -> bndD (3 * W + 7) x) by (intros; eapply bndD_mono; [|eauto]; lia).
  assert (KT : forall x y, bndD (2 * W + 1) x -> bndD (2 * W + 1) y -> bndD (3 * W + 7) (dadd A x y)).
  { intros x y Bx By. apply (bndD_mono A I (2 * W + 1 + 1)); [lia|]. apply bndD_add; auto; lia. }
  assert (KM : forall x, bndD (3 * W + 3) x -> bndD (3 * W + 7) x) by (intros; eapply bndD_mono; [|eauto]; lia).
  assert (KM3 : forall x y z, bndD (3 * W + 3) x -> bndD (3 * W + 3) y -> bndD (3 * W + 5) z -> bndD (3 * W + 7) (dadd A (dadd A x y) z)).
  { intros x y z Bx By Bz. apply (bndD_mono A I (3 * W + 5 + 1)); [lia|]. apply bndD_add; auto; try lia.
    apply (bndD_mono A I (3 * W + 3 + 1)); [lia|]. apply bndD_add; auto; lia. }
  destruct (inside_flag A M M0 && inside_flag A M M1 && inside_flag A M M2 && inside_flag A M M3)%bool; [exact Z|].
  assert (D2 : forall e (b : bool) x y, vD e <> NaN -> vD x <> NaN -> vD y <> NaN -> vD (if b then e else dmax A e (minf A x y)) <> NaN).
  { intros e [|] x y He Hx Hy; auto. apply dmax_notnan; auto. apply minf_notnan; auto. }
  assert (KP : forall a b c d, bndD (3 * W + 7) a -> bndD (3 * W + 7) b -> bndD (3 * W + 7) c -> bndD (3 * W + 7) d ->
     vD (max_eb_to_keep_sign_3d_online_abs A a b c d) <> NaN).
  { intros. apply (keep3_notnan (3 * W + 7)); auto; lia. }
  assert (E1 : forall b : bool, vD (if b then dofZ A 0 else dmax A (dofZ A 0) (minf A (max_eb_to_keep_sign_3d_online_abs A u30 v30 w30 M0)
     (max_eb_to_keep_sign_3d_online_abs A (dadd A u31 u32) (dadd A v31 v32) (dadd A w31 w32) (dadd A (dadd A M1 M2) M3)))) <> NaN).
  { intros b. apply D2; auto. }
  specialize (E1 (inside_flag A M M0)). set (e1 := if inside_flag A M M0 then _ else _) in *.
  assert (E2 : forall b : bool, vD (if b then e1 else dmax A e1 (minf A (max_eb_to_keep_sign_3d_online_abs A u31 v31 w31 M1)
     (max_eb_to_keep_sign_3d_online_abs A (dadd A u30 u32) (dadd A v30 v32) (dadd A w30 w32) (dadd A (dadd A M0 M2) M3)))) <> NaN).
  { intros b. apply D2; auto. }
  specialize (E2 (inside_flag A M M1)). set (e2 := if inside_flag A M M1 then _ else _) in *.
  assert (E3 : forall b : bool, vD (if b then e2 else dmax A e2 (minf A (max_eb_to_keep_sign_3d_online_abs A u32 v32 w32 M2)
     (max_eb_to_keep_sign_3d_online_abs A (dadd A u30 u31) (dadd A v30 v31) (dadd A w30 w31) (dadd A (dadd A M0 M1) M3)))) <> NaN).
  { intros b. apply D2; auto. }
  specialize (E3 (inside_flag A M M2)). set (e3 := if inside_flag A M M2 then _ else _) in *.
  destruct (inside_flag A M M3); [exact E3|]. apply dmax_notnan; [exact E3|].
  assert (K3 : forall x y z, bndD (2 * W + 1) x -> bndD (2 * W + 1) y -> bndD (2 * W + 1) z -> bndD (3 * W + 7) (dadd A (dadd A x y) z)).
  { intros x y z Bx By Bz. apply (bndD_mono A I (2 * W + 1 + 1 + 1)); [lia|]. apply bndD_add; try lia; [apply bndD_add; auto; lia|].
    apply (bndD_mono A I (2 * W + 1)); [lia|auto]. }
  apply KP; auto. apply KM3; auto. apply (bndD_mono A I (3 * W + 3)); [lia|auto].
Qed.

(** required_eb never exceeds the requested bound. *)
Lemma tet_bnd W U V X r2 r3 p n v : all_bnd W U -> all_bnd W V -> all_bnd W X -> tet_values A U V X r2 r3 p n = Some v ->
  let '(x0, x1, x2, x3) := v in bnd3 W x0 /\ bnd3 W x1 /\ bnd3 W x2 /\ bnd3 W x3.
Proof.
  intros BU BV BX H. unfold tet_values in H. bind_as H x0 E0. bind_as H x1 E1. bind_as H x2 E2. bind_as H x3 E3.
  apply Some_inj in H. subst v.
  assert (G : forall q x, vec_at A U V X q = Some x -> bnd3 W x).
  { intros q [[u v] w] E. apply vec_at_inv in E. destruct E as (Eu & Ev & Ew). cbn. split; [|split]; [eapply BU|eapply BV|eapply BX]; eauto. }
  repeat split; eapply G; eauto.
Qed.

Lemma required3_atmost W max_eb m cp U V X r1 r2 r3 i j k r : (0 <= W)%Z -> (3 * W + 9 < 1024)%Z -> (3 * W + 5 < eT)%Z ->
  all_bnd W U -> all_bnd W V -> all_bnd W X -> vD max_eb = Fin m ->
  required_eb3_abs A max_eb cp U V X r1 r2 r3 i j k = Some r -> atmost m (vD r) \/ vD r = Fin 0.
Proof.
  intros HW H1 H2 BU BV BX Em H. unfold required_eb3_abs in H. bind_as H [[u v] w] Ev.
  match type of H with context [deq A ?x _] => set (eb := x) in H end.
  assert (G : atmost m (vD eb) \/ vD eb = Fin 0).
  { unfold eb. destruct (_ || _)%bool; [right; apply vD_0|left; right; exists m; split; auto; lra]. }
  destruct (deq A eb (dofZ A 0)) eqn:EZ; [apply Some_inj in H; subst r; auto|].
  destruct G as [G|G]; [|rewrite (v_deq A I), G, (vD_0 A I) in EZ; rewrite (proj2 (xeq_fin 0 0)) in EZ by auto; discriminate].
  clearbody eb. clear EZ. revert eb G H. induction twenty_four as [|n ns IH]; intros eb G H; cbn [req_loop_abs] in H.
  { apply Some_inj in H. subst. auto. }
  destruct (in_mesh3 r1 r2 r3 i j k n); [|eauto]. bind_as H b Eb. destruct b.
  { apply Some_inj in H. subst r. right. apply vD_0. }
  bind_as H x Ex. apply (tet_bnd W) in Ex; auto. destruct x as [[[x0 x1] x2] x3]. destruct Ex as (G0 & G1 & G2 & G3).
  apply IH in H; auto. apply minf_atmost; auto. apply (derive3_abs_notnan W); auto.
Qed.

(** ** The error bound *)
Lemma coded3_within w r2 r3 i j k cur eb0 e id ab q x :
  eb_exponential_quantize A 4 (eps_double A) eb0 = Some (id, ab) -> (0 < id)%Z ->
  coded3 A w r2 r3 i j k cur ab q x -> vD eb0 = Fin e -> e * bpow radix2 52 <= bpow radix2 1022 ->
  (0 < e) /\ within A I (e * (1 + bpow radix2 (-40))) cur x.
Proof.
  intros Eq Hid (pr & _ & Hq) Ee Hmax.
  destruct (quantize_ieee A I L 2 52 (eps_double A) eb0 e id ab) as (K1 & K2 & K3 & K4); auto; try lia.
  { apply v_eps. }
  pose proof (bpow_gt_0 radix2 (-52)). split; [change (-52)%Z with (-(52))%Z in *; lra|].
  destruct (quantise_bound A I _ _ _ _ _ _ Hq K3 (bpow_gt_0 _ _)) as (c & y & Ec & Ey & Hb).
  { pose proof (pT_ok A I). pose proof (eT_ok A I). apply (fmt_bpow pT eT HpT). pose proof (HeT A I) as X. unfold Prec_lt_emax in X. lia. }
  exists c, y. split; auto. split; auto. lra.
Qed.

Section Field.
Context (B : Z) (HB : (0 <= B)%Z) (HB1 : (3 * B + 15 < 1024)%Z) (HB2 : (3 * B + 11 < eT)%Z).
Context (max_eb : D A) (m : R) (Em : vD max_eb = Fin m) (Hm : m <= bpow radix2 B).
Context (r1 r2 r3 : Z).
Local Notation mm := (m * (1 + bpow radix2 (-40))).
Local Notation req cp := (fun U V W i j k => required_eb3_abs A max_eb cp U V W r1 r2 r3 i j k).

(** One step. *)
Lemma abs3_step_bound cp U V W i j k U' V' W' c :
  all_bnd (B + 2) U -> all_bnd (B + 2) V -> all_bnd (B + 2) W ->
  abs3_outcome A (req cp) r2 r3 U V W i j k U' V' W' c ->
  (U' = U /\ V' = V /\ W' = W) \/
  exists u v w x0 x1 x2, let p := lin3 r2 r3 (i, j, k) in
    aget U p = Some u /\ aget V p = Some v /\ aget W p = Some w /\
    aset U p x0 = Some U' /\ aset V p x1 = Some V' /\ aset W p x2 = Some W' /\
    within A I mm u x0 /\ within A I mm v x1 /\ within A I mm w x2.
Proof.
  intros BU BV BW H. pose proof (eT_ok A I) as HeT.
  destruct H as [u v w E1 E2 E3|u v w eb id ab q0 q1 q2 x0 x1 x2 U' V' W' E1 E2 E3 HR HZ HQ Hid C0 C1 C2 A0 A1 A2]; [auto|].
  right. exists u, v, w, x0, x1, x2. cbv zeta.
  destruct (required3_atmost (B + 2) max_eb m cp U V W r1 r2 r3 i j k eb) as [At|Z]; auto; try lia.
  2: { rewrite (v_deq A I), Z, (vD_0 A I), (proj2 (xeq_fin 0 0)) in HZ by auto. discriminate. }
  assert (He : exists e, vD eb = Fin e /\ e <= m).
  { destruct At as [X|X]; [|auto]. exfalso. unfold eb_exponential_quantize in HQ. rewrite (v_dle A I), X, v_eps in HQ. cbn in HQ.
    apply Some_inj in HQ. injection HQ as Y _. lia. }
  destruct He as (e & Ee & Hem).
  assert (Hx : e * bpow radix2 52 <= bpow radix2 1022).
  { apply Rle_trans with (bpow radix2 B * bpow radix2 52).
    - apply Rmult_le_compat_r; [apply bpow_ge_0|lra].
    - rewrite <- bpow_plus. apply bpow_le. lia. }
  assert (H40 : 0 < bpow radix2 (-40)) by apply bpow_gt_0.
  assert (G : forall w q x cur, coded3 A w r2 r3 i j k cur ab q x -> within A I mm cur x).
  { intros w0 q x cur HC. destruct (coded3_within _ _ _ _ _ _ _ _ e _ _ _ _ HQ Hid HC Ee Hx) as (P & (y1 & y2 & X1 & X2 & X3)).
    exists y1, y2. split; [auto|]. split; [auto|]. nra. }
  split; [auto|]. split; [auto|]. split; [auto|]. split; [auto|]. split; [auto|]. split; [auto|].
  split; [eapply G; exact C0|]. split; [eapply G; exact C1|eapply G; exact C2].
Qed.

Lemma within_bnd x y : bnd B x -> within A I mm x y -> bnd (B + 2) y.
Proof.
  intros (r & E & Hr) (a & b & Ea & Eb & Hb). exists b. split; auto. rewrite E in Ea. injection Ea as Ea. subst a.
  assert (H40 : 0 < bpow radix2 (-40) <= 1).
  { split; [apply bpow_gt_0|]. change 1 with (bpow radix2 0). apply bpow_le. lia. }
  assert (mm <= bpow radix2 (B + 1)).
  { rewrite bpow_2. pose proof (bpow_gt_0 radix2 B). destruct (Rle_lt_dec m 0); nra. }
  replace (B + 2)%Z with (B + 1 + 1)%Z by lia. rewrite bpow_2.
  assert (bpow radix2 B <= bpow radix2 (B + 1)) by (apply bpow_le; lia).
  replace b with ((b - r) + r) by ring. eapply Rle_trans; [apply Rabs_triang|]. lra.
Qed.

(** Invariant of the loop. *)
Definition close3 (U V W U' V' W' : list (T A)) : Prop :=
  forall p u v w u' v' w', aget U p = Some u -> aget V p = Some v -> aget W p = Some w ->
    aget U' p = Some u' -> aget V' p = Some v' -> aget W' p = Some w' ->
    (u' = u /\ v' = v /\ w' = w) \/ (within A I mm u u' /\ within A I mm v v' /\ within A I mm w w').
Definition inv3 (U V W : list (T A)) (n : nat) (s : field3 A) : Prop :=
  let '(U', V', W') := s in
  untouched n U' U /\ untouched n V' V /\ untouched n W' W /\ close3 U V W U' V' W'.

Lemma inv3_bnd U V W n U' V' W' : sized r1 r2 r3 U -> sized r1 r2 r3 V -> sized r1 r2 r3 W ->
  moderate A I B U -> moderate A I B V -> moderate A I B W -> inv3 U V W n (U', V', W') ->
  all_bnd (B + 2) U' /\ all_bnd (B + 2) V' /\ all_bnd (B + 2) W'.
Proof.
  intros SU SV SW MU MV MW ((LU & _) & (LV & _) & (LW & _) & HC). unfold sized in *.
  assert (G : forall p, (0 <= p < r1 * r2 * r3)%Z -> exists u v w u' v' w', aget U p = Some u /\ aget V p = Some v /\ aget W p = Some w /\
    aget U' p = Some u' /\ aget V' p = Some v' /\ aget W' p = Some w' /\ bnd (B + 2) u' /\ bnd (B + 2) v' /\ bnd (B + 2) w').
  { intros p Hp. destruct (aget_ok U p) as [u Eu]; [lia|]. destruct (aget_ok V p) as [v Ev]; [lia|]. destruct (aget_ok W p) as [w Ew]; [lia|].
    destruct (aget_ok U' p) as [u' Eu']; [lia|]. destruct (aget_ok V' p) as [v' Ev']; [lia|]. destruct (aget_ok W' p) as [w' Ew']; [lia|].
    exists u, v, w, u', v', w'. do 6 (split; [assumption|]).
    destruct (HC _ _ _ _ _ _ _ Eu Ev Ew Eu' Ev' Ew') as [(-> & -> & ->)|(K1 & K2 & K3)].
    - split; [|split]; (apply (bnd_mono A I B); [lia|]); [eapply MU|eapply MV|eapply MW]; eauto.
    - split; [|split]; [apply (within_bnd u)|apply (within_bnd v)|apply (within_bnd w)]; auto; [eapply MU|eapply MV|eapply MW]; eauto. }
  split; [|split]; intros p x Ex; pose proof (aget_Some _ _ _ Ex) as HL;
    destruct (G p ltac:(lia)) as (u & v & w & u' & v' & w' & _ & _ & _ & E1 & E2 & E3 & K1 & K2 & K3);
    [rewrite E1 in Ex|rewrite E2 in Ex|rewrite E3 in Ex]; apply Some_inj in Ex; subst x; assumption.
Qed.

Lemma inv3_step cp U V W i j k n U0 V0 W0 s c :
  sized r1 r2 r3 U -> sized r1 r2 r3 V -> sized r1 r2 r3 W ->
  moderate A I B U -> moderate A I B V -> moderate A I B W -> lin3 r2 r3 (i, j, k) = Z.of_nat n ->
  inv3 U V W n (U0, V0, W0) -> abs3_point A (req cp) r2 r3 (U0, V0, W0) (i, j, k) = Some (s, c) -> inv3 U V W (S n) s.
Proof.
  intros SU SV SW MU MV MW Hp HI HS. destruct (inv3_bnd _ _ _ _ _ _ _ SU SV SW MU MV MW HI) as (BU & BV & BW).
  destruct s as [[U' V'] W']. apply abs3_point_inv in HS. destruct HI as (TU & TV & TW & HC).
  destruct (abs3_step_bound _ _ _ _ _ _ _ _ _ _ _ BU BV BW HS) as [(-> & -> & ->)|(u & v & w & x0 & x1 & x2 & K)].
  - split; [|split; [|split]]; auto using untouched_keep.
  - cbv zeta in K. rewrite Hp in K. destruct K as (E1 & E2 & E3 & A0 & A1 & A2 & K0 & K1 & K2).
    split; [eapply untouched_set; eauto|]. split; [eapply untouched_set; eauto|]. split; [eapply untouched_set; eauto|].
    intros p u1 v1 w1 u' v' w' F1 F2 F3 F4 F5 F6.
    apply aset_Some in A0. destruct A0 as (_ & _ & A0). apply aset_Some in A1. destruct A1 as (_ & _ & A1).
    apply aset_Some in A2. destruct A2 as (_ & _ & A2). rewrite A0 in F4. rewrite A1 in F5. rewrite A2 in F6.
    destruct (Z.eqb_spec p (Z.of_nat n)) as [->|Hne]; [|eapply HC; eauto].
    right. rewrite (proj2 TU) in E1 by lia. rewrite (proj2 TV) in E2 by lia. rewrite (proj2 TW) in E3 by lia.
    rewrite E1 in F1. rewrite E2 in F2. rewrite E3 in F3.
    apply Some_inj in F1, F2, F3, F4, F5, F6. subst. auto.
Qed.

Theorem abs3_bound ftk U V W U' V' W' c : (0 <= r1)%Z -> (0 < r2)%Z -> (0 < r3)%Z ->
  sized r1 r2 r3 U -> sized r1 r2 r3 V -> sized r1 r2 r3 W ->
  moderate A I B U -> moderate A I B V -> moderate A I B W ->
  enc_abs3 A ftk max_eb r1 r2 r3 U V W = Some (U', V', W', c) ->
  length U' = length U /\ length V' = length V /\ length W' = length W /\ close3 U V W U' V' W'.
Proof.
  intros H1 H2 H3 SU SV SW MU MV MW H. unfold enc_abs3 in H. bind_as H cp Ec.
  match type of H with scan_enc ?st _ _ = _ =>
    pose proof (fun p q => scan_inv st (inv3 U V W) (scan3 r1 r2 r3) 0%nat _ _ _ p q H) as G end.
  destruct G as ((LU & _) & (LV & _) & (LW & _) & HC); auto.
  - intros n [[i j] k] [[U0 V0] W0] s c0 Hn HI HS. destruct (scan3_nth _ _ _ _ _ H1 H2 H3 Hn) as (_ & _ & _ & Hp).
    exact (inv3_step _ _ _ _ _ _ _ _ _ _ _ _ _ SU SV SW MU MV MW Hp HI HS).
  - split; [|split; [|split]]; try apply untouched_refl. intros p u v w u' v' w' E1 E2 E3 E4 E5 E6. left. split; [|split]; congruence.
Qed.

(** No undefined conversion. *)
Lemma lorenzo3_bnd q w i j k p : (0 <= q)%Z -> (q + 6 < eT)%Z -> all_bnd q w -> lorenzo3 A (aget w) r2 r3 i j k = Some p -> bnd (q + 6) p.
Proof.
  intros Hq He HW H. unfold lorenzo3 in H.
  bind_as H d0 E0. bind_as H d1 E1. bind_as H d2 E2. bind_as H d3 E3. bind_as H d4 E4. bind_as H d5 E5. bind_as H d6 E6.
  apply Some_inj in H. subst p.
  assert (Z0 : bnd q (t0 A)).
  { exists 0. split; [apply vT_0|]. rewrite Rabs_R0. apply bpow_ge_0. }
  assert (G : forall (b : bool) k0 e l, (0 <= l)%Z -> (if b then aget w k0 else Some (t0 A)) = Some e -> bnd (q + l) e).
  { intros b k0 e l Hl Hb. apply (bnd_mono A I q); [lia|]. destruct b; [eapply HW; eauto|]. apply Some_inj in Hb. subst. auto. }
  replace (q + 6)%Z with (q + 5 + 1)%Z by lia. apply bnd_sub; try lia; [|eapply G; [lia|eauto]].
  replace (q + 5)%Z with (q + 4 + 1)%Z by lia. apply bnd_sub; try lia; [|eapply G; [lia|eauto]].
  replace (q + 4)%Z with (q + 3 + 1)%Z by lia. apply bnd_sub; try lia; [|eapply G; [lia|eauto]].
  replace (q + 3)%Z with (q + 2 + 1)%Z by lia. apply bnd_add; try lia; [|eapply G; [lia|eauto]].
  replace (q + 2)%Z with (q + 1 + 1)%Z by lia. apply bnd_add; try lia; [|eapply G; [lia|eauto]].
  rewrite <- (Z.add_0_r q) at 1. rewrite Z.add_0_r. apply bnd_add; try lia; rewrite <- (Z.add_0_r q); eapply G; eauto; lia.
Qed.

Theorem abs3_noub ftk U V W : (0 <= r1)%Z -> (0 < r2)%Z -> (0 < r3)%Z ->
  sized r1 r2 r3 U -> sized r1 r2 r3 V -> sized r1 r2 r3 W ->
  moderate A I B U -> moderate A I B V -> moderate A I B W ->
  exists s c, enc_abs3 A ftk max_eb r1 r2 r3 U V W = Some (s, c).
Proof.
  intros H1 H2 H3 SU SV SW MU MV MW. pose proof (eT_ok A I) as HeT.
  apply (abs3_field_any A r1 r2 r3 ftk max_eb (inv3 U V W)); auto.
  { split; [|split; [|split]]; try apply untouched_refl. intros p u v w u' v' w' E1 E2 E3 E4 E5 E6. left. split; [|split]; congruence. }
  intros cp n U0 V0 W0 i j k S0 S1 S2 HG Hp HI. split.
  { intros s c HS. exact (inv3_step _ _ _ _ _ _ _ _ _ _ _ _ _ SU SV SW MU MV MW Hp HI HS). }
  intros eb Er HZ. destruct (inv3_bnd _ _ _ _ _ _ _ SU SV SW MU MV MW HI) as (BU & BV & BW).
  destruct (required3_atmost (B + 2) max_eb m cp U0 V0 W0 r1 r2 r3 i j k eb) as [At|Z]; auto; try lia.
  2: { rewrite (v_deq A I), Z, (vD_0 A I), (proj2 (xeq_fin 0 0)) in HZ by auto. discriminate. }
  destruct At as [X|(e & Ee & Hem)].
  { exists 0%Z, (dofZ A 0). split; [|lia]. unfold eb_exponential_quantize. rewrite (v_dle A I), X, v_eps. reflexivity. }
  assert (Hx : e * bpow radix2 52 <= bpow radix2 1022).
  { apply Rle_trans with (bpow radix2 B * bpow radix2 52).
    - apply Rmult_le_compat_r; [apply bpow_ge_0|lra].
    - rewrite <- bpow_plus. apply bpow_le. lia. }
  destruct (quantize_noub A I L 2 52 (eps_double A) eb e ltac:(lia) ltac:(lia) (v_eps A I) Ee Hx) as [[id ab] Eq].
  change (2 ^ 2)%Z with 4%Z in Eq. exists id, ab. split; auto. intros Hid w c p Hw Ec Ep.
  destruct (quantize_ieee A I L 2 52 (eps_double A) eb e id ab) as (_ & _ & K3 & _); auto; try lia. { apply v_eps. }
  assert (Bw : all_bnd (B + 2) w) by (cbn in Hw; destruct Hw as [<-|[<-|[<-|[]]]]; auto).
  destruct (lorenzo3_bnd (B + 2) w i j k p) as (pr & Epr & _); auto; try lia.
  destruct (Bw _ _ Ec) as (cr & Ecr & _).
  eapply quantise_noub; eauto. apply bpow_gt_0.
Qed.
End Field.
End B.
