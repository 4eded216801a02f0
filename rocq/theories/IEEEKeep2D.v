(** Critical points under the absolute 2D codec in IEEE arithmetic: rounding is monotone, so the computed minors of a triangle
    with a critical point never get a wrong sign and the triangle is stored verbatim.  Nothing of /repo is modelled here. *)
From Coq Require Import Reals Lra Lia ZArith List Bool Permutation.
From Coq Require Import ZifyBool ZifyNat.
From Flocq Require Import Core.Core IEEE754.BinarySingleNaN IEEE754.Binary IEEE754.Bits.
From Verif Require Import Base Huffman Arith Mesh2D Derive2D Codec2D Sync2D Trace2D Exact Cells2D Geo2D Preserve2D IEEE IEEELaws IEEEQuant IEEE2D IEEEAbs2D.
Import ListNotations.
Local Open Scope R_scope.

Section B.
Context (A : Arith) (I : ieee A).
Local Notation vT := (vT A I). Local Notation vD := (vD A I).
Local Notation pT := (pT A I). Local Notation eT := (eT A I).
Local Notation HpT := (HpT A I).
Local Notation bnd := (bnd A I).
Local Notation fexpT := (SpecFloat.fexp pT eT).

(** Sign of a computed minor. *)
Lemma minor_sign W x y z t a b c d : (0 <= W)%Z -> (2 * W + 4 < eT)%Z -> bnd W x -> bnd W y -> bnd W z -> bnd W t ->
  vT x = Fin a -> vT y = Fin b -> vT z = Fin c -> vT t = Fin d ->
  exists m, vD (t2d A (tsub A (tmul A x y) (tmul A z t))) = Fin m /\ (0 <= a * b - c * d -> 0 <= m) /\ (a * b - c * d <= 0 -> m <= 0).
Proof.
  intros HW HE Bx By Bz Bt Ea Eb Ec Ed.
  assert (P : forall x y a b, bnd W x -> bnd W y -> vT x = Fin a -> vT y = Fin b ->
    exists s, vT (tmul A x y) = Fin s /\ Rabs s <= bpow radix2 (2 * W) /\ s = round radix2 fexpT ZnearestE (a * b)).
  { intros x' y' a' b' (r & E & Hr) (s & E' & Hs) E1 E2. rewrite E in E1. rewrite E' in E2. injection E1 as <-. injection E2 as <-.
    destruct (rndxT_bnd A I (r * s) (2 * W)) as (q & Eq & Hq & Er); [lia| |].
    - replace (2 * W)%Z with (W + W)%Z by lia. rewrite bpow_plus, Rabs_mult. apply Rmult_le_compat; auto; apply Rabs_pos.
    - exists q. rewrite v_tmul, E, E'. auto. }
  destruct (P x y a b Bx By Ea Eb) as (s & Es & Hs & Rs). destruct (P z t c d Bz Bt Ec Ed) as (q & Eq & Hq & Rq).
  destruct (rndxT_bnd A I (s - q) (2 * W + 1)) as (m & Em & _ & Rm); [lia| |].
  { rewrite bpow_2. unfold Rminus. eapply Rle_trans; [apply Rabs_triang|]. rewrite Rabs_Ropp. lra. }
  exists m. split; [rewrite v_t2d, v_tsub, Es, Eq; exact Em|].
  assert (R0 : round radix2 fexpT ZnearestE 0 = 0) by (apply round_0; apply valid_rnd_N).
  split; intros H; rewrite Rm, <- R0; apply (rnd_le pT eT HpT).
  - assert (q <= s); [|lra]. rewrite Rs, Rq. apply (rnd_le pT eT HpT). lra.
  - assert (s <= q); [|lra]. rewrite Rs, Rq. apply (rnd_le pT eT HpT). lra.
Qed.

Lemma sum_ge x y a b : vD x = Fin a -> vD y = Fin b -> Rabs a <= bpow radix2 1022 -> Rabs b <= bpow radix2 1022 ->
  exists s, vD (dadd A x y) = Fin s /\ (0 <= a -> 0 <= b -> a <= s /\ b <= s) /\ (a <= 0 -> b <= 0 -> s <= a /\ s <= b).
Proof.
  intros Ea Eb Ha Hb. destruct (rndxD_bnd (a + b) 1023) as (s & Es & _ & Rs); [lia| |].
  { replace 1023%Z with (1022 + 1)%Z by lia. rewrite bpow_2. eapply Rle_trans; [apply Rabs_triang|]. lra. }
  exists s. split; [rewrite v_dadd, Ea, Eb; exact Es|].
  destruct (vD_fmt A I _ _ Ea) as [Fa _]. destruct (vD_fmt A I _ _ Eb) as [Fb _].
  pose proof (rnd_id 53 1024 a Fa) as Ia. pose proof (rnd_id 53 1024 b Fb) as Ib.
  split; intros Pa Pb; rewrite Rs; split.
  - rewrite <- Ia at 1. apply (rnd_le 53 1024 eq_refl). lra.
  - rewrite <- Ib at 1. apply (rnd_le 53 1024 eq_refl). lra.
  - rewrite <- Ia at 2. apply (rnd_le 53 1024 eq_refl). lra.
  - rewrite <- Ib at 2. apply (rnd_le 53 1024 eq_refl). lra.
Qed.

Lemma flag_true M m a b : vD M = Fin a -> vD m = Fin b -> (0 <= b <= a \/ a <= b <= 0) -> flag A M m = true.
Proof.
  intros Ea Eb H. unfold flag. rewrite (v_deq A I), Eb, vD_0. destruct (Req_dec b 0) as [->|N].
  - cbn [xeq]. rewrite Req_bool_true by auto. reflexivity.
  - apply orb_true_iff. right. rewrite (v_dle A I). rewrite v_ddiv by (rewrite Eb; congruence).
    rewrite Ea, Eb, xdiv_fin by auto. rewrite vD_const by lia. cbn [rndx].
    assert (G : 1 <= a / b).
    { destruct H as [H|H].
      - apply (Rmult_le_reg_r b); [lra|]. unfold Rdiv. rewrite Rmult_assoc, Rinv_l by auto. lra.
      - replace (a / b) with ((- a) / (- b)) by (field; auto).
        apply (Rmult_le_reg_r (- b)); [lra|]. unfold Rdiv. rewrite Rmult_assoc, Rinv_l by lra. lra. }
    assert (K : 1 <= round radix2 (SpecFloat.fexp 53 1024) ZnearestE (a / b)).
    { rewrite <- (rnd_id 53 1024 1) at 1.
      - apply (rnd_le 53 1024 eq_refl). auto.
      - change 1 with (bpow radix2 0). apply (fmt_bpow 53 1024 eq_refl). lia. }
    destruct (sat_cases 1024 (round radix2 (SpecFloat.fexp 53 1024) ZnearestE (a / b))) as [[-> _]|[[-> _]|[_ X]]].
    + apply xle_fin. exact K.
    + reflexivity.
    + pose proof (bpow_gt_0 radix2 1024). lra.
Qed.

(** The vector at a vertex. *)
Definition real (x : T A) : R := toR (vT x).

Lemma derive_abs_cp W u0 u1 u2 v0 v1 v2 : (0 <= W)%Z -> (2 * W + 4 < eT)%Z ->
  bnd W u0 -> bnd W u1 -> bnd W u2 -> bnd W v0 -> bnd W v1 -> bnd W v2 ->
  has_cp (real u0, real v0) (real u1, real v1) (real u2, real v2) ->
  derive_cp_eb_for_positions_online_abs A u0 u1 u2 v0 v1 v2 = dofZ A 0.
Proof.
  intros HW HE B0 B1 B2 C0 C1 C2 (l0 & l1 & l2 & P0 & P1 & P2 & S & HU & HV).
  assert (F : forall x, bnd W x -> vT x = Fin (real x)) by (intros x (r & E & _); unfold real; rewrite E; reflexivity).
  destruct (cp_minors (real u0, real v0) (real u1, real v1) (real u2, real v2) l0 l1 l2 S HU HV) as (K0 & K1 & K2).
  set (m := mM (real u0, real v0) (real u1, real v1) (real u2, real v2)) in *.
  unfold mM0, mM1, mM2 in K0, K1, K2. cbn [fst snd] in K0, K1, K2.
  destruct (minor_sign W u2 v0 u0 v2 _ _ _ _ HW HE B2 C0 B0 C2 (F _ B2) (F _ C0) (F _ B0) (F _ C2)) as (m0 & E0 & Q0 & N0).
  destruct (minor_sign W u1 v2 u2 v1 _ _ _ _ HW HE B1 C2 B2 C1 (F _ B1) (F _ C2) (F _ B2) (F _ C1)) as (m1 & E1 & Q1 & N1).
  destruct (minor_sign W u0 v1 u1 v0 _ _ _ _ HW HE B0 C1 B1 C0 (F _ B0) (F _ C1) (F _ B1) (F _ C0)) as (m2 & E2 & Q2 & N2).
  assert (Bd : forall x y z t r, bnd W x -> bnd W y -> bnd W z -> bnd W t -> vD (t2d A (tsub A (tmul A x y) (tmul A z t))) = Fin r ->
    Rabs r <= bpow radix2 (2 * W + 1)).
  { intros x y z t r Bx By Bz Bt E. destruct (bnd_t2d A I (2 * W + 1) (tsub A (tmul A x y) (tmul A z t))) as (r' & E' & H').
    - apply bnd_sub; try lia; replace (2 * W)%Z with (W + W)%Z by lia; apply bnd_mul; auto; lia.
    - rewrite E in E'. injection E' as <-. auto. }
  pose proof (eT_ok A I) as HeT.
  assert (Lw : bpow radix2 (2 * W + 1) <= bpow radix2 1021) by (apply bpow_le; lia).
  assert (Lw2 : bpow radix2 (2 * W + 1 + 1) <= bpow radix2 1022) by (apply bpow_le; lia).
  assert (Lw3 : bpow radix2 1021 <= bpow radix2 1022) by (apply bpow_le; lia).
  pose proof (Bd _ _ _ _ _ B2 C0 B0 C2 E0) as A0. pose proof (Bd _ _ _ _ _ B1 C2 B2 C1 E1) as A1. pose proof (Bd _ _ _ _ _ B0 C1 B1 C0 E2) as A2.
  unfold derive_cp_eb_for_positions_online_abs.
  set (M0 := t2d A (tsub A (tmul A u2 v0) (tmul A u0 v2))) in *.
  set (M1 := t2d A (tsub A (tmul A u1 v2) (tmul A u2 v1))) in *.
  set (M2 := t2d A (tsub A (tmul A u0 v1) (tmul A u1 v0))) in *.
  set (M := dadd A (dadd A M0 M1) M2). fold (flag A M M0). fold (flag A M M1). fold (flag A M M2).
  destruct (sum_ge M0 M1 m0 m1 E0 E1 ltac:(lra) ltac:(lra)) as (s & Es & Gs & Ls).
  assert (As : Rabs s <= bpow radix2 1022).
  { destruct (bndD_add A I (2 * W + 1) M0 M1) as (s' & E' & H'); try lia; try (eexists; split; eauto; fail).
    rewrite Es in E'. injection E' as <-. lra. }
  destruct (sum_ge (dadd A M0 M1) M2 s m2 Es E2 As ltac:(lra)) as (q & Eq & Gq & Lq). fold M in Eq.
  destruct (deq A M (dofZ A 0)); [reflexivity|].
  assert (NP : forall l x, 0 <= l -> x < 0 -> l * x <= 0).
  { intros l x Hl Hx. replace 0 with (l * 0) by ring. apply Rmult_le_compat_l; lra. }
  assert (HF : flag A M M0 = true /\ flag A M M1 = true /\ flag A M M2 = true).
  { destruct (Rle_lt_dec 0 m) as [Hm|Hm].
    - assert (0 <= m0) by (apply Q0; rewrite K0; apply Rmult_le_pos; auto).
      assert (0 <= m1) by (apply Q1; rewrite K1; apply Rmult_le_pos; auto).
      assert (0 <= m2) by (apply Q2; rewrite K2; apply Rmult_le_pos; auto).
      destruct Gs; auto. destruct Gq; [lra|auto|].
      split; [eapply flag_true; eauto; left; lra|split; eapply flag_true; eauto; left; lra].
    - assert (m0 <= 0) by (apply N0; rewrite K0; apply NP; auto).
      assert (m1 <= 0) by (apply N1; rewrite K1; apply NP; auto).
      assert (m2 <= 0) by (apply N2; rewrite K2; apply NP; auto).
      destruct Ls; auto. destruct Lq; [lra|auto|].
      split; [eapply flag_true; eauto; right; lra|split; eapply flag_true; eauto; right; lra]. }
  destruct HF as (-> & -> & ->). reflexivity.
Qed.

(** Once a triangle has asked for 0 the requested bound is not positive. *)
Lemma minf_nonpos x y : vD x <> NaN -> (exists z, vD y = Fin z /\ z <= 0) -> atmost 0 (vD (minf A x y)).
Proof.
  intros Nx (z & Ez & Hz). unfold minf. destruct (dlt A x y) eqn:E; [|right; eauto].
  rewrite (v_dlt A I), Ez in E. destruct (vD x) as [a| | |]; try discriminate; try congruence.
  - apply xlt_fin in E. right. exists a. split; auto. lra.
  - left. auto.
Qed.

Lemma req_loop_zero f U V r1 r2 i j k w : forall ks eb r,
  (forall k w, In k ks -> tri_values A U V r2 (i * r2 + j) k = Some w -> vD (f w k) <> NaN) ->
  vD eb <> NaN -> In k ks -> in_mesh r1 r2 i j k = true -> tri_values A U V r2 (i * r2 + j) k = Some w -> f w k = dofZ A 0 ->
  req_loop A f U V r1 r2 i j ks eb = Some r -> atmost 0 (vD r).
Proof.
  induction ks as [|k' ks IH]; intros eb r HN Hb HI HM Hw Hf H; [destruct HI|]. cbn [req_loop] in H.
  destruct HI as [->|HI].
  - rewrite HM, Hw in H. cbn [bind] in H. eapply (req_loop_atmost A I) in H; eauto.
    + intros; eapply HN; eauto. right; auto.
    + apply minf_nonpos; auto. rewrite Hf. exists 0. split; [apply vD_0|lra].
  - destruct (in_mesh r1 r2 i j k').
    + bind_as H w' Ew. apply IH in H; auto. { intros; eapply HN; eauto. right; auto. }
      apply minf_notnan; auto. eapply HN; eauto. left; auto.
    + apply IH in H; auto. intros; eapply HN; eauto. right; auto.
Qed.

(** Three vectors of the field. *)
Definition valT (w : list (T A)) (k : Z) : R := match aget w k with Some x => real x | None => 0 end.
Definition vecT (r2 : Z) (U V : list (T A)) (a : Z * Z) : R * R := (valT U (lin r2 a), valT V (lin r2 a)).

Lemma loop_abs_cp W eb U V r1 r2 i j k r : (0 <= W)%Z -> (2 * W + 4 < eT)%Z -> all_bnd A I W U -> all_bnd A I W V ->
  vD eb <> NaN -> (k < 6)%nat -> in_mesh r1 r2 i j k = true ->
  has_cp (vecT r2 U V (nbr i j k 0)) (vecT r2 U V (nbr i j k 1)) (vecT r2 U V (i, j)) ->
  req_loop A (fun '(u0, u1, u2, v0, v1, v2) _ => derive_cp_eb_for_positions_online_abs A u0 u1 u2 v0 v1 v2) U V r1 r2 i j six eb = Some r ->
  atmost 0 (vD r).
Proof.
  intros HW HE BU BV Nm Hk HM HC H.
  assert (Hin : In k six) by (apply in_six; auto).
  assert (Hw : exists w, tri_values A U V r2 (i * r2 + j) k = Some w).
  { revert H. generalize eb. clear - Hin HM. induction six as [|k' ks IH]; intros eb H; [destruct Hin|].
    cbn [req_loop] in H. destruct Hin as [->|Hin].
    - rewrite HM in H. bind_as H w Ew. eauto.
    - destruct (in_mesh r1 r2 i j k'); [bind_as H w Ew|]; eauto. }
  destruct Hw as [w Hw]. pose proof Hw as Hw'. apply (tri_bnd A I W) in Hw'; auto.
  eapply req_loop_zero; [| |exact Hin|exact HM|exact Hw| |exact H]; auto.
  - intros k' w' _ Ew. apply (tri_bnd A I W) in Ew; auto. destruct w' as [[[[[u0 u1] u2] v0] v1] v2].
    destruct Ew as (?&?&?&?&?&?). apply (derive_abs_notnan A I W); auto.
  - destruct w as [[[[[u0 u1] u2] v0] v1] v2]. destruct Hw' as (B0 & B1 & B2 & C0 & C1 & C2).
    apply (derive_abs_cp W); auto. unfold tri_values in Hw. destruct (offset_lin r2 i j k Hk) as [O0 O1]. rewrite O0, O1 in Hw.
    change (i * r2 + j)%Z with (lin r2 (i, j)) in Hw.
    bind_as Hw x0 H0. bind_as Hw x1 H1. bind_as Hw x2 H2. bind_as Hw y0 H3. bind_as Hw y1 H4. bind_as Hw y2 H5.
    apply Some_inj in Hw. inversion Hw; subst.
    unfold vecT, valT in HC. rewrite H0, H1, H2, H3, H4, H5 in HC. exact HC.
Qed.

Lemma required_abs_cp W max_eb U V r1 r2 i j k r : (0 <= W)%Z -> (2 * W + 4 < eT)%Z -> all_bnd A I W U -> all_bnd A I W V ->
  vD max_eb <> NaN -> (k < 6)%nat -> in_mesh r1 r2 i j k = true ->
  has_cp (vecT r2 U V (nbr i j k 0)) (vecT r2 U V (nbr i j k 1)) (vecT r2 U V (i, j)) ->
  required_eb_abs A max_eb U V r1 r2 i j = Some r -> dlt A (dofZ A 0) r = false.
Proof.
  intros HW HE BU BV Nm Hk HM HC H. unfold required_eb_abs in H. bind_as H u Eu. bind_as H v Ev.
  assert (G : atmost 0 (vD r)).
  { destruct (_ || _)%bool; [apply Some_inj in H; subst r; right; exists 0; split; [apply vD_0|lra]|]. apply (loop_abs_cp W max_eb U V r1 r2 i j k); auto. }
  rewrite (v_dlt A I), vD_0. destruct G as [->|(x & -> & Hx)]; [reflexivity|]. cbn [xlt]. apply Rlt_bool_false. auto.
Qed.

Context (L : libm_ok A I).

(** Every triangle of the original field with a critical point comes back bit for bit. *)
Theorem abs_keeps_cp B max_eb m r1 r2 U V U' V' c a b d :
  (0 <= B)%Z -> (2 * B + 8 < eT)%Z -> vD max_eb = Fin m -> m <= bpow radix2 B ->
  (0 <= r1)%Z -> (0 < r2)%Z -> Z.of_nat (length U) = (r1 * r2)%Z -> Z.of_nat (length V) = (r1 * r2)%Z ->
  moderate A I B U -> moderate A I B V ->
  enc_online_abs A max_eb r1 r2 U V = Some (U', V', c) ->
  cell r1 r2 a b d -> has_cp (vecT r2 U V a) (vecT r2 U V b) (vecT r2 U V d) ->
  forall x, In x [a; b; d] -> aget U' (lin r2 x) = aget U (lin r2 x) /\ aget V' (lin r2 x) = aget V (lin r2 x).
Proof.
  intros HB HB2 Em Hm H1 H2 LU LV MU MV H HC Hcp.
  destruct (abs_bound A I L B max_eb m _ _ _ _ _ _ _ HB HB2 Em Hm H1 H2 LU LV MU MV H) as (L1 & L2 & K).
  pose proof (bpow_gt_0 radix2 B) as PB.
  assert (Gb : forall x y, bnd B x -> within A I (m * (1 + bpow radix2 (-40))) x y -> bnd (B + 2) y).
  { intros x y (r & E & Hr) (a' & b' & Ea' & Eb & Hb). exists b'. split; auto. rewrite E in Ea'. injection Ea' as <-.
    assert (H40 : bpow radix2 (-40) <= 1) by (change 1 with (bpow radix2 0); apply bpow_le; lia). pose proof (bpow_gt_0 radix2 (-40)).
    replace (B + 2)%Z with (B + 1 + 1)%Z by lia. rewrite !bpow_2.
    replace b' with ((b' - r) + r) by ring. eapply Rle_trans; [apply Rabs_triang|]. destruct (Rle_lt_dec m 0); nra. }
  assert (BU' : all_bnd A I (B + 2) U').
  { intros q x Eq. destruct (aget_len U' U q x L1 Eq) as [xu Exu].
    destruct (aget_len U V q xu ltac:(lia) Exu) as [xv Exv]. destruct (aget_len V V' q xv ltac:(auto) Exv) as [xv' Exv'].
    destruct (K _ _ _ _ _ Exu Exv Eq Exv') as [[-> _]|[G _]]; [eapply bnd_mono; [|eapply MU; eauto]; lia|eapply Gb; [|exact G]; eapply MU; eauto]. }
  assert (BV' : all_bnd A I (B + 2) V').
  { intros q x Eq. destruct (aget_len V' V q x L2 Eq) as [xv Exv].
    destruct (aget_len V U q xv ltac:(lia) Exv) as [xu Exu]. destruct (aget_len U U' q xu ltac:(auto) Exu) as [xu' Exu'].
    destruct (K _ _ _ _ _ Exu Exv Exu' Eq) as [[_ ->]|[_ G]]; [eapply bnd_mono; [|eapply MV; eauto]; lia|eapply Gb; [|exact G]; eapply MV; eauto]. }
  assert (Bmix : forall q f o, (0 <= q)%Z -> length f = length o -> all_bnd A I (B + 2) f -> moderate A I B o -> all_bnd A I (B + 2) (mix q f o)).
  { intros q f o Hq Lf Bf Mo k x E. rewrite aget_mix in E by (auto; lia). destruct (k <? q)%Z; [eauto|]. eapply bnd_mono; [|eapply Mo; eauto]. lia. }
  destruct (field_trace A _ _ _ _ _ _ _ _ _ H1 H2 LU LV H) as (_ & _ & HT).
  destruct (cell_points _ _ _ _ _ HC) as [ND HP]. rewrite Forall_forall in HP.
  assert (Main : forall n x, In x [a; b; d] -> (0 <= lin r2 x < Z.of_nat n)%Z ->
    aget U' (lin r2 x) = aget U (lin r2 x) /\ aget V' (lin r2 x) = aget V (lin r2 x)).
  { induction n as [|n IH]; intros [i j] HI Hx; [lia|].
    destruct (Z.ltb_spec (lin r2 (i, j)) (Z.of_nat n)); [apply IH; auto; lia|].
    destruct (HP _ HI) as [Hi Hj]. cbn [fst snd] in Hi, Hj. unfold lin in *. cbn [fst snd] in *.
    assert (A1 : forall f o, length f = length o -> aget (mix (i * r2 + j) f o) (i * r2 + j) = @aget (T A) o (i * r2 + j)).
    { intros f o Lf. rewrite aget_mix by (auto; lia). rewrite Z.ltb_irrefl. auto. }
    assert (A2 : forall f o, length f = length o -> aget (mix (i * r2 + j + 1) f o) (i * r2 + j) = @aget (T A) f (i * r2 + j)).
    { intros f o Lf. rewrite aget_mix by (auto; lia). replace (i * r2 + j <? i * r2 + j + 1)%Z with true by lia. auto. }
    destruct (HT i j Hi Hj) as [cq HO].
    destruct (table_complete _ _ _ _ _ _ _ HC HI) as (k & Hk & HM & HS). unfold same_cell in HS.
    (* the working copies agree with the input on this cell *)
    assert (Same : forall y, In y [a; b; d] -> vecT r2 (mix (i * r2 + j) U' U) (mix (i * r2 + j) V' V) y = vecT r2 U V y).
    { intros y Hy. unfold vecT, valT. rewrite !aget_mix by (auto; lia). destruct (Z.ltb_spec (lin r2 y) (i * r2 + j)); auto.
      destruct (IH y Hy) as [E1 E2]; [|unfold lin in *; rewrite E1, E2; auto].
      destruct (HP _ Hy). unfold lin in *. nia. }
    inversion HO as [u1 v1 E1 E2 EU EV|u1 v1 eb id0 id1 q0 q1 x0 x1 U1 V1 E1 E2 E3 E4 C0 C1 S0 S1 EU EV]; subst.
    - rewrite <- (A2 U' U), <- EU, (A1 U' U) by auto. rewrite <- (A2 V' V), <- EV, (A1 V' V) by auto. auto.
    - exfalso. assert (E5 : dlt A (dofZ A 0) eb = false); [|congruence].
      apply (required_abs_cp (B + 2) max_eb (mix (i * r2 + j) U' U) (mix (i * r2 + j) V' V) r1 r2 i j k); auto; try lia.
      + apply Bmix; auto; nia.
      + apply Bmix; auto; nia.
      + rewrite Em. discriminate.
      + revert Hcp. rewrite <- (Same a), <- (Same b), <- (Same d) by (cbn; auto).
        intros Hcp. eapply (has_cp_perm (vecT r2 (mix (i * r2 + j) U' U) (mix (i * r2 + j) V' V))); [exact HS|exact Hcp]. }
  intros x Hx. apply (Main (Z.to_nat (lin r2 x + 1)) x Hx). destruct (HP _ Hx). unfold lin. nia.
Qed.
End B.
