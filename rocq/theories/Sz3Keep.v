(** Critical points under the multilevel codec in IEEE arithmetic.  Nothing of /repo is modelled here. *)
From Coq Require Import Reals Lra Lia ZArith List Bool Permutation.
From Coq Require Import ZifyBool ZifyNat.
From Flocq Require Import Core.Core IEEE754.BinarySingleNaN IEEE754.Binary IEEE754.Bits.
From Verif Require Import Base Huffman Arith Mesh2D Derive2D Codec2D Sync2D Scan Exact Cells2D Geo2D Preserve2D IEEE IEEELaws IEEEQuant IEEE2D IEEEAbs2D
  IEEEKeep2D Sz3 Sz3Order Sz3Sync Sz3Err.
Import ListNotations.
Local Open Scope R_scope.

Section B.
Context (A : Arith) (I : ieee A) (L : libm_ok A I).
Local Notation vT := (vT A I). Local Notation vD := (vD A I).
Local Notation eT := (eT A I). Local Notation pT := (pT A I).
Local Notation bnd := (bnd A I).
Local Notation vecT := (vecT A I).

(** A vertex of a triangle with a critical point is stored as it is. *)
Lemma step_cp B wrap max_eb m r1 r2 v U V U' V' c k : (0 <= B)%Z -> (2 * B + 8 < eT)%Z -> vD max_eb = Fin m ->
  all_T A (bnd (B + 2)) U -> all_T A (bnd (B + 2)) V ->
  (k < 6)%nat -> in_mesh r1 r2 (v_i v) (v_j v) k = true ->
  has_cp (vecT r2 U V (nbr (v_i v) (v_j v) k 0)) (vecT r2 U V (nbr (v_i v) (v_j v) k 1)) (vecT r2 U V (v_i v, v_j v)) ->
  sz3_point A wrap max_eb r1 r2 (U, V) v = Some ((U', V'), c) ->
  aget U' (v_p v) = aget U (v_p v) /\ aget V' (v_p v) = aget V (v_p v).
Proof.
  intros HB HE Em WU WV Hk HM HC H. apply sz3_point_inv in H.
  destruct H as [req id ab u w pu pw qu qw u' w' nu nw Er Eq Eu Ew Epu Epw Equ Eqw SU SV].
  destruct (level_eb_val A I max_eb m (v_half v) Em) as (e0 & E0 & _).
  assert (AT : atmost 0 (vD req)).
  { unfold derive_eb_abs in Er. apply (loop_abs_cp A I (B + 2) (level_eb A max_eb (v_half v)) U V r1 r2 (v_i v) (v_j v) k); auto; try lia. rewrite E0. discriminate. }
  assert (Eab : ab = d0 A).
  { unfold eb_exponential_quantize in Eq. replace (dle A req (eps_double A)) with true in Eq.
    - apply Some_inj in Eq. injection Eq as _ ->. reflexivity.
    - rewrite (v_dle A I), v_eps. destruct AT as [->|(x & -> & Hx)]; [reflexivity|]. symmetry. apply xle_fin. pose proof (bpow_gt_0 radix2 (-52)). lra. }
  assert (Z : teq A (d2t A ab) (t0 A) = true).
  { rewrite Eab, (v_teq A I), v_d2t, vT_0. unfold d0. rewrite vD_0. erewrite rndx_fin; [apply xeq_fin; reflexivity|apply generic_format_0|].
    rewrite Rabs_R0. apply bpow_gt_0. }
  unfold quantize_and_overwrite in Equ, Eqw. rewrite Z in Equ, Eqw. apply Some_inj in Equ, Eqw. injection Equ as -> -> ->. injection Eqw as -> -> ->.
  destruct (aset_Some _ _ _ _ SU) as (_ & _ & GU). destruct (aset_Some _ _ _ _ SV) as (_ & _ & GV).
  rewrite GU, GV, Z.eqb_refl, Eu, Ew. auto.
Qed.

Lemma run_cp B wrap max_eb m r1 r2 a b d : (0 <= B)%Z -> (2 * B + 8 < eT)%Z -> (B + 35 < eT)%Z -> (5 <= pT)%Z ->
  vD max_eb = Fin m -> m <= bpow radix2 B -> cell r1 r2 a b d ->
  forall vs P U V U' V' c,
  (forall v, In v vs -> (0 <= v_i v < r1)%Z /\ (0 <= v_j v < r2)%Z /\ v_p v = (v_i v * r2 + v_j v)%Z) ->
  in_order P vs -> all_T A (bnd (B + 2)) U -> all_T A (bnd (B + 2)) V ->
  (forall q x, ~ P q -> aget U q = Some x -> bnd B x) -> (forall q x, ~ P q -> aget V q = Some x -> bnd B x) ->
  has_cp (vecT r2 U V a) (vecT r2 U V b) (vecT r2 U V d) ->
  scan_enc (sz3_point A wrap max_eb r1 r2) vs (U, V) = Some ((U', V'), c) ->
  forall x, In x [a; b; d] -> aget U' (lin r2 x) = aget U (lin r2 x) /\ aget V' (lin r2 x) = aget V (lin r2 x).
Proof.
  intros HB HE HE2 Hp Em Hm HC. destruct (cell_points _ _ _ _ _ HC) as [_ HP]. rewrite Forall_forall in HP.
  induction vs as [|v vs IH]; intros P U V U' V' c Hv HO WU WV OU OV Hcp H; cbn [scan_enc] in H.
  - apply Some_inj in H. injection H as -> -> ->. auto.
  - bind_as H [[U1 V1] c1] E1. bind_as H [[U2 V2] c2] E2. apply Some_inj in H. injection H as -> -> ->.
    destruct HO as (HN & _ & HO). destruct (Hv v (or_introl eq_refl)) as (Hi & Hj & Ep).
    pose proof (sz3_point_inv _ _ _ _ _ _ _ _ _ _ _ E1) as F.
    inversion F as [req id ab u w pu pw qu qw u' w' nu nw _ _ Eu Ew _ _ _ _ SU SV]; subst. clear F.
    destruct (step_err A I L B wrap max_eb m r1 r2 v U V U1 V1 _ u w HB HE HE2 Hp Em Hm WU WV Eu Ew (OU _ _ HN Eu) (OV _ _ HN Ew) E1) as (KU & KV & _).
    destruct (aset_Some _ _ _ _ SU) as (_ & _ & GU). destruct (aset_Some _ _ _ _ SV) as (_ & _ & GV).
    assert (GU0 : aget U1 (v_p v) = Some u') by (rewrite GU, Z.eqb_refl; auto).
    assert (GV0 : aget V1 (v_p v) = Some w') by (rewrite GV, Z.eqb_refl; auto).
    assert (GU1 : forall q, q <> v_p v -> aget U1 q = aget U q) by (intros q Hq; rewrite GU; destruct (Z.eqb_spec q (v_p v)); [contradiction|auto]).
    assert (GV1 : forall q, q <> v_p v -> aget V1 q = aget V q) by (intros q Hq; rewrite GV; destruct (Z.eqb_spec q (v_p v)); [contradiction|auto]).
    assert (Kept : forall x, In x [a; b; d] -> aget U1 (lin r2 x) = aget U (lin r2 x) /\ aget V1 (lin r2 x) = aget V (lin r2 x)).
    { intros x Hx. destruct (Z.eq_dec (lin r2 x) (v_p v)) as [E|N]; [|split; auto].
      assert (x = (v_i v, v_j v)).
      { destruct x as [i j]. destruct (HP _ Hx) as [Xi Xj]. unfold lin in E. cbn [fst snd] in *.
        assert (i = v_i v /\ j = v_j v) as [-> ->] by (apply (idx_inj r2); auto; lia). auto. }
      rewrite E. subst x. destruct (table_complete _ _ _ _ _ _ _ HC Hx) as (k & Hk & HM & HS). unfold same_cell in HS.
      apply (step_cp B wrap max_eb m r1 r2 v U V U1 V1 _ k HB HE Em WU WV Hk HM) with (2 := E1).
      eapply (has_cp_perm (vecT r2 U V)); [exact HS|exact Hcp]. }
    assert (Sv : forall x, In x [a; b; d] -> vecT r2 U1 V1 x = vecT r2 U V x).
    { intros x Hx. unfold IEEEKeep2D.vecT, IEEEKeep2D.valT. destruct (Kept x Hx) as [-> ->]. auto. }
    assert (G : forall x, In x [a; b; d] -> aget U2 (lin r2 x) = aget U1 (lin r2 x) /\ aget V2 (lin r2 x) = aget V1 (lin r2 x)).
    { apply (IH (fun q => P q \/ q = v_p v) U1 V1 U2 V2 c2); auto.
      - intros v0 H0. apply Hv. right. auto.
      - intros q x Ex. destruct (Z.eq_dec q (v_p v)) as [->|N].
        + rewrite GU0 in Ex. apply Some_inj in Ex. subst x. eapply moved_bnd; [exact Hm|exact (OU _ _ HN Eu)|]. apply KU. auto.
        + rewrite GU1 in Ex by auto. eauto.
      - intros q x Ex. destruct (Z.eq_dec q (v_p v)) as [->|N].
        + rewrite GV0 in Ex. apply Some_inj in Ex. subst x. eapply moved_bnd; [exact Hm|exact (OV _ _ HN Ew)|]. apply KV. auto.
        + rewrite GV1 in Ex by auto. eauto.
      - intros q x Hq Ex. rewrite GU1 in Ex by tauto. eapply OU; [|exact Ex]. tauto.
      - intros q x Hq Ex. rewrite GV1 in Ex by tauto. eapply OV; [|exact Ex]. tauto.
      - rewrite (Sv a), (Sv b), (Sv d) by (cbn; auto). exact Hcp. }
    intros x Hx. destruct (G x Hx) as [-> ->]. apply Kept. auto.
Qed.

Theorem sz3_keeps_cp B wrap max_eb m r1 r2 U V U' V' c a b d : (0 <= B)%Z -> (2 * B + 8 < eT)%Z -> (B + 35 < eT)%Z -> (5 <= pT)%Z ->
  (1 <= r1)%Z -> (1 <= r2)%Z -> Z.of_nat (length U) = (r1 * r2)%Z -> Z.of_nat (length V) = (r1 * r2)%Z ->
  vD max_eb = Fin m -> m <= bpow radix2 B -> moderate A I B U -> moderate A I B V ->
  enc_sz3 A wrap max_eb r1 r2 U V = Some ((U', V'), c) ->
  cell r1 r2 a b d -> has_cp (vecT r2 U V a) (vecT r2 U V b) (vecT r2 U V d) ->
  forall x, In x [a; b; d] -> aget U' (lin r2 x) = aget U (lin r2 x) /\ aget V' (lin r2 x) = aget V (lin r2 x).
Proof.
  intros HB HE HE2 Hp R1 R2 LU LV Em Hm MU MV H HC Hcp. unfold enc_sz3 in H. destruct (visits_order r1 r2 R1 R2) as [HO _].
  assert (Up : forall w, moderate A I B w -> all_T A (bnd (B + 2)) w).
  { intros w Mw k x Ex. apply (bnd_mono A I B); [lia|]. eapply Mw; eauto. }
  apply (run_cp B wrap max_eb m r1 r2 a b d HB HE HE2 Hp Em Hm HC (visits r1 r2) (fun _ => False) U V U' V' c); auto.
  - apply (visits_coord r1 r2 R1 R2).
  - intros q x _ Ex. eapply MU; eauto.
  - intros q x _ Ex. eapply MV; eauto.
Qed.
End B.
