(** Critical tetrahedra under the unstructured codec, in exact arithmetic.  Nothing of /repo is modelled here. *)
From Coq Require Import Reals Lra Lia ZArith List Bool Permutation.
From Coq Require Import ZifyBool ZifyNat.
From Flocq Require Import Core.Raux.
From Verif Require Import Base Huffman Arith Mesh2D Mesh3D Derive3D Codec2D Scan Abs3D Sync2D Sync3D Exact Geo2D
  Preserve2D Total2D Cells3D Geo3D Geo3DRel Preserve3D Log2D LogSync2D LogCells2D LogTotal2D Log3D LogSync3D LogCells3D Uns3D UnsSync UnsErr.
Import ListNotations.
Local Open Scope R_scope.

(** The vector at point p, and the vertices of a tetrahedron. *)
Definition vecn (U V W : list XR) (p : Z) : V3 := (atR U p, atR V p, atR W p).
Definition corners (t : tetra) : list Z := let '(a, b, c, d) := t in [a; b; c; d].

Lemma vec_at_exact U V W p x : allfin U -> allfin V -> allfin W -> vec_at XA U V W p = Some x -> x = fin3 (vecn U V W p).
Proof.
  intros FU FV FW H. destruct x as [[u v] w]. apply vec_at_inv in H. destruct H as (E1 & E2 & E3). change (T XA) with XR in *.
  unfold fin3, vecn, cx, cy, cz. cbn [fst snd]. rewrite (atR_fin _ _ _ FU E1), (atR_fin _ _ _ FV E2), (atR_fin _ _ _ FW E3). reflexivity.
Qed.

Definition bounded_by U V W (e : R) (p a b c : Z) : Prop :=
  exists r', rel3_bound (vecn U V W a) (vecn U V W b) (vecn U V W c) (vecn U V W p) r' /\ below e r'.

Lemma adj_below U V W p a b c eb r e : allfin U -> allfin V -> allfin W -> notnan eb ->
  adj_bound XA U V W p a b c eb = Some r -> notnan r /\ (below e r -> below e eb /\ bounded_by U V W e p a b c).
Proof.
  intros FU FV FW HN H. unfold adj_bound in H. bind_as H x0 E0. bind_as H x1 E1. bind_as H x2 E2. bind_as H x3 E3. apply Some_inj in H. subst r.
  apply vec_at_exact in E0; auto. apply vec_at_exact in E1; auto. apply vec_at_exact in E2; auto. apply vec_at_exact in E3; auto. subst.
  pose proof (derive3_rel_sound (vecn U V W a) (vecn U V W b) (vecn U V W c) (vecn U V W p)) as S.
  split; [exact (notnan_minf eb _ (proj1 S))|]. intros HB. apply below_minf in HB as [B1 B3]; auto; [|apply S].
  split; auto. eexists. split; [exact S|exact B3].
Qed.

Lemma uns_loop_below U V W p e : allfin U -> allfin V -> allfin W -> forall ts eb r, notnan eb ->
  uns_loop XA U V W p ts eb = Some r -> below e r ->
  below e eb /\ forall v0 v1 v2 v3, In (v0, v1, v2, v3) ts ->
    (v0 = p -> bounded_by U V W e p v1 v2 v3) /\ (v1 = p -> bounded_by U V W e p v0 v2 v3) /\
    (v2 = p -> bounded_by U V W e p v0 v1 v3) /\ (v3 = p -> bounded_by U V W e p v0 v1 v2).
Proof.
  intros FU FV FW. induction ts as [|[[[a0 a1] a2] a3] ts IH]; intros eb r HN H HB; cbn [uns_loop] in H.
  { apply Some_inj in H. subst. split; auto. intros ? ? ? ? []. }
  bind_as H e0 E0. bind_as H e1 E1. bind_as H e2 E2. bind_as H e3 E3.
  assert (S : forall v a b c x x', notnan x -> (if (v =? p)%Z then adj_bound XA U V W p a b c x else Some x) = Some x' ->
     notnan x' /\ (below e x' -> below e x /\ (v = p -> bounded_by U V W e p a b c))).
  { intros v a b c x x' Nx E. destruct (Z.eqb_spec v p) as [->|Hne].
    - destruct (adj_below _ _ _ _ _ _ _ _ _ e FU FV FW Nx E) as [G1 G2]. split; [exact G1|]. intros B. destruct (G2 B). split; auto.
    - apply Some_inj in E. subst x'. split; auto. intros B. split; auto. intros C. contradiction. }
  destruct (S _ _ _ _ _ _ HN E0) as [N0 G0]. destruct (S _ _ _ _ _ _ N0 E1) as [N1 G1].
  destruct (S _ _ _ _ _ _ N1 E2) as [N2 G2]. destruct (S _ _ _ _ _ _ N2 E3) as [N3 G3].
  destruct (IH _ _ N3 H HB) as [B3 HT]. destruct (G3 B3) as [B2 K3]. destruct (G2 B2) as [B1 K2]. destruct (G1 B1) as [B0 K1]. destruct (G0 B0) as [Bb K0].
  split; [exact Bb|]. intros v0 v1 v2 v3 [E|Hin]; [|exact (HT _ _ _ _ Hin)]. injection E as <- <- <- <-. auto.
Qed.

Lemma req_uns_below max_eb tets U V W p r : allfin U -> allfin V -> allfin W ->
  required_eb_uns XA max_eb tets U V W p = Some r -> notnan max_eb -> forall e, 0 <= e -> below e r ->
  below e max_eb /\ forall v0 v1 v2 v3, In (v0, v1, v2, v3) tets ->
    (v0 = p -> bounded_by U V W e p v1 v2 v3) /\ (v1 = p -> bounded_by U V W e p v0 v2 v3) /\
    (v2 = p -> bounded_by U V W e p v0 v1 v3) /\ (v3 = p -> bounded_by U V W e p v0 v1 v2).
Proof.
  intros FU FV FW H HN e He HB. unfold required_eb_uns in H. bind_as H eb E. apply Some_inj in H.
  destruct (dlt XA eb _); subst r; [exfalso; eapply below_zero; eauto|].
  exact (uns_loop_below _ _ _ _ e FU FV FW _ _ _ HN E HB).
Qed.

Lemma codedp_exact w p cur r q x : allfin w -> 0 < r ->
  codedp XA w p (Fin cur) (Fin r) q x -> exists d, x = Fin d /\ Rabs (d - cur) < r.
Proof.
  intros HF Hr (pred & Hl & Hc). unfold prev_log in Hl. destruct (p =? 0)%Z.
  - apply Some_inj in Hl. subst pred. exact (quantise_fin _ _ _ _ _ Hr Hc).
  - destruct (HF _ _ Hl) as [y ->]. exact (quantise_fin _ _ _ _ _ Hr Hc).
Qed.

Lemma has_cp3_iff_perm l l' m m' : Permutation l m -> Permutation l' m' -> (has_cp3 m <-> has_cp3 m') -> (has_cp3 l <-> has_cp3 l').
Proof.
  intros P Q E. split; intros H.
  - apply has_cp3_perm with m'; [apply Permutation_sym; auto|]. apply E. apply has_cp3_perm with l; auto.
  - apply has_cp3_perm with m; [apply Permutation_sym; auto|]. apply E. apply has_cp3_perm with l'; auto.
Qed.

Section Field.
Context (max_eb : R) (HM : 0 <= max_eb < 3) (tets : list tetra) (n : Z) (Hn : (0 <= n)%Z).

(** Nonzero, of magnitude at least 2^-97. *)
Definition nz_large (X : list XR) : Prop := forall m x, aget X m = Some x -> exists r, x = Fin r /\ r <> 0 /\ powerRZ 2 (-97) <= Rabs r.
Lemma nz_large_large X : nz_large X -> large X.
Proof. intros H m x E. destruct (H m x E) as (r & -> & N & L). exists r. split; auto. right. exact L. Qed.

Definition uns_x (U V W : list XR) (k : nat) (s : log3_state XA) : Prop :=
  let '(U', V', W', (LU, LV, LW)) := s in
  comp_x max_eb k U U' LU /\ comp_x max_eb k V V' LV /\ comp_x max_eb k W W' LW /\
  forall t, In t tets -> NoDup (corners t) ->
    (has_cp3 (map (vecn U V W) (corners t)) <-> has_cp3 (map (vecn U' V' W') (corners t))).

Lemma uns_x_step U V W : nz_large U -> nz_large V -> nz_large W -> no_collision_uns XA (Fin max_eb) tets 24 n (uns_x U V W).
Proof.
  intros BU BV BW m p s s' c Hm HI H. destruct (zrange_nth _ _ _ Hn Hm) as [Hp _].
  pose proof (nz_large_large U BU) as BU'. pose proof (nz_large_large V BV) as BV'. pose proof (nz_large_large W BW) as BW'.
  destruct s as [[[U1 V1] W1] [[LU LV] LW]]. destruct s' as [[[U2 V2] W2] [[LU2 LV2] LW2]].
  destruct HI as (CU & CV & CW & HT). apply uns_point_inv in H. change (T XA) with XR in *.
  destruct H as [u v w Eu Ev Ew|u v w lu lv lw eb id abs_eb q0 q1 q2 x0 x1 x2 U2 V2 W2 LU2 LV2 LW2
                 Eu Ev Ew El Em' En Er Ep Eq Hid C0 C1 C2 X1 X2 X3 X4 X5 X6]; change (T XA) with XR in *.
  - split; [|cbn [c_q verbatim_as]; congruence]. split; [|split; [|split; [|exact HT]]]; apply comp_x_keep; auto.
  - pose proof CU as (_ & _ & FU & FLU & _). pose proof CV as (_ & _ & FV & FLV & _). pose proof CW as (_ & _ & FW & FLW & _).
    assert (Ht : 0 < / 8388608) by lra.
    destruct (quantize_fin 2 _ _ _ _ ltac:(lia) Ht Eq Hid) as (g & a & Eg & -> & Ha & Hle).
    rewrite Eg in Eq. change (eps_float XA) with (Fin (/ 8388608)) in Eq.
    destruct (quantize_exact 2 (/ 8388608) g id _ ltac:(lia) Ht Eq) as [(_ & Q & _)|(_ & _ & a' & Ea & Pa & _)]; [lia|].
    injection Ea as <-.
    assert (HR : exists r, eb = Fin r /\ 0 < r /\ g = log2R (1 + r)).
    { cbn [dlt dofZ XA] in Ep. unfold log_eb in Eg. cbn [dlog2 dadd dofZ XA] in Eg. destruct eb as [r| | |]; try discriminate.
      exists r. split; auto. apply xlt_fin in Ep. split; auto. cbn [xadd xlog2] in Eg. rewrite Rlt_bool_true in Eg by lra. injection Eg as <-. reflexivity. }
    destruct HR as (r & -> & Pr & ->).
    pose proof (req_uns_below _ _ _ _ _ _ _ FU FV FW Er ltac:(discriminate)) as HB.
    assert (Hrm : r <= max_eb).
    { apply Rnot_lt_le. intros Hlt. destruct (HB max_eb ltac:(lra) (proj2 (below_fin _ _) Hlt)) as [B _]. apply below_fin in B. lra. }
    assert (Hlt : (id < 24)%Z).
    { destruct (Z_lt_le_dec id 24); auto. exfalso.
      assert (log2R (1 + r) < 2) by (rewrite <- (log2R_pow2 2); apply log2R_lt; [lra|simpl; lra]).
      assert (powerRZ 2 24 <= powerRZ 2 id) by (rewrite !powerRZ_Rpower by lra; apply Rle_Rpower; [lra|apply IZR_le; lia]).
      replace (powerRZ 2 24) with 16777216 in H0 by (simpl; lra). lra. }
    assert (Ha1 : a <= 1).
    { assert (powerRZ 2 id <= powerRZ 2 23) by (rewrite !powerRZ_Rpower by lra; apply Rle_Rpower; [lra|apply IZR_le; lia]).
      replace (powerRZ 2 23) with 8388608 in H by (simpl; lra). lra. }
    rewrite Hp in *.
    destruct (comp_x_cur _ _ _ _ _ _ _ BU' CU Eu El) as (u0 & -> & Ku & AU & Au).
    destruct (comp_x_cur _ _ _ _ _ _ _ BV' CV Ev Em') as (v0 & -> & Kv & AV & Av).
    destruct (comp_x_cur _ _ _ _ _ _ _ BW' CW Ew En) as (w0 & -> & Kw & AW & Aw).
    assert (Fu : u0 <> 0) by (destruct (BU _ _ AU) as (y & Y & N & _); injection Y as <-; auto).
    assert (Fv : v0 <> 0) by (destruct (BV _ _ AV) as (y & Y & N & _); injection Y as <-; auto).
    assert (Fw : w0 <> 0) by (destruct (BW _ _ AW) as (y & Y & N & _); injection Y as <-; auto).
    assert (KF : forall x l, (if Req_EM_T x 0 then l = Fin (-100) else l = Fin (log2R (Rabs x))) ->
       exists l', l = Fin l' /\ (if Req_EM_T x 0 then l' = -100 else l' = log2R (Rabs x))).
    { intros x l. destruct (Req_EM_T x 0); eauto. }
    destruct (KF _ _ Ku) as (lu' & -> & Ku'). destruct (KF _ _ Kv) as (lv' & -> & Kv'). destruct (KF _ _ Kw) as (lw' & -> & Kw').
    destruct (codedp_exact _ _ _ _ _ _ FLU Ha C0) as (d0 & -> & D0).
    destruct (codedp_exact _ _ _ _ _ _ FLV Ha C1) as (d1 & -> & D1).
    destruct (codedp_exact _ _ _ _ _ _ FLW Ha C2) as (d2 & -> & D2).
    destruct (coded_x max_eb HM u0 lu' d0 a r Ku' D0 Ha1 Pr Hle) as (y0 & Y0 & Z0 & N0). rewrite Y0 in X4.
    destruct (coded_x max_eb HM v0 lv' d1 a r Kv' D1 Ha1 Pr Hle) as (y1 & Y1 & Z1 & N1). rewrite Y1 in X5.
    destruct (coded_x max_eb HM w0 lw' d2 a r Kw' D2 Ha1 Pr Hle) as (y2 & Y2 & Z2 & N2). rewrite Y2 in X6.
    split; [|cbn [c_q c_eb In]; intros _ x [X|[]]; lia].
    split; [eapply (comp_x_set max_eb m U U1 LU); eauto; intros N; exists r; split; [exact (proj1 (N0 N))|lra]|].
    split; [eapply (comp_x_set max_eb m V V1 LV); eauto; intros N; exists r; split; [exact (proj1 (N1 N))|lra]|].
    split; [eapply (comp_x_set max_eb m W W1 LW); eauto; intros N; exists r; split; [exact (proj1 (N2 N))|lra]|].
    intros t Ht' Hnd. rewrite (HT t Ht' Hnd).
    destruct (N0 Fu) as (_ & e0 & -> & Q0). destruct (N1 Fv) as (_ & e1 & -> & Q1). destruct (N2 Fw) as (_ & e2 & -> & Q2).
    set (e := Rmax (Rabs e0) (Rmax (Rabs e1) (Rabs e2))).
    assert (L0 : Rabs e0 <= e) by apply Rmax_l.
    assert (L1 : Rabs e1 <= e) by (eapply Rle_trans; [apply Rmax_l|apply Rmax_r]).
    assert (L2 : Rabs e2 <= e) by (eapply Rle_trans; [apply Rmax_r|apply Rmax_r]).
    assert (Le : e < r) by (unfold e; repeat apply Rmax_lub_lt; lra).
    assert (He : 0 <= e) by (eapply Rle_trans; [apply Rabs_pos|exact L0]).
    destruct (HB e He (proj2 (below_fin _ _) Le)) as [_ HL].
    assert (HO : forall q, q <> Z.of_nat m -> vecn U2 V2 W2 q = vecn U1 V1 W1 q).
    { intros q Hq. unfold vecn, atR. rewrite (aset_get _ _ _ _ X4), (aset_get _ _ _ _ X5), (aset_get _ _ _ _ X6).
      replace (q =? Z.of_nat m)%Z with false by lia. reflexivity. }
    assert (HP : vecn U2 V2 W2 (Z.of_nat m) = scaled (vecn U1 V1 W1 (Z.of_nat m)) e0 e1 e2).
    { unfold scaled, vecn, cx, cy, cz. cbn [fst snd]. rewrite Au, Av, Aw.
      rewrite (atR_aset _ _ _ _ X4), (atR_aset _ _ _ _ X5), (atR_aset _ _ _ _ X6). reflexivity. }
    assert (HK : forall b c d, bounded_by U1 V1 W1 e (Z.of_nat m) b c d -> b <> Z.of_nat m -> c <> Z.of_nat m -> d <> Z.of_nat m ->
       (has_cp3 [vecn U1 V1 W1 b; vecn U1 V1 W1 c; vecn U1 V1 W1 d; vecn U1 V1 W1 (Z.of_nat m)] <->
        has_cp3 [vecn U2 V2 W2 b; vecn U2 V2 W2 c; vecn U2 V2 W2 d; vecn U2 V2 W2 (Z.of_nat m)])).
    { intros b cc d (r' & [_ HS] & HB') Hb Hc Hd. rewrite (HO b Hb), (HO cc Hc), (HO d Hd), HP. exact (HS e e0 e1 e2 He HB' L0 L1 L2). }
    destruct t as [[[t0 t1] t2] t3]. destruct (HL _ _ _ _ Ht') as (K0 & K1 & K2 & K3). cbn [corners map] in *.
    inversion Hnd as [|? ? Hn0 Hnd1]; subst. inversion Hnd1 as [|? ? Hn1 Hnd2]; subst. inversion Hnd2 as [|? ? Hn2 Hnd3]; subst. cbn [In] in Hn0, Hn1, Hn2.
    destruct (Z.eq_dec t0 (Z.of_nat m)) as [->|H0].
    { eapply has_cp3_iff_perm; [..|apply (HK t1 t2 t3); [exact (K0 eq_refl)|tauto|tauto|tauto]];
        (change [?a; ?b; ?c; ?d] with ([a] ++ [b; c; d]) at 1; apply Permutation_app_comm). }
    destruct (Z.eq_dec t1 (Z.of_nat m)) as [->|H1].
    { eapply has_cp3_iff_perm; [..|apply (HK t0 t2 t3); [exact (K1 eq_refl)|tauto|tauto|tauto]];
        (apply perm_skip; change [?a; ?b; ?c] with ([a] ++ [b; c]) at 1; apply Permutation_app_comm). }
    destruct (Z.eq_dec t2 (Z.of_nat m)) as [->|H2].
    { eapply has_cp3_iff_perm; [..|apply (HK t0 t1 t3); [exact (K2 eq_refl)|tauto|tauto|tauto]]; (apply perm_skip, perm_skip, perm_swap). }
    destruct (Z.eq_dec t3 (Z.of_nat m)) as [->|H3].
    { apply (HK t0 t1 t2); [exact (K3 eq_refl)|tauto|tauto|tauto]. }
    rewrite !HO by assumption. tauto.
Qed.

Lemma comp_unzero_x k fl X0 X M : length fl = length X0 -> nz_large X0 -> comp_x max_eb k X0 X M -> unzero XA fl M.
Proof.
  intros Lf HX (TX & TM & FX & FM & HB) i e l Ee _ El. change (T XA) with XR in *.
  assert (L2 : log2R (1 + max_eb) < 2) by (rewrite <- (log2R_pow2 2); apply log2R_lt; [lra|simpl; lra]).
  assert (Hi : (i < length fl)%nat) by (apply nth_error_Some; congruence).
  destruct (aget_ok X0 (Z.of_nat i)) as [x Ex]; [lia|]. destruct (HX _ _ Ex) as (r & -> & N & Hr).
  assert (El' : aget M (Z.of_nat i) = Some l) by (unfold aget; replace (Z.of_nat i <? 0)%Z with false by lia; rewrite Nat2Z.id; auto).
  rewrite (atR_fin _ _ _ FM El'). destruct (HB _ _ Ex) as [B1 _]. specialize (B1 N).
  cbn [tlt tofZ XA]. apply xlt_fin_false.
  pose proof (log2R_mono (powerRZ 2 (-97)) (Rabs r) ltac:(apply powerRZ_lt; lra) Hr) as Q'. rewrite log2R_pow2 in Q'.
  apply Rabs_le_inv in B1. lra.
Qed.
End Field.

(** The vector at point p of an interleaved array. *)
Definition vecI (data : list R) (p : Z) : V3 :=
  (nth (Z.to_nat (3 * p)) data 0, nth (Z.to_nat (3 * p + 1)) data 0, nth (Z.to_nat (3 * p + 2)) data 0).

Lemma nth_atR (l : list R) k : (0 <= k)%Z -> nth (Z.to_nat k) l 0 = atR (map Fin l) k.
Proof.
  intros H. unfold atR, aget. replace (k <? 0)%Z with false by lia. rewrite nth_error_map. generalize (Z.to_nat k). clear.
  induction l as [|a l IH]; intros [|i]; cbn; auto.
Qed.

Lemma map_join3 {X Y} (f : X -> Y) : forall x y z, map f (join3 (zip3 x y z)) = join3 (zip3 (map f x) (map f y) (map f z)).
Proof.
  unfold join3, zip3. induction x as [|a x IH]; intros [|b y] [|c z]; try reflexivity. cbn [combine map concat app]. rewrite IH. reflexivity.
Qed.

Lemma vecI_join u v w p : length v = length u -> length w = length u -> (0 <= p)%Z ->
  vecI (join3 (zip3 u v w)) p = vecn (map Fin u) (map Fin v) (map Fin w) p.
Proof.
  intros L1 L2 Hp. unfold vecI, vecn. rewrite !nth_atR, map_join3 by lia. unfold atR.
  destruct (aget_join3 (map Fin u) (map Fin v) (map Fin w) p) as (-> & -> & ->); rewrite ?map_length; auto.
Qed.

Lemma nth_error_same {X} : forall (l l' : list X), (forall i, nth_error l i = nth_error l' i) -> l = l'.
Proof.
  induction l as [|a l IH]; intros [|b l'] H; auto; try (specialize (H 0%nat); discriminate).
  pose proof (H 0%nat) as H0. injection H0 as ->. f_equal. apply IH. intros i. exact (H (S i)).
Qed.

Lemma finals_all max_eb X X' M fl k : 0 <= max_eb < 3 -> nz_large X -> comp_x max_eb k X X' M -> comp_inv XA k fl X X' M -> length fl = length X ->
  log_finals XA fl X M = X'.
Proof.
  intros HM HX HC HI Lf. pose proof HC as (T1 & T2 & _ & _ & _). change (T XA) with XR in *.
  assert (LM : length M = length X) by (rewrite (proj1 T2); apply map_length).
  assert (Lfin : length (log_finals XA fl X M) = length X) by (rewrite (log_finals_length XA fl X M) by (change (T XA) with XR; lia); auto).
  apply nth_error_same. intros i. change (T XA) with XR in *.
  destruct (Nat.ltb_spec i (length X)) as [Hi|Hi].
  - destruct (aget_ok X (Z.of_nat i)) as [x Ex]; [lia|]. destruct (HX _ _ Ex) as (r & -> & N & _).
    destruct (finals_get max_eb HM X X' M fl k _ r (nz_large_large X HX) HC HI Lf Ex) as (y & E1 & _ & E2). specialize (E2 N).
    unfold aget in E1, E2. replace (Z.of_nat i <? 0)%Z with false in E1, E2 by lia. rewrite Nat2Z.id in E1, E2. rewrite E2. exact E1.
  - assert (HX' : length X' = length X) by exact (proj1 T1).
    rewrite (proj2 (nth_error_None X' i)) by lia. apply nth_error_None. change (T XA) with XR in *. lia.
Qed.

Theorem uns_preserves max_eb tets n data s c :
  0 <= max_eb < 3 -> (0 <= n)%Z -> Z.of_nat (length data) = (3 * n)%Z -> forallb (in_range n) tets = true ->
  (forall x, In x data -> x <> 0 /\ powerRZ 2 (-97) <= Rabs x) ->
  enc_uns XA (Fin max_eb) tets n (map Fin data) = Some (s, c) ->
  exists data', decode_uns XA 2 intv_radius n (map (fun x => log_sign XA (Fin x)) data) c = Some (map Fin data') /\ length data' = length data /\
  forall t, In t tets -> NoDup (corners t) -> (has_cp3 (map (vecI data) (corners t)) <-> has_cp3 (map (vecI data') (corners t))).
Proof.
  intros HM Hn HL HR HX HE. destruct s as [[[U' V'] W'] [[LU LV] LW]]. change (T XA) with XR in *.
  destruct (split3 data) as [[u v] w] eqn:ES.
  pose proof (split3_length data (Z.to_nat n) ltac:(lia)) as SL. rewrite ES in SL. destruct SL as (Lu & Lv & Lw).
  pose proof (join3_split3 data (Z.to_nat n) ltac:(lia)) as SJ. rewrite ES in SJ.
  assert (ESF : split3 (map Fin data) = (map Fin u, map Fin v, map Fin w)) by (rewrite split3_map, ES; reflexivity).
  pose proof (enc_uns_split XA n (Fin max_eb) tets (map Fin data) _ _ _ ESF) as HS. change (T XA) with XR in *. rewrite HS in HE. clear HS.
  assert (HIn : forall x, In x u \/ In x v \/ In x w -> x <> 0 /\ powerRZ 2 (-97) <= Rabs x).
  { intros x Hx. apply HX. pose proof (split3_In data x) as Q. rewrite ES in Q. auto. }
  assert (NZ : forall l, (forall x, In x l -> x <> 0 /\ powerRZ 2 (-97) <= Rabs x) -> nz_large (map Fin l)).
  { intros l H m x E. rewrite aget_map in E. destruct (aget l m) as [y|] eqn:Ey; [|discriminate]. cbn [option_map] in E. apply Some_inj in E. subst x.
    exists y. split; auto. apply H. unfold aget in Ey. destruct (m <? 0)%Z; [discriminate|]. eapply nth_error_In; eauto. }
  assert (BU : nz_large (map Fin u)) by auto. assert (BV : nz_large (map Fin v)) by auto. assert (BW : nz_large (map Fin w)) by auto.
  assert (I0 : uns_x max_eb tets (map Fin u) (map Fin v) (map Fin w) 0
     (map Fin u, map Fin v, map Fin w, (map (log_value XA) (map Fin u), map (log_value XA) (map Fin v), map (log_value XA) (map Fin w)))).
  { split; [apply comp_x_init; auto using nz_large_large|]. split; [apply comp_x_init; auto using nz_large_large|].
    split; [apply comp_x_init; auto using nz_large_large|]. tauto. }
  pose proof (uns_x_step max_eb HM tets n Hn _ _ _ BU BV BW) as ST.
  pose proof (uns_inv_final XA (Fin max_eb) tets 24 n Hn _ ST _ _ _ _ _ I0 HE) as HI.
  destruct HI as ((KU & KV & KW & HC) & JU & JV & JW & Le & _ & _). change (T XA) with XR in *.
  set (fl := map (vflag 24) (c_eb c)) in *.
  assert (Lf : length fl = Z.to_nat n) by (unfold fl; rewrite map_length; exact Le).
  assert (LF : forall l : list R, length l = Z.to_nat n -> length fl = length (map Fin l)) by (intros; rewrite map_length; lia).
  assert (HA : forall x, In x (map Fin u) \/ In x (map Fin v) \/ In x (map Fin w) -> log_agree XA x).
  { intros x Hx. apply log_agree_exact. destruct Hx as [Hx|[Hx|Hx]]; apply in_map_iff in Hx; destruct Hx as (y & <- & _); eauto. }
  assert (LZ : forall l : list R, length l = Z.to_nat n -> Z.of_nat (length (map Fin l)) = n) by (intros; rewrite map_length; lia).
  pose proof (uns_field_sync XA (Fin max_eb) tets 24 n Hn _ ST _ _ _ _ _ _ _ _ _ _ (LZ u Lu) (LZ v Lv) (LZ w Lw) I0 escape_exact HA HE) as ED.
  cbv zeta in ED. fold fl in ED. change (T XA) with XR in *.
  specialize (ED (comp_unzero_x max_eb HM _ _ _ _ _ (LF u Lu) BU KU) (comp_unzero_x max_eb HM _ _ _ _ _ (LF v Lv) BV KV)
    (comp_unzero_x max_eb HM _ _ _ _ _ (LF w Lw) BW KW)).
  pose proof (finals_all max_eb _ _ _ _ _ HM BU KU JU (LF u Lu)) as FU. pose proof (finals_all max_eb _ _ _ _ _ HM BV KV JV (LF v Lv)) as FV.
  pose proof (finals_all max_eb _ _ _ _ _ HM BW KW JW (LF w Lw)) as FW. change (T XA) with XR in *. change (map (vflag 24) (c_eb c)) with fl in ED. rewrite FU, FV, FW in ED.
  destruct KU as (TU & _ & AU & _). destruct KV as (TV & _ & AV & _). destruct KW as (TW & _ & AW & _).
  pose proof (proj1 TU) as LU'. pose proof (proj1 TV) as LV'. pose proof (proj1 TW) as LW'. rewrite map_length in LU', LV', LW'.
  exists (join3 (zip3 (map toR U') (map toR V') (map toR W'))).
  split; [|split].
  - rewrite map_join3, <- (allfin_inv U' AU), <- (allfin_inv V' AV), <- (allfin_inv W' AW). rewrite <- ED. f_equal.
    rewrite <- SJ at 1. rewrite <- map_join3, map_map. reflexivity.
  - rewrite join3_length, zip3_length; rewrite !map_length; lia.
  - intros t Ht Hnd. specialize (HC t Ht Hnd).
    assert (HG : forall p, In p (corners t) -> (0 <= p)%Z).
    { rewrite forallb_forall in HR. specialize (HR t Ht). destruct t as [[[a b] d] e]. apply in_range_inv in HR. cbn [corners In]. lia. }
    rewrite <- SJ.
    rewrite (map_ext_in (vecI (join3 (zip3 u v w))) (vecn (map Fin u) (map Fin v) (map Fin w))) by (intros p Hp; apply vecI_join; [lia|lia|auto]).
    rewrite (map_ext_in (vecI (join3 (zip3 (map toR U') (map toR V') (map toR W')))) (vecn U' V' W')); [exact HC|].
    intros p Hp. rewrite vecI_join by (rewrite ?map_length; auto; lia). rewrite <- (allfin_inv U' AU), <- (allfin_inv V' AV), <- (allfin_inv W' AW). reflexivity.
Qed.

Theorem uns_total max_eb tets n data :
  0 <= max_eb < 3 -> (0 <= n)%Z -> Z.of_nat (length data) = (3 * n)%Z -> forallb (in_range n) tets = true ->
  (forall x, In x data -> x <> 0 /\ powerRZ 2 (-97) <= Rabs x) ->
  exists s c, enc_uns XA (Fin max_eb) tets n (map Fin data) = Some (s, c).
Proof.
  intros HM Hn HL HR HX.
  destruct (split3 data) as [[u v] w] eqn:ES.
  pose proof (split3_length data (Z.to_nat n) ltac:(lia)) as SL. rewrite ES in SL. destruct SL as (Lu & Lv & Lw).
  assert (ESF : split3 (map Fin data) = (map Fin u, map Fin v, map Fin w)) by (rewrite split3_map, ES; reflexivity).
  pose proof (enc_uns_split XA n (Fin max_eb) tets (map Fin data) _ _ _ ESF) as HS. change (T XA) with XR in *. rewrite HS. clear HS.
  assert (HIn : forall x, In x u \/ In x v \/ In x w -> x <> 0 /\ powerRZ 2 (-97) <= Rabs x).
  { intros x Hx. apply HX. pose proof (split3_In data x) as Q. rewrite ES in Q. auto. }
  assert (NZ : forall l, (forall x, In x l -> x <> 0 /\ powerRZ 2 (-97) <= Rabs x) -> nz_large (map Fin l)).
  { intros l H m x E. rewrite aget_map in E. destruct (aget l m) as [y|] eqn:Ey; [|discriminate]. cbn [option_map] in E. apply Some_inj in E. subst x.
    exists y. split; auto. apply H. unfold aget in Ey. destruct (m <? 0)%Z; [discriminate|]. eapply nth_error_In; eauto. }
  assert (BU : nz_large (map Fin u)) by auto. assert (BV : nz_large (map Fin v)) by auto. assert (BW : nz_large (map Fin w)) by auto.
  pose proof (uns_x_step max_eb HM tets n Hn _ _ _ BU BV BW) as ST.
  apply (uns_field_any XA n Hn (Fin max_eb) tets (uns_x max_eb tets (map Fin u) (map Fin v) (map Fin w)) _ _ _ HR);
    try (unfold len_n; change (T XA) with XR; rewrite map_length; lia).
  - split; [apply comp_x_init; auto using nz_large_large|]. split; [apply comp_x_init; auto using nz_large_large|].
    split; [apply comp_x_init; auto using nz_large_large|]. tauto.
  - intros m p s s' c Hm HI HS. exact (proj1 (ST m p s s' c Hm HI HS)).
  - intros m U0 V0 W0 LU LV LW p eb S6 HG ((_ & _ & FU & FLU & _) & (_ & _ & FV & FLV & _) & (_ & _ & FW & FLW & _) & _) Er Dp.
    change (T XA) with XR in *.
    pose proof (req_uns_below _ _ _ _ _ _ _ FU FV FW Er ltac:(discriminate)) as HBl.
    assert (HRr : exists e, eb = Fin e /\ 0 < e <= max_eb).
    { cbn [dlt dofZ XA] in Dp. destruct eb as [e| | |]; try discriminate.
      - exists e. apply xlt_fin in Dp. split; auto. split; auto. apply Rnot_lt_le. intros Hlt.
        destruct (HBl max_eb ltac:(lra) (proj2 (below_fin _ _) Hlt)) as [Bb _]. apply below_fin in Bb. lra.
      - exfalso. destruct (HBl max_eb ltac:(lra) eq_refl) as [Bb _]. apply below_fin in Bb. lra. }
    destruct HRr as (e & -> & He).
    assert (HQ : log_eb XA (Fin e) = Fin (log2R (1 + e))).
    { unfold log_eb. cbn [dlog2 dadd dofZ XA xadd xlog2]. rewrite Rlt_bool_true by lra. reflexivity. }
    assert (HQ2 : log2R (1 + e) <= 2) by (rewrite <- (log2R_pow2 2); apply log2R_mono; [lra|simpl; lra]).
    unfold quantise_okp. rewrite HQ. destruct (quantize2_total _ HQ2) as [[id ab] Eq]. exists id, ab. split; [exact Eq|].
    intros Hid x c pr Hx Ec Ep. cbn [eps_float XA] in Eq. apply quantize_exact in Eq; [|lia|lra].
    destruct Eq as [(_ & E & _)|(_ & _ & a & -> & _ & Ha & _)]; [lia|].
    assert (FX : allfin x) by (cbn in Hx; destruct Hx as [<-|[<-|[<-|[]]]]; auto).
    assert (Hpr : exists q, pr = Fin q).
    { unfold prev_log in Ep. destruct (p =? 0)%Z; [apply Some_inj in Ep; subst pr; unfold t0; cbn [tofZ XA]; eauto|]. destruct (FX _ _ Ep) as [q ->]. eauto. }
    destruct Hpr as [q ->]. destruct (FX _ _ Ec) as [cr ->].
    destruct (quantise_total q cr a Ha) as [y Ey]. eauto.
Qed.
