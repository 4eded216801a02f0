(** Critical tetrahedra under the 3D log-domain codec, in exact arithmetic.  Nothing of /repo is modelled here. *)
From Coq Require Import Reals Lra Lia ZArith List Bool Permutation.
From Coq Require Import ZifyBool ZifyNat.
From Flocq Require Import Core.Raux.
From Verif Require Import Base Huffman Arith Mesh2D Mesh3D Derive3D Codec2D Scan Abs3D Sync2D Sync3D Exact Geo2D
  Preserve2D Cells3D Geo3D Geo3DRel Preserve3D Log2D LogSync2D LogCells2D Log3D LogSync3D.
Import ListNotations.
Local Open Scope R_scope.

Lemma req_loop3_below U V W r1 r2 r3 i j k e : allfin U -> allfin V -> allfin W ->
  forall ns eb r, notnan eb -> req_loop3 XA U V W r1 r2 r3 i j k ns eb = Some r -> below e r ->
  below e eb /\ forall n, In n ns -> in_mesh3 r1 r2 r3 i j k n = true ->
    exists r', rel3_bound (vec3R r2 r3 U V W (nbr3 (i, j, k) n 0)) (vec3R r2 r3 U V W (nbr3 (i, j, k) n 1))
                 (vec3R r2 r3 U V W (nbr3 (i, j, k) n 2)) (vec3R r2 r3 U V W (i, j, k)) r' /\ below e r'.
Proof.
  intros FU FV FW. induction ns as [|n ns IH]; intros eb r HN H HB; cbn [req_loop3] in H.
  - apply Some_inj in H. subst. split; auto. intros n [].
  - destruct (in_mesh3 r1 r2 r3 i j k n) eqn:EM.
    + bind_as H v Ev. apply tet_values_fin in Ev; auto. subst v.
      match type of H with req_loop3 _ _ _ _ _ _ _ _ _ _ _ (minf XA eb (derive3_rel XA (fin3 ?x0) (fin3 ?x1) (fin3 ?x2) (fin3 ?x3))) = _ =>
        pose proof (derive3_rel_sound x0 x1 x2 x3) as S end.
      destruct (IH _ _ (notnan_minf eb _ (proj1 S)) H HB) as [B1 B2].
      apply below_minf in B1 as [B1 B3]; auto; [|apply S].
      split; auto. intros n' [<-|Hn] HM; eauto.
    + destruct (IH _ _ HN H HB) as [B1 B2]. split; auto. intros n' [<-|Hn] HM; [congruence|eauto].
Qed.

Lemma req_log3_below max_eb U V W r1 r2 r3 i j k r : allfin U -> allfin V -> allfin W ->
  required_eb3_log XA max_eb U V W r1 r2 r3 i j k = Some r -> notnan max_eb -> forall e, 0 <= e -> below e r ->
  below e max_eb /\ forall n, (n < 24)%nat -> in_mesh3 r1 r2 r3 i j k n = true ->
    exists r', rel3_bound (vec3R r2 r3 U V W (nbr3 (i, j, k) n 0)) (vec3R r2 r3 U V W (nbr3 (i, j, k) n 1))
                 (vec3R r2 r3 U V W (nbr3 (i, j, k) n 2)) (vec3R r2 r3 U V W (i, j, k)) r' /\ below e r'.
Proof.
  intros FU FV FW H HN e He HB.
  assert (HI : exists eb, req_loop3 XA U V W r1 r2 r3 i j k twenty_four max_eb = Some eb /\ (r = Fin 0 \/ r = eb)).
  { revert H. unfold required_eb3_log. generalize twenty_four. intros l H. bind_as H eb E. apply Some_inj in H. exists eb. split; [exact E|].
    subst r. destruct (dlt XA eb _); auto. }
  destruct HI as (eb & E & [-> | ->]); [exfalso; eapply below_zero; eauto|].
  destruct (req_loop3_below _ _ _ _ _ _ _ _ _ e FU FV FW _ _ _ HN E HB) as [B1 B2]. split; [exact B1|].
  intros n Hn. apply B2. apply in_24. exact Hn.
Qed.

Lemma log2R_pow2 (k : Z) : log2R (powerRZ 2 k) = IZR k.
Proof. unfold log2R. rewrite powerRZ_Rpower by lra. unfold Rpower. rewrite ln_exp. pose proof ln2_pos. field. lra. Qed.

Lemma log2R_mono x y : 0 < x -> x <= y -> log2R x <= log2R y.
Proof.
  intros H1 [H2| <-]; [|lra]. unfold log2R, Rdiv. apply Rmult_le_compat_r; [left; apply Rinv_0_lt_compat, ln2_pos|].
  left. apply ln_increasing; auto.
Qed.
Lemma log2R_lt x y : 0 < x -> x < y -> log2R x < log2R y.
Proof.
  intros H1 H2. unfold log2R, Rdiv. apply Rmult_lt_compat_r; [apply Rinv_0_lt_compat, ln2_pos|]. apply ln_increasing; auto.
Qed.

Lemma escape_exact : escape XA 2 = Some 24%Z.
Proof.
  unfold escape. cbn [dtoint ddiv dlog2 dofZ eps_float XA].
  rewrite xdiv_fin by lra. unfold xlog2. rewrite !Rlt_bool_true by lra. fold (log2R (1 / / 8388608)). fold (log2R 2).
  replace (1 / / 8388608) with (powerRZ 2 23) by (simpl; lra). rewrite log2R_pow2.
  replace (log2R 2) with 1. 2:{ replace 2 with (powerRZ 2 1) by (simpl; lra). rewrite log2R_pow2. reflexivity. }
  rewrite xdiv_fin by lra. replace (23 / 1) with (IZR 23) by lra. unfold xtoint. rewrite Ztrunc_IZR. reflexivity.
Qed.

(** A change of the logarithm bounded by log2(1 + r) is a relative change by less than r. *)
Lemma unlog_scaled x d r : x <> 0 -> 0 < r -> Rabs (d - log2R (Rabs x)) < log2R (1 + r) ->
  exists e, unlog XA (Fin x) (Fin d) = Fin (x * (1 + e)) /\ Rabs e < r.
Proof.
  intros N Hr H. destruct (unlog_exact x d N) as (y & Ey & Hy). pose proof (Rabs_pos_lt x N) as P.
  pose proof (log_change (Rabs x) d r P Hr H) as K. rewrite <- Hy in K.
  exists ((y - x) / x). split; [rewrite Ey; f_equal; field; auto|].
  unfold Rdiv. rewrite Rabs_mult, Rabs_inv. apply (Rmult_lt_reg_r (Rabs x)); auto. rewrite Rmult_assoc, Rinv_l by lra. lra.
Qed.

Lemma lin3_range r1 r2 r3 x : in_grid r1 r2 r3 x -> (0 <= lin3 r2 r3 x < r1 * r2 * r3)%Z.
Proof.
  destruct x as [[i j] k]. unfold in_grid, lin3. cbn [fst snd]. intros (A1 & A2 & A3).
  assert (0 <= i * r2 <= (r1 - 1) * r2)%Z by nia. assert (0 <= i * r2 + j < r1 * r2)%Z by nia.
  assert (0 <= (i * r2 + j) * r3 <= (r1 * r2 - 1) * r3)%Z by nia. nia.
Qed.

Section Field.
Context (max_eb : R) (HM : 0 <= max_eb < 3) (r1 r2 r3 : Z) (H1 : (0 <= r1)%Z) (H2 : (0 < r2)%Z) (H3 : (0 < r3)%Z).

(** One component: finite arrays, logarithms moved by at most log2(1 + max_eb); those of zeros stay below -99. *)
Definition comp_x (k : nat) (X0 X M : list XR) : Prop :=
  untouched k X X0 /\ untouched k M (map (log_value XA) X0) /\ allfin X /\ allfin M /\
  forall m x, aget X0 m = Some (Fin x) ->
    (x <> 0 -> Rabs (atR M m - log2R (Rabs x)) <= log2R (1 + max_eb)) /\ (x = 0 -> atR M m < -99).

(** A vector without zero components. *)
Definition full (a : V3) : Prop := cx a <> 0 /\ cy a <> 0 /\ cz a <> 0.

Definition log3_x (U V W : list XR) (k : nat) (s : log3_state XA) : Prop :=
  let '(U', V', W', (LU, LV, LW)) := s in
  comp_x k U U' LU /\ comp_x k V V' LV /\ comp_x k W W' LW /\
  forall t, tet r1 r2 r3 t -> (forall x, In x t -> full (vec3R r2 r3 U V W x)) ->
    tet_rel False (map (vec3R r2 r3 U V W) t) (map (vec3R r2 r3 U' V' W') t).

(** Zeros, or of magnitude at least 2^-97. *)
Definition zero_or_large (r : R) : Prop := r = 0 \/ powerRZ 2 (-97) <= Rabs r.
Definition large (X : list XR) : Prop := forall m x, aget X m = Some x -> exists r, x = Fin r /\ zero_or_large r.

Lemma comp_x_init X : large X -> comp_x 0 X X (map (log_value XA) X).
Proof.
  intros HX. split; [apply untouched_refl|]. split; [apply untouched_refl|].
  split; [intros m x E; destruct (HX m x E) as (r & -> & _); eauto|]. split.
  - intros m x E. rewrite aget_map in E. change (T XA) with XR in E. destruct (aget X m) as [y|] eqn:Ey; [|discriminate].
    destruct (HX m y Ey) as (r & -> & _). cbn [option_map] in E. rewrite log_value_exact in E. apply Some_inj in E. subst x. eauto.
  - intros m x E. unfold atR. rewrite aget_map. change (T XA) with XR. rewrite E.
    cbn [option_map]. rewrite log_value_exact. cbn [toR]. destruct (Req_EM_T x 0) as [C|C]; split; intros; try contradiction; try lra.
    rewrite Rminus_eq_0, Rabs_R0. rewrite <- (log2R_pow2 0). apply log2R_mono; simpl; lra.
Qed.

Lemma comp_x_keep k X0 X M : comp_x k X0 X M -> comp_x (S k) X0 X M.
Proof. intros (T1 & T2 & R). split; [apply untouched_keep; auto|]. split; [apply untouched_keep; auto|auto]. Qed.

Lemma comp_x_cur k X0 X M x l : large X0 -> comp_x k X0 X M -> aget X (Z.of_nat k) = Some x -> aget M (Z.of_nat k) = Some l ->
  exists r, x = Fin r /\ (if Req_EM_T r 0 then l = Fin (-100) else l = Fin (log2R (Rabs r))) /\
    aget X0 (Z.of_nat k) = Some (Fin r) /\ atR X (Z.of_nat k) = r.
Proof.
  intros HX (T1 & T2 & FX & FM & _) Ex El. pose proof (atR_fin _ _ _ FX Ex) as Ea. rewrite (proj2 T1) in Ex by lia.
  destruct (HX _ _ Ex) as (r & -> & Hr). exists r.
  rewrite (proj2 T2) in El by lia. rewrite aget_map in El. change (T XA) with XR in El. rewrite Ex in El. cbn [option_map] in El.
  rewrite log_value_exact in El. injection Ea as Ea. split; [reflexivity|]. split; [|auto].
  apply Some_inj in El. destruct (Req_EM_T r 0); auto.
Qed.

Lemma comp_x_set k X0 X M X' M' r d y :
  comp_x k X0 X M -> aget X0 (Z.of_nat k) = Some (Fin r) ->
  aset M (Z.of_nat k) (Fin d) = Some M' -> aset X (Z.of_nat k) (Fin y) = Some X' ->
  (r <> 0 -> exists r', Rabs (d - log2R (Rabs r)) < log2R (1 + r') /\ 0 < r' <= max_eb) -> (r = 0 -> d < -99) -> comp_x (S k) X0 X' M'.
Proof.
  intros (T1 & T2 & FX & FM & HB) E0 SM SX Hd Hz. pose proof (aset_get _ _ _ _ SM) as G.
  split; [eapply untouched_set; eassumption|]. split; [eapply untouched_set; eassumption|].
  split; [exact (allfin_aset _ _ _ _ FX SX)|]. split; [exact (allfin_aset _ _ _ _ FM SM)|].
  intros m x E. unfold atR. rewrite G. destruct (Z.eqb_spec m (Z.of_nat k)) as [->|Hne]; [|exact (HB m x E)].
  cbn [toR]. rewrite E0 in E. injection E as <-. split; [|exact Hz]. intros N. destruct (Hd N) as (r' & A1 & A2).
  pose proof (log2R_mono (1 + r') (1 + max_eb) ltac:(lra) ltac:(lra)). lra.
Qed.

(** One component of a coded point. *)
Lemma coded_x x l d a r : (if Req_EM_T x 0 then l = -100 else l = log2R (Rabs x)) -> Rabs (d - l) < a -> a <= 1 -> 0 < r -> a <= log2R (1 + r) ->
  exists y, unlog XA (Fin x) (Fin d) = Fin y /\ (x = 0 -> d < -99) /\
    (x <> 0 -> Rabs (d - log2R (Rabs x)) < log2R (1 + r) /\ exists e, y = x * (1 + e) /\ Rabs e < r).
Proof.
  intros Hl Hd Ha Hr Har. destruct (Req_EM_T x 0) as [Z|N].
  - unfold unlog. cbn [tlt texp2 tneg XA xexp2 xneg]. destruct (xlt _ _).
    + eexists. split; [reflexivity|]. split; [|tauto]. intros _. subst l. apply Rabs_lt_inv in Hd. lra.
    + eexists. split; [reflexivity|]. split; [|tauto]. intros _. subst l. apply Rabs_lt_inv in Hd. lra.
  - subst l. destruct (unlog_scaled x d r N Hr ltac:(lra)) as (e & E & Y). exists (x * (1 + e)). split; auto. split; [tauto|].
    intros _. split; [lra|]. eauto.
Qed.

Lemma log3_x_step U V W : large U -> large V -> large W -> no_collision XA (fun U V W => required_eb3_log XA (Fin max_eb) U V W r1 r2 r3) 24 r1 r2 r3 (log3_x U V W).
Proof.
  intros BU BV BW m [[i j] k] s s' c Hm HI H. destruct (scan3_nth _ _ _ _ _ H1 H2 H3 Hm) as (Hi & Hj & Hk & Hp). cbn [fst snd] in Hi, Hj, Hk.
  destruct s as [[[U1 V1] W1] [[LU LV] LW]]. destruct s' as [[[U2 V2] W2] [[LU2 LV2] LW2]].
  destruct HI as (CU & CV & CW & HT). apply log3_point_inv in H. change (T XA) with XR in *.
  destruct H as [id u v w Hid Eu Ev Ew|u v w lu lv lw eb id abs_eb q0 q1 q2 x0 x1 x2 U2 V2 W2 LU2 LV2 LW2
                 Eu Ev Ew El Em' En Er Ep Eq Hid C0 C1 C2 X1 X2 X3 X4 X5 X6]; change (T XA) with XR in *.
  - split; [|cbn [c_q verbatim_as]; congruence]. split; [|split; [|split; [|exact HT]]]; apply comp_x_keep; auto.
  - pose proof CU as (_ & _ & FU & FLU & _). pose proof CV as (_ & _ & FV & FLV & _). pose proof CW as (_ & _ & FW & FLW & _).
    assert (Ht : 0 < / 8388608) by lra.
    destruct (quantize_fin 2 _ _ _ _ ltac:(lia) Ht Eq Hid) as (g & a & Eg & -> & Ha & Hle).
    rewrite Eg in Eq. change (eps_float XA) with (Fin (/ 8388608)) in Eq.
    destruct (quantize_exact 2 (/ 8388608) g id _ ltac:(lia) Ht Eq) as [(_ & Q & _)|(_ & _ & a' & Ea & Pa & _)]; [lia|].
    injection Ea as <-.
    assert (HR : exists r, eb = Fin r /\ 0 < r /\ g = log2R (1 + r)).
    { cbn [dlt dofZ XA] in Ep. unfold log_eb in Eg. cbn [dlog2 dadd dofZ XA] in Eg. destruct eb as [r| | |]; try discriminate.
      exists r. split; auto. apply xlt_fin in Ep. split; auto. cbn [xadd xlog2] in Eg. rewrite Rlt_bool_true in Eg by lra. injection Eg as <-. reflexivity. }
    destruct HR as (r & -> & Pr & ->).
    pose proof (req_log3_below _ _ _ _ _ _ _ _ _ _ _ FU FV FW Er ltac:(discriminate)) as HB.
    assert (Hrm : r <= max_eb).
    { apply Rnot_lt_le. intros Hlt. destruct (HB max_eb ltac:(lra) (proj2 (below_fin _ _) Hlt)) as [B _]. apply below_fin in B. lra. }
    assert (Hlt : (id < 24)%Z).
    { destruct (Z_lt_le_dec id 24); auto. exfalso.
      assert (log2R (1 + r) < 2) by (rewrite <- (log2R_pow2 2); apply log2R_lt; [lra|simpl; lra]).
      assert (powerRZ 2 24 <= powerRZ 2 id) by (rewrite !powerRZ_Rpower by lra; apply Rle_Rpower; [lra|apply IZR_le; lia]).
      replace (powerRZ 2 24) with 16777216 in H0 by (simpl; lra). lra. }
    assert (Ha1 : a <= 1).
    { assert (powerRZ 2 id <= powerRZ 2 23) by (rewrite !powerRZ_Rpower by lra; apply Rle_Rpower; [lra|apply IZR_le; lia]).
      replace (powerRZ 2 23) with 8388608 in H by (simpl; lra). lra. }
    rewrite Hp in *.
    destruct (comp_x_cur _ _ _ _ _ _ BU CU Eu El) as (u0 & -> & Ku & AU & Au).
    destruct (comp_x_cur _ _ _ _ _ _ BV CV Ev Em') as (v0 & -> & Kv & AV & Av).
    destruct (comp_x_cur _ _ _ _ _ _ BW CW Ew En) as (w0 & -> & Kw & AW & Aw).
    assert (KF : forall x l, (if Req_EM_T x 0 then l = Fin (-100) else l = Fin (log2R (Rabs x))) ->
       exists l', l = Fin l' /\ (if Req_EM_T x 0 then l' = -100 else l' = log2R (Rabs x))).
    { intros x l. destruct (Req_EM_T x 0); eauto. }
    destruct (KF _ _ Ku) as (lu' & -> & Ku'). destruct (KF _ _ Kv) as (lv' & -> & Kv'). destruct (KF _ _ Kw) as (lw' & -> & Kw').
    destruct (coded3_exact _ _ _ _ _ _ _ _ _ _ FLU Ha C0) as (d0 & -> & D0).
    destruct (coded3_exact _ _ _ _ _ _ _ _ _ _ FLV Ha C1) as (d1 & -> & D1).
    destruct (coded3_exact _ _ _ _ _ _ _ _ _ _ FLW Ha C2) as (d2 & -> & D2).
    destruct (coded_x u0 lu' d0 a r Ku' D0 Ha1 Pr Hle) as (y0 & Y0 & Z0 & N0). rewrite Y0 in X4.
    destruct (coded_x v0 lv' d1 a r Kv' D1 Ha1 Pr Hle) as (y1 & Y1 & Z1 & N1). rewrite Y1 in X5.
    destruct (coded_x w0 lw' d2 a r Kw' D2 Ha1 Pr Hle) as (y2 & Y2 & Z2 & N2). rewrite Y2 in X6.
    split; [|cbn [c_q c_eb In]; intros _ x [X|[]]; lia].
    split; [eapply (comp_x_set m U U1 LU); eauto; intros N; exists r; split; [exact (proj1 (N0 N))|lra]|].
    split; [eapply (comp_x_set m V V1 LV); eauto; intros N; exists r; split; [exact (proj1 (N1 N))|lra]|].
    split; [eapply (comp_x_set m W W1 LW); eauto; intros N; exists r; split; [exact (proj1 (N2 N))|lra]|].
    intros t Ht' Hfull. eapply tet_rel_trans; [exact (HT t Ht' Hfull)|].
    assert (HO : forall n, n <> lin3 r2 r3 (i, j, k) -> aget U2 n = aget U1 n /\ aget V2 n = aget V1 n /\ aget W2 n = aget W1 n).
    { intros n Hn. rewrite Hp in Hn. rewrite (aset_get _ _ _ _ X4), (aset_get _ _ _ _ X5), (aset_get _ _ _ _ X6).
      replace (n =? Z.of_nat m)%Z with false by lia. auto. }
    assert (HD : {In (i, j, k) t} + {~ In (i, j, k) t}) by (apply in_dec; repeat decide equality).
    destruct HD as [Hin|Hout].
    2:{ replace (map (vec3R r2 r3 U2 V2 W2) t) with (map (vec3R r2 r3 U1 V1 W1) t); [apply tet_rel_refl|].
        apply map_ext_in. intros x Hx. unfold vec3R, atR.
        destruct (HO (lin3 r2 r3 x)) as (-> & -> & ->); [|reflexivity].
        intros E. apply Hout. rewrite <- (lin3_inj r1 r2 r3 x (i, j, k)); auto.
        - exact (tet_points _ _ _ _ _ Ht' Hx).
        - exact (conj Hi (conj Hj Hk)). }
    destruct (Hfull _ Hin) as (Fu & Fv & Fw). unfold vec3R, cx, cy, cz, atR in Fu, Fv, Fw. cbn [fst snd] in Fu, Fv, Fw. rewrite Hp in Fu, Fv, Fw.
    rewrite AU in Fu. rewrite AV in Fv. rewrite AW in Fw. cbn [toR] in Fu, Fv, Fw.
    destruct (N0 Fu) as (_ & e0 & -> & Q0). destruct (N1 Fv) as (_ & e1 & -> & Q1). destruct (N2 Fw) as (_ & e2 & -> & Q2).
    refine (step_tets False r1 r2 r3 _ _ _ _ _ _ i j k (conj Hi (conj Hj Hk)) HO _ t Ht').
    intros n Hn HMs. cbv zeta. split; [|intros []].
    set (e := Rmax (Rabs e0) (Rmax (Rabs e1) (Rabs e2))).
    assert (L0 : Rabs e0 <= e) by apply Rmax_l.
    assert (L1 : Rabs e1 <= e) by (eapply Rle_trans; [apply Rmax_l|apply Rmax_r]).
    assert (L2 : Rabs e2 <= e) by (eapply Rle_trans; [apply Rmax_r|apply Rmax_r]).
    assert (Le : e < r) by (unfold e; repeat apply Rmax_lub_lt; lra).
    assert (He : 0 <= e) by (eapply Rle_trans; [apply Rabs_pos|exact L0]).
    destruct (HB e He (proj2 (below_fin _ _) Le)) as [_ HL]. destruct (HL n Hn HMs) as (r' & [_ HS] & HB').
    pose proof (HS e e0 e1 e2 He HB' L0 L1 L2) as K.
    replace (vec3R r2 r3 U2 V2 W2 (i, j, k)) with (scaled (vec3R r2 r3 U1 V1 W1 (i, j, k)) e0 e1 e2); [exact K|].
    unfold scaled, vec3R, cx, cy, cz. cbn [fst snd]. rewrite Hp, Au, Av, Aw.
    rewrite (atR_aset _ _ _ _ X4), (atR_aset _ _ _ _ X5), (atR_aset _ _ _ _ X6). reflexivity.
Qed.

(** The decompressor returns the working copy of nonzero values and zeros for zeros. *)
Lemma finals_get X X' M fl k n x : large X -> comp_x k X X' M -> comp_inv XA k fl X X' M -> length fl = length X -> aget X n = Some (Fin x) ->
  exists y, aget (log_finals XA fl X M) n = Some (Fin y) /\ (x = 0 -> y = 0) /\ (x <> 0 -> aget X' n = Some (Fin y)).
Proof.
  intros HX (T1 & T2 & FX & FM & HB) (_ & _ & HF) Lf Ex. change (T XA) with XR in *.
  assert (LM : length M = length X) by (rewrite (proj1 T2); apply map_length).
  assert (L2 : log2R (1 + max_eb) < 2) by (rewrite <- (log2R_pow2 2); apply log2R_lt; [lra|simpl; lra]).
  assert (Hn : (0 <= n < Z.of_nat (length X))%Z) by (apply aget_Some in Ex; exact Ex).
  destruct (aget_ok fl n ltac:(lia)) as [e Ee]. destruct (aget_ok M n ltac:(lia)) as [l El].
  pose proof (log_finals_get XA fl X M n e (Fin x) l Ee Ex El) as Q. change (T XA) with XR in Q. rewrite Q.
  specialize (HF n e _ Ee Ex). unfold log_final. destruct (e =? 0)%Z. { exists x. split; auto. split; auto. intros _. apply HF. }
  rewrite HF, El. cbn [option_map]. destruct (HX n _ Ex) as (r & Er & Hr). injection Er as <-. destruct (HB n x Ex) as [B1 B2].
  rewrite (atR_fin _ _ _ FM El). destruct (Req_EM_T x 0) as [Z|N].
  - exists 0. split; [|tauto]. f_equal. unfold from_log. cbn [tlt tofZ XA t0].
    replace (xlt _ _) with true by (symmetry; apply xlt_fin; apply B2; exact Z). reflexivity.
  - destruct Hr as [C|Hr]; [contradiction|]. specialize (B1 N).
    assert (HL : tlt XA (Fin (atR M n)) (tofZ XA (-99)) = false).
    { cbn [tlt tofZ XA]. apply xlt_fin_false.
      pose proof (log2R_mono (powerRZ 2 (-97)) (Rabs x) ltac:(apply powerRZ_lt; lra) Hr) as Q'. rewrite log2R_pow2 in Q'.
      apply Rabs_le_inv in B1. lra. }
    rewrite from_log_unlog; [|unfold t0; cbn [teq tofZ XA]; apply xeq_fin_false; exact N|exact HL].
    destruct (unlog_exact x (atR M n) N) as (y & Ey & _). exists y. rewrite Ey. split; auto. split; [tauto|auto].
Qed.
End Field.

Lemma large_map x : (forall a, In a x -> zero_or_large a) -> large (map Fin x).
Proof.
  intros H m y E. unfold aget in E. destruct (m <? 0)%Z; [discriminate|]. rewrite nth_error_map in E.
  destruct (nth_error x (Z.to_nat m)) as [a|] eqn:En; [|discriminate]. cbn in E. injection E as <-. exists a. split; auto.
  apply H. eapply nth_error_In; eauto.
Qed.

Definition null3 : V3 := (0, 0, 0).
Lemma null_has_cp t (f : pt -> V3) x : In x t -> f x = null3 -> has_cp3 (map f t).
Proof.
  intros Hx Hf. apply in_split in Hx. destruct Hx as (l1 & l2 & ->). rewrite map_app. cbn [map]. rewrite Hf.
  apply has_cp3_perm with (null3 :: map f l1 ++ map f l2); [apply Permutation_middle|].
  assert (HZ : forall (g : V3 * R -> R) l, (forall a, g (a, 0) = 0) -> wsum g (map (fun a => (a, 0)) l) = 0).
  { intros g l Hg. induction l as [|a l IH]; unfold wsum in *; cbn [map fold_right]; [lra|]. rewrite Hg, IH. lra. }
  exists ((null3, 1) :: map (fun a => (a, 0)) (map f l1 ++ map f l2)). split; [|split; [|split; [|split; [|split]]]].
  - cbn [map fst]. f_equal. rewrite map_map. cbn [fst]. apply map_id.
  - constructor; [cbn; lra|]. apply Forall_forall. intros p Hp. apply in_map_iff in Hp. destruct Hp as (a & <- & _). cbn. lra.
  - change (wsum ?g (?p :: ?l)) with (g p + wsum g l). rewrite HZ by reflexivity. cbn [snd]. lra.
  - change (wsum ?g (?p :: ?l)) with (g p + wsum g l). rewrite HZ by (intros; cbn [fst snd]; lra). unfold null3, cx; cbn [fst snd]. lra.
  - change (wsum ?g (?p :: ?l)) with (g p + wsum g l). rewrite HZ by (intros; cbn [fst snd]; lra). unfold null3, cy; cbn [fst snd]. lra.
  - change (wsum ?g (?p :: ?l)) with (g p + wsum g l). rewrite HZ by (intros; cbn [fst snd]; lra). unfold null3, cz; cbn [fst snd]. lra.
Qed.

(** Tetrahedra whose vertices are null vectors or have no zero component. *)
Theorem log3_preserves max_eb r1 r2 r3 u v w s c :
  0 <= max_eb < 3 -> (0 <= r1)%Z -> (0 < r2)%Z -> (0 < r3)%Z ->
  Z.of_nat (length u) = (r1 * r2 * r3)%Z -> Z.of_nat (length v) = (r1 * r2 * r3)%Z -> Z.of_nat (length w) = (r1 * r2 * r3)%Z ->
  (forall x, In x u \/ In x v \/ In x w -> zero_or_large x) ->
  enc_log3 XA (Fin max_eb) r1 r2 r3 (map Fin u) (map Fin v) (map Fin w) = Some (s, c) ->
  exists u' v' w', decode_log3 XA 2 intv_radius r1 r2 r3 (map (fun x => log_sign XA (Fin x)) u) (map (fun x => log_sign XA (Fin x)) v)
                     (map (fun x => log_sign XA (Fin x)) w) c = Some (map Fin u', map Fin v', map Fin w') /\
  forall t, tet r1 r2 r3 t -> (forall x, In x t -> vecR3 r2 r3 u v w x = null3 \/ full (vecR3 r2 r3 u v w x)) ->
    (has_cp3 (map (vecR3 r2 r3 u v w) t) <-> has_cp3 (map (vecR3 r2 r3 u' v' w') t)).
Proof.
  intros HM H1 H2 H3 Lu Lv Lw HT HE. destruct s as [[[U' V'] W'] [[LU LV] LW]]. change (T XA) with XR in *.
  assert (BU : large (map Fin u)) by (apply large_map; auto). assert (BV : large (map Fin v)) by (apply large_map; auto).
  assert (BW : large (map Fin w)) by (apply large_map; auto).
  assert (I0 : log3_x max_eb r1 r2 r3 (map Fin u) (map Fin v) (map Fin w) 0
     (map Fin u, map Fin v, map Fin w, (map (log_value XA) (map Fin u), map (log_value XA) (map Fin v), map (log_value XA) (map Fin w)))).
  { split; [apply comp_x_init; auto|]. split; [apply comp_x_init; auto|]. split; [apply comp_x_init; auto|]. intros. apply tet_rel_refl. }
  pose proof (log3_inv_final XA (fun U V W => required_eb3_log XA (Fin max_eb) U V W r1 r2 r3) 24 r1 r2 r3 H1 H2 H3 _ (log3_x_step max_eb HM r1 r2 r3 H1 H2 H3 _ _ _ BU BV BW) _ _ _ _ _ I0 escape_exact HE) as HI.
  destruct HI as ((KU & KV & KW & HC) & JU & JV & JW & Le & _ & _). change (T XA) with XR in *.
  assert (LM : forall l : list R, Z.of_nat (length l) = (r1 * r2 * r3)%Z -> Z.of_nat (length (map Fin l)) = (r1 * r2 * r3)%Z)
    by (intros; rewrite map_length; auto).
  assert (HA : forall x, In x (map Fin u) \/ In x (map Fin v) \/ In x (map Fin w) -> log_agree XA x).
  { intros x Hx. apply log_agree_exact. destruct Hx as [Hx|[Hx|Hx]]; apply in_map_iff in Hx; destruct Hx as (y & <- & _); eauto. }
  pose proof (log3_field_sync XA (fun U V W => required_eb3_log XA (Fin max_eb) U V W r1 r2 r3) 24 r1 r2 r3 H1 H2 H3 _ (log3_x_step max_eb HM r1 r2 r3 H1 H2 H3 _ _ _ BU BV BW) _ _ _ _ _ _ _ _ _ _
     (LM u Lu) (LM v Lv) (LM w Lw) I0 escape_exact HA HE) as ED. cbv zeta in ED. change (T XA) with XR in *.
  set (fl := map (vflag 24) (c_eb c)) in *.
  assert (Lf : length fl = Z.to_nat (r1 * r2 * r3)) by (unfold fl; rewrite map_length; exact Le).
  assert (GU : forall n x, aget (map Fin u) n = Some (Fin x) -> exists y, aget (log_finals XA fl (map Fin u) LU) n = Some (Fin y) /\
     (x = 0 -> y = 0) /\ (x <> 0 -> aget U' n = Some (Fin y))).
  { intros n x. apply (finals_get max_eb HM _ _ _ _ _ n x BU KU JU). rewrite map_length. lia. }
  assert (GV : forall n x, aget (map Fin v) n = Some (Fin x) -> exists y, aget (log_finals XA fl (map Fin v) LV) n = Some (Fin y) /\
     (x = 0 -> y = 0) /\ (x <> 0 -> aget V' n = Some (Fin y))).
  { intros n x. apply (finals_get max_eb HM _ _ _ _ _ n x BV KV JV). rewrite map_length. lia. }
  assert (GW : forall n x, aget (map Fin w) n = Some (Fin x) -> exists y, aget (log_finals XA fl (map Fin w) LW) n = Some (Fin y) /\
     (x = 0 -> y = 0) /\ (x <> 0 -> aget W' n = Some (Fin y))).
  { intros n x. apply (finals_get max_eb HM _ _ _ _ _ n x BW KW JW). rewrite map_length. lia. }
  assert (LFn : forall l M, Z.of_nat (length l) = (r1 * r2 * r3)%Z -> length M = length (map (log_value XA) (map Fin l)) ->
     length (log_finals XA fl (map Fin l) M) = length l).
  { intros l M E EM. pose proof (log_finals_length XA fl (map Fin l) M) as Q. change (T XA) with XR in *. rewrite !map_length in EM.
    rewrite Q by (rewrite ?map_length; lia). lia. }
  pose proof (LFn u LU Lu (proj1 (proj1 (proj2 KU)))) as NU. pose proof (LFn v LV Lv (proj1 (proj1 (proj2 KV)))) as NV.
  pose proof (LFn w LW Lw (proj1 (proj1 (proj2 KW)))) as NW.
  revert ED GU GV GW NU NV NW. generalize (log_finals XA fl (map Fin u) LU), (log_finals XA fl (map Fin v) LV), (log_finals XA fl (map Fin w) LW).
  change (T XA) with XR in *. intros DU DV DW ED GU GV GW NU NV NW.
  assert (AF : forall l D, length D = length l -> (forall n x, aget (map Fin l) n = Some (Fin x) -> exists y, aget D n = Some (Fin y)) -> allfin D).
  { intros l D EL G n x Ex. pose proof (aget_Some _ _ _ Ex) as Hn. destruct (aget_ok (map Fin l) n) as [y Ey]; [rewrite map_length; lia|].
    assert (exists a, y = Fin a) as [a ->].
    { unfold aget in Ey. destruct (n <? 0)%Z; [discriminate|]. apply nth_error_In in Ey. apply in_map_iff in Ey. destruct Ey as (a & <- & _). eauto. }
    destruct (G n a Ey) as [b Eb]. rewrite Ex in Eb. injection Eb as ->. eauto. }
  assert (FU : allfin DU) by (apply (AF u); auto; intros n x E; destruct (GU n x E) as (y & G & _); eauto).
  assert (FV : allfin DV) by (apply (AF v); auto; intros n x E; destruct (GV n x E) as (y & G & _); eauto).
  assert (FW : allfin DW) by (apply (AF w); auto; intros n x E; destruct (GW n x E) as (y & G & _); eauto).
  exists (map toR DU), (map toR DV), (map toR DW).
  rewrite !map_map in ED. split; [rewrite <- (allfin_inv DU FU), <- (allfin_inv DV FV), <- (allfin_inv DW FW); exact ED|].
  intros t Ht Hpure.
  assert (GM : forall a b d x, In x t -> vec3R r2 r3 (map Fin a) (map Fin b) (map Fin d) x = vecR3 r2 r3 a b d x).
  { intros a b d x Hx. apply (vec3R_map r1). exact (tet_points _ _ _ _ _ Ht Hx). }
  assert (FD : forall x, In x t -> vecR3 r2 r3 (map toR DU) (map toR DV) (map toR DW) x = vec3R r2 r3 DU DV DW x).
  { intros x Hx. rewrite <- GM by auto. rewrite <- (allfin_inv DU FU), <- (allfin_inv DV FV), <- (allfin_inv DW FW). reflexivity. }
  assert (VAL : forall (l : list R) (D X : list XR) n, Z.of_nat (length l) = (r1 * r2 * r3)%Z -> (0 <= n < r1 * r2 * r3)%Z ->
     (forall n x, aget (map Fin l) n = Some (Fin x) -> exists y, aget D n = Some (Fin y) /\ (x = 0 -> y = 0) /\ (x <> 0 -> aget X n = Some (Fin y))) ->
     (atR (map Fin l) n = 0 -> atR D n = 0) /\ (atR (map Fin l) n <> 0 -> atR D n = atR X n)).
  { intros l D X n EL Hn G. destruct (aget_ok (map Fin l) n) as [y Ey]; [rewrite map_length; lia|].
    assert (exists a, y = Fin a) as [a ->].
    { unfold aget in Ey. destruct (n <? 0)%Z; [discriminate|]. apply nth_error_In in Ey. apply in_map_iff in Ey. destruct Ey as (a & <- & _). eauto. }
    destruct (G n a Ey) as (b & Eb & Z & N). unfold atR. rewrite Ey, Eb. cbn [toR]. split; auto. intros Q. rewrite (N Q). reflexivity. }
  assert (PT : forall x, In x t -> let n := lin3 r2 r3 x in
    (atR (map Fin u) n = 0 -> atR DU n = 0) /\ (atR (map Fin u) n <> 0 -> atR DU n = atR U' n) /\
    (atR (map Fin v) n = 0 -> atR DV n = 0) /\ (atR (map Fin v) n <> 0 -> atR DV n = atR V' n) /\
    (atR (map Fin w) n = 0 -> atR DW n = 0) /\ (atR (map Fin w) n <> 0 -> atR DW n = atR W' n)).
  { intros x Hx n. assert (Hn : (0 <= n < r1 * r2 * r3)%Z) by (apply lin3_range; exact (tet_points _ _ _ _ _ Ht Hx)).
    destruct (VAL u DU U' n Lu Hn GU). destruct (VAL v DV V' n Lv Hn GV). destruct (VAL w DW W' n Lw Hn GW). tauto. }
  assert (DEC : (exists x, In x t /\ vecR3 r2 r3 u v w x = null3) \/ (forall x, In x t -> full (vecR3 r2 r3 u v w x))).
  { clear - Hpure. induction t as [|a t IH]; [right; intros x []|].
    destruct (Hpure a ltac:(left; auto)) as [E|E]; [left; exists a; split; [left|]; auto|].
    destruct IH as [(x & Hx & Ex)|IH]; [intros; apply Hpure; right; auto|left; exists x; split; [right|]; auto|right].
    intros x [<-|Hx]; auto. }
  destruct DEC as [(x & Hx & Ex)|Hf].
  - split; intros _; [|exact (null_has_cp t _ x Hx Ex)]. apply (null_has_cp t _ x Hx). rewrite FD by auto.
    pose proof Ex as Ex'. rewrite <- GM in Ex' by auto. unfold vec3R, null3 in Ex'. injection Ex' as E1 E2 E3.
    destruct (PT x Hx) as (P1 & _ & P2 & _ & P3 & _). unfold vec3R, null3. rewrite P1, P2, P3 by auto. reflexivity.
  - assert (HC' : tet_rel False (map (vec3R r2 r3 (map Fin u) (map Fin v) (map Fin w)) t) (map (vec3R r2 r3 U' V' W') t)).
    { apply HC; auto. intros x Hx. rewrite GM by auto. auto. }
    replace (map (vecR3 r2 r3 (map toR DU) (map toR DV) (map toR DW)) t) with (map (vec3R r2 r3 U' V' W') t).
    + replace (map (vecR3 r2 r3 u v w) t) with (map (vec3R r2 r3 (map Fin u) (map Fin v) (map Fin w)) t); [exact (proj1 HC')|].
      apply map_ext_in. intros x Hx. apply GM. exact Hx.
    + apply map_ext_in. intros x Hx. rewrite FD by auto. pose proof (Hf x Hx) as (F1 & F2 & F3).
      rewrite <- GM in F1, F2, F3 by auto. unfold vec3R, cx, cy, cz in F1, F2, F3. cbn [fst snd] in F1, F2, F3.
      destruct (PT x Hx) as (_ & P1 & _ & P2 & _ & P3). unfold vec3R. rewrite P1, P2, P3 by auto. reflexivity.
Qed.
