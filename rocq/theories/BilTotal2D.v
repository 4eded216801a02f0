(** The bilinear codec in exact arithmetic: its encoder does not fail, its decompressor returns the working copy, the zeros of the cells
    stay.  Nothing of /repo is modelled here. *)
From Coq Require Import Reals Lra Lia ZArith List Bool.
From Coq Require Import ZifyBool ZifyNat.
From Flocq Require Import Core.Raux.
From Verif Require Import Base Arith Mesh2D Derive2D Codec2D Sync2D Trace2D Scan Exact Cells2D Geo2D Preserve2D Total2D TotalAny Log2D LogSync2D LogCells2D LogTotal2D
  Sz3Api Bil2D BilSync2D BilErr2D BilExact.
Import ListNotations.
Local Open Scope R_scope.

(** ** No NaN in the derived bound *)
Lemma xminf_notnan x y : notnan y -> notnan (minf XA x y).
Proof. exact (notnan_minf x y). Qed.
Lemma xdmax_notnan x y : notnan y -> notnan (dmax XA x y).
Proof.
  intros Hy. unfold dmax. cbn [dlt XA]. destruct (xlt y x) eqn:E; auto. intros ->. destruct y; discriminate.
Qed.
Lemma fin_notnan a : notnan (Fin a). Proof. discriminate. Qed.

Lemma xroot_min_notnan x eb : notnan eb -> notnan (root_min XA x eb).
Proof.
  intros H. unfold root_min. cbn [dlt dofZ XA]. destruct (xlt _ x) eqn:E; auto. apply xminf_notnan. intros ->. discriminate.
Qed.
Lemma xquadratic_notnan a b c : notnan (keep_sign_quadratic XA a b c).
Proof. unfold keep_sign_quadratic. destruct (dlt XA _ _); apply xroot_min_notnan, fin_notnan. Qed.
Lemma xeb2_notnan ok e a b c : notnan e -> notnan (edge_eb2 XA ok e a b c).
Proof. intros H. unfold edge_eb2. destruct ok; auto. apply xquadratic_notnan. Qed.

Lemma xkeep_notnan a b c : notnan (keep_sign XA (Fin a) (Fin b) (Fin c)).
Proof.
  unfold keep_sign. cbn [deq dabs dadd dofZ ddiv XA xabs xadd]. destruct (xeq _ _) eqn:E; [apply fin_notnan|]. apply xeq_fin_false in E.
  rewrite xdiv_fin by auto. apply fin_notnan.
Qed.
Lemma xcylinder_notnan a b c d e f : notnan (cylinder XA a b c (Fin d) (Fin e) (Fin f)).
Proof.
  unfold cylinder. cbn [dlt dofZ XA]. destruct (xlt _ _) eqn:E.
  - apply xlt_fin in E. apply xminf_notnan. cbn [ddiv dadd dabs XA xabs xadd].
    destruct (Req_dec (Rabs d + Rabs e) 0) as [Z|N]; [rewrite xdiv_zero, xinf_pos by auto; discriminate|rewrite xdiv_fin by auto; apply fin_notnan].
  - apply xminf_notnan. unfold corners_lt0. do 4 apply xroot_min_notnan. apply fin_notnan.
Qed.
Lemma xgeneral_notnan a b c d e f : notnan (general XA a b c (Fin d) (Fin e) (Fin f)).
Proof.
  pose proof (xcylinder_notnan a b c d e f) as HC.
  assert (Z0 : notnan (dofZ XA 0)) by apply fin_notnan.
  unfold general. destruct (dle XA _ _); auto.
  destruct (dlt XA (dofZ XA 0) (Fin f)); repeat match goal with |- notnan (if ?b then _ else _) => destruct b end;
    auto; apply xminf_notnan, xdmax_notnan; repeat apply xeb2_notnan; auto.
Qed.

Lemma xderive_notnan u0 u1 u2 u3 v0 v1 v2 v3 :
  notnan (derive_bil XA (Fin u0) (Fin u1) (Fin u2) (Fin u3) (Fin v0) (Fin v1) (Fin v2) (Fin v3)).
Proof.
  assert (Z0 : notnan (dofZ XA 0)) by apply fin_notnan.
  assert (K1 : notnan (eb_delta XA (Fin u0) (Fin u1) (Fin u2) (Fin u3) (Fin v0) (Fin v1) (Fin v2) (Fin v3))) by apply xcylinder_notnan.
  assert (K2 : notnan (eb_det XA (Fin u0) (Fin u1) (Fin u2) (Fin u3) (Fin v0) (Fin v1) (Fin v2) (Fin v3))) by apply xkeep_notnan.
  assert (K3 : notnan (eb_f0 XA (Fin u0) (Fin u1) (Fin u2) (Fin u3) (Fin v0) (Fin v1) (Fin v2) (Fin v3))) by apply xkeep_notnan.
  assert (K4 : notnan (eb_f1 XA (Fin u0) (Fin u1) (Fin u2) (Fin u3) (Fin v0) (Fin v1) (Fin v2) (Fin v3))) by apply xgeneral_notnan.
  assert (K5 : notnan (eb_tr2 XA (Fin u0) (Fin u1) (Fin u2) (Fin u3) (Fin v0) (Fin v1) (Fin v2) (Fin v3))) by apply xkeep_notnan.
  unfold derive_bil. repeat match goal with |- notnan (if ?b then _ else _) => destruct b end; auto;
    repeat (apply xminf_notnan || apply xdmax_notnan || assumption).
Qed.

Lemma bil_loop_exact U V r1 r2 i j b : allfin U -> allfin V -> forall ks eb r,
  atmostb b eb -> bil_loop XA U V r1 r2 i j ks eb = Some r -> atmostb b r.
Proof.
  intros FU FV. assert (G : forall W n x, allfin W -> option_map (t2d XA) (aget W n) = Some x -> exists r, x = Fin r).
  { intros W n x BW E. change (T XA) with XR in *. destruct (aget W n) as [y|] eqn:Ey; [|discriminate]. cbn [option_map t2d XA] in E. apply Some_inj in E. subst x.
    exact (BW n _ Ey). }
  induction ks as [|k ks IH]; intros eb r Hb H; cbn [bil_loop] in H; [apply Some_inj in H; subst; auto|].
  destruct (sq_in_mesh r1 r2 i j k); [|exact (IH _ _ Hb H)].
  bind_as H u0 E0. bind_as H u1 E1. bind_as H u2 E2. bind_as H u3 E3. bind_as H v0 E4. bind_as H v1 E5. bind_as H v2 E6. bind_as H v3 E7.
  apply G in E0, E1, E2, E3, E4, E5, E6, E7; auto.
  destruct E0 as [a0 ->], E1 as [a1 ->], E2 as [a2 ->], E3 as [a3 ->], E4 as [a4 ->], E5 as [a5 ->], E6 as [a6 ->], E7 as [a7 ->].
  refine (IH _ _ _ H). apply minf_atmostb; auto. apply xderive_notnan.
Qed.
Lemma bil_required_exact m U V r1 r2 i j eb : allfin U -> allfin V ->
  required_eb_bil XA (Fin m) U V r1 r2 i j = Some eb -> dlt XA (dofZ XA 0) eb = true -> exists e, eb = Fin e /\ 0 < e <= m.
Proof.
  intros FU FV Er Hp. unfold required_eb_bil in Er. apply (bil_loop_exact _ _ _ _ _ _ m FU FV) in Er; [|right; exists m; split; auto; lra].
  cbn [dlt dofZ XA] in Hp. destruct Er as [->|(e & -> & He)]; [discriminate|]. apply xlt_fin in Hp. eauto.
Qed.

(** ** Invariant *)
Definition bil_exact (l : R) (U V : list XR) (k : nat) (s : log_state XA) : Prop :=
  let '(U', V', LU, LV) := s in
  untouched k U' U /\ untouched k V' V /\
  untouched k LU (map (log_value XA) U) /\ untouched k LV (map (log_value XA) V) /\
  allfin U' /\ allfin V' /\ allfin LU /\ allfin LV /\
  (forall m x, aget U m = Some (Fin x) -> x <> 0 -> Rabs (atR LU m - log2R (Rabs x)) <= l) /\
  (forall m x, aget V m = Some (Fin x) -> x <> 0 -> Rabs (atR LV m - log2R (Rabs x)) <= l).

Lemma bil_exact_step cs max_eb r1 r2 U V m s s' c i j :
  0 <= max_eb -> (0 <= i < r1)%Z -> (0 <= j < r2)%Z -> (i * r2 + j = Z.of_nat m)%Z ->
  bil_exact (log2R (1 + max_eb)) U V m s ->
  bil_point XA cs (Fin max_eb) r1 r2 s (i, j) = Some (s', c) -> bil_exact (log2R (1 + max_eb)) U V (S m) s'.
Proof.
  intros HM Hi Hj Hp HI H. destruct s as [[[U1 V1] LU] LV]. destruct s' as [[[U2 V2] LU2] LV2].
  apply bil_step in H. destruct HI as (TU & TV & TLU & TLV & FU & FV & FLU & FLV & BU & BV).
  change (T XA) with XR in *.
  destruct H as [u v Eu Ev|u v lu lv eb id q0 q1 x0 x1 U2 V2 LU2 LV2 Eu Ev El Em Er Ep Zu Zv C0 C1 X1 X2 X3 X4].
  - repeat (split; [first [apply untouched_keep; assumption|assumption]|]). assumption.
  - change (T XA) with XR in *.
    assert (AU : aget U (Z.of_nat m) = Some u) by (rewrite <- (proj2 TU) by lia; rewrite <- Hp; auto).
    assert (AV : aget V (Z.of_nat m) = Some v) by (rewrite <- (proj2 TV) by lia; rewrite <- Hp; auto).
    pose proof (atR_fin _ _ _ FU Eu) as Xu. pose proof (atR_fin _ _ _ FV Ev) as Xv.
    set (ur := atR U1 (i * r2 + j)) in *. set (vr := atR V1 (i * r2 + j)) in *. subst u v.
    unfold t0 in Zu, Zv. cbn [teq tofZ XA] in Zu, Zv. apply xeq_fin_false in Zu. apply xeq_fin_false in Zv.
    assert (Xlu : lu = Fin (log2R (Rabs ur))).
    { rewrite Hp in El. rewrite (proj2 TLU) in El by lia. rewrite aget_map, AU in El. cbn [option_map] in El.
      apply Some_inj in El. rewrite (log_value_exact ur) in El. rewrite El. destruct (Req_EM_T ur 0); [contradiction|auto]. }
    assert (Xlv : lv = Fin (log2R (Rabs vr))).
    { rewrite Hp in Em. rewrite (proj2 TLV) in Em by lia. rewrite aget_map, AV in Em. cbn [option_map] in Em.
      apply Some_inj in Em. rewrite (log_value_exact vr) in Em. rewrite Em. destruct (Req_EM_T vr 0); [contradiction|auto]. }
    subst lu lv.
    destruct (try_exact _ _ _ _ _ _ _ _ _ FLU C0) as (d0 & e & -> & Ee & B0).
    destruct (try_exact _ _ _ _ _ _ _ _ _ FLV C1) as (d1 & e' & -> & Ee' & B1).
    destruct (bil_required_exact max_eb U1 V1 r1 r2 i j eb FU FV Er Ep) as (r & -> & Pr & Hrm).
    unfold log_eb in Ee, Ee'. cbn [dlog2 dadd dofZ XA xadd xlog2] in Ee, Ee'.
    rewrite Rlt_bool_true in Ee, Ee' by lra. injection Ee as Ee. injection Ee' as Ee'. subst e e'. fold (log2R (1 + r)) in B0, B1.
    assert (ML : log2R (1 + r) <= log2R (1 + max_eb)).
    { unfold log2R, Rdiv. apply Rmult_le_compat_r; [left; apply Rinv_0_lt_compat, ln2_pos|].
      destruct (Rle_lt_or_eq_dec _ _ Hrm) as [L| ->]; [left; apply ln_increasing; lra|lra]. }
    destruct (unlog_exact ur d0 Zu) as (y0 & Y0 & D0). destruct (unlog_exact vr d1 Zv) as (y1 & Y1 & D1).
    rewrite Y0 in X3. rewrite Y1 in X4.
    rewrite Hp in X1, X2, X3, X4.
    pose proof (aset_get _ _ _ _ X1) as G1. pose proof (aset_get _ _ _ _ X2) as G2.
    repeat (split; [eapply untouched_set; eassumption|]).
    split; [exact (allfin_aset _ _ _ _ FU X3)|]. split; [exact (allfin_aset _ _ _ _ FV X4)|].
    split; [exact (allfin_aset _ _ _ _ FLU X1)|]. split; [exact (allfin_aset _ _ _ _ FLV X2)|].
    split.
    + intros k x Hk Nx. unfold atR. rewrite G1. destruct (Z.eqb_spec k (Z.of_nat m)) as [->|Hne].
      * cbn [toR]. rewrite AU in Hk. injection Hk as <-. lra.
      * exact (BU k x Hk Nx).
    + intros k x Hk Nx. unfold atR. rewrite G2. destruct (Z.eqb_spec k (Z.of_nat m)) as [->|Hne].
      * cbn [toR]. rewrite AV in Hk. injection Hk as <-. lra.
      * exact (BV k x Hk Nx).
Qed.

Lemma bil_exact_init max_eb U V : 0 <= max_eb -> allfin U -> allfin V ->
  bil_exact (log2R (1 + max_eb)) U V 0 (U, V, map (log_value XA) U, map (log_value XA) V).
Proof.
  intros HM FU FV.
  assert (L0 : 0 <= log2R (1 + max_eb)).
  { unfold log2R, Rdiv. apply Rmult_le_pos; [|left; apply Rinv_0_lt_compat, ln2_pos]. rewrite <- ln_1. apply ln_le; lra. }
  assert (LF : forall W, allfin W -> allfin (map (log_value XA) W)).
  { intros W FW k x E. rewrite aget_map in E. change (T XA) with XR in E. destruct (aget W k) as [y|] eqn:Ey; [|discriminate].
    destruct (FW _ _ Ey) as [z ->]. cbn [option_map] in E. rewrite log_value_exact in E. apply Some_inj in E. subst x. eauto. }
  assert (LB : forall W m x, aget W m = Some (Fin x) -> x <> 0 -> Rabs (atR (map (log_value XA) W) m - log2R (Rabs x)) <= log2R (1 + max_eb)).
  { intros W m x E N. unfold atR. rewrite aget_map. change (T XA) with XR. rewrite E. cbn [option_map]. rewrite log_value_exact.
    destruct (Req_EM_T x 0); [contradiction|]. cbn [toR]. rewrite Rminus_diag_eq, Rabs_R0 by auto. auto. }
  unfold bil_exact. repeat (split; [first [apply untouched_refl|apply LF; assumption|assumption|apply LB]|]). apply LB.
Qed.

Theorem bil_exact_final cs max_eb r1 r2 U V s c : 0 <= max_eb -> (0 <= r1)%Z -> (0 < r2)%Z ->
  allfin U -> allfin V -> enc_bil XA cs (Fin max_eb) r1 r2 U V = Some (s, c) ->
  bil_exact (log2R (1 + max_eb)) U V (Z.to_nat (r1 * r2)) s.
Proof.
  intros HM H1 H2 FU FV H. unfold enc_bil in H. change (T XA) with XR in *.
  pose proof (fun a b => scan_inv (bil_point XA cs (Fin max_eb) r1 r2) (bil_exact (log2R (1 + max_eb)) U V)
                (scan2 r1 r2) 0%nat _ _ _ a b H) as G.
  rewrite scan2_length in G by auto. apply G.
  - intros m [i j] s0 s1 c1 Hm HI HS. destruct (scan2_nth _ _ _ _ H1 H2 Hm) as (Hi & Hj & Hp). cbn [fst snd] in *.
    exact (bil_exact_step _ _ _ _ _ _ _ _ _ _ _ _ HM Hi Hj Hp HI HS).
  - apply bil_exact_init; auto.
Qed.

Theorem bil_total cs max_eb r1 r2 u v : 0 <= max_eb <= 1 -> (0 <= r1)%Z -> (0 < r2)%Z ->
  Z.of_nat (length u) = (r1 * r2)%Z -> Z.of_nat (length v) = (r1 * r2)%Z ->
  exists s c, enc_bil XA cs (Fin max_eb) r1 r2 (map Fin u) (map Fin v) = Some (s, c).
Proof.
  intros Hm H1 H2 LU LV. unfold enc_bil.
  set (U := map Fin u). set (V := map Fin v).
  eapply (scan_total _ (fun k s => log_lens XA (Z.to_nat (r1 * r2)) k s /\ bil_exact (log2R (1 + max_eb)) U V k s) _ 0%nat).
  - intros m [i j] s Hm' [HL HX]. destruct (scan2_nth _ _ _ _ H1 H2 Hm') as (Hi & Hj & Hp). cbn [fst snd] in *.
    pose proof HX as HX'. destruct s as [[[U1 V1] LU1] LV1]. pose proof HL as (L1 & L2 & L3 & L4).
    destruct HX as (TU & TV & TLU & TLV & FU & FV & FLU & FLV & _). change (T XA) with XR in *.
    destruct (bil_point_any XA cs (Fin max_eb) r1 r2 U1 V1 LU1 LV1 i j) as (s' & c & E); try (change (T XA) with XR; lia).
    + intros u0 v0 lu lv eb Eu Ev El Em Er Dp Zu Zv. change (T XA) with XR in *.
      destruct (FLU _ _ El) as [a ->]. destruct (FLV _ _ Em) as [b ->].
      destruct (bil_required_exact max_eb U1 V1 r1 r2 i j eb FU FV Er Dp) as (e & -> & Pe & He).
      assert (HQ : log_eb XA (Fin e) = Fin (log2R (1 + e))).
      { unfold log_eb. cbn [dlog2 dadd dofZ XA xadd xlog2]. rewrite Rlt_bool_true by lra. reflexivity. }
      assert (HQ2 : log2R (1 + e) <= 2).
      { unfold log2R. apply (Rmult_le_reg_r (ln 2)); [apply ln2_pos|]. unfold Rdiv. rewrite Rmult_assoc, Rinv_l by (pose proof ln2_pos; lra).
        rewrite Rmult_1_r. apply Rle_trans with (ln 2); [apply ln_le; lra|pose proof ln2_pos; lra]. }
      rewrite HQ. split; apply try2_total; auto; try lia; change (T XA) with XR; nia.
    + exists s', c. split; auto. split; [exact (bil_lens_step XA cs _ _ _ _ _ _ _ _ _ _ HL E)|].
      exact (bil_exact_step cs max_eb r1 r2 U V m _ s' c i j ltac:(lra) Hi Hj Hp HX' E).
  - split; [cbn [log_lens]; unfold U, V; rewrite !map_length; lia|].
    apply bil_exact_init; [lra|apply allfin_map|apply allfin_map].
Qed.

(** ** The decompressed field *)
Theorem bil_keeps_zeros max_eb r1 r2 U V s c :
  0 <= max_eb <= 1 -> (0 <= r1)%Z -> (0 < r2)%Z -> Z.of_nat (length U) = (r1 * r2)%Z -> Z.of_nat (length V) = (r1 * r2)%Z ->
  (forall x, In x U \/ In x V -> not_tiny x) ->
  enc_bil XA csqrt0 (Fin max_eb) r1 r2 (map Fin U) (map Fin V) = Some (s, c) ->
  exists U' V', decode_log XA 2 intv_radius r1 r2 (map (fun x => log_sign XA (Fin x)) U) (map (fun x => log_sign XA (Fin x)) V) c
                  = Some (map Fin U', map Fin V') /\
  forall a b, (0 <= a < r1 - 1)%Z -> (0 <= b < r2 - 1)%Z -> exists u v u' v',
    cell_quad r2 U a b = Some u /\ cell_quad r2 V a b = Some v /\ cell_quad r2 U' a b = Some u' /\ cell_quad r2 V' a b = Some v' /\
    (regular u v -> solvable u' v' ->
     exists l l', zero_list u v l /\ zero_list u' v' l' /\ map (zero_type u v) l = map (zero_type u' v') l').
Proof.
  intros HM H1 H2 Lu Lv HT HE. destruct s as [[[U' V'] LU] LV].
  pose proof (bil_exact_final csqrt0 max_eb r1 r2 _ _ _ _ ltac:(lra) H1 H2 (allfin_map U) (allfin_map V) HE) as (TU & TV & _ & _ & FU & FV & FLU & FLV & BU & BV).
  assert (LU1 : Z.of_nat (length (map Fin U)) = (r1 * r2)%Z) by (rewrite map_length; auto).
  assert (LV1 : Z.of_nat (length (map Fin V)) = (r1 * r2)%Z) by (rewrite map_length; auto).
  assert (HA : forall x, In x (map Fin U) \/ In x (map Fin V) -> log_agree XA x).
  { intros x Hx. apply log_agree_exact. destruct Hx as [Hx|Hx]; apply in_map_iff in Hx; destruct Hx as (y & <- & _); eauto. }
  pose proof (gen_field_sync XA _ r2 _ (bil_step XA csqrt0 (Fin max_eb) r1 r2) r1 (map Fin U) (map Fin V) U' V' LU LV c H1 H2 LU1 LV1 HA HE) as ED.
  assert (L2 : log2R (1 + max_eb) <= 1).
  { unfold log2R. apply (Rmult_le_reg_r (ln 2)); [apply ln2_pos|]. unfold Rdiv. rewrite Rmult_assoc, Rinv_l by (pose proof ln2_pos; lra).
    rewrite Rmult_1_r, Rmult_1_l. destruct (Rle_lt_or_eq_dec (1 + max_eb) 2 ltac:(lra)) as [L| ->]; [left; apply ln_increasing; lra|lra]. }
  assert (LB : forall x, x <> 0 -> not_tiny x -> -98 <= log2R (Rabs x)).
  { intros x N [Z|Hx]; [contradiction|]. unfold log2R. apply (Rmult_le_reg_r (ln 2)); [apply ln2_pos|].
    unfold Rdiv. rewrite Rmult_assoc, Rinv_l by (pose proof ln2_pos; lra). rewrite Rmult_1_r.
    rewrite powerRZ_Rpower in Hx by lra. unfold Rpower in Hx.
    replace (-98 * ln 2) with (ln (exp (IZR (-98) * ln 2))) by (rewrite ln_exp; auto).
    destruct (Rle_lt_or_eq_dec _ _ Hx) as [L| ->]; [left; apply ln_increasing; [apply exp_pos|auto]|lra]. }
  assert (HL : forall (w : list R) LW,
     (forall x, In x w -> not_tiny x) -> allfin LW ->
     (forall m x, aget (map Fin w) m = Some (Fin x) -> x <> 0 -> Rabs (atR LW m - log2R (Rabs x)) <= log2R (1 + max_eb)) ->
     forall m y l, aget (map Fin w) m = Some y -> teq XA y (t0 XA) = false -> aget LW m = Some l -> tlt XA l (tofZ XA (-99)) = false).
  { intros w LW Hw FW HB m y l Ey Hy El. destruct (allfin_map w _ _ Ey) as [z ->].
    unfold t0 in Hy. cbn [teq tofZ XA] in Hy. apply xeq_fin_false in Hy.
    assert (Iz : In z w).
    { rewrite aget_map in Ey. unfold aget in Ey. destruct (m <? 0)%Z; [discriminate|].
      destruct (nth_error w (Z.to_nat m)) as [z'|] eqn:En; [|discriminate]. cbn in Ey. injection Ey as <-. eapply nth_error_In; eauto. }
    pose proof (HB m z Ey Hy) as B. rewrite (atR_fin _ _ _ FW El). cbn [tlt tofZ XA]. apply xlt_fin_false.
    pose proof (LB z Hy (Hw z Iz)). apply Rabs_le_inv in B. lra. }
  destruct (inv_finals_working XA r1 r2 (map Fin U) (map Fin V) U' V' LU LV c H1 H2 LU1 LV1
              (gen_inv_final XA _ r2 _ (bil_step XA csqrt0 (Fin max_eb) r1 r2) r1 _ _ _ _ H1 H2 HE)
              (HL U LU (fun x Hx => HT x (or_introl Hx)) FLU BU) (HL V LV (fun x Hx => HT x (or_intror Hx)) FLV BV)) as [EU EV].
  rewrite EU, EV in ED. rewrite !map_map in ED.
  exists (map toR U'), (map toR V'). rewrite <- (allfin_inv U' FU), <- (allfin_inv V' FV). split; [exact ED|].
  intros a b Ha Hb.
  assert (LU' : Z.of_nat (length U') = (r1 * r2)%Z) by (rewrite (proj1 TU); auto).
  assert (LV' : Z.of_nat (length V') = (r1 * r2)%Z) by (rewrite (proj1 TV); auto).
  assert (G : forall W : list R, Z.of_nat (length W) = (r1 * r2)%Z -> exists w, cell_quad r2 W a b = Some w).
  { intros W LW. unfold cell_quad. destruct (aget_ok W (a * r2 + b)) as [w0 ->]; [rewrite LW; nia|].
    destruct (aget_ok W (a * r2 + (b + 1))) as [w1 ->]; [rewrite LW; nia|]. destruct (aget_ok W ((a + 1) * r2 + (b + 1))) as [w2 ->]; [rewrite LW; nia|].
    destruct (aget_ok W ((a + 1) * r2 + b)) as [w3 ->]; [rewrite LW; nia|]. cbn [bind]. eauto. }
  destruct (G U Lu) as [u Qu]. destruct (G V Lv) as [v Qv].
  destruct (G (map toR U')) as [u' Qu']; [rewrite map_length; auto|]. destruct (G (map toR V')) as [v' Qv']; [rewrite map_length; auto|].
  exists u, v, u', v'. do 4 (split; [assumption|]). intros R S.
  pose proof (bil_cells XA csqrt0 (Fin max_eb) r1 r2 _ _ _ _ _ _ _ H1 H2 HE a b Ha Hb) as E.
  rewrite (allfin_inv U' FU), (allfin_inv V' FV) in E.
  rewrite (cell_types_exact r2 U V a b u v Qu Qv (proj1 R)), (cell_types_exact r2 _ _ a b u' v' Qu' Qv' S) in E. apply Some_inj in E.
  apply same_found; auto.
Qed.

(** A 2 x 2 field whose cell is regular and has a source in its middle. *)
Definition bqU : list R := [-1; 1; - (3 / 2); 3 / 2].
Definition bqV : list R := [-1; -2; 1; 2].
Lemma ex_bil_exact :
  (exists s c, enc_bil XA csqrt0 (Fin 1) 2 2 (map Fin bqU) (map Fin bqV) = Some (s, c)) /\
  (forall x, In x bqU \/ In x bqV -> not_tiny x) /\
  exists u v, cell_quad 2 bqU 0 0 = Some u /\ cell_quad 2 bqV 0 0 = Some v /\
    regular u v /\ interp u (/ 2) (/ 2) = 0 /\ interp v (/ 2) (/ 2) = 0 /\ zero_type u v (/ 2, / 2) = 2%Z.
Proof.
  split; [apply bil_total; auto; try lia; try lra; reflexivity|]. split.
  - assert (P : (powerRZ 2 (-98) <= 1)%R).
    { rewrite powerRZ_Rpower by lra. rewrite <- (Rpower_O 2) by lra. apply Rle_Rpower; lra. }
    intros x Hx. cbn in Hx. unfold not_tiny. destruct Hx as [Hx|Hx];
    repeat (destruct Hx as [<-|Hx]; [first [left; reflexivity|right; unfold Rabs; destruct (Rcase_abs _); lra]|]); contradiction.
  - exists (-1, 1, 3 / 2, - (3 / 2)), (-1, -2, 2, 1). split; [reflexivity|]. split; [reflexivity|].
    assert (E : pen_d (-1, 1, 3 / 2, - (3 / 2)) (-1, -2, 2, 1) = 3) by (unfold pen_d, cross, twist, side_y; field).
    split; [unfold regular, solvable, pen_t, pen_p; rewrite E; unfold cross, twist, side_x, side_y, at0; lra|].
    split; [cbn; lra|]. split; [cbn; lra|]. unfold zero_type, class, interp_x, interp_y.
    rewrite Rlt_bool_false by lra. rewrite Rlt_bool_false by lra. rewrite Rlt_bool_true by lra. reflexivity.
Qed.
