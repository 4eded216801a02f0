(** Critical cells under the 2D log-domain codec, in exact arithmetic. *)
From Coq Require Import List ZArith Lia Bool Arith Reals Lra.
From Coq Require Import ZifyBool ZifyNat.
From Flocq Require Import Core.Raux.
From Verif Require Import Base Arith Mesh2D Derive2D Codec2D Sync2D Trace2D Exact Cells2D Geo2D Preserve2D Scan Type2D Log2D LogSync2D.
Import ListNotations.
Local Open Scope R_scope.

(** A change of the logarithm by less than log2(1 + r) is a relative change by less than r. *)
Lemma log_change a d r : 0 < a -> 0 < r -> Rabs (d - ln a / ln 2) < ln (1 + r) / ln 2 -> Rabs (Rpower 2 d - a) < a * r.
Proof.
  intros Ha Hr H. pose proof ln2_pos as L2. unfold Rpower.
  apply Rabs_def2 in H. destruct H as [H1 H2].
  assert (E1 : d * ln 2 < ln (a * (1 + r))).
  { rewrite ln_mult by lra. apply (Rmult_lt_compat_r (ln 2)) in H1; auto.
    replace ((d - ln a / ln 2) * ln 2) with (d * ln 2 - ln a) in H1 by (field; lra).
    replace (ln (1 + r) / ln 2 * ln 2) with (ln (1 + r)) in H1 by (field; lra). lra. }
  assert (E2 : ln (a / (1 + r)) < d * ln 2).
  { unfold Rdiv. rewrite ln_mult, ln_Rinv by (auto; try apply Rinv_0_lt_compat; lra).
    apply (Rmult_lt_compat_r (ln 2)) in H2; auto.
    replace ((d - ln a / ln 2) * ln 2) with (d * ln 2 - ln a) in H2 by (field; lra).
    replace (- (ln (1 + r) / ln 2) * ln 2) with (- ln (1 + r)) in H2 by (field; lra). lra. }
  assert (P : 0 < a / (1 + r)) by (apply Rdiv_lt_0_compat; lra).
  assert (P' : 0 < a * (1 + r)) by (apply Rmult_lt_0_compat; lra).
  apply exp_increasing in E1. rewrite exp_ln in E1 by auto.
  apply exp_increasing in E2. rewrite exp_ln in E2 by auto.
  assert (K : a - a * r < a / (1 + r)).
  { replace (a / (1 + r)) with (a - a * r + a * r * r / (1 + r)) by (field; lra).
    assert (0 < a * r * r / (1 + r)); [|lra]. apply Rdiv_lt_0_compat; [|lra]. apply Rmult_lt_0_compat; auto.
    apply Rmult_lt_0_compat; auto. }
  apply Rabs_def1; lra.
Qed.

Lemma try_exact w r2 i j l eb0 id q x : allfin w ->
  try_component XA 2 (eps_float XA) w r2 i j (Fin l) eb0 = Some (id, Some (Coded XA q x)) ->
  exists d e, x = Fin d /\ eb0 = Fin e /\ Rabs (d - l) < e.
Proof.
  intros HF H. unfold try_component in H. bind_as H [id' ab] Hq. destruct (0 <? id')%Z eqn:Hid; [|discriminate].
  bind_as H p Hp. bind_as H a Ha. apply Some_inj in H. injection H as E1 E2. subst id' a.
  destruct (lorenzo_fin _ _ _ _ _ HF Hp) as [pr ->].
  assert (HE : exists eb, eb0 = Fin eb).
  { destruct eb0 as [eb| | |]; eauto; exfalso; unfold eb_exponential_quantize in Hq;
      cbn [dle dlog2 ddiv dtoint dofZ eps_float XA xle xlt xeq orb] in Hq.
    - Local Transparent xdiv.
      bind_as Hq z Hz. cbn [xdiv] in Hz. rewrite Rlt_bool_false in Hz by lra. cbn [xlog2] in Hz.
      destruct (Rlt_bool 0 2) in Hz; [|destruct (Rlt_bool 2 0) in Hz; discriminate].
      cbn [xdiv] in Hz. destruct (Rlt_bool _ _) in Hz; discriminate.
    - cbn in Hq. apply Some_inj in Hq. inversion Hq. subst id. discriminate.
    - bind_as Hq z Hz. cbn in Hz. discriminate.
      Local Opaque xdiv. }
  destruct HE as [eb ->]. cbn [eps_float XA] in Hq.
  destruct (quantize_exact 2 (/ 8388608) eb id ab ltac:(lia) ltac:(lra) Hq) as [(_ & -> & _)|(_ & _ & a & -> & _ & Pa & Le & _)]; [discriminate|].
  destruct (quantise_fin _ _ _ _ _ Pa Ha) as (d & -> & Hd). exists d, eb. repeat split; auto. lra.
Qed.

(** required_eb never exceeds the bound of the user. *)
Lemma req_rel_le max_eb r1 r2 U V i j r : allfin U -> allfin V ->
  atR U (i * r2 + j) <> 0 -> atR V (i * r2 + j) <> 0 ->
  required_eb_rel XA (Fin max_eb) U V r1 r2 i j = Some (Fin r) -> r <= max_eb.
Proof.
  intros FU FV Nu Nv Er. apply Rnot_lt_le. intros Hlt. unfold required_eb_rel in Er.
  apply (req_loop_below _ _ _ _ _ _ _ max_eb) in Er; [| |discriminate|apply below_fin; auto].
  - destruct Er as [B _]. apply below_fin in B. lra.
  - intros k w Hk HM Hv. apply in_six in Hk. apply (tri_values_vec _ _ _ _ _ _ _ Hk FU FV) in Hv. cbn zeta in Hv. rewrite Hv.
    destruct (inv_C_fin k Hk) as (c0 & c1 & c2 & c3 & -> & Hc). eapply proj1, derive_rel_sound; auto.
Qed.

Definition log2R (x : R) : R := ln x / ln 2.

Lemma log_value_exact x : log_value XA (Fin x) = Fin (if Req_EM_T x 0 then -100 else log2R (Rabs x)).
Proof.
  unfold log_value, log2R, t0. cbn [teq tlt tofZ tlog2f tneg XA].
  destruct (Req_EM_T x 0) as [->|N].
  - replace (xeq (Fin 0) (Fin 0)) with true; [reflexivity|]. symmetry. apply xeq_fin. auto.
  - replace (xeq (Fin x) (Fin 0)) with false by (symmetry; apply xeq_fin_false; auto).
    destruct (xlt (Fin 0) (Fin x)) eqn:E.
    + apply xlt_fin in E. cbn [xlog2]. rewrite Rlt_bool_true, Rabs_pos_eq by lra. auto.
    + apply xlt_fin_false in E. cbn [xneg xlog2]. rewrite Rlt_bool_true, Rabs_left1 by lra. auto.
Qed.

Lemma unlog_exact x d : x <> 0 -> exists y, unlog XA (Fin x) (Fin d) = Fin y /\ Rabs (y - x) = Rabs (Rpower 2 d - Rabs x).
Proof.
  intros N. unfold unlog, t0. cbn [tlt tofZ texp2 tneg XA xexp2 xneg]. destruct (xlt (Fin 0) (Fin x)) eqn:E.
  - apply xlt_fin in E. eexists. split; [reflexivity|]. rewrite (Rabs_pos_eq x) by lra. auto.
  - apply xlt_fin_false in E. eexists. split; [reflexivity|]. rewrite (Rabs_left1 x) by lra.
    replace (- Rpower 2 d - x) with (- (Rpower 2 d - - x)) by ring. apply Rabs_Ropp.
Qed.

Lemma log_agree_exact x : (exists r, x = Fin r) -> log_agree XA x.
Proof.
  intros [r ->]. unfold log_agree. rewrite log_value_exact. unfold log_of_stored, t0. cbn [teq tofZ tlog2f tabs XA xabs].
  destruct (Req_EM_T r 0) as [->|N].
  - replace (xeq (Fin 0) (Fin 0)) with true; [reflexivity|]. symmetry. apply xeq_fin. auto.
  - replace (xeq (Fin r) (Fin 0)) with false by (symmetry; apply xeq_fin_false; auto). cbn [xlog2].
    rewrite Rlt_bool_true by (apply Rabs_pos_lt; auto). reflexivity.
Qed.

(** Invariant: finite arrays, logarithms moved by at most [l], same critical cells. *)
Definition log_exact (l : R) (r1 r2 : Z) (U V : list XR) (k : nat) (s : log_state XA) : Prop :=
  let '(U', V', LU, LV) := s in
  untouched k U' U /\ untouched k V' V /\
  untouched k LU (map (log_value XA) U) /\ untouched k LV (map (log_value XA) V) /\
  allfin U' /\ allfin V' /\ allfin LU /\ allfin LV /\
  (forall m x, aget U m = Some (Fin x) -> x <> 0 -> Rabs (atR LU m - log2R (Rabs x)) <= l) /\
  (forall m x, aget V m = Some (Fin x) -> x <> 0 -> Rabs (atR LV m - log2R (Rabs x)) <= l) /\
  forall a b d, cell r1 r2 a b d -> type_rel (vec r2 U V) (vec r2 U' V') a b d.

Lemma log_exact_step max_eb r1 r2 U V m s s' c i j :
  0 <= max_eb -> (0 <= i < r1)%Z -> (0 <= j < r2)%Z -> (i * r2 + j = Z.of_nat m)%Z ->
  log_exact (log2R (1 + max_eb)) r1 r2 U V m s ->
  log_point XA (Fin max_eb) r1 r2 s (i, j) = Some (s', c) -> log_exact (log2R (1 + max_eb)) r1 r2 U V (S m) s'.
Proof.
  intros HM Hi Hj Hp HI H. destruct s as [[[U1 V1] LU] LV]. destruct s' as [[[U2 V2] LU2] LV2].
  apply log_point_inv in H. destruct HI as (TU & TV & TLU & TLV & FU & FV & FLU & FLV & BU & BV & HC).
  change (T XA) with XR in *.
  destruct H as [u v Eu Ev|u v lu lv eb id q0 q1 x0 x1 U2 V2 LU2 LV2 Eu Ev El Em Er Ep Zu Zv C0 C1 X1 X2 X3 X4].
  - repeat (split; [first [apply untouched_keep; assumption|assumption]|]). assumption.
  - change (T XA) with XR in *.
    assert (AU : aget U (Z.of_nat m) = Some u) by (rewrite <- (proj2 TU) by lia; rewrite <- Hp; auto).
    assert (AV : aget V (Z.of_nat m) = Some v) by (rewrite <- (proj2 TV) by lia; rewrite <- Hp; auto).
    pose proof (atR_fin _ _ _ FU Eu) as Xu. pose proof (atR_fin _ _ _ FV Ev) as Xv.
    set (ur := atR U1 (i * r2 + j)) in *. set (vr := atR V1 (i * r2 + j)) in *. subst u v.
    unfold t0 in Zu, Zv. cbn [teq tofZ XA] in Zu, Zv. apply xeq_fin_false in Zu. apply xeq_fin_false in Zv.
    assert (Xlu : lu = Fin (log2R (Rabs ur))).
    { rewrite Hp in El. rewrite (proj2 TLU) in El by lia. rewrite aget_map, AU in El. cbn [option_map] in El.
      apply Some_inj in El. rewrite (log_value_exact ur) in El. rewrite El. destruct (Req_EM_T ur 0); [contradiction|auto]. }
    assert (Xlv : lv = Fin (log2R (Rabs vr))).
    { rewrite Hp in Em. rewrite (proj2 TLV) in Em by lia. rewrite aget_map, AV in Em. cbn [option_map] in Em.
      apply Some_inj in Em. rewrite (log_value_exact vr) in Em. rewrite Em. destruct (Req_EM_T vr 0); [contradiction|auto]. }
    subst lu lv.
    destruct (try_exact _ _ _ _ _ _ _ _ _ FLU C0) as (d0 & e & -> & Ee & B0).
    destruct (try_exact _ _ _ _ _ _ _ _ _ FLV C1) as (d1 & e' & -> & Ee' & B1).
    assert (HR : exists r, eb = Fin r).
    { unfold log_eb in Ee. cbn [dlog2 dadd dofZ XA] in Ee. destruct eb; eauto; discriminate. }
    destruct HR as [r ->]. cbn [dlt dofZ XA] in Ep. apply xlt_fin in Ep.
    unfold log_eb in Ee, Ee'. cbn [dlog2 dadd dofZ XA xadd xlog2] in Ee, Ee'.
    rewrite Rlt_bool_true in Ee, Ee' by lra. injection Ee as Ee. injection Ee' as Ee'. subst e e'. fold (log2R (1 + r)) in B0, B1.
    pose proof (req_rel_le _ _ _ _ _ _ _ _ FU FV Zu Zv Er) as Hrm.
    assert (ML : log2R (1 + r) <= log2R (1 + max_eb)).
    { unfold log2R, Rdiv. apply Rmult_le_compat_r; [left; apply Rinv_0_lt_compat, ln2_pos|].
      destruct (Rle_lt_or_eq_dec _ _ Hrm) as [L| ->]; [left; apply ln_increasing; lra|lra]. }
    assert (ML0 : 0 <= log2R (1 + max_eb)).
    { pose proof (Rabs_pos (d0 - log2R (Rabs ur))). lra. }
    destruct (unlog_exact ur d0 Zu) as (y0 & Y0 & D0). destruct (unlog_exact vr d1 Zv) as (y1 & Y1 & D1).
    rewrite Y0 in X3. rewrite Y1 in X4.
    assert (P0 : Rabs (y0 - ur) < Rabs ur * r) by (rewrite D0; apply log_change; auto using Rabs_pos_lt).
    assert (P1 : Rabs (y1 - vr) < Rabs vr * r) by (rewrite D1; apply log_change; auto using Rabs_pos_lt).
    pose proof (type_change max_eb r1 r2 U1 V1 U2 V2 i j r y0 y1 Hi Hj FU FV Er Zu Zv P0 P1 X3 X4) as HC'.
    rewrite Hp in X1, X2, X3, X4.
    pose proof (aset_get _ _ _ _ X1) as G1. pose proof (aset_get _ _ _ _ X2) as G2.
    repeat (split; [eapply untouched_set; eassumption|]).
    split; [exact (allfin_aset _ _ _ _ FU X3)|]. split; [exact (allfin_aset _ _ _ _ FV X4)|].
    split; [exact (allfin_aset _ _ _ _ FLU X1)|]. split; [exact (allfin_aset _ _ _ _ FLV X2)|].
    split; [|split].
    + intros k x Hk Nx. unfold atR. rewrite G1. destruct (Z.eqb_spec k (Z.of_nat m)) as [->|Hne].
      * cbn [toR]. rewrite AU in Hk. injection Hk as <-. lra.
      * exact (BU k x Hk Nx).
    + intros k x Hk Nx. unfold atR. rewrite G2. destruct (Z.eqb_spec k (Z.of_nat m)) as [->|Hne].
      * cbn [toR]. rewrite AV in Hk. injection Hk as <-. lra.
      * exact (BV k x Hk Nx).
    + intros a b d Hc. eapply type_rel_trans; [exact Hc|apply HC|apply HC']; auto.
Qed.

Theorem log_exact_final max_eb r1 r2 U V s c : 0 <= max_eb -> (0 <= r1)%Z -> (0 < r2)%Z ->
  allfin U -> allfin V -> enc_log XA (Fin max_eb) r1 r2 U V = Some (s, c) ->
  log_exact (log2R (1 + max_eb)) r1 r2 U V (Z.to_nat (r1 * r2)) s.
Proof.
  intros HM H1 H2 FU FV H. unfold enc_log in H. change (T XA) with XR in *.
  pose proof (fun a b => scan_inv (log_point XA (Fin max_eb) r1 r2) (log_exact (log2R (1 + max_eb)) r1 r2 U V)
                (scan2 r1 r2) 0%nat _ _ _ a b H) as G.
  rewrite scan2_length in G by auto. apply G.
  - intros m [i j] s0 s1 c1 Hm HI HS. destruct (scan2_nth _ _ _ _ H1 H2 Hm) as (Hi & Hj & Hp). cbn [fst snd] in *.
    exact (log_exact_step _ _ _ _ _ _ _ _ _ _ _ HM Hi Hj Hp HI HS).
  - assert (L0 : 0 <= log2R (1 + max_eb)).
    { unfold log2R, Rdiv. apply Rmult_le_pos; [|left; apply Rinv_0_lt_compat, ln2_pos]. rewrite <- ln_1.
      destruct (Rle_lt_or_eq_dec _ _ HM) as [L|<-]; [left; apply ln_increasing; lra|rewrite Rplus_0_r; lra]. }
    assert (LF : forall W, allfin W -> allfin (map (log_value XA) W)).
    { intros W FW k x E. rewrite aget_map in E. change (T XA) with XR in E. destruct (aget W k) as [y|] eqn:Ey; [|discriminate].
      destruct (FW _ _ Ey) as [z ->]. cbn [option_map] in E. rewrite log_value_exact in E. apply Some_inj in E. subst x. eauto. }
    assert (LB : forall W m x, aget W m = Some (Fin x) -> x <> 0 -> Rabs (atR (map (log_value XA) W) m - log2R (Rabs x)) <= log2R (1 + max_eb)).
    { intros W m x E N. unfold atR. rewrite aget_map. change (T XA) with XR. rewrite E. cbn [option_map]. rewrite log_value_exact.
      destruct (Req_EM_T x 0); [contradiction|]. cbn [toR]. rewrite Rminus_diag_eq, Rabs_R0 by auto. auto. }
    cbn [log_exact]. repeat (split; [first [apply untouched_refl|apply LF; assumption|assumption|apply LB]|]).
    intros. eapply type_rel_refl; eauto.
Qed.

(** ** The decompressed field *)
Lemma from_log_unlog A x l : teq A x (t0 A) = false -> tlt A l (tofZ A (-99)) = false -> from_log A l (log_sign A x) = unlog A x l.
Proof. intros H1 H2. unfold from_log, log_sign, unlog. rewrite H1, H2. destruct (tlt A (t0 A) x); reflexivity. Qed.

(** If no reconstructed logarithm is below -99 the decompressor returns the working copies. *)
Lemma inv_finals_working A r1 r2 U V U' V' LU LV c :
  (0 <= r1)%Z -> (0 < r2)%Z -> Z.of_nat (length U) = (r1 * r2)%Z -> Z.of_nat (length V) = (r1 * r2)%Z ->
  log_inv A U V (Z.to_nat (r1 * r2)) (U', V', LU, LV) c ->
  (forall m u l, aget U m = Some u -> teq A u (t0 A) = false -> aget LU m = Some l -> tlt A l (tofZ A (-99)) = false) ->
  (forall m v l, aget V m = Some v -> teq A v (t0 A) = false -> aget LV m = Some l -> tlt A l (tofZ A (-99)) = false) ->
  log_finals A (c_eb c) U LU = U' /\ log_finals A (c_eb c) V LV = V'.
Proof.
  intros H1 H2 LenU LenV (TU & TV & TLU & TLV & Le & Lq & Es & HF) HU HV.
  set (n := Z.to_nat (r1 * r2)) in *.
  assert (L1 : length U = n) by lia. assert (L2 : length V = n) by lia.
  assert (L3 : length U' = n) by (rewrite (proj1 TU); auto). assert (L4 : length V' = n) by (rewrite (proj1 TV); auto).
  assert (L5 : length LU = n) by (rewrite (proj1 TLU), map_length; auto). assert (L6 : length LV = n) by (rewrite (proj1 TLV), map_length; auto).
  assert (G : forall k (l1 l2 : list (T A)), length l1 = n -> length l2 = n ->
            ((0 <= k < Z.of_nat n)%Z -> aget l1 k = aget l2 k) -> aget l1 k = aget l2 k).
  { intros k l1 l2 A1 A2 A3. destruct (Z_lt_le_dec k 0); [unfold aget; replace (k <? 0)%Z with true by lia; auto|].
    destruct (Z_lt_le_dec k (Z.of_nat n)); [apply A3; lia|]. unfold aget. replace (k <? 0)%Z with false by lia.
    rewrite (proj2 (nth_error_None _ _)), (proj2 (nth_error_None _ _)) by lia. auto. }
  split; apply aget_ext; intros k; (apply G; [rewrite log_finals_length; lia|lia|]); intros Hk;
    destruct (aget_ok U k) as [u Eu]; [lia| |lia|]; destruct (aget_ok V k) as [v Ev]; [lia| |lia|];
    destruct (aget_ok (c_eb c) k) as [e Ee]; [lia| |lia|];
    destruct (aget_ok LU k) as [lu El]; [lia| |lia|]; destruct (aget_ok LV k) as [lv Em]; [lia| |lia|];
    pose proof (HF k e u v Ee Eu Ev) as HK; [rewrite (log_finals_get _ _ _ _ _ _ _ _ Ee Eu El)|rewrite (log_finals_get _ _ _ _ _ _ _ _ Ee Ev Em)];
    unfold log_final; destruct (e =? 0)%Z.
  - symmetry. tauto.
  - destruct HK as (Zu & Zv & Ku & Kv). rewrite Ku, El. cbn [option_map]. f_equal. apply from_log_unlog; eauto.
  - symmetry. tauto.
  - destruct HK as (Zu & Zv & Ku & Kv). rewrite Kv, Em. cbn [option_map]. f_equal. apply from_log_unlog; eauto.
Qed.

Lemma log_finals_working A max_eb r1 r2 U V U' V' LU LV c :
  (0 <= r1)%Z -> (0 < r2)%Z -> Z.of_nat (length U) = (r1 * r2)%Z -> Z.of_nat (length V) = (r1 * r2)%Z ->
  enc_log A max_eb r1 r2 U V = Some (U', V', LU, LV, c) ->
  (forall m u l, aget U m = Some u -> teq A u (t0 A) = false -> aget LU m = Some l -> tlt A l (tofZ A (-99)) = false) ->
  (forall m v l, aget V m = Some v -> teq A v (t0 A) = false -> aget LV m = Some l -> tlt A l (tofZ A (-99)) = false) ->
  log_finals A (c_eb c) U LU = U' /\ log_finals A (c_eb c) V LV = V'.
Proof. intros H1 H2 LenU LenV HE. exact (inv_finals_working A r1 r2 U V U' V' LU LV c H1 H2 LenU LenV (log_inv_final _ _ _ _ _ _ _ _ H1 H2 HE)). Qed.

(** Fields of zeros and values of magnitude at least 2^-98, bound at most 1: the decompressed field has the same
    critical cells. *)
Definition not_tiny (x : R) : Prop := x = 0 \/ powerRZ 2 (-98) <= Rabs x.

Theorem log_keeps_types max_eb r1 r2 u v s c :
  0 <= max_eb <= 1 -> (0 <= r1)%Z -> (0 < r2)%Z -> Z.of_nat (length u) = (r1 * r2)%Z -> Z.of_nat (length v) = (r1 * r2)%Z ->
  (forall x, In x u \/ In x v -> not_tiny x) ->
  enc_log XA (Fin max_eb) r1 r2 (map Fin u) (map Fin v) = Some (s, c) ->
  exists u' v', decode_log XA 2 intv_radius r1 r2 (map (fun x => log_sign XA (Fin x)) u) (map (fun x => log_sign XA (Fin x)) v) c
                  = Some (map Fin u', map Fin v') /\
  forall a b d, cell r1 r2 a b d -> type_rel (vecR r2 u v) (vecR r2 u' v') a b d.
Proof.
  intros HM H1 H2 Lu Lv HT HE. destruct s as [[[U' V'] LU] LV].
  pose proof (log_exact_final max_eb r1 r2 _ _ _ _ ltac:(lra) H1 H2 (allfin_map u) (allfin_map v) HE) as (_ & _ & _ & _ & FU & FV & FLU & FLV & BU & BV & HC).
  assert (LU1 : Z.of_nat (length (map Fin u)) = (r1 * r2)%Z) by (rewrite map_length; auto).
  assert (LV1 : Z.of_nat (length (map Fin v)) = (r1 * r2)%Z) by (rewrite map_length; auto).
  assert (HA : forall x, In x (map Fin u) \/ In x (map Fin v) -> log_agree XA x).
  { intros x Hx. apply log_agree_exact. destruct Hx as [Hx|Hx]; apply in_map_iff in Hx; destruct Hx as (y & <- & _); eauto. }
  pose proof (log_field_sync XA (Fin max_eb) r1 r2 (map Fin u) (map Fin v) U' V' LU LV c H1 H2 LU1 LV1 HA HE) as ED.
  assert (L2 : log2R (1 + max_eb) <= 1).
  { unfold log2R. apply (Rmult_le_reg_r (ln 2)); [apply ln2_pos|]. unfold Rdiv. rewrite Rmult_assoc, Rinv_l by (pose proof ln2_pos; lra).
    rewrite Rmult_1_r, Rmult_1_l. destruct (Rle_lt_or_eq_dec (1 + max_eb) 2 ltac:(lra)) as [L| ->]; [left; apply ln_increasing; lra|lra]. }
  assert (LB : forall x, x <> 0 -> not_tiny x -> -98 <= log2R (Rabs x)).
  { intros x N [Z|Hx]; [contradiction|]. unfold log2R. apply (Rmult_le_reg_r (ln 2)); [apply ln2_pos|].
    unfold Rdiv. rewrite Rmult_assoc, Rinv_l by (pose proof ln2_pos; lra). rewrite Rmult_1_r.
    rewrite powerRZ_Rpower in Hx by lra. unfold Rpower in Hx.
    replace (-98 * ln 2) with (ln (exp (IZR (-98) * ln 2))) by (rewrite ln_exp; auto).
    destruct (Rle_lt_or_eq_dec _ _ Hx) as [L| ->]; [left; apply ln_increasing; [apply exp_pos|auto]|lra]. }
  assert (HL : forall (w : list R) LW,
     (forall x, In x w -> not_tiny x) -> allfin LW ->
     (forall m x, aget (map Fin w) m = Some (Fin x) -> x <> 0 -> Rabs (atR LW m - log2R (Rabs x)) <= log2R (1 + max_eb)) ->
     forall m y l, aget (map Fin w) m = Some y -> teq XA y (t0 XA) = false -> aget LW m = Some l -> tlt XA l (tofZ XA (-99)) = false).
  { intros w LW Hw FW HB m y l Ey Hy El. destruct (allfin_map w _ _ Ey) as [z ->].
    unfold t0 in Hy. cbn [teq tofZ XA] in Hy. apply xeq_fin_false in Hy.
    assert (Iz : In z w).
    { rewrite aget_map in Ey. unfold aget in Ey. destruct (m <? 0)%Z; [discriminate|].
      destruct (nth_error w (Z.to_nat m)) as [z'|] eqn:En; [|discriminate]. cbn in Ey. injection Ey as <-. eapply nth_error_In; eauto. }
    pose proof (HB m z Ey Hy) as B. rewrite (atR_fin _ _ _ FW El). cbn [tlt tofZ XA]. apply xlt_fin_false.
    pose proof (LB z Hy (Hw z Iz)). apply Rabs_le_inv in B. lra. }
  destruct (log_finals_working XA (Fin max_eb) r1 r2 (map Fin u) (map Fin v) U' V' LU LV c H1 H2 LU1 LV1 HE
              (HL u LU (fun x Hx => HT x (or_introl Hx)) FLU BU) (HL v LV (fun x Hx => HT x (or_intror Hx)) FLV BV)) as [EU EV].
  rewrite EU, EV in ED. rewrite !map_map in ED.
  exists (map toR U'), (map toR V'). rewrite <- (allfin_inv U' FU), <- (allfin_inv V' FV). split; [exact ED|].
  intros a b d Hc. specialize (HC a b d Hc). rewrite (allfin_inv U' FU), (allfin_inv V' FV) in HC.
  eapply type_rel_vecR; eauto.
Qed.

Theorem log_preserves max_eb r1 r2 u v s c :
  0 <= max_eb <= 1 -> (0 <= r1)%Z -> (0 < r2)%Z -> Z.of_nat (length u) = (r1 * r2)%Z -> Z.of_nat (length v) = (r1 * r2)%Z ->
  (forall x, In x u \/ In x v -> not_tiny x) ->
  enc_log XA (Fin max_eb) r1 r2 (map Fin u) (map Fin v) = Some (s, c) ->
  exists u' v', decode_log XA 2 intv_radius r1 r2 (map (fun x => log_sign XA (Fin x)) u) (map (fun x => log_sign XA (Fin x)) v) c
                  = Some (map Fin u', map Fin v') /\
  forall a b d, cell r1 r2 a b d ->
    (has_cp (vecR r2 u v a) (vecR r2 u v b) (vecR r2 u v d) <->
     has_cp (vecR r2 u' v' a) (vecR r2 u' v' b) (vecR r2 u' v' d)).
Proof.
  intros HM H1 H2 Lu Lv HT HE. destruct (log_keeps_types _ _ _ _ _ _ _ HM H1 H2 Lu Lv HT HE) as (u' & v' & E & H).
  exists u', v'. split; [exact E|]. intros a b d Hc. apply (H a b d Hc).
Qed.
