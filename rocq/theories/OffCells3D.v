(** Critical tetrahedra under the offline 3D codec, in exact arithmetic.  Nothing of /repo is modelled here. *)
From Coq Require Import Reals Lra Lia ZArith List Bool Permutation.
From Coq Require Import ZifyBool ZifyNat.
From Flocq Require Import Core.Raux.
From Verif Require Import Base Huffman Arith Mesh2D Mesh3D Derive2D Derive3D Codec2D Scan Abs3D Sync2D Sync3D Exact Geo2D
  Preserve2D Total2D Cells3D Geo3D Geo3DRel Preserve3D Total3D Log2D LogSync2D LogCells2D LogTotal2D Log3D LogSync3D LogCells3D LogTotal3D
  Offline2D OfflineSound2D OfflineField2D LinQuant BlockRefute Off3D OffSound3D OffField3D.
Import ListNotations.
Local Open Scope R_scope.

Section Codec.
Context (max_eb : R) (HM : 0 <= max_eb < 3) (r1 r2 r3 : Z) (H1 : (0 <= r1)%Z) (H2 : (0 < r2)%Z) (H3 : (0 < r3)%Z).
Context (eb : list R) (Leb : Z.of_nat (length eb) = (r1 * r2 * r3)%Z) (Heb : Forall (fun e => 0 <= e <= max_eb) eb).
Local Notation src := (stored_bound XA (map Fin eb) r2 r3).

(** The working copy of each nonzero value is within its bound. *)
Definition comp_y (X0 X : list XR) : Prop :=
  forall n x, aget X0 n = Some (Fin x) -> x <> 0 -> exists y, aget X n = Some (Fin y) /\ small_change (at_ eb n) x y.

Lemma comp_y_refl X : comp_y X X.
Proof using Type. intros n x E _. exists x. split; [exact E|left; reflexivity]. Qed.
Lemma comp_y_set X0 X X' k r y : comp_y X0 X -> aget X0 k = Some (Fin r) -> aset X k (Fin y) = Some X' ->
  (r <> 0 -> small_change (at_ eb k) r y) -> comp_y X0 X'.
Proof using Type.
  intros C E S H n x Ex N. rewrite (aset_get _ _ _ _ S). destruct (Z.eqb_spec n k) as [->|Hne]; [|exact (C n x Ex N)].
  rewrite E in Ex. injection Ex as <-. exists y. split; auto.
Qed.

Definition off_x (U V W : list XR) (k : nat) (s : log3_state XA) : Prop :=
  let '(U', V', W', (LU, LV, LW)) := s in
  comp_x max_eb k U U' LU /\ comp_x max_eb k V V' LV /\ comp_x max_eb k W W' LW /\ comp_y U U' /\ comp_y V V' /\ comp_y W W'.

Lemma eb_at n r : aget (map Fin eb) n = Some (Fin r) -> r = at_ eb n /\ 0 <= r <= max_eb.
Proof using Heb.
  intros E. pose proof (aget_Some _ _ _ E) as Hn. rewrite map_length in Hn. rewrite at_get in E by exact Hn. injection E as <-.
  split; [reflexivity|]. unfold at_. apply (proj1 (Forall_forall _ _) Heb). apply nth_In. lia.
Qed.

Lemma scaled_small x e r : Rabs e < r -> x <> 0 -> small_change r x (x * (1 + e)).
Proof using Type.
  intros He N. right. replace (x * (1 + e) - x) with (x * e) by ring. rewrite Rabs_mult. apply Rmult_lt_compat_l; [apply Rabs_pos_lt; auto|auto].
Qed.

Lemma off_x_step U V W : large U -> large V -> large W -> no_collision XA src 24 r1 r2 r3 (off_x U V W).
Proof using HM H1 H2 H3 Heb.
  intros BU BV BW m [[i j] k] s s' c Hm HI H. destruct (scan3_nth _ _ _ _ _ H1 H2 H3 Hm) as (Hi & Hj & Hk & Hp). cbn [fst snd] in Hi, Hj, Hk.
  destruct s as [[[U1 V1] W1] [[LU LV] LW]]. destruct s' as [[[U2 V2] W2] [[LU2 LV2] LW2]].
  destruct HI as (CU & CV & CW & YU & YV & YW). apply log3_point_inv in H. change (T XA) with XR in *.
  destruct H as [id u v w Hid Eu Ev Ew|u v w lu lv lw eb' id abs_eb q0 q1 q2 x0 x1 x2 U2 V2 W2 LU2 LV2 LW2
                 Eu Ev Ew El Em' En Er Ep Eq Hid C0 C1 C2 X1 X2 X3 X4 X5 X6]; change (T XA) with XR in *.
  - split; [|cbn [c_q verbatim_as]; congruence]. split; [apply comp_x_keep; auto|]. split; [apply comp_x_keep; auto|].
    split; [apply comp_x_keep; auto|auto].
  - pose proof CU as (_ & _ & FU & FLU & _). pose proof CV as (_ & _ & FV & FLV & _). pose proof CW as (_ & _ & FW & FLW & _).
    assert (Ht : 0 < / 8388608) by lra.
    destruct (quantize_fin 2 _ _ _ _ ltac:(lia) Ht Eq Hid) as (g & a & Eg & -> & Ha & Hle).
    rewrite Eg in Eq. change (eps_float XA) with (Fin (/ 8388608)) in Eq.
    destruct (quantize_exact 2 (/ 8388608) g id _ ltac:(lia) Ht Eq) as [(_ & Q & _)|(_ & _ & a' & Ea & Pa & _)]; [lia|].
    injection Ea as <-.
    assert (HR : exists r, eb' = Fin r /\ 0 < r /\ g = log2R (1 + r)).
    { cbn [dlt dofZ XA] in Ep. unfold log_eb in Eg. cbn [dlog2 dadd dofZ XA] in Eg. destruct eb' as [r| | |]; try discriminate.
      exists r. split; auto. apply xlt_fin in Ep. split; auto. cbn [xadd xlog2] in Eg. rewrite Rlt_bool_true in Eg by lra. injection Eg as <-. reflexivity. }
    destruct HR as (r & -> & Pr & ->). unfold stored_bound in Er. destruct (eb_at _ _ Er) as [Hre Hrm].
    assert (Hlt : (id < 24)%Z).
    { destruct (Z_lt_le_dec id 24); auto. exfalso.
      assert (log2R (1 + r) < 2) by (rewrite <- (log2R_pow2 2); apply log2R_lt; [lra|simpl; lra]).
      assert (powerRZ 2 24 <= powerRZ 2 id) by (rewrite !powerRZ_Rpower by lra; apply Rle_Rpower; [lra|apply IZR_le; lia]).
      replace (powerRZ 2 24) with 16777216 in H0 by (simpl; lra). lra. }
    assert (Ha1 : a <= 1).
    { assert (powerRZ 2 id <= powerRZ 2 23) by (rewrite !powerRZ_Rpower by lra; apply Rle_Rpower; [lra|apply IZR_le; lia]).
      replace (powerRZ 2 23) with 8388608 in H by (simpl; lra). lra. }
    rewrite Hp in *.
    destruct (comp_x_cur _ _ _ _ _ _ _ BU CU Eu El) as (u0 & -> & Ku & AU & Au).
    destruct (comp_x_cur _ _ _ _ _ _ _ BV CV Ev Em') as (v0 & -> & Kv & AV & Av).
    destruct (comp_x_cur _ _ _ _ _ _ _ BW CW Ew En) as (w0 & -> & Kw & AW & Aw).
    assert (KF : forall x l, (if Req_EM_T x 0 then l = Fin (-100) else l = Fin (log2R (Rabs x))) ->
       exists l', l = Fin l' /\ (if Req_EM_T x 0 then l' = -100 else l' = log2R (Rabs x))).
    { intros x l. destruct (Req_EM_T x 0); eauto. }
    destruct (KF _ _ Ku) as (lu' & -> & Ku'). destruct (KF _ _ Kv) as (lv' & -> & Kv'). destruct (KF _ _ Kw) as (lw' & -> & Kw').
    destruct (coded3_exact _ _ _ _ _ _ _ _ _ _ FLU Ha C0) as (d0 & -> & D0).
    destruct (coded3_exact _ _ _ _ _ _ _ _ _ _ FLV Ha C1) as (d1 & -> & D1).
    destruct (coded3_exact _ _ _ _ _ _ _ _ _ _ FLW Ha C2) as (d2 & -> & D2).
    destruct (coded_x max_eb HM u0 lu' d0 a r Ku' D0 Ha1 Pr Hle) as (y0 & Y0 & Z0 & N0). rewrite Y0 in X4.
    destruct (coded_x max_eb HM v0 lv' d1 a r Kv' D1 Ha1 Pr Hle) as (y1 & Y1 & Z1 & N1). rewrite Y1 in X5.
    destruct (coded_x max_eb HM w0 lw' d2 a r Kw' D2 Ha1 Pr Hle) as (y2 & Y2 & Z2 & N2). rewrite Y2 in X6.
    split; [|cbn [c_q c_eb In]; intros _ x [X|[]]; lia].
    split; [eapply (comp_x_set max_eb m U U1 LU); eauto; intros N; exists r; split; [exact (proj1 (N0 N))|lra]|].
    split; [eapply (comp_x_set max_eb m V V1 LV); eauto; intros N; exists r; split; [exact (proj1 (N1 N))|lra]|].
    split; [eapply (comp_x_set max_eb m W W1 LW); eauto; intros N; exists r; split; [exact (proj1 (N2 N))|lra]|].
    split; [|split].
    + apply (comp_y_set U U1 U2 _ u0 y0 YU AU X4). intros N. destruct (N0 N) as (_ & e & -> & He). rewrite <- Hre. apply scaled_small; auto.
    + apply (comp_y_set V V1 V2 _ v0 y1 YV AV X5). intros N. destruct (N1 N) as (_ & e & -> & He). rewrite <- Hre. apply scaled_small; auto.
    + apply (comp_y_set W W1 W2 _ w0 y2 YW AW X6). intros N. destruct (N2 N) as (_ & e & -> & He). rewrite <- Hre. apply scaled_small; auto.
Qed.

(** The decoded values of one component. *)
Lemma finals_small X X' M fl k : large X -> comp_x max_eb k X X' M -> comp_y X X' -> comp_inv XA k fl X X' M -> length fl = length X ->
  forall n x, aget X n = Some (Fin x) -> exists y, aget (log_finals XA fl X M) n = Some (Fin y) /\ small_change (at_ eb n) x y.
Proof using HM.
  intros L C Y I Lf n x Ex. destruct (finals_get max_eb HM X X' M fl k n x L C I Lf Ex) as (y & G & Z & N). exists y. split; [exact G|].
  destruct (Req_dec x 0) as [->|Hx]; [left; auto|]. destruct (Y n x Ex Hx) as (z & Ez & Hz). pose proof (eq_trans (eq_sym (N Hx)) Ez) as Q.
  injection Q as ->. exact Hz.
Qed.
End Codec.

(** Every decoded value differs from the original by less than the bound of its vertex. *)
Theorem off3_decoded max_eb r1 r2 r3 eb u v w s c :
  0 <= max_eb < 3 -> (0 <= r1)%Z -> (0 < r2)%Z -> (0 < r3)%Z ->
  Z.of_nat (length eb) = (r1 * r2 * r3)%Z -> Forall (fun e => 0 <= e <= max_eb) eb ->
  Z.of_nat (length u) = (r1 * r2 * r3)%Z -> Z.of_nat (length v) = (r1 * r2 * r3)%Z -> Z.of_nat (length w) = (r1 * r2 * r3)%Z ->
  (forall x, In x u \/ In x v \/ In x w -> zero_or_large x) ->
  enc_log3_with XA (stored_bound XA (map Fin eb) r2 r3) r1 r2 r3 (map Fin u) (map Fin v) (map Fin w) = Some (s, c) ->
  exists u' v' w', decode_log3 XA 2 intv_radius r1 r2 r3 (map (fun x => log_sign XA (Fin x)) u) (map (fun x => log_sign XA (Fin x)) v)
                     (map (fun x => log_sign XA (Fin x)) w) c = Some (map Fin u', map Fin v', map Fin w') /\
  length u' = length u /\ length v' = length v /\ length w' = length w /\
  forall k, small_change (nth k eb 0) (nth k u 0) (nth k u' 0) /\ small_change (nth k eb 0) (nth k v 0) (nth k v' 0) /\
            small_change (nth k eb 0) (nth k w 0) (nth k w' 0).
Proof.
  intros HM H1 H2 H3 Leb Heb Lu Lv Lw HT HE. destruct s as [[[U' V'] W'] [[LU LV] LW]]. change (T XA) with XR in *.
  assert (BU : large (map Fin u)) by (apply large_map; auto). assert (BV : large (map Fin v)) by (apply large_map; auto).
  assert (BW : large (map Fin w)) by (apply large_map; auto).
  assert (I0 : off_x max_eb eb (map Fin u) (map Fin v) (map Fin w) 0
     (map Fin u, map Fin v, map Fin w, (map (log_value XA) (map Fin u), map (log_value XA) (map Fin v), map (log_value XA) (map Fin w)))).
  { split; [apply comp_x_init; auto|]. split; [apply comp_x_init; auto|]. split; [apply comp_x_init; auto|].
    split; [apply comp_y_refl|]. split; apply comp_y_refl. }
  pose proof (off_x_step max_eb HM r1 r2 r3 H1 H2 H3 eb Heb _ _ _ BU BV BW) as ST.
  pose proof (log3_inv_final XA _ 24 r1 r2 r3 H1 H2 H3 _ ST _ _ _ _ _ I0 escape_exact HE) as HI.
  destruct HI as ((KU & KV & KW & YU & YV & YW) & JU & JV & JW & Le & _ & _). change (T XA) with XR in *.
  assert (LM : forall l : list R, Z.of_nat (length l) = (r1 * r2 * r3)%Z -> Z.of_nat (length (map Fin l)) = (r1 * r2 * r3)%Z)
    by (intros; rewrite map_length; auto).
  assert (HA : forall x, In x (map Fin u) \/ In x (map Fin v) \/ In x (map Fin w) -> log_agree XA x).
  { intros x Hx. apply log_agree_exact. destruct Hx as [Hx|[Hx|Hx]]; apply in_map_iff in Hx; destruct Hx as (y & <- & _); eauto. }
  pose proof (log3_field_sync XA _ 24 r1 r2 r3 H1 H2 H3 _ ST _ _ _ _ _ _ _ _ _ _
     (LM u Lu) (LM v Lv) (LM w Lw) I0 escape_exact HA HE) as ED. cbv zeta in ED. change (T XA) with XR in *.
  set (fl := map (vflag 24) (c_eb c)) in *.
  assert (Lf : length fl = Z.to_nat (r1 * r2 * r3)) by (unfold fl; rewrite map_length; exact Le).
  assert (GU := finals_small max_eb HM eb _ _ _ fl _ BU KU YU JU ltac:(rewrite map_length; lia)).
  assert (GV := finals_small max_eb HM eb _ _ _ fl _ BV KV YV JV ltac:(rewrite map_length; lia)).
  assert (GW := finals_small max_eb HM eb _ _ _ fl _ BW KW YW JW ltac:(rewrite map_length; lia)).
  assert (LFn : forall l M, Z.of_nat (length l) = (r1 * r2 * r3)%Z -> length M = length (map (log_value XA) (map Fin l)) ->
     length (log_finals XA fl (map Fin l) M) = length l).
  { intros l M E EM. pose proof (log_finals_length XA fl (map Fin l) M) as Q. change (T XA) with XR in *. rewrite !map_length in EM.
    rewrite Q by (rewrite ?map_length; lia). lia. }
  pose proof (LFn u LU Lu (proj1 (proj1 (proj2 KU)))) as NU. pose proof (LFn v LV Lv (proj1 (proj1 (proj2 KV)))) as NV.
  pose proof (LFn w LW Lw (proj1 (proj1 (proj2 KW)))) as NW.
  revert ED GU GV GW NU NV NW. generalize (log_finals XA fl (map Fin u) LU), (log_finals XA fl (map Fin v) LV), (log_finals XA fl (map Fin w) LW).
  change (T XA) with XR in *. intros DU DV DW ED GU GV GW NU NV NW.
  assert (GF : forall l n y, aget (map Fin l) n = Some y -> exists a, y = Fin a).
  { intros l n y Ey. unfold aget in Ey. destruct (n <? 0)%Z; [discriminate|]. apply nth_error_In in Ey. apply in_map_iff in Ey. destruct Ey as (a & <- & _). eauto. }
  assert (AF : forall l D, length D = length l -> (forall n x, aget (map Fin l) n = Some (Fin x) -> exists y, aget D n = Some (Fin y) /\ small_change (at_ eb n) x y) ->
     allfin D /\ forall k, small_change (nth k eb 0) (nth k l 0) (nth k (map toR D) 0)).
  { intros l D EL G. assert (AD : allfin D).
    { intros n x Ex. pose proof (aget_Some _ _ _ Ex) as Hn. destruct (aget_ok (map Fin l) n) as [y Ey]; [rewrite map_length; lia|].
      destruct (GF _ _ _ Ey) as [a ->]. destruct (G n a Ey) as (b & Eb & _). rewrite Ex in Eb. injection Eb as ->. eauto. }
    split; [exact AD|]. intros k. destruct (Nat.lt_ge_cases k (length l)) as [Hk|Hk].
    - assert (Ey : aget (map Fin l) (Z.of_nat k) = Some (Fin (at_ l (Z.of_nat k)))) by (apply at_get; lia).
      destruct (G _ _ Ey) as (y & Ed & HS). unfold at_ in HS. rewrite Nat2Z.id in HS.
      replace (nth k (map toR D) 0) with y; [exact HS|]. pose proof (allfin_inv _ AD) as Q. rewrite Q in Ed. rewrite at_get in Ed by (rewrite map_length; lia).
      injection Ed as Ed. rewrite <- Ed. unfold at_. rewrite Nat2Z.id. reflexivity.
    - rewrite (nth_overflow l), (nth_overflow (map toR D)) by (rewrite ?map_length; lia). left. reflexivity. }
  destruct (AF u DU NU GU) as [FU SU]. destruct (AF v DV NV GV) as [FV SV]. destruct (AF w DW NW GW) as [FW SW].
  exists (map toR DU), (map toR DV), (map toR DW). rewrite !map_map in ED.
  split; [rewrite <- (allfin_inv DU FU), <- (allfin_inv DV FV), <- (allfin_inv DW FW); exact ED|].
  rewrite !map_length. repeat (split; [assumption|]). intros k. auto.
Qed.

(** The encoder runs to the end. *)
Theorem off3_total max_eb r1 r2 r3 eb u v w :
  0 <= max_eb < 3 -> (0 <= r1)%Z -> (0 < r2)%Z -> (0 < r3)%Z ->
  Z.of_nat (length eb) = (r1 * r2 * r3)%Z -> Forall (fun e => 0 <= e <= max_eb) eb -> sized r1 r2 r3 u -> sized r1 r2 r3 v -> sized r1 r2 r3 w ->
  (forall x, In x u \/ In x v \/ In x w -> zero_or_large x) ->
  exists s c, enc_log3_with XA (stored_bound XA (map Fin eb) r2 r3) r1 r2 r3 (map Fin u) (map Fin v) (map Fin w) = Some (s, c).
Proof.
  intros HM H1 H2 H3 Leb Heb SU SV SW HT.
  assert (BU : large (map Fin u)) by (apply large_map; auto). assert (BV : large (map Fin v)) by (apply large_map; auto).
  assert (BW : large (map Fin w)) by (apply large_map; auto).
  assert (SM : forall l : list R, sized r1 r2 r3 l -> sized r1 r2 r3 (map Fin l)) by (intros l; unfold sized; rewrite map_length; auto).
  pose proof (off_x_step max_eb HM r1 r2 r3 H1 H2 H3 eb Heb _ _ _ BU BV BW) as ST.
  apply (log3_field_any XA r1 r2 r3 (stored_bound XA (map Fin eb) r2 r3) 24 (off_x max_eb eb (map Fin u) (map Fin v) (map Fin w)) _ _ _ H1 H2 H3 (SM u SU) (SM v SV) (SM w SW) escape_exact).
  - split; [apply comp_x_init; auto|]. split; [apply comp_x_init; auto|]. split; [apply comp_x_init; auto|].
    split; [apply comp_y_refl|]. split; apply comp_y_refl.
  - intros m ijk s s' c Hm HI HS. exact (proj1 (ST m ijk s s' c Hm HI HS)).
  - intros. apply aget_ok. rewrite map_length, Leb. apply lin3_range. assumption.
  - intros m U0 V0 W0 LU LV LW i j k b S6 HG ((_ & _ & FU & FLU & _) & (_ & _ & FV & FLV & _) & (_ & _ & FW & FLW & _) & _) Er Dp.
    change (T XA) with XR in *. cbn [dlt dofZ XA] in Dp.
    assert (HR : exists e, b = Fin e /\ 0 < e <= max_eb).
    { unfold stored_bound in Er. destruct b as [e| | |]; try discriminate.
      - apply xlt_fin in Dp. destruct (eb_at max_eb eb Heb _ _ Er) as [_ He]. exists e. split; [auto|lra].
      - exfalso. unfold aget in Er. match type of Er with (if ?c then _ else _) = _ => destruct c; [discriminate|] end.
        apply nth_error_In, in_map_iff in Er. destruct Er as (x & X & _). discriminate X. }
    destruct HR as (e & -> & He).
    assert (HQ : log_eb XA (Fin e) = Fin (log2R (1 + e))).
    { unfold log_eb. cbn [dlog2 dadd dofZ XA xadd xlog2]. rewrite Rlt_bool_true by lra. reflexivity. }
    assert (HQ2 : log2R (1 + e) <= 2) by (rewrite <- (log2R_pow2 2); apply log2R_mono; [lra|simpl; lra]).
    unfold quantise_ok. rewrite HQ. destruct (quantize2_total _ HQ2) as [[id ab] Eq]. exists id, ab. split; [exact Eq|].
    intros Hid x c p Hx Ec Ep. cbn [eps_float XA] in Eq. apply quantize_exact in Eq; [|lia|lra].
    destruct Eq as [(_ & E & _)|(_ & _ & a & -> & _ & Ha & _)]; [lia|].
    assert (FX : allfin x) by (cbn in Hx; destruct Hx as [<-|[<-|[<-|[]]]]; auto).
    destruct (lorenzo3_fin _ _ _ _ _ _ _ FX Ep) as [pr ->]. destruct (FX _ _ Ec) as [cr ->].
    destruct (quantise_total pr cr a Ha) as [y Ey]. eauto.
Qed.

(** The codec with its own bounds runs to the end and keeps every critical tetrahedron. *)
Theorem off3_preserves acbrt max_eb r1 r2 r3 u v w :
  cube_root0 acbrt -> 0 <= max_eb < 3 -> (0 <= r1)%Z -> (0 < r2)%Z -> (0 < r3)%Z ->
  Z.of_nat (length u) = (r1 * r2 * r3)%Z -> Z.of_nat (length v) = (r1 * r2 * r3)%Z -> Z.of_nat (length w) = (r1 * r2 * r3)%Z ->
  (forall x, In x u \/ In x v \/ In x w -> zero_or_large x) ->
  exists eb s c u' v' w', offline3_ebs XA XO acbrt (Fin max_eb) r1 r2 r3 (map Fin u) (map Fin v) (map Fin w) = Some eb /\
  enc_log3_with XA (stored_bound XA eb r2 r3) r1 r2 r3 (map Fin u) (map Fin v) (map Fin w) = Some (s, c) /\
  decode_log3 XA 2 intv_radius r1 r2 r3 (map (fun x => log_sign XA (Fin x)) u) (map (fun x => log_sign XA (Fin x)) v)
              (map (fun x => log_sign XA (Fin x)) w) c = Some (map Fin u', map Fin v', map Fin w') /\
  length u' = length u /\ length v' = length v /\ length w' = length w /\
  forall t, tet r1 r2 r3 t -> (has_cp3 (map (vecR3 r2 r3 u v w) t) <-> has_cp3 (map (vecR3 r2 r3 u' v' w') t)).
Proof.
  intros HC HM H1 H2 H3 Lu Lv Lw HT.
  destruct (offline3_bounds_keep acbrt HC max_eb r1 r2 r3 u v w ltac:(lra) H1 ltac:(lia) ltac:(lia) Lu Lv Lw) as (eb & E & Leb & Heb & K).
  destruct (off3_total max_eb r1 r2 r3 eb u v w HM H1 H2 H3 Leb Heb Lu Lv Lw HT) as (s & c & HE).
  destruct (off3_decoded max_eb r1 r2 r3 eb u v w s c HM H1 H2 H3 Leb Heb Lu Lv Lw HT HE) as (u' & v' & w' & ED & N1 & N2 & N3 & S).
  exists (map Fin eb), s, c, u', v', w'. do 6 (split; [assumption|]). apply K; intros k; apply S.
Qed.
