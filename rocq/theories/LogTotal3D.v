(** The 3D log-domain encoder does not fail.  Nothing of /repo is modelled here. *)
From Coq Require Import Reals Lra Lia ZArith List Bool.
From Coq Require Import ZifyBool ZifyNat.
From Flocq Require Import Core.Core IEEE754.BinarySingleNaN IEEE754.Binary IEEE754.Bits.
From Verif Require Import Base Huffman HuffStream HuffProps Stream Arith Mesh2D Mesh3D Derive3D Codec2D Sync2D Scan Stream2D Abs3D Sync3D Exact IEEE IEEELaws IEEEQuant
  Geo2D Preserve2D Total2D IEEE2D IEEEAbs2D IEEETotal2D IEEERel2D Cells3D Geo3D Preserve3D Total3D IEEE3D RelaxErr2D Log2D LogSync2D LogCells2D LogErr2D LogTotal2D Log3D LogSync3D LogErr3D LogCells3D.
Import ListNotations.
Local Open Scope Z_scope.

Section Any.
Context (A : Arith) (r1 r2 r3 : Z).

Definition quantise_ok (eb : D A) (LU LV LW : list (T A)) (i j k : Z) : Prop :=
  exists id ab, eb_exponential_quantize A 2 (eps_float A) (log_eb A eb) = Some (id, ab) /\
    (0 < id -> forall w c p, In w [LU; LV; LW] -> aget w (lin3 r2 r3 (i, j, k)) = Some c -> lorenzo3 A (aget w) r2 r3 i j k = Some p ->
       exists a, quantise A p c ab = Some a).

Lemma req_log3_any max_eb U V W i j k : sized r1 r2 r3 U -> sized r1 r2 r3 V -> sized r1 r2 r3 W -> in_grid r1 r2 r3 (i, j, k) ->
  exists r, required_eb3_log A max_eb U V W r1 r2 r3 i j k = Some r.
Proof.
  intros LU LV LW HG. unfold required_eb3_log.
  assert (HN : forall n, In n twenty_four -> (n < 24)%nat) by (intros n Hn; apply in_seq in Hn; lia).
  revert max_eb HN. generalize twenty_four. intros l eb HN.
  assert (HE : exists e, req_loop3 A U V W r1 r2 r3 i j k l eb = Some e).
  { revert eb HN. induction l as [|n ns IH]; intros eb HN; cbn [req_loop3]; [eauto|].
    assert (HN' : forall n, In n ns -> (n < 24)%nat) by (intros; apply HN; right; auto).
    specialize (HN n (or_introl eq_refl)). destruct (in_mesh3 r1 r2 r3 i j k n) eqn:EM; [|auto].
    destruct (tet_values_any A r1 r2 r3 U V W i j k n LU LV LW HN HG EM) as [[[[x0 x1] x2] x3] ->]. cbn [bind]. auto. }
  destruct HE as [e ->]. cbn [bind]. eauto.
Qed.

Lemma log3_point_any req esc U V W LU LV LW i j k :
  sized r1 r2 r3 U -> sized r1 r2 r3 V -> sized r1 r2 r3 W -> sized r1 r2 r3 LU -> sized r1 r2 r3 LV -> sized r1 r2 r3 LW -> in_grid r1 r2 r3 (i, j, k) ->
  (exists eb, req U V W i j k = Some eb) ->
  (forall eb, req U V W i j k = Some eb -> dlt A (dofZ A 0) eb = true -> quantise_ok eb LU LV LW i j k) ->
  exists s c, log3_point A req esc r1 r2 r3 (U, V, W, (LU, LV, LW)) (i, j, k) = Some (s, c).
Proof.
  intros SU SV SW TU TV TW HG [eb Er] HQ. cbn [log3_point].
  destruct (vec_any A r1 r2 r3 U V W _ SU SV SW HG) as (u & v & w & ->). cbn [bind].
  rewrite Er. cbn [bind].
  destruct (dlt A (dofZ A 0) eb) eqn:Dp; [|eauto]. destruct (HQ eb Er Dp) as (id & ab & Eq & HQ'). unfold log_eb in Eq. rewrite Eq. cbn [bind].
  destruct (Z.ltb_spec 0 id) as [Hid|]; [|eauto]. specialize (HQ' Hid).
  destruct (vec_any A r1 r2 r3 LU LV LW _ TU TV TW HG) as (lu & lv & lw & Ev). rewrite Ev. apply vec_at_inv in Ev. destruct Ev as (Eu & Ev & Ew). cbn [bind].
  destruct (lorenzo3_any A r1 r2 r3 LU i j k TU HG) as [p0 P0]. destruct (lorenzo3_any A r1 r2 r3 LV i j k TV HG) as [p1 P1].
  destruct (lorenzo3_any A r1 r2 r3 LW i j k TW HG) as [p2 P2].
  destruct (HQ' LU lu p0 ltac:(cbn; auto) Eu P0) as [a0 Q0]. destruct (HQ' LV lv p1 ltac:(cbn; auto) Ev P1) as [a1 Q1].
  destruct (HQ' LW lw p2 ltac:(cbn; auto) Ew P2) as [a2 Q2].
  rewrite P0, P1, P2. cbn [try_list bind]. rewrite Q0. cbn [bind]. destruct a0 as [|q0 x0]; [cbn [bind]; eauto|].
  rewrite Q1. cbn [bind]. destruct a1 as [|q1 x1]; [cbn [bind option_map]; eauto|].
  rewrite Q2. cbn [bind]. destruct a2 as [|q2 x2]; [cbn [bind option_map]; eauto|].
  cbn [bind option_map]. pose proof (lin3_nonneg _ _ _ _ HG) as HP.
  destruct (aset_ok LU (lin3 r2 r3 (i, j, k)) x0) as [? ->]; [rewrite TU; auto|].
  destruct (aset_ok LV (lin3 r2 r3 (i, j, k)) x1) as [? ->]; [rewrite TV; auto|].
  destruct (aset_ok LW (lin3 r2 r3 (i, j, k)) x2) as [? ->]; [rewrite TW; auto|].
  destruct (aset_ok U (lin3 r2 r3 (i, j, k)) (unlog A u x0)) as [? ->]; [rewrite SU; auto|].
  destruct (aset_ok V (lin3 r2 r3 (i, j, k)) (unlog A v x1)) as [? ->]; [rewrite SV; auto|].
  destruct (aset_ok W (lin3 r2 r3 (i, j, k)) (unlog A w x2)) as [? ->]; [rewrite SW; auto|]. cbn [bind]. eauto.
Qed.

Definition sized6 (s : log3_state A) : Prop := sized3 r1 r2 r3 (fst s) /\ sized3 r1 r2 r3 (snd s).

Lemma sized6_step req esc s ijk s' c : sized6 s -> log3_point A req esc r1 r2 r3 s ijk = Some (s', c) -> sized6 s'.
Proof.
  destruct s as [[[U V] W] [[LU LV] LW]]. destruct s' as [[[U' V'] W'] [[LU' LV'] LW']]. destruct ijk as [[i j] k].
  intros ((S1 & S2 & S3) & (S4 & S5 & S6)) H. apply log3_point_inv in H.
  destruct H as [|u v w lu lv lw eb id ab q0 q1 q2 x0 x1 x2 U2 V2 W2 LU2 LV2 LW2 ? ? ? ? ? ? ? ? ? ? ? ? ? X1 X2 X3 X4 X5 X6]; [repeat split; auto|].
  apply aset_Some in X1, X2, X3, X4, X5, X6. unfold sized6, sized3, sized in *. cbn [fst snd]. repeat split; lia.
Qed.

Lemma log3_field_any req esc (inv : nat -> log3_state A -> Prop) U V W : 0 <= r1 -> 0 < r2 -> 0 < r3 ->
  sized r1 r2 r3 U -> sized r1 r2 r3 V -> sized r1 r2 r3 W -> escape A 2 = Some esc ->
  inv 0%nat (U, V, W, (map (log_value A) U, map (log_value A) V, map (log_value A) W)) ->
  (forall m ijk s s' c, nth_error (scan3 r1 r2 r3) m = Some ijk -> inv m s -> log3_point A req esc r1 r2 r3 s ijk = Some (s', c) -> inv (S m) s') ->
  (forall U0 V0 W0 i j k, sized r1 r2 r3 U0 -> sized r1 r2 r3 V0 -> sized r1 r2 r3 W0 -> in_grid r1 r2 r3 (i, j, k) ->
     exists eb, req U0 V0 W0 i j k = Some eb) ->
  (forall m U0 V0 W0 LU LV LW i j k eb, sized6 (U0, V0, W0, (LU, LV, LW)) -> in_grid r1 r2 r3 (i, j, k) ->
     inv m (U0, V0, W0, (LU, LV, LW)) ->
     req U0 V0 W0 i j k = Some eb -> dlt A (dofZ A 0) eb = true -> quantise_ok eb LU LV LW i j k) ->
  exists s c, enc_log3_with A req r1 r2 r3 U V W = Some (s, c).
Proof.
  intros H1 H2 H3 SU SV SW HE HI HS HR HQ. unfold enc_log3_with. rewrite HE. cbn [bind].
  eapply (scan_total _ (fun m s => sized6 s /\ inv m s) _ 0%nat).
  2:{ split; [|auto]. unfold sized6, sized3, sized in *. cbn [fst snd]. rewrite !map_length. auto. }
  intros m [[i j] k] [[[U0 V0] W0] [[LU LV] LW]] Hm [S6 Hinv]. cbn [Nat.add].
  destruct (scan3_nth _ _ _ _ _ H1 H2 H3 Hm) as (Hi & Hj & Hk & Hp). cbn [fst snd] in *.
  assert (HG : in_grid r1 r2 r3 (i, j, k)) by (unfold in_grid; cbn [fst snd]; auto).
  pose proof S6 as ((S1 & S2 & S3) & (S4 & S5 & S6')).
  destruct (log3_point_any req esc U0 V0 W0 LU LV LW i j k S1 S2 S3 S4 S5 S6' HG (HR U0 V0 W0 i j k S1 S2 S3 HG)) as (s & c & E).
  { intros eb Er Dp. exact (HQ m U0 V0 W0 LU LV LW i j k eb S6 HG Hinv Er Dp). }
  exists s, c. split; [exact E|]. split; [eapply sized6_step; eauto|eapply HS; eauto].
Qed.

Section Machine.
Hypothesis conv : forall x, exists z, dtoint A x = Some z.
Theorem log3_machine_total req U V W : 0 <= r1 -> 0 < r2 -> 0 < r3 ->
  sized r1 r2 r3 U -> sized r1 r2 r3 V -> sized r1 r2 r3 W ->
  (forall U0 V0 W0 i j k, sized r1 r2 r3 U0 -> sized r1 r2 r3 V0 -> sized r1 r2 r3 W0 -> in_grid r1 r2 r3 (i, j, k) ->
     exists eb, req U0 V0 W0 i j k = Some eb) ->
  exists s c, enc_log3_with A req r1 r2 r3 U V W = Some (s, c).
Proof.
  intros H1 H2 H3 SU SV SW HR.
  assert (HE : exists esc, escape A 2 = Some esc).
  { unfold escape. match goal with |- context [dtoint A ?x] => destruct (conv x) as [z ->] end. cbn [bind]. eauto. }
  destruct HE as [esc HE].
  apply (log3_field_any req esc (fun _ _ => True) U V W H1 H2 H3 SU SV SW HE Logic.I); [auto|exact HR|].
  intros m U0 V0 W0 LU LV LW i j k eb _ _ _ _ _. unfold quantise_ok.
  assert (HX : exists id ab, eb_exponential_quantize A 2 (eps_float A) (log_eb A eb) = Some (id, ab)).
  { unfold eb_exponential_quantize. destruct (dle A _ _); [eauto|].
    match goal with |- context [dtoint A ?x] => destruct (conv x) as [z ->] end. cbn [bind]. eauto. }
  destruct HX as (id & ab & HX). exists id, ab. split; auto. intros _ w c p _ _ _.
  unfold quantise. destruct (dlt A _ _); [|eauto]. match goal with |- context [dtoint A ?x] => destruct (conv x) as [z ->] end.
  cbn [bind]. destruct (dle A _ _); eauto.
Qed.
End Machine.
End Any.

Theorem log3_machine_double (lm : Libm _ _) max_eb r1 r2 r3 U V W : lm_x86 lm = true -> 0 <= r1 -> 0 < r2 -> 0 < r3 ->
  sized r1 r2 r3 U -> sized r1 r2 r3 V -> sized r1 r2 r3 W ->
  exists s c, enc_log3 (DA lm) max_eb r1 r2 r3 U V W = Some (s, c).
Proof.
  intros HX H1 H2 H3 SU SV SW. unfold enc_log3. apply log3_machine_total; auto; [|intros; apply req_log3_any; auto]. intros x. rewrite (v_dtoint (DA lm) (DA_ieee lm)). cbn [DA_ieee oob]. unfold lm_oob. rewrite HX. destruct (xtoint _); eauto.
Qed.
Theorem log3_machine_float (lm : Libm _ _) max_eb r1 r2 r3 U V W : lm_x86 lm = true -> 0 <= r1 -> 0 < r2 -> 0 < r3 ->
  sized r1 r2 r3 U -> sized r1 r2 r3 V -> sized r1 r2 r3 W ->
  exists s c, enc_log3 (FA lm) max_eb r1 r2 r3 U V W = Some (s, c).
Proof.
  intros HX H1 H2 H3 SU SV SW. unfold enc_log3. apply log3_machine_total; auto; [|intros; apply req_log3_any; auto]. intros x. rewrite (v_dtoint (FA lm) (FA_ieee lm)). cbn [FA_ieee oob]. unfold lm_oob. rewrite HX. destruct (xtoint _); eauto.
Qed.

(** ** IEEE arithmetic: every conversion is in range *)
Local Open Scope R_scope.
Section NoUB.
Context (A : Arith) (I : ieee A) (L : libm_ok A I) (LL : log_libm_ok A I).
Context (Hp24 : (24 <= pT A I)%Z) (B : Z) (HB : (0 <= B <= 100)%Z).
Context (req : bound_source A) (m : Z -> R) (Hm : forall n, 0 <= m n <= 5 / 2).
Context (r1 r2 r3 : Z) (H1 : (0 <= r1)%Z) (H2 : (0 < r2)%Z) (H3 : (0 < r3)%Z).
Context (HQ : source_atmost A I B req m r1 r2 r3).
Context (HR : forall U0 V0 W0 i j k, sized r1 r2 r3 U0 -> sized r1 r2 r3 V0 -> sized r1 r2 r3 W0 -> in_grid r1 r2 r3 (i, j, k) ->
     exists eb, req U0 V0 W0 i j k = Some eb).

Theorem log3_noub U V W : sized r1 r2 r3 U -> sized r1 r2 r3 V -> sized r1 r2 r3 W ->
  all_usual A I B U -> all_usual A I B V -> all_usual A I B W ->
  exists s c, enc_log3_with A req r1 r2 r3 U V W = Some (s, c).
Proof.
  intros SU SV SW MU MV MW. pose proof (eT_ok A I) as HeT.
  apply (log3_field_any A r1 r2 r3 req 24 (log3_err A I m U V W) U V W H1 H2 H3 SU SV SW (escape_ieee A I L)); [|..|exact HR|].
  - split; [|split]; eapply (comp_err_init A I LL Hp24 B); eauto.
  - intros n ijk s s' c Hn HI HS.
    exact (proj1 (log3_err_step A I L LL Hp24 B HB req m Hm r1 r2 r3 H1 H2 H3 HQ U V W MU MV MW n ijk s s' c Hn HI HS)).
  - intros n U0 V0 W0 LU LV LW i j k eb S6 HG (CU & CV & CW) Er Dp.
    destruct (HQ U0 V0 W0 i j k eb) as (e & Ee & He); auto.
    { eapply comp_err_bnd; [..|exact CU]; eauto. } { eapply comp_err_bnd; [..|exact CV]; eauto. } { eapply comp_err_bnd; [..|exact CW]; eauto. }
    destruct (log_eb_val A I L _ _ (m _) Ee He (proj2 (Hm _))) as (g & Eg & Hg & Hg2).
    assert (Hx : g * bpow radix2 23 <= bpow radix2 1022).
    { apply Rle_trans with (bpow radix2 1 * bpow radix2 23); [apply Rmult_le_compat_r; [apply bpow_ge_0|exact Hg2]|].
      rewrite <- bpow_plus. apply bpow_le. lia. }
    destruct (quantize_noub A I L 1 23 (eps_float A) _ g ltac:(lia) ltac:(lia) (v_epsf A I) Eg Hx) as [[id ab] Eq].
    exists id, ab. split; [exact Eq|]. intros Hid w c p Hw Ec Ep.
    destruct (quantize_ieee A I L 1 23 (eps_float A) _ g id ab ltac:(lia) ltac:(lia) (v_epsf A I) Eq ltac:(lia) Eg Hx) as (_ & _ & K3 & _).
    assert (Bw : all_bnd A I 7 w).
    { cbn in Hw. destruct Hw as [<-|[<-|[<-|[]]]]; eapply comp_err_logs; eauto. }
    destruct (lorenzo3_bnd A I r2 r3 7 w i j k p) as (pr & Epr & _); auto; try lia.
    destruct (Bw _ _ Ec) as (cr & Ecr & _). eapply quantise_noub; eauto. apply bpow_gt_0.
Qed.
End NoUB.

(** ** Exact arithmetic *)
Theorem log3_total max_eb r1 r2 r3 u v w :
  0 <= max_eb < 3 -> (0 <= r1)%Z -> (0 < r2)%Z -> (0 < r3)%Z -> sized r1 r2 r3 u -> sized r1 r2 r3 v -> sized r1 r2 r3 w ->
  (forall x, In x u \/ In x v \/ In x w -> zero_or_large x) ->
  exists s c, enc_log3 XA (Fin max_eb) r1 r2 r3 (map Fin u) (map Fin v) (map Fin w) = Some (s, c).
Proof.
  intros HM H1 H2 H3 SU SV SW HT.
  assert (BU : large (map Fin u)) by (apply large_map; auto). assert (BV : large (map Fin v)) by (apply large_map; auto).
  assert (BW : large (map Fin w)) by (apply large_map; auto).
  assert (SM : forall l : list R, sized r1 r2 r3 l -> sized r1 r2 r3 (map Fin l)) by (intros l; unfold sized; rewrite map_length; auto).
  pose proof (log3_x_step max_eb HM r1 r2 r3 H1 H2 H3 _ _ _ BU BV BW) as ST.
  unfold enc_log3. apply (log3_field_any XA r1 r2 r3 (fun U V W => required_eb3_log XA (Fin max_eb) U V W r1 r2 r3) 24 (log3_x max_eb r1 r2 r3 (map Fin u) (map Fin v) (map Fin w)) _ _ _ H1 H2 H3 (SM u SU) (SM v SV) (SM w SW) escape_exact);
    [|..|intros; apply req_log3_any; auto|].
  - split; [apply comp_x_init; auto|]. split; [apply comp_x_init; auto|]. split; [apply comp_x_init; auto|]. intros. apply tet_rel_refl.
  - intros m ijk s s' c Hm HI HS. exact (proj1 (ST m ijk s s' c Hm HI HS)).
  - intros m U0 V0 W0 LU LV LW i j k eb S6 HG ((_ & _ & FU & FLU & _) & (_ & _ & FV & FLV & _) & (_ & _ & FW & FLW & _) & _) Er Dp.
    change (T XA) with XR in *.
    pose proof (req_log3_below _ _ _ _ _ _ _ _ _ _ _ FU FV FW Er ltac:(discriminate)) as HBl.
    assert (HR : exists e, eb = Fin e /\ 0 < e <= max_eb).
    { cbn [dlt dofZ XA] in Dp. destruct eb as [e| | |]; try discriminate.
      - exists e. apply xlt_fin in Dp. split; auto. split; auto. apply Rnot_lt_le. intros Hlt.
        destruct (HBl max_eb ltac:(lra) (proj2 (below_fin _ _) Hlt)) as [Bb _]. apply below_fin in Bb. lra.
      - exfalso. destruct (HBl max_eb ltac:(lra) eq_refl) as [Bb _]. apply below_fin in Bb. lra. }
    destruct HR as (e & -> & He).
    assert (HQ : log_eb XA (Fin e) = Fin (log2R (1 + e))).
    { unfold log_eb. cbn [dlog2 dadd dofZ XA xadd xlog2]. rewrite Rlt_bool_true by lra. reflexivity. }
    assert (HQ2 : log2R (1 + e) <= 2) by (rewrite <- (log2R_pow2 2); apply log2R_mono; [lra|simpl; lra]).
    unfold quantise_ok. rewrite HQ. destruct (quantize2_total _ HQ2) as [[id ab] Eq]. exists id, ab. split; [exact Eq|].
    intros Hid x c p Hx Ec Ep. cbn [eps_float XA] in Eq. apply quantize_exact in Eq; [|lia|lra].
    destruct Eq as [(_ & E & _)|(_ & _ & a & -> & _ & Ha & _)]; [lia|].
    assert (FX : allfin x) by (cbn in Hx; destruct Hx as [<-|[<-|[<-|[]]]]; auto).
    destruct (lorenzo3_fin _ _ _ _ _ _ _ FX Ep) as [pr ->]. destruct (FX _ _ Ec) as [cr ->].
    destruct (quantise_total pr cr a Ha) as [y Ey]. eauto.
Qed.
