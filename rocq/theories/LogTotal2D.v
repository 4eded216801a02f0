(** The 2D log-domain encoder does not fail: on the machine for every input, in exact arithmetic for every finite field.
    Nothing of /repo is modelled here. *)
From Coq Require Import Reals Lra Lia ZArith List Bool.
From Coq Require Import ZifyBool ZifyNat.
From Flocq Require Import Core.Core IEEE754.BinarySingleNaN IEEE754.Binary IEEE754.Bits.
From Verif Require Import Base Huffman HuffStream HuffProps Stream Arith Mesh2D Derive2D Codec2D Sync2D Trace2D Scan Stream2D Exact Cells2D Geo2D
  Preserve2D Total2D TotalAny IEEE IEEELaws Api2D LibmModel Witness2D Examples2D Log2D LogSync2D LogCells2D.
Import ListNotations.
Local Open Scope Z_scope.

Section Any.
Context (A : Arith).

Lemma log_point_any max_eb r1 r2 U V LU LV i j :
  0 <= i < r1 -> 0 <= j < r2 -> Z.of_nat (length U) = r1 * r2 -> Z.of_nat (length V) = r1 * r2 ->
  length LU = length U -> length LV = length V ->
  (forall u v lu lv eb, aget U (i * r2 + j) = Some u -> aget V (i * r2 + j) = Some v -> aget LU (i * r2 + j) = Some lu -> aget LV (i * r2 + j) = Some lv ->
     required_eb_rel A max_eb U V r1 r2 i j = Some eb -> dlt A (dofZ A 0) eb = true -> teq A u (t0 A) = false -> teq A v (t0 A) = false ->
     (exists t, try_component A 2 (eps_float A) LU r2 i j lu (log_eb A eb) = Some t) /\
     (exists t, try_component A 2 (eps_float A) LV r2 i j lv (log_eb A eb) = Some t)) ->
  exists s' c, log_point A max_eb r1 r2 (U, V, LU, LV) (i, j) = Some (s', c).
Proof.
  intros Hi Hj H1 H2 H3 H4 HT. assert (Hp : 0 <= i * r2 + j < r1 * r2) by nia.
  destruct (aget_ok U (i * r2 + j)) as [u Eu]; [lia|]. destruct (aget_ok V (i * r2 + j)) as [v Ev]; [lia|].
  destruct (aget_ok LU (i * r2 + j)) as [lu El]; [lia|]. destruct (aget_ok LV (i * r2 + j)) as [lv Em]; [lia|].
  destruct (req_rel_any A max_eb U V r1 r2 i j Hi Hj) as [eb Er]; auto.
  cbn [log_point]. rewrite Eu, Ev, Er. cbn [bind].
  destruct (dlt A (dofZ A 0) eb) eqn:D1; [|cbn [andb]; eauto]. destruct (teq A u (t0 A)) eqn:Zu; [cbn [andb negb]; eauto|].
  destruct (teq A v (t0 A)) eqn:Zv; [cbn [andb negb]; eauto|]. cbn [andb negb].
  destruct (HT u v lu lv eb Eu Ev El Em Er D1 Zu Zv) as [[w0 T0] [w1 T1]].
  unfold try_component in T0, T1. fold (log_eb A eb).
  destruct (eb_exponential_quantize A 2 (eps_float A) (log_eb A eb)) as [[id ab]|]; [|discriminate]. cbn [bind] in *.
  destruct (0 <? id); [|eauto]. rewrite El. cbn [bind].
  destruct (lorenzo A LU r2 i j) as [p0|]; [|discriminate]. cbn [bind] in *.
  destruct (quantise A p0 lu ab) as [[|q0 x0]|]; [cbn [bind]; eauto| |discriminate]. cbn [bind] in *. rewrite Em. cbn [bind] in *.
  destruct (lorenzo A LV r2 i j) as [p1|]; [|discriminate]. cbn [bind] in *.
  destruct (quantise A p1 lv ab) as [[|q1 x1]|]; [cbn [bind]; eauto| |discriminate]. cbn [bind].
  destruct (aset_ok LU (i * r2 + j) x0) as [a ->]; [lia|]. destruct (aset_ok LV (i * r2 + j) x1) as [b ->]; [lia|].
  destruct (aset_ok U (i * r2 + j) (unlog A u x0)) as [a' ->]; [lia|]. destruct (aset_ok V (i * r2 + j) (unlog A v x1)) as [b' ->]; [lia|].
  cbn [bind]. eauto.
Qed.

Definition log_lens (n : nat) (k : nat) (s : log_state A) : Prop :=
  let '(U, V, LU, LV) := s in length U = n /\ length V = n /\ length LU = n /\ length LV = n.
Lemma log_lens_step max_eb r1 r2 s ij s' c n k k' : log_lens n k s -> log_point A max_eb r1 r2 s ij = Some (s', c) -> log_lens n k' s'.
Proof.
  destruct s as [[[U V] LU] LV], s' as [[[U' V'] LU'] LV'], ij as [i j]. intros (L1 & L2 & L3 & L4) H. apply log_point_inv in H.
  destruct H as [|u v lu lv eb id q0 q1 x0 x1 U2 V2 LU2 LV2 ? ? ? ? ? ? ? ? ? ? X1 X2 X3 X4]; [cbn; auto|].
  apply aset_Some in X1, X2, X3, X4. cbn. repeat split; lia.
Qed.

Section Machine.
Hypothesis conv : forall x, exists z, dtoint A x = Some z.

Lemma try_any2 b thr w r2 i j cur eb : 0 <= i -> 0 <= j < r2 -> i * r2 + j < Z.of_nat (length w) ->
  exists t, try_component A b thr w r2 i j cur eb = Some t.
Proof.
  intros Hi Hj HL. unfold try_component, eb_exponential_quantize.
  destruct (dle A eb thr); cbn [bind]; [rewrite Z.ltb_irrefl; eauto|].
  match goal with |- context [dtoint A ?x] => destruct (conv x) as [id ->] end. cbn [bind].
  destruct (0 <? id); [|eauto].
  destruct (lorenzo_any A w r2 i j Hi Hj HL) as [p ->]. cbn [bind]. unfold quantise.
  destruct (dlt A _ _); cbn [bind]; [|eauto].
  match goal with |- context [dtoint A ?x] => destruct (conv x) as [h ->] end. cbn [bind].
  destruct (dle A _ _); cbn [bind]; eauto.
Qed.

Theorem log_machine_total max_eb r1 r2 U V : 0 <= r1 -> 0 < r2 -> Z.of_nat (length U) = r1 * r2 -> Z.of_nat (length V) = r1 * r2 ->
  exists s c, enc_log A max_eb r1 r2 U V = Some (s, c).
Proof.
  intros H1 H2 LU LV. unfold enc_log. eapply (scan_total _ (log_lens (Z.to_nat (r1 * r2))) _ 0%nat).
  - intros m [i j] s Hm HL. destruct (scan2_nth _ _ _ _ H1 H2 Hm) as (Hi & Hj & Hp). cbn [fst snd] in *.
    destruct s as [[[U1 V1] LU1] LV1]. pose proof HL as (L1 & L2 & L3 & L4).
    destruct (log_point_any max_eb r1 r2 U1 V1 LU1 LV1 i j) as (s' & c & E); try lia.
    + intros. split; apply try_any2; try lia; nia.
    + exists s', c. split; auto. eapply log_lens_step; eauto.
  - cbn [log_lens]. rewrite !map_length. lia.
Qed.
End Machine.
End Any.

(** ** Exact arithmetic *)
Local Open Scope R_scope.
Lemma quantize2_total eb : eb <= 2 -> exists r, eb_exponential_quantize XA 2 (eps_float XA) (Fin eb) = Some r.
Proof.
  intros H. unfold eb_exponential_quantize. cbn [dle eps_float XA].
  destruct (xle _ _) eqn:E; [eauto|]. apply xle_fin_false in E.
  set (thr := / 8388608) in *. assert (Ht : 0 < thr) by (unfold thr; lra).
  cbn [dtoint ddiv dlog2 dofZ XA]. rewrite xdiv_fin by lra. cbn [xlog2].
  assert (Hq : 1 < eb / thr).
  { apply (Rmult_lt_reg_r thr); auto. unfold Rdiv. rewrite Rmult_assoc, Rinv_l; lra. }
  rewrite !Rlt_bool_true by lra. pose proof ln2_pos.
  rewrite xdiv_fin by (replace (ln 2 / ln 2) with 1 by (field; lra); lra).
  cbn [xtoint].
  set (l := ln (eb / thr) / ln 2 / (ln 2 / ln 2)).
  assert (El : l = ln (eb / thr) / ln 2) by (unfold l; field; lra).
  assert (L0 : 0 <= ln (eb / thr)) by (rewrite <- ln_1; apply ln_le; lra).
  assert (L1 : ln (eb / thr) <= 24 * ln 2).
  { replace (24 * ln 2) with (ln (bpow radix2 24)) by (rewrite bpow_exp, ln_exp; reflexivity).
    apply ln_le; [lra|]. replace (eb / thr) with (eb * 8388608) by (unfold thr; field). change (bpow radix2 24) with 16777216. lra. }
  assert (B0 : 0 <= l) by (rewrite El; apply Rmult_le_pos; [lra|apply Rlt_le, Rinv_0_lt_compat; lra]).
  assert (B1 : l <= 24).
  { rewrite El. apply (Rmult_le_reg_r (ln 2)); [lra|]. unfold Rdiv. rewrite Rmult_assoc, Rinv_l by lra. lra. }
  rewrite Ztrunc_floor by auto.
  assert (0 <= Zfloor l)%Z by (apply Zfloor_lub; auto).
  assert (Zfloor l <= 24)%Z by (apply le_IZR; eapply Rle_trans; [apply Zfloor_lb|]; auto).
  replace ((- 2 ^ 31 <=? Zfloor l)%Z && (Zfloor l <? 2 ^ 31)%Z)%bool with true by lia. cbn [bind]. eauto.
Qed.

Lemma try2_total w r2 i j cur eb : allfin w -> (0 <= i)%Z -> (0 <= j < r2)%Z -> (i * r2 + j < Z.of_nat (length w))%Z ->
  eb <= 2 -> exists r, try_component XA 2 (eps_float XA) w r2 i j (Fin cur) (Fin eb) = Some r.
Proof.
  intros HF Hi Hj HL He. unfold try_component. destruct (quantize2_total eb He) as [[id ab] Eq]. rewrite Eq. cbn [bind].
  destruct (0 <? id)%Z eqn:Eid; [|eauto].
  destruct (lorenzo_total w r2 i j Hi Hj HL) as [p Ep]. rewrite Ep. cbn [bind].
  destruct (lorenzo_fin _ _ _ _ _ HF Ep) as [pr ->].
  apply quantize_exact in Eq; [|lia|lra]. destruct Eq as [(_ & E & _)|(_ & _ & a & -> & _ & Ha & _)]; [lia|].
  destruct (quantise_total pr cur a Ha) as [x Ex]. rewrite Ex. cbn [bind]. eauto.
Qed.

Theorem log_total max_eb r1 r2 u v : 0 <= max_eb <= 1 -> (0 <= r1)%Z -> (0 < r2)%Z ->
  Z.of_nat (length u) = (r1 * r2)%Z -> Z.of_nat (length v) = (r1 * r2)%Z ->
  exists s c, enc_log XA (Fin max_eb) r1 r2 (map Fin u) (map Fin v) = Some (s, c).
Proof.
  intros Hm H1 H2 LU LV. unfold enc_log.
  set (U := map Fin u). set (V := map Fin v).
  assert (FA : forall w, allfin (map Fin w)).
  { intros w k x E. change (T XA) with XR in E. rewrite aget_map in E. destruct (aget w k); [|discriminate]. apply Some_inj in E. eauto. }
  eapply (scan_total _ (fun k s => log_lens XA (Z.to_nat (r1 * r2)) k s /\ log_exact (log2R (1 + max_eb)) r1 r2 U V k s) _ 0%nat).
  - intros m [i j] s Hm' [HL HX]. destruct (scan2_nth _ _ _ _ H1 H2 Hm') as (Hi & Hj & Hp). cbn [fst snd] in *.
    pose proof HX as HX'. destruct s as [[[U1 V1] LU1] LV1]. pose proof HL as (L1 & L2 & L3 & L4).
    destruct HX as (TU & TV & TLU & TLV & FU & FV & FLU & FLV & _). change (T XA) with XR in *.
    destruct (log_point_any XA (Fin max_eb) r1 r2 U1 V1 LU1 LV1 i j) as (s' & c & E); try (change (T XA) with XR; lia).
    + intros u0 v0 lu lv eb Eu Ev El Em Er Dp Zu Zv. change (T XA) with XR in *.
      destruct (FLU _ _ El) as [a ->]. destruct (FLV _ _ Em) as [b ->].
      pose proof (atR_fin _ _ _ FU Eu) as Xu. pose proof (atR_fin _ _ _ FV Ev) as Xv.
      set (ur := atR U1 (i * r2 + j)) in *. set (vr := atR V1 (i * r2 + j)) in *. subst u0 v0.
      unfold t0 in Zu, Zv. cbn [teq tofZ XA] in Zu, Zv. apply xeq_fin_false in Zu. apply xeq_fin_false in Zv.
      assert (HE : exists e, eb = Fin e /\ e <= 1).
      { unfold required_eb_rel in Er. edestruct (req_loop_total (fun '(u0, u1, u2, v0, v1, v2) k =>
          derive_cp_eb_for_positions_online XA u0 u1 u2 v0 v1 v2 (inv_C XA k)) U1 V1 r1 r2 i j 1 six (Fin max_eb)) as (r & Er' & HB).
        - intros k Hk HM. apply in_six in Hk. destruct (tri_values_total U1 V1 r1 r2 i j k) as [w Ew]; try (change (T XA) with XR); auto; try lia.
          exists w. split; auto. apply (tri_values_vec _ _ _ _ _ _ _ Hk FU FV) in Ew. cbn zeta in Ew. rewrite Ew. apply derive_rel_upto.
        - apply upto_fin; lra.
        - pose proof (eq_trans (eq_sym Er) Er') as Er2. injection Er2 as Er2; subst r. apply upto_below0; auto. }
      destruct HE as (e & -> & He). cbn [dlt dofZ XA] in Dp. apply xlt_fin in Dp.
      assert (HQ : log_eb XA (Fin e) = Fin (log2R (1 + e))).
      { unfold log_eb. cbn [dlog2 dadd dofZ XA xadd xlog2]. rewrite Rlt_bool_true by lra. reflexivity. }
      assert (HQ2 : log2R (1 + e) <= 2).
      { unfold log2R. apply (Rmult_le_reg_r (ln 2)); [apply ln2_pos|]. unfold Rdiv. rewrite Rmult_assoc, Rinv_l by (pose proof ln2_pos; lra).
        rewrite Rmult_1_r. apply Rle_trans with (ln 2); [apply ln_le; lra|pose proof ln2_pos; lra]. }
      rewrite HQ. split; apply try2_total; auto; try lia; change (T XA) with XR; nia.
    + exists s', c. split; auto. split; [exact (log_lens_step XA _ _ _ _ _ _ _ _ _ _ HL E)|].
      exact (log_exact_step max_eb r1 r2 U V m _ s' c i j ltac:(lra) Hi Hj Hp HX' E).
  - split; [cbn [log_lens]; unfold U, V; rewrite !map_length; lia|].
    assert (L0 : 0 <= log2R (1 + max_eb)).
    { unfold log2R, Rdiv. apply Rmult_le_pos; [|left; apply Rinv_0_lt_compat, ln2_pos]. rewrite <- ln_1. apply ln_le; lra. }
    assert (LF : forall W, allfin W -> allfin (map (log_value XA) W)).
    { intros W FW k x E. rewrite aget_map in E. change (T XA) with XR in E. destruct (aget W k) as [y|] eqn:Ey; [|discriminate].
      destruct (FW _ _ Ey) as [z ->]. cbn [option_map] in E. rewrite log_value_exact in E. apply Some_inj in E. subst x. eauto. }
    assert (LB : forall W m x, aget W m = Some (Fin x) -> x <> 0 -> Rabs (atR (map (log_value XA) W) m - log2R (Rabs x)) <= log2R (1 + max_eb)).
    { intros W m x E N. unfold atR. rewrite aget_map. change (T XA) with XR. rewrite E. cbn [option_map]. rewrite log_value_exact.
      destruct (Req_EM_T x 0); [contradiction|]. cbn [toR]. rewrite Rminus_diag_eq, Rabs_R0 by auto. auto. }
    cbn [log_exact]. repeat (split; [first [apply untouched_refl|apply LF; apply FA|apply FA|apply LB]|]).
    intros. eapply Type2D.type_rel_refl; eauto.
Qed.

(** ** The machine: conversions of unrepresentable values give INT_MIN *)
Local Open Scope Z_scope.
Theorem log_machine_double (lm : Libm _ _) max_eb r1 r2 U V : lm_x86 lm = true ->
  0 <= r1 -> 0 < r2 -> Z.of_nat (length U) = r1 * r2 -> Z.of_nat (length V) = r1 * r2 ->
  exists s c, enc_log (DA lm) max_eb r1 r2 U V = Some (s, c).
Proof.
  intros HX. apply log_machine_total. intros x. rewrite (v_dtoint (DA lm) (DA_ieee lm)). cbn [DA_ieee oob]. unfold lm_oob. rewrite HX. destruct (xtoint _); eauto.
Qed.
Theorem log_machine_float (lm : Libm _ _) max_eb r1 r2 U V : lm_x86 lm = true ->
  0 <= r1 -> 0 < r2 -> Z.of_nat (length U) = r1 * r2 -> Z.of_nat (length V) = r1 * r2 ->
  exists s c, enc_log (FA lm) max_eb r1 r2 U V = Some (s, c).
Proof.
  intros HX. apply log_machine_total. intros x. rewrite (v_dtoint (FA lm) (FA_ieee lm)). cbn [FA_ieee oob]. unfold lm_oob. rewrite HX. destruct (xtoint _); eauto.
Qed.

(** A field with a critical cell and a non-critical one. *)
Lemma ex_log_exact :
  (exists s c, enc_log XA (Fin 1) 2 2 (map Fin gu) (map Fin gv) = Some (s, c)) /\
  (forall x, In x gu \/ In x gv -> not_tiny x) /\
  cell 2 2 (0, 0) (1, 0) (1, 1) /\ cell 2 2 (0, 0) (0, 1) (1, 1) /\
  has_cp (vecR 2 gu gv (0, 0)) (vecR 2 gu gv (1, 0)) (vecR 2 gu gv (1, 1)) /\
  ~ has_cp (vecR 2 gu gv (0, 0)) (vecR 2 gu gv (0, 1)) (vecR 2 gu gv (1, 1)).
Proof.
  split; [apply log_total; auto; try lia; try lra; reflexivity|]. split.
  - assert (P : (powerRZ 2 (-98) <= 1)%R).
    { rewrite powerRZ_Rpower by lra. rewrite <- (Rpower_O 2) by lra. apply Rle_Rpower; lra. }
    intros x Hx. cbn in Hx. unfold not_tiny. destruct Hx as [Hx|Hx];
    repeat (destruct Hx as [<-|Hx]; [first [left; reflexivity|right; unfold Rabs; destruct (Rcase_abs _); lra]|]); contradiction.
  - split; [apply (cell_lower 2 2 0 0); lia|]. split; [apply (cell_upper 2 2 0 0); lia|]. split; [exact g_cp|exact g_nocp].
Qed.
