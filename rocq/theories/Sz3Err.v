(** Error bound of the multilevel codec in IEEE arithmetic.  Nothing of /repo is modelled here. *)
From Coq Require Import Reals Lra Lia ZArith List Bool.
From Coq Require Import ZifyBool ZifyNat.
From Flocq Require Mult_error.
From Flocq Require Import Core.Core IEEE754.BinarySingleNaN IEEE754.Binary IEEE754.Bits.
From Verif Require Import Base Huffman Arith Mesh2D Derive2D Codec2D Sync2D Scan Exact IEEE IEEELaws IEEEQuant IEEE2D IEEEAbs2D IEEETotal2D
  Sz3 Sz3Order Sz3Sync.
Import ListNotations.

(** ** Runs *)
Section Run.
Context (A : Arith) (wrap : bool) (max_eb : D A) (r1 r2 : Z).
Context (W O : T A -> Prop) (K : visit -> T A -> T A -> Prop) (Cd : code (T A) -> Prop).
Definition all_T (P : T A -> Prop) (w : list (T A)) : Prop := forall k x, aget w k = Some x -> P x.

Lemma run_each : forall vs P U V U' V' c,
  (forall v U V U' V' c u w, In v vs -> all_T W U -> all_T W V -> aget U (v_p v) = Some u -> aget V (v_p v) = Some w -> O u -> O w ->
     sz3_point A wrap max_eb r1 r2 (U, V) v = Some ((U', V'), c) ->
     (forall u', aget U' (v_p v) = Some u' -> K v u u') /\ (forall w', aget V' (v_p v) = Some w' -> K v w w') /\ Cd c) ->
  (forall v x x', In v vs -> O x -> K v x x' -> W x') ->
  Cd code_nil -> (forall a b, Cd a -> Cd b -> Cd (code_app a b)) ->
  in_order P vs -> all_T W U -> all_T W V ->
  (forall q x, ~ P q -> aget U q = Some x -> O x) -> (forall q x, ~ P q -> aget V q = Some x -> O x) ->
  scan_enc (sz3_point A wrap max_eb r1 r2) vs (U, V) = Some ((U', V'), c) ->
  (forall v x x', In v vs -> aget U (v_p v) = Some x -> aget U' (v_p v) = Some x' -> K v x x') /\
  (forall v x x', In v vs -> aget V (v_p v) = Some x -> aget V' (v_p v) = Some x' -> K v x x') /\
  (forall q, ~ In q (map v_p vs) -> aget U' q = aget U q /\ aget V' q = aget V q) /\ Cd c.
Proof.
  induction vs as [|v vs IH]; intros P U V U' V' c Hs HK C0 CA HO WU WV OU OV H; cbn [scan_enc] in H.
  - apply Some_inj in H. injection H as -> -> ->. repeat split; auto; intros v x x' [].
  - bind_as H [[U1 V1] c1] E1. bind_as H [[U2 V2] c2] E2. apply Some_inj in H. injection H as -> -> ->.
    pose proof (in_order_nodup _ _ HO) as [ND NP]. cbn [map] in ND. inversion ND as [|x0 l0 Hx Hl]; subst. clear ND.
    destruct HO as (HN & HR & HO). pose proof (sz3_point_inv _ _ _ _ _ _ _ _ _ _ _ E1) as F.
    inversion F as [req id ab u w pu pw qu qw u' w' nu nw _ _ Eu Ew _ _ _ _ SU SV]; subst. clear F.
    destruct (Hs v U V U1 V1 _ u w (or_introl eq_refl) WU WV Eu Ew (OU _ _ HN Eu) (OV _ _ HN Ew) E1) as (KU & KV & KC).
    destruct (aset_Some _ _ _ _ SU) as (RU & LU & GU). destruct (aset_Some _ _ _ _ SV) as (RV & LV & GV).
    assert (GU0 : aget U1 (v_p v) = Some u') by (rewrite GU, Z.eqb_refl; auto).
    assert (GV0 : aget V1 (v_p v) = Some w') by (rewrite GV, Z.eqb_refl; auto).
    assert (GU1 : forall q, q <> v_p v -> aget U1 q = aget U q) by (intros q Hq; rewrite GU; destruct (Z.eqb_spec q (v_p v)); [contradiction|auto]).
    assert (GV1 : forall q, q <> v_p v -> aget V1 q = aget V q) by (intros q Hq; rewrite GV; destruct (Z.eqb_spec q (v_p v)); [contradiction|auto]).
    assert (WU1 : all_T W U1).
    { intros q x Ex. destruct (Z.eq_dec q (v_p v)) as [->|N].
      - rewrite GU0 in Ex. apply Some_inj in Ex. subst x. eapply HK; [left; reflexivity|exact (OU _ _ HN Eu)|]. apply KU. auto.
      - rewrite GU1 in Ex by auto. eauto. }
    assert (WV1 : all_T W V1).
    { intros q x Ex. destruct (Z.eq_dec q (v_p v)) as [->|N].
      - rewrite GV0 in Ex. apply Some_inj in Ex. subst x. eapply HK; [left; reflexivity|exact (OV _ _ HN Ew)|]. apply KV. auto.
      - rewrite GV1 in Ex by auto. eauto. }
    destruct (IH (fun q => P q \/ q = v_p v) U1 V1 U2 V2 c2) as (J1 & J2 & J3 & J4); auto.
    { intros v0 U0 V0 U0' V0' c0 u0 w0 Hv. apply Hs. right. auto. }
    { intros v0 x x' Hv. apply HK. right. auto. }
    { intros q x Hq Ex. rewrite GU1 in Ex by tauto. eapply OU; [|exact Ex]. tauto. }
    { intros q x Hq Ex. rewrite GV1 in Ex by tauto. eapply OV; [|exact Ex]. tauto. }
    assert (Ne : forall v0, In v0 vs -> v_p v0 <> v_p v).
    { intros v0 Hv E. apply Hx. rewrite <- E. apply in_map. auto. }
    destruct (J3 (v_p v)) as [J3U J3V]; [auto|]. split; [|split; [|split]].
    + intros v0 x x' [<-|Hv] Ex Ex'.
      * rewrite J3U in Ex'. assert (x = u) by congruence. subst x. apply KU. auto.
      * apply J1; auto. rewrite GU1; auto.
    + intros v0 x x' [<-|Hv] Ex Ex'.
      * rewrite J3V in Ex'. assert (x = w) by congruence. subst x. apply KV. auto.
      * apply J2; auto. rewrite GV1; auto.
    + intros q Hq. cbn [map In] in Hq. destruct (J3 q) as [-> ->]; [tauto|]. rewrite GU1, GV1; auto; intros ->; apply Hq; auto.
    + apply CA; auto.
Qed.
End Run.

Local Open Scope R_scope.
Section B.
Context (A : Arith) (I : ieee A) (L : libm_ok A I).
Local Notation vT := (vT A I). Local Notation vD := (vD A I).
Local Notation pT := (pT A I). Local Notation eT := (eT A I).
Local Notation HpT := (HpT A I).
Local Notation bnd := (bnd A I).

Lemma quantize_id b t thr eb0 e id ab : (1 <= b <= 2)%Z -> (0 <= t <= 52)%Z -> vD thr = Fin (bpow radix2 (- t)) ->
  eb_exponential_quantize A (2 ^ b) thr eb0 = Some (id, ab) -> vD eb0 = Fin e -> e * bpow radix2 t <= bpow radix2 1022 -> (0 <= id)%Z.
Proof.
  intros Hb Ht Eth H He Hmax. unfold eb_exponential_quantize in H.
  destruct (dle A eb0 thr) eqn:El; [apply Some_inj in H; inversion H; lia|].
  rewrite (v_dle A I), He, Eth in El. apply xle_fin_false in El. pose proof (bpow_gt_0 radix2 (- t)) as Pt.
  bind_as H id' Ei. apply Some_inj in H. inversion H; subst id' ab. clear H.
  assert (Er : vD (ddiv A eb0 thr) = Fin (e * bpow radix2 t)).
  { rewrite v_ddiv by (rewrite Eth; intros X; inversion X; lra). rewrite He, Eth.
    rewrite xdiv_fin by lra. replace (e / bpow radix2 (- t)) with (e * bpow radix2 t).
    2:{ unfold Rdiv. rewrite <- bpow_opp. rewrite Z.opp_involutive. reflexivity. }
    apply rndx_fin.
    - apply fmt64_scale; [lia|]. apply (vD_fmt A I _ _ He).
    - rewrite Rabs_pos_eq by (apply Rmult_le_pos; [lra|apply bpow_ge_0]). eapply Rle_lt_trans; [exact Hmax|].
      apply bpow_lt. lia. }
  assert (Hr : 1 < e * bpow radix2 t).
  { replace 1 with (bpow radix2 (- t) * bpow radix2 t).
    - apply Rmult_lt_compat_r; [apply bpow_gt_0|auto].
    - rewrite <- bpow_plus. replace (- t + t)%Z with 0%Z by lia. reflexivity. }
  set (r := e * bpow radix2 t) in *.
  destruct (lo_log2 A I L _ _ Er) as (l & El2 & Hl); [lra|].
  assert (Elb : vD (dlog2 A (dofZ A (2 ^ b))) = Fin (IZR b)).
  { apply (lo_log2_exact A I L). rewrite (vD_const A I).
    - change (IZR (2 ^ b)) with (IZR (radix2 ^ b)). rewrite IZR_Zpower by lia. reflexivity.
    - assert (b = 1 \/ b = 2)%Z as [-> | ->] by lia; lia. }
  apply Rabs_le_inv in Hl. destruct (log2_small r) as [S1 S2]; try lra.
  assert (H40 : bpow radix2 (-40) <= / 2) by (change (/ 2) with (bpow radix2 (-1)); apply bpow_le; lia).
  assert (B1 : Rabs (l / IZR b) <= bpow radix2 30).
  { assert (IZR b = 1 \/ IZR b = 2) as [-> | ->].
    { assert (b = 1 \/ b = 2)%Z as [-> | ->] by lia; auto. }
    all: apply Rabs_le; change (bpow radix2 30) with 1073741824; lra. }
  destruct (rndxD_bnd (l / IZR b) 30 ltac:(lia) B1) as (f & Ef & Bf & Ed).
  rewrite (v_dtoint A I) in Ei. rewrite v_ddiv in Ei by (rewrite Elb; intros X; inversion X as [X']; apply eq_IZR in X'; lia).
  rewrite El2, Elb, xdiv_fin in Ei by (apply IZR_neq; lia). rewrite Ef in Ei. cbn [xtoint] in Ei.
  assert (Hf : - / 2 <= f).
  { rewrite Ed. rewrite <- (rnd_id 53 1024 (- / 2)).
    - apply (rnd_le 53 1024 eq_refl). assert (IZR b = 1 \/ IZR b = 2) as [-> | ->]; [|lra|lra].
      assert (b = 1 \/ b = 2)%Z as [-> | ->] by lia; auto.
    - apply generic_format_opp. change (/ 2) with (bpow radix2 (-1)). apply (fmt_bpow 53 1024 eq_refl). lia. }
  assert (Ht0 : (0 <= Ztrunc f)%Z).
  { destruct (Rle_lt_dec 0 f).
    - rewrite Ztrunc_floor by auto. apply Zfloor_lub. auto.
    - rewrite Ztrunc_ceil by lra. assert (-1 < Zceil f)%Z; [|lia]. apply lt_IZR. eapply Rlt_le_trans; [|apply Zceil_ub]. cbn; lra. }
  assert (Hub : (Ztrunc f <= 2 ^ 30)%Z).
  { destruct (Rle_lt_dec 0 f) as [F|F].
    - rewrite Ztrunc_floor by auto. apply le_IZR. eapply Rle_trans; [apply Zfloor_lb|]. apply Rabs_le_inv in Bf. change (IZR (2 ^ 30)) with (bpow radix2 30). lra.
    - rewrite Ztrunc_ceil by lra. assert (Zceil f <= 0)%Z by (apply Zceil_glb; lra). lia. }
  replace (_ && _)%bool with true in Ei by lia. apply Some_inj in Ei. lia.
Qed.

(** The bound used for a component: zero, or a power of two not above the bound asked for, up to the error of log2. *)
Lemma quantize_any eb0 e id ab : eb_exponential_quantize A 4 (eps_double A) eb0 = Some (id, ab) -> vD eb0 = Fin e ->
  e * bpow radix2 52 <= bpow radix2 1022 ->
  vD ab = Fin 0 \/ exists k, (-52 <= k)%Z /\ vD ab = Fin (bpow radix2 k) /\ bpow radix2 (-52) < e /\ bpow radix2 k <= e * (1 + bpow radix2 (-40)).
Proof.
  intros H He Hm. change 4%Z with (2 ^ 2)%Z in H. pose proof (v_eps A I) as Eth. change (-52)%Z with (- (52))%Z in Eth.
  pose proof (quantize_id 2 52 _ _ _ _ _ ltac:(lia) ltac:(lia) Eth H He Hm) as Hid.
  pose proof (bpow_gt_0 radix2 (- (52))) as Pt.
  destruct (Z.eq_dec id 0) as [->|N].
  - unfold eb_exponential_quantize in H. destruct (dle A eb0 _) eqn:El; [apply Some_inj in H; inversion H; left; apply (vD_0 A I)|].
    rewrite (v_dle A I), He, Eth in El. apply xle_fin_false in El. bind_as H i Ei. apply Some_inj in H. apply pair_equal_spec in H as [<- ->]. clear Ei.
    right. exists (-52)%Z. split; [lia|]. split; [|split; [auto|]].
    + pose proof (lo_pow A I L 2 0 ltac:(lia) ltac:(lia)) as Ep. rewrite v_dmul, Ep. rewrite Eth. cbn [xmul]. replace (bpow radix2 (2 * 0)) with 1 by reflexivity. rewrite Rmult_1_l. apply rndx_fin.
      * apply (fmt_bpow 53 1024 eq_refl). lia.
      * rewrite Rabs_pos_eq by apply bpow_ge_0. apply (bpow_lt radix2 (-52) 1024). lia.
    + pose proof (bpow_gt_0 radix2 (-40)). change (bpow radix2 (-52)) with (bpow radix2 (- (52))). nra.
  - destruct (quantize_ieee A I L 2 52 _ _ e id ab ltac:(lia) ltac:(lia) Eth H ltac:(lia) He Hm) as (K1 & K2 & K3 & K4).
    right. exists (2 * id - 52)%Z. split; [lia|]. split; [auto|]. split; [exact K2|auto].
Qed.

(** ** Predictions *)
Lemma bnd_const z k : (0 <= k < eT)%Z -> Rabs (IZR z) <= bpow radix2 k -> bnd k (tofZ A z).
Proof. intros Hk H. destruct (rndxT_bnd A I (IZR z) k Hk H) as (s & E & Bs & _). exists s. rewrite v_tofZ. auto. Qed.

Lemma vT_const z : (Z.abs z <= 16)%Z -> (5 <= pT)%Z -> vT (tofZ A z) = Fin (IZR z).
Proof.
  intros Hz Hp. pose proof (eT_ok A I) as He. pose proof (pT_ok A I). rewrite v_tofZ. apply rndx_fin.
  - apply (fmt_IZR pT eT HpT); [|lia]. apply Z.le_trans with (2 ^ 5)%Z; [lia|apply Z.pow_le_mono_r; lia].
  - rewrite <- abs_IZR. apply Rle_lt_trans with (bpow radix2 5); [change (bpow radix2 5) with (IZR 32); apply IZR_le; lia|apply bpow_lt; lia].
Qed.

Lemma bnd_divc k x z : (5 <= pT)%Z -> (0 <= k < eT)%Z -> (1 <= z <= 16)%Z -> bnd k x -> bnd k (tdiv A x (tofZ A z)).
Proof.
  intros Hp Hk Hz (r & E & Br). pose proof (vT_const z ltac:(lia) Hp) as Ez. assert (P : 1 <= IZR z) by (apply IZR_le; lia).
  assert (Hd : Rabs (r / IZR z) <= bpow radix2 k).
  { unfold Rdiv. rewrite Rabs_mult, (Rabs_pos_eq (/ IZR z)) by (left; apply Rinv_0_lt_compat; lra).
    assert (/ IZR z <= 1) by (rewrite <- Rinv_1; apply Rinv_le; lra). pose proof (Rabs_pos r).
    assert (0 < / IZR z) by (apply Rinv_0_lt_compat; lra). nra. }
  destruct (rndxT_bnd A I _ k Hk Hd) as (s & Es & Bs & _). exists s. split; [|auto].
  rewrite v_tdiv by (rewrite Ez; intros X; inversion X; lra). rewrite E, Ez, xdiv_fin by lra. auto.
Qed.

Lemma predict_bnd k w v p : (5 <= pT)%Z -> (0 <= k)%Z -> (k + 8 < eT)%Z -> all_bnd A I k w ->
  predict A (aget w) (v_p v) (v_s v) (v_kind v) = Some p -> bnd (k + 7) p.
Proof.
  intros Hp Hk He Hw. pose proof (eT_ok A I) as HeT.
  assert (C3 : bnd 4 (tofZ A 3)) by (apply bnd_const; [lia|rewrite Rabs_pos_eq by lra; change (bpow radix2 4) with 16; lra]).
  assert (C6 : bnd 4 (tofZ A 6)) by (apply bnd_const; [lia|rewrite Rabs_pos_eq by lra; change (bpow radix2 4) with 16; lra]).
  assert (C9 : bnd 4 (tofZ A 9)) by (apply bnd_const; [lia|rewrite Rabs_pos_eq by lra; change (bpow radix2 4) with 16; lra]).
  assert (M : forall z x, bnd 4 z -> bnd k x -> bnd (k + 4) (tmul A z x)).
  { intros z x Hz Hx. replace (k + 4)%Z with (4 + k)%Z by lia. apply bnd_mul; auto; lia. }
  assert (Up : forall j x, (k <= j)%Z -> bnd k x -> bnd j x) by (intros; eapply bnd_mono; eauto).
  destruct (v_kind v); unfold predict; intros H.
  - apply Some_inj in H. subst p. exists 0. split; [apply vT_0|]. rewrite Rabs_R0. apply bpow_ge_0.
  - bind_as H a Ea. bind_as H b Eb. apply Some_inj in H. subst p. apply Hw in Ea, Eb.
    apply bnd_divc; try lia. apply (bnd_mono A I (k + 1)); [lia|]. apply bnd_add; auto; lia.
  - bind_as H a Ea. bind_as H b Eb. bind_as H c Ec. apply Some_inj in H. subst p. apply Hw in Ea, Eb, Ec.
    apply bnd_divc; try lia. apply (bnd_mono A I (k + 4 + 1 + 1)); [lia|]. apply bnd_sub; [lia|lia| |apply Up; auto; lia].
    apply bnd_add; auto; lia.
  - bind_as H a Ea. bind_as H b Eb. bind_as H c Ec. bind_as H d Ed. apply Some_inj in H. subst p. apply Hw in Ea, Eb, Ec, Ed.
    apply bnd_divc; try lia. replace (k + 7)%Z with (k + 4 + 1 + 1 + 1)%Z by lia. apply bnd_sub; [lia|lia| |apply Up; auto; lia].
    apply bnd_add; [lia|lia| |]. 2:{ apply (bnd_mono A I (k + 4)); [lia|auto]. }
    apply bnd_add; [lia|lia| |auto]. apply bnd_neg, Up; auto; lia.
  - bind_as H a Ea. bind_as H b Eb. bind_as H c Ec. apply Some_inj in H. subst p. apply Hw in Ea, Eb, Ec.
    apply bnd_divc; try lia. apply (bnd_mono A I (k + 4 + 1 + 1)); [lia|].
    apply bnd_add; [lia|lia| |]. 2:{ apply (bnd_mono A I (k + 4)); [lia|auto]. }
    apply bnd_add; [lia|lia| |auto]. apply bnd_neg, Up; auto; lia.
  - apply Hw in H. apply Up; auto; lia.
Qed.

(** ** One component *)
Definition within_le (m : R) (x y : T A) : Prop := exists a b, vT x = Fin a /\ vT y = Fin b /\ Rabs (b - a) <= m.

Lemma round_le_pow r k : (-52 <= k)%Z -> Rabs (round radix2 (SpecFloat.fexp pT eT) ZnearestE r) <= bpow radix2 k ->
  Rabs r <= bpow radix2 k * (1 + bpow radix2 (- pT)).
Proof.
  intros Hk H. pose proof HpT as P0. pose proof (pT_ok A I). pose proof (eT_ok A I).
  assert (VE : Valid_exp (SpecFloat.fexp pT eT)) by apply (fexp_correct pT eT P0).
  assert (ME : Monotone_exp (SpecFloat.fexp pT eT)) by (intros x y Hxy; unfold SpecFloat.fexp, SpecFloat.emin; lia).
  set (z := round radix2 (SpecFloat.fexp pT eT) ZnearestE r) in *.
  pose proof (error_le_half_ulp_round radix2 (SpecFloat.fexp pT eT) (fun x => negb (Z.even x)) r) as E. fold z in E.
  pose proof (ulp_le radix2 (SpecFloat.fexp pT eT) z (bpow radix2 k)) as U.
  rewrite (Rabs_pos_eq (bpow radix2 k)) in U by apply bpow_ge_0. specialize (U H). rewrite ulp_bpow in U.
  assert (X : SpecFloat.fexp pT eT (k + 1) = (k + 1 - pT)%Z) by (unfold SpecFloat.fexp, SpecFloat.emin; lia).
  rewrite X in U.
  assert (X2 : bpow radix2 (k + 1 - pT) = 2 * (bpow radix2 k * bpow radix2 (- pT))).
  { replace (k + 1 - pT)%Z with (k + - pT + 1)%Z by lia. rewrite bpow_2, bpow_plus. ring. }
  replace r with (z - (z - r)) by ring. eapply Rle_trans; [apply Rabs_triang|]. rewrite Rabs_Ropp.
  change (Znearest (fun x => negb (Z.even x))) with ZnearestE in E. fold z in E. lra.
Qed.

Lemma coded_err B wrap data pred eb k q x un : (0 <= B)%Z -> (B + 35 < eT)%Z -> (5 <= pT)%Z -> (-52 <= k <= B + 1)%Z ->
  bnd B data -> bnd (B + 9) pred -> vT eb = Fin (bpow radix2 k) -> quantized A wrap data pred eb q x un ->
  zeros [q] = length un /\ (x = data \/ within_le (bpow radix2 k * (1 + bpow radix2 (- pT))) data x).
Proof.
  intros HB HE Hp Hk Bd Bp Ee H. pose proof (eT_ok A I) as HeT. pose proof (bpow_gt_0 radix2 k) as Pk.
  destruct H as [|c n qi q E0 Ec En Ln Hd El]; [split; [reflexivity|auto]|].
  assert (Bdiff : bnd (B + 10) (tsub A data pred)).
  { replace (B + 10)%Z with (B + 9 + 1)%Z by lia. apply bnd_sub; [lia|lia| |auto]. apply (bnd_mono A I B); [lia|auto]. }
  assert (Hc : c = (- 2 ^ 31)%Z \/ (0 <= c)%Z).
  { rewrite (v_ttoint A I) in Ec. destruct Bdiff as (df & Edf & _).
    rewrite v_tdiv in Ec by (rewrite Ee; intros X; inversion X; lra). rewrite v_tabs, Edf, Ee in Ec. cbn [xabs] in Ec. rewrite xdiv_fin in Ec by lra.
    assert (Hnn : 0 <= Rabs df / bpow radix2 k) by (apply Rmult_le_pos; [apply Rabs_pos|left; apply Rinv_0_lt_compat; auto]).
    cbn [rndx] in Ec. pose proof (rnd_le pT eT HpT 0 _ Hnn) as R0. rewrite (rnd_id pT eT 0) in R0 by apply generic_format_0.
    set (z := round radix2 (SpecFloat.fexp pT eT) ZnearestE (Rabs df / bpow radix2 k)) in *.
    assert (Ho : oob A I = Some c -> c = (- 2 ^ 31)%Z) by (destruct (oob_ok A I) as [->| ->]; [discriminate|congruence]).
    destruct (sat_cases eT z) as [[E _]|[[E _]|[E _]]]; rewrite E in Ec; cbn [xtoint] in Ec; auto.
    destruct (_ && _)%bool; auto. apply Some_inj in Ec. right. rewrite Ec, Ztrunc_floor by auto. apply Zfloor_lub. auto. }
  pose proof (int32_range _ _ _ En) as Rn.
  assert (Rn' : (n < -2 ^ 30 \/ 1 <= n)%Z).
  { unfold int32 in En. destruct ((- 2 ^ 31 <=? c + 1)%Z && (c + 1 <? 2 ^ 31)%Z)%bool eqn:E1; [apply Some_inj in En; lia|].
    destruct wrap; [|discriminate]. apply Some_inj in En.
    assert (Hc2 : (c < 2 ^ 31)%Z).
    { rewrite (v_ttoint A I) in Ec. destruct (xtoint _) eqn:Ex in Ec.
      - apply Some_inj in Ec. subst z. destruct (vT _) in Ex; try discriminate. cbn [xtoint] in Ex. destruct (_ && _)%bool eqn:E2 in Ex; [|discriminate].
        apply Some_inj in Ex. lia.
      - destruct (oob_ok A I) as [E2|E2]; rewrite E2 in Ec; [discriminate|]. apply Some_inj in Ec. lia. }
    assert (c + 1 = 2 ^ 31)%Z by lia. rewrite H in En. change ((2 ^ 31 + 2 ^ 31) mod 2 ^ 32)%Z with 0%Z in En. lia. }
  assert (Rh : (- 2 ^ 30 <= Z.shiftr n 1 <= 32767)%Z).
  { rewrite shiftr1. split; [apply Z.div_le_lower_bound; lia|]. assert (n / 2 < 32768)%Z by (apply Z.div_lt_upper_bound; lia). lia. }
  assert (Nq : q <> 0%Z).
  { assert (Z.shiftr n 1 < - 32768 \/ 0 <= Z.shiftr n 1)%Z.
    { rewrite shiftr1. destruct Rn'; [left; apply Z.div_lt_upper_bound; lia|right; apply Z.div_pos; lia]. }
    unfold intv_radius in Hd. destruct Hd as [(_ & _ & ->)|(_ & _ & ->)]; lia. }
  split.
  { cbn [length]. unfold zeros. cbn [count_occ]. destruct (Z.eq_dec q 0); [contradiction|reflexivity]. }
  right.
  assert (Rq : Rabs (IZR qi) <= bpow radix2 31).
  { change (bpow radix2 31) with (IZR (2 ^ 31)). rewrite <- abs_IZR. apply IZR_le.
    destruct Hd as [(_ & Eq & _)|(_ & -> & _)]; [apply int32_range in Eq; lia|lia]. }
  assert (Beb : bnd (B + 1) eb).
  { exists (bpow radix2 k). split; auto. rewrite Rabs_pos_eq by lra. apply bpow_le. lia. }
  set (y := tadd A pred (tmul A (tofZ A qi) eb)) in *.
  assert (By : bnd (B + 33) y).
  { replace (B + 33)%Z with (B + 32 + 1)%Z by lia. apply bnd_add; [lia|lia| |].
    - apply (bnd_mono A I (B + 9)); [lia|auto].
    - replace (B + 32)%Z with (31 + (B + 1))%Z by lia. apply bnd_mul; try lia; auto. apply bnd_const; [lia|auto]. }
  destruct By as (yr & Ey & Ry). destruct Bd as (d & Ed & Rd).
  assert (Rs : Rabs (yr - d) <= bpow radix2 (B + 34)).
  { replace (B + 34)%Z with (B + 33 + 1)%Z by lia. rewrite bpow_2. assert (bpow radix2 B <= bpow radix2 (B + 33)) by (apply bpow_le; lia).
    unfold Rminus. eapply Rle_trans; [apply Rabs_triang|]. rewrite Rabs_Ropp. lra. }
  destruct (rndxT_bnd A I (yr - d) (B + 34) ltac:(lia) Rs) as (z & Ez & _ & Hz).
  rewrite (v_tlt A I), v_tabs, v_tsub, Ey, Ed, Ee in El. cbn [xsub] in El. rewrite Ez in El. cbn [xabs] in El. apply xlt_fin_false in El.
  exists d, yr. split; auto. split; auto. apply round_le_pow; [lia|]. rewrite <- Hz. lra.
Qed.

(** ** The field *)
Lemma vD_half : vD (ddiv A (dofZ A 1) (dofZ A 2)) = Fin (/ 2).
Proof.
  rewrite v_ddiv by (rewrite (vD_const A I 2) by lia; intros X; inversion X; lra). rewrite !(vD_const A I) by lia. rewrite xdiv_fin by lra.
  replace (1 / 2) with (bpow radix2 (-1)) by (cbn; lra). rewrite rndx_fin; [reflexivity| |].
  - apply (fmt_bpow 53 1024 eq_refl). lia.
  - rewrite Rabs_pos_eq by apply bpow_ge_0. apply bpow_lt. lia.
Qed.

(** Half a number is exact unless it underflows. *)
Lemma level_eb_val max_eb m half : vD max_eb = Fin m ->
  exists e, vD (level_eb A max_eb half) = Fin e /\ e <= Rmax 0 m /\ (half = true -> bpow radix2 (-52) < e -> e = m / 2) /\ (half = false -> e = m).
Proof.
  intros Em. unfold level_eb. destruct half; [|exists m; split; [auto|]; split; [apply Rmax_r|]; split; [discriminate|auto]].
  rewrite v_dmul, Em, vD_half. cbn [xmul]. destruct (vD_fmt A I _ _ Em) as [Gm Bm].
  assert (Hr : Rabs (m * / 2) <= Rabs m) by (rewrite Rabs_mult, (Rabs_pos_eq (/ 2)) by lra; pose proof (Rabs_pos m); lra).
  assert (Gabs : generic_format radix2 fexp64 (Rabs m)) by (apply generic_format_abs; auto).
  pose proof (rnd_bound 53 1024 eq_refl _ _ Gabs Hr) as Hb.
  exists (round radix2 fexp64 ZnearestE (m * / 2)). split; [|split; [|split]].
  - cbn [rndx]. apply sat_small. eapply Rle_lt_trans; [exact Hb|auto].
  - destruct (Rle_lt_dec m 0) as [Z|Z].
    + rewrite Rmax_left by auto. rewrite <- (rnd_id 53 1024 0) by apply generic_format_0. apply (rnd_le 53 1024 eq_refl). lra.
    + rewrite Rmax_right by lra. rewrite <- (rnd_id 53 1024 m Gm) at 2. apply (rnd_le 53 1024 eq_refl). lra.
  - intros _ He. assert (Hm : bpow radix2 (-1020) <= m).
    { destruct (Rle_lt_dec (bpow radix2 (-1020)) m) as [Q|Q]; [auto|]. exfalso. apply (Rlt_not_le _ _ He).
      rewrite <- (rnd_id 53 1024 (bpow radix2 (-52))) by (apply (fmt_bpow 53 1024 eq_refl); lia). apply (rnd_le 53 1024 eq_refl).
      assert (bpow radix2 (-1020) <= bpow radix2 (-52)) by (apply bpow_le; lia). pose proof (bpow_gt_0 radix2 (-52)). lra. }
    replace (m / 2) with (m * / 2) by (unfold Rdiv; ring). apply rnd_id.
    replace (/ 2) with (bpow radix2 (-1)) by (cbn; lra).
    apply (Mult_error.mult_bpow_exact_FLT radix2 (-1074) 53) with (e := (-1)%Z) in Gm; auto.
    assert (-1020 + 1 <= mag radix2 m)%Z; [|lia]. apply mag_ge_bpow.
    replace (-1020 + 1 - 1)%Z with (-1020)%Z by lia. rewrite Rabs_pos_eq; [auto|]. pose proof (bpow_ge_0 radix2 (-1020)). lra.
  - discriminate.
Qed.

Lemma derive_abs_atmost Wd eb e U V i j r1 r2 r : (0 <= Wd)%Z -> (2 * Wd + 4 < eT)%Z ->
  all_bnd A I Wd U -> all_bnd A I Wd V -> vD eb = Fin e -> derive_eb_abs A eb U V r1 r2 i j = Some r -> atmost e (vD r).
Proof.
  intros HW HE HU HV Hm H. unfold derive_eb_abs in H. revert H. apply (req_loop_atmost A I).
  - intros k w Hk Hw. pose proof (tri_bnd A I Wd _ _ _ _ _ _ HU HV Hw) as T. destruct w as [[[[[u0 u1] u2] v0] v1] v2].
    destruct T as (T1 & T2 & T3 & T4 & T5 & T6). eapply derive_abs_notnan; eauto.
  - right. exists e. split; [auto|lra].
Qed.

(** What a visit may do to a component. *)
Definition slack : R := (1 + bpow radix2 (-40)) * (1 + bpow radix2 (- pT)).
Definition moved (m : R) (v : visit) (x x' : T A) : Prop :=
  x' = x \/ 0 < m /\ within_le ((if v_half v then m / 2 else m) * slack) x x'.

Lemma slack_le : 1 <= slack <= 2.
Proof.
  unfold slack. pose proof (pT_ok A I). pose proof (bpow_gt_0 radix2 (-40)). pose proof (bpow_gt_0 radix2 (- pT)).
  assert (bpow radix2 (-40) <= / 4) by (change (/ 4) with (bpow radix2 (-2)); apply bpow_le; lia).
  assert (bpow radix2 (- pT) <= / 4) by (change (/ 4) with (bpow radix2 (-2)); apply bpow_le; lia). nra.
Qed.

Lemma moved_bnd B m v x x' : m <= bpow radix2 B -> bnd B x -> moved m v x x' -> bnd (B + 2) x'.
Proof.
  intros Hm (r & E & Hr) [->|(Pm & a & b & Ea & Eb & Hab)].
  - apply (bnd_mono A I B); [lia|exists r; auto].
  - exists b. split; [auto|]. assert (a = r) by congruence. subst a. pose proof slack_le.
    replace (B + 2)%Z with (B + 1 + 1)%Z by lia. rewrite !bpow_2.
    assert (Rabs (b - r) <= 2 * bpow radix2 B) by (destruct (v_half v); nra).
    replace b with (b - r + r) by ring. eapply Rle_trans; [apply Rabs_triang|]. lra.
Qed.

Lemma step_err B wrap max_eb m r1 r2 v U V U' V' c u w : (0 <= B)%Z -> (2 * B + 8 < eT)%Z -> (B + 35 < eT)%Z -> (5 <= pT)%Z ->
  vD max_eb = Fin m -> m <= bpow radix2 B ->
  all_T A (bnd (B + 2)) U -> all_T A (bnd (B + 2)) V -> aget U (v_p v) = Some u -> aget V (v_p v) = Some w -> bnd B u -> bnd B w ->
  sz3_point A wrap max_eb r1 r2 (U, V) v = Some ((U', V'), c) ->
  (forall u', aget U' (v_p v) = Some u' -> moved m v u u') /\ (forall w', aget V' (v_p v) = Some w' -> moved m v w w') /\
  zeros (c_q c) = length (c_unp c).
Proof.
  intros HB HE HE2 Hp Em Hm WU WV Eu Ew Bu Bw H. apply sz3_point_inv in H.
  destruct H as [req id ab u1 w1 pu pw qu qw u' w' nu nw Er Eq Eu1 Ew1 Epu Epw Equ Eqw SU SV].
  rewrite Eu in Eu1. rewrite Ew in Ew1. apply Some_inj in Eu1, Ew1. subst u1 w1.
  apply quantized_inv in Equ. apply quantized_inv in Eqw.
  destruct (aset_Some _ _ _ _ SU) as (_ & _ & GU). destruct (aset_Some _ _ _ _ SV) as (_ & _ & GV).
  specialize (GU (v_p v)). specialize (GV (v_p v)). rewrite Z.eqb_refl in GU, GV.
  destruct (level_eb_val max_eb m (v_half v) Em) as (e0 & E0 & L0 & Lh & Lf).
  pose proof (derive_abs_atmost (B + 2) _ e0 U V _ _ _ _ req ltac:(lia) ltac:(lia) WU WV E0 Er) as AT.
  pose proof (bpow_gt_0 radix2 B) as PB. pose proof (eT_ok A I) as HeT.
  (* the stored case *)
  assert (ST : forall data pred q x un, vT (d2t A ab) = Fin 0 -> quantized A wrap data pred (d2t A ab) q x un -> zeros [q] = length un /\ x = data).
  { intros data pred q x un Ez Hq. destruct Hq as [|c n qi q E1]; [auto|]. rewrite (v_teq A I), Ez, vT_0 in E1. cbn [xeq] in E1.
    rewrite Req_bool_true in E1 by auto. discriminate. }
  assert (AB : vT (d2t A ab) = Fin 0 \/ exists k, (-52 <= k <= B + 1)%Z /\ vT (d2t A ab) = Fin (bpow radix2 k) /\ 0 < m /\
     bpow radix2 k <= (if v_half v then m / 2 else m) * (1 + bpow radix2 (-40))).
  { destruct AT as [AT|(e & Ee & Le)].
    - left. unfold eb_exponential_quantize in Eq. replace (dle A req (eps_double A)) with true in Eq.
      + apply Some_inj in Eq. injection Eq as _ ->. rewrite v_d2t. unfold d0. rewrite vD_0. apply rndx_fin; [apply generic_format_0|]. rewrite Rabs_R0. apply bpow_gt_0.
      + rewrite (v_dle A I), AT, v_eps. reflexivity.
    - assert (Me : e <= bpow radix2 B). { pose proof (Rmax_lub 0 m (bpow radix2 B) ltac:(lra) Hm). lra. }
      destruct (quantize_any _ e _ _ Eq Ee) as [Z|(k & Hk & Ek & Pe & Lk)].
      { apply Rle_trans with (bpow radix2 B * bpow radix2 52); [apply Rmult_le_compat_r; [apply bpow_ge_0|auto]|].
        rewrite <- bpow_plus. apply bpow_le. lia. }
      + left. rewrite v_d2t, Z. apply rndx_fin; [apply generic_format_0|]. rewrite Rabs_R0. apply bpow_gt_0.
      + right. exists k. pose proof (bpow_gt_0 radix2 (-52)) as P52.
        assert (Pm : 0 < m). { destruct (Rle_lt_dec m 0) as [Z|Z]; [|auto]. rewrite Rmax_left in L0 by auto. lra. }
        assert (H40 : 0 < bpow radix2 (-40) < 1).
        { split; [apply bpow_gt_0|]. change 1 with (bpow radix2 0). apply bpow_lt. lia. }
        assert (Lkb : (k <= B + 1)%Z).
        { apply (le_bpow radix2). rewrite bpow_2. nra. }
        split; [lia|]. split; [|split; [auto|]].
        * rewrite v_d2t, Ek. apply rndx_fin.
          -- apply (fmt_bpow pT eT HpT). pose proof (pT_ok A I). lia.
          -- rewrite Rabs_pos_eq by apply bpow_ge_0. apply bpow_lt. lia.
        * assert (E2 : e0 = if v_half v then m / 2 else m) by (destruct (v_half v); [apply Lh; auto; lra|apply Lf; auto]).
          rewrite <- E2. nra. }
  assert (OC : forall data pred q x un, bnd B data -> bnd (B + 9) pred -> quantized A wrap data pred (d2t A ab) q x un ->
     zeros [q] = length un /\ moved m v data x).
  { intros data pred q x un Bd Bp Hq. destruct AB as [Z|(k & Hk & Ek & Pm & Lk)].
    - destruct (ST _ _ _ _ _ Z Hq) as [Q1 Q2]. split; [auto|left; auto].
    - destruct (coded_err B wrap data pred _ k q x un HB HE2 Hp Hk Bd Bp Ek Hq) as [Q1 [Q2|Q2]]; (split; [auto|]); [left; auto|right].
      split; [auto|]. destruct Q2 as (a & b & Ea & Eb & Hab). exists a, b. split; [auto|]. split; [auto|]. eapply Rle_trans; [exact Hab|].
      unfold slack. rewrite <- Rmult_assoc. apply Rmult_le_compat_r; [|auto]. pose proof (bpow_gt_0 radix2 (- pT)). lra. }
  destruct (OC u pu qu u' nu Bu) as [Q1 Q2]; auto.
  { replace (B + 9)%Z with (B + 2 + 7)%Z by lia. eapply predict_bnd; [lia|lia|lia|exact WU|exact Epu]. }
  destruct (OC w pw qw w' nw Bw) as [Q3 Q4]; auto.
  { replace (B + 9)%Z with (B + 2 + 7)%Z by lia. eapply predict_bnd; [lia|lia|lia|exact WV|exact Epw]. }
  split; [|split].
  - intros x Ex. rewrite GU in Ex. apply Some_inj in Ex. subst x. auto.
  - intros x Ex. rewrite GV in Ex. apply Some_inj in Ex. subst x. auto.
  - cbn [c_q c_unp]. rewrite app_length. change [qu; qw] with ([qu] ++ [qw]). rewrite zeros_app. lia.
Qed.

Theorem sz3_err B wrap max_eb m r1 r2 U V U' V' c : (0 <= B)%Z -> (2 * B + 8 < eT)%Z -> (B + 35 < eT)%Z -> (5 <= pT)%Z ->
  (1 <= r1)%Z -> (1 <= r2)%Z -> Z.of_nat (length U) = (r1 * r2)%Z -> Z.of_nat (length V) = (r1 * r2)%Z ->
  vD max_eb = Fin m -> m <= bpow radix2 B -> moderate A I B U -> moderate A I B V ->
  enc_sz3 A wrap max_eb r1 r2 U V = Some ((U', V'), c) ->
  zeros (c_q c) = length (c_unp c) /\
  forall i j, (0 <= i < r1)%Z -> (0 <= j < r2)%Z -> exists h, ((i mod 4 = 0)%Z -> (j mod 4 = 0)%Z -> h = true) /\
    forall x x', (aget U (i * r2 + j) = Some x /\ aget U' (i * r2 + j) = Some x') \/ (aget V (i * r2 + j) = Some x /\ aget V' (i * r2 + j) = Some x') ->
    x' = x \/ 0 < m /\ within_le ((if h : bool then m / 2 else m) * slack) x x'.
Proof.
  intros HB HE HE2 Hp R1 R2 LU LV Em Hm MU MV H. unfold enc_sz3 in H. destruct (visits_order r1 r2 R1 R2) as [HO HP].
  assert (Up : forall w, moderate A I B w -> all_T A (bnd (B + 2)) w).
  { intros w Mw k x Ex. apply (bnd_mono A I B); [lia|]. eapply Mw; eauto. }
  destruct (run_each A wrap max_eb r1 r2 (bnd (B + 2)) (bnd B) (moved m) (fun c => zeros (c_q c) = length (c_unp c))
     (visits r1 r2) (fun _ => False) U V U' V' c) as (K1 & K2 & _ & K3); auto.
  - intros v U0 V0 U0' V0' c0 u w _ W0 W1 G0 G1 O0 O1 HS. exact (step_err B wrap max_eb m r1 r2 v U0 V0 U0' V0' c0 u w HB HE HE2 Hp Em Hm W0 W1 G0 G1 O0 O1 HS).
  - intros v x x' _ HO' HM. eapply moved_bnd; eauto.
  - intros a b Ha Hb. cbn [code_app c_q c_unp]. rewrite zeros_app, app_length. lia.
  - intros q x _ Ex. eapply MU; eauto.
  - intros q x _ Ex. eapply MV; eauto.
  - split; [auto|]. intros i j Hi Hj.
    assert (Hin : In (i * r2 + j)%Z (map v_p (visits r1 r2))) by (apply HP; nia).
    apply in_map_iff in Hin as (v & Ev & Hv). destruct (visits_coord r1 r2 R1 R2 v Hv) as (Ci & Cj & Cp).
    assert (v_i v = i /\ v_j v = j) as [Ei Ej] by (apply (idx_inj r2); auto; lia).
    exists (v_half v). split.
    + intros Mi Mj. destruct (v_half v) eqn:Eh; [auto|]. destruct (visits_half r1 r2 R2 v Hv Eh); lia.
    + rewrite <- Ev. intros x x' [[Ex Ex']|[Ex Ex']]; [apply (K1 v x x' Hv Ex Ex')|apply (K2 v x x' Hv Ex Ex')].
Qed.
End B.
