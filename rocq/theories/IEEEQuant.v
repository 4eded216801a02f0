(** One component of the codecs in IEEE arithmetic: the check of the compressor gives a strict bound. *)
From Coq Require Import Reals Lra Lia ZArith List Bool.
From Coq Require Import ZifyBool ZifyNat.
From Flocq Require Import Core.Core IEEE754.BinarySingleNaN IEEE754.Binary IEEE754.Bits.
From Verif Require Import Base Arith Codec2D Exact IEEE IEEELaws.
Import ListNotations.
Local Open Scope R_scope.

Lemma bpow_1024_53 : IZR (2 ^ 53) < bpow radix2 1024.
Proof. change (IZR (2 ^ 53)) with (bpow radix2 53). apply bpow_lt. lia. Qed.

Local Instance p53 : Prec_gt_0 53 := eq_refl.

(** ** Scaling by powers of two in double *)
Lemma fmt64_scale r k : (0 <= k)%Z -> generic_format radix2 fexp64 r -> generic_format radix2 fexp64 (r * bpow radix2 k).
Proof.
  intros Hk G. apply (FLT_format_generic radix2 (-1074) 53) in G.
  destruct G as [f E1 E2 E3]. apply (generic_format_FLT radix2 (-1074) 53).
  exists (Float radix2 (Fnum f) (Fexp f + k)); cbn [Fnum Fexp]; auto; [|lia].
  rewrite E1. unfold F2R. cbn [Fnum Fexp]. rewrite bpow_plus. ring.
Qed.

Lemma fmt64_half r : 1 <= Rabs r -> generic_format radix2 fexp64 r -> generic_format radix2 fexp64 (r / 2).
Proof.
  intros H1 G. apply (FLT_format_generic radix2 (-1074) 53) in G.
  destruct G as [f E1 E2 E3]. apply (generic_format_FLT radix2 (-1074) 53).
  exists (Float radix2 (Fnum f) (Fexp f - 1)); cbn [Fnum Fexp]; auto.
  - rewrite E1. unfold F2R. cbn [Fnum Fexp]. unfold Zminus. rewrite bpow_plus.
    assert (E : bpow radix2 (-1) = / 2) by reflexivity. change (bpow radix2 (- (1))) with (bpow radix2 (-1)). rewrite E. field.
  - destruct (Z.eq_dec (Fexp f) (-1074)) as [E|N]; [|lia]. exfalso.
    assert (Rabs r < 1); [|lra]. rewrite E1. unfold F2R. rewrite Rabs_mult, (Rabs_pos_eq (bpow _ _)) by apply bpow_ge_0.
    rewrite E. apply IZR_lt in E2. rewrite abs_IZR in E2.
    apply Rlt_trans with (bpow radix2 53 * bpow radix2 (-1074)).
    + apply Rmult_lt_compat_r; [apply bpow_gt_0|exact E2].
    + rewrite <- bpow_plus. change 1 with (bpow radix2 0). apply bpow_lt. lia.
Qed.

(** libm as the codecs need it: powers of two are exact, log2 has an error of at most 2^-40
    (results of log2 are below 2^11, so 2^-40 is several units in the last place). *)
Record libm_ok (A : Arith) (I : ieee A) : Prop := {
  lo_pow : forall b id, (1 <= b <= 2)%Z -> (0 <= b * id <= 1023)%Z ->
    vD A I (dpow A (2 ^ b) id) = Fin (bpow radix2 (b * id));
  lo_pow_ge : forall b id, (1 <= b <= 2)%Z -> (0 < id)%Z -> xle (Fin 1) (vD A I (dpow A (2 ^ b) id)) = true;
  lo_log2_exact : forall x k, vD A I x = Fin (bpow radix2 k) -> vD A I (dlog2 A x) = Fin (IZR k);
  lo_log2 : forall x r, vD A I x = Fin r -> 0 < r ->
    exists l, vD A I (dlog2 A x) = Fin l /\ Rabs (l - ln r / ln 2) <= bpow radix2 (-40);
  lo_log2_inf : forall x, vD A I x = PInf -> vD A I (dlog2 A x) = PInf;
  lo_log2_nan : forall x, vD A I x = NaN -> vD A I (dlog2 A x) = NaN;
}.

Lemma xtoint_fin x z : xtoint x = Some z -> exists r, x = Fin r.
Proof. destruct x; try discriminate. eauto. Qed.

Section Q.
Context (A : Arith) (I : ieee A).
Local Notation vT := (vT A I). Local Notation vD := (vD A I).
Local Notation pT := (pT A I). Local Notation eT := (eT A I).
Local Notation HpT := (HpT A I).

Lemma vD_const z : (Z.abs z <= 2 ^ 53)%Z -> vD (dofZ A z) = Fin (IZR z).
Proof.
  intros H. rewrite v_dofZ. apply rndx_fin.
  - apply (fmt_IZR 53 1024 eq_refl); auto. lia.
  - rewrite <- abs_IZR. eapply Rle_lt_trans; [apply IZR_le; exact H|]. apply bpow_1024_53.
Qed.

Lemma dle_const x z : (Z.abs z <= 2 ^ 53)%Z -> dle A x (dofZ A z) = xle (vD x) (Fin (IZR z)).
Proof. intros. rewrite (v_dle A I), vD_const by auto. auto. Qed.

(** Dividing an infinity or NaN never gives a finite number. *)
Lemma div_notfin x y r : vD (ddiv A x y) = Fin r -> exists a, vD x = Fin a.
Proof.
  intros H. assert (Hy : vD y = Fin 0 \/ vD y <> Fin 0).
  { destruct (vD y) as [b| | |]; try (right; discriminate). destruct (Req_dec b 0) as [->|N]; [auto|right; congruence]. }
  destruct Hy as [Hy|Hy].
  - destruct (v_ddiv0 A I x y Hy) as [[E _]|[[E|E] _]]; congruence.
  - rewrite v_ddiv in H by auto. apply rndx_fin_inv in H. destruct H as (a & H & _).
    Local Transparent xdiv. destruct (vD x) as [c| | |], (vD y) as [b| | |]; cbn [xdiv] in H; try discriminate; eauto.
    all: destruct (Rlt_bool b 0); discriminate.
Qed.

Lemma toint_pos x z : dtoint A x = Some z -> (- 2 ^ 31 < z)%Z -> xtoint (vD x) = Some z.
Proof.
  rewrite (v_dtoint A I). destruct (xtoint (vD x)); auto. intros H Hz. destruct (oob_ok A I) as [E|E]; rewrite E in H; [discriminate|].
  apply Some_inj in H. lia.
Qed.

Lemma quantise_finite pred cur eb q x : quantise A pred cur eb = Some (Coded A q x) -> xlt (Fin 0) (vD eb) = true ->
  exists p c, vT pred = Fin p /\ vT cur = Fin c.
Proof.
  unfold quantise. set (diff := t2d A (tsub A cur pred)). set (qd := dadd A (ddiv A (dabs A diff) eb) (dofZ A 1)).
  destruct (dlt A qd (dofZ A capacity)) eqn:E; [|discriminate]. intros H Hpos.
  rewrite (v_dlt A I) in E. rewrite (vD_const capacity) in E by (unfold capacity; lia).
  assert (Fq : exists a, vD (dabs A diff) = Fin a).
  { assert (P : vD (dabs A diff) <> NInf) by (rewrite v_dabs; destruct (vD diff); discriminate).
    destruct (vD (dabs A diff)) as [r| | |] eqn:Ed; eauto; exfalso; [|congruence|].
    - unfold qd in E. rewrite v_dadd, (vD_const 1) in E by lia.
      rewrite v_ddiv in E by (intros X; rewrite X in Hpos; apply xlt_fin in Hpos; lra).
      rewrite Ed in E. destruct (vD eb) as [b| | |]; try discriminate Hpos.
      + apply xlt_fin in Hpos. unfold xdiv in E. rewrite Rlt_bool_false in E by lra. discriminate.
      + discriminate.
    - unfold qd in E. rewrite v_dadd, (vD_const 1) in E by lia.
      rewrite v_ddiv in E by (intros X; rewrite X in Hpos; apply xlt_fin in Hpos; lra). rewrite Ed in E. discriminate. }
  destruct Fq as [a Fa]. unfold diff in Fa. rewrite v_dabs, v_t2d, v_tsub in Fa.
  destruct (vT cur) as [c| | |], (vT pred) as [p| | |]; cbn in Fa; try discriminate; eauto.
Qed.

Local Opaque xdiv.
Lemma toint_range x z : dtoint A x = Some z -> (- 2 ^ 31 <= z < 2 ^ 31)%Z.
Proof.
  rewrite (v_dtoint A I). destruct (xtoint (vD x)) as [z'|] eqn:E.
  - intros H. apply Some_inj in H. subst z'. destruct (vD x); try discriminate. cbn [xtoint] in E.
    destruct ((- 2 ^ 31 <=? Ztrunc r)%Z && (Ztrunc r <? 2 ^ 31)%Z)%bool eqn:E'; [|discriminate]. apply Some_inj in E. lia.
  - destruct (oob_ok A I) as [->| ->]; [discriminate|]. intros H. apply Some_inj in H. lia.
Qed.

Lemma quantise_bound pred cur eb q x a : quantise A pred cur eb = Some (Coded A q x) ->
  vD eb = Fin a -> 0 < a -> generic_format radix2 (SpecFloat.fexp pT eT) a ->
  exists c y, vT cur = Fin c /\ vT x = Fin y /\ Rabs (y - c) < a.
Proof.
  intros H Ha Ha0 Hg. destruct (quantise_finite _ _ _ _ _ H) as (p & c & Ep & Ec); [rewrite Ha; apply xlt_fin; auto|].
  unfold quantise in H. destruct (dlt A _ _) in H; [|discriminate]. bind_as H h Eh.
  apply toint_range in Eh.
  set (dec := recon A pred intv_radius (h + intv_radius) eb) in H.
  destruct (dle A eb _) eqn:El; [discriminate|]. apply Some_inj in H. inversion H; subst q x.
  exists c. rewrite (v_dle A I), v_t2d, v_tabs, v_tsub, Ha, Ec in El.
  assert (Nd : vT dec <> NaN).
  { unfold dec, recon. rewrite v_d2t, v_dadd, v_t2d, v_dmul, Ha, Ep.
    rewrite (vD_const (2 * (h + intv_radius - intv_radius))) by lia. cbn [xmul rndx].
    apply rndx_notnan. apply rndx_notnan.
    destruct (sat_cases 1024 (round radix2 fexp64 ZnearestE (IZR (2 * (h + intv_radius - intv_radius)) * a))) as [[-> _]|[[-> _]|[-> _]]];
      cbn; discriminate. }
  destruct (vT dec) as [y| | |] eqn:Ey; try congruence; try (cbn in El; discriminate).
  exists y. split; auto. split; auto. cbn [xsub rndx] in El.
  destruct (sat_cases eT (round radix2 (SpecFloat.fexp pT eT) ZnearestE (y - c))) as [[E _]|[[E _]|[E _]]];
    rewrite E in El; cbn [xabs xle xlt orb] in El; try discriminate.
  apply xle_fin_false in El.
  destruct (Rlt_le_dec (Rabs (y - c)) a) as [L|L]; auto. exfalso.
  pose proof (rnd_bound_ge pT eT HpT _ _ Hg L). lra.
Qed.

(** ** The exponential quantisation of the bound *)
Context (L : libm_ok A I).

Lemma log2_mono_pow (k : Z) r d : 0 < r -> 0 <= d <= 1 -> IZR k <= ln r / ln 2 + d -> bpow radix2 k <= r * (1 + d).
Proof.
  intros Hr Hd H. pose proof ln2_pos as L2.
  assert (E : bpow radix2 k = Rpower 2 (IZR k)).
  { rewrite <- powerRZ_Rpower by lra. apply bpow_powerRZ. }
  rewrite E. apply Rle_trans with (Rpower 2 (ln r / ln 2 + d)).
  - apply Rle_Rpower; lra.
  - rewrite Rpower_plus. unfold Rpower at 1. replace (ln r / ln 2 * ln 2) with (ln r) by (field; lra).
    rewrite exp_ln by auto. apply Rmult_le_compat_l; [lra|].
    (* 2^d <= 1 + d by concavity of ln *)
    assert (C : d * ln 2 <= ln (1 + d)).
    { destruct (Req_dec d 0) as [->|N]; [rewrite Rplus_0_r, ln_1; lra|].
      destruct (Req_dec d 1) as [->|N1]; [replace (1 + 1) with 2 by lra; lra|].
      (* exp (d ln 2) <= 1 + d via mean value on both sides *)
      destruct (MVT_cor2 exp exp 0 (d * ln 2)) as (c1 & E1 & H1); [nra|intros; apply derivable_pt_lim_exp|].
      destruct (MVT_cor2 exp exp (d * ln 2) (ln 2)) as (c2 & E2 & H2); [nra|intros; apply derivable_pt_lim_exp|].
      rewrite exp_0 in E1. rewrite exp_ln in E2 by lra.
      assert (exp c1 < exp c2) by (apply exp_increasing; lra).
      assert (EX : exp (d * ln 2) <= 1 + d).
      { set (X := exp (d * ln 2)) in *.
        assert (E1' : X = 1 + exp c1 * d * ln 2) by lra.
        assert (E2' : 2 - X = exp c2 * (1 - d) * ln 2) by lra.
        assert (0 < exp c1) by apply exp_pos.
        assert ((1 - d) * (X - 1) <= d * (2 - X)); [|lra].
        rewrite E2'. replace (X - 1) with (exp c1 * d * ln 2) by lra.
        assert (0 < d * (1 - d) * ln 2) by (apply Rmult_lt_0_compat; [nra|lra]). nra. }
      rewrite <- (ln_exp (d * ln 2)). destruct EX as [EX|EX]; [left; apply ln_increasing; auto; apply exp_pos|right; rewrite EX; auto]. }
    unfold Rpower. rewrite <- (exp_ln (1 + d)) by lra.
    destruct C as [C|C]; [left; apply exp_increasing; auto|right; rewrite C; auto].
Qed.

Lemma quantize_ieee b t thr eb0 e id ab :
  (1 <= b <= 2)%Z -> (0 <= t <= 52)%Z -> vD thr = Fin (bpow radix2 (- t)) ->
  eb_exponential_quantize A (2 ^ b) thr eb0 = Some (id, ab) -> (0 < id)%Z ->
  vD eb0 = Fin e -> e * bpow radix2 t <= bpow radix2 1022 ->
  (b * id <= 1023)%Z /\ bpow radix2 (- t) < e /\
  vD ab = Fin (bpow radix2 (b * id - t)) /\ bpow radix2 (b * id - t) <= e * (1 + bpow radix2 (-40)).
Proof.
  intros Hb Ht Eth H Hid He Hmax. unfold eb_exponential_quantize in H.
  destruct (dle A eb0 thr) eqn:El.
  { apply Some_inj in H. inversion H. lia. }
  rewrite (v_dle A I), He, Eth in El. apply xle_fin_false in El. pose proof (bpow_gt_0 radix2 (- t)) as Pt.
  bind_as H id' Ei. apply Some_inj in H. inversion H; subst id' ab. clear H.
  assert (Er : vD (ddiv A eb0 thr) = Fin (e * bpow radix2 t)).
  { rewrite v_ddiv by (rewrite Eth; intros X; inversion X; lra). rewrite He, Eth.
    rewrite xdiv_fin by lra. replace (e / bpow radix2 (- t)) with (e * bpow radix2 t).
    2:{ unfold Rdiv. rewrite <- bpow_opp. rewrite Z.opp_involutive. reflexivity. }
    apply rndx_fin.
    - apply fmt64_scale; [lia|]. apply (vD_fmt A I _ _ He).
    - rewrite Rabs_pos_eq by (apply Rmult_le_pos; [lra|apply bpow_ge_0]). eapply Rle_lt_trans; [exact Hmax|].
      apply bpow_lt. lia. }
  assert (Hr : 1 < e * bpow radix2 t).
  { replace 1 with (bpow radix2 (- t) * bpow radix2 t).
    - apply Rmult_lt_compat_r; [apply bpow_gt_0|auto].
    - rewrite <- bpow_plus. replace (- t + t)%Z with 0%Z by lia. reflexivity. }
  set (r := e * bpow radix2 t) in *.
  destruct (lo_log2 A I L _ _ Er) as (l & El2 & Hl); [lra|].
  assert (Elb : vD (dlog2 A (dofZ A (2 ^ b))) = Fin (IZR b)).
  { apply (lo_log2_exact A I L). rewrite vD_const.
    - change (IZR (2 ^ b)) with (IZR (radix2 ^ b)). rewrite IZR_Zpower by lia. reflexivity.
    - assert (b = 1 \/ b = 2)%Z as [-> | ->] by lia; lia. }
  apply toint_pos in Ei; [|lia]. rewrite v_ddiv in Ei by (rewrite Elb; intros X; inversion X as [X']; apply eq_IZR in X'; lia).
  rewrite El2, Elb in Ei. rewrite xdiv_fin in Ei by (apply IZR_neq; lia).
  cbn [rndx] in Ei. destruct (sat_cases 1024 (round radix2 fexp64 ZnearestE (l / IZR b))) as [[E _]|[[E _]|[E _]]];
    rewrite E in Ei; try discriminate Ei.
  cbn [xtoint] in Ei. destruct (_ && _)%bool; [|discriminate]. apply Some_inj in Ei.
  set (f := round radix2 fexp64 ZnearestE (l / IZR b)) in *.
  assert (Hf : IZR id <= f).
  { destruct (Rle_lt_dec 0 f) as [F0|F0].
    - rewrite Ei. rewrite Ztrunc_floor by auto. apply Zfloor_lb.
    - exfalso. rewrite Ztrunc_ceil in Ei by lra. assert (Zceil f <= 0)%Z by (apply Zceil_glb; lra). lia. }
  assert (Hid1 : 1 <= IZR id) by (apply IZR_le; lia).
  assert (Hlb : IZR b * IZR id <= l).
  { assert (b = 1 \/ b = 2)%Z as [-> | ->] by lia.
    - assert (Ef : f = l).
      { unfold f. replace (l / 1) with l by field. apply rnd_id. apply (vD_fmt A I _ _ El2). }
      lra.
    - assert (L1 : 1 <= l).
      { destruct (Rle_lt_dec 1 l); auto. exfalso. assert (f <= / 2); [|lra].
        unfold f. rewrite <- (rnd_id 53 1024 (/ 2)) by (change (/ 2) with (bpow radix2 (-1)); apply (fmt_bpow 53 1024 eq_refl); lia).
        apply (rnd_le 53 1024 eq_refl). lra. }
      assert (Ef : f = l / 2).
      { unfold f. apply rnd_id. apply fmt64_half; [rewrite Rabs_pos_eq; lra|]. apply (vD_fmt A I _ _ El2). }
      lra. }
  apply Rabs_le_inv in Hl.
  assert (H40 : 0 <= bpow radix2 (-40) <= 1).
  { split; [apply bpow_ge_0|]. change 1 with (bpow radix2 0). apply bpow_le. lia. }
  assert (Hmain : bpow radix2 (b * id) <= r * (1 + bpow radix2 (-40))).
  { apply log2_mono_pow; [lra|auto|]. rewrite mult_IZR. lra. }
  assert (Hrange : (b * id <= 1023)%Z).
  { assert (bpow radix2 (b * id) < bpow radix2 1024); [|apply lt_bpow in H; lia].
    eapply Rle_lt_trans; [exact Hmain|]. eapply Rle_lt_trans; [apply Rmult_le_compat_r; [lra|exact Hmax]|].
    apply Rle_lt_trans with (bpow radix2 1022 * 2); [apply Rmult_le_compat_l; [apply bpow_ge_0|lra]|].
    change 2 with (bpow radix2 1). rewrite <- bpow_plus. apply bpow_lt. lia. }
  split; auto. split; [lra|].
  assert (Epow : vD (dpow A (2 ^ b) id) = Fin (bpow radix2 (b * id))) by (apply (lo_pow A I L); nia).
  assert (Hab : bpow radix2 (b * id) * bpow radix2 (- t) = bpow radix2 (b * id - t)).
  { unfold Zminus. rewrite bpow_plus. reflexivity. }
  split.
  - rewrite v_dmul, Epow, Eth. cbn [xmul]. rewrite Hab. apply rndx_fin.
    + apply (fmt_bpow 53 1024 eq_refl). nia.
    + rewrite Rabs_pos_eq by apply bpow_ge_0. apply bpow_lt. lia.
  - rewrite <- Hab. unfold r in Hmain.
    apply Rle_trans with (e * bpow radix2 t * (1 + bpow radix2 (-40)) * bpow radix2 (- t)).
    + apply Rmult_le_compat_r; [apply bpow_ge_0|auto].
    + right. replace (e * bpow radix2 t * (1 + bpow radix2 (-40)) * bpow radix2 (- t)) with
        (e * (1 + bpow radix2 (-40)) * (bpow radix2 t * bpow radix2 (- t))) by ring.
      rewrite <- bpow_plus. replace (t + - t)%Z with 0%Z by lia. cbn [bpow]. ring.
Qed.
End Q.
