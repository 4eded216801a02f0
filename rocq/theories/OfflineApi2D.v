(** The offline 2D codec on double and float fields: bounds used by both sides, round trip and error bound. *)
From Coq Require Import Reals Lra Lia ZArith List Bool.
From Coq Require Import ZifyBool ZifyNat.
From Flocq Require Import Core.Core Relative IEEE754.BinarySingleNaN IEEE754.Binary IEEE754.Bits.
From Verif Require Import Base Huffman HuffStream HuffProps Stream Arith Mesh2D Derive2D Codec2D Sync2D Stream2D Exact IEEE IEEELaws IEEEQuant IEEE2D Api2D
  RelaxApi2D LinQuant Block BlockSync BlockTile BlockBytes BlockIEEE BlockApi Offline2D OfflineCodec2D.
Import ListNotations.
Local Open Scope R_scope.

(** The product of value and relative bound is not between 2^-52 (the smallest coded bound) and 2^-49. *)
Definition off_gap (p : R) : Prop := p <= bpow radix2 (-52) \/ bpow radix2 (-49) <= p <= bpow radix2 960.

Section Q.
Context (A : Arith) (I : ieee A) (L : libm_ok A I).
Local Notation vT := (vT A I). Local Notation vD := (vD A I).

Lemma prod_val x e r a : vT x = Fin r -> vD e = Fin a -> 0 <= a -> off_gap (Rabs r * a) ->
  exists p, vD (dmul A (t2d A (tabs A x)) e) = Fin p /\ 0 <= p /\
    (p <= bpow radix2 (-52) \/ bpow radix2 (-49) <= p <= bpow radix2 960 /\ p <= Rabs r * a * (1 + bpow radix2 (-53))).
Proof.
  intros Hx He Ha HG. pose proof (Rabs_pos r) as Pr. set (q := Rabs r * a) in *. assert (Pq : 0 <= q) by (apply Rmult_le_pos; auto).
  assert (F960 : generic_format radix2 fexp64 (bpow radix2 960)) by (apply (fmt_bpow 53 1024 eq_refl); lia).
  assert (F49 : generic_format radix2 fexp64 (bpow radix2 (-49))) by (apply (fmt_bpow 53 1024 eq_refl); lia).
  assert (F52 : generic_format radix2 fexp64 (bpow radix2 (-52))) by (apply (fmt_bpow 53 1024 eq_refl); lia).
  assert (Q960 : q <= bpow radix2 960).
  { destruct HG as [H|H]; [|lra]. eapply Rle_trans; [exact H|]. apply bpow_le. lia. }
  assert (R960 : Rabs (round radix2 fexp64 ZnearestE q) <= bpow radix2 960)
    by (apply (rnd_bound 53 1024 eq_refl); auto; rewrite Rabs_pos_eq; auto).
  exists (round radix2 fexp64 ZnearestE q). rewrite v_dmul, v_t2d, v_tabs, Hx, He. cbn [xabs xmul]. fold q.
  assert (R0 : 0 <= round radix2 fexp64 ZnearestE q).
  { rewrite <- (rnd_0 53 1024). apply (rnd_le 53 1024 eq_refl). exact Pq. }
  rewrite Rabs_pos_eq in R960 by auto.
  split.
  { cbn [rndx]. apply sat_fin. rewrite Rabs_pos_eq by auto. eapply Rle_lt_trans; [exact R960|]. apply bpow_lt. lia. }
  assert (HN : bpow radix2 (-1022) <= q -> round radix2 fexp64 ZnearestE q <= q * (1 + bpow radix2 (-53))).
  { intros HQ. pose proof (relative_error_N_FLT radix2 (-1074) 53 ltac:(lia) (fun z => negb (Z.even z)) q) as RE.
    rewrite (Rabs_pos_eq q) in RE by auto. specialize (RE HQ).
    change (/ 2 * bpow radix2 (- (53) + 1)) with (bpow radix2 (-1) * bpow radix2 (-52)) in RE. rewrite <- bpow_plus in RE.
    change (-1 + -52)%Z with (-53)%Z in RE. apply Rabs_le_inv in RE. change (FLT_exp (-1074) 53) with fexp64 in RE. lra. }
  split; [lra|]. destruct HG as [H|[H1 H2]].
  - left. apply Rle_trans with (Rabs (round radix2 fexp64 ZnearestE q)); [apply Rle_abs|]. apply (rnd_bound 53 1024 eq_refl); auto.
    rewrite Rabs_pos_eq; auto.
  - right. split; [split; [|exact R960]|].
    + rewrite <- (Rabs_pos_eq _ R0). apply (rnd_bound_ge 53 1024 eq_refl); auto. rewrite Rabs_pos_eq; auto.
    + apply HN. eapply Rle_trans; [|exact H1]. apply bpow_le. lia.
Qed.

Lemma log2_ge_3 r : 8 <= r -> 3 <= ln r / ln 2.
Proof.
  intros H. pose proof ln2_pos as L2. apply (Rmult_le_reg_r (ln 2)); [auto|]. unfold Rdiv. rewrite Rmult_assoc, Rinv_l, Rmult_1_r by lra.
  replace (3 * ln 2) with (ln 8).
  - destruct H as [H| <-]; [left; apply ln_increasing; lra|lra].
  - replace 8 with (2 * (2 * 2)) by ring. rewrite !ln_mult by lra. ring.
Qed.

(** Above the gap the symbol is positive. *)
Lemma quantize_positive eb0 e id ab : eb_exponential_quantize A 4 (eps_double A) eb0 = Some (id, ab) -> vD eb0 = Fin e ->
  bpow radix2 (-49) <= e <= bpow radix2 960 -> (0 < id)%Z.
Proof.
  intros H He [H1 H2]. pose proof (v_eps A I) as Eth. unfold eb_exponential_quantize in H.
  destruct (dle A eb0 (eps_double A)) eqn:El.
  { exfalso. rewrite (v_dle A I), He, Eth in El. apply xle_fin in El. assert (bpow radix2 (-52) < bpow radix2 (-49)) by (apply bpow_lt; lia). lra. }
  bind_as H id' Ei. apply Some_inj in H. inversion H; subst id' ab. clear H.
  assert (P0 : 0 <= e) by (eapply Rle_trans; [apply bpow_ge_0|exact H1]).
  assert (EB : e * bpow radix2 52 <= bpow radix2 1012).
  { change 1012%Z with (960 + 52)%Z. rewrite bpow_plus. apply Rmult_le_compat_r; [apply bpow_ge_0|auto]. }
  assert (Er : vD (ddiv A eb0 (eps_double A)) = Fin (e * bpow radix2 52)).
  { rewrite v_ddiv by (rewrite Eth; intros X; inversion X; pose proof (bpow_gt_0 radix2 (-52)); lra). rewrite He, Eth.
    rewrite xdiv_fin by (apply Rgt_not_eq, bpow_gt_0). replace (e / bpow radix2 (-52)) with (e * bpow radix2 52).
    2:{ unfold Rdiv. rewrite <- bpow_opp. reflexivity. }
    apply rndx_fin.
    - apply fmt64_scale; [lia|]. apply (vD_fmt A I _ _ He).
    - rewrite Rabs_pos_eq by (apply Rmult_le_pos; [lra|apply bpow_ge_0]). eapply Rle_lt_trans; [exact EB|]. apply bpow_lt. lia. }
  assert (Hr : 8 <= e * bpow radix2 52).
  { change 8 with (bpow radix2 3). change 3%Z with (-49 + 52)%Z. rewrite bpow_plus. apply Rmult_le_compat_r; [apply bpow_ge_0|auto]. }
  set (r := e * bpow radix2 52) in *.
  destruct (lo_log2 A I L _ _ Er) as (l & El2 & Hl); [lra|].
  assert (Elb : vD (dlog2 A (dofZ A 4)) = Fin (IZR 2)).
  { apply (lo_log2_exact A I L). rewrite (vD_const A I) by lia. reflexivity. }
  pose proof (log2_ge_3 r Hr) as H3. apply Rabs_le_inv in Hl.
  assert (H40 : bpow radix2 (-40) <= 1) by (change 1 with (bpow radix2 0); apply bpow_le; lia).
  assert (LU : l <= 2048).
  { assert (ln r / ln 2 <= 1012); [|lra]. pose proof ln2_pos as L2. apply (Rmult_le_reg_r (ln 2)); [auto|]. unfold Rdiv. rewrite Rmult_assoc, Rinv_l, Rmult_1_r by lra.
    replace (1012 * ln 2) with (ln (bpow radix2 1012)).
    - destruct EB as [EB|EB]; [left; apply ln_increasing; lra|right; rewrite EB; auto].
    - rewrite bpow_powerRZ. change (powerRZ (IZR radix2) 1012) with (powerRZ 2 1012). rewrite powerRZ_Rpower by lra. unfold Rpower. rewrite ln_exp. auto. }
  assert (F0 : 1 <= round radix2 fexp64 ZnearestE (l / 2) <= 1024).
  { split.
    - rewrite <- (rnd_id 53 1024 1) by (apply (fmt_IZR 53 1024 eq_refl); lia). apply (rnd_le 53 1024 eq_refl). lra.
    - rewrite <- (rnd_id 53 1024 1024) by (apply (fmt_IZR 53 1024 eq_refl); lia). apply (rnd_le 53 1024 eq_refl). lra. }
  assert (Ed : vD (ddiv A (dlog2 A (ddiv A eb0 (eps_double A))) (dlog2 A (dofZ A 4))) = Fin (round radix2 fexp64 ZnearestE (l / 2))).
  { rewrite v_ddiv by (rewrite Elb; intros X; inversion X; lra). rewrite El2, Elb, xdiv_fin by lra. cbn [rndx]. apply sat_fin.
    rewrite Rabs_pos_eq by lra. eapply Rle_lt_trans; [apply F0|]. change 1024 with (bpow radix2 10). apply bpow_lt. lia. }
  rewrite (v_dtoint A I), Ed in Ei. cbn [xtoint] in Ei.
  rewrite Ztrunc_floor in Ei by lra.
  assert (1 <= Zfloor (round radix2 fexp64 ZnearestE (l / 2)) <= 1024)%Z as [Z1 Z2].
  { split; [apply Zfloor_lub; lra|]. apply Z.le_trans with (Zfloor (IZR 1024)); [apply Zfloor_le; lra|rewrite Zfloor_IZR; lia]. }
  set (z := Zfloor _) in *. destruct (_ && _)%bool eqn:EE in Ei; [apply Some_inj in Ei; lia|exfalso; clear - Z1 Z2 EE; lia].
Qed.

Lemma offline_quantize_ieee x e r a id b : offline_quantize A x e = Some (id, b) -> vT x = Fin r -> vD e = Fin a -> 0 <= a ->
  off_gap (Rabs r * a) ->
  offline_bound A 4 (eps_double A) id = b /\ exists c, vD b = Fin c /\ 0 <= c <= Rabs r * a * (1 + bpow radix2 (-39)).
Proof.
  intros H Hx He Ha HG. destruct (prod_val x e r a Hx He Ha HG) as (p & Ep & Hp & HC).
  unfold offline_quantize in H. bind_as H [id' b'] E. apply Some_inj in H. inversion H; subst id' b. clear H.
  assert (Z0 : vD (dofZ A 0) = Fin 0) by (rewrite (vD_const A I) by lia; auto).
  pose proof (Rabs_pos r) as Pr. assert (Pq : 0 <= Rabs r * a) by (apply Rmult_le_pos; auto).
  pose proof (bpow_ge_0 radix2 (-39)) as P39. destruct HC as [HC|[HC HC']].
  - unfold eb_exponential_quantize in E. rewrite (v_dle A I), Ep, (v_eps A I) in E.
    replace (xle _ _) with true in E by (symmetry; apply xle_fin; auto). apply Some_inj in E. inversion E; subst id b'. clear E.
    unfold offline_bound, d0. cbn [Z.eqb]. rewrite (v_dlt A I), Z0, (v_eps A I).
    replace (xlt _ _) with true by (symmetry; apply xlt_fin, bpow_gt_0). split; [auto|]. exists 0. split; [auto|]. nra.
  - pose proof (quantize_positive _ _ _ _ E Ep HC) as Pid.
    assert (Hb : b' = dmul A (dpow A 4 id) (eps_double A)).
    { unfold eb_exponential_quantize in E. destruct (dle A _ _) in E; [apply Some_inj in E; inversion E; lia|].
      bind_as E i2 E2. apply Some_inj in E. inversion E; subst. auto. }
    destruct (quantize_ieee A I L 2 52 (eps_double A) (dmul A (t2d A (tabs A x)) e) p id b') as (Q1 & Q2 & Q3 & Q4); auto; try lia.
    { apply (v_eps A I). }
    { apply Rle_trans with (bpow radix2 960 * bpow radix2 52); [apply Rmult_le_compat_r; [apply bpow_ge_0|lra]|]. rewrite <- bpow_plus. apply bpow_le. lia. }
    rewrite (v_dlt A I), Q3, (v_eps A I). replace (xlt _ _) with false.
    2:{ symmetry. apply xlt_fin_false. apply bpow_le. lia. }
    split; [unfold offline_bound; replace (id =? 0)%Z with false by lia; auto|].
    exists (bpow radix2 (2 * id - 52)). split; [exact Q3|]. split; [apply bpow_ge_0|].
    eapply Rle_trans; [exact Q4|].
    apply Rle_trans with (Rabs r * a * (1 + bpow radix2 (-53)) * (1 + bpow radix2 (-40))).
    + apply Rmult_le_compat_r; [|lra]. pose proof (bpow_ge_0 radix2 (-40)). lra.
    + rewrite Rmult_assoc. apply Rmult_le_compat_l; [auto|].
      assert (B53 : bpow radix2 (-53) <= bpow radix2 (-40) * (1 / 8)).
      { replace (1 / 8) with (bpow radix2 (-3)) by (cbn; lra). rewrite <- bpow_plus. apply bpow_le. lia. }
      assert (B39 : bpow radix2 (-39) = 2 * bpow radix2 (-40)) by (change (-39)%Z with (1 + -40)%Z; rewrite bpow_plus; reflexivity).
      assert (B40 : 0 <= bpow radix2 (-40) <= 1) by (split; [apply bpow_ge_0|change 1 with (bpow radix2 0); apply bpow_le; lia]).
      pose proof (bpow_ge_0 radix2 (-53)). nra.
Qed.
End Q.

(** Every value of the field is finite, its bound is finite and not negative, and their product avoids the gap. *)
Definition off_bounds {p e} (xs : list (binary_float p e)) (es : list (binary_float 53 1024)) : Prop :=
  length xs = length es /\
  forall i x b, aget xs i = Some x -> aget es i = Some b ->
    is_finite p e x = true /\ is_finite 53 1024 b = true /\ 0 <= B2R 53 1024 b /\ off_gap (Rabs (B2R p e x) * B2R 53 1024 b).

(** Every value is present; it is the input or, both finite, within [k] times the relative bound of its position. *)
Definition rel_recovered {p e} (k : R) (bound : list (binary_float 53 1024)) (data : list (binary_float p e)) (n : nat)
           (out : list (option (binary_float p e))) : Prop :=
  length out = n /\
  forall i, (0 <= i < Z.of_nat n)%Z ->
    exists x x' b, aget data i = Some x /\ aget out i = Some (Some x') /\ aget bound i = Some b /\
      (x' = x \/ is_finite p e x = true /\ differs_le (Rabs (B2R p e x) * B2R 53 1024 b * k) x x').

Lemma one_plus_le p : (24 <= p)%Z -> (1 + bpow radix2 (-39)) * (1 + bpow radix2 (- p)) <= 1 + bpow radix2 (1 - p) + bpow radix2 (-38).
Proof.
  intros Hp. assert (B : bpow radix2 (1 - p) = 2 * bpow radix2 (- p)) by (change (1 - p)%Z with (1 + - p)%Z; rewrite bpow_plus; reflexivity).
  assert (C : bpow radix2 (-38) = 2 * bpow radix2 (-39)) by (change (-38)%Z with (1 + -39)%Z; rewrite bpow_plus; reflexivity).
  assert (0 <= bpow radix2 (- p) <= 1) by (split; [apply bpow_ge_0|change 1 with (bpow radix2 0); apply bpow_le; lia]).
  pose proof (bpow_ge_0 radix2 (-39)). nra.
Qed.

Lemma double_side lm (L : libm_ok (DA lm) (DA_ieee lm)) g U eb iu eu n U' :
  off_bounds U eb -> length U = n -> quantize_all (DA lm) U eb = Some (iu, eu) -> delivered (DA lm) g (aget eu) U n U' ->
  rel_recovered (1 + bpow radix2 (-37)) eb U n U'.
Proof.
  intros [HL HB] HN HQ HD. assert (LE : length eb = n) by (rewrite <- HL; exact HN).
  assert (LI : forall i, (0 <= i < Z.of_nat n)%Z -> (exists x, aget U i = Some x) /\ exists b, aget eb i = Some b).
  { intros i Hi. split; apply aget_in; [rewrite HN|rewrite LE]; exact Hi. }
  destruct (quantize_all_spec (DA lm) U eb iu eu (eq_sym HL) HQ) as (_ & L2 & G).
  assert (G' : forall i x b0, aget U i = Some x -> aget eb i = Some b0 ->
    exists b, aget eu i = Some b /\ is_finite 53 1024 b = true /\ 0 <= B2R 53 1024 b <= Rabs (B2R 53 1024 x) * B2R 53 1024 b0 * (1 + bpow radix2 (-39))).
  { intros i x b0 Hx Hb. destruct (G i x b0 Hx Hb) as (id & b & E1 & E2). destruct (HB i x b0 Hx Hb) as (F1 & F2 & F3 & F4).
    destruct (offline_quantize_ieee (DA lm) (DA_ieee lm) L x b0 (B2R 53 1024 x) (B2R 53 1024 b0) id b) as (_ & c & V & W); auto.
    - apply (val_fin 53 1024). exact F1.
    - apply (val_fin 53 1024). exact F2.
    - change (val 53 1024 b = Fin c) in V. apply (val_fin_iff 53 1024) in V. destruct V as [V1 V2]. subst c. eauto. }
  apply (delivered_double lm g (aget eu) U n U') in HD.
  - destruct HD as [D1 D2]. split; [exact D1|]. intros i Hi. destruct (D2 i Hi) as (x & x' & b & E1 & E2 & E3 & E4).
    destruct (LI i Hi) as [_ [b0 Hb0]]. exists x, x', b0. split; [exact E1|]. split; [exact E2|]. split; [exact Hb0|].
    destruct E4 as [E4|[E4 [E5 E6]]]; [left; exact E4|right]. split; [exact E4|]. split; [exact E5|].
    destruct (G' i x b0 E1 Hb0) as (b' & Q1 & Q2 & Q3). rewrite E3 in Q1. apply Some_inj in Q1. subst b'.
    eapply Rle_trans; [exact E6|]. pose proof (one_plus_le 53 ltac:(lia)) as O1.
    assert (B : bpow radix2 (1 - 53) + bpow radix2 (-38) <= bpow radix2 (-37)).
    { change (-37)%Z with (1 + -38)%Z. rewrite bpow_plus. change (bpow radix2 1) with 2.
      assert (bpow radix2 (1 - 53) <= bpow radix2 (-38)) by (apply bpow_le; lia). lra. }
    pose proof (bpow_ge_0 radix2 (- (53))).
    apply Rle_trans with (Rabs (B2R 53 1024 x) * B2R 53 1024 b0 * (1 + bpow radix2 (-39)) * (1 + bpow radix2 (- (53)))).
    + apply Rmult_le_compat_r; lra.
    + rewrite Rmult_assoc. apply Rmult_le_compat_l; [|lra]. destruct (HB i x b0 E1 Hb0) as (_ & _ & F3 & _). apply Rmult_le_pos; [apply Rabs_pos|auto].
  - intros i Hi. destruct (LI i Hi) as [[x Hx] [b0 Hb0]].
    destruct (G' i x b0 Hx Hb0) as (b & Q1 & Q2 & _). eauto.
Qed.

Lemma float_side lm (L : libm_ok (FA lm) (FA_ieee lm)) g (U : list binary32) eb iu eu n U' :
  off_bounds U eb -> length U = n -> quantize_all (FA lm) U eb = Some (iu, eu) -> delivered (FA lm) g (aget eu) U n U' ->
  rel_recovered (1 + bpow radix2 (-22)) eb U n U'.
Proof.
  intros [HL HB] HN HQ HD. assert (LE : length eb = n) by (rewrite <- HL; exact HN).
  assert (LI : forall i, (0 <= i < Z.of_nat n)%Z -> (exists x, aget U i = Some x) /\ exists b, aget eb i = Some b).
  { intros i Hi. split; apply aget_in; [rewrite HN|rewrite LE]; exact Hi. }
  destruct (quantize_all_spec (FA lm) U eb iu eu (eq_sym HL) HQ) as (_ & L2 & G).
  assert (G' : forall i x b0, aget U i = Some x -> aget eb i = Some b0 ->
    exists b, aget eu i = Some b /\ is_finite 53 1024 b = true /\ 0 <= B2R 53 1024 b <= Rabs (B2R 24 128 x) * B2R 53 1024 b0 * (1 + bpow radix2 (-39))).
  { intros i x b0 Hx Hb. destruct (G i x b0 Hx Hb) as (id & b & E1 & E2). destruct (HB i x b0 Hx Hb) as (F1 & F2 & F3 & F4).
    destruct (offline_quantize_ieee (FA lm) (FA_ieee lm) L x b0 (B2R 24 128 x) (B2R 53 1024 b0) id b) as (_ & c & V & W); auto.
    - apply (val_fin 24 128). exact F1.
    - apply (val_fin 53 1024). exact F2.
    - change (val 53 1024 b = Fin c) in V. apply (val_fin_iff 53 1024) in V. destruct V as [V1 V2]. subst c. eauto. }
  apply (delivered_float lm g (aget eu) U n U') in HD.
  - destruct HD as [D1 D2]. split; [exact D1|]. intros i Hi. destruct (D2 i Hi) as (x & x' & b & E1 & E2 & E3 & E4).
    destruct (LI i Hi) as [_ [b0 Hb0]]. exists x, x', b0. split; [exact E1|]. split; [exact E2|]. split; [exact Hb0|].
    destruct E4 as [E4|[E4 [E5 E6]]]; [left; exact E4|right]. split; [exact E4|]. split; [exact E5|].
    destruct (G' i x b0 E1 Hb0) as (b' & Q1 & Q2 & Q3). rewrite E3 in Q1. apply Some_inj in Q1. subst b'.
    eapply Rle_trans; [exact E6|]. pose proof (one_plus_le 24 ltac:(lia)) as O1.
    assert (B : bpow radix2 (1 - 24) + bpow radix2 (-38) <= bpow radix2 (-22)).
    { change (-22)%Z with (1 + -23)%Z. rewrite bpow_plus. change (bpow radix2 1) with 2. change (1 - 24)%Z with (-23)%Z.
      assert (bpow radix2 (-38) <= bpow radix2 (-23)) by (apply bpow_le; lia). lra. }
    pose proof (bpow_ge_0 radix2 (- (24))).
    apply Rle_trans with (Rabs (B2R 24 128 x) * B2R 53 1024 b0 * (1 + bpow radix2 (-39)) * (1 + bpow radix2 (- (24)))).
    + apply Rmult_le_compat_r; lra.
    + rewrite Rmult_assoc. apply Rmult_le_compat_l; [|lra]. destruct (HB i x b0 E1 Hb0) as (_ & _ & F3 & _). apply Rmult_le_pos; [apply Rabs_pos|auto].
  - intros i Hi. destruct (LI i Hi) as [[x Hx] [b0 Hb0]].
    destruct (G' i x b0 Hx Hb0) as (b & Q1 & Q2 & _). eauto.
Qed.

(** ** sz_compress_cp_preserve_2d_offline followed by its decompressor *)
Theorem offline_api_double lm (L : libm_ok (DA lm) (DA_ieee lm)) cbrt slack ord ub max_eb r1 r2 (U V : list binary64) pu pv je ju jv junk buf size eb :
  length pu = 7%nat -> length pv = 7%nat ->
  (Z.of_nat (length je) < 2 ^ 64)%Z -> (Z.of_nat (length ju) < 2 ^ 64)%Z -> (Z.of_nat (length jv) < 2 ^ 64)%Z -> (Z.of_nat (length junk) < 2 ^ 64)%Z ->
  offline_ebs (DA lm) cbrt max_eb r1 r2 U V = Some eb -> off_bounds U eb -> off_bounds V eb ->
  short_offline (DA lm) (DO lm) cbrt ord max_eb r1 r2 U V -> (0 <= r1 * r2)%Z ->
  compress_offline (DA lm) (DO lm) cbrt slack ord ub max_eb r1 r2 U V pu pv je ju jv junk = Some (buf, size) ->
  exists U' V', (forall rest, decompress_offline (DA lm) (DO lm) r1 r2 (firstn (size + 8) buf ++ rest) = Some (U', V')) /\
    rel_recovered (1 + bpow radix2 (-37)) eb U (Z.to_nat (r1 * r2)) U' /\ rel_recovered (1 + bpow radix2 (-37)) eb V (Z.to_nat (r1 * r2)) V'.
Proof.
  intros H1 H2 J1 J2 J3 J4 HE BU BV HS HR HC. pose proof (offline_ebs_len _ _ _ _ _ _ _ _ HE) as LE.
  assert (AG : forall W, off_bounds W eb -> bounds_agree (DA lm) W eb).
  { intros W [_ HB] i x b id c Hx Hb HQ. destruct (HB i x b Hx Hb) as (F1 & F2 & F3 & F4).
    apply (offline_quantize_ieee (DA lm) (DA_ieee lm) L x b (B2R 53 1024 x) (B2R 53 1024 b) id c); auto.
    - apply (val_fin 53 1024). exact F1.
    - apply (val_fin 53 1024). exact F2. }
  assert (LU : length U = Z.to_nat (r1 * r2)) by exact (eq_trans (proj1 BU) LE).
  assert (LV : length V = Z.to_nat (r1 * r2)) by exact (eq_trans (proj1 BV) LE).
  assert (NU : Z.of_nat (length U) = (r1 * r2)%Z) by exact (eq_trans (f_equal Z.of_nat LU) (Z2Nat.id _ HR)). assert (NV : Z.of_nat (length V) = (r1 * r2)%Z) by exact (eq_trans (f_equal Z.of_nat LV) (Z2Nat.id _ HR)).
  destruct (offline_round_trip (DA lm) (DO lm) cbrt (DA_ser lm) (DO_ser lm) slack ord ub max_eb r1 r2 U V pu pv je ju jv junk buf size eb)
    as (eu & ev & U' & V' & D & [iu QU] & [iv QV] & DU & DV); auto.
  - apply DA_laws. split; cbn; lia.
  - exists U', V'. split; [exact D|]. split; eapply double_side; eauto.
Qed.

Theorem offline_api_float lm (L : libm_ok (FA lm) (FA_ieee lm)) cbrt slack ord ub max_eb r1 r2 (U V : list binary32) pu pv je ju jv junk buf size eb :
  length pu = 3%nat -> length pv = 3%nat ->
  (Z.of_nat (length je) < 2 ^ 64)%Z -> (Z.of_nat (length ju) < 2 ^ 64)%Z -> (Z.of_nat (length jv) < 2 ^ 64)%Z -> (Z.of_nat (length junk) < 2 ^ 64)%Z ->
  offline_ebs (FA lm) cbrt max_eb r1 r2 U V = Some eb -> off_bounds U eb -> off_bounds V eb ->
  short_offline (FA lm) (FO lm) cbrt ord max_eb r1 r2 U V -> (0 <= r1 * r2)%Z ->
  compress_offline (FA lm) (FO lm) cbrt slack ord ub max_eb r1 r2 U V pu pv je ju jv junk = Some (buf, size) ->
  exists U' V', (forall rest, decompress_offline (FA lm) (FO lm) r1 r2 (firstn (size + 8) buf ++ rest) = Some (U', V')) /\
    rel_recovered (1 + bpow radix2 (-22)) eb U (Z.to_nat (r1 * r2)) U' /\ rel_recovered (1 + bpow radix2 (-22)) eb V (Z.to_nat (r1 * r2)) V'.
Proof.
  intros H1 H2 J1 J2 J3 J4 HE BU BV HS HR HC. pose proof (offline_ebs_len _ _ _ _ _ _ _ _ HE) as LE.
  assert (AG : forall W : list binary32, off_bounds W eb -> bounds_agree (FA lm) W eb).
  { intros W [_ HB] i x b id c Hx Hb HQ. destruct (HB i x b Hx Hb) as (F1 & F2 & F3 & F4).
    apply (offline_quantize_ieee (FA lm) (FA_ieee lm) L x b (B2R 24 128 x) (B2R 53 1024 b) id c); auto.
    - apply (val_fin 24 128). exact F1.
    - apply (val_fin 53 1024). exact F2. }
  assert (LU : length U = Z.to_nat (r1 * r2)) by exact (eq_trans (proj1 BU) LE).
  assert (LV : length V = Z.to_nat (r1 * r2)) by exact (eq_trans (proj1 BV) LE).
  assert (NU : Z.of_nat (length U) = (r1 * r2)%Z) by exact (eq_trans (f_equal Z.of_nat LU) (Z2Nat.id _ HR)). assert (NV : Z.of_nat (length V) = (r1 * r2)%Z) by exact (eq_trans (f_equal Z.of_nat LV) (Z2Nat.id _ HR)).
  destruct (offline_round_trip (FA lm) (FO lm) cbrt (FA_ser lm) (FO_ser lm) slack ord ub max_eb r1 r2 U V pu pv je ju jv junk buf size eb)
    as (eu & ev & U' & V' & D & [iu QU] & [iv QV] & DU & DV); auto.
  - apply FA_laws. split; cbn; lia.
  - exists U', V'. split; [exact D|]. split; eapply float_side; eauto.
Qed.
