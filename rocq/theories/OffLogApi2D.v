(** The offline 2D codec in the log domain on double and float fields: bounds used by both sides, round trip and error bound.
    Nothing of /repo is modelled here. *)
From Coq Require Import Reals Lra Lia ZArith List Bool.
From Coq Require Import ZifyBool ZifyNat.
From Flocq Require Import Core.Core Relative IEEE754.BinarySingleNaN IEEE754.Binary IEEE754.Bits.
From Verif Require Import Base Huffman HuffStream HuffProps Stream Arith Mesh2D Derive2D Codec2D Sync2D Stream2D Exact IEEE IEEELaws IEEEQuant IEEE2D Api2D RelaxErr2D IEEERel2D IEEEAbs2D
  LinQuant Block BlockSync BlockTile BlockBytes BlockIEEE BlockApi Offline2D OfflineCodec2D OfflineApi2D Log2D LogSync2D LogCells2D LogErr2D LogApi2D LogErr3D OffLog2D.
Import ListNotations.
Local Open Scope R_scope.

(** A relative bound with which encoder and decoder agree: lost against 1, or clearly above DBL_EPSILON. *)
Definition log_gap (a : R) : Prop := 0 <= a <= bpow radix2 (-54) \/ bpow radix2 (-38) <= a <= 1.

Lemma log2R_ge_id x : 0 <= x <= 1 -> x <= log2R (1 + x).
Proof.
  intros H. pose proof (Rpower_chord x H) as C. pose proof (log2R_le (Rpower 2 x) (1 + x) (exp_pos _) C) as D.
  replace (log2R (Rpower 2 x)) with x in D; [exact D|]. unfold log2R, Rpower. rewrite ln_exp. field. pose proof ln2_pos. lra.
Qed.

Lemma log2R_1 a : 0 <= a <= 1 -> log2R (1 + a) <= 1.
Proof. intros H. replace 1 with (log2R (bpow radix2 1)) at 2 by apply log2R_bpow. apply log2R_le; [lra|]. change (bpow radix2 1) with 2. lra. Qed.
Lemma log2R_78 a : 0 <= a <= 7 / 8 -> log2R (1 + a) <= 1 - / 16.
Proof.
  intros H. apply Rle_trans with (log2R (2 * (15 / 16))); [apply log2R_le; lra|]. rewrite log2R_mul by lra.
  replace (log2R 2) with 1 by (change 2 with (bpow radix2 1); rewrite log2R_bpow; auto).
  assert (X : log2R (15 / 16) <= - / 16); [|lra].
  assert (Y : / 16 <= - log2R (15 / 16)); [|lra].
  replace (- log2R (15 / 16)) with (log2R (16 / 15)).
  - apply Rle_trans with (log2R (1 + / 16)); [apply log2R_ge_id; lra|apply log2R_le; lra].
  - replace (16 / 15) with (/ (15 / 16)) by field. unfold log2R. rewrite ln_Rinv by lra. field. pose proof ln2_pos. lra.
Qed.

(** A number lost against 1. *)
Lemma round_one_plus a : 0 <= a <= bpow radix2 (-54) -> round radix2 fexp64 ZnearestE (1 + a) = 1.
Proof.
  intros H. assert (P54 : bpow radix2 (-54) = / 18014398509481984) by reflexivity.
  assert (M : mag radix2 (1 + a) = 1%Z :> Z).
  { apply mag_unique_pos. change (bpow radix2 (1 - 1)) with 1. change (bpow radix2 1) with 2. rewrite P54 in H. lra. }
  unfold round, scaled_mantissa, cexp. rewrite M. change (fexp64 1) with (-52)%Z. change (- -52)%Z with 52%Z.
  rewrite (Znearest_imp _ _ (2 ^ 52)%Z).
  - unfold F2R. cbn [Fnum Fexp]. change (bpow radix2 (-52)) with (/ 4503599627370496). change (2 ^ 52)%Z with 4503599627370496%Z. field.
  - change (bpow radix2 52) with 4503599627370496. change (2 ^ 52)%Z with 4503599627370496%Z. rewrite P54 in H. rewrite Rabs_pos_eq; lra.
Qed.

Section Q.
Context (A : Arith) (I : ieee A) (L : libm_ok A I) (LL : log_libm_ok A I).
Local Notation vT := (vT A I). Local Notation vD := (vD A I).

Lemma offlog_positive eb0 e id ab : eb_exponential_quantize A 2 (eps_double A) eb0 = Some (id, ab) -> vD eb0 = Fin e ->
  bpow radix2 (-39) <= e <= 2 -> (0 < id)%Z.
Proof.
  intros H He [H1 H2]. pose proof (v_eps A I) as Eth. unfold eb_exponential_quantize in H.
  destruct (dle A eb0 (eps_double A)) eqn:El.
  { exfalso. rewrite (v_dle A I), He, Eth in El. apply xle_fin in El. assert (bpow radix2 (-52) < bpow radix2 (-39)) by (apply bpow_lt; lia). lra. }
  bind_as H id' Ei. apply Some_inj in H. inversion H; subst id' ab. clear H.
  assert (P0 : 0 <= e) by (eapply Rle_trans; [apply bpow_ge_0|exact H1]).
  assert (EB : e * bpow radix2 52 <= bpow radix2 53).
  { change 53%Z with (1 + 52)%Z. rewrite bpow_plus. apply Rmult_le_compat_r; [apply bpow_ge_0|]. exact H2. }
  assert (Er : vD (ddiv A eb0 (eps_double A)) = Fin (e * bpow radix2 52)).
  { rewrite v_ddiv by (rewrite Eth; intros X; inversion X; pose proof (bpow_gt_0 radix2 (-52)); lra). rewrite He, Eth.
    rewrite xdiv_fin by (apply Rgt_not_eq, bpow_gt_0). replace (e / bpow radix2 (-52)) with (e * bpow radix2 52).
    2:{ unfold Rdiv. rewrite <- bpow_opp. reflexivity. }
    apply rndx_fin.
    - apply fmt64_scale; [lia|]. apply (vD_fmt A I _ _ He).
    - rewrite Rabs_pos_eq by (apply Rmult_le_pos; [lra|apply bpow_ge_0]). eapply Rle_lt_trans; [exact EB|]. apply bpow_lt. lia. }
  assert (Hr : bpow radix2 13 <= e * bpow radix2 52).
  { change 13%Z with (-39 + 52)%Z. rewrite bpow_plus. apply Rmult_le_compat_r; [apply bpow_ge_0|auto]. }
  set (r := e * bpow radix2 52) in *. pose proof (bpow_gt_0 radix2 13) as P13.
  destruct (lo_log2 A I L _ _ Er) as (l & El2 & Hl); [lra|].
  assert (Elb : vD (dlog2 A (dofZ A 2)) = Fin (IZR 1)).
  { apply (lo_log2_exact A I L). rewrite (vD_const A I) by lia. reflexivity. }
  fold (log2R r) in Hl. apply Rabs_le_inv in Hl.
  pose proof (log2R_le (bpow radix2 13) r P13 Hr) as H3. rewrite log2R_bpow in H3.
  pose proof (log2R_le r (bpow radix2 53) ltac:(lra) EB) as H4. rewrite log2R_bpow in H4.
  assert (H40 : bpow radix2 (-40) <= 1) by (change 1 with (bpow radix2 0); apply bpow_le; lia).
  assert (F0 : 1 <= round radix2 fexp64 ZnearestE (l / 1) <= 1024).
  { replace (l / 1) with l by field. split.
    - rewrite <- (rnd_id 53 1024 1) by (apply (fmt_IZR 53 1024 eq_refl); lia). apply (rnd_le 53 1024 eq_refl). lra.
    - rewrite <- (rnd_id 53 1024 1024) by (apply (fmt_IZR 53 1024 eq_refl); lia). apply (rnd_le 53 1024 eq_refl). lra. }
  assert (Ed : vD (ddiv A (dlog2 A (ddiv A eb0 (eps_double A))) (dlog2 A (dofZ A 2))) = Fin (round radix2 fexp64 ZnearestE (l / 1))).
  { rewrite v_ddiv by (rewrite Elb; intros X; inversion X; lra). rewrite El2, Elb, xdiv_fin by lra. cbn [rndx]. apply sat_fin.
    rewrite Rabs_pos_eq by lra. eapply Rle_lt_trans; [apply F0|]. change 1024 with (bpow radix2 10). apply bpow_lt. lia. }
  rewrite (v_dtoint A I), Ed in Ei. cbn [xtoint] in Ei.
  rewrite Ztrunc_floor in Ei by lra.
  assert (1 <= Zfloor (round radix2 fexp64 ZnearestE (l / 1)) <= 1024)%Z as [Z1 Z2].
  { split; [apply Zfloor_lub; lra|]. apply Z.le_trans with (Zfloor (IZR 1024)); [apply Zfloor_le; lra|rewrite Zfloor_IZR; lia]. }
  set (z := Zfloor _) in *. destruct (_ && _)%bool eqn:EE in Ei; [apply Some_inj in Ei; lia|exfalso; clear - Z1 Z2 EE; lia].
Qed.

Lemma offlog_quantize_ieee e a id b : offlog_quantize A e = Some (id, b) -> vD e = Fin a -> log_gap a ->
  offline_bound A 2 (eps_double A) id = b /\ exists c, vD b = Fin c /\ 0 <= c <= log2R (1 + a) + bpow radix2 (-38) /\ (a <= 7 / 8 -> c <= / 2).
Proof.
  intros H Ha HG. unfold offlog_quantize in H. fold (log_eb A e) in H.
  assert (P38 : bpow radix2 (-38) = / 274877906944) by reflexivity.
  assert (P39 : bpow radix2 (-39) = / 549755813888) by reflexivity. assert (P40 : bpow radix2 (-40) = / 1099511627776) by reflexivity.
  destruct HG as [[G1 G2]|[G1 G2]].
  - assert (F1 : generic_format radix2 fexp64 1) by (apply (fmt_IZR 53 1024 eq_refl); lia).
    assert (E1 : vD (dadd A (dofZ A 1) e) = Fin 1).
    { rewrite v_dadd, (vD_const A I 1), Ha by lia. cbn [xadd rndx].
      replace (round radix2 (SpecFloat.fexp 53 1024) ZnearestE (1 + a)) with 1.
      - apply sat_small. rewrite Rabs_R1. change 1 with (bpow radix2 0). apply bpow_lt. lia.
      - symmetry. apply round_one_plus. lra. }
    assert (E0 : vD (log_eb A e) = Fin 0) by (apply (lo_log2_exact A I L _ 0); exact E1).
    unfold eb_exponential_quantize in H. rewrite (v_dle A I), E0, (v_eps A I) in H.
    replace (xle _ _) with true in H by (symmetry; apply xle_fin, bpow_ge_0). apply Some_inj in H. inversion H; subst id b. clear H.
    split; [reflexivity|]. exists 0. split; [apply (vD_const A I 0); lia|].
    assert (bpow radix2 (-54) <= 1) by (change 1 with (bpow radix2 0); apply bpow_le; lia). pose proof (log2R_ge_id a ltac:(lra)) as X. rewrite P38. lra.
  - assert (P0 : 0 < a) by (pose proof (bpow_gt_0 radix2 (-38)); lra).
    destruct (log_eb_val A I L e a a Ha ltac:(lra) ltac:(lra)) as (g & Eg & Hg & Hg2).
    assert (Hg1 : bpow radix2 (-39) <= g).
    { set (f := round radix2 fexp64 ZnearestE (1 + a)).
      assert (FF : generic_format radix2 fexp64 (1 + bpow radix2 (-38))).
      { replace (1 + bpow radix2 (-38)) with (F2R (Float radix2 (2 ^ 38 + 1) (-38))).
        - apply (generic_format_FLT radix2 (-1074) 53). exists (Float radix2 (2 ^ 38 + 1) (-38)); cbn [Fnum Fexp]; [reflexivity|change (radix_val radix2) with 2%Z; lia|lia].
        - unfold F2R. cbn [Fnum Fexp]. rewrite plus_IZR, Rmult_plus_distr_r, Rmult_1_l. f_equal. rewrite P38. change (2 ^ 38)%Z with 274877906944%Z. field. }
      assert (f1 : 1 + bpow radix2 (-38) <= f) by (apply (rnd_ge 53 1024 eq_refl); auto; lra).
      assert (F2 : generic_format radix2 fexp64 2) by (apply (fmt_IZR 53 1024 eq_refl); lia).
      assert (f2 : f <= 2) by (apply (rnd_le_fmt 53 1024 eq_refl); auto; lra).
      assert (Ef : vD (dadd A (dofZ A 1) e) = Fin f).
      { rewrite v_dadd, (vD_const A I 1), Ha by lia. cbn [xadd rndx]. fold f. apply sat_small. rewrite Rabs_pos_eq by (rewrite P38 in f1; lra).
        apply Rle_lt_trans with (bpow radix2 1); [exact f2|apply bpow_lt; lia]. }
      destruct (lo_log2 A I L _ _ Ef) as (g' & Eg' & Hg'); [rewrite P38 in f1; lra|]. fold (log2R f) in Hg'.
      fold (log_eb A e) in Eg'. rewrite Eg in Eg'. injection Eg' as <-. apply Rabs_le_inv in Hg'.
      pose proof (log2R_le (1 + bpow radix2 (-38)) f ltac:(rewrite P38; lra) f1) as M. pose proof (log2R_ge_id (bpow radix2 (-38)) ltac:(rewrite P38; lra)) as M2.
      rewrite P38, P39, P40 in *. lra. }
    pose proof (offlog_positive _ _ _ _ H Eg ltac:(lra)) as Pid.
    destruct (quantize_ieee A I L 1 52 (eps_double A) _ g id b ltac:(lia) ltac:(lia) (v_eps A I) H Pid Eg) as (K1 & K2 & K3 & K4).
    { apply Rle_trans with (bpow radix2 1 * bpow radix2 52); [apply Rmult_le_compat_r; [apply bpow_ge_0|exact Hg2]|].
      rewrite <- bpow_plus. apply bpow_le. lia. }
    assert (Hb : b = dmul A (dpow A 2 id) (eps_double A)).
    { unfold eb_exponential_quantize in H. destruct (dle A _ _) in H; [apply Some_inj in H; inversion H; lia|].
      bind_as H i2 E2. apply Some_inj in H. inversion H; subst. auto. }
    split; [unfold offline_bound; replace (id =? 0)%Z with false by lia; auto|].
    exists (bpow radix2 (1 * id - 52)). split; [exact K3|]. pose proof (log2R_1 a ltac:(lra)) as L1.
    split; [split; [apply bpow_ge_0|]|intros H78; pose proof (log2R_78 a ltac:(lra)) as L78].
    + rewrite P38, P39, P40 in *. nra.
    + change (/ 2) with (bpow radix2 (-1)). apply bpow_le.
      assert (X : bpow radix2 (1 * id - 52) < bpow radix2 0) by (change (bpow radix2 0) with 1; rewrite P39, P40 in *; nra).
      apply lt_bpow in X. lia.
Qed.

(** One value: [y] is the recovered logarithm. *)
Lemma from_log_ok x y a c : usual A I 100 x -> (24 <= pT A I)%Z -> 0 <= a <= 1 -> 0 <= c <= log2R (1 + a) + bpow radix2 (-38) -> (a <= 7 / 8 -> c <= / 2) ->
  (y = log_value A x \/ exists r s, vT y = Fin r /\ vT (log_value A x) = Fin s /\ Rabs (r - s) <= c * (1 + bpow radix2 (- pT A I))) ->
  (vT x = Fin 0 /\ (a <= 7 / 8 -> from_log A y (log_sign A x) = t0 A)) \/ rel_close A I a x (from_log A y (log_sign A x)).
Proof.
  intros HU Hp Ha Hc Hc2 HY. pose proof HU as (r & Er & Hr & Hb).
  assert (P24 : 0 <= bpow radix2 (- pT A I) <= / 16777216).
  { split; [apply bpow_ge_0|]. change (/ 16777216) with (bpow radix2 (-24)). apply bpow_le. lia. }
  assert (P38 : bpow radix2 (-38) = / 274877906944) by reflexivity.
  assert (P15 : bpow radix2 (-15) = / 32768) by reflexivity. assert (P16 : bpow radix2 (-16) = / 65536) by reflexivity.
  assert (HY' : forall s, vT (log_value A x) = Fin s -> exists d, vT y = Fin d /\ Rabs (d - s) <= c * (1 + bpow radix2 (- pT A I))).
  { intros s Es. destruct HY as [->|(d & s' & Ed & Es' & H)].
    - exists s. split; auto. rewrite Rminus_diag_eq, Rabs_R0 by auto. apply Rmult_le_pos; lra.
    - rewrite Es in Es'. injection Es' as <-. eauto. }
  pose proof (log2R_1 a Ha) as L1. pose proof (log2R_ge_id a ltac:(lra)) as Lge.
  unfold from_log. rewrite (v_tlt A I), (vT_int A I (-99)) by lia.
  destruct (Req_dec r 0) as [->|N].
  - left. split; auto. intros H78. specialize (Hc2 H78). assert (EV : log_value A x = tofZ A (-100)).
    { unfold log_value. rewrite (v_teq A I), vT_0, Er. rewrite (proj2 (xeq_fin 0 0)); auto. }
    destruct (HY' (IZR (-100))) as (d & Ed & Hd); [rewrite EV; apply (vT_int A I); lia|].
    apply Rabs_le_inv in Hd. rewrite Ed. replace (xlt (Fin d) (Fin (IZR (-99)))) with true; auto.
    symmetry. apply xlt_fin. nra.
  - right. destruct (log_value_ok A I LL 100 x r HU ltac:(lia) Er N) as (s & Es & Hs).
    destruct (HY' s Es) as (d & Ed & Hd). destruct Hr as [|Hr]; [contradiction|].
    assert (Hl : Rabs (d - log2R (Rabs r)) <= log2R (1 + a) + bpow radix2 (-15)).
    { replace (d - log2R (Rabs r)) with ((d - s) + (s - log2R (Rabs r))) by ring. eapply Rle_trans; [apply Rabs_triang|].
      rewrite P15, P16, P38 in *. nra. }
    assert (Pr : 0 < Rabs r) by (apply Rabs_pos_lt; auto).
    assert (Ll : -97 <= log2R (Rabs r) <= 100).
    { split.
      - change (-97) with (IZR (-97)). rewrite <- (log2R_bpow (-97)). apply log2R_le; [apply bpow_gt_0|auto].
      - change 100 with (IZR 100). rewrite <- (log2R_bpow 100). apply log2R_le; auto. }
    assert (Dr : -99 <= d <= 102) by (rewrite P15 in Hl; apply Rabs_le_inv in Hl; lra).
    rewrite Ed. replace (xlt (Fin d) (Fin (IZR (-99)))) with false by (symmetry; apply xlt_fin_false; lra).
    destruct (ll_exp2 A I LL y d Ed) as (z & Ez & Hz); [lra|].
    destruct (unlog_error _ _ _ a Pr ltac:(lra) Hl Hz) as [Pz Kz].
    unfold rel_close, log_sign. rewrite (v_teq A I), (v_tlt A I), vT_0, Er. rewrite (proj2 (xeq_fin_false r 0)) by auto. exists r.
    destruct (xlt (Fin 0) (Fin r)) eqn:Lt; cbn [Z.eqb].
    + apply xlt_fin in Lt. exists z. assert (Ar : Rabs r = r) by (apply Rabs_pos_eq; lra). rewrite Ar in Kz |- *. repeat split; auto. nra.
    + apply xlt_fin_false in Lt. exists (- z). rewrite v_tneg, Ez. assert (Ar : Rabs r = - r) by (apply Rabs_left1; lra). rewrite Ar in Kz |- *. repeat split; auto.
      * assert (r < 0) by lra. nra.
      * rewrite <- Rabs_Ropp. replace (- (- z - r)) with (z - - r) by ring. exact Kz.
Qed.
End Q.

(** Every bound is finite and one with which both sides agree. *)
Definition log_bounds (es : list (binary_float 53 1024)) : Prop :=
  forall b, In b es -> is_finite 53 1024 b = true /\ log_gap (B2R 53 1024 b).

(** Every value is present; a zero with bound at most 7/8 comes back as +0; another value keeps its sign and has the relative error of its position, up to 2^-13. *)
Definition log_recovered {p e} (bound : list (binary_float 53 1024)) (data : list (binary_float p e)) (n : nat)
           (out : list (option (binary_float p e))) : Prop :=
  length out = n /\
  forall i, (0 <= i < Z.of_nat n)%Z ->
    exists x x' b, aget data i = Some x /\ aget out i = Some (Some x') /\ aget bound i = Some b /\
      (B2R p e x = 0 /\ (B2R 53 1024 b <= 7 / 8 -> x' = B754_zero p e false) \/ rel_differs_le (B2R 53 1024 b + bpow radix2 (-13)) x x').

Lemma aget_map {X Y} (f : X -> Y) l i x : aget l i = Some x -> aget (map f l) i = Some (f x).
Proof. unfold aget. destruct (i <? 0)%Z; [discriminate|]. intros H. rewrite nth_error_map, H. reflexivity. Qed.
Lemma nth_error_combine {X Y} : forall (l : list X) (m : list Y) i x y, nth_error l i = Some x -> nth_error m i = Some y -> nth_error (combine l m) i = Some (x, y).
Proof.
  induction l as [|a l IH]; intros [|b m] [|i] x y H1 H2; cbn in *; try discriminate; [congruence|]. apply IH; auto.
Qed.
Lemma aget_unlogs A L S i l s : aget L i = Some (Some l) -> aget S i = Some s -> aget (unlogs A L S) i = Some (Some (from_log A l s)).
Proof.
  intros H1 H2. unfold unlogs. unfold aget in *. destruct (i <? 0)%Z; [discriminate|]. rewrite nth_error_map, (nth_error_combine _ _ _ _ _ H1 H2). reflexivity.
Qed.

Lemma offlog_side_double lm (L : libm_ok (DA lm) (DA_ieee lm)) (LL : log_libm_ok (DA lm) (DA_ieee lm)) g (U : list binary64) eb ids bs n LU :
  (forall x, In x U -> zero_or_usual 100 x) -> log_bounds eb -> length U = n -> length eb = n -> quantize_logs (DA lm) eb = Some (ids, bs) ->
  delivered (DA lm) g (aget bs) (map (log_value (DA lm)) U) n LU ->
  log_recovered eb U n (unlogs (DA lm) LU (map (log_sign (DA lm)) U)).
Proof.
  intros HU HB HN HE HQ HD.
  assert (LI : forall i, (0 <= i < Z.of_nat n)%Z -> (exists x, aget U i = Some x) /\ exists b, aget eb i = Some b).
  { intros i Hi. split; apply aget_in; [rewrite HN|rewrite HE]; exact Hi. }
  destruct (quantize_logs_spec (DA lm) eb ids bs HQ) as (_ & _ & G).
  assert (G' : forall i b0, aget eb i = Some b0 ->
    exists b, aget bs i = Some b /\ is_finite 53 1024 b = true /\ 0 <= B2R 53 1024 b <= log2R (1 + B2R 53 1024 b0) + bpow radix2 (-38) /\ (B2R 53 1024 b0 <= 7 / 8 -> B2R 53 1024 b <= / 2)).
  { intros i b0 Hb. destruct (G i b0 Hb) as (id & b & E1 & E2). destruct (HB b0 (aget_In _ _ _ Hb)) as (F1 & F2).
    destruct (offlog_quantize_ieee (DA lm) (DA_ieee lm) L b0 (B2R 53 1024 b0) id b E2) as (_ & c & V & W & X); auto.
    - apply (val_fin 53 1024). exact F1.
    - change (val 53 1024 b = Fin c) in V. apply (val_fin_iff 53 1024) in V. destruct V as [V1 V2]. subst c. exists b. split; [exact E1|]. split; [exact V1|]. split; [exact W|exact X]. }
  apply (delivered_double lm g (aget bs) _ n LU) in HD.
  2:{ intros i Hi. destruct (LI i Hi) as [_ [b0 Hb0]]. destruct (G' i b0 Hb0) as (b & Q1 & Q2 & _). exists b. split; [exact Q1|exact Q2]. }
  destruct HD as [D1 D2]. split.
  { unfold unlogs. rewrite map_length, combine_length, map_length. transitivity (Nat.min n n); [f_equal; [exact D1|exact HN]|apply Nat.min_id]. }
  intros i Hi. destruct (D2 i Hi) as (l & l' & b & E1 & E2 & E3 & E4). destruct (LI i Hi) as [[x Hx] [b0 Hb0]].
  rewrite (aget_map _ _ _ _ Hx) in E1. apply Some_inj in E1. subst l.
  destruct (G' i b0 Hb0) as (b' & Q1 & Q2 & Q3 & Q4). rewrite E3 in Q1. apply Some_inj in Q1. subst b'.
  exists x, (from_log (DA lm) l' (log_sign (DA lm) x)), b0. split; [exact Hx|]. split; [exact (aget_unlogs (DA lm) LU _ i l' _ E2 (aget_map (log_sign (DA lm)) U i x Hx))|]. split; [exact Hb0|].
  destruct (HB b0 (aget_In _ _ _ Hb0)) as (F1 & F2). destruct (HU x (aget_In _ _ _ Hx)) as (U1 & U2 & U3).
  destruct (from_log_ok (DA lm) (DA_ieee lm) LL x l' (B2R 53 1024 b0) (B2R 53 1024 b)) as [[Z1 Z2]|Z1].
  - exists (B2R 53 1024 x). split; [apply (fin_val 53 1024); exact U1|]. split; [exact U2|exact U3].
  - cbn. lia.
  - assert (bpow radix2 (-54) <= 1) by (change 1 with (bpow radix2 0); apply bpow_le; lia).
    pose proof (bpow_ge_0 radix2 (-38)). unfold log_gap in F2. lra.
  - exact Q3.
  - exact Q4.
  - destruct E4 as [E4|[E4 [E5 E6]]]; [left; exact E4|right]. exists (B2R 53 1024 l'), (B2R 53 1024 (log_value (DA lm) x)).
    split; [apply (fin_val 53 1024); exact E5|]. split; [apply (fin_val 53 1024); exact E4|exact E6].
  - left. change (val 53 1024 x = Fin 0) in Z1. apply (val_fin_iff 53 1024) in Z1. split; [exact (proj2 Z1)|]. intros H78. rewrite (Z2 H78). vm_compute. reflexivity.
  - right. destruct Z1 as (a & a' & Ea & Ea' & Hs & Hb). apply (val_fin_iff 53 1024) in Ea, Ea'. destruct Ea as [_ <-]. destruct Ea' as [F <-].
    split; [exact F|]. split; [exact Hs|exact Hb].
Qed.

Lemma offlog_side_float lm (L : libm_ok (FA lm) (FA_ieee lm)) (LL : log_libm_ok (FA lm) (FA_ieee lm)) g (U : list binary32) eb ids bs n LU :
  (forall x, In x U -> zero_or_usual 100 x) -> log_bounds eb -> length U = n -> length eb = n -> quantize_logs (FA lm) eb = Some (ids, bs) ->
  delivered (FA lm) g (aget bs) (map (log_value (FA lm)) U) n LU ->
  log_recovered eb U n (unlogs (FA lm) LU (map (log_sign (FA lm)) U)).
Proof.
  intros HU HB HN HE HQ HD.
  assert (LI : forall i, (0 <= i < Z.of_nat n)%Z -> (exists x, aget U i = Some x) /\ exists b, aget eb i = Some b).
  { intros i Hi. split; apply aget_in; [rewrite HN|rewrite HE]; exact Hi. }
  destruct (quantize_logs_spec (FA lm) eb ids bs HQ) as (_ & _ & G).
  assert (G' : forall i b0, aget eb i = Some b0 ->
    exists b, aget bs i = Some b /\ is_finite 53 1024 b = true /\ 0 <= B2R 53 1024 b <= log2R (1 + B2R 53 1024 b0) + bpow radix2 (-38) /\ (B2R 53 1024 b0 <= 7 / 8 -> B2R 53 1024 b <= / 2)).
  { intros i b0 Hb. destruct (G i b0 Hb) as (id & b & E1 & E2). destruct (HB b0 (aget_In _ _ _ Hb)) as (F1 & F2).
    destruct (offlog_quantize_ieee (FA lm) (FA_ieee lm) L b0 (B2R 53 1024 b0) id b E2) as (_ & c & V & W & X); auto.
    - apply (val_fin 53 1024). exact F1.
    - change (val 53 1024 b = Fin c) in V. apply (val_fin_iff 53 1024) in V. destruct V as [V1 V2]. subst c. exists b. split; [exact E1|]. split; [exact V1|]. split; [exact W|exact X]. }
  apply (delivered_float lm g (aget bs) _ n LU) in HD.
  2:{ intros i Hi. destruct (LI i Hi) as [_ [b0 Hb0]]. destruct (G' i b0 Hb0) as (b & Q1 & Q2 & _). exists b. split; [exact Q1|exact Q2]. }
  destruct HD as [D1 D2]. split.
  { unfold unlogs. rewrite map_length, combine_length, map_length. transitivity (Nat.min n n); [f_equal; [exact D1|exact HN]|apply Nat.min_id]. }
  intros i Hi. destruct (D2 i Hi) as (l & l' & b & E1 & E2 & E3 & E4). destruct (LI i Hi) as [[x Hx] [b0 Hb0]].
  rewrite (aget_map _ _ _ _ Hx) in E1. apply Some_inj in E1. subst l.
  destruct (G' i b0 Hb0) as (b' & Q1 & Q2 & Q3 & Q4). rewrite E3 in Q1. apply Some_inj in Q1. subst b'.
  exists x, (from_log (FA lm) l' (log_sign (FA lm) x)), b0. split; [exact Hx|]. split; [exact (aget_unlogs (FA lm) LU _ i l' _ E2 (aget_map (log_sign (FA lm)) U i x Hx))|]. split; [exact Hb0|].
  destruct (HB b0 (aget_In _ _ _ Hb0)) as (F1 & F2). destruct (HU x (aget_In _ _ _ Hx)) as (U1 & U2 & U3).
  destruct (from_log_ok (FA lm) (FA_ieee lm) LL x l' (B2R 53 1024 b0) (B2R 53 1024 b)) as [[Z1 Z2]|Z1].
  - exists (B2R 24 128 x). split; [apply (fin_val 24 128); exact U1|]. split; [exact U2|exact U3].
  - cbn. lia.
  - assert (bpow radix2 (-54) <= 1) by (change 1 with (bpow radix2 0); apply bpow_le; lia).
    pose proof (bpow_ge_0 radix2 (-38)). unfold log_gap in F2. lra.
  - exact Q3.
  - exact Q4.
  - destruct E4 as [E4|[E4 [E5 E6]]]; [left; exact E4|right]. exists (B2R 24 128 l'), (B2R 24 128 (log_value (FA lm) x)).
    split; [apply (fin_val 24 128); exact E5|]. split; [apply (fin_val 24 128); exact E4|exact E6].
  - left. change (val 24 128 x = Fin 0) in Z1. apply (val_fin_iff 24 128) in Z1. split; [exact (proj2 Z1)|]. intros H78. rewrite (Z2 H78). vm_compute. reflexivity.
  - right. destruct Z1 as (a & a' & Ea & Ea' & Hs & Hb). apply (val_fin_iff 24 128) in Ea, Ea'. destruct Ea as [_ <-]. destruct Ea' as [F <-].
    split; [exact F|]. split; [exact Hs|exact Hb].
Qed.

(** ** sz_compress_cp_preserve_2d_offline_log followed by its decompressor *)
Theorem offlog_api_double lm (L : libm_ok (DA lm) (DA_ieee lm)) (LL : log_libm_ok (DA lm) (DA_ieee lm))
    cbrt ord ub max_eb r1 r2 (U V : list binary64) pu pv je ju jv junk buf size eb :
  length pu = 7%nat -> length pv = 7%nat ->
  (Z.of_nat (length je) < 2 ^ 64)%Z -> (Z.of_nat (length ju) < 2 ^ 64)%Z -> (Z.of_nat (length jv) < 2 ^ 64)%Z -> (Z.of_nat (length junk) < 2 ^ 64)%Z ->
  Z.of_nat (length U) = (r1 * r2)%Z -> Z.of_nat (length V) = (r1 * r2)%Z ->
  (forall x, In x U \/ In x V -> zero_or_usual 100 x) ->
  offline_ebs (DA lm) cbrt max_eb r1 r2 U V = Some eb -> log_bounds eb ->
  short_offlog (DA lm) (DO lm) cbrt ord max_eb r1 r2 U V ->
  compress_offlog (DA lm) (DO lm) cbrt ord ub max_eb r1 r2 U V pu pv je ju jv junk = Some (buf, size) ->
  exists U' V', (forall rest, decompress_offlog (DA lm) (DO lm) r1 r2 (firstn size buf ++ rest) = Some (U', V')) /\
    log_recovered eb U (Z.to_nat (r1 * r2)) U' /\ log_recovered eb V (Z.to_nat (r1 * r2)) V'.
Proof.
  intros H1 H2 J1 J2 J3 J4 NU NV HU HE HB HS HC. pose proof (offline_ebs_len _ _ _ _ _ _ _ _ HE) as LE.
  assert (AG : logs_agree (DA lm) eb).
  { intros b id c Hb HQ. destruct (HB b Hb) as (F1 & F2).
    apply (offlog_quantize_ieee (DA lm) (DA_ieee lm) L b (B2R 53 1024 b) id c); auto. apply (val_fin 53 1024). exact F1. }
  assert (LU : length U = Z.to_nat (r1 * r2)) by exact (eq_trans (eq_sym (Nat2Z.id _)) (f_equal Z.to_nat NU)).
  assert (LV : length V = Z.to_nat (r1 * r2)) by exact (eq_trans (eq_sym (Nat2Z.id _)) (f_equal Z.to_nat NV)).
  destruct (offlog_round_trip (DA lm) (DO lm) cbrt (DA_ser lm) (DO_ser lm) ord ub max_eb r1 r2 U V pu pv je ju jv junk buf size eb)
    as (bs & KU & KV & D & [ids Q] & DU & DV); auto.
  - apply DA_laws. split; cbn; lia.
  - eexists _, _. split; [exact D|]. split; eapply offlog_side_double; eauto.
Qed.

Theorem offlog_api_float lm (L : libm_ok (FA lm) (FA_ieee lm)) (LL : log_libm_ok (FA lm) (FA_ieee lm))
    cbrt ord ub max_eb r1 r2 (U V : list binary32) pu pv je ju jv junk buf size eb :
  length pu = 3%nat -> length pv = 3%nat ->
  (Z.of_nat (length je) < 2 ^ 64)%Z -> (Z.of_nat (length ju) < 2 ^ 64)%Z -> (Z.of_nat (length jv) < 2 ^ 64)%Z -> (Z.of_nat (length junk) < 2 ^ 64)%Z ->
  Z.of_nat (length U) = (r1 * r2)%Z -> Z.of_nat (length V) = (r1 * r2)%Z ->
  (forall x, In x U \/ In x V -> zero_or_usual 100 x) ->
  offline_ebs (FA lm) cbrt max_eb r1 r2 U V = Some eb -> log_bounds eb ->
  short_offlog (FA lm) (FO lm) cbrt ord max_eb r1 r2 U V ->
  compress_offlog (FA lm) (FO lm) cbrt ord ub max_eb r1 r2 U V pu pv je ju jv junk = Some (buf, size) ->
  exists U' V', (forall rest, decompress_offlog (FA lm) (FO lm) r1 r2 (firstn size buf ++ rest) = Some (U', V')) /\
    log_recovered eb U (Z.to_nat (r1 * r2)) U' /\ log_recovered eb V (Z.to_nat (r1 * r2)) V'.
Proof.
  intros H1 H2 J1 J2 J3 J4 NU NV HU HE HB HS HC. pose proof (offline_ebs_len _ _ _ _ _ _ _ _ HE) as LE.
  assert (AG : logs_agree (FA lm) eb).
  { intros b id c Hb HQ. destruct (HB b Hb) as (F1 & F2).
    apply (offlog_quantize_ieee (FA lm) (FA_ieee lm) L b (B2R 53 1024 b) id c); auto. apply (val_fin 53 1024). exact F1. }
  assert (LU : length U = Z.to_nat (r1 * r2)) by exact (eq_trans (eq_sym (Nat2Z.id _)) (f_equal Z.to_nat NU)).
  assert (LV : length V = Z.to_nat (r1 * r2)) by exact (eq_trans (eq_sym (Nat2Z.id _)) (f_equal Z.to_nat NV)).
  destruct (offlog_round_trip (FA lm) (FO lm) cbrt (FA_ser lm) (FO_ser lm) ord ub max_eb r1 r2 U V pu pv je ju jv junk buf size eb)
    as (bs & KU & KV & D & [ids Q] & DU & DV); auto.
  - apply FA_laws. split; cbn; lia.
  - eexists _, _. split; [exact D|]. split; eapply offlog_side_float; eauto.
Qed.
