(** Error bound of the relaxed codec (which does not check its reconstruction) in IEEE arithmetic.
    Nothing of /repo is modelled here. *)
From Coq Require Import Reals Lra Lia ZArith List Bool.
From Coq Require Import ZifyBool ZifyNat.
From Flocq Require Import Core.Core IEEE754.BinarySingleNaN IEEE754.Binary IEEE754.Bits Relative.
From Verif Require Import Base Huffman HuffStream HuffProps Stream Arith Mesh2D Derive2D Codec2D Sync2D Scan Stream2D Exact IEEE IEEELaws IEEEQuant
  IEEE2D Api2D Relax2D RelaxSync2D RelaxIEEE2D.
Import ListNotations.
Local Open Scope R_scope.
Local Instance p53e : Prec_gt_0 53 := eq_refl.

(** One rounding. *)
Lemma rnd_err p e (Hp : Prec_gt_0 p) x :
  Rabs (round radix2 (SpecFloat.fexp p e) ZnearestE x - x) <= bpow radix2 (- p) * Rabs x + bpow radix2 (3 - e - p).
Proof.
  destruct (relative_error_N_FLT'_ex radix2 (3 - e - p) p Hp (fun n => negb (Z.even n)) x) as (ep & et & H1 & H2 & _ & H).
  change (SpecFloat.fexp p e) with (FLT_exp (3 - e - p) p). change ZnearestE with (Znearest (fun n => negb (Z.even n))).
  rewrite H. replace (x * (1 + ep) + et - x) with (x * ep + et) by ring.
  eapply Rle_trans; [apply Rabs_triang|]. rewrite Rabs_mult. apply Rplus_le_compat.
  - rewrite Rmult_comm. apply Rmult_le_compat_r; [apply Rabs_pos|]. eapply Rle_trans; [exact H1|].
    unfold u_ro. replace (/ 2 * bpow radix2 (- p + 1)) with (bpow radix2 (- p)) by (rewrite bpow_plus; change (bpow radix2 1) with 2; lra).
    pose proof (bpow_gt_0 radix2 (- p)). apply Rmult_le_reg_r with (1 + bpow radix2 (- p)); [lra|].
    unfold Rdiv. rewrite Rmult_assoc, Rinv_l by lra. nra.
  - pose proof (bpow_gt_0 radix2 (3 - e - p)). lra.
Qed.

Lemma rnd_ge p e (Hp : Prec_gt_0 p) b x : generic_format radix2 (SpecFloat.fexp p e) b -> b <= x ->
  b <= round radix2 (SpecFloat.fexp p e) ZnearestE x.
Proof. intros F H. rewrite <- (rnd_id p e b) by auto. apply (rnd_le p e Hp). auto. Qed.
Lemma rnd_le_fmt p e (Hp : Prec_gt_0 p) b x : generic_format radix2 (SpecFloat.fexp p e) b -> x <= b ->
  round radix2 (SpecFloat.fexp p e) ZnearestE x <= b.
Proof. intros F H. rewrite <- (rnd_id p e b) by auto. apply (rnd_le p e Hp). auto. Qed.

Section B.
Context (A : Arith) (I : ieee A) (L : libm_ok A I).
Local Notation vT := (vT A I). Local Notation vD := (vD A I).
Local Notation pT := (pT A I). Local Notation eT := (eT A I).
Local Notation HpT := (HpT A I).
Local Notation bnd := (bnd A I).
Local Notation fT := (SpecFloat.fexp pT eT).
Hypothesis Hp24 : (24 <= pT)%Z.
Hypothesis He128 : (128 <= eT)%Z.

Local Transparent xdiv.
Lemma xdiv_PInf a : 0 < a -> xdiv PInf (Fin a) = PInf.
Proof. intros H. unfold xdiv. rewrite Rlt_bool_false by lra. reflexivity. Qed.
Lemma xdiv_NaN a : xdiv NaN (Fin a) = NaN.
Proof. reflexivity. Qed.
Local Opaque xdiv.

Lemma tiny_le k a : (-53 <= k)%Z -> bpow radix2 k = a -> bpow radix2 (3 - eT - pT) <= bpow radix2 (-90) * a /\ bpow radix2 (3 - 1024 - 53) <= bpow radix2 (-90) * a.
Proof.
  intros Hk <-. rewrite <- bpow_plus. split; apply bpow_le; lia.
Qed.

(** The code of one component. *)
Lemma relax_component_bound w r2 i j cur ab q x k : relax_component A w r2 i j cur ab = Some (Some (q, x)) ->
  vD ab = Fin (bpow radix2 k) -> (-53 <= k <= 900)%Z -> (k + 20 < eT)%Z ->
  forall c B, vT cur = Fin c -> Rabs c <= bpow radix2 B -> (k + 1 <= B)%Z -> (B + 2 < eT)%Z ->
  exists y, vT x = Fin y /\ Rabs (y - c) <= bpow radix2 k * (1 + bpow radix2 (19 - pT)) + bpow radix2 (2 - pT) * Rabs c.
Proof.
  intros H Ea Hk HkT c B Ec HcB HB HBT. unfold relax_component in H. bind_as H pred Ep.
  set (a := bpow radix2 k) in *. assert (Pa : 0 < a) by apply bpow_gt_0.
  set (diff := tsub A cur pred) in *.
  set (Q := d2t A (dadd A (ddiv A (t2d A (tabs A diff)) ab) (dofZ A 1))) in *.
  destruct (tlt A Q (tofZ A capacity)) eqn:EQ; [|discriminate]. bind_as H h Eh. apply Some_inj in H. apply Some_inj in H.
  injection H as Eq Ex. subst q x.
  destruct (tiny_le k a ltac:(lia) eq_refl) as [T1 T2].
  assert (U24 : bpow radix2 (- pT) <= bpow radix2 (-24)) by (apply bpow_le; lia).
  assert (V24 : bpow radix2 (-24) = / 16777216) by reflexivity. rewrite V24 in U24.
  assert (V90 : bpow radix2 (-90) <= / 16777216) by (rewrite <- V24; apply bpow_le; lia).
  assert (V53 : bpow radix2 (-53) <= / 16777216) by (rewrite <- V24; apply bpow_le; lia).
  assert (U0 : 0 < bpow radix2 (- pT)) by apply bpow_gt_0. assert (U1 : 0 < bpow radix2 (-53)) by apply bpow_gt_0.
  assert (V0 : 0 < bpow radix2 (-90)) by apply bpow_gt_0.
  set (u := bpow radix2 (- pT)) in *. set (u53 := bpow radix2 (-53)) in *. set (t90 := bpow radix2 (-90)) in *.
  assert (Hcap : vT (tofZ A capacity) = Fin 65536).
  { rewrite v_tofZ. apply rndx_fin.
    - apply (fmt_IZR pT eT HpT); [unfold capacity|pose proof (eT_ok A I); lia].
      apply Z.le_trans with (2 ^ 24)%Z; [lia|apply Z.pow_le_mono_r; lia].
    - rewrite Rabs_pos_eq by lra. change 65536 with (bpow radix2 16). apply bpow_lt. lia. }
  rewrite (v_tlt A I), Hcap in EQ.
  assert (Hne : vD ab <> Fin 0) by (rewrite Ea; intros X; injection X as X; lra).
  assert (EvQ : vT Q = rndx pT eT (rndx 53 1024 (xadd (rndx 53 1024 (xdiv (xabs (vT diff)) (Fin a))) (Fin 1)))).
  { unfold Q. rewrite v_d2t, v_dadd, v_ddiv by auto. rewrite v_t2d, v_tabs, Ea, vD_const by lia. reflexivity. }
  (* the difference is finite *)
  assert (Fd : exists d, vT diff = Fin d).
  { destruct (vT diff) as [d| | |]; eauto; exfalso; rewrite EvQ in EQ; cbn [xabs] in EQ;
      rewrite ?xdiv_PInf, ?xdiv_NaN in EQ by lra; discriminate. }
  destruct Fd as [d Ed]. pose proof Ed as Ed'. unfold diff in Ed'. rewrite v_tsub, Ec in Ed'.
  assert (Fp : exists p, vT pred = Fin p) by (destruct (vT pred); cbn in Ed'; try discriminate; eauto).
  destruct Fp as [p Epr]. rewrite Epr in Ed'. cbn [xsub] in Ed'.
  apply (rndx_fin_inv pT eT) in Ed'. destruct Ed' as (d0 & X & Hd & _). injection X as X. subst d0.
  (* the quotient *)
  rewrite Ed in EvQ. cbn [xabs] in EvQ. rewrite xdiv_fin in EvQ by lra. cbn [rndx] in EvQ.
  set (s := Rabs d / a) in *. assert (Hs0 : 0 <= s) by (apply Rmult_le_pos; [apply Rabs_pos|apply Rlt_le, Rinv_0_lt_compat; auto]).
  set (f1 := round radix2 fexp64 ZnearestE s) in *.
  assert (F1 : 0 <= f1) by (unfold f1; rewrite <- (rnd_0 53 1024); apply (rnd_le 53 1024 eq_refl); auto).
  assert (R1 : forall z, (Z.abs z <= 2 ^ 24)%Z -> generic_format radix2 fexp64 (IZR z)).
  { intros z Hz. apply (fmt_IZR 53 1024 eq_refl); lia. }
  assert (RT : forall z, (Z.abs z <= 2 ^ 24)%Z -> generic_format radix2 fT (IZR z)).
  { intros z Hz. apply (fmt_IZR pT eT HpT); [|pose proof (eT_ok A I); lia].
    apply Z.le_trans with (2 ^ 24)%Z; auto. apply Z.pow_le_mono_r; lia. }
  assert (S1 : sat 1024 f1 = Fin f1).
  { destruct (sat_cases 1024 f1) as [[E _]|[[E K]|[E K]]]; auto; exfalso; [|pose proof (bpow_gt_0 radix2 1024); lra].
    rewrite EvQ, E in EQ. discriminate. }
  rewrite S1 in EvQ. cbn [xadd rndx] in EvQ. set (f2 := round radix2 fexp64 ZnearestE (f1 + 1)) in *.
  assert (F2 : 1 <= f2) by (unfold f2; apply (rnd_ge 53 1024 eq_refl); [apply (R1 1%Z); lia|lra]).
  assert (S2 : sat 1024 f2 = Fin f2).
  { destruct (sat_cases 1024 f2) as [[E _]|[[E K]|[E K]]]; auto; exfalso; [|pose proof (bpow_gt_0 radix2 1024); lra].
    rewrite EvQ, E in EQ. discriminate. }
  rewrite S2 in EvQ. cbn [rndx] in EvQ. set (f3 := round radix2 fT ZnearestE f2) in *.
  assert (F3 : 1 <= f3) by (unfold f3; apply (rnd_ge pT eT HpT); [apply (RT 1%Z); lia|lra]).
  assert (S3 : sat eT f3 = Fin f3).
  { destruct (sat_cases eT f3) as [[E _]|[[E K]|[E K]]]; auto; exfalso; [|pose proof (bpow_gt_0 radix2 eT); lra].
    rewrite EvQ, E in EQ. discriminate. }
  rewrite S3 in EvQ. rewrite EvQ in EQ. apply xlt_fin in EQ.
  (* sizes *)
  assert (G2 : f2 < 65536).
  { destruct (Rlt_le_dec f2 65536); auto. exfalso. assert (65536 <= f3); [|lra].
    unfold f3. apply (rnd_ge pT eT HpT); [apply (RT 65536%Z); lia|lra]. }
  assert (G1 : f1 < 65536).
  { destruct (Rlt_le_dec f1 65536); auto. exfalso. assert (65536 <= f2); [|lra].
    unfold f2. apply (rnd_ge 53 1024 eq_refl); [apply (R1 65536%Z); lia|lra]. }
  assert (Gs : s < 65536).
  { destruct (Rlt_le_dec s 65536); auto. exfalso. assert (65536 <= f1); [|lra].
    unfold f1. apply (rnd_ge 53 1024 eq_refl); [apply (R1 65536%Z); lia|lra]. }
  (* errors *)
  assert (Uu : u53 <= u) by (apply bpow_le; pose proof (pT_ok A I); lia).
  assert (TT : bpow radix2 (3 - 1024 - 53) <= u) by (apply bpow_le; pose proof (pT_ok A I); lia).
  assert (TT' : bpow radix2 (3 - eT - pT) <= u) by (apply bpow_le; lia).
  assert (E1 : Rabs (f1 - s) <= u * 65537).
  { eapply Rle_trans; [apply (rnd_err 53 1024 eq_refl)|]. rewrite (Rabs_pos_eq s) by auto. change (- (53))%Z with (-53)%Z. fold u53.
    assert (u53 * s <= u * 65536) by (apply Rmult_le_compat; lra). lra. }
  assert (E2 : Rabs (f2 - (f1 + 1)) <= u * 65538).
  { eapply Rle_trans; [apply (rnd_err 53 1024 eq_refl)|]. rewrite (Rabs_pos_eq (f1 + 1)) by lra. change (- (53))%Z with (-53)%Z. fold u53.
    assert (u53 * (f1 + 1) <= u * 65537) by (apply Rmult_le_compat; lra). lra. }
  assert (E3 : Rabs (f3 - f2) <= u * 65538).
  { eapply Rle_trans; [apply (rnd_err pT eT HpT)|]. rewrite (Rabs_pos_eq f2) by lra. fold u.
    assert (u * f2 <= u * 65536) by (apply Rmult_le_compat; lra). lra. }
  apply Rabs_le_inv in E1, E2, E3.
  assert (EQs : Rabs (f3 - (s + 1)) <= u * 200000) by (apply Rabs_le; lra).
  (* the index *)
  assert (V2 : vT (tofZ A 2) = Fin 2).
  { rewrite v_tofZ. apply rndx_fin; [apply (RT 2%Z); lia|]. rewrite Rabs_pos_eq by lra. change 2 with (bpow radix2 1). apply bpow_lt. lia. }
  assert (N2 : vT (tofZ A 2) <> Fin 0) by (rewrite V2; intros X; injection X as X; lra).
  set (f4 := round radix2 fT ZnearestE (f3 / 2)).
  assert (F4 : 0 <= f4) by (unfold f4; rewrite <- (rnd_0 pT eT); apply (rnd_le pT eT HpT); lra).
  assert (E4 : Rabs (f4 - f3 / 2) <= u * 32770).
  { eapply Rle_trans; [apply (rnd_err pT eT HpT)|]. rewrite (Rabs_pos_eq (f3 / 2)) by lra. fold u.
    assert (u * (f3 / 2) <= u * 32768) by (apply Rmult_le_compat; lra). lra. }
  assert (G4 : f4 <= 32768).
  { apply (rnd_le_fmt pT eT HpT); [apply (RT 32768%Z); lia|lra]. }
  assert (B4 : Rabs f4 < bpow radix2 eT).
  { rewrite Rabs_pos_eq by auto. apply Rle_lt_trans with (bpow radix2 15); [auto|apply bpow_lt; lia]. }
  assert (Fl : (0 <= Zfloor f4 <= 32768)%Z).
  { split; [apply Zfloor_lub; auto|]. apply le_IZR. eapply Rle_trans; [apply Zfloor_lb|auto]. }
  assert (HH : h = if Rlt_bool 0 d then Zfloor f4 else (- Zfloor f4)%Z).
  { rewrite (v_tlt A I), Ed, vT_0 in Eh. unfold xlt in Eh. destruct (Rlt_bool 0 d).
    - rewrite (v_ttoint A I), v_tdiv in Eh by auto. rewrite EvQ, V2 in Eh. rewrite xdiv_fin in Eh by lra. cbn [rndx] in Eh.
      fold f4 in Eh. rewrite sat_fin in Eh by auto. cbn [xtoint] in Eh. rewrite Ztrunc_floor in Eh by auto.
      replace ((- 2 ^ 31 <=? Zfloor f4) && (Zfloor f4 <? 2 ^ 31))%Z%bool with true in Eh by lia. apply Some_inj in Eh. auto.
    - rewrite (v_ttoint A I), v_tdiv in Eh by auto. rewrite v_tneg, EvQ, V2 in Eh. cbn [xneg] in Eh. rewrite xdiv_fin in Eh by lra. cbn [rndx] in Eh.
      replace (- f3 / 2) with (- (f3 / 2)) in Eh by lra. rewrite (rnd_opp pT eT) in Eh. fold f4 in Eh.
      rewrite sat_fin in Eh by (rewrite Rabs_Ropp; auto). cbn [xtoint] in Eh. rewrite Ztrunc_opp, Ztrunc_floor in Eh by auto.
      replace ((- 2 ^ 31 <=? - Zfloor f4) && (- Zfloor f4 <? 2 ^ 31))%Z%bool with true in Eh by lia. apply Some_inj in Eh. auto. }
  set (n := Zfloor f4) in *. pose proof (Zfloor_lb f4) as L1. pose proof (Zfloor_ub f4) as L2. fold n in L1, L2.
  apply Rabs_le_inv in EQs, E4.
  assert (E5 : Rabs (2 * IZR n - s) <= 1 + u * 300000) by (apply Rabs_le; lra).
  assert (E6 : Rabs (IZR (2 * h) * a - d) <= a * (1 + u * 300000)).
  { assert (Sd : Rabs d = s * a) by (unfold s; field; lra).
    assert (Kn : Rabs (2 * IZR n * a - Rabs d) <= a * (1 + u * 300000)).
    { rewrite Sd. replace (2 * IZR n * a - s * a) with ((2 * IZR n - s) * a) by ring. rewrite Rabs_mult, (Rabs_pos_eq a), Rmult_comm by lra. apply Rmult_le_compat_l; lra. }
    rewrite HH, mult_IZR. destruct (Rlt_bool_spec 0 d) as [Hd0|Hd0].
    - rewrite (Rabs_pos_eq d) in Kn by lra. auto.
    - rewrite (Rabs_left1 d) in Kn by lra. rewrite opp_IZR. rewrite <- Rabs_Ropp.
      replace (- (2 * - IZR n * a - d)) with (2 * IZR n * a - - d) by ring. auto. }
  assert (E7 : Rabs (d - (c - p)) <= a * (u * 70000)).
  { rewrite Hd. eapply Rle_trans; [apply (rnd_err pT eT HpT)|]. fold u.
    assert (Hdb : Rabs d <= 65536 * a).
    { replace (Rabs d) with (s * a) by (unfold s; field; lra). apply Rmult_le_compat_r; lra. }
    pose proof (rnd_err pT eT HpT (c - p)) as R. rewrite <- Hd in R. fold u in R.
    assert (Hcp : Rabs (c - p) <= Rabs d + Rabs (d - (c - p))).
    { replace (c - p) with (d - (d - (c - p))) at 1 by ring. eapply Rle_trans; [apply Rabs_triang|]. rewrite Rabs_Ropp. lra. }
    pose proof (Rabs_pos (c - p)) as Pcp.
    assert (u * Rabs (c - p) <= / 16777216 * Rabs (c - p)) by (apply Rmult_le_compat_r; lra).
    assert (t90 * a <= / 16777216 * a) by (apply Rmult_le_compat_r; lra).
    assert (t90 * a <= u * a) by (apply Rmult_le_compat_r; [lra|]; apply bpow_le; pose proof (pT_ok A I); lia).
    assert (Rabs (c - p) <= 65538 * a) by lra.
    assert (u * Rabs (c - p) <= u * (65538 * a)) by (apply Rmult_le_compat_l; lra). assert (0 < u * a) by (apply Rmult_lt_0_compat; lra). lra. }
  assert (Pua : 0 < u * a) by (apply Rmult_lt_0_compat; lra).
  set (w2 := IZR (2 * h) * a) in *. set (sum := p + w2).
  assert (E8 : Rabs (sum - c) <= a * (1 + u * 400000)).
  { unfold sum. replace (p + w2 - c) with ((w2 - d) + (d - (c - p))) by ring. eapply Rle_trans; [apply Rabs_triang|]. lra. }
  (* reconstruction *)
  assert (Hh : (Z.abs (2 * h) <= 65536)%Z) by (rewrite HH; destruct (Rlt_bool 0 d); lia).
  assert (Fw : generic_format radix2 fexp64 w2).
  { apply (generic_format_FLT radix2 (-1074) 53). exists (Float radix2 (2 * h) k); [reflexivity| |cbn [Fexp]; lia].
    cbn [Fnum]. apply Z.le_lt_trans with 65536%Z; auto. reflexivity. }
  assert (Bw : Rabs w2 <= bpow radix2 (k + 16)).
  { unfold w2. rewrite Rabs_mult, (Rabs_pos_eq a), <- abs_IZR by lra. rewrite bpow_plus. fold a. change (bpow radix2 16) with (IZR 65536).
    rewrite Rmult_comm. apply Rmult_le_compat_l; [lra|]. apply IZR_le. auto. }
  assert (Esum : Rabs sum <= Rabs c + 2 * a).
  { assert (a * (u * 400000) <= a * (/ 16777216 * 400000)) by (apply Rmult_le_compat_l; lra). replace sum with (c + (sum - c)) by ring. eapply Rle_trans; [apply Rabs_triang|]. lra. }
  assert (Hak : 2 * a <= bpow radix2 B).
  { unfold a. replace (2 * bpow radix2 k) with (bpow radix2 (k + 1)) by (rewrite bpow_plus; change (bpow radix2 1) with 2; ring). apply bpow_le. auto. }
  assert (Bsum : Rabs sum <= bpow radix2 (B + 1)).
  { rewrite bpow_plus. change (bpow radix2 1) with 2. lra. }
  pose proof (eT_ok A I) as EO.
  set (g1 := round radix2 fexp64 ZnearestE sum).
  assert (Bg1 : Rabs g1 <= bpow radix2 (B + 1)).
  { unfold g1. apply (rnd_bound 53 1024 eq_refl); auto. apply (fmt_bpow 53 1024 eq_refl). lia. }
  set (y := round radix2 fT ZnearestE g1).
  assert (By : Rabs y <= bpow radix2 (B + 1)).
  { unfold y. apply (rnd_bound pT eT HpT); auto. apply (fmt_bpow pT eT HpT). lia. }
  exists y. split.
  { unfold recon. rewrite v_d2t, v_dadd, v_t2d, v_dmul, Ea, Epr.
    replace (2 * (h + intv_radius - intv_radius))%Z with (2 * h)%Z by ring. rewrite (vD_const A I (2 * h)) by lia.
    cbn [xmul]. fold a. fold w2. rewrite (rndx_fin 53 1024 w2); auto.
    2:{ apply Rle_lt_trans with (1 := Bw). apply bpow_lt. lia. }
    cbn [xadd rndx]. fold sum. fold g1. rewrite (sat_fin 1024) by (apply Rle_lt_trans with (1 := Bg1); apply bpow_lt; lia).
    cbn [rndx]. fold y. apply sat_fin. apply Rle_lt_trans with (1 := By). apply bpow_lt. lia. }
  replace (bpow radix2 (19 - pT)) with (524288 * u).
  2:{ unfold u. replace (19 - pT)%Z with (- pT + 19)%Z by lia. rewrite bpow_plus. change (bpow radix2 19) with 524288. ring. }
  replace (bpow radix2 (2 - pT)) with (4 * u) by (unfold u; replace (2 - pT)%Z with (- pT + 2)%Z by lia; rewrite bpow_plus; change (bpow radix2 2) with 4; ring).
  assert (E9 : Rabs (y - sum) <= 4 * u * Rabs c + a * (u * 100)).
  { pose proof (rnd_err pT eT HpT g1) as R2. fold y in R2. fold u in R2.
    pose proof (rnd_err 53 1024 eq_refl sum) as R3. fold g1 in R3. change (- (53))%Z with (-53)%Z in R3. fold u53 in R3.
    pose proof (Rabs_pos c) as Pc. pose proof (Rabs_pos sum) as Ps.
    assert (M1 : u53 * Rabs sum <= u * Rabs sum) by (apply Rmult_le_compat_r; auto).
    assert (M2 : u * Rabs sum <= u * Rabs c + 2 * (u * a)) by (apply Rle_trans with (u * (Rabs c + 2 * a)); [apply Rmult_le_compat_l; lra|lra]).
    assert (M3 : u * a <= / 16777216 * a) by (apply Rmult_le_compat_r; lra).
    assert (M6 : t90 * a <= u * a) by (apply Rmult_le_compat_r; [lra|]; apply bpow_le; pose proof (pT_ok A I); lia).
    assert (0 < u * a) by (apply Rmult_lt_0_compat; lra).
    assert (M4 : t90 * a <= / 16777216 * a) by (apply Rmult_le_compat_r; lra).
    assert (Hg : Rabs g1 <= 2 * Rabs c + 3 * a).
    { replace g1 with (sum + (g1 - sum)) by ring. eapply Rle_trans; [apply Rabs_triang|].
      assert (u * Rabs c <= / 16777216 * Rabs c) by (apply Rmult_le_compat_r; lra). lra. }
    assert (M5 : u * Rabs g1 <= 2 * (u * Rabs c) + 3 * (u * a)) by (apply Rle_trans with (u * (2 * Rabs c + 3 * a)); [apply Rmult_le_compat_l; lra|lra]).
    replace (y - sum) with ((y - g1) + (g1 - sum)) by ring. eapply Rle_trans; [apply Rabs_triang|].
    assert (0 <= u * Rabs c) by (apply Rmult_le_pos; lra). lra. }
  assert (0 < u * a) by (apply Rmult_lt_0_compat; lra).
  replace (y - c) with ((y - sum) + (sum - c)) by ring. eapply Rle_trans; [apply Rabs_triang|]. lra.
Qed.

(** The quantised bound of either attempt. *)
Lemma tried_ieee max_eb e eb0 id ab : vD max_eb = Fin e -> bpow radix2 (-47) <= e <= bpow radix2 500 -> tried A max_eb eb0 ->
  eb_exponential_quantize A 4 (eps_double A) eb0 = Some (id, ab) ->
  exists k, vD ab = Fin (bpow radix2 k) /\ (-53 <= k)%Z /\ bpow radix2 k <= e * (1 + bpow radix2 (-40)).
Proof.
  intros He [H1 H2] HT Hq.
  assert (P9 : bpow radix2 500 <= bpow radix2 900) by (apply bpow_le; lia).
  assert (PM : forall x, x <= bpow radix2 501 -> x * bpow radix2 52 <= bpow radix2 1022).
  { intros x Hx. apply Rle_trans with (bpow radix2 501 * bpow radix2 52); [apply Rmult_le_compat_r; [apply bpow_ge_0|auto]|].
    rewrite <- bpow_plus. apply bpow_le. lia. }
  assert (P5 : bpow radix2 500 <= bpow radix2 501) by (apply bpow_le; lia).
  assert (P40 : 0 < bpow radix2 (-40) <= 1) by (split; [apply bpow_gt_0|change 1 with (bpow radix2 0); apply bpow_le; lia]).
  assert (P47 : 0 < bpow radix2 (-47)) by apply bpow_gt_0.
  assert (First : forall id' a', eb_exponential_quantize A 4 (eps_double A) max_eb = Some (id', a') ->
    (2 <= id')%Z /\ vD a' = Fin (bpow radix2 (2 * id' - 52)) /\ bpow radix2 (2 * id' - 52) <= e * (1 + bpow radix2 (-40))).
  { intros id' a' E. pose proof (quantize_ge A I L _ _ _ _ 2 ltac:(lia) E He) as K. change (2 * 2 + 1 - 52)%Z with (-47)%Z in K.
    lapply K; [clear K; intros K|lra].
    destruct (quantize_ieee A I L 2 52 (eps_double A) max_eb e id' a' ltac:(lia) ltac:(lia) (v_eps A I) E ltac:(lia) He) as (_ & _ & Q2 & Q3);
      [apply PM; lra|]. auto. }
  destruct HT as [|id' a' E].
  - destruct (First _ _ Hq) as (K & Q2 & Q3). exists (2 * id - 52)%Z. split; [auto|split; [lia|auto]].
  - destruct (First _ _ E) as (K & Q2 & Q3).
    assert (B5 : bpow radix2 (2 * id' - 52) <= bpow radix2 501).
    { eapply Rle_trans; [exact Q3|]. change 501%Z with (500 + 1)%Z. rewrite bpow_plus. change (bpow radix2 1) with 2.
      apply Rmult_le_compat; lra. }
    assert (I5 : (2 * id' - 52 <= 501)%Z) by (apply (le_bpow radix2); auto).
    assert (Hh : vD (ddiv A a' (dofZ A 2)) = Fin (bpow radix2 (2 * id' - 53))).
    { rewrite v_ddiv by (rewrite vD_const by lia; intros X; injection X as X; lra). rewrite Q2, vD_const by lia.
      rewrite xdiv_fin by lra. replace (bpow radix2 (2 * id' - 52) / 2) with (bpow radix2 (2 * id' - 53)).
      2:{ replace (2 * id' - 53)%Z with (2 * id' - 52 + - (1))%Z by lia. rewrite bpow_plus. reflexivity. }
      apply rndx_fin; [apply (fmt_bpow 53 1024 eq_refl); lia|]. rewrite Rabs_pos_eq by apply bpow_ge_0. apply bpow_lt. lia. }
    pose proof (quantize_ge A I L _ _ _ _ (id' - 1) ltac:(lia) Hq Hh) as K2. lapply K2; [clear K2; intros K2|split; apply bpow_le; lia].
    destruct (quantize_ieee A I L 2 52 (eps_double A) _ _ id ab ltac:(lia) ltac:(lia) (v_eps A I) Hq ltac:(lia) Hh) as (_ & _ & Q4 & Q5);
      [apply PM; apply bpow_le; lia|].
    exists (2 * id - 52)%Z. split; [auto|split; [lia|]]. eapply Rle_trans; [exact Q5|].
    eapply Rle_trans; [|exact Q3]. replace (2 * id' - 52)%Z with (2 * id' - 53 + 1)%Z by lia. rewrite bpow_plus. change (bpow radix2 1) with 2.
    apply Rmult_le_compat_l; [apply bpow_ge_0|lra].
Qed.

Definition close_to (e : R) (x y : T A) : Prop :=
  exists a b, vT x = Fin a /\ vT y = Fin b /\
    Rabs (b - a) <= e * (1 + bpow radix2 (-40)) * (1 + bpow radix2 (19 - pT)) + bpow radix2 (2 - pT) * Rabs a.

Lemma coded_close W r2 i j cur max_eb e eb0 id q x B : vD max_eb = Fin e -> bpow radix2 (-47) <= e <= bpow radix2 500 -> tried A max_eb eb0 ->
  relax_coded A W r2 i j cur eb0 id q x -> bnd B cur -> e <= bpow radix2 (B - 2) -> (B + 20 < eT)%Z -> close_to e cur x.
Proof.
  intros He Hr HT (ab & Hq & HC) (c & Ec & Hc) HB HBT.
  destruct (tried_ieee _ _ _ _ _ He Hr HT Hq) as (k & Ea & Hk & Hke).
  assert (P40 : 0 < bpow radix2 (-40) <= 1) by (split; [apply bpow_gt_0|change 1 with (bpow radix2 0); apply bpow_le; lia]).
  assert (P47 : 0 < bpow radix2 (-47)) by apply bpow_gt_0.
  assert (K1 : (k + 1 <= B)%Z).
  { assert (k <= B - 1)%Z; [|lia]. apply (le_bpow radix2). eapply Rle_trans; [exact Hke|].
    replace (B - 1)%Z with (B - 2 + 1)%Z by lia. rewrite bpow_plus. change (bpow radix2 1) with 2. apply Rmult_le_compat; lra. }
  assert (K5 : (k <= 501)%Z).
  { apply (le_bpow radix2). eapply Rle_trans; [exact Hke|].
    change 501%Z with (500 + 1)%Z. rewrite bpow_plus. change (bpow radix2 1) with 2. apply Rmult_le_compat; lra. }
  destruct (relax_component_bound _ _ _ _ _ _ _ _ k HC Ea ltac:(lia) ltac:(lia) c B Ec Hc K1 ltac:(lia)) as (y & Ey & Hy).
  exists c, y. split; [auto|split; [auto|]]. eapply Rle_trans; [exact Hy|]. apply Rplus_le_compat_r. apply Rmult_le_compat_r; auto.
  pose proof (bpow_gt_0 radix2 (19 - pT)). lra.
Qed.

Theorem relax_bound max_eb e r1 r2 U V U' V' c B :
  (0 <= r1)%Z -> (0 < r2)%Z -> vD max_eb = Fin e -> bpow radix2 (-47) <= e <= bpow radix2 500 ->
  (forall x, In x U \/ In x V -> bnd B x) -> e <= bpow radix2 (B - 2) -> (B + 20 < eT)%Z ->
  Z.of_nat (length U) = (r1 * r2)%Z -> Z.of_nat (length V) = (r1 * r2)%Z ->
  enc_relax A max_eb r1 r2 U V = Some (U', V', c) ->
  length U' = length U /\ length V' = length V /\
  forall k u v u' v', aget U k = Some u -> aget V k = Some v -> aget U' k = Some u' -> aget V' k = Some v' ->
    (u' = u /\ v' = v) \/ (close_to e u u' /\ close_to e v v').
Proof.
  intros H1 H2 He Hr HM HB HBT LU LV H.
  set (P := fun (W X : list (T A)) k => forall u v u' v', aget U k = Some u -> aget V k = Some v -> aget W k = Some u' -> aget X k = Some v' ->
    (u' = u /\ v' = v) \/ (close_to e u u' /\ close_to e v v')).
  destruct (relax_trace A _ _ _ _ _ _ _ _ H1 H2 H
    (fun k W X => untouched k W U /\ untouched k X V /\ (forall m, (0 <= m < Z.of_nat k)%Z -> P W X m))) as (cp & Hcp & G).
  - split; [apply untouched_refl|]. split; [apply untouched_refl|]. intros; lia.
  - lapply G; clear G.
    + intros (T1 & T2 & HP). split; [apply T1|]. split; [apply T2|]. intros k u v u' v' Eu Ev Eu' Ev'.
      apply (HP k); auto. destruct (aget_Some _ _ _ Eu). lia.
    + intros k i j W X W' X' c0 Hi Hj Hk (T1 & T2 & HP) HO.
      destruct HO as [a b Eu Ev|a b eb0 id q0 q1 x0 x1 W' X' Eu Ev HA HT C0 C1 HV EU EV].
      * split; [apply untouched_keep; auto|]. split; [apply untouched_keep; auto|]. intros m Hm.
        destruct (Z.eq_dec m (Z.of_nat k)) as [->|]; [|apply HP; lia]. intros u v u' v' E1 E2 E3 E4. left.
        rewrite (proj2 T1) in E3 by lia. rewrite (proj2 T2) in E4 by lia. split; congruence.
      * split; [eapply untouched_set; [exact T1|rewrite <- Hk; exact EU]|].
        split; [eapply untouched_set; [exact T2|rewrite <- Hk; exact EV]|].
        destruct (aset_Some _ _ _ _ EU) as (_ & _ & SU). destruct (aset_Some _ _ _ _ EV) as (_ & _ & SV).
        intros m Hm u v u' v' E1 E2 E3 E4. rewrite SU in E3. rewrite SV in E4. destruct (Z.eqb_spec m (i * r2 + j)) as [->|N].
        -- right. apply Some_inj in E3. apply Some_inj in E4. subst u' v'.
           rewrite Hk in Eu, Ev. rewrite (proj2 T1) in Eu by lia. rewrite (proj2 T2) in Ev by lia. rewrite Hk in E1, E2.
           rewrite Eu in E1. rewrite Ev in E2. apply Some_inj in E1. apply Some_inj in E2. subst a b.
           split; eapply coded_close; eauto; apply HM; [left|right]; eapply aget_In; eauto.
        -- apply (HP m); auto. lia.
Qed.
End B.
