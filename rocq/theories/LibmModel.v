(** A libm that meets [libm_ok], so that the theorems about IEEE arithmetic are not vacuous; log2 of a power of
    two computes, so that concrete runs can be evaluated.  Nothing of /repo is modelled here. *)
From Coq Require Import Reals Lra Lia ZArith List Bool.
From Coq Require Import ZifyBool ZifyNat.
From Flocq Require Import Core.Core IEEE754.BinarySingleNaN IEEE754.Binary IEEE754.Bits.
From Verif Require Import Base Arith Exact IEEE IEEELaws IEEEQuant.
Import ListNotations.
Local Open Scope R_scope.
Local Instance prec53 : Prec_gt_0 53 := eq_refl.

(** k when x = 2^k. *)
Definition pow2_exp (x : binary64) : option Z :=
  match x with
  | B754_finite _ _ false m e _ => if (Z.pos m =? 2 ^ Z.log2 (Z.pos m))%Z then Some (Z.log2 (Z.pos m) + e)%Z else None
  | _ => None
  end.

Lemma pow2_exp_spec x k : pow2_exp x = Some k <-> val64 x = Fin (bpow radix2 k).
Proof.
  assert (K : forall m e H, pow2_exp (B754_finite 53 1024 false m e H) = Some k -> val64 (B754_finite 53 1024 false m e H) = Fin (bpow radix2 k)).
  { intros m e H. cbn [pow2_exp val B2R]. destruct (Z.eqb_spec (Z.pos m) (2 ^ Z.log2 (Z.pos m))) as [E|N]; [|discriminate].
    intros X. apply Some_inj in X. subst k. f_equal. unfold F2R. cbn [Fnum Fexp cond_Zopp]. rewrite bpow_plus. f_equal.
    rewrite E at 1. change (2 ^ Z.log2 (Z.pos m))%Z with (radix2 ^ Z.log2 (Z.pos m))%Z. apply IZR_Zpower. apply Z.log2_nonneg. }
  split.
  - destruct x as [s|s|s p H|[|] m e H]; try discriminate. apply K.
  - intros E. destruct x as [s|[|]|s p H|[|] m e H]; cbn [val] in E; try discriminate.
    + injection E as X. cbn [B2R] in X. pose proof (bpow_gt_0 radix2 k). lra.
    + injection E as X. exfalso. cbn [B2R] in X. pose proof (bpow_gt_0 radix2 k).
      assert (F2R (Float radix2 (Z.neg m) e) < 0) by (apply F2R_lt_0; reflexivity). lra.
    + cbn [pow2_exp]. destruct (Z.eqb_spec (Z.pos m) (2 ^ Z.log2 (Z.pos m))) as [E'|N].
      * pose proof (K m e H) as K'. cbn [pow2_exp] in K'. replace (Z.pos m =? 2 ^ Z.log2 (Z.pos m))%Z with true in * by lia.
        f_equal. assert (X : forall k', val64 (B754_finite 53 1024 false m e H) = Fin (bpow radix2 k') -> k' = k).
        { intros k' E2. cbn [val] in E2. rewrite E in E2. injection E2 as E3. apply bpow_inj in E3. auto. }
        apply X. cbn [val B2R]. f_equal. unfold F2R. cbn [Fnum Fexp cond_Zopp]. rewrite bpow_plus. f_equal.
        rewrite E' at 1. change (2 ^ Z.log2 (Z.pos m))%Z with (radix2 ^ Z.log2 (Z.pos m))%Z. apply IZR_Zpower. apply Z.log2_nonneg.
      * exfalso. apply N. injection E as E1. cbn [B2R cond_Zopp] in E1. unfold F2R in E1. cbn [Fnum Fexp] in E1.
        assert (E2 : IZR (Z.pos m) = bpow radix2 (k - e)).
        { unfold Zminus. rewrite bpow_plus, <- E1, Rmult_assoc, <- bpow_plus. replace (e + - e)%Z with 0%Z by lia. cbn [bpow]. ring. }
        destruct (Z_lt_le_dec (k - e) 0) as [Hn|Hn].
        -- exfalso. assert (bpow radix2 (k - e) < 1) by (change 1 with (bpow radix2 0); apply bpow_lt; auto).
           assert (1 <= IZR (Z.pos m)) by (apply IZR_le; lia). lra.
        -- rewrite <- IZR_Zpower in E2 by auto. apply eq_IZR in E2. rewrite E2 at 2. change (radix_val radix2) with 2%Z in *.
           rewrite Z.log2_pow2 by auto. exact E2.
Qed.

Definition quarter_log2 (r : R) : Z := ZnearestE (ln r / ln 2 * bpow radix2 41).
Definition log2_model (x : binary64) : binary64 :=
  match pow2_exp x with
  | Some k => b64_ofZ k
  | None =>
      match x with
      | B754_finite _ _ false m e H => binary_normalize 53 1024 eq_refl eq_refl mode_NE (quarter_log2 (B2R 53 1024 x)) (-41) false
      | B754_infinity _ _ false => x
      | B754_nan _ _ _ _ _ => x
      | _ => B754_infinity _ _ true
      end
  end.
Definition pow_model (b e : Z) : binary64 :=
  if (Z.log2 b * e <? 1024)%Z then two_pow64 (Z.log2 b * e) else B754_infinity 53 1024 false.

Definition lm64 (x86 : bool) : Libm binary64 binary64 :=
  {| lm_log2 := log2_model; lm_pow := pow_model; lm_log2f := log2_model; lm_exp2 := fun x => x; lm_x86 := x86 |}.
Definition lm32 (x86 : bool) : Libm binary32 binary64 :=
  {| lm_log2 := log2_model; lm_pow := pow_model; lm_log2f := fun x => x; lm_exp2 := fun x => x; lm_x86 := x86 |}.

Lemma log2_bounds x r : val64 x = Fin r -> 0 < r -> -1074 <= ln r / ln 2 <= 1024.
Proof.
  intros E H. destruct (val_format 53 1024 eq_refl _ _ E) as [G B]. rewrite Rabs_pos_eq in B by lra.
  pose proof ln2_pos as L2.
  assert (Lb : forall k, ln (bpow radix2 k) / ln 2 = IZR k).
  { intros k. assert (Ek : bpow radix2 k = Rpower 2 (IZR k)) by (rewrite <- powerRZ_Rpower by lra; apply bpow_powerRZ).
    rewrite Ek. unfold Rpower. rewrite ln_exp. field. lra. }
  split.
  - rewrite <- (Lb (-1074)%Z). apply Rmult_le_compat_r; [left; apply Rinv_0_lt_compat; auto|].
    assert (bpow radix2 (-1074) <= r).
    { change fexp64 with (FLT_exp (-1074) 53) in G.
      assert (X : bpow radix2 (-1074) <= Rabs r); [|rewrite Rabs_pos_eq in X; lra].
      apply (FLT_format_generic radix2 (-1074) 53) in G. destruct G as [[fm fe] E1 E2 E3]. cbn [Fnum Fexp] in E2, E3.
      rewrite E1. rewrite <- F2R_Zabs. apply Rle_trans with (bpow radix2 fe); [apply bpow_le; auto|].
      apply bpow_le_F2R. assert (fm <> 0%Z); [|lia]. intros N. rewrite E1 in H. unfold F2R in H. cbn [Fnum Fexp] in H. rewrite N in H. lra. }
    destruct H0 as [L|L]; [left; apply ln_increasing; [apply bpow_gt_0|auto]|right; rewrite L; auto].
  - rewrite <- (Lb 1024%Z). apply Rmult_le_compat_r; [left; apply Rinv_0_lt_compat; auto|]. left. apply ln_increasing; auto.
Qed.

Lemma log2_model_fin x r : val64 x = Fin r -> 0 < r -> exists l, val64 (log2_model x) = Fin l /\ Rabs (l - ln r / ln 2) <= bpow radix2 (-40).
Proof.
  intros E H. unfold log2_model. pose proof (pow2_exp_spec x) as PS. pose proof ln2_pos as L2.
  assert (H40 : 0 < bpow radix2 (-40)) by apply bpow_gt_0.
  pose proof (log2_bounds x r E H) as LB.
  destruct (pow2_exp x) as [k|] eqn:P.
  - destruct (PS k) as [PS1 _]. specialize (PS1 eq_refl). rewrite E in PS1. inversion PS1. subst r.
    assert (Ek : bpow radix2 k = Rpower 2 (IZR k)) by (rewrite <- powerRZ_Rpower by lra; apply bpow_powerRZ).
    assert (Lk : ln (bpow radix2 k) / ln 2 = IZR k) by (rewrite Ek; unfold Rpower; rewrite ln_exp; field; lra).
    rewrite Lk in *. assert (-1074 <= k <= 1024)%Z by (destruct LB as [L1 L3]; apply le_IZR in L1; apply le_IZR in L3; lia).
    exists (IZR k). split.
    + unfold b64_ofZ. rewrite val_ofZ. apply rndx_fin.
      * apply (fmt_IZR 53 1024 eq_refl); lia.
      * rewrite <- abs_IZR. eapply Rlt_trans; [|apply bpow_1024_53]. apply IZR_lt. lia.
    + rewrite Rminus_eq_0, Rabs_R0. lra.
  - destruct x as [s|[|]|s p Hp|[|] m e Hb]; cbn [val] in E; try discriminate.
    + inversion E. cbn in *. lra.
    + exfalso. injection E as X. cbn [B2R] in X. assert (F2R (Float radix2 (Z.neg m) e) < 0) by (apply F2R_lt_0; reflexivity). lra.
    + injection E as X. set (x := B754_finite 53 1024 false m e Hb) in *. cbn [B2R] in X.
      replace (B2R 53 1024 x) with r by (symmetry; exact X).
      set (L := ln r / ln 2) in *. rewrite val_normalize. set (q := quarter_log2 r).
      assert (Hq : Rabs (IZR q - L * bpow radix2 41) <= / 2).
      { unfold q, quarter_log2. fold L. rewrite <- Rabs_Ropp. replace (- (IZR (ZnearestE (L * bpow radix2 41)) - L * bpow radix2 41)) with (L * bpow radix2 41 - IZR (ZnearestE (L * bpow radix2 41))) by ring.
        apply Znearest_half. }
      assert (B41 : bpow radix2 41 = IZR (2 ^ 41)) by reflexivity.
      assert (Hq2 : (Z.abs q <= 2 ^ 53)%Z).
      { apply le_IZR. rewrite abs_IZR. replace (IZR q) with ((IZR q - L * bpow radix2 41) + L * bpow radix2 41) by ring.
        eapply Rle_trans; [apply Rabs_triang|]. assert (Rabs (L * bpow radix2 41) <= 1074 * bpow radix2 41).
        { rewrite Rabs_mult, (Rabs_pos_eq (bpow _ _)) by apply bpow_ge_0. apply Rmult_le_compat_r; [apply bpow_ge_0|]. apply Rabs_le. lra. }
        rewrite B41 in *. change (IZR (2 ^ 53)) with 9007199254740992. change (IZR (2 ^ 41)) with 2199023255552 in *. lra. }
      assert (G : generic_format radix2 fexp64 (F2R (Float radix2 q (-41)))).
      { destruct (Z.eq_dec (Z.abs q) (2 ^ 53)) as [Eq|Nq].
        - assert (G0 : generic_format radix2 fexp64 (bpow radix2 12)) by (apply (fmt_bpow 53 1024 eq_refl); lia).
          assert (F2R (Float radix2 q (-41)) = bpow radix2 12 \/ F2R (Float radix2 q (-41)) = - bpow radix2 12) as [-> | ->].
          { unfold F2R. cbn [Fnum Fexp]. assert (q = 2 ^ 53 \/ q = - 2 ^ 53)%Z as [-> | ->] by lia.
            - left. change (IZR (2 ^ 53)) with (bpow radix2 53). rewrite <- bpow_plus. reflexivity.
            - right. rewrite opp_IZR. change (IZR (2 ^ 53)) with (bpow radix2 53). rewrite Ropp_mult_distr_l_reverse, <- bpow_plus. reflexivity. }
          + auto.
          + apply generic_format_opp. auto.
        - apply (generic_format_FLT radix2 (-1074) 53). exists (Float radix2 q (-41)); cbn [Fnum Fexp]; auto; [|lia].
          change (radix_val radix2) with 2%Z. lia. }
      assert (V : Rabs (F2R (Float radix2 q (-41)) - L) <= bpow radix2 (-42)).
      { unfold F2R. cbn [Fnum Fexp]. replace (IZR q * bpow radix2 (-41) - L) with ((IZR q - L * bpow radix2 41) * bpow radix2 (-41)).
        - rewrite Rabs_mult, (Rabs_pos_eq (bpow _ _)) by apply bpow_ge_0. change (-42)%Z with (-1 + -41)%Z. rewrite bpow_plus.
          apply Rmult_le_compat_r; [apply bpow_ge_0|]. exact Hq.
        - rewrite Rmult_minus_distr_r, (Rmult_assoc L), <- bpow_plus. change (bpow radix2 (41 + -41)) with 1. ring. }
      exists (F2R (Float radix2 q (-41))). split.
      * rewrite (rnd_id 53 1024) by auto. apply sat_small. apply Rle_lt_trans with 2000.
        -- replace (F2R (Float radix2 q (-41))) with ((F2R (Float radix2 q (-41)) - L) + L) by ring.
           eapply Rle_trans; [apply Rabs_triang|]. assert (bpow radix2 (-42) <= 1) by (change 1 with (bpow radix2 0); apply bpow_le; lia).
           assert (Rabs L <= 1074) by (apply Rabs_le; lra). lra.
        -- eapply Rlt_trans; [|apply bpow_1024_53]. apply IZR_lt. lia.
      * eapply Rle_trans; [exact V|]. apply bpow_le. lia.
Qed.

Lemma lm_ok_gen A (I : ieee A) (e : D A = binary64) (vDe : forall x, vD A I x = val64 (eq_rect _ (fun t => t) x _ e)) :
  (forall x, eq_rect _ (fun t => t) (dlog2 A x) _ e = log2_model (eq_rect _ (fun t => t) x _ e)) ->
  (forall b i, eq_rect _ (fun t => t) (dpow A b i) _ e = pow_model b i) -> libm_ok A I.
Proof.
  intros HL HP. split; intros; rewrite ?vDe, ?HL, ?HP in *.
  - unfold pow_model. rewrite Z.log2_pow2 by lia. replace (b * id <? 1024)%Z with true by lia. apply two_pow64_val. lia.
  - unfold pow_model. rewrite Z.log2_pow2 by lia. destruct (b * id <? 1024)%Z eqn:E; [|reflexivity].
    rewrite two_pow64_val by nia. apply xle_fin. change 1 with (bpow radix2 0). apply bpow_le. nia.
  - pose proof H as H'. apply pow2_exp_spec in H. unfold log2_model. rewrite H. unfold b64_ofZ. rewrite val_ofZ.
    assert (LB := log2_bounds _ _ H' (bpow_gt_0 _ _)). pose proof ln2_pos as L2.
    assert (Ek : bpow radix2 k = Rpower 2 (IZR k)) by (rewrite <- powerRZ_Rpower by lra; apply bpow_powerRZ).
    assert (Lk : ln (bpow radix2 k) / ln 2 = IZR k) by (rewrite Ek; unfold Rpower; rewrite ln_exp; field; lra).
    rewrite Lk in LB. assert (-1074 <= k <= 1024)%Z by (destruct LB as [L1 L3]; apply le_IZR in L1; apply le_IZR in L3; lia).
    apply rndx_fin; [apply (fmt_IZR 53 1024 eq_refl); lia|]. rewrite <- abs_IZR. eapply Rlt_trans; [|apply bpow_1024_53]. apply IZR_lt. lia.
  - apply log2_model_fin; auto.
  - destruct (eq_rect (D A) (fun t : Type => t) x binary64 e) as [s|[|]|s p Hp|[|] m ex Hb]; cbn [val] in H; try discriminate. reflexivity.
  - destruct (eq_rect (D A) (fun t : Type => t) x binary64 e) as [s|[|]|s p Hp|[|] m ex Hb]; cbn [val] in H; try discriminate. reflexivity.
Qed.

Lemma lm64_ok x86 : libm_ok (DA (lm64 x86)) (DA_ieee (lm64 x86)).
Proof. apply (lm_ok_gen (DA (lm64 x86)) (DA_ieee (lm64 x86)) eq_refl); intros; reflexivity. Qed.
Lemma lm32_ok x86 : libm_ok (FA (lm32 x86)) (FA_ieee (lm32 x86)).
Proof. apply (lm_ok_gen (FA (lm32 x86)) (FA_ieee (lm32 x86)) eq_refl); intros; reflexivity. Qed.
