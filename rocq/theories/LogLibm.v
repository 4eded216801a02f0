(** A libm that meets [log_libm_ok]; log2f of powers of two and exp2 of integers compute.  Nothing of /repo is
    modelled here. *)
From Coq Require Import Reals Lra Lia ZArith List Bool.
From Coq Require Import ZifyBool ZifyNat.
From Flocq Require Import Core.Core IEEE754.BinarySingleNaN IEEE754.Binary IEEE754.Bits.
From Verif Require Import Base Arith Exact IEEE IEEELaws IEEEQuant IEEE2D RelaxErr2D LibmModel LogCells2D LogErr2D.
Import ListNotations.
Local Open Scope R_scope.
Local Instance prec53 : Prec_gt_0 53 := eq_refl.
Local Instance prec24 : Prec_gt_0 24 := eq_refl.

(** z when x is the integer z, |z| < 2^31. *)
Definition int_of (x : binary64) : option Z :=
  match btoint 53 1024 None x with
  | Some z => if beq 53 1024 x (b64_ofZ z) then Some z else None
  | None => None
  end.
Lemma int_of_spec x z : int_of x = Some z -> val64 x = Fin (IZR z).
Proof.
  unfold int_of. destruct (btoint 53 1024 None x) as [z'|] eqn:E; [|discriminate].
  destruct (beq 53 1024 x (b64_ofZ z')) eqn:Q; [|discriminate]. intros H. apply Some_inj in H. subst z'.
  rewrite val_toint in E. destruct (val64 x) as [r| | |] eqn:V; try discriminate. cbn [xtoint] in E.
  destruct ((_ <=? _)%Z && (_ <? _)%Z)%bool eqn:B; [|discriminate]. apply Some_inj in E.
  rewrite val_eq in Q. unfold b64_ofZ in Q. rewrite V, (val_ofZ 53 1024 eq_refl eq_refl) in Q.
  assert (RF : rndx 53 1024 (Fin (IZR z)) = Fin (IZR z)); [apply (rndx_fin 53 1024)|rewrite RF in Q].
  - apply (fmt_IZR 53 1024 eq_refl); lia.
  - rewrite <- abs_IZR. eapply Rlt_trans; [|apply bpow_1024_53]. apply IZR_lt. lia.
  - cbn [xeq] in Q. unfold Req_bool in Q. destruct (Rcompare_spec r (IZR z)); try discriminate. congruence.
  - exact eq_refl.
Qed.

Definition exp2_model (x : binary64) : binary64 :=
  match int_of x with
  | Some z => two_pow64 z
  | None =>
      match x with
      | B754_finite _ _ _ _ _ _ =>
          let l := B2R 53 1024 x in
          binary_normalize 53 1024 eq_refl eq_refl mode_NE (ZnearestE (Rpower 2 (l - IZR (Zfloor l)) * bpow radix2 40)) (Zfloor l - 40) false
      | _ => x
      end
  end.

Lemma ln2_lb : / 2 <= ln 2.
Proof.
  destruct (Rle_lt_dec (/ 2) (ln 2)); auto. exfalso. assert (exp (ln 2) < exp (/ 2)) by (apply exp_increasing; auto).
  rewrite exp_ln in H by lra. pose proof exp_le_3. assert (EE : exp 1 = exp (/ 2) * exp (/ 2)) by (rewrite <- exp_plus; f_equal; lra). nra.
Qed.
Lemma bpow_Rpower k : bpow radix2 k = Rpower 2 (IZR k).
Proof. rewrite <- powerRZ_Rpower by lra. apply bpow_powerRZ. Qed.

Lemma exp2_model_ok x l : val64 x = Fin l -> -110 <= l <= 104 ->
  exists r, val64 (exp2_model x) = Fin r /\ Rabs (r - Rpower 2 l) <= Rpower 2 l * bpow radix2 (-30).
Proof.
  intros E H. unfold exp2_model. assert (P30 : 0 < bpow radix2 (-30)) by apply bpow_gt_0.
  destruct (int_of x) as [z|] eqn:Z1.
  - apply int_of_spec in Z1. rewrite E in Z1. injection Z1 as ->.
    assert (-110 <= z <= 104)%Z by (destruct H as [Ha Hb]; apply le_IZR in Ha; apply le_IZR in Hb; lia).
    exists (bpow radix2 z). split; [apply two_pow64_val; lia|]. rewrite bpow_Rpower, Rminus_eq_0, Rabs_R0.
    apply Rmult_le_pos; [left; apply exp_pos|lra].
  - destruct x as [s|[|]|s p Hp|s mm ee Hb]; cbn [val] in E; try discriminate E.
    + (* zero is an integer *) exfalso. assert (N : int_of (B754_zero 53 1024 s) = Some 0%Z) by (destruct s; reflexivity). rewrite N in Z1. discriminate.
    + set (x := B754_finite 53 1024 s mm ee Hb) in *. cbn [val] in E. injection E as E. fold x in E.
      assert (E' : B2R 53 1024 x = l) by (unfold x; cbn [B2R]; exact E). rewrite E'. cbv zeta. clear E.
      pose proof (Zfloor_lb l) as F1. pose proof (Zfloor_ub l) as F2. set (k := Zfloor l) in *.
      assert (Hk : (-110 <= k <= 104)%Z).
      { split; [apply Zfloor_lub; lra|]. apply le_IZR. lra. }
      set (f := Rpower 2 (l - IZR k)).
      assert (Hf : 1 <= f <= 2).
      { split; [apply Rle_trans with (Rpower 2 0); [rewrite Rpower_O; lra|]|apply Rle_trans with (Rpower 2 1); [|rewrite Rpower_1; lra]]; apply Rle_Rpower; lra. }
      set (q := ZnearestE (f * bpow radix2 40)).
      assert (Hq : Rabs (f * bpow radix2 40 - IZR q) <= / 2) by apply Znearest_half.
      assert (B40 : bpow radix2 40 = IZR (2 ^ 40)) by reflexivity. change (2 ^ 40)%Z with 1099511627776%Z in B40.
      assert (Qb : (1099511627776 <= q <= 2199023255552)%Z).
      { rewrite B40 in Hq. apply Rabs_le_inv in Hq. split.
        - assert (1099511627775 < q)%Z by (apply lt_IZR; lra). lia.
        - assert (q < 2199023255553)%Z by (apply lt_IZR; lra). lia. }
      exists (IZR q * bpow radix2 (k - 40)).
      assert (V : val64 (binary_normalize 53 1024 eq_refl eq_refl mode_NE q (k - 40) false) = Fin (IZR q * bpow radix2 (k - 40))).
      { rewrite val_normalize. rewrite (rnd_id 53 1024).
        - apply sat_small. unfold F2R. cbn [Fnum Fexp]. rewrite Rabs_mult, (Rabs_pos_eq (bpow _ _)) by apply bpow_ge_0.
          rewrite Rabs_pos_eq by (apply IZR_le; lia). apply Rle_lt_trans with (bpow radix2 41 * bpow radix2 (k - 40)).
          + apply Rmult_le_compat_r; [apply bpow_ge_0|]. apply (IZR_le q (2 ^ 41)). lia.
          + rewrite <- bpow_plus. apply bpow_lt. lia.
        - apply (generic_format_FLT radix2 (-1074) 53). exists (Float radix2 q (k - 40)); cbn [Fnum Fexp]; auto; [|lia].
          change (radix_val radix2) with 2%Z. lia. }
      split; [exact V|].
      assert (El : Rpower 2 l = f * bpow radix2 40 * bpow radix2 (k - 40)).
      { rewrite Rmult_assoc, <- bpow_plus. replace (40 + (k - 40))%Z with k by lia. rewrite bpow_Rpower. unfold f. rewrite <- Rpower_plus. f_equal. ring. }
      rewrite El. rewrite <- Rmult_minus_distr_r, Rabs_mult, (Rabs_pos_eq (bpow radix2 (k - 40))) by apply bpow_ge_0.
      rewrite (Rmult_comm (f * _)), (Rmult_assoc _ (f * _)), (Rmult_comm (Rabs _)). apply Rmult_le_compat_l; [apply bpow_ge_0|].
      rewrite Rabs_minus_sym. eapply Rle_trans; [exact Hq|]. rewrite Rmult_assoc, <- bpow_plus. change (bpow radix2 (40 + -30)) with 1024. lra.
Qed.

Definition log2f_32 (x : binary32) : binary32 := b32_of_b64 (log2_model (b64_of_b32 x)).
Definition exp2_32 (x : binary32) : binary32 := b32_of_b64 (exp2_model (b64_of_b32 x)).

(** log2f as declared: a float function, also for double data (the argument is converted). *)
Definition lmlog64 (x86 : bool) : Libm binary64 binary64 :=
  {| lm_log2 := log2_model; lm_pow := pow_model; lm_log2f := fun x => b64_of_b32 (log2f_32 (b32_of_b64 x)); lm_exp2 := exp2_model; lm_x86 := x86 |}.
Definition lmlog32 (x86 : bool) : Libm binary32 binary64 :=
  {| lm_log2 := log2_model; lm_pow := pow_model; lm_log2f := log2f_32; lm_exp2 := exp2_32; lm_x86 := x86 |}.

Lemma lmlog64_ok x86 : libm_ok (DA (lmlog64 x86)) (DA_ieee (lmlog64 x86)).
Proof. apply (lm_ok_gen (DA (lmlog64 x86)) (DA_ieee (lmlog64 x86)) eq_refl); intros; reflexivity. Qed.
Lemma lmlog32_ok x86 : libm_ok (FA (lmlog32 x86)) (FA_ieee (lmlog32 x86)).
Proof. apply (lm_ok_gen (FA (lmlog32 x86)) (FA_ieee (lmlog32 x86)) eq_refl); intros; reflexivity. Qed.

Lemma rnd24 r k : Rabs r <= bpow radix2 k -> (-100 <= k <= 126)%Z ->
  exists r', rndx 24 128 (Fin r) = Fin r' /\ Rabs (r' - r) <= bpow radix2 (-24) * Rabs r + bpow radix2 (-149) /\ Rabs r' <= bpow radix2 k.
Proof.
  intros H Hk. exists (round radix2 (SpecFloat.fexp 24 128) ZnearestE r).
  assert (B : Rabs (round radix2 (SpecFloat.fexp 24 128) ZnearestE r) <= bpow radix2 k).
  { apply (rnd_bound 24 128 eq_refl); auto. apply (fmt_bpow 24 128 eq_refl). lia. }
  split; [|split]; auto.
  - cbn [rndx]. apply sat_small. eapply Rle_lt_trans; [exact B|]. apply bpow_lt. lia.
  - exact (rnd_err 24 128 eq_refl r).
Qed.

Lemma log2f_32_ok x r : val32 x = Fin r -> bpow radix2 (-101) <= r <= bpow radix2 101 ->
  exists l, val32 (log2f_32 x) = Fin l /\ Rabs (l - log2R r) <= bpow radix2 (-17) + bpow radix2 (-30).
Proof.
  intros E [H1 H2]. unfold log2f_32. pose proof (bpow_gt_0 radix2 (-101)).
  destruct (log2_model_fin (b64_of_b32 x) r) as (l & El & Hl); [rewrite val_of_b32; auto|lra|]. fold (log2R r) in Hl.
  rewrite val_of_b64, El.
  assert (L1 : -101 <= log2R r <= 101).
  { split.
    - change (-101) with (IZR (-101)). rewrite <- (log2R_bpow (-101)). apply log2R_le; [apply bpow_gt_0|auto].
    - change 101 with (IZR 101). rewrite <- (log2R_bpow 101). apply log2R_le; auto; lra. }
  assert (P40 : bpow radix2 (-40) = / 1099511627776) by reflexivity. assert (P17 : bpow radix2 (-17) = / 131072) by reflexivity.
  assert (P24 : bpow radix2 (-24) = / 16777216) by reflexivity. assert (P30 : bpow radix2 (-30) = / 1073741824) by reflexivity.
  assert (P149 : bpow radix2 (-149) <= bpow radix2 (-40)) by (apply bpow_le; lia).
  rewrite P40 in *. assert (Al : Rabs l <= 102) by (apply Rabs_le; apply Rabs_le_inv in Hl; lra).
  destruct (rnd24 l 7) as (l' & El' & Hl' & _); [change (bpow radix2 7) with 128; lra|lia|].
  exists l'. split; [exact El'|]. rewrite P24 in Hl'. rewrite P17, P30.
  replace (l' - log2R r) with ((l' - l) + (l - log2R r)) by ring. eapply Rle_trans; [apply Rabs_triang|]. lra.
Qed.

Lemma Rpower_bounds l : -110 <= l <= 104 -> bpow radix2 (-110) <= Rpower 2 l <= bpow radix2 104.
Proof. intros H. rewrite !bpow_Rpower. split; apply Rle_Rpower; lra. Qed.

Lemma lmlog32_log_ok x86 : log_libm_ok (FA (lmlog32 x86)) (FA_ieee (lmlog32 x86)).
Proof.
  split.
  - intros x r E H. destruct (log2f_32_ok x r E) as (l & El & Hl).
    + split; [eapply Rle_trans; [|apply (proj1 H)]|eapply Rle_trans; [apply (proj2 H)|]]; apply bpow_le; lia.
    + exists l. split; [exact El|]. eapply Rle_trans; [exact Hl|]. assert (P16 : bpow radix2 (-16) = / 65536) by reflexivity.
      assert (P17 : bpow radix2 (-17) = / 131072) by reflexivity. assert (P30 : bpow radix2 (-30) = / 1073741824) by reflexivity. lra.
  - intros x l E H. change (vT (FA (lmlog32 x86)) (FA_ieee (lmlog32 x86)) x) with (val32 x) in E.
    destruct (exp2_model_ok (b64_of_b32 x) l) as (r & Er & Hr); [rewrite val_of_b32; auto|auto|].
    change (exists r0, val32 (exp2_32 x) = Fin r0 /\ Rabs (r0 - Rpower 2 l) <= Rpower 2 l * bpow radix2 (-20)).
    unfold exp2_32. rewrite val_of_b64, Er. pose proof (Rpower_bounds l H) as PB. set (P := Rpower 2 l) in *.
    assert (PP : 0 < P) by apply exp_pos.
    assert (P20 : bpow radix2 (-20) = / 1048576) by reflexivity.
    assert (P24 : bpow radix2 (-24) = / 16777216) by reflexivity. assert (P30 : bpow radix2 (-30) = / 1073741824) by reflexivity.
    assert (P149 : bpow radix2 (-149) <= P * bpow radix2 (-30)).
    { apply Rle_trans with (bpow radix2 (-110) * bpow radix2 (-30)); [rewrite <- bpow_plus; apply bpow_le; lia|].
      apply Rmult_le_compat_r; [apply bpow_ge_0|lra]. }
    rewrite P30 in P149. rewrite P30 in Hr. apply Rabs_le_inv in Hr.
    assert (Ar : Rabs r <= 2 * P) by (apply Rabs_le; lra).
    destruct (rnd24 r 105) as (r' & Er' & Hr' & _); [|lia|].
    { eapply Rle_trans; [exact Ar|]. change 105%Z with (104 + 1)%Z. rewrite bpow_2. lra. }
    exists r'. split; [exact Er'|]. rewrite P20. rewrite P24 in Hr'. apply Rabs_le_inv in Hr'. apply Rabs_le. lra.
Qed.

Lemma lmlog64_log_ok x86 : log_libm_ok (DA (lmlog64 x86)) (DA_ieee (lmlog64 x86)).
Proof.
  split.
  - intros x r E H. change (vT (DA (lmlog64 x86)) (DA_ieee (lmlog64 x86)) x) with (val64 x) in E.
    change (exists l, val64 (b64_of_b32 (log2f_32 (b32_of_b64 x))) = Fin l /\ Rabs (l - log2R r) <= bpow radix2 (-16)).
    assert (P20 : bpow radix2 (-20) = / 1048576) by reflexivity.
    assert (P24 : bpow radix2 (-24) = / 16777216) by reflexivity. assert (P30 : bpow radix2 (-30) = / 1073741824) by reflexivity.
    assert (P16 : bpow radix2 (-16) = / 65536) by reflexivity. assert (P17 : bpow radix2 (-17) = / 131072) by reflexivity.
    assert (P40 : bpow radix2 (-40) = / 1099511627776) by reflexivity.
    pose proof (bpow_gt_0 radix2 (-100)) as P100.
    assert (Pr : 0 < r) by lra.
    assert (P149 : bpow radix2 (-149) <= r * bpow radix2 (-40)).
    { apply Rle_trans with (bpow radix2 (-100) * bpow radix2 (-40)); [rewrite <- bpow_plus; apply bpow_le; lia|].
      apply Rmult_le_compat_r; [apply bpow_ge_0|lra]. }
    rewrite P40 in P149.
    destruct (rnd24 r 100) as (r' & Er' & Hr' & Br); [rewrite Rabs_pos_eq; lra|lia|]. rewrite (Rabs_pos_eq r) in Hr' by lra.
    assert (V : val32 (b32_of_b64 x) = Fin r') by (rewrite val_of_b64, E; auto).
    rewrite P24 in Hr'. apply Rabs_le_inv in Hr'.
    assert (R' : r * (1 - / 8388608) <= r' <= r * (1 + / 8388608)) by lra.
    assert (Pr' : 0 < r') by lra.
    destruct (log2f_32_ok _ r' V) as (l & El & Hl).
    { split; [|rewrite Rabs_pos_eq in Br by lra; eapply Rle_trans; [exact Br|]; apply bpow_le; lia].
      change (-101)%Z with (-100 + -1)%Z. rewrite bpow_plus. change (bpow radix2 (-1)) with (/ 2). lra. }
    exists l. rewrite val_of_b32. split; [exact El|].
    assert (Q : Rabs (log2R r' - log2R r) <= / 1048576).
    { assert (K : forall a b, 0 < a -> 0 < b -> b <= a * (1 + / 4194304) -> log2R b - log2R a <= / 1048576).
      { intros a b Ha Hb H0. assert (log2R b <= log2R (a * (1 + / 4194304))) by (apply log2R_le; lra).
        rewrite log2R_mul in H1 by lra. assert (log2R (1 + / 4194304) <= / 1048576); [|lra].
        assert (Q : ln (1 + / 4194304) <= / 4194304).
        { apply Rlt_le. rewrite <- (ln_exp (/ 4194304)) at 2. apply ln_increasing; [lra|]. apply exp_ineq1. lra. }
        pose proof ln2_lb as L2.
        unfold log2R, Rdiv. apply Rle_trans with (/ 4194304 * 2); [|lra].
        apply Rmult_le_compat; try lra; [rewrite <- ln_1; apply Rlt_le, ln_increasing; lra|left; apply Rinv_0_lt_compat; lra|].
        apply Rmult_le_reg_l with (ln 2); [lra|]. rewrite Rinv_r; lra. }
      apply Rabs_le. split.
      - assert (log2R r - log2R r' <= / 1048576); [|lra]. apply K; auto. lra.
      - apply K; auto. lra. }
    rewrite P17, P30 in Hl. rewrite P16. replace (l - log2R r) with ((l - log2R r') + (log2R r' - log2R r)) by ring.
    eapply Rle_trans; [apply Rabs_triang|]. lra.
  - intros x l E H. destruct (exp2_model_ok x l E H) as (r & Er & Hr). exists r. split; [exact Er|].
    eapply Rle_trans; [exact Hr|]. apply Rmult_le_compat_l; [left; apply exp_pos|]. apply bpow_le. lia.
Qed.
