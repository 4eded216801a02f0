(** Concrete fields (computed in IEEE double arithmetic) on which the unconditional statements fail, and the
    behaviour of the compressors when the output does not fit.  Nothing of /repo is modelled here. *)
From Coq Require Import Reals Lra Lia ZArith List Bool.
From Coq Require Import ZifyBool ZifyNat.
From Flocq Require Import Core.Core IEEE754.BinarySingleNaN IEEE754.Binary IEEE754.Bits.
From Verif Require Import Base Huffman HuffStream HuffProps Stream Arith Mesh2D Derive2D Codec2D Sync2D Trace2D Stream2D Exact IEEE IEEELaws IEEEQuant
  IEEE2D IEEEAbs2D IEEERel2D TotalAny LibmModel.
Import ListNotations.
Local Open Scope Z_scope.

(** m * 2^e as a double. *)
Definition dy (m e : Z) : binary64 := binary_normalize 53 1024 eq_refl eq_refl mode_NE m e false.
Definition dnan : binary64 := B754_nan 53 1024 false 1 eq_refl.
Definition dinf : binary64 := B754_infinity 53 1024 false.

(** Bits of the final working copies. *)
Definition bits_of_result (r : option (list binary64 * list binary64 * code binary64)) : option (list Z * list Z) :=
  match r with Some (U, V, _) => Some (map bits_of_b64 U, map bits_of_b64 V) | None => None end.

Definition nanU : list binary64 := [dy 1 (-1); dy 1 0; dnan; dy 1 0].
Definition nanV : list binary64 := [dy 5 (-3); dy 1 1; dy 1 0; dy 1 0].
Lemma nan_abs x86 : bits_of_result (enc_online_abs (DA (lm64 x86)) (dy 0 0) 2 2 nanU nanV)
  = Some (map bits_of_b64 nanU, bits_of_b64 (dy 1 (-1)) :: map bits_of_b64 (tl nanV)).
Proof. destruct x86; vm_compute; reflexivity. Qed.

Definition nanU2 : list binary64 := [dy 5 (-1); dy 7 (-2); dnan; dy 3 (-1)].
Definition nanV2 : list binary64 := [dy 5 (-1); dy 5 (-2); dy 1 0; dy (-1) 0].
Lemma nan_rel : bits_of_result (enc_online (DA (lm64 true)) (dy 0 0) 2 2 nanU2 nanV2)
  = Some (bits_of_b64 (dy 1 1) :: map bits_of_b64 (tl nanU2), bits_of_b64 (dy 1 1) :: map bits_of_b64 (tl nanV2)).
Proof. vm_compute. reflexivity. Qed.
Lemma nan_rel_ub : bits_of_result (enc_online (DA (lm64 false)) (dy 0 0) 2 2 nanU2 nanV2)
  = Some (bits_of_b64 (dy 1 1) :: map bits_of_b64 (tl nanU2), bits_of_b64 (dy 1 1) :: map bits_of_b64 (tl nanV2)).
Proof. vm_compute. reflexivity. Qed.

Lemma inf_ub : enc_online (DA (lm64 false)) (dy 1 (-1)) 1 1 [dinf] [dy 1 0] = None.
Proof. vm_compute. reflexivity. Qed.

(** The strict bound.  log2((1 - 2^-49) 2^52) is 52 - 2.6e-15; the nearest double is 52. *)
Definition strict_eb : binary64 := dy (2 ^ 49 - 1) (-49).
Definition strict_arg : binary64 := dy (2 ^ 49 - 1) 3.
Definition strict_log2 (x : binary64) : binary64 := if bits_of_b64 x =? bits_of_b64 strict_arg then b64_ofZ 52 else log2_model x.
Definition lm_strict : Libm binary64 binary64 :=
  {| lm_log2 := strict_log2; lm_pow := pow_model; lm_log2f := log2_model; lm_exp2 := fun x => x; lm_x86 := false |}.

Local Open Scope R_scope.
Lemma val_dy m e : val64 (dy m e) = sat 1024 (round radix2 fexp64 ZnearestE (F2R (Float radix2 m e))).
Proof. apply val_normalize. Qed.
Lemma strict_arg_val : val64 strict_arg = Fin (bpow radix2 52 * (1 - bpow radix2 (-49))).
Proof.
  unfold strict_arg. rewrite val_dy. assert (E : F2R (Float radix2 (2 ^ 49 - 1) 3) = bpow radix2 52 * (1 - bpow radix2 (-49))).
  { unfold F2R. cbn [Fnum Fexp]. rewrite minus_IZR. change (IZR (2 ^ 49)) with (bpow radix2 49).
    rewrite Rmult_minus_distr_l, Rmult_minus_distr_r, <- !bpow_plus, Rmult_1_l, Rmult_1_r. reflexivity. }
  rewrite <- E. rewrite (rnd_id 53 1024).
  - apply sat_small. rewrite E. pose proof (bpow_gt_0 radix2 52). pose proof (bpow_gt_0 radix2 (-49)).
    assert (bpow radix2 (-49) < 1) by (change 1 with (bpow radix2 0); apply bpow_lt; lia).
    rewrite Rabs_pos_eq by nra. apply Rle_lt_trans with (bpow radix2 52); [nra|apply bpow_lt; lia].
  - apply (generic_format_FLT radix2 (-1074) 53). exists (Float radix2 (2 ^ 49 - 1) 3); [reflexivity|reflexivity|cbn [Fexp]; lia].
Qed.

Lemma strict_log_close : Rabs (52 - ln (bpow radix2 52 * (1 - bpow radix2 (-49))) / ln 2) <= bpow radix2 (-40).
Proof.
  pose proof ln2_pos as L2.
  assert (H49 : bpow radix2 (-49) = bpow radix2 (-9) * bpow radix2 (-40)) by (rewrite <- bpow_plus; reflexivity).
  assert (H9 : bpow radix2 (-9) = / 512) by reflexivity. rewrite H9 in H49.
  set (d := bpow radix2 (-40)) in *. assert (Hd : 0 < d <= 1).
  { split; [apply bpow_gt_0|]. change 1 with (bpow radix2 0). apply bpow_le. lia. }
  set (h := bpow radix2 (-49)) in *. assert (Hh : 0 < h <= / 4) by lra.
  rewrite ln_mult by (try apply bpow_gt_0; lra).
  replace (ln (bpow radix2 52)) with (52 * ln 2).
  2:{ replace (bpow radix2 52) with (Rpower 2 (IZR 52)) by (rewrite <- powerRZ_Rpower by lra; symmetry; apply bpow_powerRZ).
      unfold Rpower. rewrite ln_exp. reflexivity. }
  replace (52 - (52 * ln 2 + ln (1 - h)) / ln 2) with (- ln (1 - h) / ln 2) by (field; lra).
  assert (Hln : 0 <= - ln (1 - h) <= 2 * h).
  { split.
    - assert (ln (1 - h) < ln 1) by (apply ln_increasing; lra). rewrite ln_1 in H. lra.
    - assert (Hi : / (1 - h) <= 1 + 2 * h).
      { apply Rmult_le_reg_l with (1 - h); [lra|]. rewrite Rinv_r by lra. nra. }
      rewrite <- ln_Rinv by lra. apply Rle_trans with (ln (1 + 2 * h)).
      + destruct Hi as [Hi|Hi]; [left; apply ln_increasing; auto; apply Rinv_0_lt_compat; lra|rewrite Hi; lra].
      + apply Rle_trans with (ln (exp (2 * h))); [|rewrite ln_exp; lra]. left. apply ln_increasing; [lra|]. apply exp_ineq1. lra. }
  assert (L2' : / 2 < ln 2).
  { rewrite <- (ln_exp (/ 2)). apply ln_increasing; [apply exp_pos|].
    assert (E : exp (/ 2) * exp (/ 2) = exp 1) by (rewrite <- exp_plus; f_equal; lra).
    pose proof (exp_pos (/ 2)). pose proof exp_le_3. nra. }
  rewrite Rabs_pos_eq.
  - apply Rmult_le_reg_r with (ln 2); auto. unfold Rdiv. rewrite Rmult_assoc, Rinv_l, Rmult_1_r by lra. nra.
  - apply Rmult_le_pos; [lra|]. left. apply Rinv_0_lt_compat. auto.
Qed.

Lemma strict_bits x : (bits_of_b64 x =? bits_of_b64 strict_arg)%Z = true -> x = strict_arg.
Proof.
  intros H. apply Z.eqb_eq in H. apply (f_equal b64_of_bits) in H. unfold b64_of_bits, bits_of_b64 in H.
  rewrite !binary_float_of_bits_of_binary_float in H. exact H.
Qed.
Lemma lm_strict_ok : libm_ok (DA lm_strict) (DA_ieee lm_strict).
Proof.
  pose proof (lm64_ok false) as K. destruct K as [K1 K2 K3 K4 K5 K6].
  split; cbn [DA_ieee vD DA dlog2 lm_strict lm_log2] in *; auto;
    intros x; unfold strict_log2; destruct (bits_of_b64 x =? bits_of_b64 strict_arg)%Z eqn:E; auto;
    apply strict_bits in E; subst x; rewrite strict_arg_val; try discriminate.
  - intros k X. exfalso. injection X as X. 
    assert (bpow radix2 51 < bpow radix2 k < bpow radix2 52).
    { rewrite <- X. change (IZR (Z.pow_pos 2 52)) with (bpow radix2 52). change (/ IZR (Z.pow_pos 2 49)) with (bpow radix2 (-49)). assert (E52 : bpow radix2 52 = 2 * bpow radix2 51) by (change 2 with (bpow radix2 1); rewrite <- bpow_plus; reflexivity).
      rewrite E52. pose proof (bpow_gt_0 radix2 51) as P51. pose proof (bpow_gt_0 radix2 (-49)) as P49.
      assert (bpow radix2 (-49) < / 2) by (change (/ 2) with (bpow radix2 (-1)); apply bpow_lt; lia).
      set (b := bpow radix2 51) in *. set (h := bpow radix2 (-49)) in *. clear - P51 P49 H. split; nra. }
    destruct H as [X1 X2]. apply lt_bpow in X1. apply lt_bpow in X2. lia.
  - intros r X Hr. injection X as <-. exists 52. split; [|apply strict_log_close].
    unfold b64_ofZ. rewrite val_ofZ. apply rndx_fin; [apply (fmt_IZR 53 1024 eq_refl); lia|].
    rewrite <- abs_IZR. eapply Rlt_trans; [|apply bpow_1024_53]. apply IZR_lt. lia.
Qed.
Local Open Scope Z_scope.
(** Requested: 1 - 2^-49; decoded 0 instead of 1 - 2^-50. *)
Lemma strict_run : bits_of_result (enc_online_abs (DA lm_strict) strict_eb 1 1 [dy (2 ^ 50 - 1) (-50)] [dy (2 ^ 50 - 1) (-50)])
  = Some ([bits_of_b64 (dy 0 0)], [bits_of_b64 (dy 0 0)]).
Proof. vm_compute. reflexivity. Qed.
