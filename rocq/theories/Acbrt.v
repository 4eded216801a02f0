(** The cube root of the offline 3D bounds (include/sz_cp_preserve_utils.hpp:102-118 acbrt1), in binary32. *)
From Coq Require Import Reals Lra Lia ZArith List Bool.
From Coq Require Import ZifyBool.
From Flocq Require Import Core.Core IEEE754.BinarySingleNaN IEEE754.Binary IEEE754.Bits Relative.
From Verif Require Import Exact IEEE IEEELaws.
Import ListNotations.
Local Open Scope Z_scope.

(** 109, 111: the float seen as a 32-bit int. *)
Definition int_of_bits (b : Z) : Z := if b <? 2 ^ 31 then b else b - 2 ^ 32.

(** 112-115: the initial guess; C division truncates towards zero. *)
Definition acbrt1_guess (ix : Z) : Z :=
  let ix := Z.quot ix 4 + Z.quot ix 16 in
  let ix := ix + Z.quot ix 16 in
  let ix := ix + Z.quot ix 256 in
  709965728 + ix.                       (* 0x2a5137a0 *)

Definition third32 : binary32 := b32_of_bits 1051372203.       (* 0.33333333f = 0x3eaaaaab *)

(** 116, 117: one Newton step. *)
Definition newton3 (x0 x : binary32) : binary32 :=
  b32_mult mode_NE third32 (b32_plus mode_NE (b32_mult mode_NE (b32_ofZ 2) x) (b32_div mode_NE x0 (b32_mult mode_NE x x))).

(** 108-119 acbrt1. *)
Definition acbrt1 (x0 : binary32) : binary32 :=
  let x := b32_of_bits (acbrt1_guess (int_of_bits (bits_of_b32 x0)) mod 2 ^ 32) in
  newton3 x0 (newton3 x0 x).

(** ** The value of a bit pattern *)
Local Open Scope R_scope.
Local Notation val32 := (val 24 128).

Definition bval (b : Z) : R :=
  if (b / 2 ^ 23 =? 0)%Z then IZR (b mod 2 ^ 23) * bpow radix2 (-149)
  else IZR (2 ^ 23 + b mod 2 ^ 23) * bpow radix2 (b / 2 ^ 23 - 150).

Lemma bits_val b : (0 <= b < 255 * 2 ^ 23)%Z -> val32 (b32_of_bits b) = Fin (bval b) /\ Bsign 24 128 (b32_of_bits b) = false.
Proof.
  intros Hb.
  assert (Q : exists m e, B2FF 24 128 (b32_of_bits b) = (if (m =? 0)%Z then F754_zero false else F754_finite false (Z.to_pos m) e) /\ (0 <= m)%Z /\
    bval b = IZR m * bpow radix2 e).
  2:{ destruct Q as (m & e & Eff & Hm & ->). revert Eff. generalize (b32_of_bits b). intros x Eff. destruct (Z.eqb_spec m 0) as [->|N].
      - destruct x; try discriminate. cbn in Eff. injection Eff as ->. cbn [val Bsign]. split; [rewrite Rmult_0_l; reflexivity|reflexivity].
      - destruct x as [| | |s m' e' H]; try discriminate. cbn in Eff. injection Eff as -> -> ->. cbn [val Bsign]. split; [|reflexivity].
        f_equal. unfold B2R, F2R. cbn [cond_Zopp Fnum Fexp]. rewrite Z2Pos.id by lia. reflexivity. }
  unfold b32_of_bits, binary_float_of_bits. rewrite B2FF_FF2B. unfold binary_float_of_bits_aux, split_bits. unfold bval.
  replace (Zle_bool (2 ^ 23 * 2 ^ 8) b) with false by (symmetry; apply Zle_bool_false; lia).
  assert (HE : ((b / 2 ^ 23) mod 2 ^ 8 = b / 2 ^ 23)%Z) by (apply Z.mod_small; split; [apply Z.div_pos; lia|apply Z.div_lt_upper_bound; lia]).
  rewrite HE. assert (E255 : (b / 2 ^ 23 < 255)%Z) by (apply Z.div_lt_upper_bound; lia). assert (E0 : (0 <= b / 2 ^ 23)%Z) by (apply Z.div_pos; lia).
  pose proof (Z.mod_pos_bound b (2 ^ 23) ltac:(lia)) as HM.
  set (E := (b / 2 ^ 23)%Z) in *. set (M := (b mod 2 ^ 23)%Z) in *. clearbody E M. clear HE.
  destruct (Z.eqb_spec E 0) as [->|NE].
  - change (Zeq_bool 0 0) with true. cbv iota. exists M, (-149)%Z. split; [|split; [lia|reflexivity]].
    destruct M as [|p|p]; [reflexivity|reflexivity|lia].
  - replace (Zeq_bool E 0) with false by (symmetry; apply Zeq_bool_false; auto).
    replace (Zeq_bool E (2 ^ 8 - 1)) with false by (symmetry; apply Zeq_bool_false; lia).
    exists (2 ^ 23 + M)%Z, (E - 150)%Z. split; [|split; [lia|reflexivity]].
    rewrite (Z.add_comm M). replace (2 ^ 23 + M =? 0)%Z with false by lia. destruct (2 ^ 23 + M)%Z eqn:EM; try lia. f_equal. cbn. lia.
Qed.

Lemma bval_ge k b : (1 <= k)%Z -> (k * 2 ^ 23 <= b)%Z -> bpow radix2 (k - 127) <= bval b.
Proof.
  intros Hk Hb. unfold bval. assert (HE : (k <= b / 2 ^ 23)%Z) by (apply Z.div_le_lower_bound; lia).
  pose proof (Z.mod_pos_bound b (2 ^ 23) ltac:(lia)) as HM. set (E := (b / 2 ^ 23)%Z) in *. set (M := (b mod 2 ^ 23)%Z) in *. clearbody E M.
  replace (E =? 0)%Z with false by lia.
  apply Rle_trans with (bpow radix2 (E - 127)); [apply bpow_le; lia|]. replace (E - 127)%Z with (23 + (E - 150))%Z by lia. rewrite bpow_plus.
  apply Rmult_le_compat_r; [apply bpow_ge_0|]. change (bpow radix2 23) with (IZR (2 ^ 23)). apply IZR_le. lia.
Qed.
Lemma bval_lt k b : (1 <= k)%Z -> (0 <= b < k * 2 ^ 23)%Z -> 0 <= bval b < bpow radix2 (k - 127).
Proof.
  intros Hk Hb. unfold bval. assert (HE : (b / 2 ^ 23 < k)%Z) by (apply Z.div_lt_upper_bound; lia). assert (HE0 : (0 <= b / 2 ^ 23)%Z) by (apply Z.div_pos; lia).
  pose proof (Z.mod_pos_bound b (2 ^ 23) ltac:(lia)) as HM. set (E := (b / 2 ^ 23)%Z) in *. set (M := (b mod 2 ^ 23)%Z) in *. clearbody E M.
  assert (G : forall m e, (0 <= m < 2 ^ 24)%Z -> (e + 24 <= k - 127)%Z -> 0 <= IZR m * bpow radix2 e < bpow radix2 (k - 127)).
  { intros m e Hm He. split; [apply Rmult_le_pos; [apply IZR_le; lia|apply bpow_ge_0]|].
    apply Rlt_le_trans with (bpow radix2 (24 + e)); [|apply bpow_le; lia]. rewrite bpow_plus. apply Rmult_lt_compat_r; [apply bpow_gt_0|].
    change (bpow radix2 24) with (IZR (2 ^ 24)). apply IZR_lt. lia. }
  destruct (E =? 0)%Z eqn:Ez; [|apply G; lia].
  split; [apply Rmult_le_pos; [apply IZR_le; lia|apply bpow_ge_0]|].
  apply Rlt_le_trans with (bpow radix2 (23 + (-149))); [|apply bpow_le; lia]. rewrite bpow_plus. apply Rmult_lt_compat_r; [apply bpow_gt_0|].
  change (bpow radix2 23) with (IZR (2 ^ 23)). apply IZR_lt. lia.
Qed.

(** ** The guess *)
Lemma guess_mono a b : (0 <= a <= b)%Z -> (acbrt1_guess a <= acbrt1_guess b)%Z.
Proof.
  intros H. unfold acbrt1_guess. rewrite !(Z.quot_div_nonneg a), !(Z.quot_div_nonneg b) by lia.
  assert (Da : (0 <= a / 4 + a / 16)%Z) by (pose proof (Z.div_pos a 4); pose proof (Z.div_pos a 16); lia).
  assert (Dab : (a / 4 + a / 16 <= b / 4 + b / 16)%Z) by (pose proof (Z.div_le_mono a b 4); pose proof (Z.div_le_mono a b 16); lia).
  set (a1 := (a / 4 + a / 16)%Z) in *. set (b1 := (b / 4 + b / 16)%Z) in *. clearbody a1 b1.
  rewrite !(Z.quot_div_nonneg a1), !(Z.quot_div_nonneg b1) by lia.
  assert (Ea : (0 <= a1 + a1 / 16)%Z) by (pose proof (Z.div_pos a1 16); lia).
  assert (Eab : (a1 + a1 / 16 <= b1 + b1 / 16)%Z) by (pose proof (Z.div_le_mono a1 b1 16); lia).
  set (a2 := (a1 + a1 / 16)%Z) in *. set (b2 := (b1 + b1 / 16)%Z) in *. clearbody a2 b2.
  rewrite !(Z.quot_div_nonneg a2), !(Z.quot_div_nonneg b2) by lia. pose proof (Z.div_le_mono a2 b2 256). lia.
Qed.

Definition guess_check (E : Z) : bool :=
  let k := (acbrt1_guess (E * 2 ^ 23) / 2 ^ 23)%Z in (1 <=? k)%Z && (84 <=? k)%Z && (E + 1 - 127 - 2 * (k - 127) <=? 60)%Z && (k <? 170)%Z.
Lemma guess_checked : forallb guess_check (map Z.of_nat (seq 0 256)) = true.
Proof. vm_compute. reflexivity. Qed.

(** The guess is a positive float of moderate size, not far below the root. *)
Lemma guess_val b : (0 <= b < 255 * 2 ^ 23)%Z -> exists g, val32 (b32_of_bits (acbrt1_guess b mod 2 ^ 32)) = Fin g /\
  bpow radix2 (-43) <= g <= bpow radix2 50 /\ bval b <= bpow radix2 60 * (g * g).
Proof.
  intros Hb. set (E := (b / 2 ^ 23)%Z). assert (HE : (0 <= E < 255)%Z) by (unfold E; split; [apply Z.div_pos; lia|apply Z.div_lt_upper_bound; lia]).
  pose proof (Z.div_mod b (2 ^ 23) ltac:(lia)) as DM. pose proof (Z.mod_pos_bound b (2 ^ 23) ltac:(lia)) as MB. fold E in DM.
  assert (G0 : guess_check E = true) by (pose proof guess_checked as H; rewrite forallb_forall in H; apply H; apply in_map_iff; exists (Z.to_nat E); split; [lia|apply in_seq; lia]).
  unfold guess_check in G0. cbv zeta in G0. rewrite !andb_true_iff in G0. destruct G0 as [[[G1 G2] G3] G4].
  pose proof (guess_mono (E * 2 ^ 23) b ltac:(lia)) as M1. pose proof (guess_mono b (255 * 2 ^ 23) ltac:(lia)) as M2.
  set (k := (acbrt1_guess (E * 2 ^ 23) / 2 ^ 23)%Z) in *. assert (K1 : (k * 2 ^ 23 <= acbrt1_guess b)%Z).
  { pose proof (Z.mul_div_le (acbrt1_guess (E * 2 ^ 23)) (2 ^ 23) ltac:(lia)). fold k in H. lia. }
  assert (K2 : (acbrt1_guess b < 177 * 2 ^ 23)%Z) by (eapply Z.le_lt_trans; [exact M2|]; vm_compute; reflexivity).
  clearbody k. rewrite Z.mod_small by lia. destruct (bits_val (acbrt1_guess b) ltac:(lia)) as [Eg _].
  exists (bval (acbrt1_guess b)). split; [exact Eg|].
  pose proof (bval_ge k _ ltac:(lia) K1) as L. pose proof (bval_lt 177 (acbrt1_guess b) ltac:(lia) ltac:(lia)) as [_ U].
  pose proof (bval_lt (E + 1) b ltac:(lia) ltac:(lia)) as [_ X]. set (g := bval (acbrt1_guess b)) in *. clearbody g.
  split; [split; [eapply Rle_trans; [|exact L]; apply bpow_le; lia|left; exact U]|].
  apply Rle_trans with (bpow radix2 60 * (bpow radix2 (k - 127) * bpow radix2 (k - 127))).
  - rewrite <- !bpow_plus. left. eapply Rlt_le_trans; [exact X|]. apply bpow_le. lia.
  - apply Rmult_le_compat_l; [apply bpow_ge_0|]. pose proof (bpow_ge_0 radix2 (k - 127)). apply Rmult_le_compat; auto.
Qed.

(** ** The Newton steps stay finite and positive *)
Local Notation fexp32 := (SpecFloat.fexp 24 128).
Local Notation rnd := (round radix2 fexp32 ZnearestE).
Local Notation rnd_le := (rnd_le 24 128 eq_refl).
Local Notation rnd_id := (rnd_id 24 128).
Local Instance valid32 : Valid_exp fexp32 := fexp_correct 24 128 eq_refl.

Lemma third_val : val32 third32 = Fin (11184811 * bpow radix2 (-25)).
Proof. destruct (bits_val 1051372203 ltac:(lia)) as [E _]. exact E. Qed.
Lemma two_val : val32 (b32_ofZ 2) = Fin 2.
Proof.
  transitivity (rndx 24 128 (Fin (IZR 2))); [apply val_ofZ|]. apply (rndx_fin 24 128).
  - apply (fmt_IZR 24 128); [reflexivity|lia|lia].
  - rewrite Rabs_pos_eq by lra. change 2 with (bpow radix2 1). apply bpow_lt. lia.
Qed.

Lemma op_fin p r : (-149 <= p)%Z -> (p < 128)%Z -> Rabs r <= bpow radix2 p -> rndx 24 128 (Fin r) = Fin (rnd r).
Proof.
  intros H1 H2 H. cbn [rndx]. apply sat_small. eapply Rle_lt_trans; [|apply (bpow_lt radix2 p 128); lia].
  apply (rnd_bound 24 128 eq_refl); [apply (fmt_bpow 24 128 eq_refl); lia|exact H].
Qed.
Lemma rnd_ub p r : (-149 <= p)%Z -> r <= bpow radix2 p -> rnd r <= bpow radix2 p.
Proof. intros H1 H. rewrite <- (rnd_id (bpow radix2 p)) by (apply (fmt_bpow 24 128 eq_refl); lia). apply rnd_le, H. Qed.
Lemma rnd_lb p r : (-149 <= p)%Z -> bpow radix2 p <= r -> bpow radix2 p <= rnd r.
Proof. intros H1 H. rewrite <- (rnd_id (bpow radix2 p)) at 1 by (apply (fmt_bpow 24 128 eq_refl); lia). apply rnd_le, H. Qed.

Lemma scale_fmt g e : generic_format radix2 fexp32 g -> bpow radix2 (-60) <= g -> (-10 <= e)%Z -> generic_format radix2 fexp32 (g * bpow radix2 e).
Proof.
  intros G L He. change fexp32 with (FLT_exp (-149) 24) in *. apply generic_format_FLX_FLT in G. apply generic_format_FLT_FLX.
  - rewrite Rabs_pos_eq by (apply Rmult_le_pos; [pose proof (bpow_gt_0 radix2 (-60)); lra|apply bpow_ge_0]).
    apply Rle_trans with (bpow radix2 (-60 + e)); [apply bpow_le; lia|]. rewrite bpow_plus. apply Rmult_le_compat_r; [apply bpow_ge_0|exact L].
  - apply FLX_format_generic in G; [|reflexivity]. destruct G as [f Ef Hf]. apply generic_format_FLX. exists (Float radix2 (Fnum f) (Fexp f + e)); [|exact Hf].
    rewrite Ef. unfold F2R. cbn [Fnum Fexp]. rewrite bpow_plus. ring.
Qed.

Lemma newton_val x0 x a g c : val32 x0 = Fin a -> val32 x = Fin g -> 0 <= a -> bpow radix2 (-60) <= g <= bpow radix2 c -> (0 <= c <= 62)%Z ->
  a <= bpow radix2 c * (g * g) ->
  exists t, val32 (newton3 x0 x) = Fin t /\ g / 2 <= t <= bpow radix2 (c + 1) /\
    t = rnd (11184811 * bpow radix2 (-25) * rnd (2 * g + rnd (a / rnd (g * g)))).
Proof.
  intros Ea Eg Ha [L U] Hc HA. destruct (val_format 24 128 eq_refl _ _ Eg) as [Fg _].
  assert (P60 := bpow_gt_0 radix2 (-60)). assert (Pg : 0 < g) by lra. assert (Pc := bpow_gt_0 radix2 c).
  assert (Q1 : bpow radix2 (-120) <= g * g <= bpow radix2 (2 * c)).
  { split.
    - change (-120)%Z with (-60 + -60)%Z. rewrite bpow_plus. apply Rmult_le_compat; lra.
    - replace (2 * c)%Z with (c + c)%Z by lia. rewrite bpow_plus. apply Rmult_le_compat; lra. }
  assert (E1 : val32 (b32_mult mode_NE x x) = Fin (rnd (g * g))).
  { transitivity (rndx 24 128 (xmul (val32 x) (val32 x))); [apply val_mult|]. rewrite Eg. cbn [xmul].
    apply (op_fin (2 * c)); [lia|lia|]. rewrite Rabs_pos_eq by nra. lra. }
  set (r1 := rnd (g * g)) in *.
  assert (R1 : bpow radix2 (-120) <= r1) by (apply rnd_lb; [lia|lra]). assert (P1 : 0 < r1) by (pose proof (bpow_gt_0 radix2 (-120)); lra).
  assert (R1' : g * g / 2 <= r1).
  { destruct (relative_error_N_FLT_ex radix2 (-149) 24 eq_refl (fun z => negb (Z.even z)) (g * g)) as (eps & He & Hr).
    - rewrite Rabs_pos_eq by nra. eapply Rle_trans; [|apply Q1]. apply bpow_le. lia.
    - change (FLT_exp (-149) 24) with fexp32 in Hr. unfold r1. rewrite Hr. change (bpow radix2 (- (24) + 1)) with (/ 8388608) in He.
      assert (Rabs eps <= /8) by lra. apply Rabs_le_inv in H. nra. }
  assert (QB : 0 <= a / r1 <= bpow radix2 (c + 1)).
  { split; [apply Rmult_le_pos; [lra|left; apply Rinv_0_lt_compat; auto]|]. apply (Rmult_le_reg_r r1); [auto|]. unfold Rdiv. rewrite Rmult_assoc, Rinv_l by lra.
    rewrite bpow_plus. change (bpow radix2 1) with 2. nra. }
  assert (E2 : val32 (b32_div mode_NE x0 (b32_mult mode_NE x x)) = Fin (rnd (a / r1))).
  { transitivity (rndx 24 128 (xdiv (val32 x0) (val32 (b32_mult mode_NE x x)))); [apply val_div; rewrite E1; intros Q; injection Q; lra|].
    rewrite Ea, E1, xdiv_fin by lra. apply (op_fin (c + 1)); [lia|lia|]. rewrite Rabs_pos_eq; lra. }
  set (q := rnd (a / r1)) in *.
  assert (Bq : 0 <= q <= bpow radix2 (c + 1)) by (split; [apply (rnd_sign_ge 24 128 eq_refl); lra|apply rnd_ub; [lia|lra]]).
  assert (F2 : generic_format radix2 fexp32 (2 * g)) by (rewrite Rmult_comm; apply (scale_fmt g 1); auto; lia).
  assert (C1 : bpow radix2 (c + 1) = 2 * bpow radix2 c) by (rewrite bpow_plus; change (bpow radix2 1) with 2; lra).
  assert (C2 : bpow radix2 (c + 2) = 4 * bpow radix2 c) by (rewrite bpow_plus; change (bpow radix2 2) with 4; lra).
  assert (E3 : val32 (b32_mult mode_NE (b32_ofZ 2) x) = Fin (2 * g)).
  { transitivity (rndx 24 128 (xmul (val32 (b32_ofZ 2)) (val32 x))); [apply val_mult|]. rewrite two_val, Eg. cbn [xmul]. rewrite (op_fin (c + 1)); [|lia|lia|].
    - f_equal. apply rnd_id. exact F2.
    - rewrite Rabs_pos_eq; lra. }
  assert (E4 : val32 (b32_plus mode_NE (b32_mult mode_NE (b32_ofZ 2) x) (b32_div mode_NE x0 (b32_mult mode_NE x x))) = Fin (rnd (2 * g + q))).
  { transitivity (rndx 24 128 (xadd (val32 (b32_mult mode_NE (b32_ofZ 2) x)) (val32 (b32_div mode_NE x0 (b32_mult mode_NE x x))))); [apply val_plus|].
    rewrite E3, E2. cbn [xadd]. apply (op_fin (c + 2)); [lia|lia|]. rewrite Rabs_pos_eq; lra. }
  set (s := rnd (2 * g + q)) in *.
  assert (Bs : 2 * g <= s <= bpow radix2 (c + 2)).
  { split; [rewrite <- (rnd_id (2 * g)) by exact F2; apply rnd_le; lra|apply rnd_ub; [lia|lra]]. }
  set (th := 11184811 * bpow radix2 (-25)).
  assert (TH : / 4 <= th <= / 2) by (unfold th; change (bpow radix2 (-25)) with (/ 33554432); lra).
  exists (rnd (th * s)). split; [|split; [split|reflexivity]].
  - transitivity (rndx 24 128 (xmul (val32 third32) (val32 (b32_plus mode_NE (b32_mult mode_NE (b32_ofZ 2) x) (b32_div mode_NE x0 (b32_mult mode_NE x x))))));
      [apply val_mult|]. rewrite third_val, E4. cbn [xmul]. fold th. apply (op_fin (c + 2)); [lia|lia|]. rewrite Rabs_pos_eq; nra.
  - assert (FH : generic_format radix2 fexp32 (g / 2)) by (replace (g / 2) with (g * bpow radix2 (-1)) by (change (bpow radix2 (-1)) with (/ 2); lra); apply scale_fmt; auto; lia).
    rewrite <- (rnd_id (g / 2)) by exact FH. apply rnd_le. nra.
  - apply rnd_ub; [lia|]. rewrite C2 in Bs. rewrite C1. nra.
Qed.

Lemma bits_of_pos x : is_finite 24 128 x = true -> Bsign 24 128 x = false -> (0 <= bits_of_b32 x < 255 * 2 ^ 23)%Z.
Proof.
  intros Hf Hs. destruct x as [s| | |s m e H]; try discriminate; cbn in Hs; subst s.
  - vm_compute. split; [discriminate|reflexivity].
  - pose proof H as H'. unfold SpecFloat.bounded, SpecFloat.canonical_mantissa in H'. apply andb_true_iff in H' as [C E].
    apply Zeq_bool_eq in C. apply Zle_bool_imp_le in E. unfold SpecFloat.fexp, SpecFloat.emin in C.
    pose proof (Zdigits_correct radix2 (Zpos m)) as D. rewrite Digits.Zpos_digits2_pos in C.
    unfold bits_of_b32, bits_of_binary_float, join_bits. rewrite !Z.shiftl_mul_pow2 by lia.
    set (d := Zdigits radix2 (Zpos m)) in *. assert (Hd : (d <= 24)%Z) by lia.
    assert (HM : (Zpos m < 2 ^ 24)%Z). { destruct D as [_ D]. cbn [Z.abs] in D. eapply Z.lt_le_trans; [exact D|]. change (radix_val radix2) with 2%Z. apply Z.pow_le_mono_r; lia. }
    destruct (Zle_bool 0 (Zpos m - 2 ^ 23)) eqn:EM; [apply Zle_bool_imp_le in EM|apply Z.leb_gt in EM]; unfold SpecFloat.emin; lia.
Qed.

(** acbrt1 on non-negative finite floats. *)
Theorem acbrt1_pos x : is_finite 24 128 x = true -> Bsign 24 128 x = false ->
  exists y, val32 (acbrt1 x) = Fin y /\ bpow radix2 (-45) <= y <= bpow radix2 63.
Proof.
  intros Hf Hs. pose proof (bits_of_pos x Hf Hs) as Hb. destruct (bits_val _ Hb) as [Ev _].
  assert (EX : b32_of_bits (bits_of_b32 x) = x) by apply (binary_float_of_bits_of_binary_float 23 8). rewrite EX in Ev.
  destruct (guess_val _ Hb) as (g & Eg & [G1 G2] & G3). unfold acbrt1, int_of_bits. replace (bits_of_b32 x <? 2 ^ 31)%Z with true by lia.
  pose proof (bval_lt 255 _ ltac:(lia) Hb) as [A0 _].
  assert (S : bpow radix2 (-43) = 4 * bpow radix2 (-45)) by (change (-43)%Z with (2 + -45)%Z; rewrite bpow_plus; reflexivity).
  assert (P := bpow_gt_0 radix2 (-43)). assert (B60 : bpow radix2 (-60) <= bpow radix2 (-45)) by (apply bpow_le; lia).
  destruct (newton_val x _ _ g 60 Ev Eg A0) as (t & Et & [T1 T2] & _); [split; [lra|eapply Rle_trans; [exact G2|apply bpow_le; lia]]|lia|exact G3|].
  destruct (newton_val x _ _ t 62 Ev Et A0) as (y & Ey & [Y1 Y2] & _).
  - split; [lra|eapply Rle_trans; [exact T2|apply bpow_le; lia]].
  - lia.
  - change 62%Z with (2 + 60)%Z. rewrite bpow_plus. change (bpow radix2 2) with 4. eapply Rle_trans; [exact G3|].
    assert (g * g <= 4 * (t * t)) by nra. assert (P6 := bpow_gt_0 radix2 60). nra.
  - exists y. split; [exact Ey|]. split; [lra|exact Y2].
Qed.
