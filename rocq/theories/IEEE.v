(** IEEE 754 instances of [Arith]: T = float or double (Flocq binary32/binary64), round to nearest even.
    Nothing of /repo is modelled here: the C++ operators at types float and double, without contraction.
    libm functions stay oracles; NaN payloads of results are those of the first NaN operand. *)
From Coq Require Import Reals Lra Lia ZArith List Bool.
From Coq Require Import ZifyBool ZifyNat.
From Flocq Require Import Core.Core IEEE754.BinarySingleNaN IEEE754.Binary IEEE754.Bits.
From Verif Require Import Base Arith Exact.
Import ListNotations.
Local Open Scope Z_scope.

(** libm: results are arbitrary. *)
Record Libm (T D : Type) := {
  lm_log2 : D -> D;            (* log2 *)
  lm_pow : Z -> Z -> D;        (* pow(int,int) *)
  lm_log2f : T -> T;           (* log2f *)
  lm_exp2 : T -> T;            (* exp2 / exp2f *)
  lm_x86 : bool;               (* what converting an unrepresentable value to int does:
                                  false: undefined behaviour (no result), true: INT_MIN, as cvttsd2si *)
}.
Arguments lm_x86 {T D}. Arguments lm_log2 {T D}. Arguments lm_pow {T D}. Arguments lm_log2f {T D}. Arguments lm_exp2 {T D}.

Section Fmt.
Variables prec emax : Z.
Context (Hp : Prec_gt_0 prec) (He : Prec_lt_emax prec emax).
Definition bcmp (x y : binary_float prec emax) := Bcompare prec emax x y.
(** operators <, <=, == : false on NaN *)
Definition blt x y := match bcmp x y with Some Lt => true | _ => false end.
Definition ble x y := match bcmp x y with Some Lt | Some Eq => true | _ => false end.
Definition beq x y := match bcmp x y with Some Eq => true | _ => false end.
(** int -> floating type *)
Definition bofZ (z : Z) : binary_float prec emax := binary_normalize prec emax Hp He mode_NE z 0 false.
(** (int)x: [oob] when the truncated value does not fit *)
Definition btoint (oob : option Z) (x : binary_float prec emax) : option Z :=
  if is_finite prec emax x then
    let z := Btrunc prec emax x in if (- 2 ^ 31 <=? z) && (z <? 2 ^ 31) then Some z else oob
  else oob.
End Fmt.

Definition b32_ofZ : Z -> binary32 := bofZ 24 128 eq_refl eq_refl.
Definition b64_ofZ : Z -> binary64 := bofZ 53 1024 eq_refl eq_refl.

(** float -> double and back *)
Definition b64_of_b32 (x : binary32) : binary64 :=
  match x with
  | B754_zero _ _ s => B754_zero _ _ s
  | B754_infinity _ _ s => B754_infinity _ _ s
  | B754_nan _ _ s pl Hpl => proj1_sig default_nan_pl64
  | B754_finite _ _ s m e H => binary_normalize 53 1024 eq_refl eq_refl mode_NE (cond_Zopp s (Zpos m)) e s
  end.
Definition b32_of_b64 (x : binary64) : binary32 :=
  match x with
  | B754_zero _ _ s => B754_zero _ _ s
  | B754_infinity _ _ s => B754_infinity _ _ s
  | B754_nan _ _ s pl Hpl => proj1_sig default_nan_pl32
  | B754_finite _ _ s m e H => binary_normalize 24 128 eq_refl eq_refl mode_NE (cond_Zopp s (Zpos m)) e s
  end.

Definition two_pow64 (e : Z) : binary64 := binary_normalize 53 1024 eq_refl eq_refl mode_NE 1 e false.

Definition lm_oob {T D} (lm : Libm T D) : option Z := if lm_x86 lm then Some (- 2 ^ 31) else None.

(** T = double *)
Definition DA (lm : Libm binary64 binary64) : Arith := {|
  T := binary64; D := binary64;
  tadd := b64_plus mode_NE; tsub := b64_minus mode_NE; tmul := b64_mult mode_NE; tdiv := b64_div mode_NE;
  tneg := b64_opp; tabs := b64_abs; tlt := blt 53 1024; tle := ble 53 1024; teq := beq 53 1024;
  tofZ := b64_ofZ; ttoint := btoint 53 1024 (lm_oob lm);
  dadd := b64_plus mode_NE; dsub := b64_minus mode_NE; dmul := b64_mult mode_NE; ddiv := b64_div mode_NE;
  dneg := b64_opp; dabs := b64_abs; dsqrt := b64_sqrt mode_NE;
  dlt := blt 53 1024; dle := ble 53 1024; deq := beq 53 1024;
  dofZ := b64_ofZ; dtoint := btoint 53 1024 (lm_oob lm);
  t2d := fun x => x; d2t := fun x => x;
  dlog2 := lm_log2 lm; dpow := lm_pow lm; tlog2f := lm_log2f lm; texp2 := lm_exp2 lm;
  eps_double := two_pow64 (-52); eps_float := two_pow64 (-23);
  tsize_of := 8;
  tser := fun x => le_bytes 8 (bits_of_b64 x); tdes := fun l => b64_of_bits (le_val l);
  dser := fun x => le_bytes 8 (bits_of_b64 x); ddes := fun l => b64_of_bits (le_val l);
|}.

(** T = float *)
Definition FA (lm : Libm binary32 binary64) : Arith := {|
  T := binary32; D := binary64;
  tadd := b32_plus mode_NE; tsub := b32_minus mode_NE; tmul := b32_mult mode_NE; tdiv := b32_div mode_NE;
  tneg := b32_opp; tabs := b32_abs; tlt := blt 24 128; tle := ble 24 128; teq := beq 24 128;
  tofZ := b32_ofZ; ttoint := btoint 24 128 (lm_oob lm);
  dadd := b64_plus mode_NE; dsub := b64_minus mode_NE; dmul := b64_mult mode_NE; ddiv := b64_div mode_NE;
  dneg := b64_opp; dabs := b64_abs; dsqrt := b64_sqrt mode_NE;
  dlt := blt 53 1024; dle := ble 53 1024; deq := beq 53 1024;
  dofZ := b64_ofZ; dtoint := btoint 53 1024 (lm_oob lm);
  t2d := b64_of_b32; d2t := b32_of_b64;
  dlog2 := lm_log2 lm; dpow := lm_pow lm; tlog2f := lm_log2f lm; texp2 := lm_exp2 lm;
  eps_double := two_pow64 (-52); eps_float := two_pow64 (-23);
  tsize_of := 4;
  tser := fun x => le_bytes 4 (bits_of_b32 x); tdes := fun l => b32_of_bits (le_val l);
  dser := fun x => le_bytes 8 (bits_of_b64 x); ddes := fun l => b64_of_bits (le_val l);
|}.

(** ** Memory representation *)
Lemma bits_of_b64_range x : 0 <= bits_of_b64 x < 2 ^ 64.
Proof. unfold bits_of_b64. apply (bits_of_binary_float_range 52 11); reflexivity. Qed.
Lemma bits_of_b32_range x : 0 <= bits_of_b32 x < 2 ^ 32.
Proof. unfold bits_of_b32. apply (bits_of_binary_float_range 23 8); reflexivity. Qed.

Lemma b64_ser x : b64_of_bits (le_val (le_bytes 8 (bits_of_b64 x))) = x.
Proof.
  rewrite le_val_bytes_small by (change (256 ^ Z.of_nat 8) with (2 ^ 64); apply bits_of_b64_range).
  exact (binary_float_of_bits_of_binary_float 52 11 eq_refl eq_refl eq_refl x).
Qed.
Lemma b32_ser x : b32_of_bits (le_val (le_bytes 4 (bits_of_b32 x))) = x.
Proof.
  rewrite le_val_bytes_small by (change (256 ^ Z.of_nat 4) with (2 ^ 32); apply bits_of_b32_range).
  exact (binary_float_of_bits_of_binary_float 23 8 eq_refl eq_refl eq_refl x).
Qed.

Lemma DA_ser lm : ser_ok (DA lm).
Proof.
  split; cbn [DA tser tdes dser ddes tsize_of T D]; intros; [apply le_bytes_length|apply b64_ser|apply le_bytes_length|apply b64_ser|lia].
Qed.
Lemma FA_ser lm : ser_ok (FA lm).
Proof.
  split; cbn [FA tser tdes dser ddes tsize_of T D]; intros; [apply le_bytes_length|apply b32_ser|apply le_bytes_length|apply b64_ser|lia].
Qed.

(** ** Values as extended reals *)
Section Val.
Variables prec emax : Z.
Context (Hp : Prec_gt_0 prec) (He : Prec_lt_emax prec emax).
Local Notation bf := (binary_float prec emax).
Local Notation fexp := (SpecFloat.fexp prec emax).
Local Notation rnd := (round radix2 fexp ZnearestE).

Local Instance fexp_valid : Valid_exp fexp := fexp_correct prec emax Hp.

Definition val (x : bf) : XR :=
  match x with
  | B754_nan _ _ _ _ _ => NaN
  | B754_infinity _ _ s => if s then NInf else PInf
  | _ => Fin (B2R prec emax x)
  end.
Local Open Scope R_scope.

Definition sat (r : R) : XR :=
  if Rlt_bool (Rabs r) (bpow radix2 emax) then Fin r else if Rlt_bool 0 r then PInf else NInf.
Definition rndx (x : XR) : XR := match x with Fin r => sat (rnd r) | _ => x end.

Lemma val_fin x : is_finite prec emax x = true -> val x = Fin (B2R prec emax x).
Proof. destruct x; try discriminate; reflexivity. Qed.
Lemma val_Fin_inv x r : val x = Fin r -> is_finite prec emax x = true /\ B2R prec emax x = r.
Proof. destruct x as [s|[]|s p H|s m e H]; cbn [val]; intros E; inversion E; auto. Qed.

Lemma emax_pos : 0 < bpow radix2 emax.
Proof. apply bpow_gt_0. Qed.

Lemma val_overflow x s r : B2FF prec emax x = Binary.binary_overflow prec emax mode_NE s ->
  bpow radix2 emax <= Rabs r -> (s = true -> r <= 0) -> (s = false -> 0 <= r) -> val x = sat r.
Proof.
  intros E H H1 H2. unfold sat. rewrite Rlt_bool_false by auto. pose proof emax_pos.
  unfold Binary.binary_overflow, BinarySingleNaN.binary_overflow in E. cbn in E.
  destruct x; cbn [B2FF] in E; inversion E; subst. cbn [val].
  destruct s.
  - rewrite Rlt_bool_false; auto.
  - rewrite Rlt_bool_true; auto. specialize (H2 eq_refl).
    destruct H2 as [H2| <-]; auto. rewrite Rabs_R0 in H. lra.
Qed.

Lemma Bsign_B2R x : is_finite prec emax x = true ->
  (Bsign prec emax x = true -> B2R prec emax x <= 0) /\ (Bsign prec emax x = false -> 0 <= B2R prec emax x).
Proof.
  destruct x as [s|s|s p H|s m e H]; cbn [is_finite Bsign B2R]; intros F; try discriminate F.
  - split; intros; lra.
  - split; intros ->; cbn [cond_Zopp].
    + apply F2R_le_0. cbn. lia.
    + apply F2R_ge_0. cbn. lia.
Qed.

Lemma rnd_sign_le r : r <= 0 -> rnd r <= 0.
Proof. intros H. rewrite <- (round_0 radix2 fexp ZnearestE). apply round_le; auto with typeclass_instances. Qed.
Lemma rnd_sign_ge r : 0 <= r -> 0 <= rnd r.
Proof. intros H. rewrite <- (round_0 radix2 fexp ZnearestE). apply round_le; auto with typeclass_instances. Qed.

Lemma sat_small r : Rabs r < bpow radix2 emax -> sat r = Fin r.
Proof. intros H. unfold sat. rewrite Rlt_bool_true; auto. Qed.

Lemma val_plus nan x y : val (Bplus prec emax Hp He nan mode_NE x y) = rndx (xadd (val x) (val y)).
Proof.
  destruct (is_finite prec emax x) eqn:Fx; destruct (is_finite prec emax y) eqn:Fy.
  - rewrite (val_fin x), (val_fin y) by auto. cbn [xadd rndx].
    generalize (Bplus_correct prec emax Hp He nan mode_NE x y Fx Fy). cbn [round_mode].
    case Rlt_bool_spec; intros H.
    + intros (E & F & _). rewrite val_fin by auto. rewrite E. rewrite sat_small; auto.
    + intros [E S]. apply (val_overflow _ _ _ E H); intros Es.
      * apply rnd_sign_le. apply (Bsign_B2R x) in Fx. apply (Bsign_B2R y) in Fy. rewrite <- S in Fy.
        apply Fx in Es as ?. apply Fy in Es. lra.
      * apply rnd_sign_ge. apply (Bsign_B2R x) in Fx. apply (Bsign_B2R y) in Fy. rewrite <- S in Fy.
        apply Fx in Es as ?. apply Fy in Es. lra.
  - destruct x as [s|s|s p H|s m e H], y as [s0|s0|s0 p0 H0|s0 m0 e0 H0]; try discriminate; destruct s, s0; try reflexivity; cbn; destruct (nan _ _) as [[] ?]; cbn; try discriminate; reflexivity.
  - destruct x as [s|s|s p H|s m e H], y as [s0|s0|s0 p0 H0|s0 m0 e0 H0]; try discriminate; destruct s, s0; try reflexivity; cbn; destruct (nan _ _) as [[] ?]; cbn; try discriminate; reflexivity.
  - destruct x as [s|s|s p H|s m e H], y as [s0|s0|s0 p0 H0|s0 m0 e0 H0]; try discriminate; destruct s, s0; try reflexivity; cbn; destruct (nan _ _) as [[] ?]; cbn; try discriminate; reflexivity.
Qed.

Lemma val_minus nan x y : val (Bminus prec emax Hp He nan mode_NE x y) = rndx (xsub (val x) (val y)).
Proof.
  destruct (is_finite prec emax x) eqn:Fx; destruct (is_finite prec emax y) eqn:Fy.
  - rewrite (val_fin x), (val_fin y) by auto. cbn [xsub rndx].
    generalize (Bminus_correct prec emax Hp He nan mode_NE x y Fx Fy). cbn [round_mode].
    case Rlt_bool_spec; intros H.
    + intros (E & F & _). rewrite val_fin by auto. rewrite E. rewrite sat_small; auto.
    + intros [E S]. apply (Bsign_B2R x) in Fx. apply (Bsign_B2R y) in Fy.
      apply (val_overflow _ _ _ E H); intros Es.
      * apply rnd_sign_le. apply Fx in Es as ?. rewrite Es in S. symmetry in S. apply negb_true_iff in S. apply Fy in S. lra.
      * apply rnd_sign_ge. apply Fx in Es as ?. rewrite Es in S. symmetry in S. apply negb_false_iff in S. apply Fy in S. lra.
  - destruct x as [s|s|s p H|s m e H], y as [s0|s0|s0 p0 H0|s0 m0 e0 H0]; try discriminate; destruct s, s0; try reflexivity; cbn; destruct (nan _ _) as [[] ?]; cbn; try discriminate; reflexivity.
  - destruct x as [s|s|s p H|s m e H], y as [s0|s0|s0 p0 H0|s0 m0 e0 H0]; try discriminate; destruct s, s0; try reflexivity; cbn; destruct (nan _ _) as [[] ?]; cbn; try discriminate; reflexivity.
  - destruct x as [s|s|s p H|s m e H], y as [s0|s0|s0 p0 H0|s0 m0 e0 H0]; try discriminate; destruct s, s0; try reflexivity; cbn; destruct (nan _ _) as [[] ?]; cbn; try discriminate; reflexivity.
Qed.

Lemma B2R_finite_ne s m e H : B2R prec emax (B754_finite prec emax s m e H) <> 0.
Proof. cbn [B2R]. apply F2R_neq_0. destruct s; discriminate. Qed.

Lemma sign_mul x y : is_finite prec emax x = true -> is_finite prec emax y = true ->
  (xorb (Bsign prec emax x) (Bsign prec emax y) = true -> B2R prec emax x * B2R prec emax y <= 0) /\
  (xorb (Bsign prec emax x) (Bsign prec emax y) = false -> 0 <= B2R prec emax x * B2R prec emax y).
Proof.
  intros Fx Fy. apply Bsign_B2R in Fx. apply Bsign_B2R in Fy.
  destruct (Bsign prec emax x), (Bsign prec emax y); cbn [xorb]; split; intros; try discriminate;
    destruct Fx as [X1 X2], Fy as [Y1 Y2]; try specialize (X1 eq_refl); try specialize (X2 eq_refl);
    try specialize (Y1 eq_refl); try specialize (Y2 eq_refl); nra.
Qed.

Lemma xinf_finite s m e H : xinf (B2R prec emax (B754_finite prec emax s m e H)) = if s then NInf else PInf.
Proof.
  pose proof (B2R_finite_ne s m e H) as N.
  destruct (Bsign_B2R (B754_finite prec emax s m e H) eq_refl) as [S1 S2]. cbn [Bsign] in *.
  destruct s; [apply xinf_neg|apply xinf_pos]; [specialize (S1 eq_refl)|specialize (S2 eq_refl)]; lra.
Qed.
Lemma xinf_finite_opp s m e H : xinf (- B2R prec emax (B754_finite prec emax s m e H)) = if s then PInf else NInf.
Proof.
  pose proof (B2R_finite_ne s m e H) as N.
  destruct (Bsign_B2R (B754_finite prec emax s m e H) eq_refl) as [S1 S2]. cbn [Bsign] in *.
  destruct s; [apply xinf_pos|apply xinf_neg]; [specialize (S1 eq_refl)|specialize (S2 eq_refl)]; lra.
Qed.

Lemma val_mult nan x y : val (Bmult prec emax Hp He nan mode_NE x y) = rndx (xmul (val x) (val y)).
Proof.
  destruct (is_finite prec emax x) eqn:Fx; destruct (is_finite prec emax y) eqn:Fy.
  - rewrite (val_fin x), (val_fin y) by auto. cbn [xmul rndx].
    generalize (Bmult_correct prec emax Hp He nan mode_NE x y). cbn [round_mode].
    case Rlt_bool_spec; intros H.
    + intros (E & F & _). rewrite Fx, Fy in F. rewrite val_fin by auto. rewrite E. rewrite sat_small; auto.
    + intros E. destruct (sign_mul x y Fx Fy) as [S1 S2].
      apply (val_overflow _ _ _ E H); intros Es; [apply rnd_sign_le|apply rnd_sign_ge]; auto.
  - destruct x as [s|s|s p H|s m e H], y as [s0|s0|s0 p0 H0|s0 m0 e0 H0]; try discriminate; cbn [val]; try destruct s; try destruct s0; cbn [xmul];
      rewrite ?xinf_finite, ?xinf_finite_opp; try (cbn [B2R]; rewrite ?Ropp_0, ?xinf_zero);
      cbn; try reflexivity; destruct (nan _ _) as [[] ?]; cbn; try discriminate; reflexivity.
  - destruct x as [s|s|s p H|s m e H], y as [s0|s0|s0 p0 H0|s0 m0 e0 H0]; try discriminate; cbn [val]; try destruct s; try destruct s0; cbn [xmul];
      rewrite ?xinf_finite, ?xinf_finite_opp; try (cbn [B2R]; rewrite ?Ropp_0, ?xinf_zero);
      cbn; try reflexivity; destruct (nan _ _) as [[] ?]; cbn; try discriminate; reflexivity.
  - destruct x as [s|s|s p H|s m e H], y as [s0|s0|s0 p0 H0|s0 m0 e0 H0]; try discriminate; destruct s, s0; try reflexivity; cbn; destruct (nan _ _) as [[] ?]; cbn; try discriminate; reflexivity.
Qed.

Lemma Rlt_finite s m e H : Rlt_bool (B2R prec emax (B754_finite prec emax s m e H)) 0 = s.
Proof.
  pose proof (B2R_finite_ne s m e H) as N.
  destruct (Bsign_B2R (B754_finite prec emax s m e H) eq_refl) as [S1 S2]. cbn [Bsign] in *.
  destruct s; [apply Rlt_bool_true|apply Rlt_bool_false]; [specialize (S1 eq_refl)|specialize (S2 eq_refl)]; lra.
Qed.

Local Transparent xdiv.
Lemma val_div nan x y : val y <> Fin 0 -> val (Bdiv prec emax Hp He nan mode_NE x y) = rndx (xdiv (val x) (val y)).
Proof.
  intros Hy. destruct (is_finite prec emax y) eqn:Fy.
  - rewrite (val_fin y) in * by auto.
    assert (Ny : B2R prec emax y <> 0) by (intros E; rewrite E in Hy; auto).
    destruct (is_finite prec emax x) eqn:Fx.
    + rewrite (val_fin x) by auto. rewrite xdiv_fin by auto. cbn [rndx].
      generalize (Bdiv_correct prec emax Hp He nan mode_NE x y Ny). cbn [round_mode].
      case Rlt_bool_spec; intros H.
      * intros (E & F & _). rewrite Fx in F. rewrite val_fin by auto. rewrite E. rewrite sat_small; auto.
      * intros E. destruct (sign_mul x y Fx Fy) as [S1 S2].
        assert (Q : B2R prec emax x / B2R prec emax y = B2R prec emax x * B2R prec emax y * / (B2R prec emax y * B2R prec emax y)) by (field; auto).
        assert (Q2 : 0 <= / (B2R prec emax y * B2R prec emax y)) by (apply Rlt_le, Rinv_0_lt_compat; nra).
        apply (val_overflow _ _ _ E H); intros Es; [apply rnd_sign_le|apply rnd_sign_ge]; rewrite Q.
        -- specialize (S1 Es). nra.
        -- specialize (S2 Es). nra.
    + destruct x as [s|s|s p H|s m e H], y as [s0|s0|s0 p0 H0|s0 m0 e0 H0]; try discriminate; cbn [val xdiv]; try (exfalso; apply Ny; reflexivity).
      all: destruct s, s0; cbn [xdiv]; rewrite ?Rlt_finite; try reflexivity; cbn; destruct (nan _ _) as [[] ?]; cbn; try discriminate; reflexivity.
  - assert (R0 : Fin 0 = rndx (Fin 0)).
    { cbn [rndx]. rewrite round_0 by auto with typeclass_instances. rewrite sat_small; auto. rewrite Rabs_R0. apply emax_pos. }
    destruct x as [s|s|s p H|s m e H], y as [s0|s0|s0 p0 H0|s0 m0 e0 H0]; try discriminate; cbn [val]; try destruct s0; try destruct s; cbn [xdiv]; try rewrite <- R0;
      try reflexivity; cbn; destruct (nan _ _) as [[] ?]; cbn; try discriminate; reflexivity.
Qed.

Local Opaque xdiv.
(** x/0: infinite, or NaN when x is zero or NaN. *)
Lemma val_div_zero nan x y : val y = Fin 0 ->
  val (Bdiv prec emax Hp He nan mode_NE x y) = NaN /\ (val x = Fin 0 \/ val x = NaN) \/
  (val (Bdiv prec emax Hp He nan mode_NE x y) = PInf \/ val (Bdiv prec emax Hp He nan mode_NE x y) = NInf) /\
  val x <> Fin 0 /\ val x <> NaN.
Proof.
  intros Hy. destruct y as [s0|[]|s0 p0 H0|s0 m0 e0 H0]; cbn [val] in Hy; try discriminate Hy.
  2:{ exfalso. apply (B2R_finite_ne s0 m0 e0 H0). congruence. }
  destruct x as [s|s|s p H|s m e H].
  - left. split; [|left; reflexivity]. reflexivity.
  - right. cbn. destruct s, s0; cbn; repeat split; auto; discriminate.
  - left. split; [|right; reflexivity]. reflexivity.
  - right. split.
    + cbn. destruct s, s0; cbn; auto.
    + split; [|discriminate]. cbn [val]. intros E. apply (B2R_finite_ne s m e H). congruence.
Qed.

Lemma val_sqrt nan x : val (Bsqrt prec emax Hp He nan mode_NE x) = rndx (xsqrt (val x)).
Proof.
  destruct (Bsqrt_correct prec emax Hp He nan mode_NE x) as (H1 & H2 & _).
  destruct x as [s|[|]|s pl Hpl|[|] m e Hb].
  - cbn [val xsqrt is_finite]. rewrite (val_fin _ H2), H1. cbn [B2R round_mode]. unfold xsqrt. rewrite Rlt_bool_false by lra.
    rewrite sqrt_0, round_0 by auto with typeclass_instances. cbn [rndx]. rewrite round_0 by auto with typeclass_instances.
    rewrite sat_small; [reflexivity|]. rewrite Rabs_R0. apply emax_pos.
  - reflexivity.
  - reflexivity.
  - reflexivity.
  - cbn [val]. unfold xsqrt. rewrite Rlt_finite. reflexivity.
  - rewrite (val_fin _ H2), H1. cbn [val]. unfold xsqrt. rewrite Rlt_finite. cbn [rndx]. rewrite sat_small; [reflexivity|].
    change ZnearestE with (round_mode mode_NE). rewrite <- H1. apply abs_B2R_lt_emax.
Qed.

Lemma val_opp nan x : val (Bopp prec emax nan x) = xneg (val x).
Proof.
  destruct x as [s|[]|s p H|s m e H]; try reflexivity.
  - cbn. f_equal. lra.
  - rewrite !val_fin by reflexivity. cbn [xneg]. f_equal. apply B2R_Bopp.
Qed.

Lemma val_abs nan x : val (Babs prec emax nan x) = xabs (val x).
Proof.
  destruct x as [s|[]|s p H|s m e H]; try reflexivity.
  - cbn. f_equal. rewrite Rabs_R0; auto.
  - rewrite !val_fin by reflexivity. cbn [xabs]. f_equal. apply B2R_Babs.
Qed.

Lemma val_lt x y : blt prec emax x y = xlt (val x) (val y).
Proof.
  unfold blt, bcmp. destruct (is_finite prec emax x) eqn:Fx; destruct (is_finite prec emax y) eqn:Fy.
  - rewrite Bcompare_correct, !val_fin by auto. cbn [xlt]. unfold Rlt_bool. destruct (Rcompare _ _); reflexivity.
  - destruct x as [s|s|s p H|s m e H], y as [s0|s0|s0 p0 H0|s0 m0 e0 H0]; try discriminate; try destruct s; try destruct s0; reflexivity.
  - destruct x as [s|s|s p H|s m e H], y as [s0|s0|s0 p0 H0|s0 m0 e0 H0]; try discriminate; try destruct s; try destruct s0; reflexivity.
  - destruct x as [s|s|s p H|s m e H], y as [s0|s0|s0 p0 H0|s0 m0 e0 H0]; try discriminate; try destruct s; try destruct s0; reflexivity.
Qed.
Lemma val_eq x y : beq prec emax x y = xeq (val x) (val y).
Proof.
  unfold beq, bcmp. destruct (is_finite prec emax x) eqn:Fx; destruct (is_finite prec emax y) eqn:Fy.
  - rewrite Bcompare_correct, !val_fin by auto. cbn [xeq]. unfold Req_bool. destruct (Rcompare _ _); reflexivity.
  - destruct x as [s|s|s p H|s m e H], y as [s0|s0|s0 p0 H0|s0 m0 e0 H0]; try discriminate; try destruct s; try destruct s0; reflexivity.
  - destruct x as [s|s|s p H|s m e H], y as [s0|s0|s0 p0 H0|s0 m0 e0 H0]; try discriminate; try destruct s; try destruct s0; reflexivity.
  - destruct x as [s|s|s p H|s m e H], y as [s0|s0|s0 p0 H0|s0 m0 e0 H0]; try discriminate; try destruct s; try destruct s0; reflexivity.
Qed.
Lemma val_le x y : ble prec emax x y = xle (val x) (val y).
Proof.
  unfold ble, bcmp. destruct (is_finite prec emax x) eqn:Fx; destruct (is_finite prec emax y) eqn:Fy.
  - rewrite Bcompare_correct, !val_fin by auto. cbn [xle]. unfold Rle_bool. destruct (Rcompare _ _); reflexivity.
  - destruct x as [s|s|s p H|s m e H], y as [s0|s0|s0 p0 H0|s0 m0 e0 H0]; try discriminate; try destruct s; try destruct s0; reflexivity.
  - destruct x as [s|s|s p H|s m e H], y as [s0|s0|s0 p0 H0|s0 m0 e0 H0]; try discriminate; try destruct s; try destruct s0; reflexivity.
  - destruct x as [s|s|s p H|s m e H], y as [s0|s0|s0 p0 H0|s0 m0 e0 H0]; try discriminate; try destruct s; try destruct s0; reflexivity.
Qed.

Lemma val_normalize m e s : val (binary_normalize prec emax Hp He mode_NE m e s) = sat (rnd (F2R (Float radix2 m e))).
Proof.
  generalize (binary_normalize_correct prec emax Hp He mode_NE m e s). cbn [round_mode].
  case Rlt_bool_spec; intros H.
  - intros (E & F & _). rewrite val_fin by auto. rewrite E. rewrite sat_small; auto.
  - intros E. apply (val_overflow _ _ _ E H).
    + intros Es. apply rnd_sign_le. revert Es. case Rlt_bool_spec; intros; [lra|discriminate].
    + intros Es. apply rnd_sign_ge. revert Es. case Rlt_bool_spec; intros; [discriminate|lra].
Qed.

Lemma val_ofZ z : val (bofZ prec emax Hp He z) = rndx (Fin (IZR z)).
Proof.
  unfold bofZ. rewrite val_normalize. cbn [rndx]. do 2 f_equal. unfold F2R; cbn. lra.
Qed.

Lemma val_toint oob x : btoint prec emax oob x = match xtoint (val x) with Some z => Some z | None => oob end.
Proof.
  unfold btoint. destruct (is_finite prec emax x) eqn:F.
  - rewrite val_fin by auto. cbn [xtoint].
    assert (E : Btrunc prec emax x = Ztrunc (B2R prec emax x)).
    { apply eq_IZR. rewrite Btrunc_correct by (exact He || exact Hp). apply round_FIX_IZR. }
    rewrite E. cbv zeta. destruct (_ && _); reflexivity.
  - destruct x as [s|[]|s p H|s m e H]; try discriminate; reflexivity.
Qed.
End Val.

(** ** Conversions *)
Local Open Scope R_scope.
Notation val32 := (val 24 128).
Notation val64 := (val 53 1024).
Notation fexp32 := (SpecFloat.fexp 24 128).
Notation fexp64 := (SpecFloat.fexp 53 1024).

Lemma val_of_b32 x : val64 (b64_of_b32 x) = val32 x.
Proof.
  destruct x as [s|[]|s p H|s m e H]; try reflexivity.
  cbn [b64_of_b32]. rewrite val_normalize. cbn [val B2R].
  set (f := Float radix2 (cond_Zopp s (Z.pos m)) e).
  assert (F32 : FLT_format radix2 (-149) 24 (F2R f)).
  { generalize (FLT_format_B2R 24 128 eq_refl (B754_finite 24 128 s m e H)). cbn [B2R]. auto. }
  assert (G : generic_format radix2 fexp64 (F2R f)).
  { apply (generic_format_FLT radix2 (-1074) 53). destruct F32 as [g E1 E2 E3].
    exists g; auto.
    - eapply Z.lt_trans; [exact E2|]. reflexivity.
    - lia. }
  rewrite round_generic; auto with typeclass_instances.
  apply sat_small.
  eapply Rlt_trans; [apply (abs_B2R_lt_emax 24 128 (B754_finite 24 128 s m e H))|]. apply bpow_lt. lia.
Qed.

Lemma val_of_b64 x : val32 (b32_of_b64 x) = rndx 24 128 (val64 x).
Proof.
  destruct x as [s|[]|s p H|s m e H]; try reflexivity.
  - cbn [b32_of_b64 val rndx B2R]. rewrite round_0 by auto with typeclass_instances.
    rewrite sat_small; [auto|]. rewrite Rabs_R0. apply bpow_gt_0.
  - cbn [b32_of_b64]. rewrite val_normalize. reflexivity.
Qed.

(** The value of every finite number is in the format. *)
Lemma val_format prec emax (Hp : Prec_gt_0 prec) x r : val prec emax x = Fin r ->
  generic_format radix2 (SpecFloat.fexp prec emax) r /\ Rabs r < bpow radix2 emax.
Proof.
  intros E. apply val_Fin_inv in E. destruct E as [F <-]. split.
  - apply generic_format_B2R.
  - apply abs_B2R_lt_emax.
Qed.
