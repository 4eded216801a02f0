(** Refutations and overflow results about the 2D online codecs in the form used by the property theorems.
    Nothing of /repo is modelled here. *)
From Coq Require Import Reals Lra Lia ZArith List Bool.
From Coq Require Import ZifyBool ZifyNat.
From Flocq Require Import Core.Core IEEE754.BinarySingleNaN IEEE754.Binary IEEE754.Bits.
From Verif Require Import Base Huffman HuffStream HuffProps Stream Arith Mesh2D Derive2D Codec2D Sync2D Trace2D Stream2D Exact Cells2D Geo2D
  Preserve2D Total2D IEEE IEEELaws IEEEQuant IEEE2D IEEEAbs2D IEEERel2D TotalAny IEEETotal2D Fit2D Api2D LibmModel Witness2D Examples2D.
Import ListNotations.
Local Open Scope Z_scope.

Lemma bits_inj (x y : binary64) : bits_of_b64 x = bits_of_b64 y -> x = y.
Proof.
  intros H. apply (f_equal b64_of_bits) in H. unfold b64_of_bits, bits_of_b64 in H.
  rewrite !binary_float_of_bits_of_binary_float in H. exact H.
Qed.
Lemma result_inv r U V : bits_of_result r = Some (map bits_of_b64 U, map bits_of_b64 V) -> exists c, r = Some (U, V, c).
Proof.
  destruct r as [[[U' V'] c]|]; cbn [bits_of_result]; [|discriminate]. intros H. apply Some_inj, pair_equal_spec in H. destruct H as [H1 H2].
  assert (K : forall a b, map bits_of_b64 a = map bits_of_b64 b -> a = b).
  { induction a as [|x a IH]; intros [|y b] E; try discriminate; auto. cbn [map] in E. injection E as E1 E2.
    apply bits_inj in E1. f_equal; auto. }
  apply K in H1. apply K in H2. subst. eauto.
Qed.
Lemma dy_B2R m e : (Z.abs m < 2 ^ 53) -> (-1074 <= e <= 900) ->
  is_finite 53 1024 (dy m e) = true /\ B2R 53 1024 (dy m e) = (IZR m * bpow radix2 e)%R.
Proof. intros. apply val_fin_iff, dy_val; auto. Qed.

Theorem strict_refuted : exists lm max_eb U V U' V' c u u',
  libm_ok (DA lm) (DA_ieee lm) /\ enc_online_abs (DA lm) max_eb 1 1 U V = Some (U', V', c) /\
  (forall x, In x U \/ In x V -> finite_le 500 x) /\ finite_le 500 max_eb /\
  aget U 0 = Some u /\ aget U' 0 = Some u' /\ u' <> u /\ is_finite 53 1024 u' = true /\
  (0 < B2R 53 1024 max_eb < Rabs (B2R 53 1024 u' - B2R 53 1024 u))%R.
Proof.
  destruct (result_inv _ [dy 0 0] [dy 0 0] strict_run) as [c E].
  exists lm_strict, strict_eb, [dy (2 ^ 50 - 1) (-50)], [dy (2 ^ 50 - 1) (-50)], [dy 0 0], [dy 0 0], c, (dy (2 ^ 50 - 1) (-50)), (dy 0 0).
  destruct (dy_B2R 0 0 ltac:(lia) ltac:(lia)) as [F0 V0].
  destruct (dy_B2R (2 ^ 50 - 1) (-50) ltac:(lia) ltac:(lia)) as [F1 V1].
  destruct (dy_B2R (2 ^ 49 - 1) (-49) ltac:(lia) ltac:(lia)) as [F2 V2]. fold strict_eb in V2.
  assert (P : (0 < B2R 53 1024 strict_eb < Rabs (B2R 53 1024 (dy 0 0) - B2R 53 1024 (dy (2 ^ 50 - 1) (-50))))%R).
  { rewrite V0, V1, V2. change (bpow radix2 0) with 1%R. change (bpow radix2 (-49)) with (/ 562949953421312)%R. change (bpow radix2 (-50)) with (/ 1125899906842624)%R.
    change (IZR (2 ^ 49 - 1)) with 562949953421311%R. change (IZR (2 ^ 50 - 1)) with 1125899906842623%R.
    rewrite Rabs_left1 by lra. lra. }
  split; [exact lm_strict_ok|]. split; [exact E|]. split.
  { intros x [[<-|[]]|[<-|[]]]; apply dy_finite; lia. }
  split; [apply dy_finite; lia|]. split; [reflexivity|]. split; [reflexivity|]. split; [|split; [exact F0|exact P]].
  intros X. rewrite X in P. rewrite Rminus_eq_0, Rabs_R0 in P. lra.
Qed.

Theorem nan_abs_refuted : forall x86, exists U V U' V' c v v',
  enc_online_abs (DA (lm64 x86)) (dy 0 0) 2 2 U V = Some (U', V', c) /\ length U = 4%nat /\ length V = 4%nat /\
  aget V 0 = Some v /\ aget V' 0 = Some v' /\ B2R 53 1024 v = (5 / 8)%R /\ B2R 53 1024 v' = (1 / 2)%R /\
  is_finite 53 1024 v' = true.
Proof.
  intros x86. destruct (result_inv _ nanU (dy 1 (-1) :: tl nanV) (nan_abs x86)) as [c E].
  exists nanU, nanV, nanU, (dy 1 (-1) :: tl nanV), c, (dy 5 (-3)), (dy 1 (-1)).
  destruct (dy_B2R 5 (-3) ltac:(lia) ltac:(lia)) as [F0 V0]. destruct (dy_B2R 1 (-1) ltac:(lia) ltac:(lia)) as [F1 V1].
  split; [exact E|]. do 4 (split; [reflexivity|]). split; [|split; [|exact F1]].
  - rewrite V0. change (bpow radix2 (-3)) with (/ 8)%R. lra.
  - rewrite V1. change (bpow radix2 (-1)) with (/ 2)%R. lra.
Qed.
Theorem nan_rel_refuted : forall x86, exists U V U' V' c u u',
  enc_online (DA (lm64 x86)) (dy 0 0) 2 2 U V = Some (U', V', c) /\ length U = 4%nat /\ length V = 4%nat /\
  aget U 0 = Some u /\ aget U' 0 = Some u' /\ B2R 53 1024 u = (5 / 2)%R /\ B2R 53 1024 u' = 2%R /\
  is_finite 53 1024 u' = true.
Proof.
  intros x86.
  assert (N : bits_of_result (enc_online (DA (lm64 x86)) (dy 0 0) 2 2 nanU2 nanV2)
    = Some (map bits_of_b64 (dy 1 1 :: tl nanU2), map bits_of_b64 (dy 1 1 :: tl nanV2))) by (destruct x86; [exact nan_rel|exact nan_rel_ub]).
  destruct (result_inv _ _ _ N) as [c E].
  exists nanU2, nanV2, (dy 1 1 :: tl nanU2), (dy 1 1 :: tl nanV2), c, (dy 5 (-1)), (dy 1 1).
  destruct (dy_B2R 5 (-1) ltac:(lia) ltac:(lia)) as [F0 V0]. destruct (dy_B2R 1 1 ltac:(lia) ltac:(lia)) as [F1 V1].
  split; [exact E|]. do 4 (split; [reflexivity|]). split; [|split; [|exact F1]].
  - rewrite V0. change (bpow radix2 (-1)) with (/ 2)%R. lra.
  - rewrite V1. change (bpow radix2 1) with 2%R. lra.
Qed.

Lemma overflow_both : forall A (I : ieee A), libm_ok A I -> ser_ok A -> forall max_eb ord ub r1 r2 U V junk,
  0 <= r1 -> 0 < r2 ->
  (forall p u v, aget U p = Some u -> aget V p = Some v -> vT A I u = Fin 0 \/ vT A I v = Fin 0) ->
  compress_online A max_eb ord ub r1 r2 U V junk = None /\ compress_online_abs A max_eb ord ub r1 r2 U V junk = None.
Proof. intros A I L HS max_eb ord ub r1 r2 U V junk H1 H2 HZ. split; [eapply rel_overflow|eapply abs_overflow]; eauto. Qed.

Lemma zeros_encode : exists r, enc_online_abs (DA (lm64 false)) ex_eb 100 100 (zeros64 (100 * 100)) (zeros64 (100 * 100)) = Some r.
Proof.
  unfold zeros64.
  destruct (noub_double (lm64 false) (lm64_ok false) ex_eb 100 100 (repeat (dy 0 0) (100 * 100)) (repeat (dy 0 0) (100 * 100))) as [_ K].
  - lia. - lia. - rewrite repeat_length. lia. - rewrite repeat_length. lia. - reflexivity.
  - intros x [H|H]; apply repeat_spec in H; subst; apply dy_finite; lia.
  - apply K. destruct (dy_finite 1 (-2) 500 ltac:(lia) ltac:(lia) ltac:(lia) ltac:(lia)) as [_ B].
    unfold ex_eb. apply Rabs_le_inv in B. lra.
Qed.

Lemma quantize_example : exists id ab, eb_exponential_quantize XA 4 (Fin (bpow radix2 (-52))) (Fin 1) = Some (id, ab).
Proof.
  destruct (quantize_total 1) as [[id ab] E].
  - pose proof big_ge_1. nra.
  - exists id, ab. exact E.
Qed.

(** A bound of 0 (or less): everything is stored verbatim, so the stream never fits in the block. *)
Theorem zero_bound_overflow A (I : ieee A) : ser_ok A -> forall B max_eb m ord ub r1 r2 U V junk,
  0 <= B -> 2 * B + 8 < eT A I -> vD A I max_eb = Fin m -> (m <= 0)%R -> 0 <= r1 -> 0 < r2 ->
  moderate A I B U -> moderate A I B V -> compress_online_abs A max_eb ord ub r1 r2 U V junk = None.
Proof.
  intros HS B max_eb m ord ub r1 r2 U V junk HB HB2 Em Hm H1 H2 MU MV.
  unfold compress_online_abs, compress_with.
  destruct (enc_online_abs A max_eb r1 r2 U V) as [[[U' V'] c]|] eqn:E; [|reflexivity]. cbn [bind].
  destruct (write_stream A ord ub (r1 * r2) c junk) as [[buf size]|] eqn:W; [|reflexivity]. exfalso.
  apply stream_holds_verbatim in W; auto.
  destruct (all_verbatim A (required_eb_abs A max_eb) (fun _ eb => eb) r1 r2 U V) with (U' := U') (V' := V') (c := c) as (_ & _ & Hl); auto.
  - intros i j U0 V0 c0 H. inversion H as [u v|u v eb id0 id1 q0 q1 x0 x1 U1 V1 Eu Ev Er Hp C0 C1]; subst; eauto. exfalso.
    rewrite (v_dlt A I), (vD_0 A I) in Hp.
    destruct (required_abs_atmost A I B max_eb m U V r1 r2 i j eb) as [At|Z]; auto; try lia.
    + destruct (atmost_pos _ _ At Hp) as (e & _ & X1 & X2). lra.
    + rewrite Z in Hp. apply xlt_fin in Hp. lra.
  - rewrite Hl in W. nia.
Qed.
