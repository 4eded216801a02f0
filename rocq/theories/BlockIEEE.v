(** The linear quantiser in IEEE arithmetic: range of the index, no undefined conversion, error bound; and in exact arithmetic. *)
From Coq Require Import Reals Lra Lia ZArith List Bool.
From Coq Require Import ZifyBool ZifyNat.
From Flocq Require Import Core.Core IEEE754.BinarySingleNaN IEEE754.Binary IEEE754.Bits Relative Plus_error.
From Verif Require Import Base Huffman Arith Sync2D Exact IEEE IEEELaws IEEEQuant IEEE2D LinQuant Block BlockSync BlockBytes.
Import ListNotations.
Local Open Scope R_scope.

(** float beside T = double: binary32. *)
Definition tenth64 : binary64 := b64_of_bits 4591870180066957722.   (* 0x3FB999999999999A *)
Definition DO (lm : Libm binary64 binary64) : FOps (DA lm) := {|
  F := binary32; fadd := b32_plus mode_NE; fmul := b32_mult mode_NE; fdiv := b32_div mode_NE; fofZ := b32_ofZ;
  f2d := (b64_of_b32 : binary32 -> D (DA lm)); d2f := (b32_of_b64 : D (DA lm) -> binary32);
  f2t := (b64_of_b32 : binary32 -> T (DA lm)); t2f := (b32_of_b64 : T (DA lm) -> binary32);
  fsub := b32_minus mode_NE; fabsf := b32_abs; fsize_of := 4;
  fser := fun x => le_bytes 4 (bits_of_b32 x); fdes := fun l => b32_of_bits (le_val l);
  dtenth := (tenth64 : D (DA lm));
|}.
(** float beside T = float: T itself. *)
Definition FO (lm : Libm binary32 binary64) : FOps (FA lm) := {|
  F := binary32; fadd := b32_plus mode_NE; fmul := b32_mult mode_NE; fdiv := b32_div mode_NE; fofZ := b32_ofZ;
  f2d := (b64_of_b32 : binary32 -> D (FA lm)); d2f := (b32_of_b64 : D (FA lm) -> binary32);
  f2t := ((fun x => x) : binary32 -> T (FA lm)); t2f := ((fun x => x) : T (FA lm) -> binary32);
  fsub := b32_minus mode_NE; fabsf := b32_abs; fsize_of := 4;
  fser := fun x => le_bytes 4 (bits_of_b32 x); fdes := fun l => b32_of_bits (le_val l);
  dtenth := (tenth64 : D (FA lm));
|}.

Lemma DO_ser lm : fser_ok (DO lm).
Proof. split; intros; [apply le_bytes_length|apply b32_ser|cbn; lia]. Qed.
Lemma FO_ser lm : fser_ok (FO lm).
Proof. split; intros; [apply le_bytes_length|apply b32_ser|cbn; lia]. Qed.

(** The quantiser's operations on X, as rounded real arithmetic. *)
Record qieee (A : Arith) (I : ieee A) (O : FOps A) (X : Type) (Q : qops A O X) : Type := {
  pX : Z; eX : Z; HpX : Prec_gt_0 pX; HeX : Prec_lt_emax pX eX; HpX53 : (1 < pX <= 53)%Z;
  vX : X -> XR; vF : F O -> XR;
  vX_fmt : forall x r, vX x = Fin r -> generic_format radix2 (SpecFloat.fexp pX eX) r /\ Rabs r < bpow radix2 eX;
  vF_fmt : forall x r, vF x = Fin r -> generic_format radix2 (SpecFloat.fexp pX eX) r /\ Rabs r < bpow radix2 eX;
  v_f2d : forall f, vD A I (f2d O f) = vF f;
  v_diff : forall x f, vD A I (q_diff Q x f) = rndx pX eX (xsub (vX x) (vF f));
  v_conv : forall d, vX (q_conv Q d) = rndx pX eX (vD A I d);
  v_err : forall a b, vD A I (q_err Q a b) = xabs (rndx pX eX (xsub (vX a) (vX b)));
}.

Section Q.
Context (A : Arith) (I : ieee A) (O : FOps A) (X : Type) (Q : qops A O X) (J : qieee A I O X Q).
Local Notation vD := (vD A I).
Local Notation vX := (vX A I O X Q J). Local Notation vF := (vF A I O X Q J).
Local Notation pX := (pX A I O X Q J). Local Notation eX := (eX A I O X Q J).
Local Notation HpX := (HpX A I O X Q J).
Local Notation fexpX := (SpecFloat.fexp pX eX).
Local Instance fexpX_valid : Valid_exp fexpX := fexp_correct pX eX HpX.
Local Instance prec53 : Prec_gt_0 53 := eq_refl.
Local Instance precX : Prec_gt_0 pX := HpX.

Lemma xabs_nonneg x r : xabs x = Fin r -> 0 <= r.
Proof. destruct x; cbn; intros H; try discriminate. injection H as <-. apply Rabs_pos. Qed.

Lemma xsub_fin a b r : xsub a b = Fin r -> exists x y, a = Fin x /\ b = Fin y /\ r = x - y.
Proof. destruct a, b; cbn; intros H; try discriminate. injection H as <-. eauto. Qed.

(** The rounded difference of two numbers bounds the exact one. *)
Lemma sub_bound x y a : generic_format radix2 fexpX x -> generic_format radix2 fexpX y ->
  Rabs (round radix2 fexpX ZnearestE (x - y)) <= a -> Rabs (x - y) <= a * (1 + bpow radix2 (- pX)).
Proof.
  intros Gx Gy H.
  destruct (FLT_plus_error_N_round_ex radix2 (3 - eX - pX) pX (fun z => negb (Z.even z)) x (- y) Gx (generic_format_opp _ _ _ Gy)) as (eps & He & Hxy).
  change (FLT_exp (3 - eX - pX) pX) with fexpX in Hxy. unfold Rminus. rewrite Hxy. unfold Rminus in H. rewrite Rabs_mult.
  assert (Hu : u_ro radix2 pX = bpow radix2 (- pX)).
  { unfold u_ro. rewrite bpow_plus. change (bpow radix2 1) with 2. field. }
  rewrite Hu in He. apply Rmult_le_compat; auto using Rabs_pos.
  eapply Rle_trans; [apply Rabs_triang|]. rewrite Rabs_R1. lra.
Qed.

Lemma sub_zero x y : generic_format radix2 fexpX x -> generic_format radix2 fexpX y ->
  round radix2 fexpX ZnearestE (x - y) = 0 -> x = y.
Proof.
  intros Gx Gy H.
  assert (NF : Exp_not_FTZ fexpX) by (change fexpX with (FLT_exp (3 - eX - pX) pX); auto with typeclass_instances).
  assert (E : x + - y = 0).
  { apply (round_plus_eq_0 radix2 fexpX ZnearestE x (- y) Gx (generic_format_opp _ _ _ Gy)). exact H. }
  lra.
Qed.

(** The error test: both values are finite and close. *)
Lemma err_bound x y p a : vD p = Fin a -> dle A (q_err Q x y) p = true ->
  exists r s, vX x = Fin r /\ vX y = Fin s /\ Rabs (r - s) <= a * (1 + bpow radix2 (- pX)).
Proof.
  intros Hp H. rewrite (v_dle A I), (v_err _ _ _ _ _ J), Hp in H.
  destruct (rndx pX eX (xsub (vX x) (vX y))) as [d| | |] eqn:E; cbn [xabs] in H; try (cbn in H; discriminate).
  apply rndx_fin_inv in E. destruct E as (b & E1 & E2 & _). apply xsub_fin in E1. destruct E1 as (r & s & E1 & E3 & ->).
  exists r, s. split; [auto|]. split; [auto|]. apply xle_fin in H. subst d.
  apply sub_bound; [eapply vX_fmt; eauto|eapply vX_fmt; eauto|exact H].
Qed.

(** What the two scale factors can be. *)
Lemma prec_cases p x y : dle A (q_err Q x y) p = true -> vD p = Fin 0 \/ xlt (Fin 0) (vD p) = true.
Proof.
  intros H. rewrite (v_dle A I), (v_err _ _ _ _ _ J) in H.
  destruct (xabs (rndx pX eX (xsub (vX x) (vX y)))) as [d| | |] eqn:E.
  - pose proof (xabs_nonneg _ _ E). destruct (vD p) as [a| | |]; try (cbn in H; discriminate); auto.
    apply xle_fin in H. destruct (Req_dec a 0); [left; congruence|right; apply xlt_fin; lra].
  - destruct (vD p); try (cbn in H; discriminate). auto.
  - destruct (xsub (vX x) (vX y)), (rndx pX eX _) in E; discriminate.
  - destruct (vD p); cbn in H; discriminate.
Qed.

(** quant_diff with a positive precision. *)
Lemma qd_range d p c : xlt (Fin 0) (vD p) = true -> (0 <= c <= 2 ^ 31)%Z ->
  dlt A (dadd A (ddiv A (dabs A d) p) (dofZ A 1)) (dofZ A c) = true ->
  exists q, vD (dadd A (ddiv A (dabs A d) p) (dofZ A 1)) = Fin q /\ generic_format radix2 fexp64 q /\ 1 <= q < IZR c /\ exists r, vD d = Fin r.
Proof.
  Local Transparent xdiv.
  intros Hp Hc H. rewrite (v_dlt A I), (vD_const A I c) in H by lia.
  destruct (vD (dadd A (ddiv A (dabs A d) p) (dofZ A 1))) as [q| | |] eqn:E; try (cbn in H; discriminate).
  2: { exfalso. rewrite v_dadd, (vD_const A I 1) in E by lia. rewrite v_ddiv in E by (intros K; rewrite K in Hp; apply xlt_fin in Hp; lra).
       rewrite v_dabs in E. destruct (vD d) as [r| | |], (vD p) as [b| | |]; cbn [xabs xdiv] in E; try (cbn in Hp; discriminate); try discriminate E.
       - apply xlt_fin in Hp. rewrite Req_bool_false in E by lra. cbn [rndx] in E.
         assert (P : 0 <= Rabs r / b) by (apply Rmult_le_pos; [apply Rabs_pos|apply Rlt_le, Rinv_0_lt_compat; auto]).
         pose proof (rnd_le 53 1024 eq_refl _ _ P) as P1. rewrite rnd_0 in P1 by reflexivity.
         destruct (sat_cases 1024 (round radix2 fexp64 ZnearestE (Rabs r / b))) as [[K _]|[[K _]|[K K2]]]; rewrite K in E; cbn [xadd rndx] in E.
         + assert (P2 : 0 <= round radix2 fexp64 ZnearestE (Rabs r / b) + 1) by lra.
           pose proof (rnd_le 53 1024 eq_refl _ _ P2) as P3. rewrite rnd_0 in P3 by reflexivity.
           destruct (sat_cases 1024 (round radix2 fexp64 ZnearestE (round radix2 fexp64 ZnearestE (Rabs r / b) + 1))) as [[K' _]|[[K' _]|[K' K2]]];
             rewrite K' in E; try discriminate.
           pose proof (bpow_gt_0 radix2 1024). lra.
         + discriminate.
         + pose proof (bpow_gt_0 radix2 1024). lra.
       - cbn [rndx] in E. rewrite rnd_0 in E by reflexivity. rewrite sat_fin in E by (rewrite Rabs_R0; apply bpow_gt_0). cbn [xadd rndx] in E.
         destruct (sat_cases 1024 (round radix2 fexp64 ZnearestE (0 + 1))) as [[K' _]|[[K' _]|[K' K2]]]; rewrite K' in E; try discriminate.
         pose proof (bpow_gt_0 radix2 1024). assert (P2 : 0 <= 0 + 1) by lra.
         pose proof (rnd_le 53 1024 eq_refl _ _ P2) as P3. rewrite rnd_0 in P3 by reflexivity. lra.
       - apply xlt_fin in Hp. rewrite Rlt_bool_false in E by lra. discriminate.
       - apply xlt_fin in Hp. rewrite Rlt_bool_false in E by lra. discriminate. }
  exists q. split; [auto|]. destruct (vD_fmt A I _ _ E) as [G _]. split; [auto|]. apply xlt_fin in H.
  rewrite v_dadd, (vD_const A I 1) in E by lia. apply rndx_fin_inv in E. destruct E as (s & E & -> & _).
  destruct (vD (ddiv A (dabs A d) p)) as [z| | |] eqn:Ez; try (cbn in E; discriminate). cbn [xadd] in E. injection E as <-.
  destruct (div_notfin A I _ _ _ Ez) as [w Ew]. rewrite v_dabs in Ew.
  assert (Hw : 0 <= w) by (eapply xabs_nonneg; eauto).
  assert (Hz : 0 <= z).
  { rewrite v_ddiv in Ez by (intros K; rewrite K in Hp; apply xlt_fin in Hp; lra). rewrite v_dabs, Ew in Ez.
    apply rndx_fin_inv in Ez. destruct Ez as (t & Et & -> & _).
    destruct (vD p) as [b| | |]; try (cbn in Hp; discriminate); cbn [xdiv] in Et.
    - apply xlt_fin in Hp. rewrite Req_bool_false in Et by lra. injection Et as <-.
      rewrite <- (rnd_0 53 1024). apply rnd_le; [reflexivity|]. apply Rmult_le_pos; [auto|apply Rlt_le, Rinv_0_lt_compat; auto].
    - injection Et as <-. rewrite (rnd_0 53 1024). lra. }
  split.
  - split; [|exact H]. assert (G1 : generic_format radix2 fexp64 1) by (apply (fmt_IZR 53 1024 eq_refl 1); lia).
    rewrite <- (rnd_id 53 1024 1 G1) at 1. apply rnd_le; [reflexivity|lra].
  - destruct (vD d) as [r| | |]; cbn in Ew; try discriminate. eauto.
Qed.
Local Opaque xdiv.

(** The signed half: truncated without overflow, and within the bins. *)
Lemma half_index qd d q c : (0 <= c <= 2 ^ 31)%Z -> vD qd = Fin q -> generic_format radix2 fexp64 q -> 1 <= q < IZR c ->
  exists k, dtoint A (ddiv A (if dlt A (dofZ A 0) d then qd else dneg A qd) (dofZ A 2)) = Some k /\ (- c < 2 * k < c)%Z.
Proof.
  intros Hc Hq G Hr.
  set (s := if dlt A (dofZ A 0) d then qd else dneg A qd).
  assert (Hs : exists t, vD s = Fin t /\ Rabs t = q /\ generic_format radix2 fexp64 t).
  { unfold s. destruct (dlt A (dofZ A 0) d).
    - exists q. split; [auto|]. split; [apply Rabs_pos_eq; lra|auto].
    - exists (- q). rewrite v_dneg, Hq. split; [reflexivity|]. split; [rewrite Rabs_Ropp; apply Rabs_pos_eq; lra|apply generic_format_opp; auto]. }
  destruct Hs as (t & Ht & At & Gt).
  assert (HD : vD (ddiv A s (dofZ A 2)) = Fin (t / 2)).
  { rewrite v_ddiv by (rewrite (vD_const A I 2) by lia; intros K; injection K as K; lra).
    rewrite Ht, (vD_const A I 2) by lia. Local Transparent xdiv. cbn [xdiv]. Local Opaque xdiv. rewrite Req_bool_false by lra.
    apply (rndx_fin 53 1024).
    - apply fmt64_half; [lra|auto].
    - destruct (vD_fmt A I _ _ Ht) as [_ B]. unfold Rdiv. rewrite Rabs_mult, (Rabs_pos_eq (/ 2)) by lra. pose proof (Rabs_pos t). lra. }
  assert (c1 : (1 < c)%Z) by (apply lt_IZR; lra).
  assert (B : (- c < 2 * Ztrunc (t / 2) < c)%Z).
  { pose proof (Rle_abs t). pose proof (Rle_abs (- t)). rewrite Rabs_Ropp in *.
    destruct (Rle_lt_dec 0 (t / 2)) as [P|P].
    - rewrite Ztrunc_floor by auto. pose proof (Zfloor_lb (t / 2)). assert (0 <= Zfloor (t / 2))%Z by (apply Zfloor_lub; exact P).
      split; [lia|]. apply lt_IZR. rewrite mult_IZR. lra.
    - rewrite Ztrunc_ceil by lra. pose proof (Zceil_ub (t / 2)). assert (Zceil (t / 2) <= 0)%Z by (apply Zceil_glb; lra).
      split; [|lia]. apply lt_IZR. rewrite mult_IZR, opp_IZR. lra. }
  exists (Ztrunc (t / 2)). split; [|exact B].
  rewrite (v_dtoint A I), HD. cbn [xtoint].
  replace ((- 2 ^ 31 <=? Ztrunc (t / 2))%Z && (Ztrunc (t / 2) <? 2 ^ 31)%Z)%bool with true by lia. reflexivity.
Qed.

(** With precision zero nothing is predicted. *)
Lemma zero_precision pred cur p cap rad q x : (0 <= cap <= 2 ^ 31)%Z -> vD p = Fin 0 ->
  lin_quantize Q pred cur p cap rad = Some (Predicted q x) -> False.
Proof.
  intros Hc Hp H. unfold lin_quantize in H. set (d := q_diff Q cur pred) in H.
  set (qd := dadd A (ddiv A (dabs A d) p) (dofZ A 1)) in H.
  destruct (dlt A qd (dofZ A cap)) eqn:EL; [|discriminate].
  rewrite (v_dlt A I), (vD_const A I cap) in EL by lia.
  bind_as H k Ek. destruct (dle A _ p) eqn:EE in H; [|discriminate]. apply Some_inj in H. injection H as _ _.
  destruct (v_ddiv0 A I (dabs A d) p Hp) as [[E _]|[E [N1 N2]]].
  - unfold qd in EL. rewrite v_dadd, E in EL. cbn in EL. discriminate.
  - destruct E as [E|E]; [unfold qd in EL; rewrite v_dadd, E, (vD_const A I 1) in EL by lia; cbn in EL; discriminate|].
    assert (Eq : vD qd = NInf) by (unfold qd; rewrite v_dadd, E, (vD_const A I 1) by lia; reflexivity).
    set (s := if dlt A (dofZ A 0) d then qd else dneg A qd) in Ek.
    pose proof (toint_range A I _ _ Ek) as Hk.
    set (dec := dequantise Q pred p (k + rad) rad) in EE.
    destruct (err_bound dec cur p 0 Hp EE) as (r & c & Er & Ec & _).
    rewrite (v_dle A I), (v_err _ _ _ _ _ J), Hp, Er, Ec in EE. cbn [xsub rndx] in EE.
    assert (Z0 : round radix2 fexpX ZnearestE (r - c) = 0).
    { destruct (sat_cases eX (round radix2 fexpX ZnearestE (r - c))) as [[K _]|[[K _]|[K _]]]; rewrite K in EE; cbn [xabs] in EE;
        try (cbn in EE; discriminate). apply xle_fin in EE. pose proof (Rabs_pos (round radix2 fexpX ZnearestE (r - c))).
      destruct (Req_dec (round radix2 fexpX ZnearestE (r - c)) 0); auto. pose proof (Rabs_pos_lt _ H0). lra. }
    assert (r = c) by (apply sub_zero; auto; [eapply vX_fmt; eauto|eapply vX_fmt; eauto]). subst c.
    (* dec is the prediction *)
    unfold dec, dequantise in Er. rewrite v_conv, v_dadd, (v_f2d _ _ _ _ _ J), v_dmul, Hp in Er.
    rewrite (vD_const A I) in Er by lia. cbn [xmul] in Er. rewrite Rmult_0_r in Er.
    rewrite (rndx_fin 53 1024 0) in Er; [|apply generic_format_0|rewrite Rabs_R0; apply bpow_gt_0].
    destruct (vF pred) as [f| | |] eqn:Ef; cbn [xadd] in Er; try (cbn in Er; discriminate).
    rewrite Rplus_0_r in Er. rewrite (rndx_fin 53 1024 f) in Er.
    2, 3: eapply (vD_fmt A I (f2d O pred)); rewrite (v_f2d _ _ _ _ _ J); auto.
    destruct (vF_fmt _ _ _ _ _ J _ _ Ef) as [Gf Bf]. rewrite (rndx_fin pX eX f Gf Bf) in Er. injection Er as Er. subst r.
    apply N1. rewrite v_dabs. unfold d. rewrite (v_diff _ _ _ _ _ J), Ec, Ef. cbn [xsub]. rewrite Rminus_diag_eq by auto.
    rewrite (rndx_fin pX eX 0); [|apply generic_format_0|rewrite Rabs_R0; apply bpow_gt_0]. cbn [xabs]. rewrite Rabs_R0. reflexivity.
Qed.

(** The index is at least lo + 1 and at most 2 radius - lo - 1. *)
Theorem lin_quantize_range pred cur p cap rad lo q x :
  (0 <= cap <= 2 ^ 31)%Z -> (cap <= 2 * (rad - lo))%Z ->
  lin_quantize Q pred cur p cap rad = Some (Predicted q x) -> (lo < q < 2 * rad - lo)%Z.
Proof.
  intros Hc Hr H. destruct (lin_quantize_inv _ _ _ _ _ _ _ _ H) as [_ HE].
  destruct (prec_cases _ _ _ HE) as [Hp|Hp]; [exfalso; eapply zero_precision; eauto|].
  unfold lin_quantize in H. set (d := q_diff Q cur pred) in H.
  destruct (dlt A (dadd A (ddiv A (dabs A d) p) (dofZ A 1)) (dofZ A cap)) eqn:EL; [|discriminate].
  destruct (qd_range d p cap Hp Hc EL) as (v & Hv & Gv & Bv & _).
  destruct (half_index _ d v cap Hc Hv Gv Bv) as (k & Ek & Bk). rewrite Ek in H. cbn [bind] in H.
  destruct (dle A _ p); [|discriminate]. apply Some_inj in H. injection H as E1 E2. clear - Bk Hr E1. lia.
Qed.

(** No undefined conversion with a positive (or NaN) precision. *)
Theorem lin_quantize_total pred cur p cap rad : (0 <= cap <= 2 ^ 31)%Z ->
  xlt (Fin 0) (vD p) = true \/ vD p = NaN \/ oob A I <> None ->
  exists r, lin_quantize Q pred cur p cap rad = Some r.
Proof.
  Local Transparent xdiv.
  intros Hc Hp. unfold lin_quantize. set (d := q_diff Q cur pred).
  destruct (dlt A (dadd A (ddiv A (dabs A d) p) (dofZ A 1)) (dofZ A cap)) eqn:EL; [|eauto].
  destruct Hp as [Hp|[Hp|Hp]].
  - destruct (qd_range d p cap Hp Hc EL) as (v & Hv & Gv & Bv & _).
    destruct (half_index _ d v cap Hc Hv Gv Bv) as (k & Ek & Bk). rewrite Ek. cbn [bind]. destruct dle; eauto.
  - rewrite (v_dlt A I), v_dadd, v_ddiv in EL by congruence. rewrite Hp in EL.
    replace (xdiv (vD (dabs A d)) NaN) with NaN in EL by (destruct (vD (dabs A d)); reflexivity). cbn in EL. discriminate.
  - rewrite (v_dtoint A I). destruct (xtoint _); [cbn [bind]; destruct dle; eauto|].
    destruct (oob A I) as [z|]; [|congruence]. cbn [bind]. destruct dle; eauto.
Qed.

Local Opaque xdiv.
(** What is predicted is within the precision, up to one rounding of the difference. *)
Theorem lin_quantize_bound pred cur p cap rad q x a : vD p = Fin a ->
  lin_quantize Q pred cur p cap rad = Some (Predicted q x) ->
  exists r s, vX x = Fin r /\ vX cur = Fin s /\ Rabs (r - s) <= a * (1 + bpow radix2 (- pX)).
Proof. intros Ha H. destruct (lin_quantize_inv _ _ _ _ _ _ _ _ H) as [_ HE]. eapply err_bound; eauto. Qed.

Lemma q_index_law cap rad lo : (0 <= cap <= 2 ^ 31)%Z -> (cap <= 2 * (rad - lo))%Z -> index_law Q cap rad lo.
Proof. intros H1 H2 pred cur p q x H. eapply lin_quantize_range; eauto. Qed.
End Q.

(** ** Instances *)
Local Instance p53 : Prec_gt_0 53 := eq_refl.
Local Instance p24 : Prec_gt_0 24 := eq_refl.
Local Instance e1024 : Prec_lt_emax 53 1024 := eq_refl.
Local Instance e128 : Prec_lt_emax 24 128 := eq_refl.

Lemma fmt32_64 r : generic_format radix2 (SpecFloat.fexp 24 128) r -> generic_format radix2 (SpecFloat.fexp 53 1024) r.
Proof.
  apply generic_inclusion_mag. intros _. unfold SpecFloat.fexp, SpecFloat.emin. lia.
Qed.

Lemma fmt_of_b32 (x : binary32) r : val 24 128 x = Fin r -> generic_format radix2 (SpecFloat.fexp 53 1024) r /\ Rabs r < bpow radix2 1024.
Proof.
  intros H. destruct (val_format 24 128 eq_refl _ _ H) as [G B]. split; [apply fmt32_64; auto|].
  eapply Rlt_le_trans; [exact B|]. apply bpow_le. lia.
Qed.

(** doubles against float predictions *)
Definition DQT lm : qieee (DA lm) (DA_ieee lm) (DO lm) (T (DA lm)) (qT (DA lm) (DO lm)).
Proof.
  refine {| pX := 53; eX := 1024; HpX := eq_refl; HeX := eq_refl; HpX53 := ltac:(lia); vX := (val 53 1024 : T (DA lm) -> XR); vF := (val 24 128 : F (DO lm) -> XR) |}.
  - intros x r H. exact (val_format 53 1024 eq_refl _ _ H).
  - exact fmt_of_b32.
  - exact val_of_b32.
  - intros x f. change (val 53 1024 (b64_minus mode_NE x (b64_of_b32 f)) = rndx 53 1024 (xsub (val 53 1024 x) (val 24 128 f))).
    unfold b64_minus. rewrite val_minus, val_of_b32. reflexivity.
  - intros d. change (val 53 1024 d = rndx 53 1024 (val 53 1024 d)).
    destruct (val 53 1024 d) as [r| | |] eqn:E; try reflexivity.
    destruct (val_format 53 1024 eq_refl _ _ E). rewrite (rndx_fin 53 1024); auto.
  - intros a b. change (val 53 1024 (b64_abs (b64_minus mode_NE a b)) = xabs (rndx 53 1024 (xsub (val 53 1024 a) (val 53 1024 b)))).
    unfold b64_abs, b64_minus. rewrite val_abs, val_minus. reflexivity.
Defined.

(** float coefficients *)
Definition DQF lm : qieee (DA lm) (DA_ieee lm) (DO lm) (F (DO lm)) (qF (DA lm) (DO lm)).
Proof.
  refine {| pX := 24; eX := 128; HpX := eq_refl; HeX := eq_refl; HpX53 := ltac:(lia); vX := (val 24 128 : F (DO lm) -> XR); vF := (val 24 128 : F (DO lm) -> XR) |}.
  - intros x r H. exact (val_format 24 128 eq_refl _ _ H).
  - intros x r H. exact (val_format 24 128 eq_refl _ _ H).
  - exact val_of_b32.
  - intros x f. change (val 53 1024 (b64_of_b32 (b32_minus mode_NE x f)) = rndx 24 128 (xsub (val 24 128 x) (val 24 128 f))).
    rewrite val_of_b32. unfold b32_minus. rewrite val_minus. reflexivity.
  - exact val_of_b64.
  - intros a b. change (val 53 1024 (b64_of_b32 (b32_abs (b32_minus mode_NE a b))) = xabs (rndx 24 128 (xsub (val 24 128 a) (val 24 128 b)))).
    rewrite val_of_b32. unfold b32_abs, b32_minus. rewrite val_abs, val_minus. reflexivity.
Defined.

Definition FQT lm : qieee (FA lm) (FA_ieee lm) (FO lm) (T (FA lm)) (qT (FA lm) (FO lm)).
Proof.
  refine {| pX := 24; eX := 128; HpX := eq_refl; HeX := eq_refl; HpX53 := ltac:(lia); vX := (val 24 128 : T (FA lm) -> XR); vF := (val 24 128 : F (FO lm) -> XR) |}.
  - intros x r H. exact (val_format 24 128 eq_refl _ _ H).
  - intros x r H. exact (val_format 24 128 eq_refl _ _ H).
  - exact val_of_b32.
  - intros x f. change (val 53 1024 (b64_of_b32 (b32_minus mode_NE x f)) = rndx 24 128 (xsub (val 24 128 x) (val 24 128 f))).
    rewrite val_of_b32. unfold b32_minus. rewrite val_minus. reflexivity.
  - exact val_of_b64.
  - intros a b. change (val 53 1024 (b64_of_b32 (b32_abs (b32_minus mode_NE a b))) = xabs (rndx 24 128 (xsub (val 24 128 a) (val 24 128 b)))).
    rewrite val_of_b32. unfold b32_abs, b32_minus. rewrite val_abs, val_minus. reflexivity.
Defined.

Definition FQF lm : qieee (FA lm) (FA_ieee lm) (FO lm) (F (FO lm)) (qF (FA lm) (FO lm)).
Proof.
  refine {| pX := 24; eX := 128; HpX := eq_refl; HeX := eq_refl; HpX53 := ltac:(lia); vX := (val 24 128 : F (FO lm) -> XR); vF := (val 24 128 : F (FO lm) -> XR) |}.
  - intros x r H. exact (val_format 24 128 eq_refl _ _ H).
  - intros x r H. exact (val_format 24 128 eq_refl _ _ H).
  - exact val_of_b32.
  - intros x f. change (val 53 1024 (b64_of_b32 (b32_minus mode_NE x f)) = rndx 24 128 (xsub (val 24 128 x) (val 24 128 f))).
    rewrite val_of_b32. unfold b32_minus. rewrite val_minus. reflexivity.
  - exact val_of_b64.
  - intros a b. change (val 53 1024 (b64_of_b32 (b32_abs (b32_minus mode_NE a b))) = xabs (rndx 24 128 (xsub (val 24 128 a) (val 24 128 b)))).
    rewrite val_of_b32. unfold b32_abs, b32_minus. rewrite val_abs, val_minus. reflexivity.
Defined.

(** The capacities of the codecs leave the reserved symbols free. *)
Definition capacity_fits {A} (g : cfg A) : Prop :=
  (2 <= g_capacity A g <= 2 ^ 31)%Z /\ (g_capacity A g <= 2 * g_radius A g)%Z.

Lemma DA_laws lm g : capacity_fits g -> laws (DA lm) (DO lm) g.
Proof.
  intros [H1 H2]. unfold laws, capacity_lorenzo. split; [|split].
  - apply (q_index_law _ _ _ _ _ (DQT lm)); lia.
  - destruct (g_mean (DA lm) g); apply (q_index_law _ _ _ _ _ (DQT lm)); lia.
  - apply (q_index_law _ _ _ _ _ (DQF lm)); lia.
Qed.
Lemma FA_laws lm g : capacity_fits g -> laws (FA lm) (FO lm) g.
Proof.
  intros [H1 H2]. unfold laws, capacity_lorenzo. split; [|split].
  - apply (q_index_law _ _ _ _ _ (FQT lm)); lia.
  - destruct (g_mean (FA lm) g); apply (q_index_law _ _ _ _ _ (FQT lm)); lia.
  - apply (q_index_law _ _ _ _ _ (FQF lm)); lia.
Qed.
