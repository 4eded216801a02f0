(** Error bound of the 2D log-domain codec in IEEE arithmetic.  Nothing of /repo is modelled here. *)
From Coq Require Import Reals Lra Lia ZArith List Bool.
From Coq Require Import ZifyBool ZifyNat.
From Flocq Require Import Core.Core IEEE754.BinarySingleNaN IEEE754.Binary IEEE754.Bits.
From Verif Require Import Base Huffman HuffStream HuffProps Stream Arith Mesh2D Derive2D Codec2D Sync2D Trace2D Scan Stream2D Exact IEEE IEEELaws IEEEQuant
  IEEE2D IEEEAbs2D IEEERel2D RelaxErr2D Log2D LogSync2D LogCells2D.
Import ListNotations.
Local Open Scope R_scope.
Local Instance p53e : Prec_gt_0 53 := eq_refl.

(** log2f and exp2 as the codec needs them: log2f is within 2^-16 (two units in the last place of a float result
    up to 100), exp2 within 2^-20 relatively. *)
Record log_libm_ok (A : Arith) (I : ieee A) : Prop := {
  ll_log2f : forall x r, vT A I x = Fin r -> bpow radix2 (-100) <= r <= bpow radix2 100 ->
    exists l, vT A I (tlog2f A x) = Fin l /\ Rabs (l - log2R r) <= bpow radix2 (-16);
  ll_exp2 : forall x l, vT A I x = Fin l -> -110 <= l <= 104 ->
    exists r, vT A I (texp2 A x) = Fin r /\ Rabs (r - Rpower 2 l) <= Rpower 2 l * bpow radix2 (-20);
}.

Lemma log2R_bpow k : log2R (bpow radix2 k) = IZR k.
Proof.
  assert (Ek : bpow radix2 k = Rpower 2 (IZR k)) by (rewrite <- powerRZ_Rpower by lra; apply bpow_powerRZ).
  unfold log2R. rewrite Ek. unfold Rpower. rewrite ln_exp. field. pose proof ln2_pos. lra.
Qed.
Lemma log2R_le x y : 0 < x -> x <= y -> log2R x <= log2R y.
Proof.
  intros Hx H. unfold log2R, Rdiv. apply Rmult_le_compat_r; [left; apply Rinv_0_lt_compat, ln2_pos|].
  destruct H as [L| ->]; [left; apply ln_increasing; auto|lra].
Qed.
Lemma log2R_mul x y : 0 < x -> 0 < y -> log2R (x * y) = log2R x + log2R y.
Proof. intros. unfold log2R. rewrite ln_mult by auto. field. pose proof ln2_pos. lra. Qed.
Lemma Rpower_log2R x : 0 < x -> Rpower 2 (log2R x) = x.
Proof. intros H. unfold Rpower, log2R. replace (ln x / ln 2 * ln 2) with (ln x) by (field; pose proof ln2_pos; lra). apply exp_ln. auto. Qed.

(** 2^d <= 1 + d on [0, 1]. *)
Lemma Rpower_chord d : 0 <= d <= 1 -> Rpower 2 d <= 1 + d.
Proof.
  intros H. pose proof ln2_pos as L2.
  destruct (Req_dec d 0) as [->|N]; [rewrite Rpower_O by lra; lra|].
  destruct (Req_dec d 1) as [->|N1]; [rewrite Rpower_1 by lra; lra|].
  destruct (MVT_cor2 exp exp 0 (d * ln 2)) as (c1 & E1 & H1); [nra|intros; apply derivable_pt_lim_exp|].
  destruct (MVT_cor2 exp exp (d * ln 2) (ln 2)) as (c2 & E2 & H2); [nra|intros; apply derivable_pt_lim_exp|].
  rewrite exp_0 in E1. rewrite exp_ln in E2 by lra. unfold Rpower.
  assert (exp c1 < exp c2) by (apply exp_increasing; lra).
  set (X := exp (d * ln 2)) in *.
  assert (E1' : X - 1 = exp c1 * d * ln 2) by lra.
  assert (E2' : 2 - X = exp c2 * (1 - d) * ln 2) by lra.
  assert (0 < d * (1 - d) * ln 2) by (apply Rmult_lt_0_compat; [apply Rmult_lt_0_compat; lra|lra]).
  assert ((1 - d) * (X - 1) <= d * (2 - X)); [|lra].
  rewrite E2', E1'. replace ((1 - d) * (exp c1 * d * ln 2)) with (exp c1 * (d * (1 - d) * ln 2)) by ring.
  replace (d * (exp c2 * (1 - d) * ln 2)) with (exp c2 * (d * (1 - d) * ln 2)) by ring. apply Rmult_le_compat_r; lra.
Qed.

(** log2 (7/2) stays below 2. *)
Lemma log2R_small m : 0 <= m <= 5 / 2 -> log2R (1 + m) <= 15 / 8.
Proof.
  intros H. assert (log2R (1 + m) + / 8 <= 2); [|lra].
  assert (E : log2R (Rpower 2 (/ 8)) = / 8) by (unfold log2R, Rpower; rewrite ln_exp; field; pose proof ln2_pos; lra).
  assert (P : 0 < Rpower 2 (/ 8)) by apply exp_pos.
  rewrite <- E, <- log2R_mul by lra. apply Rle_trans with (log2R (bpow radix2 2)); [|rewrite log2R_bpow; lra]. change (bpow radix2 2) with 4.
  pose proof (Rpower_chord (/ 8) ltac:(lra)).
  apply log2R_le; [apply Rmult_lt_0_compat; lra|].
  apply Rle_trans with (7 / 2 * (1 + / 8)); [apply Rmult_le_compat; lra|lra].
Qed.

(** An error of log2(1+m)+2^-15 in the logarithm and 2^-20 in exp2. *)
Lemma unlog_error a l y m : 0 < a -> 0 <= m <= 5 / 2 ->
  Rabs (l - log2R a) <= log2R (1 + m) + bpow radix2 (-15) -> Rabs (y - Rpower 2 l) <= Rpower 2 l * bpow radix2 (-20) ->
  0 < y /\ Rabs (y - a) <= a * (m + bpow radix2 (-13)).
Proof.
  intros Ha Hm Hl Hy.
  assert (P15 : bpow radix2 (-15) = / 32768) by reflexivity. assert (P20 : bpow radix2 (-20) = / 1048576) by reflexivity.
  assert (P13 : bpow radix2 (-13) = / 8192) by reflexivity. rewrite P15 in Hl. rewrite P20 in Hy. rewrite P13.
  set (P := Rpower 2 l) in *. assert (HP : 0 < P) by apply exp_pos.
  assert (G : forall x, 0 < x -> Rpower 2 (log2R x + (log2R (1 + m) + / 32768)) <= x * (1 + m) * (1 + / 32768)).
  { intros x Hx. rewrite !Rpower_plus, !Rpower_log2R by lra. rewrite Rmult_assoc. apply Rmult_le_compat_l; [lra|].
    apply Rmult_le_compat_l; [lra|]. apply Rpower_chord. lra. }
  assert (U1 : P <= a * (1 + m) * (1 + / 32768)).
  { eapply Rle_trans; [|apply G; auto]. unfold P. apply Rle_Rpower; [lra|]. apply Rabs_le_inv in Hl. lra. }
  assert (U2 : a <= P * (1 + m) * (1 + / 32768)).
  { rewrite <- (Rpower_log2R a) at 1 by auto. eapply Rle_trans; [|apply G; auto].
    assert (EL : log2R P = l) by (unfold log2R, P, Rpower; rewrite ln_exp; field; pose proof ln2_pos; lra).
    rewrite EL. apply Rle_Rpower; [lra|]. apply Rabs_le_inv in Hl. lra. }
  apply Rabs_le_inv in Hy.
  assert (L1 : m <= 1 -> a * (1 - m) * (1 - / 32768) <= P).
  { intros Hm1. assert (K : (1 - m) * (1 - / 32768) * ((1 + m) * (1 + / 32768)) <= 1).
    { replace ((1 - m) * (1 - / 32768) * ((1 + m) * (1 + / 32768))) with ((1 - m * m) * (1 - / 32768 * / 32768)) by ring.
      assert (0 <= m * m <= 1) by nra. assert (0 <= 1 - / 32768 * / 32768 <= 1) by lra. nra. }
    set (w := (1 - m) * (1 - / 32768)) in *. set (z := (1 + m) * (1 + / 32768)) in *.
    assert (0 <= w) by (unfold w; nra). assert (1 <= z) by (unfold z; nra).
    rewrite Rmult_assoc in U2. fold z in U2. rewrite Rmult_assoc. fold w.
    assert (a * w <= P * z * w) by (apply Rmult_le_compat_r; auto).
    replace (P * z * w) with (P * (w * z)) in H1 by ring. assert (P * (w * z) <= P * 1) by (apply Rmult_le_compat_l; lra). lra. }
  split; [nra|]. apply Rabs_le. split.
  - destruct (Rle_lt_dec m 1) as [Hm1|Hm1]; [specialize (L1 Hm1)|assert (0 < y) by nra; nra].
    assert (a * (1 - m) * (1 - / 32768) * (1 - / 1048576) <= y).
    { apply Rle_trans with (P * (1 - / 1048576)); [apply Rmult_le_compat_r; lra|lra]. }
    assert (0 <= a * (1 - m)) by nra. set (q := a * (1 - m)) in *. assert (q <= a) by (unfold q; nra).
    assert (a * (m + / 8192) = a - q + a * / 8192) by (unfold q; ring). lra.
  - assert (y <= a * (1 + m) * (1 + / 32768) * (1 + / 1048576)).
    { apply Rle_trans with (P * (1 + / 1048576)); [lra|apply Rmult_le_compat_r; lra]. }
    assert (0 <= a * (1 + m)) by nra. set (q := a * (1 + m)) in *. assert (q <= 7 / 2 * a) by (unfold q; nra).
    assert (a * (m + / 8192) = q - a + a * / 8192) by (unfold q; ring). lra.
Qed.

Section B.
Context (A : Arith) (I : ieee A) (L : libm_ok A I) (LL : log_libm_ok A I).
Local Notation vT := (vT A I). Local Notation vD := (vD A I).
Local Notation pT := (pT A I). Local Notation eT := (eT A I).
Local Notation HpT := (HpT A I).

(** The bound in the log domain. *)
Lemma log_eb_val eb e m : vD eb = Fin e -> 0 < e <= m -> m <= 5 / 2 ->
  exists g, vD (log_eb A eb) = Fin g /\ g <= log2R (1 + m) + bpow radix2 (-39) /\ g <= 2.
Proof.
  intros Ee He Hm.
  assert (F1 : generic_format radix2 fexp64 1) by (apply (fmt_IZR 53 1024 eq_refl); lia).
  assert (F2 : generic_format radix2 fexp64 4) by (apply (fmt_IZR 53 1024 eq_refl); lia).
  set (f := round radix2 fexp64 ZnearestE (1 + e)).
  assert (f1 : 1 <= f) by (apply (rnd_ge 53 1024 eq_refl); auto; lra).
  assert (f2 : f <= 4) by (apply (rnd_le_fmt 53 1024 eq_refl); auto; lra).
  assert (Ef : vD (dadd A (dofZ A 1) eb) = Fin f).
  { rewrite v_dadd, (vD_const A I 1), Ee by lia. cbn [xadd rndx]. fold f. apply sat_small. rewrite Rabs_pos_eq by lra.
    apply Rle_lt_trans with (bpow radix2 2); [exact f2|apply bpow_lt; lia]. }
  pose proof (rnd_err 53 1024 eq_refl (1 + e)) as RE. fold fexp64 in RE. fold f in RE. rewrite (Rabs_pos_eq (1 + e)) in RE by lra.
  assert (P40 : 0 < bpow radix2 (-40)) by apply bpow_gt_0.
  assert (P39 : bpow radix2 (-39) = 2 * bpow radix2 (-40)) by (change (-39)%Z with (-40 + 1)%Z; apply bpow_2).
  destruct (lo_log2 A I L _ _ Ef) as (g & Eg & Hg); [lra|]. fold (log2R f) in Hg. exists g. split; [exact Eg|].
  apply Rabs_le_inv in Hg.
  assert (HG : g <= log2R (1 + m) + bpow radix2 (-39)).
  { assert (LF : log2R f <= log2R (1 + m) + bpow radix2 (-40)); [|lra].
    assert (HF : f <= (1 + m) * (1 + bpow radix2 (-51))).
    { assert (bpow radix2 (3 - 1024 - 53) <= bpow radix2 (-53)) by (apply bpow_le; lia). change (bpow radix2 (- (53))) with (bpow radix2 (-53)) in RE.
      assert (bpow radix2 (-51) = 4 * bpow radix2 (-53)) by (change (-51)%Z with (-53 + 1 + 1)%Z; rewrite !bpow_2; ring).
      pose proof (bpow_gt_0 radix2 (-53)) as P53. set (z := bpow radix2 (-53)) in *. apply Rabs_le_inv in RE. rewrite H0. nra. }
    pose proof (bpow_gt_0 radix2 (-51)) as P51.
    eapply Rle_trans; [apply log2R_le; [|exact HF]; lra|]. rewrite log2R_mul by lra. apply Rplus_le_compat_l.
    (* log2 (1 + z) <= 2 z *)
    set (z := bpow radix2 (-51)) in *.
    assert (Q : ln (1 + z) <= z).
    { apply Rlt_le. rewrite <- (ln_exp z) at 2. apply ln_increasing; [lra|]. apply exp_ineq1. lra. }
    assert (H2 : / 2 <= ln 2).
    { destruct (Rle_lt_dec (/ 2) (ln 2)); auto. exfalso. assert (exp (ln 2) < exp (/ 2)) by (apply exp_increasing; auto).
      rewrite exp_ln in H by lra. pose proof exp_le_3. assert (EE : exp 1 = exp (/ 2) * exp (/ 2)) by (rewrite <- exp_plus; f_equal; lra). nra. }
    unfold log2R, Rdiv. apply Rle_trans with (z * 2).
    + apply Rmult_le_compat; try lra; [rewrite <- ln_1; apply Rlt_le, ln_increasing; lra|left; apply Rinv_0_lt_compat; lra|].
      apply Rmult_le_reg_l with (ln 2); [lra|]. rewrite Rinv_r; lra.
    + replace (z * 2) with (bpow radix2 (-51 + 1)) by (rewrite bpow_2; fold z; ring). apply bpow_le. lia. }
  split; [exact HG|]. pose proof (log2R_small m ltac:(lra)).
  assert (bpow radix2 (-39) <= bpow radix2 (-3)) by (apply bpow_le; lia). change (bpow radix2 (-3)) with (/ 8) in *. lra.
Qed.

(** One component in the log domain. *)
Lemma log_component w r2 i j l eb e m id q x :
  try_component A 2 (eps_float A) w r2 i j l (log_eb A eb) = Some (id, Some (Coded A q x)) ->
  vD eb = Fin e -> 0 < e <= m -> m <= 1 ->
  exists c d, vT l = Fin c /\ vT x = Fin d /\ Rabs (d - c) <= log2R (1 + m) + bpow radix2 (-16).
Proof.
  intros H Ee He Hm. destruct (log_eb_val _ _ m Ee He ltac:(lra)) as (g & Eg & Hg & Hg2).
  unfold try_component in H. bind_as H [id' ab] Hq. destruct (0 <? id')%Z eqn:Ei; [|discriminate].
  bind_as H pr Hpr. bind_as H a Ha. apply Some_inj in H. assert (a = Coded A q x) by congruence. assert (id' = id) by congruence. subst a id'. clear H.
  change 2%Z with (2 ^ 1)%Z in Hq.
  destruct (quantize_ieee A I L 1 23 (eps_float A) _ g id ab ltac:(lia) ltac:(lia) (v_epsf A I) Hq ltac:(lia) Eg) as (K1 & K2 & K3 & K4).
  { apply Rle_trans with (bpow radix2 1 * bpow radix2 23); [apply Rmult_le_compat_r; [apply bpow_ge_0|exact Hg2]|].
    rewrite <- bpow_plus. apply bpow_le. lia. }
  destruct (quantise_bound A I _ _ _ _ _ _ Ha K3 (bpow_gt_0 _ _)) as (c & d & Ec & Ed & Hb).
  { pose proof (pT_ok A I). pose proof (eT_ok A I). apply (fmt_bpow pT eT HpT). pose proof (HeT A I) as X. unfold Prec_lt_emax in X. lia. }
  exists c, d. split; auto. split; auto.
  assert (P16 : bpow radix2 (-16) = / 65536) by reflexivity. assert (P39 : bpow radix2 (-39) = / 549755813888) by reflexivity.
  assert (P40 : bpow radix2 (-40) = / 1099511627776) by reflexivity. rewrite P39 in Hg. rewrite P40 in K4. rewrite P16. nra.
Qed.

(** Zero, or magnitude between 2^-97 and 2^B. *)
Definition usual (B : Z) (x : T A) : Prop := exists r, vT x = Fin r /\ (r = 0 \/ bpow radix2 (-97) <= Rabs r) /\ Rabs r <= bpow radix2 B.

Lemma log_value_ok B x r : usual B x -> (B <= 100)%Z -> vT x = Fin r -> r <> 0 ->
  exists l, vT (log_value A x) = Fin l /\ Rabs (l - log2R (Rabs r)) <= bpow radix2 (-16).
Proof.
  intros (r' & Er' & Hr & Hb) HB Er N. rewrite Er in Er'. injection Er' as <-. destruct Hr as [|Hr]; [contradiction|].
  assert (R : bpow radix2 (-100) <= Rabs r <= bpow radix2 100).
  { split; [eapply Rle_trans; [|exact Hr]|eapply Rle_trans; [exact Hb|]]; apply bpow_le; lia. }
  unfold log_value. rewrite (v_teq A I), (v_tlt A I), vT_0, Er.
  rewrite (proj2 (xeq_fin_false r 0)) by auto. destruct (xlt (Fin 0) (Fin r)) eqn:Lt.
  - apply xlt_fin in Lt. rewrite (Rabs_pos_eq r) in * by lra. apply (ll_log2f A I LL); auto.
  - apply xlt_fin_false in Lt. apply (ll_log2f A I LL); [|exact R]. rewrite v_tneg, Er. cbn [xneg]. f_equal. rewrite Rabs_left1; lra.
Qed.

(** A reconstructed component. *)
Definition rel_close (m : R) (x y : T A) : Prop :=
  exists a b, vT x = Fin a /\ vT y = Fin b /\ 0 < a * b /\ Rabs (b - a) <= Rabs a * (m + bpow radix2 (-13)).
(** Its logarithm. *)
Definition log_big (x l : T A) : Prop := forall r, vT x = Fin r -> r <> 0 -> exists d, vT l = Fin d /\ -99 <= d.

Lemma unlog_ok B m w r2 i j x l eb e id q y : usual B x -> (B <= 100)%Z -> teq A x (t0 A) = false -> l = log_value A x ->
  try_component A 2 (eps_float A) w r2 i j l (log_eb A eb) = Some (id, Some (Coded A q y)) ->
  vD eb = Fin e -> 0 < e <= m -> m <= 1 -> rel_close m x (unlog A x y) /\ log_big x y.
Proof.
  intros HU HB Zx -> H Ee He Hm. pose proof HU as (r & Er & Hr & Hb).
  rewrite (v_teq A I), vT_0, Er in Zx. apply xeq_fin_false in Zx. destruct Hr as [|Hr]; [contradiction|].
  destruct (log_value_ok B x r HU HB Er Zx) as (c & Ec & Hc).
  destruct (log_component _ _ _ _ _ _ _ _ _ _ _ H Ee He Hm) as (c' & d & Ec' & Ed & Hd).
  rewrite Ec in Ec'. injection Ec' as <-.
  assert (P15 : bpow radix2 (-15) = 2 * bpow radix2 (-16)) by (change (-15)%Z with (-16 + 1)%Z; apply bpow_2).
  assert (P16 : bpow radix2 (-16) = / 65536) by reflexivity.
  assert (Hl : Rabs (d - log2R (Rabs r)) <= log2R (1 + m) + bpow radix2 (-15)).
  { replace (d - log2R (Rabs r)) with ((d - c) + (c - log2R (Rabs r))) by ring. eapply Rle_trans; [apply Rabs_triang|]. lra. }
  assert (Pr : 0 < Rabs r) by (apply Rabs_pos_lt; auto).
  assert (Lm : 0 <= log2R (1 + m) <= 1).
  { split; [rewrite <- (log2R_bpow 0); apply log2R_le; [apply bpow_gt_0|change (bpow radix2 0) with 1; lra]|].
    apply Rle_trans with (log2R (bpow radix2 1)); [|rewrite log2R_bpow; lra]. apply log2R_le; [lra|]. change (bpow radix2 1) with 2. lra. }
  assert (Ll : -97 <= log2R (Rabs r) <= 100).
  { split.
    - change (-97) with (IZR (-97)). rewrite <- (log2R_bpow (-97)). apply log2R_le; [apply bpow_gt_0|auto].
    - change 100 with (IZR 100). rewrite <- (log2R_bpow 100). apply log2R_le; auto. eapply Rle_trans; [exact Hb|]. apply bpow_le. lia. }
  assert (Dr : -99 <= d <= 102) by (rewrite P15, P16 in Hl; apply Rabs_le_inv in Hl; lra).
  split; [|intros r' Er' _; exists d; split; [auto|lra]].
  destruct (ll_exp2 A I LL y d Ed) as (z & Ez & Hz); [lra|].
  destruct (unlog_error _ _ _ m Pr ltac:(lra) Hl Hz) as [Pz Kz].
  unfold rel_close, unlog. rewrite (v_tlt A I), vT_0, Er. exists r.
  destruct (xlt (Fin 0) (Fin r)) eqn:Lt.
  - apply xlt_fin in Lt. exists z. assert (Ar : Rabs r = r) by (apply Rabs_pos_eq; lra). rewrite Ar in Kz |- *. repeat split; auto. nra.
  - apply xlt_fin_false in Lt. exists (- z). rewrite v_tneg, Ez. assert (Ar : Rabs r = - r) by (apply Rabs_left1; lra). rewrite Ar in Kz |- *. repeat split; auto.
    + assert (r < 0) by lra. nra.
    + rewrite <- Rabs_Ropp. replace (- (- z - r)) with (z - - r) by ring. exact Kz.
Qed.

(** Values of the working arrays. *)
Definition log_good (m : R) (x y l : T A) : Prop := (y = x \/ rel_close m x y) /\ log_big x l.

Lemma rel_close_bnd B m x y : 0 <= m <= 1 -> usual B x -> rel_close m x y -> bnd A I (B + 2) y.
Proof.
  intros Hm (r & Er & _ & Hb) (a & b & Ea & Eb & _ & H). rewrite Er in Ea. injection Ea as <-.
  exists b. split; auto. assert (P13 : bpow radix2 (-13) = / 8192) by reflexivity. rewrite P13 in H.
  replace (B + 2)%Z with (B + 1 + 1)%Z by lia. rewrite !bpow_2. pose proof (Rabs_pos r).
  replace b with (b - r + r) by ring. eapply Rle_trans; [apply Rabs_triang|]. nra.
Qed.

Section Field.
Context (Hp24 : (24 <= pT)%Z) (B : Z) (HB : (0 <= B <= 100)%Z) (HE : (2 * B + 14 < eT)%Z).
Context (max_eb : D A) (m : R) (Em : vD max_eb = Fin m) (Hm : 0 <= m <= 1).

Definition log_err (U V : list (T A)) (k : nat) (s : log_state A) : Prop :=
  let '(U', V', LU, LV) := s in
  untouched k U' U /\ untouched k V' V /\
  untouched k LU (map (log_value A) U) /\ untouched k LV (map (log_value A) V) /\
  (forall n u y, aget U n = Some u -> aget LU n = Some y -> log_big u y) /\
  (forall n u y, aget V n = Some u -> aget LV n = Some y -> log_big u y) /\
  (forall n u v u' v', aget U n = Some u -> aget V n = Some v -> aget U' n = Some u' -> aget V' n = Some v' ->
     (u' = u /\ v' = v) \/ (rel_close m u u' /\ rel_close m v v')).

Lemma log_required U V r1 r2 i j u v eb :
  all_bnd A I (B + 2) U -> all_bnd A I (B + 2) V -> usual B u -> usual B v ->
  aget U (i * r2 + j) = Some u -> aget V (i * r2 + j) = Some v ->
  teq A u (t0 A) = false -> teq A v (t0 A) = false ->
  required_eb_rel A max_eb U V r1 r2 i j = Some eb -> dlt A (dofZ A 0) eb = true -> exists e, vD eb = Fin e /\ 0 < e <= m.
Proof.
  intros BU BV Uu Uv Gu Gv Zu Zv Er Hp. rewrite (v_dlt A I), vD_0 in Hp.
  assert (Hat : atmost m (vD eb)); [|exact (atmost_pos _ _ Hat Hp)].
  assert (NT : forall x, usual B x -> IEEERel2D.not_tiny A I x).
  { intros x (r & Er' & Hr & _) r' E' N. rewrite Er' in E'. injection E' as <-. destruct Hr as [|Hr]; [contradiction|].
    eapply Rle_trans; [|exact Hr]. apply bpow_le. lia. }
  pose proof Uu as (ru & Eu & _). pose proof Uv as (rv & Ev & _).
  rewrite (v_teq A I), vT_0, Eu in Zu. apply xeq_fin_false in Zu. rewrite (v_teq A I), vT_0, Ev in Zv. apply xeq_fin_false in Zv.
  unfold required_eb_rel in Er. eapply req_loop_atmost in Er; eauto.
  - intros k w Hk Ew. pose proof Ew as Ew'. apply (tri_bnd A I (B + 2)) in Ew; auto. destruct w as [[[[[u0 u1] u2] v0] v1] v2].
    destruct Ew as (?&?&?&?&?&?).
    assert (u2 = u /\ v2 = v) as [-> ->].
    { unfold tri_values in Ew'. bind_as Ew' y0 X0. bind_as Ew' y1 X1. bind_as Ew' y2 X2. bind_as Ew' y3 X3. bind_as Ew' y4 X4. bind_as Ew' y5 X5.
      apply Some_inj in Ew'. inversion Ew'; subst. rewrite Gu in X2. rewrite Gv in X5. split; congruence. }
    eapply (derive_rel_notnan A I (B + 2)); eauto; try lia. cbn [six In] in Hk. lia.
  - right. exists m. split; auto. lra.
Qed.

(** Any encoder whose steps are outcomes for a bound that does not exceed [max_eb] on values up to 2^(B+2). *)
Section Steps.
Context (req : list (T A) -> list (T A) -> Z -> Z -> option (D A)) (r2 : Z) (step : log_state A -> Z * Z -> option (log_state A * code (T A))).
Hypothesis Hstep : forall U V LU LV i j U' V' LU' LV' c,
  step (U, V, LU, LV) (i, j) = Some (U', V', LU', LV', c) -> log_outcome A req r2 U V LU LV i j U' V' LU' LV' c.
Hypothesis Hreq : forall U V i j u v eb, all_bnd A I (B + 2) U -> all_bnd A I (B + 2) V -> usual B u -> usual B v ->
  aget U (i * r2 + j)%Z = Some u -> aget V (i * r2 + j)%Z = Some v -> teq A u (t0 A) = false -> teq A v (t0 A) = false ->
  req U V i j = Some eb -> dlt A (dofZ A 0) eb = true -> exists e, vD eb = Fin e /\ 0 < e <= m.

Lemma gen_err_step U V k s s' c i j :
  (forall n x, aget U n = Some x -> usual B x) -> (forall n x, aget V n = Some x -> usual B x) -> length U = length V ->
  (i * r2 + j = Z.of_nat k)%Z -> log_err U V k s -> step s (i, j) = Some (s', c) -> log_err U V (S k) s'.
Proof.
  intros MU MV LUV Hp HI H. destruct s as [[[U1 V1] LU] LV]. destruct s' as [[[U2 V2] LU2] LV2].
  apply Hstep in H. destruct HI as (TU & TV & TLU & TLV & KU & KV & KC).
  destruct H as [u v Eu Ev|u v lu lv eb id q0 q1 x0 x1 U2 V2 LU2 LV2 Eu Ev El Em' Er Ep Zu Zv C0 C1 X1 X2 X3 X4].
  - repeat (split; [first [apply untouched_keep; assumption|assumption]|]). assumption.
  - assert (AU : aget U (Z.of_nat k) = Some u) by (rewrite <- (proj2 TU) by lia; rewrite <- Hp; auto).
    assert (AV : aget V (Z.of_nat k) = Some v) by (rewrite <- (proj2 TV) by lia; rewrite <- Hp; auto).
    assert (Xlu : lu = log_value A u).
    { rewrite Hp in El. rewrite (proj2 TLU) in El by lia. rewrite aget_map, AU in El. cbn [option_map] in El. congruence. }
    assert (Xlv : lv = log_value A v).
    { rewrite Hp in Em'. rewrite (proj2 TLV) in Em' by lia. rewrite aget_map, AV in Em'. cbn [option_map] in Em'. congruence. }
    assert (UB : forall x, usual B x -> bnd A I (B + 2) x).
    { intros x (r & Er' & _ & Hb). exists r. split; auto. eapply Rle_trans; [exact Hb|]. apply bpow_le. lia. }
    assert (BU : all_bnd A I (B + 2) U1).
    { intros n y En. destruct (aget_len U1 U n y (proj1 TU) En) as [x Ex].
      destruct (aget_len U V n x LUV Ex) as [x' Ex'].
      destruct (aget_len V V1 n x' (eq_sym (proj1 TV)) Ex') as [y' Ey'].
      destruct (KC _ _ _ _ _ Ex Ex' En Ey') as [[-> _]|[G _]]; [exact (UB _ (MU _ _ Ex))|exact (rel_close_bnd B m _ _ Hm (MU _ _ Ex) G)]. }
    assert (BV : all_bnd A I (B + 2) V1).
    { intros n y En. destruct (aget_len V1 V n y (proj1 TV) En) as [x Ex].
      destruct (aget_len V U n x (eq_sym LUV) Ex) as [x' Ex'].
      destruct (aget_len U U1 n x' (eq_sym (proj1 TU)) Ex') as [y' Ey'].
      destruct (KC _ _ _ _ _ Ex' Ex Ey' En) as [[_ ->]|[_ G]]; [exact (UB _ (MV _ _ Ex))|exact (rel_close_bnd B m _ _ Hm (MV _ _ Ex) G)]. }
    destruct (Hreq _ _ _ _ _ _ _ BU BV (MU _ _ AU) (MV _ _ AV) Eu Ev Zu Zv Er Ep) as (e & Ee & He).
    destruct (unlog_ok B m _ _ _ _ _ _ _ _ _ _ _ (MU _ _ AU) (proj2 HB) Zu Xlu C0 Ee He (proj2 Hm)) as [R0 G0].
    destruct (unlog_ok B m _ _ _ _ _ _ _ _ _ _ _ (MV _ _ AV) (proj2 HB) Zv Xlv C1 Ee He (proj2 Hm)) as [R1 G1].
    rewrite Hp in X1, X2, X3, X4.
    pose proof (aset_get _ _ _ _ X1) as S1. pose proof (aset_get _ _ _ _ X2) as S2.
    pose proof (aset_get _ _ _ _ X3) as S3. pose proof (aset_get _ _ _ _ X4) as S4.
    repeat (split; [eapply untouched_set; eassumption|]).
    split; [|split].
    + intros n x y Ex Ey. rewrite S1 in Ey. destruct (Z.eqb_spec n (Z.of_nat k)) as [->|Hne]; [|eauto]. replace x with u by congruence. replace y with x0 by congruence. exact G0.
    + intros n x y Ex Ey. rewrite S2 in Ey. destruct (Z.eqb_spec n (Z.of_nat k)) as [->|Hne]; [|eauto]. replace x with v by congruence. replace y with x1 by congruence. exact G1.
    + intros n x x' y y' Ex Ex' Ey Ey'. rewrite S3 in Ey. rewrite S4 in Ey'. destruct (Z.eqb_spec n (Z.of_nat k)) as [->|Hne]; [|eauto].
      right. replace x with u by congruence. replace x' with v by congruence.
      replace y with (unlog A u x0) by congruence. replace y' with (unlog A v x1) by congruence. auto.
Qed.

Theorem gen_bound r1 U V U' V' LU LV c :
  (0 <= r1)%Z -> (0 < r2)%Z -> Z.of_nat (length U) = (r1 * r2)%Z -> Z.of_nat (length V) = (r1 * r2)%Z ->
  (forall n x, aget U n = Some x -> usual B x) -> (forall n x, aget V n = Some x -> usual B x) ->
  log_scan A r2 step r1 U V = Some (U', V', LU, LV, c) ->
  log_finals A (c_eb c) U LU = U' /\ log_finals A (c_eb c) V LV = V' /\
  forall n u v u' v', aget U n = Some u -> aget V n = Some v -> aget U' n = Some u' -> aget V' n = Some v' ->
     (u' = u /\ v' = v) \/ (rel_close m u u' /\ rel_close m v v').
Proof.
  intros H1 H2 LenU LenV MU MV H. pose proof H as H'. unfold log_scan in H.
  pose proof (fun a b => scan_inv step (log_err U V) (scan2 r1 r2) 0%nat _ _ _ a b H) as G.
  rewrite scan2_length in G by auto. destruct G as (_ & _ & _ & _ & KU & KV & KC).
  - intros k [i j] s0 s1 c1 Hk HI HS. destruct (scan2_nth _ _ _ _ H1 H2 Hk) as (Hi & Hj & Hp). cbn [fst snd] in *.
    eapply gen_err_step; eauto. lia.
  - assert (Lv : forall W, (forall n x, aget W n = Some x -> usual B x) ->
      forall n u y, aget W n = Some u -> aget (map (log_value A) W) n = Some y -> log_big u y).
    { intros W MW n u y Eu Ey r Er N. rewrite aget_map, Eu in Ey. cbn [option_map] in Ey. apply Some_inj in Ey. subst y.
      pose proof (MW _ _ Eu) as HU. destruct (log_value_ok B u r HU (proj2 HB) Er N) as (l & El & Hl). exists l. split; auto.
      destruct HU as (r' & Er' & Hr & _). rewrite Er in Er'. injection Er' as <-. destruct Hr as [|Hr]; [contradiction|].
      assert (-97 <= log2R (Rabs r)).
      { change (-97) with (IZR (-97)). rewrite <- (log2R_bpow (-97)). apply log2R_le; [apply bpow_gt_0|auto]. }
      assert (P16 : bpow radix2 (-16) = / 65536) by reflexivity. rewrite P16 in Hl. apply Rabs_le_inv in Hl. lra. }
    cbn [log_err]. repeat (split; [first [apply untouched_refl|apply Lv; assumption]|]).
    intros n u v u' v' E1 E2 E3 E4. left. split; congruence.
  - assert (NB : forall x l, usual B x -> log_big x l -> teq A x (t0 A) = false -> tlt A l (tofZ A (-99)) = false).
    { intros x l (r & Er & _) G Z. rewrite (v_teq A I), vT_0, Er in Z. apply xeq_fin_false in Z. destruct (G r Er Z) as (d & Ed & Hd).
      rewrite (v_tlt A I), v_tofZ, Ed. rewrite rndx_fin.
      - apply xlt_fin_false. exact Hd.
      - pose proof (eT_ok A I). assert (2 ^ 24 <= 2 ^ pT)%Z by (apply Z.pow_le_mono_r; lia). apply (fmt_IZR pT eT HpT); lia.
      - rewrite <- abs_IZR. apply Rlt_le_trans with (bpow radix2 7); [apply IZR_lt; reflexivity|]. apply bpow_le. pose proof (eT_ok A I). lia. }
    destruct (inv_finals_working A r1 r2 U V U' V' LU LV c H1 H2 LenU LenV (gen_inv_final A _ r2 step Hstep r1 U V _ c H1 H2 H')) as [F1 F2]; eauto.
Qed.
End Steps.

Theorem log_bound r1 r2 U V U' V' LU LV c :
  (0 <= r1)%Z -> (0 < r2)%Z -> Z.of_nat (length U) = (r1 * r2)%Z -> Z.of_nat (length V) = (r1 * r2)%Z ->
  (forall n x, aget U n = Some x -> usual B x) -> (forall n x, aget V n = Some x -> usual B x) ->
  enc_log A max_eb r1 r2 U V = Some (U', V', LU, LV, c) ->
  log_finals A (c_eb c) U LU = U' /\ log_finals A (c_eb c) V LV = V' /\
  forall n u v u' v', aget U n = Some u -> aget V n = Some v -> aget U' n = Some u' -> aget V' n = Some v' ->
     (u' = u /\ v' = v) \/ (rel_close m u u' /\ rel_close m v v').
Proof.
  exact (gen_bound (fun U V i j => required_eb_rel A max_eb U V r1 r2 i j) r2 (log_point A max_eb r1 r2) (log_point_inv A max_eb r1 r2)
    (fun U V i j => log_required U V r1 r2 i j) r1 U V U' V' LU LV c).
Qed.
End Field.
End B.
