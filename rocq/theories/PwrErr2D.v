(** Point-wise relative compression in IEEE arithmetic: range of the logarithms, thresholds, and what a recovered logarithm
    decodes to.  Nothing of /repo is modelled here. *)
From Coq Require Import Reals Lra Lia ZArith List Bool.
From Coq Require Import ZifyBool ZifyNat.
From Flocq Require Import Core.Core IEEE754.BinarySingleNaN IEEE754.Binary IEEE754.Bits.
From Verif Require Import Base Arith Exact IEEE IEEELaws IEEEQuant IEEE2D RelaxErr2D Log2D LogCells2D LogErr2D LogErr3D OffLogApi2D LinQuant Pwr2D.
Import ListNotations.
Local Open Scope R_scope.

Section E.
Context (A : Arith) (I : ieee A) (L : libm_ok A I) (LL : log_libm_ok A I) (Hp : (24 <= pT A I)%Z) (He : (128 <= eT A I)%Z).
Local Notation vT := (vT A I). Local Notation vD := (vD A I).
Local Notation pT := (pT A I). Local Notation eT := (eT A I).
Local Notation HpT := (HpT A I).
Local Notation rT := (round radix2 (SpecFloat.fexp pT eT) ZnearestE).
Local Notation rD := (round radix2 fexp64 ZnearestE).

Lemma fmtT_128 : generic_format radix2 (SpecFloat.fexp pT eT) 128.
Proof. change 128 with (bpow radix2 7). apply (fmt_bpow pT eT HpT). pose proof (pT_ok A I). lia. Qed.
Lemma fmtD_128 : generic_format radix2 fexp64 128.
Proof. apply (fmt_IZR 53 1024 eq_refl); lia. Qed.

Lemma rndxT v : Rabs v <= 128 -> rndx pT eT (Fin v) = Fin (rT v) /\ Rabs (rT v) <= 128 /\ Rabs (rT v - v) <= bpow radix2 (-24) * Rabs v + bpow radix2 (-100).
Proof.
  intros H. pose proof (pT_ok A I) as P. assert (B : Rabs (rT v) <= 128).
  { apply (rnd_bound pT eT HpT); [exact fmtT_128|exact H]. }
  split; [|split; [exact B|]].
  - cbn [rndx]. apply sat_small. eapply Rle_lt_trans; [exact B|]. change 128 with (bpow radix2 7). apply bpow_lt. lia.
  - pose proof (rnd_err pT eT HpT v) as E. eapply Rle_trans; [exact E|]. apply Rplus_le_compat.
    + apply Rmult_le_compat_r; [apply Rabs_pos|]. apply bpow_le. lia.
    + apply bpow_le. lia.
Qed.
Lemma rndxD v : Rabs v <= 128 -> rndx 53 1024 (Fin v) = Fin (rD v) /\ Rabs (rD v) <= 128 /\ Rabs (rD v - v) <= bpow radix2 (-53) * Rabs v + bpow radix2 (-100).
Proof.
  intros H. assert (B : Rabs (rD v) <= 128).
  { apply (rnd_bound 53 1024 eq_refl); [exact fmtD_128|exact H]. }
  split; [|split; [exact B|]].
  - cbn [rndx]. apply sat_small. eapply Rle_lt_trans; [exact B|]. change 128 with (bpow radix2 7). apply bpow_lt. lia.
  - pose proof (rnd_err 53 1024 eq_refl v) as E. eapply Rle_trans; [exact E|]. apply Rplus_le_compat.
    + apply Rmult_le_compat_r; [apply Rabs_pos|]. apply bpow_le. lia.
    + apply bpow_le. lia.
Qed.

Lemma fmtT_D x r : vT x = Fin r -> generic_format radix2 fexp64 r.
Proof. intros H. apply (vD_fmt A I (t2d A x)). rewrite v_t2d. exact H. Qed.

(** ** One value *)
Lemma magnitude_val x r : vT x = Fin r -> vT (magnitude A x) = Fin (Rabs r).
Proof.
  intros H. unfold magnitude. rewrite (v_tlt A I), H, vT_0. destruct (xlt (Fin r) (Fin 0)) eqn:E.
  - apply xlt_fin in E. rewrite v_tneg, H. cbn [xneg]. rewrite Rabs_left; auto.
  - apply xlt_fin_false in E. rewrite H. f_equal. symmetry. apply Rabs_pos_eq. lra.
Qed.
Lemma magnitude_pos x r : vT x = Fin r -> tlt A (t0 A) (magnitude A x) = negb (teq A x (t0 A)).
Proof.
  intros H. rewrite (v_tlt A I), vT_0, (magnitude_val x r H), (v_teq A I), H, vT_0. destruct (Req_dec r 0) as [->|N].
  - rewrite (proj2 (xeq_fin 0 0) eq_refl), Rabs_R0. apply xlt_fin_false. lra.
  - rewrite (proj2 (xeq_fin_false r 0) N). apply xlt_fin. apply Rabs_pos_lt. exact N.
Qed.

(** log2f of the magnitude of a non-zero value. *)
Definition log_of (r l : R) : Prop := Rabs (l - log2R (Rabs r)) <= bpow radix2 (-16) /\ -98 <= l <= 101.
Lemma log2f_val y r : vT y = Fin (Rabs r) -> bpow radix2 (-97) <= Rabs r <= bpow radix2 100 -> exists l, vT (tlog2f A y) = Fin l /\ log_of r l.
Proof.
  intros H [H1 H2]. assert (P : 0 < Rabs r) by (eapply Rlt_le_trans; [apply bpow_gt_0|exact H1]).
  destruct (ll_log2f A I LL y (Rabs r) H) as (l & El & Hl).
  { split; [eapply Rle_trans; [|exact H1]; apply bpow_le; lia|exact H2]. }
  exists l. split; [exact El|]. split; [exact Hl|].
  assert (P16 : bpow radix2 (-16) = / 65536) by reflexivity. rewrite P16 in Hl. apply Rabs_le_inv in Hl.
  pose proof (log2R_le (bpow radix2 (-97)) (Rabs r) (bpow_gt_0 _ _) H1) as G1. rewrite log2R_bpow in G1.
  pose proof (log2R_le (Rabs r) (bpow radix2 100) P H2) as G2. rewrite log2R_bpow in G2. lra.
Qed.
Lemma pwr_log_val x r : usual A I 100 x -> vT x = Fin r -> r <> 0 -> exists l, vT (pwr_log A x) = Fin l /\ log_of r l.
Proof.
  intros (r' & Er & Hr & Hb) H N. rewrite H in Er. injection Er as <-. destruct Hr as [|Hr]; [contradiction|].
  unfold pwr_log. rewrite (magnitude_pos x r H), (v_teq A I), H, vT_0, (proj2 (xeq_fin_false r 0) N). cbn [negb].
  apply log2f_val; [apply magnitude_val; exact H|split; auto].
Qed.

(** ** The range of the logarithms *)
Lemma t_min_val x y a b : vT x = Fin a -> vT y = Fin b -> exists c, vT (t_min A x y) = Fin c /\ c <= a /\ c <= b /\ (t_min A x y = x \/ t_min A x y = y).
Proof.
  intros Ha Hb. unfold t_min. rewrite (v_tlt A I), Ha, Hb. destruct (xlt (Fin a) (Fin b)) eqn:E.
  - apply xlt_fin in E. exists a. repeat split; auto; lra.
  - apply xlt_fin_false in E. exists b. repeat split; auto; lra.
Qed.
Lemma t_max_val x y a b : vT x = Fin a -> vT y = Fin b -> exists c, vT (t_max A x y) = Fin c /\ a <= c /\ b <= c /\ (t_max A x y = x \/ t_max A x y = y).
Proof.
  intros Ha Hb. unfold t_max. rewrite (v_tlt A I), Ha, Hb. destruct (xlt (Fin b) (Fin a)) eqn:E.
  - apply xlt_fin in E. exists a. repeat split; auto; lra.
  - apply xlt_fin_false in E. exists b. repeat split; auto; lra.
Qed.
Lemma fold_min : forall l x a, vT x = Fin a -> (forall y, In y l -> exists b, vT y = Fin b) ->
  exists c, vT (fold_left (t_min A) l x) = Fin c /\ In (fold_left (t_min A) l x) (x :: l) /\
    forall y b, In y (x :: l) -> vT y = Fin b -> c <= b.
Proof.
  induction l as [|z l IH]; intros x a Ha HF; cbn [fold_left].
  - exists a. split; [exact Ha|]. split; [left; reflexivity|]. intros y b [<-|[]] H. rewrite Ha in H. injection H as <-. lra.
  - destruct (HF z (or_introl eq_refl)) as [d Hd]. destruct (t_min_val x z a d Ha Hd) as (c & Ec & H1 & H2 & H3).
    destruct (IH (t_min A x z) c Ec) as (f & Ef & HI & HB); [intros y Hy; apply HF; right; exact Hy|].
    exists f. split; [exact Ef|]. split.
    + destruct HI as [HI|HI]; [rewrite <- HI; destruct H3 as [->| ->]; [left|right; left]; reflexivity|right; right; exact HI].
    + intros y b [<-|[<-|Hy]] H.
      * rewrite Ha in H. injection H as <-. pose proof (HB _ _ (or_introl eq_refl) Ec). lra.
      * rewrite Hd in H. injection H as <-. pose proof (HB _ _ (or_introl eq_refl) Ec). lra.
      * apply (HB y b); [right; exact Hy|exact H].
Qed.
Lemma fold_max : forall l x a, vT x = Fin a -> (forall y, In y l -> exists b, vT y = Fin b) ->
  exists c, vT (fold_left (t_max A) l x) = Fin c /\ In (fold_left (t_max A) l x) (x :: l) /\
    forall y b, In y (x :: l) -> vT y = Fin b -> b <= c.
Proof.
  induction l as [|z l IH]; intros x a Ha HF; cbn [fold_left].
  - exists a. split; [exact Ha|]. split; [left; reflexivity|]. intros y b [<-|[]] H. rewrite Ha in H. injection H as <-. lra.
  - destruct (HF z (or_introl eq_refl)) as [d Hd]. destruct (t_max_val x z a d Ha Hd) as (c & Ec & H1 & H2 & H3).
    destruct (IH (t_max A x z) c Ec) as (f & Ef & HI & HB); [intros y Hy; apply HF; right; exact Hy|].
    exists f. split; [exact Ef|]. split.
    + destruct HI as [HI|HI]; [rewrite <- HI; destruct H3 as [->| ->]; [left|right; left]; reflexivity|right; right; exact HI].
    + intros y b [<-|[<-|Hy]] H.
      * rewrite Ha in H. injection H as <-. pose proof (HB _ _ (or_introl eq_refl) Ec). lra.
      * rewrite Hd in H. injection H as <-. pose proof (HB _ _ (or_introl eq_refl) Ec). lra.
      * apply (HB y b); [right; exact Hy|exact H].
Qed.

Lemma abs_log_val x r : usual A I 100 x -> vT x = Fin r -> r <> 0 -> exists m, vT (tabs A (tlog2f A (tabs A x))) = Fin m /\ 0 <= m <= 101.
Proof.
  intros (r' & Er & Hr & Hb) H N. rewrite H in Er. injection Er as <-. destruct Hr as [|Hr]; [contradiction|].
  destruct (log2f_val (tabs A x) r) as (l & El & _ & Hl); [rewrite v_tabs, H; reflexivity|split; auto|].
  exists (Rabs l). rewrite v_tabs, El. split; [reflexivity|]. split; [apply Rabs_pos|]. apply Rabs_le. lra.
Qed.

Lemma log_range_fold : forall data mx mn a b, (forall x, In x data -> usual A I 100 x) -> vT mx = Fin a -> vT mn = Fin b -> 0 <= a <= 101 -> -98 <= b <= 101 ->
  exists mx' mn' a' b', fold_left (log_range A) data (mx, mn) = (mx', mn') /\ vT mx' = Fin a' /\ vT mn' = Fin b' /\ 0 <= a' <= 101 /\ -98 <= b' <= b /\
    forall x r l, In x data -> vT x = Fin r -> r <> 0 -> vT (pwr_log A x) = Fin l -> b' <= l.
Proof.
  induction data as [|x data IH]; intros mx mn a b HU Ha Hb Ra Rb; cbn [fold_left].
  - exists mx, mn, a, b. split; [reflexivity|]. split; [exact Ha|]. split; [exact Hb|]. split; [exact Ra|]. split; [lra|]. intros x r l [].
  - destruct (HU x (or_introl eq_refl)) as (r & Er & Hr & Hbd).
    assert (ST : exists mx1 mn1 a1 b1, log_range A (mx, mn) x = (mx1, mn1) /\ vT mx1 = Fin a1 /\ vT mn1 = Fin b1 /\ 0 <= a1 <= 101 /\ -98 <= b1 <= b /\
      forall l, r <> 0 -> vT (pwr_log A x) = Fin l -> b1 <= l).
    { unfold log_range. rewrite (magnitude_pos x r Er), (v_teq A I), Er, vT_0. destruct (Req_dec r 0) as [->|N].
      - rewrite (proj2 (xeq_fin 0 0) eq_refl). cbn [negb]. exists mx, mn, a, b. split; [reflexivity|]. split; [exact Ha|]. split; [exact Hb|]. split; [exact Ra|]. split; [lra|]. intros l N. contradiction.
      - rewrite (proj2 (xeq_fin_false r 0) N). cbn [negb]. destruct (pwr_log_val x r (HU x (or_introl eq_refl)) Er N) as (l & El & _ & Hl).
        rewrite !(v_tlt A I), Ha, Hb, El.
        eexists _, _, (if xlt (Fin a) (Fin l) then l else a), (if xlt (Fin l) (Fin b) then l else b). split; [reflexivity|].
        split; [destruct (xlt (Fin a) (Fin l)); auto|]. split; [destruct (xlt (Fin l) (Fin b)); auto|].
        split; [destruct (xlt (Fin a) (Fin l)) eqn:E; [apply xlt_fin in E; lra|lra]|].
        split; [destruct (xlt (Fin l) (Fin b)) eqn:E; [apply xlt_fin in E; lra|lra]|].
        intros l' _ E'. injection E' as <-. destruct (xlt (Fin l) (Fin b)) eqn:E; [lra|apply xlt_fin_false in E; lra]. }
    destruct ST as (mx1 & mn1 & a1 & b1 & E1 & Va & Vb & Ra1 & Rb1 & HL1). rewrite E1.
    destruct (IH mx1 mn1 a1 b1) as (mx2 & mn2 & a2 & b2 & E2 & Va2 & Vb2 & Ra2 & Rb2 & HL2); auto; [intros y Hy; apply HU; right; exact Hy|lra|].
    exists mx2, mn2, a2, b2. split; [exact E2|]. split; [exact Va2|]. split; [exact Vb2|]. split; [exact Ra2|]. split; [lra|].
    intros y s l [<-|Hy] Es N El.
    + rewrite Er in Es. injection Es as <-. pose proof (HL1 l N El). lra.
    + exact (HL2 y s l Hy Es N El).
Qed.

Lemma pwr_range_val data mx mn : (forall x, In x data -> usual A I 100 x) -> (exists x r, In x data /\ vT x = Fin r /\ r <> 0) ->
  pwr_range A data = Some (mx, mn) ->
  exists a b, vT mx = Fin a /\ vT mn = Fin b /\ 0 <= a <= 101 /\ -98 <= b <= 101 /\
    forall x r l, In x data -> vT x = Fin r -> r <> 0 -> vT (pwr_log A x) = Fin l -> b <= l.
Proof.
  intros HU (x0 & r0 & I0 & E0 & N0) H. unfold pwr_range in H. destruct data as [|h t]; [destruct I0|]. cbn [extremes bind] in H.
  assert (HF : forall y, In y (h :: t) -> exists b, vT y = Fin b) by (intros y Hy; destruct (HU y Hy) as (r & Er & _); eauto).
  destruct (HF h (or_introl eq_refl)) as [rh Eh].
  destruct (fold_min t h rh Eh) as (lo & Elo & Ilo & Blo); [intros y Hy; apply HF; right; exact Hy|].
  destruct (fold_max t h rh Eh) as (hi & Ehi & Ihi & Bhi); [intros y Hy; apply HF; right; exact Hy|].
  set (vmin := fold_left (t_min A) t h) in *. set (vmax := fold_left (t_max A) t h) in *.
  pose proof (Blo x0 r0 I0 E0) as K1. pose proof (Bhi x0 r0 I0 E0) as K2.
  assert (HM : exists m, vT (first_max_abs A vmin vmax) = Fin m /\ 0 <= m <= 101).
  { unfold first_max_abs. rewrite !(v_teq A I), Elo, Ehi, vT_0. destruct (Req_dec lo 0) as [Z|NZ].
    - subst lo. rewrite (proj2 (xeq_fin 0 0) eq_refl). apply (abs_log_val vmax hi); auto. lra.
    - rewrite (proj2 (xeq_fin_false lo 0) NZ). destruct (Req_dec hi 0) as [Z|NZ2].
      + subst hi. rewrite (proj2 (xeq_fin 0 0) eq_refl). apply (abs_log_val vmin lo); auto.
      + rewrite (proj2 (xeq_fin_false hi 0) NZ2). destruct (tlt A _ _); [apply (abs_log_val vmin lo)|apply (abs_log_val vmax hi)]; auto. }
  destruct HM as (m & Em & Rm). set (m0 := first_max_abs A vmin vmax) in *.
  destruct (log_range_fold (h :: t) m0 m0 m m) as (mx' & mn' & a & b & EF & Va & Vb & Ra & Rb & HL); auto; [lra|].
  rewrite EF in H. apply Some_inj in H. inversion H; subst mx mn. clear H.
  exists (if xlt (Fin a) (Fin (Rabs b)) then Rabs b else a), b.
  split; [rewrite (v_tlt A I), v_tabs, Va, Vb; cbn [xabs]; destruct (xlt (Fin a) (Fin (Rabs b))); [rewrite v_tabs, Vb; reflexivity|exact Va]|].
  split; [exact Vb|]. split; [destruct (xlt _ _); [|exact Ra]; split; [apply Rabs_pos|apply Rabs_le; lra]|]. split; [lra|]. exact HL.
Qed.

(** ** Bounds and thresholds *)
Lemma t_eps_val : vT (t_eps A) = Fin (bpow radix2 (-23)).
Proof.
  unfold t_eps. rewrite v_d2t, (v_epsf A I). pose proof (pT_ok A I). apply rndx_fin.
  - apply (fmt_bpow pT eT HpT). lia.
  - rewrite Rabs_pos_eq by apply bpow_ge_0. apply bpow_lt. lia.
Qed.
Lemma mul_eps_val x a : vT x = Fin a -> Rabs a <= 101 -> exists d, vD (t2d A (tmul A x (t_eps A))) = Fin d /\ Rabs d <= 101 / 8388608 /\ (0 <= a -> 0 <= d) /\ (a <= 0 -> d <= 0).
Proof.
  intros H Ha. assert (P23 : bpow radix2 (-23) = / 8388608) by reflexivity.
  rewrite v_t2d, v_tmul, H, t_eps_val. cbn [xmul].
  assert (B : Rabs (a * bpow radix2 (-23)) <= 101 / 8388608).
  { rewrite Rabs_mult, (Rabs_pos_eq (bpow _ _)) by apply bpow_ge_0. rewrite P23. unfold Rdiv. apply Rmult_le_compat_r; lra. }
  destruct (rndxT (a * bpow radix2 (-23))) as (E & _ & _); [eapply Rle_trans; [exact B|lra]|].
  exists (rT (a * bpow radix2 (-23))). split; [exact E|]. split.
  - apply (rnd_bound pT eT HpT); [|exact B]. pose proof (pT_ok A I).
    replace (101 / 8388608) with (F2R (Float radix2 101 (-23))) by (unfold F2R; cbn [Fnum Fexp]; rewrite P23; reflexivity).
    apply (generic_format_FLT radix2 (3 - eT - pT) pT). exists (Float radix2 101 (-23)); cbn [Fnum Fexp]; [reflexivity| |lia].
    change (radix_val radix2) with 2%Z. assert (2 ^ 24 <= 2 ^ pT)%Z by (apply Z.pow_le_mono_r; lia). lia.
  - rewrite P23. split; intros H0.
    + rewrite <- (rnd_0 pT eT). apply (rnd_le pT eT HpT). lra.
    + rewrite <- (rnd_0 pT eT). apply (rnd_le pT eT HpT). lra.
Qed.

(** log2(1+e) for a bound e. *)
Lemma log1p_val e p : vD e = Fin p -> 0 <= p <= 1 ->
  exists g, vD (dlog2 A (dadd A (dofZ A 1) e)) = Fin g /\ log2R (1 + p) - bpow radix2 (-38) <= g <= log2R (1 + p) + bpow radix2 (-39).
Proof.
  intros H Hp'. set (f := rD (1 + p)).
  assert (F1 : generic_format radix2 fexp64 1) by (apply (fmt_IZR 53 1024 eq_refl); lia).
  assert (f1 : 1 <= f) by (apply (rnd_ge 53 1024 eq_refl); auto; lra).
  destruct (rndxD (1 + p)) as (E & B & Er); [rewrite Rabs_pos_eq; lra|]. fold f in E, B, Er.
  assert (Ef : vD (dadd A (dofZ A 1) e) = Fin f) by (rewrite v_dadd, (vD_const A I 1), H by lia; cbn [xadd]; exact E).
  assert (P53 : bpow radix2 (-53) = / 9007199254740992) by reflexivity. assert (P100 : bpow radix2 (-100) <= bpow radix2 (-60)) by (apply bpow_le; lia).
  assert (P60 : bpow radix2 (-60) = / 1152921504606846976) by reflexivity. rewrite P60 in P100. rewrite P53, (Rabs_pos_eq (1 + p)) in Er by lra.
  apply Rabs_le_inv in Er.
  destruct (lo_log2 A I L _ _ Ef) as (g & Eg & Hg); [lra|]. fold (log2R f) in Hg. exists g. split; [exact Eg|]. apply Rabs_le_inv in Hg.
  assert (P40 : bpow radix2 (-40) = / 1099511627776) by reflexivity. assert (P39 : bpow radix2 (-39) = / 549755813888) by reflexivity.
  assert (P38 : bpow radix2 (-38) = / 274877906944) by reflexivity.
  (* log2 (y (1+z)) <= log2 y + 2 z *)
  assert (GR : forall x y z, 0 < x -> 0 < y -> 0 < z -> x <= y * (1 + z) -> log2R x <= log2R y + 2 * z).
  { intros x y z Hx Hy Hz Hxy. eapply Rle_trans; [apply log2R_le; [exact Hx|exact Hxy]|]. rewrite log2R_mul by lra. apply Rplus_le_compat_l.
    assert (Q : ln (1 + z) <= z) by (apply Rlt_le; rewrite <- (ln_exp z) at 2; apply ln_increasing; [lra|]; apply exp_ineq1; lra).
    assert (H2 : / 2 <= ln 2).
    { destruct (Rle_lt_dec (/ 2) (ln 2)); auto. exfalso. assert (exp (ln 2) < exp (/ 2)) by (apply exp_increasing; auto).
      rewrite exp_ln in H0 by lra. pose proof exp_le_3. assert (EE : exp 1 = exp (/ 2) * exp (/ 2)) by (rewrite <- exp_plus; f_equal; lra). nra. }
    unfold log2R, Rdiv. replace (2 * z) with (z * 2) by ring.
    apply Rmult_le_compat; try lra; [rewrite <- ln_1; apply Rlt_le, ln_increasing; lra|left; apply Rinv_0_lt_compat; lra|].
    apply Rmult_le_reg_l with (ln 2); [lra|]. rewrite Rinv_r; lra. }
  pose proof (GR f (1 + p) (/ 4503599627370496) ltac:(lra) ltac:(lra) ltac:(lra) ltac:(lra)) as G1.
  pose proof (GR (1 + p) f (/ 2251799813685248) ltac:(lra) ltac:(lra) ltac:(lra) ltac:(lra)) as G2.
  rewrite P40 in Hg. rewrite P39, P38. lra.
Qed.

Lemma log_precision_val e p mx a : vD e = Fin p -> bpow radix2 (-16) <= p <= 1 -> vT mx = Fin a -> 0 <= a <= 101 ->
  exists c, vD (log_precision A e mx) = Fin c /\ bpow radix2 (-19) <= c <= log2R (1 + p) + bpow radix2 (-38) /\ c <= 2.
Proof.
  intros H [H1 H2] Ha Ra. assert (P16 : bpow radix2 (-16) = / 65536) by reflexivity. assert (P19 : bpow radix2 (-19) = / 524288) by reflexivity.
  assert (P38 : bpow radix2 (-38) = / 274877906944) by reflexivity. assert (P39 : bpow radix2 (-39) = / 549755813888) by reflexivity.
  rewrite P16 in H1. destruct (log1p_val e p H ltac:(lra)) as (g & Eg & Hg). rewrite P38, P39 in Hg.
  destruct (mul_eps_val mx a Ha) as (d & Ed & Bd & Pd & _); [rewrite Rabs_pos_eq; lra|]. specialize (Pd (proj1 Ra)). rewrite Rabs_pos_eq in Bd by exact Pd.
  pose proof (log2R_1 p ltac:(lra)) as L1. pose proof (log2R_ge_id p ltac:(lra)) as L2.
  destruct (rndxD (g - d)) as (E & B & Er); [apply Rabs_le; lra|].
  exists (rD (g - d)). split; [unfold log_precision; rewrite v_dsub, Eg, Ed; exact E|].
  assert (P53 : bpow radix2 (-53) = / 9007199254740992) by reflexivity. assert (P100 : bpow radix2 (-100) <= bpow radix2 (-60)) by (apply bpow_le; lia).
  assert (P60 : bpow radix2 (-60) = / 1152921504606846976) by reflexivity. rewrite P60 in P100. rewrite P53, (Rabs_pos_eq (g - d)) in Er by lra.
  apply Rabs_le_inv in Er. rewrite P19, P38. lra.
Qed.

Lemma literal_val n : (10000 <= n <= 30000)%Z -> exists c, vD (ddiv A (dofZ A n) (dofZ A 10000)) = Fin c /\ Rabs (c - IZR n / 10000) <= / 1000000000000.
Proof.
  intros Hn. assert (N1 : 1 <= IZR n / 10000 <= 3).
  { destruct Hn as [Hn1 Hn2]. apply IZR_le in Hn1, Hn2. lra. }
  destruct (rndxD (IZR n / 10000)) as (E & B & Er); [rewrite Rabs_pos_eq; lra|]. exists (rD (IZR n / 10000)). split.
  - rewrite v_ddiv; rewrite (vD_const A I 10000) by lia; [|intros X; inversion X; lra]. rewrite (vD_const A I n) by lia. rewrite xdiv_fin by lra. exact E.
  - assert (P53 : bpow radix2 (-53) = / 9007199254740992) by reflexivity. assert (P100 : bpow radix2 (-100) <= bpow radix2 (-60)) by (apply bpow_le; lia).
    assert (P60 : bpow radix2 (-60) = / 1152921504606846976) by reflexivity. rewrite P60 in P100. rewrite P53, (Rabs_pos_eq (IZR n / 10000)) in Er by lra. lra.
Qed.

(** mn - k*lp, k one of the literals: rounded twice. *)
Lemma below_val n mn b lp c : (10000 <= n <= 30000)%Z -> vT mn = Fin b -> -98 <= b <= 101 -> vD lp = Fin c -> 0 <= c <= 2 ->
  exists v t, vD (dsub A (t2d A mn) (dmul A (ddiv A (dofZ A n) (dofZ A 10000)) lp)) = Fin v /\ vT (d2t A (dsub A (t2d A mn) (dmul A (ddiv A (dofZ A n) (dofZ A 10000)) lp))) = Fin t /\
    t = rT v /\ Rabs (v - (b - IZR n / 10000 * c)) <= c / 100000000000 + / 10000000000000 /\
    (forall r, generic_format radix2 (SpecFloat.fexp pT eT) r -> generic_format radix2 fexp64 r -> b - c * (IZR n / 10000 - / 100000) <= r -> bpow radix2 (-60) <= c -> t <= r) /\
    Rabs (t - v) <= bpow radix2 (-24) * Rabs v + bpow radix2 (-100) /\ Rabs v <= 108.
Proof.
  intros Hn Hb Rb Hc Rc. destruct (literal_val n Hn) as (k & Ek & Hk). apply Rabs_le_inv in Hk.
  assert (N1 : 1 <= IZR n / 10000 <= 3).
  { destruct Hn as [Hn1 Hn2]. apply IZR_le in Hn1, Hn2. lra. }
  set (K := IZR n / 10000) in *.
  assert (K0 : 0 <= k * c <= 7) by nra.
  destruct (rndxD (k * c)) as (E1 & B1 & R1); [rewrite Rabs_pos_eq; lra|].
  assert (P53 : bpow radix2 (-53) = / 9007199254740992) by reflexivity. assert (P100 : bpow radix2 (-100) <= bpow radix2 (-60)) by (apply bpow_le; lia).
  assert (P60 : bpow radix2 (-60) = / 1152921504606846976) by reflexivity.
  assert (P100' : bpow radix2 (-100) = bpow radix2 (-60) * bpow radix2 (-40)) by (rewrite <- bpow_plus; reflexivity).
  assert (P40 : bpow radix2 (-40) = / 1099511627776) by reflexivity. rewrite P40 in P100'.
  rewrite P53, (Rabs_pos_eq (k * c)) in R1 by lra. apply Rabs_le_inv in R1. set (q := rD (k * c)) in *.
  assert (Q0 : 0 <= q) by (unfold q; rewrite <- (rnd_0 53 1024); apply (rnd_le 53 1024 eq_refl); lra).
  assert (Q1 : q <= 7 + / 1000) by lra.
  destruct (rndxD (b - q)) as (E2 & B2 & R2); [apply Rabs_le; lra|]. set (v := rD (b - q)) in *.
  assert (R2' : Rabs (v - (b - q)) <= / 9007199254740992 * 106 + / 1152921504606846976).
  { eapply Rle_trans; [exact R2|]. rewrite P53. apply Rplus_le_compat; [apply Rmult_le_compat_l; [lra|apply Rabs_le; lra]|lra]. }
  apply Rabs_le_inv in R2'.
  assert (Vv : Rabs v <= 108) by (apply Rabs_le; lra).
  destruct (rndxT v) as (E3 & B3 & R3); [lra|].
  assert (EV : vD (dsub A (t2d A mn) (dmul A (ddiv A (dofZ A n) (dofZ A 10000)) lp)) = Fin v).
  { rewrite v_dsub, v_t2d, Hb, v_dmul, Ek, Hc. cbn [xmul]. rewrite E1. cbn [xsub]. exact E2. }
  exists v, (rT v). split; [exact EV|]. split; [rewrite v_d2t, EV; exact E3|]. split; [reflexivity|].
  assert (KC : Rabs (k * c - K * c) <= c * / 1000000000000).
  { replace (k * c - K * c) with (c * (k - K)) by ring. rewrite Rabs_mult, (Rabs_pos_eq c) by lra. apply Rmult_le_compat_l; [lra|]. apply Rabs_le. lra. }
  apply Rabs_le_inv in KC.
  split; [apply Rabs_le; lra|]. split; [|split; [exact R3|exact Vv]].
  intros r FT FD Hr Hc0. apply (rnd_le_fmt pT eT HpT); [exact FT|]. unfold v. apply (rnd_le_fmt 53 1024 eq_refl); [exact FD|].
  rewrite P60 in Hc0, P100'. nra.
Qed.

(** ** Decoding one recovered logarithm *)
Lemma pwr_sign_val x r y z : vT x = Fin r -> r <> 0 -> vT y = Fin z -> 0 < z -> forall m,
  Rabs (z - Rabs r) <= Rabs r * (m + bpow radix2 (-13)) -> rel_close A I m x (if (pwr_sign A x =? 0)%Z then y else tneg A y).
Proof.
  intros Hx N Hy Pz m Kz. unfold rel_close, pwr_sign. rewrite (v_tlt A I), Hx, vT_0. exists r. destruct (xlt (Fin r) (Fin 0)) eqn:E; cbn [Z.eqb].
  - apply xlt_fin in E. exists (- z). rewrite v_tneg, Hy. assert (Ar : Rabs r = - r) by (apply Rabs_left; lra). rewrite Ar in Kz |- *. repeat split; auto; [nra|].
    rewrite <- Rabs_Ropp. replace (- (- z - r)) with (z - - r) by ring. exact Kz.
  - apply xlt_fin_false in E. exists z. assert (Ar : Rabs r = r) by (apply Rabs_pos_eq; lra). rewrite Ar in Kz |- *. repeat split; auto. nra.
Qed.

(** A recovered logarithm: [y] was [l], and differs by at most c. *)
Definition log_near (l y : T A) (c : R) : Prop :=
  y = l \/ exists d s, vT y = Fin d /\ vT l = Fin s /\ Rabs (d - s) <= c * (1 + bpow radix2 (-24)).
Lemma log_near_val l y c s : 0 <= c -> log_near l y c -> vT l = Fin s -> exists d, vT y = Fin d /\ Rabs (d - s) <= c * (1 + / 16777216).
Proof.
  intros Hc H E. change (/ 16777216) with (bpow radix2 (-24)). destruct H as [->|(d & s' & E1 & E2 & H)].
  - exists s. split; [exact E|]. rewrite Rminus_diag_eq, Rabs_R0 by auto. apply Rmult_le_pos; [lra|]. pose proof (bpow_ge_0 radix2 (-24)). lra.
  - rewrite E in E2. injection E2 as <-. exists d. split; auto.
Qed.

Lemma unlog_near x r d m y : r <> 0 -> vT x = Fin r -> vT y = Fin d -> -110 <= d <= 104 -> 0 <= m <= 1 ->
  Rabs (d - log2R (Rabs r)) <= log2R (1 + m) + bpow radix2 (-15) ->
  rel_close A I m x (if (pwr_sign A x =? 0)%Z then texp2 A y else tneg A (texp2 A y)).
Proof.
  intros N Hx Hy Rd Hm Hl. destruct (ll_exp2 A I LL y d Hy Rd) as (z & Ez & Hz).
  assert (Pr : 0 < Rabs r) by (apply Rabs_pos_lt; exact N).
  destruct (unlog_error _ _ _ m Pr ltac:(lra) Hl Hz) as [Pz Kz]. exact (pwr_sign_val x r (texp2 A y) z Hx N Ez Pz m Kz).
Qed.

(** sz_compress_2d_pwr: a non-zero value. *)
Lemma pwr_nonzero x r y p c mn b lp th : usual A I 100 x -> vT x = Fin r -> r <> 0 -> 0 <= p <= 1 ->
  vT mn = Fin b -> -98 <= b <= 101 -> (forall l, vT (pwr_log A x) = Fin l -> b <= l) ->
  vD lp = Fin c -> bpow radix2 (-19) <= c <= log2R (1 + p) + bpow radix2 (-38) -> c <= 2 -> th = pwr_threshold A mn lp ->
  log_near (pwr_log A x) y c -> rel_close A I p x (pwr_value A th y (pwr_sign A x)).
Proof.
  intros HU Hx N Rp Hb Rb HL Hc [Rc1 Rc2] Rc3 -> HN. assert (P19 : bpow radix2 (-19) = / 524288) by reflexivity. rewrite P19 in Rc1.
  destruct (pwr_log_val x r HU Hx N) as (l & El & Hl & Rl). pose proof (HL l El) as Hbl.
  destruct (log_near_val _ y c l ltac:(lra) HN El) as (d & Ed & Hd).
  assert (P38 : bpow radix2 (-38) = / 274877906944) by reflexivity. assert (P15 : bpow radix2 (-15) = / 32768) by reflexivity. assert (P16 : bpow radix2 (-16) = / 65536) by reflexivity.
  assert (P60 : bpow radix2 (-60) = / 1152921504606846976) by reflexivity.
  pose proof (log2R_1 p Rp) as L1.
  destruct (below_val 10001 mn b lp c ltac:(lia) Hb Rb Hc ltac:(lra)) as (v & t & _ & Et & _ & _ & Ht & _ & _).
  assert (TR : t <= d).
  { apply Ht; [apply (proj1 (vT_fmt A I _ _ Ed))|exact (fmtT_D _ _ Ed)| |rewrite P60; lra]. apply Rabs_le_inv in Hd. lra. }
  unfold pwr_value. rewrite (v_tlt A I). unfold pwr_threshold, c10001. rewrite Et, Ed. rewrite (proj2 (xlt_fin_false d t) TR).
  apply (unlog_near x r d p y N Hx Ed); [apply Rabs_le_inv in Hd; lra|exact Rp|].
  replace (d - log2R (Rabs r)) with ((d - l) + (l - log2R (Rabs r))) by ring. eapply Rle_trans; [apply Rabs_triang|].
  rewrite P15, P16, P38 in *. lra.
Qed.

(** A zero: +0, or a positive number not larger than the smallest magnitude. *)
Lemma pwr_zero_val x y c mn b lp th : vT x = Fin 0 ->
  vT mn = Fin b -> -98 <= b <= 101 -> vD lp = Fin c -> bpow radix2 (-19) <= c <= 2 -> th = pwr_threshold A mn lp ->
  log_near (zero_log A mn lp) y c -> exists z, vT (pwr_value A th y (pwr_sign A x)) = Fin z /\ 0 <= z /\
    (pwr_value A th y (pwr_sign A x) = t0 A \/ forall r l, log_of r l -> r <> 0 -> b <= l -> z <= Rabs r * (1 + bpow radix2 (-13))).
Proof.
  intros Hx Hb Rb Hc [Rc1 Rc2] -> HN. assert (P19 : bpow radix2 (-19) = / 524288) by reflexivity. rewrite P19 in Rc1.
  destruct (below_val 20001 mn b lp c ltac:(lia) Hb Rb Hc ltac:(lra)) as (v & t & _ & Et & _ & Hv & _ & Htv & Vv).
  fold (c20001 A) in Et. fold (zero_log A mn lp) in Et.
  destruct (log_near_val _ y c t ltac:(lra) HN Et) as (d & Ed & Hd).
  apply Rabs_le_inv in Hd, Hv.
  assert (P24 : bpow radix2 (-24) = / 16777216) by reflexivity. assert (P100 : bpow radix2 (-100) <= bpow radix2 (-60)) by (apply bpow_le; lia).
  assert (P60 : bpow radix2 (-60) = / 1152921504606846976) by reflexivity. rewrite P60 in P100.
  assert (Htv' : Rabs (t - v) <= 108 / 16777216 + / 1152921504606846976).
  { eapply Rle_trans; [exact Htv|]. rewrite P24. apply Rplus_le_compat; [|lra]. unfold Rdiv. rewrite (Rmult_comm 108). apply Rmult_le_compat_l; lra. }
  apply Rabs_le_inv in Htv'.
  assert (S0 : pwr_sign A x = 0%Z).
  { unfold pwr_sign. rewrite (v_tlt A I), Hx, vT_0. rewrite (proj2 (xlt_fin_false 0 0)) by lra. reflexivity. }
  unfold pwr_value. rewrite S0. cbn [Z.eqb]. destruct (tlt A y (pwr_threshold A mn lp)) eqn:E.
  - exists 0. split; [apply vT_0|]. split; [lra|]. left. reflexivity.
  - destruct (ll_exp2 A I LL y d Ed) as (z & Ez & Hz); [lra|].
    exists z. assert (P20 : bpow radix2 (-20) = / 1048576) by reflexivity. assert (P13 : bpow radix2 (-13) = / 8192) by reflexivity. assert (P16 : bpow radix2 (-16) = / 65536) by reflexivity.
    pose proof (exp_pos (d * ln 2)) as PP. change (exp (d * ln 2)) with (Rpower 2 d) in PP. rewrite P20 in Hz. apply Rabs_le_inv in Hz.
    split; [exact Ez|]. split; [lra|]. right. intros r l [Hl Rl] N Hbl. rewrite P16 in Hl. apply Rabs_le_inv in Hl.
    assert (Pr : 0 < Rabs r) by (apply Rabs_pos_lt; exact N).
    assert (K : Rpower 2 d <= Rabs r * (1 + / 32768)).
    { apply Rle_trans with (Rpower 2 (log2R (Rabs r) + / 32768)).
      - apply Rle_Rpower; [lra|]. lra.
      - rewrite Rpower_plus, Rpower_log2R by exact Pr. apply Rmult_le_compat_l; [lra|]. apply Rpower_chord. lra. }
    rewrite P13. set (q := Rabs r) in *. nra.
Qed.

(** ** Bounds per value *)
Lemma pwr_log_eb_val x l e p : vT (pwr_log A x) = Fin l -> -98 <= l <= 101 -> vD e = Fin p -> 0 <= p <= 1 ->
  exists c, vD (pwr_log_eb A x e) = Fin c /\ 0 <= c <= log2R (1 + p) + 102 / 8388608 /\ log2R (1 + p) - 102 / 8388608 <= c.
Proof.
  intros Hl Rl He' Rp. destruct (log1p_val e p He' Rp) as (g & Eg & Hg).
  assert (P38 : bpow radix2 (-38) = / 274877906944) by reflexivity. assert (P39 : bpow radix2 (-39) = / 549755813888) by reflexivity. rewrite P38, P39 in Hg.
  destruct (mul_eps_val (pwr_log A x) l Hl) as (d & Ed & Bd & _ & _); [apply Rabs_le; lra|]. apply Rabs_le_inv in Bd.
  pose proof (log2R_1 p Rp) as L1. pose proof (log2R_ge_id p Rp) as L2.
  destruct (rndxD (g - d)) as (E & B & Er); [apply Rabs_le; lra|].
  assert (P53 : bpow radix2 (-53) = / 9007199254740992) by reflexivity. assert (P100 : bpow radix2 (-100) <= bpow radix2 (-60)) by (apply bpow_le; lia).
  assert (P60 : bpow radix2 (-60) = / 1152921504606846976) by reflexivity. rewrite P60 in P100.
  assert (Er' : Rabs (rD (g - d) - (g - d)) <= / 9007199254740992 * 2 + / 1152921504606846976).
  { eapply Rle_trans; [exact Er|]. rewrite P53. apply Rplus_le_compat; [apply Rmult_le_compat_l; [lra|apply Rabs_le; lra]|lra]. }
  apply Rabs_le_inv in Er'.
  assert (EV : vD (dsub A (dlog2 A (dadd A (dofZ A 1) e)) (t2d A (tmul A (pwr_log A x) (t_eps A)))) = Fin (rD (g - d))) by (rewrite v_dsub, Eg, Ed; exact E).
  unfold pwr_log_eb, d_max. rewrite (v_dlt A I), EV, (vD_const A I 0) by lia. destruct (xlt (Fin 0) (Fin (rD (g - d)))) eqn:Q.
  - apply xlt_fin in Q. exists (rD (g - d)). split; [exact EV|]. lra.
  - apply xlt_fin_false in Q. exists 0. split; [apply (vD_const A I 0); lia|]. lra.
Qed.

(** The final threshold: below every value's own, or minus infinity. *)
Definition thr_ok (th : T A) (xes : list (T A * D A)) : Prop :=
  vT th = NInf \/ exists tau, vT th = Fin tau /\ -108 <= tau <= 101 /\
    forall x e r t, In (x, e) xes -> vT x = Fin r -> r <> 0 ->
      vT (d2t A (dsub A (t2d A (pwr_log A x)) (dmul A (c10001 A) (pwr_log_eb A x e)))) = Fin t -> tau <= t.

Lemma lower_threshold_fold : forall xes th, (forall x e, In (x, e) xes -> usual A I 100 x /\ exists p, vD e = Fin p /\ 0 <= p <= 1) ->
  (vT th = NInf \/ exists tau, vT th = Fin tau /\ -108 <= tau <= 101) ->
  thr_ok (fold_left (lower_threshold A) xes th) xes /\
  (vT th = NInf -> vT (fold_left (lower_threshold A) xes th) = NInf) /\
  (forall tau, vT th = Fin tau -> exists tau', vT (fold_left (lower_threshold A) xes th) = Fin tau' /\ tau' <= tau).
Proof.
  induction xes as [|[x e] xes IH]; intros th HF H0.
  - cbn [fold_left]. split; [|split; [auto|intros tau E; exists tau; split; [exact E|lra]]].
    destruct H0 as [H0|(tau & E & R)]; [left; exact H0|right]. exists tau. split; [exact E|]. split; [exact R|]. intros x e r t [].
  - destruct (HF x e (or_introl eq_refl)) as [HU (p & Ep & Rp)]. pose proof HU as (r & Er & Hr & Hbd).
    change (fold_left (lower_threshold A) ((x, e) :: xes) th) with (fold_left (lower_threshold A) xes (lower_threshold A th (x, e))).
    assert (ST : (vT th = NInf -> vT (lower_threshold A th (x, e)) = NInf) /\
      forall tau, vT th = Fin tau -> -108 <= tau <= 101 -> exists tau', vT (lower_threshold A th (x, e)) = Fin tau' /\ -108 <= tau' <= tau /\
        (forall t, r <> 0 -> vT (d2t A (dsub A (t2d A (pwr_log A x)) (dmul A (c10001 A) (pwr_log_eb A x e)))) = Fin t -> tau' <= t)).
    { unfold lower_threshold. rewrite (magnitude_pos x r Er), (v_teq A I), Er, vT_0. destruct (Req_dec r 0) as [->|N].
      - rewrite (proj2 (xeq_fin 0 0) eq_refl). cbn [negb]. split; [auto|]. intros tau E R. exists tau. split; [exact E|]. split; [lra|]. intros t N. contradiction.
      - rewrite (proj2 (xeq_fin_false r 0) N). cbn [negb]. destruct (pwr_log_val x r HU Er N) as (l & El & _ & Rl).
        destruct (pwr_log_eb_val x l e p El Rl Ep Rp) as (c & Ec & Rc & _). pose proof (log2R_1 p Rp) as L1.
        destruct (below_val 10001 (pwr_log A x) l (pwr_log_eb A x e) c ltac:(lia) El Rl Ec ltac:(lra)) as (v & t & Ev & Et & Tv & _ & _ & _ & Vv).
        fold (c10001 A) in Ev, Et. set (vv := dsub A (t2d A (pwr_log A x)) (dmul A (c10001 A) (pwr_log_eb A x e))) in *. unfold d_min. rewrite (v_dlt A I), v_t2d, Ev.
        split.
        + intros E. rewrite E. cbn [xlt]. rewrite v_d2t, v_t2d, E. reflexivity.
        + intros tau E R. rewrite E. destruct (xlt (Fin tau) (Fin v)) eqn:Q.
          * apply xlt_fin in Q. exists tau. split; [|split; [lra|]].
            -- rewrite v_d2t, v_t2d, E. apply rndx_fin; apply (vT_fmt A I _ _ E).
            -- intros t' _ E'. rewrite Et in E'. injection E' as <-. rewrite Tv. rewrite <- (rnd_id pT eT tau) by apply (vT_fmt A I _ _ E). apply (rnd_le pT eT HpT). lra.
          * apply xlt_fin_false in Q. exists t. split; [exact Et|]. split; [|intros t' _ E'; rewrite Et in E'; injection E' as <-; lra]. rewrite Tv.
            apply Rabs_le_inv in Vv. split.
            -- apply (rnd_ge pT eT HpT); [|lra]. assert (2 ^ 24 <= 2 ^ pT)%Z by (apply Z.pow_le_mono_r; lia).
               change (-108) with (IZR (-108)). apply (fmt_IZR pT eT HpT); [lia|]. pose proof (pT_ok A I). lia.
            -- apply (rnd_le_fmt pT eT HpT); [apply (vT_fmt A I _ _ E)|exact Q]. }
    destruct ST as [ST1 ST2]. assert (HF' : forall x e, In (x, e) xes -> usual A I 100 x /\ exists p, vD e = Fin p /\ 0 <= p <= 1) by (intros y f Hy; apply HF; right; exact Hy).
    destruct H0 as [H0|(tau & E & R)].
    + destruct (IH _ HF' (or_introl (ST1 H0))) as (_ & IH2 & _). specialize (IH2 (ST1 H0)).
      split; [left; exact IH2|]. split; [intros _; exact IH2|]. intros tau E. rewrite H0 in E. discriminate.
    + destruct (ST2 tau E R) as (tau1 & E1 & R1 & H1).
      destruct (IH (lower_threshold A th (x, e)) HF') as (IH1 & _ & IH3); [right; exists tau1; split; [exact E1|lra]|].
      destruct (IH3 tau1 E1) as (tau2 & E2 & R2).
      split; [|split; [intros X; rewrite E in X; discriminate|intros tau' E'; rewrite E in E'; injection E' as <-; exists tau2; split; [exact E2|lra]]].
      right. destruct IH1 as [IH1|(tau3 & E3 & R3 & H3)]; [rewrite E2 in IH1; discriminate|]. rewrite E2 in E3. injection E3 as <-.
      exists tau2. split; [exact E2|]. split; [exact R3|]. intros y f s t [X|Hy] Es Ns Et.
      * inversion X; subst y f. rewrite Er in Es. injection Es as <-. pose proof (H1 t Ns Et). lra.
      * exact (H3 y f s t Hy Es Ns Et).
Qed.

(** A non-zero value with its own bound. *)
Lemma pwr_eb_nonzero x r y e p c th xes : usual A I 100 x -> vT x = Fin r -> r <> 0 -> vD e = Fin p -> 0 <= p <= 1 -> vD (pwr_log_eb A x e) = Fin c ->
  thr_ok th xes -> In (x, e) xes -> (vT th = NInf \/ bpow radix2 (-4) <= p) ->
  log_near (pwr_log A x) y c -> rel_close A I p x (pwr_eb_value A th y (pwr_sign A x)).
Proof.
  intros HU Hx N Ep Rp Ec HT HI Hsep HN.
  destruct (pwr_log_val x r HU Hx N) as (l & El & Hl & Rl).
  destruct (pwr_log_eb_val x l e p El Rl Ep Rp) as (c' & Ec' & Rc & Rc2). rewrite Ec in Ec'. injection Ec' as <-.
  destruct (log_near_val _ y c l ltac:(lra) HN El) as (d & Ed & Hd).
  pose proof (log2R_1 p Rp) as L1. pose proof (log2R_ge_id p Rp) as L2.
  assert (P15 : bpow radix2 (-15) = / 32768) by reflexivity. assert (P16 : bpow radix2 (-16) = / 65536) by reflexivity.
  assert (TR : teq A y th = false).
  { rewrite (v_teq A I), Ed. destruct HT as [HT|(tau & Et & Rt & Ht)]; [rewrite HT; reflexivity|].
    destruct Hsep as [X|Hsep]; [rewrite Et in X; discriminate|]. assert (P4 : bpow radix2 (-4) = / 16) by reflexivity. rewrite P4 in Hsep.
    destruct (below_val 10001 (pwr_log A x) l (pwr_log_eb A x e) c ltac:(lia) El Rl Ec ltac:(lra)) as (v & t & _ & Et' & _ & Hv & _ & Htv & Vv).
    pose proof (Ht x e r t HI Hx N Et') as Htau.
    rewrite Et. apply xeq_fin_false.
    assert (P24 : bpow radix2 (-24) = / 16777216) by reflexivity. assert (P100 : bpow radix2 (-100) <= bpow radix2 (-60)) by (apply bpow_le; lia).
    assert (P60 : bpow radix2 (-60) = / 1152921504606846976) by reflexivity. rewrite P60 in P100. rewrite P24 in Htv.
    apply Rabs_le_inv in Hd, Hv. apply Rgt_not_eq.
    (* log2(17/16) is at least 2/25 *)
    assert (LB : 2 / 25 <= log2R (1 + p)).
    { apply Rle_trans with (log2R (1 + / 16)); [|apply log2R_le; lra].
      assert (X : log2R 2 <= 25 / 2 * log2R (1 + / 16)).
      { replace (log2R 2) with 1 by (change 2 with (bpow radix2 1); rewrite log2R_bpow; auto).
        assert (Y : log2R 4 <= 25 * log2R (1 + / 16)).
        { assert (PW : forall n, log2R ((1 + / 16) ^ n) = INR n * log2R (1 + / 16)).
          { induction n as [|n IHn]; [cbn [pow INR]; unfold log2R; rewrite ln_1; lra|]. rewrite S_INR. cbn [pow]. rewrite log2R_mul, IHn by (try apply pow_lt; lra). ring. }
          replace 25 with (INR 25) by (cbn; lra). rewrite <- PW. apply log2R_le; [lra|]. cbn [pow]. lra. }
        replace (log2R 4) with 2 in Y by (change 4 with (bpow radix2 2); rewrite log2R_bpow; auto). lra. }
      replace (log2R 2) with 1 in X by (change 2 with (bpow radix2 1); rewrite log2R_bpow; auto). lra. }
    assert (Av : Rabs v <= 104) by (apply Rabs_le; lra). set (av := Rabs v) in *. apply Rabs_le_inv in Htv.
    lra. }
  unfold pwr_eb_value. rewrite TR. apply (unlog_near x r d p y N Hx Ed); [apply Rabs_le_inv in Hd; lra|exact Rp|].
  replace (d - log2R (Rabs r)) with ((d - l) + (l - log2R (Rabs r))) by ring. eapply Rle_trans; [apply Rabs_triang|].
  rewrite P15, P16 in *. lra.
Qed.

(** A zero. *)
Lemma pwr_eb_zero x y th xes : vT x = Fin 0 -> thr_ok th xes -> log_near th y 0 -> pwr_eb_value A th y (pwr_sign A x) = t0 A.
Proof.
  intros Hx HT HN.
  assert (S0 : pwr_sign A x = 0%Z).
  { unfold pwr_sign. rewrite (v_tlt A I), Hx, vT_0. rewrite (proj2 (xlt_fin_false 0 0)) by lra. reflexivity. }
  assert (TR : teq A y th = true).
  { rewrite (v_teq A I). destruct HT as [HT|(tau & Et & _ & _)].
    - rewrite HT. destruct HN as [->|(d & s & _ & E & _)]; [rewrite HT; reflexivity|rewrite HT in E; discriminate].
    - destruct (log_near_val _ y 0 tau ltac:(lra) HN Et) as (d & Ed & Hd). rewrite Ed, Et. apply xeq_fin. rewrite Rmult_0_l in Hd.
      assert (Rabs (d - tau) = 0) by (apply Rle_antisym; [exact Hd|apply Rabs_pos]). apply Rabs_eq_R0 in H. lra. }
  unfold pwr_eb_value. rewrite S0, TR. reflexivity.
Qed.
End E.
