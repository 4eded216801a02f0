(** The exact arithmetic: real numbers extended with infinities and NaN.  It replaces the rounding operations of
    the C++ types by exact ones and keeps their special cases; the sign of zero is not represented
    (x/0 is taken for +0).  No function of /repo is modelled here. *)
From Coq Require Import Reals Lra Lia ZArith List Bool.
From Flocq Require Import Core.Raux.
From Verif Require Import Base Arith.
Import ListNotations.
Local Open Scope R_scope.

Inductive XR := Fin (r : R) | PInf | NInf | NaN.

Definition xneg x := match x with Fin a => Fin (- a) | PInf => NInf | NInf => PInf | NaN => NaN end.
Definition xabs x := match x with Fin a => Fin (Rabs a) | NaN => NaN | _ => PInf end.
Definition xadd x y :=
  match x, y with
  | Fin a, Fin b => Fin (a + b)
  | NaN, _ | _, NaN => NaN
  | PInf, NInf | NInf, PInf => NaN
  | PInf, _ | _, PInf => PInf
  | NInf, _ | _, NInf => NInf
  end.
Definition xsub x y := match x, y with Fin a, Fin b => Fin (a - b) | _, _ => xadd x (xneg y) end.
(** Infinity with the sign of [a], NaN for zero. *)
Definition xinf (a : R) : XR := if Rlt_bool 0 a then PInf else if Rlt_bool a 0 then NInf else NaN.
Definition xmul x y :=
  match x, y with
  | Fin a, Fin b => Fin (a * b)
  | NaN, _ | _, NaN => NaN
  | PInf, Fin b | Fin b, PInf => xinf b
  | NInf, Fin b | Fin b, NInf => xinf (- b)
  | PInf, PInf | NInf, NInf => PInf
  | PInf, NInf | NInf, PInf => NInf
  end.
Definition xdiv x y :=
  match x, y with
  | Fin a, Fin b => if Req_bool b 0 then xinf a else Fin (a / b)
  | NaN, _ | _, NaN => NaN
  | Fin _, _ => Fin 0
  | PInf, Fin b => if Rlt_bool b 0 then NInf else PInf
  | NInf, Fin b => if Rlt_bool b 0 then PInf else NInf
  | _, _ => NaN
  end.
Definition xlt x y :=
  match x, y with
  | Fin a, Fin b => Rlt_bool a b
  | NaN, _ | _, NaN => false
  | NInf, NInf | PInf, PInf => false
  | NInf, _ | _, PInf => true
  | _, _ => false
  end.
Definition xeq x y :=
  match x, y with
  | Fin a, Fin b => Req_bool a b
  | PInf, PInf | NInf, NInf => true
  | _, _ => false
  end.
Definition xle x y := match x, y with Fin a, Fin b => Rle_bool a b | _, _ => xlt x y || xeq x y end.
Definition xtoint x : option Z :=
  match x with
  | Fin a => if ((- 2 ^ 31 <=? Ztrunc a) && (Ztrunc a <? 2 ^ 31))%Z then Some (Ztrunc a) else None
  | _ => None
  end.
Definition xlog2 x :=
  match x with
  | Fin a => if Rlt_bool 0 a then Fin (ln a / ln 2) else if Rlt_bool a 0 then NaN else NInf
  | PInf => PInf
  | _ => NaN
  end.
Definition xsqrt x :=
  match x with Fin a => if Rlt_bool a 0 then NaN else Fin (sqrt a) | PInf => PInf | _ => NaN end.
Definition xexp2 x :=
  match x with Fin a => Fin (Rpower 2 a) | PInf => PInf | NInf => Fin 0 | NaN => NaN end.

(** [XA]: T = double = extended reals, every operation exact.  The memory representation is not used. *)
Definition XA : Arith := {|
  T := XR; D := XR;
  tadd := xadd; tsub := xsub; tmul := xmul; tdiv := xdiv; tneg := xneg; tabs := xabs;
  tlt := xlt; tle := xle; teq := xeq; tofZ := fun z => Fin (IZR z); ttoint := xtoint;
  dadd := xadd; dsub := xsub; dmul := xmul; ddiv := xdiv; dneg := xneg; dabs := xabs; dsqrt := xsqrt;
  dlt := xlt; dle := xle; deq := xeq; dofZ := fun z => Fin (IZR z); dtoint := xtoint;
  t2d := fun x => x; d2t := fun x => x;
  dlog2 := xlog2; dpow := fun b e => Fin (powerRZ (IZR b) e);
  tlog2f := xlog2; texp2 := xexp2;
  eps_double := Fin (/ 4503599627370496); eps_float := Fin (/ 8388608);
  tsize_of := 0; tser := fun _ => []; tdes := fun _ => NaN; dser := fun _ => []; ddes := fun _ => NaN
|}.

(** ** Comparisons *)
Definition below (e : R) (x : XR) : Prop := xlt (Fin e) x = true.
Definition notnan (x : XR) : Prop := x <> NaN.

Lemma below_fin e a : below e (Fin a) <-> e < a.
Proof. unfold below. cbn. destruct (Rlt_bool_spec e a); split; intros; try discriminate; auto; lra. Qed.

Lemma below_mono e e' x : e' <= e -> below e x -> below e' x.
Proof.
  intros H. destruct x; cbn; auto; rewrite ?below_fin; try lra; unfold below; cbn; auto.
Qed.

Lemma xlt_trans_below e x y : below e x -> xlt x y = true -> below e y.
Proof.
  unfold below. destruct x, y; cbn; auto; try discriminate.
  destruct (Rlt_bool_spec e r), (Rlt_bool_spec r r0), (Rlt_bool_spec e r0); auto; try discriminate; lra.
Qed.

Lemma below_nlt e x y : below e y -> xlt x y = false -> notnan x -> below e x.
Proof.
  unfold below, notnan. destruct x, y; cbn; auto; try discriminate; try congruence.
  destruct (Rlt_bool_spec e r), (Rlt_bool_spec r r0), (Rlt_bool_spec e r0); auto; try discriminate; lra.
Qed.

(** MINF on numbers is the minimum. *)
Lemma below_minf e x y : notnan x -> notnan y -> below e (minf XA x y) -> below e x /\ below e y.
Proof.
  intros Hx Hy. unfold minf. cbn [dlt XA]. destruct (xlt x y) eqn:E; intros H.
  - split; auto. eapply xlt_trans_below; eauto.
  - split; auto. eapply below_nlt; eauto.
Qed.

Lemma notnan_minf x y : notnan y -> notnan (minf XA x y).
Proof. intros Hy. unfold minf. cbn [dlt XA]. destruct x, y; cbn; auto; try discriminate; destruct (Rlt_bool _ _); discriminate || auto. Qed.

Lemma below_dmax e x y : below e (dmax XA x y) -> below e x \/ below e y.
Proof. unfold dmax. destruct (dlt XA y x); auto. Qed.

Lemma notnan_dmax x y : notnan x -> notnan y -> notnan (dmax XA x y).
Proof. intros. unfold dmax. destruct (dlt XA y x); auto. Qed.

Lemma xlt_fin a b : xlt (Fin a) (Fin b) = true <-> a < b.
Proof. cbn. destruct (Rlt_bool_spec a b); split; intros; try discriminate; auto; lra. Qed.
Lemma xlt_fin_false a b : xlt (Fin a) (Fin b) = false <-> b <= a.
Proof. cbn. destruct (Rlt_bool_spec a b); split; intros; try discriminate; auto; lra. Qed.
Lemma xle_fin a b : xle (Fin a) (Fin b) = true <-> a <= b.
Proof. cbn. destruct (Rle_bool_spec a b); split; intros; try discriminate; auto; lra. Qed.
Lemma xle_fin_false a b : xle (Fin a) (Fin b) = false <-> b < a.
Proof. cbn. destruct (Rle_bool_spec a b); split; intros; try discriminate; auto; lra. Qed.
Lemma xeq_fin a b : xeq (Fin a) (Fin b) = true <-> a = b.
Proof. cbn. destruct (Req_bool_spec a b); split; intros; try discriminate; auto; lra. Qed.
Lemma xeq_fin_false a b : xeq (Fin a) (Fin b) = false <-> a <> b.
Proof. cbn. destruct (Req_bool_spec a b); split; intros; try discriminate; auto; contradiction. Qed.

Lemma xdiv_fin a b : b <> 0 -> xdiv (Fin a) (Fin b) = Fin (a / b).
Proof. intros H. cbn. rewrite Req_bool_false; auto. Qed.
Lemma xdiv_zero a b : b = 0 -> xdiv (Fin a) (Fin b) = xinf a.
Proof. intros H. cbn. rewrite Req_bool_true; auto. Qed.
Lemma xinf_pos a : 0 < a -> xinf a = PInf.
Proof. intros. unfold xinf. rewrite Rlt_bool_true; auto. Qed.
Lemma xinf_neg a : a < 0 -> xinf a = NInf.
Proof. intros. unfold xinf. rewrite Rlt_bool_false, Rlt_bool_true; auto; lra. Qed.
Lemma xinf_zero : xinf 0 = NaN.
Proof. unfold xinf. rewrite !Rlt_bool_false; auto; lra. Qed.

Global Opaque xdiv.

(** ** Rounding the bound to the exponential grid *)
Lemma eps_pos : 0 < / 4503599627370496.
Proof. lra. Qed.

Lemma powerRZ_Rpower b (z : Z) : 0 < b -> powerRZ b z = Rpower b (IZR z).
Proof.
  intros H. destruct z; simpl.
  - rewrite Rpower_O; auto.
  - rewrite <- Rpower_pow by auto. rewrite INR_IZR_INZ, positive_nat_Z. reflexivity.
  - rewrite <- Rpower_pow by auto. rewrite INR_IZR_INZ, positive_nat_Z.
    rewrite <- Rpower_Ropp. f_equal.
Qed.

Lemma ln2_pos : 0 < ln 2.
Proof. rewrite <- ln_1. apply ln_increasing; lra. Qed.

Lemma ln4 : ln 4 = 2 * ln 2.
Proof. replace 4 with (2 * 2) by lra. rewrite ln_mult by lra. lra. Qed.

(** The index is the integer part of log_base(eb/threshold). *)
Lemma quantize_exact base thr eb id abs_eb :
  (2 <= base)%Z -> 0 < thr ->
  eb_exponential_quantize XA base (Fin thr) (Fin eb) = Some (id, abs_eb) ->
  (eb <= thr /\ id = 0%Z /\ abs_eb = Fin 0) \/
  (thr < eb /\ (0 <= id)%Z /\ exists a, abs_eb = Fin a /\ a = powerRZ (IZR base) id * thr /\ 0 < a /\
   a <= eb < IZR base * a).
Proof.
  intros Hb Ht H. unfold eb_exponential_quantize in H. cbn [dle XA] in H.
  assert (Hb' : 2 <= IZR base) by (apply IZR_le in Hb; auto).
  destruct (xle (Fin eb) (Fin thr)) eqn:E.
  - apply xle_fin in E. apply Some_inj in H. inversion H; subst. left. unfold d0. cbn. auto.
  - apply xle_fin_false in E. right. split; auto. bind_as H z Hz. apply Some_inj in H.
    inversion H; subst z abs_eb. clear H.
    cbn [dtoint ddiv dlog2 dofZ XA] in Hz. rewrite xdiv_fin in Hz by lra.
    assert (Hq : 1 < eb / thr).
    { apply (Rmult_lt_reg_r thr); auto. unfold Rdiv. rewrite Rmult_assoc, Rinv_l; lra. }
    cbn [xlog2] in Hz. rewrite !Rlt_bool_true in Hz by lra.
    pose proof ln2_pos as L2.
    assert (Lb : 0 < ln (IZR base)) by (rewrite <- ln_1; apply ln_increasing; lra).
    rewrite xdiv_fin in Hz.
    2:{ intros Hn. assert (ln (IZR base) = ln (IZR base) / ln 2 * ln 2) by (field; lra). rewrite Hn in *. lra. }
    replace (ln (eb / thr) / ln 2 / (ln (IZR base) / ln 2)) with (ln (eb / thr) / ln (IZR base)) in Hz
      by (field; lra).
    set (l := ln (eb / thr) / ln (IZR base)) in *.
    assert (Hl : 0 < l).
    { unfold l. apply Rdiv_lt_0_compat; auto. rewrite <- ln_1. apply ln_increasing; lra. }
    cbn [xtoint] in Hz. destruct (_ && _)%bool; [|discriminate]. injection Hz as <-.
    rewrite Ztrunc_floor by lra.
    assert (H0 : (0 <= Zfloor l)%Z) by (apply Zfloor_lub; simpl; lra).
    split; auto. cbn [dmul dpow XA xmul].
    exists (powerRZ (IZR base) (Zfloor l) * thr). split; auto. split; auto.
    rewrite powerRZ_Rpower by lra.
    assert (Hpw : Rpower (IZR base) l = eb / thr).
    { unfold Rpower, l. replace (ln (eb / thr) / ln (IZR base) * ln (IZR base)) with (ln (eb / thr)) by (field; lra).
      apply exp_ln. lra. }
    assert (P0 : 0 < Rpower (IZR base) (IZR (Zfloor l))) by (unfold Rpower; apply exp_pos).
    assert (P1 : Rpower (IZR base) (IZR (Zfloor l)) <= eb / thr).
    { rewrite <- Hpw. apply Rle_Rpower; [lra|apply Zfloor_lb]. }
    assert (P2 : eb / thr < IZR base * Rpower (IZR base) (IZR (Zfloor l))).
    { rewrite <- Hpw. replace (IZR base * Rpower (IZR base) (IZR (Zfloor l)))
        with (Rpower (IZR base) (IZR (Zfloor l) + 1)).
      - apply Rpower_lt; [lra|apply Zfloor_ub].
      - rewrite Rpower_plus, Rpower_1 by lra. lra. }
    assert (Ee : eb = eb / thr * thr) by (field; lra).
    repeat split.
    + apply Rmult_lt_0_compat; auto.
    + rewrite Ee. apply Rmult_le_compat_r; lra.
    + rewrite Ee at 1. rewrite <- Rmult_assoc. apply Rmult_lt_compat_r; auto.
Qed.
