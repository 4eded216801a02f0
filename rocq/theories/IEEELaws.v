(** Arithmetics whose operations are correctly rounded IEEE operations; float and double data are instances.
    Error of one quantised component.  Nothing of /repo is modelled here. *)
From Coq Require Import Reals Lra Lia ZArith List Bool.
From Coq Require Import ZifyBool ZifyNat.
From Flocq Require Import Core.Core IEEE754.BinarySingleNaN IEEE754.Binary IEEE754.Bits.
From Verif Require Import Base Arith Codec2D Exact IEEE.
Import ListNotations.
Local Open Scope R_scope.

Record ieee (A : Arith) : Type := {
  pT : Z; eT : Z; HpT : Prec_gt_0 pT; HeT : Prec_lt_emax pT eT; HpD : (1 < pT <= 53)%Z; HeD : (64 < eT <= 1024)%Z;
  vT : T A -> XR; vD : D A -> XR;
  oob : option Z; oob_ok : oob = None \/ oob = Some (- 2 ^ 31)%Z;
  vT_fmt : forall x r, vT x = Fin r -> generic_format radix2 (SpecFloat.fexp pT eT) r /\ Rabs r < bpow radix2 eT;
  vD_fmt : forall x r, vD x = Fin r -> generic_format radix2 fexp64 r /\ Rabs r < bpow radix2 1024;
  v_tadd : forall x y, vT (tadd A x y) = rndx pT eT (xadd (vT x) (vT y));
  v_tsub : forall x y, vT (tsub A x y) = rndx pT eT (xsub (vT x) (vT y));
  v_tmul : forall x y, vT (tmul A x y) = rndx pT eT (xmul (vT x) (vT y));
  v_tdiv : forall x y, vT y <> Fin 0 -> vT (tdiv A x y) = rndx pT eT (xdiv (vT x) (vT y));
  v_tdiv0 : forall x y, vT y = Fin 0 ->
    vT (tdiv A x y) = NaN /\ (vT x = Fin 0 \/ vT x = NaN) \/
    (vT (tdiv A x y) = PInf \/ vT (tdiv A x y) = NInf) /\ vT x <> Fin 0 /\ vT x <> NaN;
  v_tneg : forall x, vT (tneg A x) = xneg (vT x);
  v_tabs : forall x, vT (tabs A x) = xabs (vT x);
  v_tlt : forall x y, tlt A x y = xlt (vT x) (vT y);
  v_tle : forall x y, tle A x y = xle (vT x) (vT y);
  v_teq : forall x y, teq A x y = xeq (vT x) (vT y);
  v_tofZ : forall z, vT (tofZ A z) = rndx pT eT (Fin (IZR z));
  v_ttoint : forall x, ttoint A x = match xtoint (vT x) with Some z => Some z | None => oob end;
  v_dadd : forall x y, vD (dadd A x y) = rndx 53 1024 (xadd (vD x) (vD y));
  v_dsub : forall x y, vD (dsub A x y) = rndx 53 1024 (xsub (vD x) (vD y));
  v_dmul : forall x y, vD (dmul A x y) = rndx 53 1024 (xmul (vD x) (vD y));
  v_ddiv : forall x y, vD y <> Fin 0 -> vD (ddiv A x y) = rndx 53 1024 (xdiv (vD x) (vD y));
  v_ddiv0 : forall x y, vD y = Fin 0 ->
    vD (ddiv A x y) = NaN /\ (vD x = Fin 0 \/ vD x = NaN) \/
    (vD (ddiv A x y) = PInf \/ vD (ddiv A x y) = NInf) /\ vD x <> Fin 0 /\ vD x <> NaN;
  v_dsqrt : forall x, vD (dsqrt A x) = rndx 53 1024 (xsqrt (vD x));
  v_dneg : forall x, vD (dneg A x) = xneg (vD x);
  v_dabs : forall x, vD (dabs A x) = xabs (vD x);
  v_dlt : forall x y, dlt A x y = xlt (vD x) (vD y);
  v_dle : forall x y, dle A x y = xle (vD x) (vD y);
  v_deq : forall x y, deq A x y = xeq (vD x) (vD y);
  v_dofZ : forall z, vD (dofZ A z) = rndx 53 1024 (Fin (IZR z));
  v_dtoint : forall x, dtoint A x = match xtoint (vD x) with Some z => Some z | None => oob end;
  v_t2d : forall x, vD (t2d A x) = vT x;
  v_d2t : forall x, vT (d2t A x) = rndx pT eT (vD x);
  v_eps : vD (eps_double A) = Fin (bpow radix2 (-52));
  v_epsf : vD (eps_float A) = Fin (bpow radix2 (-23));
}.

(** ** Rounding *)
Section Rnd.
Variables prec emax : Z.
Context (Hp : Prec_gt_0 prec) (He : Prec_lt_emax prec emax).
Local Notation fexp := (SpecFloat.fexp prec emax).
Local Notation rnd := (round radix2 fexp ZnearestE).
Local Instance fexp_valid' : Valid_exp fexp := fexp_correct prec emax Hp.

Lemma rnd_id r : generic_format radix2 fexp r -> rnd r = r.
Proof. intros. apply round_generic; auto with typeclass_instances. Qed.
Lemma rnd_le a b : a <= b -> rnd a <= rnd b.
Proof. intros. apply round_le; auto with typeclass_instances. Qed.
Lemma rnd_0 : rnd 0 = 0.
Proof. apply round_0. auto with typeclass_instances. Qed.
Lemma rnd_abs r : rnd (Rabs r) = Rabs (rnd r).
Proof. apply round_NE_abs. auto with typeclass_instances. Qed.
Lemma rnd_opp r : rnd (- r) = - rnd r.
Proof. apply round_NE_opp. Qed.

Lemma fmt_bpow e : (3 - emax - prec <= e)%Z -> generic_format radix2 fexp (bpow radix2 e).
Proof.
  intros H. apply generic_format_bpow. unfold SpecFloat.fexp, SpecFloat.emin. pose proof Hp as P. unfold Prec_gt_0 in P. lia.
Qed.

Lemma fmt_IZR z : (Z.abs z <= 2 ^ prec)%Z -> (prec <= emax + prec - 3)%Z -> generic_format radix2 fexp (IZR z).
Proof.
  intros H H2. pose proof Hp as P. unfold Prec_gt_0 in P.
  destruct (Z.eq_dec (Z.abs z) (2 ^ prec)) as [E|N].
  - assert (G : generic_format radix2 fexp (IZR (Z.abs z))).
    { rewrite E. change (IZR (2 ^ prec)) with (IZR (radix2 ^ prec)). rewrite IZR_Zpower by lia. apply fmt_bpow. lia. }
    destruct (Z.abs_eq_or_opp z) as [E'|E']; rewrite E' in G; auto. rewrite opp_IZR in G.
    rewrite <- (Ropp_involutive (IZR z)). apply generic_format_opp. auto.
  - apply (generic_format_FLT radix2 (3 - emax - prec) prec).
    exists (Float radix2 z 0).
    + unfold F2R; cbn. lra.
    + cbn [Fnum]. change (radix_val radix2) with 2%Z. lia.
    + cbn [Fexp]. lia.
Qed.

Lemma sat_fin r : Rabs r < bpow radix2 emax -> sat emax r = Fin r.
Proof. apply sat_small. Qed.

Lemma sat_cases r : (sat emax r = Fin r /\ Rabs r < bpow radix2 emax) \/
  (sat emax r = PInf /\ bpow radix2 emax <= r) \/ (sat emax r = NInf /\ r <= - bpow radix2 emax).
Proof.
  unfold sat. pose proof (bpow_gt_0 radix2 emax). case Rlt_bool_spec; intros H1; [auto|]. right.
  case Rlt_bool_spec; intros H2.
  - left. split; auto. rewrite Rabs_pos_eq in H1; lra.
  - right. split; auto. rewrite Rabs_left1 in H1; lra.
Qed.

Lemma rndx_fin r : generic_format radix2 fexp r -> Rabs r < bpow radix2 emax -> rndx prec emax (Fin r) = Fin r.
Proof. intros G B. cbn [rndx]. rewrite rnd_id by auto. apply sat_fin; auto. Qed.

(** Rounding does not cross representable bounds. *)
Lemma rnd_bound r b : generic_format radix2 fexp b -> Rabs r <= b -> Rabs (rnd r) <= b.
Proof.
  intros G H. rewrite <- rnd_abs. rewrite <- (rnd_id b G). apply rnd_le; auto.
Qed.
Lemma rnd_bound_ge r b : generic_format radix2 fexp b -> b <= Rabs r -> b <= Rabs (rnd r).
Proof.
  intros G H. rewrite <- rnd_abs. rewrite <- (rnd_id b G) at 1. apply rnd_le; auto.
Qed.

Lemma rndx_notnan x : x <> NaN -> rndx prec emax x <> NaN.
Proof.
  destruct x; cbn [rndx]; auto. intros _. destruct (sat_cases (rnd r)) as [[-> _]|[[-> _]|[-> _]]]; discriminate.
Qed.
Lemma rndx_nan x : rndx prec emax x = NaN -> x = NaN.
Proof. intros H. destruct x; cbn [rndx] in *; try discriminate; auto. destruct (sat_cases (rnd r)) as [[E _]|[[E _]|[E _]]]; congruence. Qed.
Lemma rndx_fin_inv x r : rndx prec emax x = Fin r -> exists a, x = Fin a /\ r = rnd a /\ Rabs r < bpow radix2 emax.
Proof.
  destruct x as [a| | |]; cbn [rndx]; try discriminate. intros E.
  destruct (sat_cases (rnd a)) as [[E' H]|[[E' H]|[E' H]]]; rewrite E' in E; inversion E; subst; eauto.
Qed.
End Rnd.

(** ** Instances *)
Lemma two_pow64_val e : (-1074 <= e < 1024)%Z -> val64 (two_pow64 e) = Fin (bpow radix2 e).
Proof.
  intros H. unfold two_pow64. rewrite val_normalize.
  assert (E : F2R (Float radix2 1 e) = bpow radix2 e) by (unfold F2R; cbn; lra).
  rewrite E. rewrite (rnd_id 53 1024) by (apply (fmt_bpow 53 1024 eq_refl); lia).
  apply sat_small. rewrite Rabs_pos_eq by apply bpow_ge_0. apply bpow_lt. lia.
Qed.

Definition DA_ieee lm : ieee (DA lm).
Proof.
  refine {| pT := 53; eT := 1024; HpT := eq_refl; HeT := eq_refl; oob := lm_oob lm; vT := val64 : T (DA lm) -> XR; vD := val64 : D (DA lm) -> XR |};
    cbn [DA T D tadd tsub tmul tdiv tneg tabs tlt tle teq tofZ ttoint dadd dsub dmul ddiv dneg dabs dsqrt dlt dle deq dofZ dtoint t2d d2t eps_double eps_float];
    intros; try lia.
  1: { unfold lm_oob. destruct (lm_x86 lm); auto. }
  all: try (apply (val_format 53 1024 eq_refl _ _ H)).
  all: unfold b64_plus, b64_minus, b64_mult, b64_div, b64_opp, b64_abs, b64_ofZ, b64_sqrt.
  all: try first [apply val_plus|apply val_minus|apply val_mult|apply val_div; assumption|apply val_div_zero; assumption
                 |apply val_opp|apply val_sqrt|apply val_abs|apply val_lt|apply val_le|apply val_eq|apply val_ofZ|apply val_toint
                 |reflexivity|apply two_pow64_val; lia].
  all: try reflexivity.
  destruct (val64 x) eqn:E; try reflexivity. symmetry.
  destruct (val_format 53 1024 eq_refl _ _ E). apply (rndx_fin 53 1024); auto.
Defined.

Definition FA_ieee lm : ieee (FA lm).
Proof.
  refine {| pT := 24; eT := 128; HpT := eq_refl; HeT := eq_refl; oob := lm_oob lm; vT := val32 : T (FA lm) -> XR; vD := val64 : D (FA lm) -> XR |};
    cbn [FA T D tadd tsub tmul tdiv tneg tabs tlt tle teq tofZ ttoint dadd dsub dmul ddiv dneg dabs dsqrt dlt dle deq dofZ dtoint t2d d2t eps_double eps_float];
    intros; try lia.
  1: { unfold lm_oob. destruct (lm_x86 lm); auto. }
  all: try (apply (val_format 53 1024 eq_refl _ _ H)).
  all: try (apply (val_format 24 128 eq_refl _ _ H)).
  all: unfold b64_plus, b64_minus, b64_mult, b64_div, b64_opp, b64_abs, b64_ofZ, b32_plus, b32_minus, b32_mult, b32_div, b32_opp, b32_abs, b32_ofZ, b64_sqrt.
  all: try first [apply val_plus|apply val_minus|apply val_mult|apply val_div; assumption|apply val_div_zero; assumption
                 |apply val_opp|apply val_sqrt|apply val_abs|apply val_lt|apply val_le|apply val_eq|apply val_ofZ|apply val_toint
                 |reflexivity|apply two_pow64_val; lia|apply val_of_b32|apply val_of_b64].
  all: try reflexivity.
Defined.
