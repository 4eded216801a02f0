(** The correlation verify() computes lies between -1 and 1 up to rounding, for arrays that are not constant.  Nothing of /repo is modelled here. *)
From Coq Require Import Reals Lra Lia ZArith List Bool.
From Coq Require Import ZifyBool ZifyNat.
From Flocq Require Import Plus_error Relative.
From Flocq Require Import Core.Core IEEE754.BinarySingleNaN IEEE754.Binary IEEE754.Bits.
From Verif Require Import Base Arith Exact IEEE IEEELaws RelaxErr2D Api2D HuffProps Verify VerifyStats VerifyCorr.
Import ListNotations.
Local Open Scope Z_scope.

Section Sums.
Local Open Scope R_scope.
Fixpoint rsum {X} (F : X -> R) (l : list X) : R := match l with [] => 0 | x :: l => F x + rsum F l end.

Lemma rsum_nonneg {X} (F : X -> R) l : (forall x, In x l -> 0 <= F x) -> 0 <= rsum F l.
Proof. induction l as [|x l IH]; cbn [rsum]; intros H; [lra|]. pose proof (H x (or_introl eq_refl)). assert (0 <= rsum F l) by (apply IH; intros; apply H; right; auto). lra. Qed.
Lemma rsum_mem {X} (F : X -> R) l x : (forall x, In x l -> 0 <= F x) -> In x l -> F x <= rsum F l.
Proof.
  induction l as [|y l IH]; cbn [rsum]; intros H; [intros []|]. pose proof (H y (or_introl eq_refl)). assert (Z : 0 <= rsum F l) by (apply rsum_nonneg; intros; apply H; right; auto).
  intros [<-|HI]; [lra|]. assert (F x <= rsum F l) by (apply IH; auto; intros; apply H; right; auto). lra.
Qed.
(** Values that differ from [c * G x] by at most [h]. *)
Lemma rsum_le {X} (F G : X -> R) c h l : (forall x, In x l -> F x <= c * G x + h) -> rsum F l <= c * rsum G l + INR (length l) * h.
Proof.
  induction l as [|x l IH]; cbn [rsum length]; intros H; [cbn; lra|]. pose proof (H x (or_introl eq_refl)). assert (rsum F l <= c * rsum G l + INR (length l) * h) by (apply IH; intros; apply H; right; auto).
  rewrite S_INR. lra.
Qed.
Lemma rsum_ge {X} (F G : X -> R) c h l : (forall x, In x l -> c * G x - h <= F x) -> c * rsum G l - INR (length l) * h <= rsum F l.
Proof.
  induction l as [|x l IH]; cbn [rsum length]; intros H; [cbn; lra|]. pose proof (H x (or_introl eq_refl)). assert (c * rsum G l - INR (length l) * h <= rsum F l) by (apply IH; intros; apply H; right; auto).
  rewrite S_INR. lra.
Qed.

(** Cauchy and Schwarz, for lists of pairs. *)
Lemma cauchy {X Y} (F : X -> R) (G : Y -> R) xs : forall ys, length ys = length xs ->
  0 <= rsum (fun xy => Rabs (F (fst xy) * G (snd xy))) (combine xs ys) /\
  Rsqr (rsum (fun xy => Rabs (F (fst xy) * G (snd xy))) (combine xs ys)) <= rsum (fun xy => F (fst xy) * F (snd xy)) (combine xs xs) * rsum (fun xy => G (fst xy) * G (snd xy)) (combine ys ys) /\
  0 <= rsum (fun xy => F (fst xy) * F (snd xy)) (combine xs xs) /\ 0 <= rsum (fun xy => G (fst xy) * G (snd xy)) (combine ys ys).
Proof.
  induction xs as [|x xs IH]; intros [|y ys] HL; try discriminate; cbn [combine rsum fst snd]; [unfold Rsqr; repeat split; lra|].
  destruct (IH ys) as (H1 & H2 & H3 & H4); [cbn in HL; lia|]. rewrite Rabs_mult.
  set (S := rsum _ (combine xs ys)) in *. set (P := rsum _ (combine xs xs)) in *. set (Q := rsum _ (combine ys ys)) in *.
  assert (EX : F x * F x = Rabs (F x) * Rabs (F x)) by (rewrite <- Rabs_mult, Rabs_pos_eq; [reflexivity|apply Rle_0_sqr]).
  assert (EY : G y * G y = Rabs (G y) * Rabs (G y)) by (rewrite <- Rabs_mult, Rabs_pos_eq; [reflexivity|apply Rle_0_sqr]).
  rewrite EX, EY. pose proof (Rabs_pos (F x)) as A1. pose proof (Rabs_pos (G y)) as A2. set (p := Rabs (F x)) in *. set (q := Rabs (G y)) in *. clearbody S P Q p q. clear -H1 H2 H3 H4 A1 A2.
  assert (PQ : 0 <= p * q) by (apply Rmult_le_pos; auto).
  assert (K : 2 * (S * (p * q)) <= P * (q * q) + Q * (p * p)).
  { apply Rsqr_incr_0_var.
    - assert (C : Rsqr (2 * (S * (p * q))) = 4 * Rsqr S * Rsqr (p * q)) by (unfold Rsqr; ring).
      assert (D : Rsqr (P * (q * q) + Q * (p * p)) = 4 * (P * Q) * Rsqr (p * q) + Rsqr (P * (q * q) - Q * (p * p))) by (unfold Rsqr; ring).
      rewrite C, D. pose proof (Rle_0_sqr (P * (q * q) - Q * (p * p))). pose proof (Rle_0_sqr (p * q)).
      assert (4 * Rsqr S * Rsqr (p * q) <= 4 * (P * Q) * Rsqr (p * q)) by (apply Rmult_le_compat_r; lra). lra.
    - apply Rplus_le_le_0_compat; apply Rmult_le_pos; auto; apply Rmult_le_pos; auto. }
  repeat split.
  - lra.
  - unfold Rsqr in *. replace ((p * q + S) * (p * q + S)) with (p * q * (p * q) + 2 * (S * (p * q)) + S * S) by ring.
    replace ((p * p + P) * (q * q + Q)) with (p * q * (p * q) + (P * (q * q) + Q * (p * p)) + P * Q) by ring. lra.
  - pose proof (Rmult_le_pos _ _ A1 A1). lra.
  - pose proof (Rmult_le_pos _ _ A2 A2). lra.
Qed.
End Sums.

Section Laws.
Context (A : Arith) (I : ieee A).
Notation vT := (vT A I).
Notation vD := (vD A I).
Notation pT := (pT A I).
Notation eT := (eT A I).
Local Open Scope R_scope.
Local Notation rnd64 := (round radix2 fexp64 ZnearestE).
Local Notation u := (bpow radix2 (-53)).

Lemma add_rel a b : generic_format radix2 fexp64 a -> generic_format radix2 fexp64 b ->
  Rabs (rnd64 (a + b)) <= (Rabs a + Rabs b) * (1 + u) /\ (0 <= a + b -> (a + b) * (1 - u) <= rnd64 (a + b)).
Proof.
  intros Ga Gb. assert (P53 : Prec_gt_0 53) by reflexivity. destruct (FLT_plus_error_N_ex radix2 (-1074) 53 (fun z => negb (Z.even z)) a b Ga Gb) as (eps & He & E).
  change (round radix2 (FLT_exp (-1074) 53) (Znearest (fun z => negb (Z.even z))) (a + b)) with (rnd64 (a + b)) in E. rewrite E.
  assert (U : Relative.u_ro radix2 53 = u) by (unfold Relative.u_ro; rewrite bpow_plus; change (bpow radix2 1) with 2; change (- (53))%Z with (-53)%Z; lra).
  rewrite U in He. pose proof (bpow_gt_0 radix2 (-53)) as P.
  assert (Q : u / (1 + u) <= u) by (apply Rle_trans with (u * / 1); [|lra]; apply Rmult_le_compat_l; [lra|]; apply Rinv_le; lra).
  apply Rabs_le_inv in He. split.
  - rewrite Rabs_mult. apply Rmult_le_compat; [apply Rabs_pos|apply Rabs_pos|apply Rabs_triang|]. apply Rabs_le. assert (u <= 1) by (change 1 with (bpow radix2 0); apply bpow_le; lia). lra.
  - intros H. apply Rmult_le_compat_l; lra.
Qed.

(** A sum added up one by one: upper and lower bounds relative to the exact sum. *)
Lemma sum_rel {X} (f : X -> D A) (E : X -> R) k l : (-1074 <= k)%Z -> (k + 53 < 1024)%Z -> forall s a c, vD s = Fin a -> Rabs a <= INR c * bpow radix2 k ->
  (Z.of_nat (c + length l) < 2 ^ 53)%Z -> (forall x, In x l -> vD (f x) = Fin (E x) /\ Rabs (E x) <= bpow radix2 k) ->
  exists a', vD (fold_left (fun s x => dadd A s (f x)) l s) = Fin a' /\ Rabs a' <= (Rabs a + rsum (fun x => Rabs (E x)) l) * (1 + u) ^ length l /\
    (0 <= a -> (forall x, In x l -> 0 <= E x) -> (a + rsum E l) * (1 - u) ^ length l <= a').
Proof.
  intros K1 K2. assert (U1 : u < 1) by (change 1 with (bpow radix2 0); apply bpow_lt; lia). assert (U0 : 0 < u) by apply bpow_gt_0.
  induction l as [|x l IH]; intros s a c Vs Ha Hl HF; cbn [fold_left length rsum pow] in *.
  - exists a. split; [exact Vs|]. split; [lra|]. intros; lra.
  - destruct (HF x) as (Ve & He); [left; reflexivity|]. set (e := E x) in *.
    assert (G : generic_format radix2 fexp64 (INR (S c) * bpow radix2 k)).
    { apply (generic_format_FLT radix2 (-1074) 53). exists (Float radix2 (Z.of_nat (S c)) k).
      - unfold F2R. cbn [Fnum Fexp]. rewrite <- INR_IZR_INZ. reflexivity.
      - cbn [Fnum]. change (radix_val radix2) with 2%Z. lia.
      - cbn [Fexp]. lia. }
    assert (B : Rabs (rnd64 (a + e)) <= INR (S c) * bpow radix2 k).
    { apply (rnd_bound 53 1024 eq_refl); [exact G|]. eapply Rle_trans; [apply Rabs_triang|]. rewrite S_INR. lra. }
    assert (V1 : vD (dadd A s (f x)) = Fin (rnd64 (a + e))).
    { rewrite (v_dadd A I), Vs, Ve. cbn [xadd rndx]. apply sat_fin. eapply Rle_lt_trans; [exact B|].
      apply Rlt_le_trans with (bpow radix2 53 * bpow radix2 k); [|rewrite <- bpow_plus; apply bpow_le; lia].
      apply Rmult_lt_compat_r; [apply bpow_gt_0|]. rewrite INR_IZR_INZ. change (bpow radix2 53) with (IZR (2 ^ 53)). apply IZR_lt. lia. }
    replace (c + S (length l))%nat with (S c + length l)%nat in * by lia.
    destruct (vD_fmt A I _ _ Vs) as [Ga _]. destruct (vD_fmt A I _ _ Ve) as [Ge _]. destruct (add_rel a e Ga Ge) as [R1 R2].
    destruct (IH _ _ (S c) V1 B Hl (fun y Hy => HF y (or_intror Hy))) as (a' & V & H1 & H2). exists a'. split; [exact V|].
    assert (Z : 0 <= rsum (fun x => Rabs (E x)) l) by (apply rsum_nonneg; intros; apply Rabs_pos).
    set (r := rnd64 (a + e)) in *. set (w := rsum (fun x => Rabs (E x)) l) in *. split.
    + eapply Rle_trans; [exact H1|]. rewrite <- Rmult_assoc. apply Rmult_le_compat_r; [apply pow_le; lra|]. pose proof (Rabs_pos a). pose proof (Rabs_pos e). nra.
    + intros A0 HP. assert (E0 : 0 <= e) by (apply HP; left; reflexivity). specialize (R2 ltac:(lra)).
      assert (Z' : 0 <= rsum E l) by (apply rsum_nonneg; intros; apply HP; right; auto). set (w' := rsum E l) in *.
      assert (P0 : 0 <= (a + e) * (1 - u)) by (apply Rmult_le_pos; lra).
      eapply Rle_trans; [|apply H2; [lra|intros; apply HP; right; auto]]. rewrite <- Rmult_assoc. apply Rmult_le_compat_r; [apply pow_le; lra|]. nra.
Qed.

Lemma mean_val xs n k : (-1074 <= k)%Z -> (k + 53 < 1000)%Z -> (0 < n)%nat -> (Z.of_nat n <= 2 ^ 30)%Z -> length xs = n ->
  (forall x, In x xs -> exists a, vT x = Fin a /\ Rabs a <= bpow radix2 k) ->
  exists m, vD (mean A xs (dofZ A (Z.of_nat n))) = Fin m /\ Rabs m <= bpow radix2 k.
Proof.
  intros K1 K2 Hn NB LX HX.
  assert (N1 : 1 <= INR n) by (change 1 with (INR 1); apply le_INR; lia).
  assert (NV : vD (dofZ A (Z.of_nat n)) = Fin (INR n)) by (rewrite (dofZ_small A I), <- INR_IZR_INZ by lia; reflexivity).
  assert (V0 : vD (dofZ A 0) = Fin 0) by (apply (dofZ_small A I); lia).
  destruct (sum_abs A I (t2d A) k xs) with (s := dofZ A 0) (a := 0) (c := 0%nat) as (sm & VS & BS); try lia; auto.
  { rewrite Rabs_R0. cbn. lra. }
  { intros x Hx. destruct (HX x Hx) as (a & Va & Ba). exists a. split; [rewrite (v_t2d A I); exact Va|exact Ba]. }
  cbn [plus] in BS. rewrite LX in BS.
  assert (QB : Rabs (sm / INR n) <= bpow radix2 k).
  { unfold Rdiv. rewrite Rabs_mult, (Rabs_pos_eq (/ INR n)) by (left; apply Rinv_0_lt_compat; lra).
    apply Rmult_le_reg_r with (INR n); [lra|]. rewrite Rmult_assoc, Rinv_l, Rmult_1_r by lra. lra. }
  exists (rnd64 (sm / INR n)). split.
  - unfold mean. apply (quot64 A I); auto; [lra|]. eapply Rle_trans; [exact QB|]. apply bpow_le. lia.
  - apply (rnd_bound 53 1024 eq_refl); [apply (fmt_bpow 53 1024 eq_refl); lia|exact QB].
Qed.

(** The value of a number, 0 if it is none; the rounded distance from the mean. *)
Definition rv (x : D A) : R := match vD x with Fin a => a | _ => 0 end.
Definition dv (m : R) (x : D A) : R := rnd64 (rv x - m).

Lemma dev x mu m k : (-1074 <= k + 1)%Z -> (k + 1 < 1024)%Z -> vD mu = Fin m -> Rabs m <= bpow radix2 k -> (exists a, vD x = Fin a /\ Rabs a <= bpow radix2 k) ->
  vD (dsub A x mu) = Fin (dv m x) /\ Rabs (dv m x) <= bpow radix2 (k + 1).
Proof.
  intros K1 K2 Vm Bm (a & Va & Ba). unfold dv, rv. rewrite Va. 
  assert (TB : Rabs (rnd64 (a - m)) <= bpow radix2 (k + 1)).
  { apply (rnd_bound 53 1024 eq_refl); [apply (fmt_bpow 53 1024 eq_refl); lia|]. rewrite bpow_plus. change (bpow radix2 1) with 2.
    apply Rabs_le. apply Rabs_le_inv in Ba, Bm. lra. }
  split; [|exact TB]. rewrite (v_dsub A I), Va, Vm. cbn [xsub rndx]. apply sat_fin. eapply Rle_lt_trans; [exact TB|]. apply bpow_lt. lia.
Qed.

(** The three sums. *)
Lemma prods xs ys m1 m2 mu1 mu2 k : (-400 <= k)%Z -> (2 * k + 85 < 900)%Z -> (0 < length xs)%nat -> (Z.of_nat (length xs) <= 2 ^ 30)%Z -> length ys = length xs ->
  vD mu1 = Fin m1 -> Rabs m1 <= bpow radix2 k -> vD mu2 = Fin m2 -> Rabs m2 <= bpow radix2 k ->
  (forall x, In x xs \/ In x ys -> exists a, vD x = Fin a /\ Rabs a <= bpow radix2 k) ->
  exists S, vD (sum_prod A (combine xs ys) mu1 mu2) = Fin S /\
    Rabs S <= (rsum (fun xy => Rabs (dv m1 (fst xy) * dv m2 (snd xy))) (combine xs ys) * (1 + u) + INR (length xs) * bpow radix2 (-1074)) * (1 + bpow radix2 (-22)) /\
    ((forall x y, In (x, y) (combine xs ys) -> 0 <= dv m1 x * dv m2 y) ->
      (rsum (fun xy => dv m1 (fst xy) * dv m2 (snd xy)) (combine xs ys) * (1 - u) - INR (length xs) * bpow radix2 (-1074)) * (1 - bpow radix2 (-23)) <= S /\ 0 <= S).
Proof.
  intros K1 K2 Hn NB LL V1 B1 V2 B2 HX. set (n := length xs) in *.
  assert (N1 : 1 <= INR n) by (change 1 with (INR 1); apply le_INR; lia).
  assert (N2 : INR n <= bpow radix2 30) by (rewrite INR_IZR_INZ; change (bpow radix2 30) with (IZR (2 ^ 30)); apply IZR_le; lia).
  assert (V0 : vD (dofZ A 0) = Fin 0) by (apply (dofZ_small A I); lia).
  assert (LC : length (combine xs ys) = n) by (rewrite combine_length; lia).
  assert (HP : forall xy, In xy (combine xs ys) -> vD (dmul A (dsub A (fst xy) mu1) (dsub A (snd xy) mu2)) = Fin (rnd64 (dv m1 (fst xy) * dv m2 (snd xy))) /\
     Rabs (rnd64 (dv m1 (fst xy) * dv m2 (snd xy))) <= bpow radix2 (2 * k + 2)).
  { intros [x y] HI. cbn [fst snd]. pose proof (in_combine_l _ _ _ _ HI) as Hx. pose proof (in_combine_r _ _ _ _ HI) as Hy.
    destruct (dev x mu1 m1 k ltac:(lia) ltac:(lia) V1 B1 (HX x (or_introl Hx))) as [D1 D2]. destruct (dev y mu2 m2 k ltac:(lia) ltac:(lia) V2 B2 (HX y (or_intror Hy))) as [D3 D4].
    assert (PB : Rabs (rnd64 (dv m1 x * dv m2 y)) <= bpow radix2 (2 * k + 2)).
    { apply (rnd_bound 53 1024 eq_refl); [apply (fmt_bpow 53 1024 eq_refl); lia|]. rewrite Rabs_mult.
      replace (2 * k + 2)%Z with ((k + 1) + (k + 1))%Z by lia. rewrite bpow_plus. apply Rmult_le_compat; auto using Rabs_pos. }
    split; [|exact PB]. rewrite (v_dmul A I), D1, D3. cbn [xmul rndx]. apply sat_fin. eapply Rle_lt_trans; [exact PB|]. apply bpow_lt. lia. }
  destruct (sum_rel (fun xy => dmul A (dsub A (fst xy) mu1) (dsub A (snd xy) mu2)) (fun xy => rnd64 (dv m1 (fst xy) * dv m2 (snd xy))) (2 * k + 2) (combine xs ys))
    with (s := dofZ A 0) (a := 0) (c := 0%nat) as (S & VS & S1 & S2); try lia; auto.
  { rewrite Rabs_R0. cbn. lra. }
  rewrite LC in S1, S2. exists S. split; [exact VS|]. rewrite Rabs_R0, Rplus_0_l in S1.
  assert (B53 : u = / 9007199254740992) by reflexivity. assert (B30 : bpow radix2 30 = 1073741824) by reflexivity.
  assert (ER : forall z, Rabs (rnd64 z - z) <= u * Rabs z + bpow radix2 (-1074)) by (intros z; apply (rnd_err 53 1024 eq_refl)).
  split.
  - eapply Rle_trans; [exact S1|].
    assert (W : (1 + u) ^ n <= 1 + bpow radix2 (-22)).
    { eapply Rle_trans; [apply pow_small; [rewrite B53; lra|]|]; rewrite B53; [lra|]. change (bpow radix2 (-22)) with (/ 4194304). lra. }
    apply Rmult_le_compat; [apply rsum_nonneg; intros; apply Rabs_pos|apply pow_le; rewrite B53; lra| |exact W].
    rewrite (Rmult_comm _ (1 + u)). rewrite <- LC. apply rsum_le. intros xy _. specialize (ER (dv m1 (fst xy) * dv m2 (snd xy))).
    set (z := dv m1 (fst xy) * dv m2 (snd xy)) in *. replace (rnd64 z) with (z + (rnd64 z - z)) by ring. eapply Rle_trans; [apply Rabs_triang|]. lra.
  - intros H0.
    assert (E0 : forall xy, In xy (combine xs ys) -> 0 <= rnd64 (dv m1 (fst xy) * dv m2 (snd xy))).
    { intros [x y] HI. cbn [fst snd]. rewrite <- (rnd_0 53 1024). apply (rnd_le 53 1024 eq_refl). apply H0. exact HI. }
    specialize (S2 (Rle_refl 0) E0). rewrite Rplus_0_l in S2.
    assert (W : 1 - bpow radix2 (-23) <= (1 - u) ^ n).
    { assert (G : forall j, (1 - INR j * u <= (1 - u) ^ j)).
      { intros j. assert (u < 1) by (rewrite B53; lra). assert (0 < u) by apply bpow_gt_0. induction j as [|j IH]; [cbn; lra|]. rewrite S_INR. cbn [pow].
        apply Rle_trans with ((1 - u) * (1 - INR j * u)); [|apply Rmult_le_compat_l; lra]. pose proof (pos_INR j). assert (0 <= u * (INR j * u)) by (apply Rmult_le_pos; [lra|apply Rmult_le_pos; lra]). lra. }
      eapply Rle_trans; [|apply G]. rewrite B53. change (bpow radix2 (-23)) with (/ 8388608). lra. }
    assert (E1 : 0 <= rsum (fun xy => rnd64 (dv m1 (fst xy) * dv m2 (snd xy))) (combine xs ys)) by (apply rsum_nonneg; exact E0).
    assert (PW : 0 <= 1 - bpow radix2 (-23)) by (change (bpow radix2 (-23)) with (/ 8388608); lra).
    split; [|eapply Rle_trans; [|exact S2]; apply Rmult_le_pos; [exact E1|lra]].
    eapply Rle_trans; [|exact S2]. eapply Rle_trans; [|apply Rmult_le_compat_l; [exact E1|exact W]].
    apply Rmult_le_compat_r; [exact PW|]. rewrite (Rmult_comm _ (1 - u)). rewrite <- LC. apply rsum_ge. intros [x y] HI. cbn [fst snd]. specialize (ER (dv m1 x * dv m2 y)).
    rewrite (Rabs_pos_eq (dv m1 x * dv m2 y)) in ER by (apply H0; exact HI). apply Rabs_le_inv in ER. lra.
Qed.

(** Some value is far from the mean. *)
Lemma far (xs : list (D A)) m g x y a b : (-1000 <= g)%Z -> (g < 900)%Z -> In x xs -> In y xs -> vD x = Fin a -> vD y = Fin b -> bpow radix2 g <= Rabs (a - b) ->
  bpow radix2 (2 * g - 2) <= rsum (fun xy => dv m (fst xy) * dv m (snd xy)) (combine xs xs).
Proof.
  intros G1 G2 Hx Hy Va Vb HD.
  assert (F : exists z c, In z xs /\ vD z = Fin c /\ bpow radix2 (g - 1) <= Rabs (c - m)).
  { replace (bpow radix2 g) with (bpow radix2 (g - 1) * 2) in HD by (replace g with (g - 1 + 1)%Z at 2 by lia; rewrite (bpow_plus _ (g - 1) 1); reflexivity).
    destruct (Rle_lt_dec (bpow radix2 (g - 1)) (Rabs (a - m))) as [H|H]; [exists x, a; auto|]. exists y, b. split; [auto|]. split; [auto|].
    assert (Rabs (a - b) <= Rabs (a - m) + Rabs (b - m)); [|lra]. replace (a - b) with ((a - m) + - (b - m)) by ring. eapply Rle_trans; [apply Rabs_triang|]. rewrite Rabs_Ropp. lra. }
  destruct F as (z & c & Hz & Vz & F). eapply Rle_trans; [|apply (rsum_mem _ _ (z, z)); [|apply in_combine_diag; exact Hz]].
  - cbn [fst snd]. unfold dv, rv. rewrite Vz.
    assert (T : bpow radix2 (g - 1) <= Rabs (rnd64 (c - m))) by (apply (rnd_bound_ge 53 1024 eq_refl); [apply (fmt_bpow 53 1024 eq_refl); lia|exact F]).
    set (t := rnd64 (c - m)) in *. rewrite <- (Rabs_pos_eq (t * t)) by (pose proof (Rle_0_sqr t) as Q; exact Q). rewrite Rabs_mult.
    replace (2 * g - 2)%Z with ((g - 1) + (g - 1))%Z by lia. rewrite bpow_plus. apply Rmult_le_compat; auto using bpow_ge_0.
  - intros [p q] HI. apply in_combine_same in HI. destruct HI as [<- _]. cbn [fst snd]. pose proof (Rle_0_sqr (dv m p)) as Q. exact Q.
Qed.

Lemma rnd_up x y : Rabs x <= y -> bpow radix2 (-1022) <= y -> Rabs (rnd64 x) <= y * (1 + u).
Proof.
  intros H HY. pose proof (rel_err 53 1024 y eq_refl HY) as [_ E]. change (- (53))%Z with (-53)%Z in E. eapply Rle_trans; [|exact E]. apply Rabs_le_inv in H. apply Rabs_le. split.
  - rewrite <- round_NE_opp. apply (rnd_le 53 1024 eq_refl). lra.
  - apply (rnd_le 53 1024 eq_refl). lra.
Qed.

(** The standard deviation is at least the root of the mean of the squares, up to rounding. *)
Lemma std_low Sx S n T : (0 < n)%nat -> (Z.of_nat n <= 2 ^ 30)%Z -> vD Sx = Fin S -> 0 <= S <= bpow radix2 950 -> bpow radix2 (-900) <= T ->
  (T * (1 - u) - INR n * bpow radix2 (-1074)) * (1 - bpow radix2 (-23)) <= S ->
  exists s, vD (dsqrt A (ddiv A Sx (dofZ A (Z.of_nat n)))) = Fin s /\ sqrt (T / INR n) * (1 - bpow radix2 (-22)) <= s.
Proof.
  intros Hn NB VS [S0 S9] TL HS.
  assert (N1 : 1 <= INR n) by (change 1 with (INR 1); apply le_INR; lia).
  assert (N2 : INR n <= bpow radix2 30) by (rewrite INR_IZR_INZ; change (bpow radix2 30) with (IZR (2 ^ 30)); apply IZR_le; lia).
  assert (NV : vD (dofZ A (Z.of_nat n)) = Fin (INR n)) by (rewrite (dofZ_small A I), <- INR_IZR_INZ by lia; reflexivity).
  assert (B53 : u = / 9007199254740992) by reflexivity. assert (B23 : bpow radix2 (-23) = / 8388608) by reflexivity. assert (B22 : bpow radix2 (-22) = / 4194304) by reflexivity.
  assert (T0 : 0 < T) by (eapply Rlt_le_trans; [apply bpow_gt_0|exact TL]).
  assert (NE : INR n * bpow radix2 (-1074) <= u * T).
  { apply Rle_trans with (bpow radix2 30 * bpow radix2 (-1074)); [apply Rmult_le_compat_r; [apply bpow_ge_0|exact N2]|].
    apply Rle_trans with (u * bpow radix2 (-900)); [rewrite <- !bpow_plus; apply bpow_le; lia|apply Rmult_le_compat_l; [apply bpow_ge_0|exact TL]]. }
  assert (SL : T * (1 - 2 * u) * (1 - bpow radix2 (-23)) <= S).
  { eapply Rle_trans; [|exact HS]. apply Rmult_le_compat_r; [rewrite B23; lra|]. lra. }
  assert (IN : 0 < / INR n) by (apply Rinv_0_lt_compat; lra).
  set (p2 := T / INR n). assert (PL : bpow radix2 (-930) <= p2).
  { unfold p2, Rdiv. change (-930)%Z with (-900 + - (30))%Z. rewrite bpow_plus, (bpow_opp _ 30). apply Rmult_le_compat; [apply bpow_ge_0|left; apply Rinv_0_lt_compat, bpow_gt_0|exact TL|apply Rinv_le; lra]. }
  assert (P0 : 0 < p2) by (eapply Rlt_le_trans; [apply bpow_gt_0|exact PL]).
  assert (QL : p2 * ((1 - 2 * u) * (1 - bpow radix2 (-23))) <= S / INR n).
  { unfold p2, Rdiv. apply Rle_trans with (T * (1 - 2 * u) * (1 - bpow radix2 (-23)) * / INR n); [lra|]. apply Rmult_le_compat_r; lra. }
  assert (QH : p2 * / 2 <= S / INR n) by (eapply Rle_trans; [|exact QL]; apply Rmult_le_compat_l; [lra|]; rewrite B53, B23; lra).
  assert (Q1 : bpow radix2 (-931) <= S / INR n).
  { eapply Rle_trans; [|exact QH]. change (-931)%Z with (-930 + -1)%Z. rewrite bpow_plus. change (bpow radix2 (-1)) with (/ 2). apply Rmult_le_compat_r; lra. }
  assert (Q2 : S / INR n <= bpow radix2 950).
  { unfold Rdiv. apply Rle_trans with (S * 1); [|lra]. apply Rmult_le_compat_l; [exact S0|]. rewrite <- Rinv_1. apply Rinv_le; lra. }
  pose proof (rel_err 53 1024 (S / INR n) eq_refl ltac:(eapply Rle_trans; [apply bpow_le|exact Q1]; lia)) as E. change (- (53))%Z with (-53)%Z in E.
  assert (QP : 0 < S / INR n) by (eapply Rlt_le_trans; [apply bpow_gt_0|exact Q1]).
  assert (VE : vD (ddiv A Sx (dofZ A (Z.of_nat n))) = Fin (rnd64 (S / INR n))).
  { apply (quot64 A I); auto; [lra|]. rewrite Rabs_pos_eq by lra. eapply Rle_trans; [exact Q2|]. apply bpow_le. lia. }
  assert (E9 : rnd64 (S / INR n) <= bpow radix2 950).
  { eapply Rle_trans; [apply Rle_abs|]. apply (rnd_bound 53 1024 eq_refl); [apply (fmt_bpow 53 1024 eq_refl); lia|]. rewrite Rabs_pos_eq by lra. exact Q2. }
  assert (E1 : bpow radix2 (-931) <= rnd64 (S / INR n)).
  { rewrite <- (rnd_id 53 1024 (bpow radix2 (-931))) by (apply (fmt_bpow 53 1024 eq_refl); lia). apply (rnd_le 53 1024 eq_refl). exact Q1. }
  set (e := rnd64 (S / INR n)) in *. assert (EP : 0 < e) by (eapply Rlt_le_trans; [apply bpow_gt_0|exact E1]).
  set (kap := 1 - bpow radix2 (-23) - 4 * u).
  assert (EK : p2 * kap <= e).
  { eapply Rle_trans; [|apply E]. apply Rle_trans with (p2 * ((1 - 2 * u) * (1 - bpow radix2 (-23))) * (1 - u)); [|apply Rmult_le_compat_r; [rewrite B53; lra|exact QL]].
    rewrite Rmult_assoc. apply Rmult_le_compat_l; [lra|]. unfold kap. rewrite B53, B23. lra. }
  assert (K01 : 0 <= kap <= 1) by (unfold kap; rewrite B53, B23; lra).
  assert (SQ : sqrt p2 * kap <= sqrt e).
  { eapply Rle_trans; [|apply sqrt_le_1_alt; exact EK]. rewrite sqrt_mult by lra. apply Rmult_le_compat_l; [apply sqrt_pos|apply sqrt_ge_self; exact K01]. }
  assert (SE1 : bpow radix2 (-466) <= sqrt e).
  { rewrite <- (sqrt_square (bpow radix2 (-466))) by apply bpow_ge_0. apply sqrt_le_1_alt. rewrite <- bpow_plus. eapply Rle_trans; [apply bpow_le|exact E1]. lia. }
  assert (SE2 : sqrt e <= bpow radix2 475).
  { rewrite <- (sqrt_square (bpow radix2 475)) by apply bpow_ge_0. apply sqrt_le_1_alt. rewrite <- bpow_plus. eapply Rle_trans; [exact E9|]. apply bpow_le. lia. }
  pose proof (rel_err 53 1024 (sqrt e) eq_refl ltac:(eapply Rle_trans; [apply bpow_le|exact SE1]; lia)) as G. change (- (53))%Z with (-53)%Z in G.
  exists (rnd64 (sqrt e)). split.
  - rewrite (v_dsqrt A I), VE. cbn [xsqrt]. rewrite Rlt_bool_false by lra. cbn [rndx]. apply sat_fin. apply Rle_lt_trans with (bpow radix2 475); [|apply bpow_lt; lia].
    apply (rnd_bound 53 1024 eq_refl); [apply (fmt_bpow 53 1024 eq_refl); lia|]. rewrite Rabs_pos_eq by apply sqrt_pos. exact SE2.
  - eapply Rle_trans; [|apply G]. apply Rle_trans with (sqrt p2 * kap * (1 - u)); [|apply Rmult_le_compat_r; [rewrite B53; lra|exact SQ]].
    rewrite Rmult_assoc. apply Rmult_le_compat_l; [apply sqrt_pos|]. unfold kap. rewrite B53, B23, B22. lra.
Qed.

(** Two of the first [n] values differ by at least 2^g. *)
Definition spread (l : list (T A)) (n : nat) (g : Z) : Prop :=
  exists i j x y a b, (i < n)%nat /\ (j < n)%nat /\ nth_error l i = Some x /\ nth_error l j = Some y /\ vT x = Fin a /\ vT y = Fin b /\ bpow radix2 g <= Rabs (a - b).

Theorem corr_range log10 ori dec n k g : (k + 1 < eT)%Z -> (3 - eT - pT <= k + 1)%Z -> (2 * k + 85 < 900)%Z -> (-400 <= k)%Z -> (-400 <= g <= k + 1)%Z ->
  (0 < n)%nat -> (Z.of_nat n <= 2 ^ 30)%Z -> (n <= length ori)%nat -> (n <= length dec)%nat ->
  (forall x, In x ori \/ In x dec -> exists a, vT x = Fin a /\ Rabs a <= bpow radix2 k) -> spread ori n g -> spread dec n g ->
  exists s c, verify_stats A log10 ori dec n = Some s /\ vD (s_ac s) = Fin c /\ Rabs c <= 1 + bpow radix2 (-20).
Proof.
  intros K1 K2 K3 K4 G1 Hn NB L1 L2 HF SP1 SP2.
  destruct (verify_report A I ori dec n k K1 K2 Hn L1 L2 HF) as (r & _ & _ & _ & _ & EV & _).
  assert (N1 : 1 <= INR n) by (change 1 with (INR 1); apply le_INR; lia).
  assert (N2 : INR n <= bpow radix2 30) by (rewrite INR_IZR_INZ; change (bpow radix2 30) with (IZR (2 ^ 30)); apply IZR_le; lia).
  assert (NV : vD (dofZ A (Z.of_nat n)) = Fin (INR n)) by (rewrite (dofZ_small A I), <- INR_IZR_INZ by lia; reflexivity).
  set (xs := firstn n ori). set (ys := firstn n dec).
  assert (LX : length xs = n) by (unfold xs; rewrite firstn_length; lia). assert (LY : length ys = n) by (unfold ys; rewrite firstn_length; lia).
  assert (FI : forall (l : list (T A)) x, In x (firstn n l) -> In x l) by (intros l x Hx; rewrite <- (firstn_skipn n l); apply in_or_app; left; exact Hx).
  destruct (mean_val xs n k ltac:(lia) ltac:(lia) Hn NB LX) as (m1 & V1 & B1); [intros x Hx; apply HF; left; apply FI; exact Hx|].
  destruct (mean_val ys n k ltac:(lia) ltac:(lia) Hn NB LY) as (m2 & V2 & B2); [intros x Hx; apply HF; right; apply FI; exact Hx|].
  set (mu1 := mean A xs (dofZ A (Z.of_nat n))) in *. set (mu2 := mean A ys (dofZ A (Z.of_nat n))) in *.
  set (dx := map (t2d A) xs). set (dy := map (t2d A) ys).
  assert (LDX : length dx = n) by (unfold dx; rewrite map_length; exact LX). assert (LDY : length dy = n) by (unfold dy; rewrite map_length; exact LY).
  assert (HD : forall x, In x dx \/ In x dy -> exists a, vD x = Fin a /\ Rabs a <= bpow radix2 k).
  { intros x [Hx|Hx]; apply in_map_iff in Hx; destruct Hx as (y & <- & Hy).
    - destruct (HF y (or_introl (FI _ _ Hy))) as (a & Va & Ba). exists a. split; [rewrite (v_t2d A I); exact Va|exact Ba].
    - destruct (HF y (or_intror (FI _ _ Hy))) as (a & Va & Ba). exists a. split; [rewrite (v_t2d A I); exact Va|exact Ba]. }
  assert (HX : forall x, In x dx \/ In x dx -> exists a, vD x = Fin a /\ Rabs a <= bpow radix2 k) by (intros x [H|H]; apply HD; left; exact H).
  assert (HY : forall x, In x dy \/ In x dy -> exists a, vD x = Fin a /\ Rabs a <= bpow radix2 k) by (intros x [H|H]; apply HD; right; exact H).
  assert (SPI : forall l (dl := map (t2d A) (firstn n l)) m, spread l n g -> bpow radix2 (2 * g - 2) <= rsum (fun xy => dv m (fst xy) * dv m (snd xy)) (combine dl dl)).
  { intros l dl m (i & j & x & y & a & b & Hi & Hj & Ei & Ej & Va & Vb & Hab).
    assert (IN : forall i y, (i < n)%nat -> nth_error l i = Some y -> In (t2d A y) dl).
    { intros i0 y0 H0 E0. unfold dl. apply in_map. apply (nth_error_In _ i0). rewrite nth_error_firstn_lt by exact H0. exact E0. }
    apply (far dl m g (t2d A x) (t2d A y) a b); try lia; eauto; rewrite (v_t2d A I); assumption. }
  pose proof (SPI ori m1 SP1) as T1. pose proof (SPI dec m2 SP2) as T2. cbv zeta in T1, T2. fold xs dx in T1. fold ys dy in T2.
  destruct (prods dx dx m1 m1 mu1 mu1 k) as (S1 & VS1 & U1 & W1); try lia; auto.
  destruct (prods dy dy m2 m2 mu2 mu2 k) as (S2 & VS2 & U2 & W2); try lia; auto.
  destruct (prods dx dy m1 m2 mu1 mu2 k) as (S3 & VS3 & U3 & _); try lia; auto.
  destruct W1 as [W1 W1p]. { intros x y HI. apply in_combine_same in HI. destruct HI as [<- _]. pose proof (Rle_0_sqr (dv m1 x)) as Q. exact Q. }
  destruct W2 as [W2 W2p]. { intros x y HI. apply in_combine_same in HI. destruct HI as [<- _]. pose proof (Rle_0_sqr (dv m2 x)) as Q. exact Q. }
  destruct (cauchy (dv m1) (dv m2) dx dy ltac:(lia)) as (C0 & C1 & C2 & C3).
  assert (TU : forall l m, length l = n -> (forall x, In x l -> Rabs (dv m x) <= bpow radix2 (k + 1)) ->
     rsum (fun xy => Rabs (dv m (fst xy) * dv m (snd xy))) (combine l l) <= INR n * bpow radix2 (2 * k + 2) /\
     rsum (fun xy => dv m (fst xy) * dv m (snd xy)) (combine l l) <= INR n * bpow radix2 (2 * k + 2)).
  { intros l m HL HB. assert (HS : rsum (fun xy => dv m (fst xy) * dv m (snd xy)) (combine l l) <= rsum (fun xy => Rabs (dv m (fst xy) * dv m (snd xy))) (combine l l)).
    { pose proof (rsum_le (fun xy => dv m (fst xy) * dv m (snd xy)) (fun xy => Rabs (dv m (fst xy) * dv m (snd xy))) 1 0 (combine l l)) as Q. rewrite Rmult_1_l, Rmult_0_r, Rplus_0_r in Q. apply Q.
      intros xy _. rewrite Rmult_1_l, Rplus_0_r. apply Rle_abs. }
    cut (rsum (fun xy => Rabs (dv m (fst xy) * dv m (snd xy))) (combine l l) <= INR n * bpow radix2 (2 * k + 2)); [intros Z; split; [exact Z|eapply Rle_trans; [exact HS|exact Z]]|].
    assert (LC : length (combine l l) = n) by (rewrite combine_length; lia). rewrite <- LC.
    pose proof (rsum_le (fun xy => Rabs (dv m (fst xy) * dv m (snd xy))) (fun _ => 0) 0 (bpow radix2 (2 * k + 2)) (combine l l)) as Q. rewrite Rmult_0_l, Rplus_0_l in Q. apply Q.
    intros [x y] HI. apply in_combine_same in HI. destruct HI as [<- HI]. cbn [fst snd]. rewrite Rmult_0_l, Rplus_0_l, Rabs_mult.
    replace (2 * k + 2)%Z with ((k + 1) + (k + 1))%Z by lia. rewrite bpow_plus. apply Rmult_le_compat; auto using Rabs_pos. }
  assert (SB : forall S U, U <= INR n * bpow radix2 (2 * k + 2) -> 0 <= S -> Rabs S <= (U * (1 + u) + INR n * bpow radix2 (-1074)) * (1 + bpow radix2 (-22)) -> 0 <= S <= bpow radix2 950).
  { intros S U HU H0 H. split; [exact H0|]. rewrite Rabs_pos_eq in H by exact H0. eapply Rle_trans; [exact H|].
    assert (BB : bpow radix2 (-1074) <= bpow radix2 (2 * k + 2)) by (apply bpow_le; lia). pose proof (bpow_gt_0 radix2 (2 * k + 2)) as BP. set (bb := bpow radix2 (2 * k + 2)) in *. set (tt := bpow radix2 (-1074)) in *.
    assert (X1 : INR n * tt <= INR n * bb) by (apply Rmult_le_compat_l; lra). assert (X2 : INR n * bb <= bpow radix2 30 * bb) by (apply Rmult_le_compat_r; lra).
    assert (X3 : bpow radix2 30 * bb * 8 <= bpow radix2 950) by (change 8 with (bpow radix2 3); unfold bb; rewrite <- !bpow_plus; apply bpow_le; lia).
    assert (B53 : u = / 9007199254740992) by reflexivity. assert (B22 : bpow radix2 (-22) = / 4194304) by reflexivity. rewrite B53, B22. set (w := INR n * bb) in *. assert (0 < w) by (apply Rmult_lt_0_compat; lra). nra. }
  assert (DX : forall x, In x dx -> Rabs (dv m1 x) <= bpow radix2 (k + 1)) by (intros x Hx; apply (dev x mu1 m1 k ltac:(lia) ltac:(lia) V1 B1 (HD x (or_introl Hx)))).
  assert (DY : forall x, In x dy -> Rabs (dv m2 x) <= bpow radix2 (k + 1)) by (intros x Hx; apply (dev x mu2 m2 k ltac:(lia) ltac:(lia) V2 B2 (HD x (or_intror Hx)))).
  rewrite LDX in W1, U1, U3. rewrite LDY in W2, U2.
  destruct (TU dx m1 LDX DX) as [TX PU]. destruct (TU dy m2 LDY DY) as [TY QU].
  pose proof (SB S1 _ TX W1p U1) as SB1. pose proof (SB S2 _ TY W2p U2) as SB2. clear SB TU U1 U2 SPI TX TY.
  set (P := rsum (fun xy => dv m1 (fst xy) * dv m1 (snd xy)) (combine dx dx)) in *. set (Q := rsum (fun xy => dv m2 (fst xy) * dv m2 (snd xy)) (combine dy dy)) in *.
  set (C := rsum (fun xy => Rabs (dv m1 (fst xy) * dv m2 (snd xy))) (combine dx dy)) in *.
  assert (TB : bpow radix2 (-900) <= bpow radix2 (2 * g - 2)) by (apply bpow_le; lia).
  destruct (std_low _ S1 n P Hn NB VS1 SB1 (Rle_trans _ _ _ TB T1) W1) as (s1 & VD1 & D1).
  destruct (std_low _ S2 n Q Hn NB VS2 SB2 (Rle_trans _ _ _ TB T2) W2) as (s2 & VD2 & D2).
  assert (IN : 0 < / INR n) by (apply Rinv_0_lt_compat; lra).
  assert (ROOT : forall z, bpow radix2 (2 * g - 2) <= z -> bpow radix2 (g - 16) <= sqrt (z / INR n)).
  { intros z Hz. rewrite <- (sqrt_square (bpow radix2 (g - 16))) by apply bpow_ge_0. apply sqrt_le_1_alt. rewrite <- bpow_plus. unfold Rdiv.
    replace (g - 16 + (g - 16))%Z with (2 * g - 2 + - (30))%Z by lia. rewrite bpow_plus, (bpow_opp _ 30).
    apply Rmult_le_compat; [apply bpow_ge_0|left; apply Rinv_0_lt_compat, bpow_gt_0|exact Hz|apply Rinv_le; lra]. }
  pose proof (ROOT P T1) as P1. pose proof (ROOT Q T2) as Q1. clear ROOT.
  assert (CS : C <= INR n * (sqrt (P / INR n) * sqrt (Q / INR n))).
  { apply Rsqr_incr_0_var; [|apply Rmult_le_pos; [lra|apply Rmult_le_pos; apply sqrt_pos]]. eapply Rle_trans; [exact C1|]. right. unfold Rsqr.
    assert (X : sqrt (P / INR n) * sqrt (P / INR n) = P / INR n) by (apply sqrt_sqrt; apply Rmult_le_pos; lra).
    assert (Y : sqrt (Q / INR n) * sqrt (Q / INR n) = Q / INR n) by (apply sqrt_sqrt; apply Rmult_le_pos; lra).
    replace (INR n * (sqrt (P / INR n) * sqrt (Q / INR n)) * (INR n * (sqrt (P / INR n) * sqrt (Q / INR n)))) with (INR n * INR n * ((sqrt (P / INR n) * sqrt (P / INR n)) * (sqrt (Q / INR n) * sqrt (Q / INR n)))) by ring.
    rewrite X, Y. field. lra. }
  set (p := sqrt (P / INR n)) in *. set (q := sqrt (Q / INR n)) in *.
  assert (p0 : 0 < p) by (eapply Rlt_le_trans; [apply bpow_gt_0|exact P1]). assert (q0 : 0 < q) by (eapply Rlt_le_trans; [apply bpow_gt_0|exact Q1]).
  assert (PQ : bpow radix2 (2 * g - 32) <= p * q) by (replace (2 * g - 32)%Z with (g - 16 + (g - 16))%Z by lia; rewrite bpow_plus; apply Rmult_le_compat; auto using bpow_ge_0).
  assert (SQU : forall z, z <= INR n * bpow radix2 (2 * k + 2) -> sqrt (z / INR n) <= bpow radix2 (k + 1)).
  { intros z Hz. rewrite <- (sqrt_square (bpow radix2 (k + 1))) by apply bpow_ge_0. apply sqrt_le_1_alt. rewrite <- bpow_plus. replace (k + 1 + (k + 1))%Z with (2 * k + 2)%Z by lia.
    unfold Rdiv. apply Rmult_le_reg_r with (INR n); [lra|]. rewrite Rmult_assoc, Rinv_l by lra. lra. }
  pose proof (SQU P PU : p <= _) as p1. pose proof (SQU Q QU : q <= _) as q1. clear SQU PU QU.
  eexists.
  assert (GOAL : exists c, vD (ddiv A (ddiv A (ddiv A (sum_prod A (combine dx dy) mu1 mu2) (dofZ A (Z.of_nat n))) (dsqrt A (ddiv A (sum_prod A (combine dx dx) mu1 mu1) (dofZ A (Z.of_nat n)))))
     (dsqrt A (ddiv A (sum_prod A (combine dy dy) mu2 mu2) (dofZ A (Z.of_nat n))))) = Fin c /\ Rabs c <= 1 + bpow radix2 (-20)).
  2: { destruct GOAL as (c & HC). exists c. split; [unfold verify_stats; rewrite EV; reflexivity|exact HC]. }
  clear EV HF HD HX HY DX DY V1 V2 VS1 VS2 W1 W2 SB1 SB2 C1 T1 T2 SP1 SP2 FI.
  set (e3 := ddiv A (sum_prod A (combine dx dy) mu1 mu2) (dofZ A (Z.of_nat n))) in *. set (sd1 := dsqrt A (ddiv A (sum_prod A (combine dx dx) mu1 mu1) (dofZ A (Z.of_nat n)))) in *.
  set (sd2 := dsqrt A (ddiv A (sum_prod A (combine dy dy) mu2 mu2) (dofZ A (Z.of_nat n)))) in *.
  assert (B53 : u = / 9007199254740992) by reflexivity. assert (B22 : bpow radix2 (-22) = / 4194304) by reflexivity. assert (B20 : bpow radix2 (-20) = / 1048576) by reflexivity.
  assert (UE : bpow radix2 (-1074) <= u * (p * q)).
  { eapply Rle_trans; [|apply Rmult_le_compat_l; [apply bpow_ge_0|exact PQ]]. rewrite <- bpow_plus. apply bpow_le. lia. }
  assert (PQ0 : 0 < p * q) by (apply Rmult_lt_0_compat; assumption).
  set (z1 := p * q * ((1 + 2 * u) * (1 + bpow radix2 (-22)))).
  assert (Z1 : Rabs (S3 / INR n) <= z1).
  { unfold Rdiv. rewrite Rabs_mult, (Rabs_pos_eq (/ INR n)) by lra. apply Rmult_le_reg_r with (INR n); [lra|]. rewrite Rmult_assoc, Rinv_l, Rmult_1_r by lra.
    eapply Rle_trans; [exact U3|]. unfold z1. replace (p * q * ((1 + 2 * u) * (1 + bpow radix2 (-22))) * INR n) with ((INR n * (p * q) * (1 + u) + INR n * (u * (p * q))) * (1 + bpow radix2 (-22))) by ring.
    apply Rmult_le_compat_r; [rewrite B22; lra|]. apply Rplus_le_compat; [apply Rmult_le_compat_r; [rewrite B53; lra|exact CS]|apply Rmult_le_compat_l; [lra|exact UE]]. }
  assert (LOW : forall z w, p * q <= w -> w <= z -> bpow radix2 (-1022) <= z).
  { intros z w H1 H2. eapply Rle_trans; [|exact H2]. eapply Rle_trans; [|exact H1]. eapply Rle_trans; [|exact PQ]. apply bpow_le. lia. }
  assert (Z1L : p * q <= z1) by (unfold z1; rewrite <- (Rmult_1_r (p * q)) at 1; apply Rmult_le_compat_l; [lra|]; rewrite B53, B22; lra).
  assert (PQU : p * q * 4 <= bpow radix2 1000).
  { apply Rle_trans with (bpow radix2 (k + 1) * bpow radix2 (k + 1) * 4); [apply Rmult_le_compat_r; [lra|]; apply Rmult_le_compat; lra|]. change 4 with (bpow radix2 2). rewrite <- !bpow_plus. apply bpow_le. lia. }
  assert (V3 : vD e3 = Fin (rnd64 (S3 / INR n))).
  { apply (quot64 A I); auto; [lra|]. eapply Rle_trans; [exact Z1|]. eapply Rle_trans; [|exact PQU]. unfold z1. apply Rmult_le_compat_l; [lra|]. rewrite B53, B22. lra. }
  pose proof (rnd_up _ _ Z1 (LOW _ _ (Rle_refl _) Z1L)) as E3. set (ee := rnd64 (S3 / INR n)) in *.
  (* the first quotient *)
  assert (s10 : 0 < s1) by (eapply Rlt_le_trans; [|exact D1]; apply Rmult_lt_0_compat; [exact p0|rewrite B22; lra]).
  assert (s20 : 0 < s2) by (eapply Rlt_le_trans; [|exact D2]; apply Rmult_lt_0_compat; [exact q0|rewrite B22; lra]).
  set (d := / (1 - bpow radix2 (-22))). assert (HDd : d * (1 - bpow radix2 (-22)) = 1) by (unfold d; apply Rinv_l; rewrite B22; lra).
  assert (HDb : 1 <= d <= 1 + bpow radix2 (-22) + bpow radix2 (-40)) by (rewrite B22 in *; change (bpow radix2 (-40)) with (/ 1099511627776); lra).
  set (z2 := q * ((1 + 2 * u) * (1 + bpow radix2 (-22)) * (1 + u) * d)).
  assert (Z2 : Rabs (ee / s1) <= z2).
  { unfold Rdiv. rewrite Rabs_mult, (Rabs_pos_eq (/ s1)) by (left; apply Rinv_0_lt_compat; lra). apply Rmult_le_reg_r with s1; [lra|]. rewrite Rmult_assoc, Rinv_l, Rmult_1_r by lra.
    eapply Rle_trans; [exact E3|]. unfold z1, z2. 
    assert (X : 0 <= q * ((1 + 2 * u) * (1 + bpow radix2 (-22)) * (1 + u) * d)) by (apply Rmult_le_pos; [lra|]; repeat apply Rmult_le_pos; rewrite ?B53, ?B22; lra).
    eapply Rle_trans; [|apply Rmult_le_compat_l; [exact X|exact D1]].
    replace (q * ((1 + 2 * u) * (1 + bpow radix2 (-22)) * (1 + u) * d) * (p * (1 - bpow radix2 (-22)))) with (p * q * ((1 + 2 * u) * (1 + bpow radix2 (-22))) * (1 + u) * (d * (1 - bpow radix2 (-22)))) by ring.
    rewrite HDd. lra. }
  set (k2 := (1 + 2 * u) * (1 + bpow radix2 (-22)) * (1 + u) * d) in *.
  assert (K2b : 1 <= k2 <= 1 + 2 * bpow radix2 (-22) + bpow radix2 (-39)).
  { unfold k2. change (bpow radix2 (-40)) with (/ 1099511627776) in HDb. change (bpow radix2 (-39)) with (/ 549755813888). rewrite B53, B22 in *. clearbody d. split; lra. }
  assert (Z2L : q <= z2) by (unfold z2; rewrite <- (Rmult_1_r q) at 1; apply Rmult_le_compat_l; lra).
  assert (ZU : z2 <= bpow radix2 1000).
  { unfold z2. apply Rle_trans with (bpow radix2 (k + 1) * 2); [apply Rmult_le_compat; try lra|change 2 with (bpow radix2 1); rewrite <- bpow_plus; apply bpow_le; lia].
    change (bpow radix2 (-39)) with (/ 549755813888) in K2b. rewrite B22 in K2b. lra. }
  assert (V4 : vD (ddiv A e3 sd1) = Fin (rnd64 (ee / s1))) by (apply (quot64 A I); auto; eapply Rle_trans; [exact Z2|exact ZU]).
  assert (E4 : Rabs (rnd64 (ee / s1)) <= z2 * (1 + u)).
  { apply rnd_up; [exact Z2|]. eapply Rle_trans; [|exact Z2L]. eapply Rle_trans; [|exact Q1]. apply bpow_le. lia. }
  set (f := rnd64 (ee / s1)) in *. set (z3 := k2 * (1 + u) * d).
  assert (Z3 : Rabs (f / s2) <= z3).
  { unfold Rdiv. rewrite Rabs_mult, (Rabs_pos_eq (/ s2)) by (left; apply Rinv_0_lt_compat; lra). apply Rmult_le_reg_r with s2; [lra|]. rewrite Rmult_assoc, Rinv_l, Rmult_1_r by lra.
    eapply Rle_trans; [exact E4|]. unfold z2, z3.
    assert (X : 0 <= k2 * (1 + u) * d) by (repeat apply Rmult_le_pos; rewrite ?B53; lra).
    eapply Rle_trans; [|apply Rmult_le_compat_l; [exact X|exact D2]].
    replace (k2 * (1 + u) * d * (q * (1 - bpow radix2 (-22)))) with (q * k2 * (1 + u) * (d * (1 - bpow radix2 (-22)))) by ring. rewrite HDd. lra. }
  assert (Z3b : 1 <= z3 /\ z3 * (1 + u) <= 1 + bpow radix2 (-20)).
  { unfold z3. clearbody k2 d. change (bpow radix2 (-40)) with (/ 1099511627776) in HDb. change (bpow radix2 (-39)) with (/ 549755813888) in K2b. rewrite B53, B22, B20 in *. clear -K2b HDb. nra. }
  exists (rnd64 (f / s2)). split.
  - apply (quot64 A I); auto. eapply Rle_trans; [exact Z3|]. apply Rle_trans with (bpow radix2 1); [|apply bpow_le; lia]. change (bpow radix2 1) with 2. rewrite B20, B53 in Z3b. lra.
  - eapply Rle_trans; [apply rnd_up; [exact Z3|]|apply Z3b]. apply Rle_trans with (bpow radix2 0); [apply bpow_le; lia|]. change (bpow radix2 0) with 1. lra.
Qed.
End Laws.

(** Two of the first [n] values differ by at least 2^g. *)
Definition varies p e (l : list (binary_float p e)) (n : nat) (g : Z) : Prop :=
  exists i j x y, (i < n)%nat /\ (j < n)%nat /\ nth_error l i = Some x /\ nth_error l j = Some y /\ (bpow radix2 g <= Rabs (B2R p e x - B2R p e y))%R.

Theorem range_float (lm : Libm binary32 binary64) log10 (ori dec : list binary32) n :
  (0 < n)%nat -> Z.of_nat n <= 2 ^ 30 -> (n <= length ori)%nat -> (n <= length dec)%nat -> (forall x, In x ori \/ In x dec -> finite_le 60 x) ->
  varies 24 128 ori n (-60) -> varies 24 128 dec n (-60) ->
  exists s, verify_stats (FA lm) log10 ori dec n = Some s /\ is_finite 53 1024 (s_ac s) = true /\ (Rabs (B2R 53 1024 (s_ac s)) <= 1 + bpow radix2 (-20))%R.
Proof.
  intros Hn NB L1 L2 HF S1 S2.
  assert (SP : forall l, (forall x, In x l -> finite_le 60 x) -> varies 24 128 l n (-60) -> spread (FA lm) (FA_ieee lm) l n (-60)).
  { intros l Hl (i & j & x & y & Hi & Hj & Ei & Ej & H). exists i, j, x, y, (B2R 24 128 x), (B2R 24 128 y). repeat split; auto.
    - apply (val_fin_iff 24 128). split; [apply (Hl x (nth_error_In _ _ Ei))|reflexivity].
    - apply (val_fin_iff 24 128). split; [apply (Hl y (nth_error_In _ _ Ej))|reflexivity]. }
  destruct (corr_range (FA lm) (FA_ieee lm) log10 ori dec n 60 (-60)) as (s & c & ES & Vc & Bc); try (cbn [FA_ieee pT eT]; lia); auto.
  { intros x Hx. apply (finite_bnd 24 128). apply HF. exact Hx. }
  exists s. split; [exact ES|]. apply (val_fin_iff 53 1024) in Vc. destruct Vc as [Fc <-]. auto.
Qed.
Theorem range_double (lm : Libm binary64 binary64) log10 (ori dec : list binary64) n :
  (0 < n)%nat -> Z.of_nat n <= 2 ^ 30 -> (n <= length ori)%nat -> (n <= length dec)%nat -> (forall x, In x ori \/ In x dec -> finite_le 400 x) ->
  varies 53 1024 ori n (-400) -> varies 53 1024 dec n (-400) ->
  exists s, verify_stats (DA lm) log10 ori dec n = Some s /\ is_finite 53 1024 (s_ac s) = true /\ (Rabs (B2R 53 1024 (s_ac s)) <= 1 + bpow radix2 (-20))%R.
Proof.
  intros Hn NB L1 L2 HF S1 S2.
  assert (SP : forall l, (forall x, In x l -> finite_le 400 x) -> varies 53 1024 l n (-400) -> spread (DA lm) (DA_ieee lm) l n (-400)).
  { intros l Hl (i & j & x & y & Hi & Hj & Ei & Ej & H). exists i, j, x, y, (B2R 53 1024 x), (B2R 53 1024 y). repeat split; auto.
    - apply (val_fin_iff 53 1024). split; [apply (Hl x (nth_error_In _ _ Ei))|reflexivity].
    - apply (val_fin_iff 53 1024). split; [apply (Hl y (nth_error_In _ _ Ej))|reflexivity]. }
  destruct (corr_range (DA lm) (DA_ieee lm) log10 ori dec n 400 (-400)) as (s & c & ES & Vc & Bc); try (cbn [DA_ieee pT eT]; lia); auto.
  { intros x Hx. apply (finite_bnd 53 1024). apply HF. exact Hx. }
  exists s. split; [exact ES|]. apply (val_fin_iff 53 1024) in Vc. destruct Vc as [Fc <-]. auto.
Qed.

