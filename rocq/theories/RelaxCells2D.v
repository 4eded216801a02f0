(** Critical point preservation of the relaxed codec in exact arithmetic. *)
From Coq Require Import Reals Lra Lia ZArith List Bool Permutation.
From Coq Require Import ZifyBool ZifyNat.
From Flocq Require Import Core.Raux.
From Verif Require Import Base Huffman Arith Mesh2D Derive2D Codec2D Sync2D Scan Exact Cells2D Geo2D Preserve2D Relax2D RelaxSync2D.
Import ListNotations.

(** Specification: the linear interpolant of the three vectors is nonsingular and its zero is in the closed triangle. *)
Definition regular_cp (a b c : R * R) : Prop :=
  (((fst a - fst c) * (snd b - snd c) - (snd a - snd c) * (fst b - fst c) <> 0) /\ has_cp a b c)%R.

Local Open Scope R_scope.

Lemma regular_swap a b c : regular_cp a b c -> regular_cp b a c.
Proof. intros [H1 H2]. split; [|apply has_cp_swap; auto]. intros E. apply H1. lra. Qed.
Lemma regular_rot a b c : regular_cp a b c -> regular_cp b c a.
Proof. intros [H1 H2]. split; [|apply has_cp_rot; auto]. intros E. apply H1. lra. Qed.
Lemma regular_perm {X} (f : X -> R * R) a b c x y z : Permutation [a; b; c] [x; y; z] ->
  regular_cp (f a) (f b) (f c) -> regular_cp (f x) (f y) (f z).
Proof.
  intros HP H.
  destruct (perm3_cases _ _ _ _ _ _ HP) as [(-> & -> & ->)|[(-> & -> & ->)|[(-> & -> & ->)|[(-> & -> & ->)|[(-> & -> & ->)|(-> & -> & ->)]]]]];
    auto using regular_swap, regular_rot.
Qed.

Definition vfin (a : R * R) : XR * XR := (Fin (fst a), Fin (snd a)).

(** The test of the code is the specification. *)
Lemma check_cp_exact a b c : check_cp XA (vfin a) (vfin b) (vfin c) = true <-> regular_cp a b c.
Proof.
  destruct a as [u0 v0], b as [u1 v1], c as [u2 v2].
  unfold check_cp, vfin, regular_cp, has_cp. cbn [fst snd tsub tneg tmul tdiv dsub dofZ d2t t2d tle dle t0 tofZ XA xsub xneg xmul].
  set (d := (u0 - u2) * (v1 - v2) - (v0 - v2) * (u1 - u2)).
  set (n0 := - u2 * (v1 - v2) - (u1 - u2) * - v2). set (n1 := (u0 - u2) * - v2 - - u2 * (v0 - v2)).
  destruct (Req_dec d 0) as [E|N].
  - rewrite (xdiv_zero n0) by auto. split; [|tauto]. intros H. exfalso. cbn [forallb] in H.
    unfold xinf in H at 1. unfold xinf in H at 1. unfold xinf in H at 1.
    destruct (Rlt_bool 0 n0); [cbn in H; discriminate|]. destruct (Rlt_bool n0 0); cbn in H; discriminate.
  - rewrite !(xdiv_fin _ d) by auto. cbn [xsub forallb]. rewrite !andb_true_iff, !xle_fin. split.
    + intros ((H0 & H0') & (H1 & H1') & (H2 & H2') & _). split; auto.
      exists (n0 / d), (n1 / d), (1 - n0 / d - n1 / d). repeat split; auto; try lra.
      * unfold n0, n1. field_simplify_eq; auto. unfold d. ring.
      * unfold n0, n1. field_simplify_eq; auto. unfold d. ring.
    + intros [_ (l0 & l1 & l2 & P0 & P1 & P2 & S & HU & HV)].
      assert (E0 : n0 / d = l0).
      { apply (Rmult_eq_reg_r d); auto. unfold Rdiv. rewrite Rmult_assoc, Rinv_l, Rmult_1_r by auto.
        replace l2 with (1 - l0 - l1) in * by lra. unfold n0, d.
        replace (l0 * ((u0 - u2) * (v1 - v2) - (v0 - v2) * (u1 - u2))) with
          ((l0 * u0 + l1 * u1 + (1 - l0 - l1) * u2 - u2) * (v1 - v2) - (l0 * v0 + l1 * v1 + (1 - l0 - l1) * v2 - v2) * (u1 - u2)) by ring.
        rewrite HU, HV. ring. }
      assert (E1 : n1 / d = l1).
      { apply (Rmult_eq_reg_r d); auto. unfold Rdiv. rewrite Rmult_assoc, Rinv_l, Rmult_1_r by auto.
        replace l2 with (1 - l0 - l1) in * by lra. unfold n1, d.
        replace (l1 * ((u0 - u2) * (v1 - v2) - (v0 - v2) * (u1 - u2))) with
          ((l0 * v0 + l1 * v1 + (1 - l0 - l1) * v2 - v2) * (u0 - u2) - (l0 * u0 + l1 * u1 + (1 - l0 - l1) * u2 - u2) * (v0 - v2)) by ring.
        rewrite HU, HV. ring. }
      rewrite E0, E1. repeat split; lra.
Qed.

(** ** The table of cells *)
Lemma cells_cp_nth U V r2 : forall sq l, cells_cp XA U V r2 sq = Some l -> forall m ij, nth_error sq m = Some ij ->
  exists x y, cell_cp XA U V r2 ij = Some [x; y] /\ nth_error l (2 * m) = Some x /\ nth_error l (2 * m + 1) = Some y.
Proof.
  induction sq as [|[i j] sq IH]; intros l H m ij Hm; [destruct m; discriminate|]. cbn [cells_cp] in H.
  bind_as H x Ex. bind_as H xs Exs. apply Some_inj in H. subst l.
  assert (S2 : exists a b, x = [a; b]).
  { unfold cell_cp in Ex. bind_as Ex a Ea. bind_as Ex b Eb. bind_as Ex c Ec. bind_as Ex b' Eb'. apply Some_inj in Ex. eauto. }
  destruct S2 as (a & b & ->). destruct m as [|m]; cbn [nth_error] in Hm.
  - apply Some_inj in Hm. subst ij. exists a, b. auto.
  - destruct (IH _ Exs _ _ Hm) as (x & y & E1 & E2 & E3). exists x, y. split; auto.
    replace (2 * S m)%nat with (S (S (2 * m))) by lia. replace (S (S (2 * m)) + 1)%nat with (S (S (2 * m + 1))) by lia.
    cbn [app nth_error]. auto.
Qed.

Lemma vat_vec U V r2 a x : allfin U -> allfin V -> vat XA U V (lin r2 a) = Some x -> x = vfin (vec r2 U V a).
Proof.
  intros FU FV H. unfold vat in H. bind_as H u Eu. bind_as H v Ev. apply Some_inj in H. subst x.
  unfold vec, vfin. cbn [fst snd]. rewrite (atR_fin U _ _ FU Eu), (atR_fin V _ _ FV Ev). reflexivity.
Qed.

Lemma cp_table U V r1 r2 cp i j : allfin U -> allfin V -> compute_cp XA U V r1 r2 = Some cp ->
  (0 <= i < r1 - 1)%Z -> (0 <= j < r2 - 1)%Z ->
  exists x y, aget cp (2 * (i * (r2 - 1) + j)) = Some x /\ aget cp (2 * (i * (r2 - 1) + j) + 1) = Some y /\
    (x = true <-> regular_cp (vec r2 U V (i, j)) (vec r2 U V (i + 1, j)%Z) (vec r2 U V (i + 1, j + 1)%Z)) /\
    (y = true <-> regular_cp (vec r2 U V (i, j)) (vec r2 U V (i, j + 1)%Z) (vec r2 U V (i + 1, j + 1)%Z)).
Proof.
  intros FU FV H Hi Hj. unfold compute_cp in H.
  destruct (cells_cp_nth _ _ _ _ _ H _ _ (scan2_nth_ok _ _ _ _ Hi Hj)) as (x & y & E & Ex & Ey).
  exists x, y. assert (0 <= i * (r2 - 1) + j)%Z by nia.
  split; [unfold aget; replace (_ <? 0)%Z with false by lia;
          replace (Z.to_nat _) with (2 * Z.to_nat (i * (r2 - 1) + j))%nat by lia; exact Ex|].
  split; [unfold aget; replace (_ <? 0)%Z with false by lia;
          replace (Z.to_nat _) with (2 * Z.to_nat (i * (r2 - 1) + j) + 1)%nat by lia; exact Ey|].
  unfold cell_cp in E. bind_as E a Ea. bind_as E b Eb. bind_as E c Ec. bind_as E b' Eb'. apply Some_inj in E.
  injection E as E1 E2. subst x y.
  apply (vat_vec U V r2 (i, j)%Z) in Ea; auto. apply (vat_vec U V r2 (i + 1, j)%Z) in Eb; auto.
  apply (vat_vec U V r2 (i + 1, j + 1)%Z) in Ec; auto. apply (vat_vec U V r2 (i, j + 1)%Z) in Eb'; auto.
  subst. split; apply check_cp_exact.
Qed.

(** The entry looked up for triangle k around (i,j) is the one of that cell. *)
Lemma cell_offset_ok U V r1 r2 cp i j k : allfin U -> allfin V -> compute_cp XA U V r1 r2 = Some cp ->
  (k < 6)%nat -> (0 <= i < r1)%Z -> (0 <= j < r2)%Z -> in_mesh r1 r2 i j k = true ->
  exists x, aget cp (2 * (i * (r2 - 1) + j) + cell_offset r2 k) = Some x /\
    (x = true <-> regular_cp (vec r2 U V (nbr i j k 0)) (vec r2 U V (nbr i j k 1)) (vec r2 U V (i, j))).
Proof.
  intros FU FV H Hk Hi Hj. rewrite in_mesh_nbr. unfold nbr, in_range, cell_offset, cell_offsets.
  each_k k Hk; offs Hk; intros HM.
  - destruct (cp_table U V r1 r2 cp (i - 1) (j - 1) FU FV H) as (x & y & Ex & Ey & Kx & Ky); [lia|lia|].
    exists y. split; [rewrite <- Ey; f_equal; lia|]. rewrite Ky.
    replace (i - 1, j - 1 + 1)%Z with (i + -1, j + 0)%Z by (f_equal; lia).
    replace (i - 1, j - 1)%Z with (i + -1, j + -1)%Z by (f_equal; lia).
    replace (i - 1 + 1, j - 1 + 1)%Z with (i, j) by (f_equal; lia). split; apply regular_perm; perm3.
  - destruct (cp_table U V r1 r2 cp (i - 1) (j - 1) FU FV H) as (x & y & Ex & Ey & Kx & Ky); [lia|lia|].
    exists x. split; [rewrite <- Ex; f_equal; lia|]. rewrite Kx.
    replace (i - 1 + 1, j - 1)%Z with (i + 0, j + -1)%Z by (f_equal; lia).
    replace (i - 1, j - 1)%Z with (i + -1, j + -1)%Z by (f_equal; lia).
    replace (i - 1 + 1, j - 1 + 1)%Z with (i, j) by (f_equal; lia). split; apply regular_perm; perm3.
  - destruct (cp_table U V r1 r2 cp i (j - 1) FU FV H) as (x & y & Ex & Ey & Kx & Ky); [lia|lia|].
    exists y. split; [rewrite <- Ey; f_equal; lia|]. rewrite Ky.
    replace (i, j - 1 + 1)%Z with (i, j) by (f_equal; lia).
    replace (i, j - 1)%Z with (i + 0, j + -1)%Z by (f_equal; lia).
    replace (i + 1, j - 1 + 1)%Z with (i + 1, j + 0)%Z by (f_equal; lia). split; apply regular_perm; perm3.
  - destruct (cp_table U V r1 r2 cp i j FU FV H) as (x & y & Ex & Ey & Kx & Ky); [lia|lia|].
    exists x. split; [rewrite <- Ex; f_equal; lia|]. rewrite Kx.
    replace (i + 1, j)%Z with (i + 1, j + 0)%Z by (f_equal; lia). split; apply regular_perm; perm3.
  - destruct (cp_table U V r1 r2 cp i j FU FV H) as (x & y & Ex & Ey & Kx & Ky); [lia|lia|].
    exists y. split; [rewrite <- Ey; f_equal; lia|]. rewrite Ky.
    replace (i, j + 1)%Z with (i + 0, j + 1)%Z by (f_equal; lia). split; apply regular_perm; perm3.
  - destruct (cp_table U V r1 r2 cp (i - 1) j FU FV H) as (x & y & Ex & Ey & Kx & Ky); [lia|lia|].
    exists x. split; [rewrite <- Ex; f_equal; lia|]. rewrite Kx.
    replace (i - 1 + 1, j + 1)%Z with (i + 0, j + 1)%Z by (f_equal; lia).
    replace (i - 1, j)%Z with (i + -1, j + 0)%Z by (f_equal; lia).
    replace (i - 1 + 1, j)%Z with (i, j) by (f_equal; lia). split; apply regular_perm; perm3.
Qed.

Lemma adj_cp_false U V r1 r2 cp i j : allfin U -> allfin V -> compute_cp XA U V r1 r2 = Some cp ->
  (0 <= i < r1)%Z -> (0 <= j < r2)%Z -> adj_cp cp r1 r2 i j six = Some false ->
  forall k, (k < 6)%nat -> in_mesh r1 r2 i j k = true ->
    ~ regular_cp (vec r2 U V (nbr i j k 0)) (vec r2 U V (nbr i j k 1)) (vec r2 U V (i, j)).
Proof.
  intros FU FV H Hi Hj. assert (G : forall ks, (forall k, In k ks -> (k < 6)%nat) -> adj_cp cp r1 r2 i j ks = Some false ->
    forall k, In k ks -> in_mesh r1 r2 i j k = true ->
    ~ regular_cp (vec r2 U V (nbr i j k 0)) (vec r2 U V (nbr i j k 1)) (vec r2 U V (i, j))).
  { induction ks as [|k ks IH]; intros HK HA k' Hk' HM; [destruct Hk'|]. cbn [adj_cp] in HA.
    destruct (in_mesh r1 r2 i j k) eqn:EM.
    - bind_as HA b Eb. destruct b; [discriminate|]. destruct Hk' as [<-|Hk'].
      + destruct (cell_offset_ok U V r1 r2 cp i j k FU FV H (HK k (or_introl eq_refl)) Hi Hj EM) as (x & Ex & K).
        rewrite Ex in Eb. apply Some_inj in Eb. subst x. intros Y. apply K in Y. discriminate.
      + apply IH; auto. intros q Hq. apply HK. right; auto.
    - destruct Hk' as [<-|Hk']; [congruence|]. apply IH; auto. intros q Hq. apply HK. right; auto. }
  intros HA k Hk. apply (G six); auto; [intros q Hq; apply in_six; auto|apply in_six; auto].
Qed.

Lemma verify_cp_true U V r1 r2 i j x : allfin U -> allfin V ->
  verify_cp XA U V r1 r2 i j (vfin x) six = Some true ->
  forall k, (k < 6)%nat -> in_mesh r1 r2 i j k = true ->
    ~ regular_cp (vec r2 U V (nbr i j k 0)) (vec r2 U V (nbr i j k 1)) x.
Proof.
  intros FU FV. assert (G : forall ks, (forall k, In k ks -> (k < 6)%nat) -> verify_cp XA U V r1 r2 i j (vfin x) ks = Some true ->
    forall k, In k ks -> in_mesh r1 r2 i j k = true ->
    ~ regular_cp (vec r2 U V (nbr i j k 0)) (vec r2 U V (nbr i j k 1)) x).
  { induction ks as [|k ks IH]; intros HK HA k' Hk' HM; [destruct Hk'|]. cbn [verify_cp] in HA.
    destruct (in_mesh r1 r2 i j k) eqn:EM.
    - destruct (offset_lin r2 i j k (HK k (or_introl eq_refl))) as [E0 E1]. rewrite E0, E1 in HA.
      bind_as HA a Ea. bind_as HA b Eb. apply vat_vec in Ea; auto. apply vat_vec in Eb; auto. subst a b.
      destruct (check_cp _ _ _ _) eqn:EC; [discriminate|]. destruct Hk' as [<-|Hk'].
      + intros Y. apply check_cp_exact in Y. congruence.
      + apply IH; auto. intros q Hq. apply HK. right; auto.
    - destruct Hk' as [<-|Hk']; [congruence|]. apply IH; auto. intros q Hq. apply HK. right; auto. }
  intros HA k Hk. apply (G six); auto; [intros q Hq; apply in_six; auto|apply in_six; auto].
Qed.

(** ** One component *)
Lemma relax_component_exact w r2 i j cur a q x : allfin w -> 0 < a ->
  relax_component XA w r2 i j (Fin cur) (Fin a) = Some (Some (q, x)) -> exists d, x = Fin d /\ Rabs (d - cur) <= a.
Proof.
  intros HF Ha H. unfold relax_component in H. bind_as H p Hp. destruct (lorenzo_fin _ _ _ _ _ HF Hp) as [pr ->].
  cbn [tsub t2d tabs ddiv dadd dofZ d2t XA xsub xabs] in H. rewrite xdiv_fin in H by lra. cbn [xadd] in H.
  destruct (tlt XA _ _) in H; [|discriminate]. bind_as H h Hh. apply Some_inj in H. injection H as Eq Ex. subst q x.
  unfold recon. cbn [d2t dadd t2d dmul dofZ XA xmul xadd]. eexists. split; [reflexivity|].
  cbn [tlt t0 tofZ XA tneg ttoint tdiv] in Hh.
  set (t := Rabs (cur - pr) / a) in *. assert (Ht : 0 <= t).
  { unfold t. apply Rmult_le_pos; [apply Rabs_pos|]. apply Rlt_le, Rinv_0_lt_compat; auto. }
  assert (Et : Rabs (cur - pr) = t * a) by (unfold t; field; lra).
  assert (E2 : IZR (2 * (h + intv_radius - intv_radius)) = 2 * IZR h).
  { rewrite mult_IZR. f_equal. f_equal. lia. }
  match goal with |- context [(IZR ?m * a)%R] => change m with (2 * (h + intv_radius - intv_radius))%Z end.
  rewrite E2.
  assert (HI : forall z, xtoint (Fin z) = Some h -> h = Ztrunc z).
  { intros z E. cbn [xtoint] in E. destruct (_ && _)%bool in E; [congruence|discriminate]. }
  destruct (xlt (Fin (IZR 0)) (Fin (cur - pr))) eqn:ED.
  - apply xlt_fin in ED. rewrite xdiv_fin in Hh by lra. apply HI in Hh. rewrite Ztrunc_floor in Hh by lra.
    pose proof (Zfloor_lb ((t + 1) / 2)). pose proof (Zfloor_ub ((t + 1) / 2)). rewrite <- Hh in *.
    rewrite Rabs_pos_eq in Et by lra. replace (pr + 2 * IZR h * a - cur) with ((2 * IZR h - t) * a) by lra.
    rewrite Rabs_mult, (Rabs_pos_eq a) by lra. rewrite <- (Rmult_1_l a) at 2. apply Rmult_le_compat_r; [lra|].
    apply Rabs_le. lra.
  - apply xlt_fin_false in ED. cbn [xneg] in Hh. rewrite xdiv_fin in Hh by lra. apply HI in Hh.
    replace (- (t + 1) / 2) with (- ((t + 1) / 2)) in Hh by lra. rewrite Ztrunc_opp, Ztrunc_floor in Hh by lra.
    pose proof (Zfloor_lb ((t + 1) / 2)). pose proof (Zfloor_ub ((t + 1) / 2)).
    rewrite Rabs_left1 in Et by lra. subst h. rewrite opp_IZR.
    replace (pr + 2 * - IZR (Zfloor ((t + 1) / 2)) * a - cur) with ((t - 2 * IZR (Zfloor ((t + 1) / 2))) * a) by lra.
    rewrite Rabs_mult, (Rabs_pos_eq a) by lra. rewrite <- (Rmult_1_l a) at 2. apply Rmult_le_compat_r; [lra|].
    apply Rabs_le. lra.
Qed.

Lemma relax_component_zero w r2 i j cur q x : allfin w ->
  relax_component XA w r2 i j (Fin cur) (Fin 0) = Some (Some (q, x)) -> False.
Proof.
  intros HF H. unfold relax_component in H. bind_as H p Hp. destruct (lorenzo_fin _ _ _ _ _ HF Hp) as [pr ->].
  cbn [tsub t2d tabs ddiv dadd dofZ d2t XA xsub xabs] in H. rewrite xdiv_zero in H by auto. unfold xinf in H.
  destruct (Rlt_bool 0 _) in H; [cbn in H; discriminate|]. destruct (Rlt_bool_spec (Rabs (cur - pr)) 0) in H.
  - pose proof (Rabs_pos (cur - pr)). lra.
  - cbn in H. discriminate.
Qed.

(** Bounds that are tried. *)
Lemma tried_exact max_eb eb0 w r2 i j cur id q x : allfin w -> tried XA (Fin max_eb) eb0 ->
  relax_coded XA w r2 i j (Fin cur) eb0 id q x ->
  exists d, x = Fin d /\ Rabs (d - cur) <= max_eb /\ (16 * / 4503599627370496 <= max_eb -> (0 < id)%Z).
Proof.
  intros HF HT (a & Hq & H).
  assert (QP : forall b i1 a1, eb_exponential_quantize XA 4 (eps_double XA) (Fin b) = Some (i1, a1) ->
     (a1 = Fin 0) \/ (exists y, a1 = Fin y /\ 0 < y /\ y <= b < 4 * y /\ (0 <= i1)%Z /\ y = powerRZ 4 i1 * / 4503599627370496)).
  { intros b i1 a1 E. apply quantize_exact in E; [|lia|lra].
    destruct E as [(_ & _ & E)|(_ & E1 & y & -> & Ey & E2 & E3)]; auto. right. exists y. auto. }
  assert (HB : exists b, eb0 = Fin b /\ (0 < b -> b <= max_eb) /\ (16 * / 4503599627370496 <= max_eb -> 4 * / 4503599627370496 <= b)).
  { destruct HT as [|id' a' E].
    - exists max_eb. repeat split; auto; try lra.
    - destruct (QP _ _ _ E) as [->|(y & -> & E1 & E2 & E3 & E4)]; cbn [ddiv dofZ XA]; rewrite xdiv_fin by lra.
      + exists (0 / 2). repeat split; auto; try lra.
        intros K. exfalso. apply quantize_exact in E; [|lia|lra].
        destruct E as [(X & _ & _)|(_ & E1 & y & Ey & E4 & E2 & E3)]; [lra|]. injection Ey as Ey. lra.
      + exists (y / 2). repeat split; auto; try lra. intros K.
        assert (2 <= id')%Z.
        { assert (~ (id' <= 1)%Z); [|lia]. intros L. assert (P0 : powerRZ 4 0 = 1) by reflexivity.
          assert (P1 : powerRZ 4 1 = 4) by apply powerRZ_1.
          assert (id' = 0 \/ id' = 1)%Z as [->| ->] by lia; rewrite ?P0, ?P1 in E4; lra. }
        rewrite E4. replace id' with (id' - 2 + 2)%Z by lia. rewrite powerRZ_add by lra.
        assert (1 <= powerRZ 4 (id' - 2)).
        { assert (G : forall n : nat, 1 <= 4 ^ n) by (intros n; apply pow_R1_Rle; lra).
          rewrite <- (Z2Nat.id (id' - 2)) by lia. rewrite <- pow_powerRZ. apply G. }
        change (powerRZ 4 2) with (4 * (4 * 1)). lra. }
  destruct HB as (b & -> & Hb1 & Hb2).
  destruct (QP _ _ _ Hq) as [->|(y & -> & E1 & E2 & E3 & E4)].
  - exfalso. eapply relax_component_zero; eauto.
  - destruct (relax_component_exact _ _ _ _ _ _ _ _ HF E1 H) as (d & -> & Hd). exists d. split; auto. split; [lra|].
    intros K. apply Hb2 in K. assert (~ (id = 0)%Z); [|lia]. intros ->. change (powerRZ 4 0) with 1 in E4. lra.
Qed.

(** ** One point *)
Definition cell_same (t0 t : (R * R) * (R * R) * (R * R)) : Prop :=
  let '(a, b, c) := t0 in let '(a', b', c') := t in
  (regular_cp a b c <-> regular_cp a' b' c') /\ (regular_cp a b c -> t0 = t).

Lemma relax_step cp max_eb r1 r2 U0 V0 U V U' V' i j c :
  (0 <= i < r1)%Z -> (0 <= j < r2)%Z -> allfin U0 -> allfin V0 -> compute_cp XA U0 V0 r1 r2 = Some cp ->
  allfin U -> allfin V ->
  (forall a b d, cell r1 r2 a b d -> cell_same (cell_vecs r2 U0 V0 a b d) (cell_vecs r2 U V a b d)) ->
  relax_outcome XA cp (Fin max_eb) r1 r2 U V i j U' V' c ->
  allfin U' /\ allfin V' /\
  (forall a b d, cell r1 r2 a b d -> cell_same (cell_vecs r2 U0 V0 a b d) (cell_vecs r2 U' V' a b d)).
Proof.
  intros Hi Hj F0 G0 Hcp FU FV HC HO. destruct (outcome_lens _ _ _ _ _ _ _ _ _ _ _ _ HO) as (_ & _ & _ & _ & GU & GV).
  destruct HO as [u v Eu Ev|u v eb0 id q0 q1 x0 x1 U' V' Eu Ev HA HT C0 C1 HV EU EV]; auto.
  pose proof (atR_fin _ _ _ FU Eu) as Fu. pose proof (atR_fin _ _ _ FV Ev) as Fv. subst u v.
  destruct (tried_exact _ _ _ _ _ _ _ _ _ _ FU HT C0) as (d0 & -> & _).
  destruct (tried_exact _ _ _ _ _ _ _ _ _ _ FV HT C1) as (d1 & -> & _).
  split; [eapply allfin_aset; [exact FU|exact EU]|]. split; [eapply allfin_aset; [exact FV|exact EV]|].
  assert (A0 : atR U' (i * r2 + j) = d0).
  { unfold atR. rewrite (proj2 (proj2 (aset_Some _ _ _ _ EU))), Z.eqb_refl. reflexivity. }
  assert (A1 : atR V' (i * r2 + j) = d1).
  { unfold atR. rewrite (proj2 (proj2 (aset_Some _ _ _ _ EV))), Z.eqb_refl. reflexivity. }
  assert (Ex : vec r2 U' V' (i, j) = (d0, d1)) by (unfold vec, lin; cbn [fst snd]; rewrite A0, A1; reflexivity).
  change (Fin d0, Fin d1) with (vfin (d0, d1)) in HV. rewrite <- Ex in HV.
  intros a b d HCl. destruct (cell_points _ _ _ _ _ HCl) as [ND HP].
  destruct (in_dec ZZ_dec (i, j) [a; b; d]) as [HI|HI].
  - destruct (table_complete _ _ _ _ _ _ _ HCl HI) as (k & Hk & HM & HS). unfold same_cell in HS.
    assert (N1 := adj_cp_false U0 V0 r1 r2 cp i j F0 G0 Hcp Hi Hj HA k Hk HM).
    assert (N2 := verify_cp_true U V r1 r2 i j _ FU FV HV k Hk HM).
    assert (E0 : vec r2 U' V' (nbr i j k 0) = vec r2 U V (nbr i j k 0)).
    { apply (vec_other r2 U V U' V' i j); auto.
      - rewrite Forall_forall in HP. apply HP. apply (Permutation_in _ (Permutation_sym HS)). left; auto.
      - intros E. assert (ND' := Permutation_NoDup HS ND). rewrite E in ND'. inversion ND'; subst.
        match goal with H : ~ In _ _ |- _ => apply H; right; left; auto end. }
    assert (E1 : vec r2 U' V' (nbr i j k 1) = vec r2 U V (nbr i j k 1)).
    { apply (vec_other r2 U V U' V' i j); auto.
      - rewrite Forall_forall in HP. apply HP. apply (Permutation_in _ (Permutation_sym HS)). right; left; auto.
      - intros E. assert (ND' := Permutation_NoDup HS ND). rewrite E in ND'. inversion ND' as [|? ? _ ND'']; subst.
        inversion ND''; subst. match goal with H : ~ In _ _ |- _ => apply H; left; auto end. }
    rewrite <- E0, <- E1 in N2. unfold cell_same, cell_vecs.
    assert (M1 : ~ regular_cp (vec r2 U0 V0 a) (vec r2 U0 V0 b) (vec r2 U0 V0 d)) by (intros Y; apply N1; revert Y; apply regular_perm; auto).
    assert (M2 : ~ regular_cp (vec r2 U' V' a) (vec r2 U' V' b) (vec r2 U' V' d)) by (intros Y; apply N2; revert Y; apply regular_perm; auto).
    tauto.
  - assert (G : forall x, In x [a; b; d] -> vec r2 U' V' x = vec r2 U V x).
    { intros x Hx. apply (vec_other r2 U V U' V' i j); auto.
      - rewrite Forall_forall in HP. apply HP; auto.
      - intros ->. auto. }
    specialize (HC a b d HCl). unfold cell_vecs in *. rewrite (G a), (G b), (G d) by (cbn; auto). auto.
Qed.

(** ** Whole field *)
Theorem relax_exact max_eb r1 r2 u v U' V' c :
  (0 <= r1)%Z -> (0 < r2)%Z -> Z.of_nat (length u) = (r1 * r2)%Z -> Z.of_nat (length v) = (r1 * r2)%Z ->
  enc_relax XA (Fin max_eb) r1 r2 (map Fin u) (map Fin v) = Some (U', V', c) ->
  exists u' v', U' = map Fin u' /\ V' = map Fin v' /\
  (forall a b d, cell r1 r2 a b d ->
    let t w := regular_cp (w a) (w b) (w d) in
    (t (vecR r2 u v) <-> t (vecR r2 u' v')) /\
    (t (vecR r2 u v) -> forall x, In x [a; b; d] -> vecR r2 u' v' x = vecR r2 u v x)) /\
  (forall k, (0 <= k < r1 * r2)%Z ->
     (atR U' k = atR (map Fin u) k /\ atR V' k = atR (map Fin v) k) \/
     (Rabs (atR U' k - atR (map Fin u) k) <= max_eb /\ Rabs (atR V' k - atR (map Fin v) k) <= max_eb)).
Proof.
  intros H1 H2 Lu Lv H. set (U := map Fin u) in *. set (V := map Fin v) in *.
  assert (FU : allfin U) by apply allfin_map. assert (FV : allfin V) by apply allfin_map.
  destruct (relax_trace XA _ _ _ _ _ _ _ _ H1 H2 H
    (fun k W X => (allfin W /\ allfin X /\
       (forall a b d, cell r1 r2 a b d -> cell_same (cell_vecs r2 U V a b d) (cell_vecs r2 W X a b d))) /\
       untouched k W U /\ untouched k X V /\
       (forall m, (0 <= m < Z.of_nat k)%Z ->
          (atR W m = atR U m /\ atR X m = atR V m) \/
          (Rabs (atR W m - atR U m) <= max_eb /\ Rabs (atR X m - atR V m) <= max_eb)))) as (cp & Hcp & G).
  - split; [split; auto; split; auto|]. { intros a b d _. unfold cell_same, cell_vecs. tauto. }
    split; [apply untouched_refl|]. split; [apply untouched_refl|]. intros; lia.
  - lapply G; clear G.
    + intros ((F1 & F2 & HC) & _ & _ & HB). exists (map toR U'), (map toR V').
      rewrite <- (allfin_inv U' F1), <- (allfin_inv V' F2). split; auto. split; auto. split.
      * intros a b d HCl t. specialize (HC a b d HCl). unfold t.
        assert (E : forall x, In x [a; b; d] -> vecR r2 u v x = vec r2 U V x /\ vecR r2 (map toR U') (map toR V') x = vec r2 U' V' x).
        { intros x Hx. rewrite <- !(vec_map r1 r2 _ _ a b d x HCl Hx). rewrite <- (allfin_inv U' F1), <- (allfin_inv V' F2). auto. }
        destruct (E a ltac:(cbn; auto)) as [Ea Ea']. destruct (E b ltac:(cbn; auto)) as [Eb Eb']. destruct (E d ltac:(cbn; auto)) as [Ed Ed'].
        rewrite Ea, Eb, Ed, Ea', Eb', Ed'. unfold cell_vecs, cell_same in HC. destruct HC as [K1 K2]. split; auto.
        intros Y x Hx. apply K2 in Y. injection Y as Y1 Y2 Y3. destruct (E x Hx) as [Z1 Z2]. rewrite Z1, Z2. symmetry.
        unfold vec. destruct Hx as [<-|[<-|[<-|[]]]]; f_equal; auto.
      * intros k Hk. apply HB. lia.
    + intros k i j W X W' X' c0 Hi Hj Hk ((F1 & F2 & HC) & T1 & T2 & HB) HO.
      destruct (relax_step _ _ _ _ _ _ _ _ _ _ _ _ _ Hi Hj FU FV Hcp F1 F2 HC HO) as (F1' & F2' & HC').
      split; [auto|]. destruct HO as [a b Eu Ev|a b eb0 id q0 q1 x0 x1 W' X' Eu Ev HA HT C0 C1 HV EU EV].
      * split; [apply untouched_keep; auto|]. split; [apply untouched_keep; auto|]. intros m Hm.
        destruct (Z.eq_dec m (Z.of_nat k)) as [->|]; [|apply HB; lia]. left. unfold atR.
        rewrite (proj2 T1), (proj2 T2) by lia. auto.
      * split; [eapply untouched_set; [exact T1|rewrite <- Hk; exact EU]|].
        split; [eapply untouched_set; [exact T2|rewrite <- Hk; exact EV]|].
        pose proof (atR_fin _ _ _ F1 Eu) as Fu. pose proof (atR_fin _ _ _ F2 Ev) as Fv. subst a b.
        destruct (tried_exact _ _ _ _ _ _ _ _ _ _ F1 HT C0) as (d0 & -> & B0 & _).
        destruct (tried_exact _ _ _ _ _ _ _ _ _ _ F2 HT C1) as (d1 & -> & B1 & _).
        destruct (aset_Some _ _ _ _ EU) as (_ & _ & SU). destruct (aset_Some _ _ _ _ EV) as (_ & _ & SV).
        intros m Hm. unfold atR at 1 3 5 7. rewrite SU, SV. destruct (Z.eqb_spec m (i * r2 + j)) as [->|N].
        -- right. cbn [toR]. rewrite Hk in *. split.
           ++ replace (atR U (Z.of_nat k)) with (atR W (Z.of_nat k)); auto. unfold atR. rewrite (proj2 T1) by lia. auto.
           ++ replace (atR V (Z.of_nat k)) with (atR X (Z.of_nat k)); auto. unfold atR. rewrite (proj2 T2) by lia. auto.
        -- fold (atR W m). fold (atR X m). apply HB. lia.
Qed.
