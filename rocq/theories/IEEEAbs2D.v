(** Error bound of the 2D absolute codec in IEEE arithmetic.  Nothing of /repo is modelled here. *)
From Coq Require Import Reals Lra Lia ZArith List Bool.
From Coq Require Import ZifyBool ZifyNat.
From Flocq Require Import Core.Core IEEE754.BinarySingleNaN IEEE754.Binary IEEE754.Bits.
From Verif Require Import Base Huffman Arith Mesh2D Derive2D Codec2D Sync2D Trace2D Exact IEEE IEEELaws IEEEQuant IEEE2D.
Import ListNotations.
Local Open Scope R_scope.

Section B.
Context (A : Arith) (I : ieee A) (L : libm_ok A I).
Local Notation vT := (vT A I). Local Notation vD := (vD A I).
Local Notation pT := (pT A I). Local Notation eT := (eT A I).
Local Notation HpT := (HpT A I).
Local Notation bnd := (bnd A I).

(** [y] reproduces [x] within [m]: finite and closer than m. *)
Definition within (m : R) (x y : T A) : Prop := exists a b, vT x = Fin a /\ vT y = Fin b /\ Rabs (b - a) < m.

Lemma coded_within w r2 i j cur eb0 e id q x :
  coded A w r2 i j cur eb0 id q x -> vD eb0 = Fin e -> e * bpow radix2 52 <= bpow radix2 1022 ->
  (0 < e) /\ within (e * (1 + bpow radix2 (-40))) cur x.
Proof.
  intros (ab & pr & Eq & Hid & _ & Hq) Ee Hmax.
  destruct (quantize_ieee A I L 2 52 (eps_double A) eb0 e id ab) as (K1 & K2 & K3 & K4); auto; try lia.
  { apply v_eps. }
  pose proof (bpow_gt_0 radix2 (-52)). split; [change (-52)%Z with (-(52))%Z in *; lra|].
  destruct (quantise_bound A I _ _ _ _ _ _ Hq K3 (bpow_gt_0 _ _)) as (c & y & Ec & Ey & Hb).
  { pose proof (pT_ok A I). pose proof (eT_ok A I). apply (fmt_bpow pT eT HpT). pose proof (HeT A I) as X. unfold Prec_lt_emax in X. lia. }
  exists c, y. split; auto. split; auto. lra.
Qed.

Definition moderate (B : Z) (w : list (T A)) : Prop := forall k x, aget w k = Some x -> bnd B x.

Lemma atmost_pos m v : atmost m v -> xlt (Fin 0) v = true -> exists e, v = Fin e /\ 0 < e <= m.
Proof.
  intros [->|(x & -> & Hx)] H; [discriminate|]. apply xlt_fin in H. eauto.
Qed.

Section Field.
Context (B : Z).
Context (req : list (T A) -> list (T A) -> Z -> Z -> Z -> Z -> option (D A)) (abs_eb : T A -> D A -> D A) (mm : R -> R).
(** The bound a component may be given, in terms of the component's value; 2^(B+1) at most. *)
Hypothesis Hmm : forall a, Rabs a <= bpow radix2 B -> mm a <= bpow radix2 (B + 1).
(** What is known of every component of the input besides its magnitude. *)
Context (okp : T A -> Prop).
Hypothesis Hreq : forall U V r1 r2 i j eb u v, all_bnd A I (B + 2) U -> all_bnd A I (B + 2) V ->
  req U V r1 r2 i j = Some eb -> dlt A (dofZ A 0) eb = true ->
  aget U (i * r2 + j) = Some u -> aget V (i * r2 + j) = Some v -> okp u -> okp v ->
  forall id0 q0 x0 id1 q1 x1 a b, coded A U r2 i j u (abs_eb u eb) id0 q0 x0 -> coded A V r2 i j v (abs_eb v eb) id1 q1 x1 ->
  vT u = Fin a -> Rabs a <= bpow radix2 B -> vT v = Fin b -> Rabs b <= bpow radix2 B ->
  within (mm a) u x0 /\ within (mm b) v x1.

Definition good (x y : T A) : Prop := exists a, vT x = Fin a /\ within (mm a) x y.

Lemma good_bnd x y : bnd B x -> good x y -> bnd (B + 2) y.
Proof.
  intros (r & E & Hr) (a & Ea & (a' & b & Ea' & Eb & Hb)). exists b. split; auto.
  rewrite E in Ea. inversion Ea; subst a. rewrite E in Ea'. inversion Ea'; subst a'.
  specialize (Hmm r Hr). replace (B + 2)%Z with (B + 1 + 1)%Z by lia. rewrite bpow_2.
  assert (bpow radix2 B <= bpow radix2 (B + 1)) by (apply bpow_le; lia).
  replace b with ((b - r) + r) by ring. eapply Rle_trans; [apply Rabs_triang|]. lra.
Qed.

Theorem field_bound r1 r2 U V U' V' c :
  (0 <= r1)%Z -> (0 < r2)%Z -> Z.of_nat (length U) = (r1 * r2)%Z -> Z.of_nat (length V) = (r1 * r2)%Z ->
  moderate B U -> moderate B V ->
  (forall k x, aget U k = Some x -> okp x) -> (forall k x, aget V k = Some x -> okp x) ->
  enc_field A req abs_eb r1 r2 U V = Some (U', V', c) ->
  length U' = length U /\ length V' = length V /\
  forall k u v u' v', aget U k = Some u -> aget V k = Some v -> aget U' k = Some u' -> aget V' k = Some v' ->
    (u' = u /\ v' = v) \/ (good u u' /\ good v v').
Proof.
  intros H1 H2 LU LV MU MV OU OV H.
  destruct (field_trace A _ _ _ _ _ _ _ _ _ H1 H2 LU LV H) as (L1 & L2 & HT).
  split; auto. split; auto.
  assert (Main : forall n k, (0 <= k < Z.of_nat n)%Z -> (k < r1 * r2)%Z ->
     forall u v u' v', aget U k = Some u -> aget V k = Some v -> aget U' k = Some u' -> aget V' k = Some v' ->
    (u' = u /\ v' = v) \/ (good u u' /\ good v v')).
  { induction n as [|n IH]; intros k Hk Hk' u v u' v' Eu Ev Eu' Ev'; [lia|].
    destruct (Z.ltb_spec k (Z.of_nat n)); [eapply (IH k); eauto; lia|].
    assert (Hj : (0 <= k mod r2 < r2)%Z) by (apply Z.mod_pos_bound; auto).
    assert (Hi : (0 <= k / r2 < r1)%Z).
    { split; [apply Z.div_pos; lia|]. apply Z.div_lt_upper_bound; lia. }
    assert (Ep : (k / r2 * r2 + k mod r2 = k)%Z) by (pose proof (Z.div_mod k r2); lia).
    destruct (HT _ _ Hi Hj) as [cq HO]. rewrite Ep in HO.
    assert (A1 : forall f o, length f = length o -> aget (mix k f o) k = @aget (T A) o k).
    { intros f o Lf. rewrite aget_mix by (auto; lia). rewrite Z.ltb_irrefl. auto. }
    assert (A2 : forall f o, length f = length o -> aget (mix (k + 1) f o) k = @aget (T A) f k).
    { intros f o Lf. rewrite aget_mix by (auto; lia). replace (k <? k + 1)%Z with true by lia. auto. }
    assert (BU : all_bnd A I (B + 2) (mix k U' U)).
    { intros q x Eq. rewrite aget_mix in Eq by (auto; lia). destruct (Z.ltb_spec q k).
      - assert (Hq : (0 <= q < r1 * r2)%Z) by (apply aget_Some in Eq; lia).
        destruct (aget_len U' U q x L1 Eq) as [xu Exu]. assert (LL : length U = length V) by lia.
        destruct (aget_len U V q xu LL Exu) as [xv Exv]. destruct (aget_len V V' q xv ltac:(auto) Exv) as [xv' Exv'].
        destruct (IH q ltac:(lia) ltac:(lia) _ _ _ _ Exu Exv Eq Exv') as [[-> _]|[G _]].
        + eapply bnd_mono; [|eapply MU; eauto]. lia.
        + exact (good_bnd _ _ (MU _ _ Exu) G).
      - eapply bnd_mono; [|eapply MU; eauto]. lia. }
    assert (BV : all_bnd A I (B + 2) (mix k V' V)).
    { intros q x Eq. rewrite aget_mix in Eq by (auto; lia). destruct (Z.ltb_spec q k).
      - assert (Hq : (0 <= q < r1 * r2)%Z) by (apply aget_Some in Eq; lia).
        destruct (aget_len V' V q x L2 Eq) as [xv Exv]. assert (LL : length V = length U) by lia.
        destruct (aget_len V U q xv LL Exv) as [xu Exu]. destruct (aget_len U U' q xu ltac:(auto) Exu) as [xu' Exu'].
        destruct (IH q ltac:(lia) ltac:(lia) _ _ _ _ Exu Exv Exu' Eq) as [[_ ->]|[_ G]].
        + eapply bnd_mono; [|eapply MV; eauto]. lia.
        + exact (good_bnd _ _ (MV _ _ Exv) G).
      - eapply bnd_mono; [|eapply MV; eauto]. lia. }
    inversion HO as [u1 v1 E1 E2 EU EV|u1 v1 eb id0 id1 q0 q1 x0 x1 U1 V1 E1 E2 E3 E4 C0 C1 S0 S1 EU EV]; subst.
    - left. rewrite <- (A2 U' U), <- EU, (A1 U' U) in Eu' by auto. rewrite <- (A2 V' V), <- EV, (A1 V' V) in Ev' by auto.
      split; congruence.
    - right. rewrite Ep in *. pose proof E1 as E1'. pose proof E2 as E2'. rewrite A1 in E1, E2 by auto. rewrite Eu in E1. rewrite Ev in E2.
      apply Some_inj in E1. apply Some_inj in E2. subst u1 v1.
      apply aset_Some in S0. destruct S0 as (_ & _ & S0). apply aset_Some in S1. destruct S1 as (_ & _ & S1).
      specialize (S0 k). specialize (S1 k). rewrite Z.eqb_refl in S0, S1. rewrite A2 in S0, S1 by auto.
      rewrite S0 in Eu'. rewrite S1 in Ev'. apply Some_inj in Eu'. apply Some_inj in Ev'. subst u' v'.
      destruct (MU _ _ Eu) as (a & Ea & Ha). destruct (MV _ _ Ev) as (b & Eb & Hb).
      destruct (Hreq (mix k U' U) (mix k V' V) r1 r2 (k / r2) (k mod r2) eb u v BU BV E3 E4 ltac:(rewrite Ep; auto) ltac:(rewrite Ep; auto) (OU _ _ Eu) (OV _ _ Ev)
        _ _ _ _ _ _ a b C0 C1 Ea Ha Eb Hb) as [W0 W1].
      split; [exists a|exists b]; auto. }
  intros k u v u' v' Eu Ev Eu' Ev'. assert (0 <= k < r1 * r2)%Z by (apply aget_Some in Eu; lia).
  eapply (Main (Z.to_nat (k + 1)) k); eauto; lia.
Qed.
End Field.

(** The requested absolute bound is respected up to the error of log2, for float and double fields of moderate size. *)
Theorem abs_bound B max_eb m r1 r2 U V U' V' c :
  (0 <= B)%Z -> (2 * B + 8 < eT)%Z -> vD max_eb = Fin m -> m <= bpow radix2 B ->
  (0 <= r1)%Z -> (0 < r2)%Z -> Z.of_nat (length U) = (r1 * r2)%Z -> Z.of_nat (length V) = (r1 * r2)%Z ->
  moderate B U -> moderate B V ->
  enc_online_abs A max_eb r1 r2 U V = Some (U', V', c) ->
  length U' = length U /\ length V' = length V /\
  forall k u v u' v', aget U k = Some u -> aget V k = Some v -> aget U' k = Some u' -> aget V' k = Some v' ->
    (u' = u /\ v' = v) \/
    (within (m * (1 + bpow radix2 (-40))) u u' /\ within (m * (1 + bpow radix2 (-40))) v v').
Proof.
  intros HB HB2 Em Hm H1 H2 LU LV MU MV H. pose proof (eT_ok A I) as He.
  assert (H40 : 0 < bpow radix2 (-40) <= 1).
  { split; [apply bpow_gt_0|]. change 1 with (bpow radix2 0). apply bpow_le. lia. }
  pose proof (bpow_gt_0 radix2 B) as PB.
  destruct (field_bound B (required_eb_abs A max_eb) (fun _ eb => eb) (fun _ => m * (1 + bpow radix2 (-40)))) with (okp := fun _ : T A => True) (11 := H) as (K1 & K2 & K3); auto.
  - intros a _. rewrite bpow_2. destruct (Rle_lt_dec m 0); [nra|]. nra.
  - intros U0 V0 s1 s2 i j eb u v BU BV Er Hp _ _ _ _ id0 q0 x0 id1 q1 x1 a b Hc0 Hc1 _ _ _ _.
    rewrite (v_dlt A I), vD_0 in Hp.
    assert (Hat : exists e, vD eb = Fin e /\ 0 < e <= m).
    { destruct (required_abs_atmost A I (B + 2) max_eb m U0 V0 s1 s2 i j eb) as [At|Z]; auto; try lia.
      - eapply atmost_pos; eauto.
      - rewrite Z in Hp. apply xlt_fin in Hp. lra. }
    destruct Hat as (e & Ee & He0 & Hem).
    assert (Hx : e * bpow radix2 52 <= bpow radix2 1022).
    { apply Rle_trans with (bpow radix2 B * bpow radix2 52).
      * apply Rmult_le_compat_r; [apply bpow_ge_0|lra].
      * rewrite <- bpow_plus. apply bpow_le. lia. }
    destruct (coded_within _ _ _ _ _ _ e _ _ _ Hc0 Ee Hx) as (_ & W0).
    destruct (coded_within _ _ _ _ _ _ e _ _ _ Hc1 Ee Hx) as (_ & W1).
    split; [destruct W0 as (y1 & y2 & X1 & X2 & X3)|destruct W1 as (y1 & y2 & X1 & X2 & X3)]; exists y1, y2; (split; [auto|]; split; [auto|]; nra).
  - split; auto. split; auto. intros k u v u' v' E1 E2 E3 E4. destruct (K3 _ _ _ _ _ E1 E2 E3 E4) as [X|[(a & _ & X) (b & _ & Y)]]; auto.
Qed.

(** Bound 0 (or negative): lossless. *)
Theorem abs_zero B max_eb m r1 r2 U V U' V' c :
  (0 <= B)%Z -> (2 * B + 8 < eT)%Z -> vD max_eb = Fin m -> m <= 0 ->
  (0 <= r1)%Z -> (0 < r2)%Z -> Z.of_nat (length U) = (r1 * r2)%Z -> Z.of_nat (length V) = (r1 * r2)%Z ->
  moderate B U -> moderate B V ->
  enc_online_abs A max_eb r1 r2 U V = Some (U', V', c) -> U' = U /\ V' = V.
Proof.
  intros HB HB2 Em Hm H1 H2 LU LV MU MV H. pose proof (bpow_gt_0 radix2 B). pose proof (bpow_gt_0 radix2 (-40)).
  destruct (abs_bound B max_eb m _ _ _ _ _ _ _ HB HB2 Em ltac:(lra) H1 H2 LU LV MU MV H) as (L1 & L2 & K).
  assert (N : forall x y, ~ within (m * (1 + bpow radix2 (-40))) x y).
  { intros x y (a & b & _ & _ & Hab). pose proof (Rabs_pos (b - a)). nra. }
  assert (E : forall k u v u' v', aget U k = Some u -> aget V k = Some v -> aget U' k = Some u' -> aget V' k = Some v' -> u' = u /\ v' = v).
  { intros k u v u' v' E1 E2 E3 E4. destruct (K k u v u' v' E1 E2 E3 E4) as [X|[X _]]; auto. exfalso. eapply N; eauto. }
  split; apply aget_ext2; auto; intros k x y EX EY.
  - destruct (aget_len U V k y ltac:(lia) EY) as [v Ev]. destruct (aget_len V V' k v ltac:(lia) Ev) as [v' Ev'].
    apply (E k y v x v' EY Ev EX Ev').
  - destruct (aget_len V U k y ltac:(lia) EY) as [u Eu]. destruct (aget_len U U' k u ltac:(lia) Eu) as [u' Eu'].
    apply (E k u y u' x Eu EY Eu' EX).
Qed.
End B.
