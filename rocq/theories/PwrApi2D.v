(** Point-wise relative compression of float fields: round trip and error bound.  Nothing of /repo is modelled here. *)
From Coq Require Import Reals Lra Lia ZArith List Bool.
From Coq Require Import ZifyBool ZifyNat.
From Flocq Require Import Core.Core IEEE754.BinarySingleNaN IEEE754.Binary IEEE754.Bits.
From Verif Require Import Base Huffman HuffStream HuffProps BitPack Stream Arith Codec2D Sync2D Stream2D Exact IEEE IEEELaws IEEEQuant IEEE2D Api2D RelaxApi2D LogErr2D LogApi2D
  LinQuant Block BlockSync BlockTile BlockBytes BlockIEEE BlockApi Plan PlanApi OffLog2D OffLogApi2D Pwr2D PwrErr2D.
Import ListNotations.
Local Open Scope R_scope.

(** Every value is present.  A non-zero value keeps its sign and has relative error at most [p] up to 2^-13; a zero comes back as +0 or as a
    positive number that exceeds no magnitude of the field by more than a factor 1+2^-13. *)
Definition pwr_recovered {p e} (bound : R) (data : list (binary_float p e)) (n : nat) (out : list (option (binary_float p e))) : Prop :=
  length out = n /\
  forall i, (0 <= i < Z.of_nat n)%Z ->
    exists x x', aget data i = Some x /\ aget out i = Some (Some x') /\
      (B2R p e x = 0 /\ is_finite p e x' = true /\ 0 <= B2R p e x' /\
         (x' = B754_zero p e false \/ forall y, In y data -> B2R p e y <> 0 -> B2R p e x' <= Rabs (B2R p e y) * (1 + bpow radix2 (-13))) \/
       rel_differs_le (bound + bpow radix2 (-13)) x x').

(** Every value is present.  A zero comes back as +0; another value keeps its sign and has the relative error of its position, up to 2^-13. *)
Definition pwr_eb_recovered {p e} (bound : list (binary_float 53 1024)) (data : list (binary_float p e)) (n : nat) (out : list (option (binary_float p e))) : Prop :=
  length out = n /\
  forall i, (0 <= i < Z.of_nat n)%Z ->
    exists x x' b, aget data i = Some x /\ aget out i = Some (Some x') /\ aget bound i = Some b /\
      (B2R p e x = 0 /\ x' = B754_zero p e false \/ rel_differs_le (B2R 53 1024 b + bpow radix2 (-13)) x x').

(** No code word longer than 64 bits, for the decisions taken. *)
Definition short_pwr (A : Arith) (O : FOps A) ord r1 r2 bs precision data : Prop :=
  forall mx mn, pwr_range A data = Some (mx, mn) ->
    short_sz2 A O ord r1 r2 bs (log_precision A precision mx) (pwr_logs A data (zero_log A mn (log_precision A precision mx))).
Definition short_pwr_eb (A : Arith) (O : FOps A) ord r1 r2 bs ebs data : Prop :=
  forall th lebs, eb_threshold A data ebs = Some th -> all_some (final_log_eb A) (combine data ebs) = Some lebs ->
    short_blocks ord 65536 (encode_2d_eb A O r1 r2 bs lebs (pwr_logs A data th)).

Lemma aget_restore A f th L S i l s : aget L i = Some (Some l) -> aget S i = Some s -> aget (restore_pwr A f th L S) i = Some (Some (f th l s)).
Proof.
  intros H1 H2. unfold restore_pwr. unfold aget in *. destruct (i <? 0)%Z; [discriminate|]. rewrite nth_error_map, (nth_error_combine _ _ _ _ _ H1 H2). reflexivity.
Qed.
Lemma restore_length A f th L S : length L = length S -> length (restore_pwr A f th L S) = length L.
Proof. intros H. unfold restore_pwr. rewrite map_length, combine_length, H. apply Nat.min_id. Qed.

Lemma all_some_aget {X Y} (f : X -> option Y) : forall l l', all_some f l = Some l' -> length l' = length l /\ forall i x, nth_error l i = Some x -> exists y, nth_error l' i = Some y /\ f x = Some y.
Proof.
  induction l as [|a l IH]; intros l' H; cbn [all_some] in H.
  - apply Some_inj in H. subst l'. split; [reflexivity|]. intros [|i] x E; discriminate.
  - bind_as H y E1. bind_as H r E2. apply Some_inj in H. subst l'. destruct (IH r E2) as [IH1 IH2]. split; [cbn [length]; congruence|].
    intros [|i] x E; cbn [nth_error] in *; [apply Some_inj in E; subst; eauto|eauto].
Qed.

Section Float.
Context (lm : Libm binary32 binary64) (L : libm_ok (FA lm) (FA_ieee lm)) (LL : log_libm_ok (FA lm) (FA_ieee lm)).
Local Notation A := (FA lm). Local Notation I := (FA_ieee lm).

Lemma usual_float (x : binary32) : zero_or_usual 100 x -> usual A I 100 x.
Proof. intros (U1 & U2 & U3). exists (B2R 24 128 x). split; [apply (fin_val 24 128); exact U1|]. split; [exact U2|exact U3]. Qed.

Lemma close_float m (x y : binary32) : rel_close A I m x y -> rel_differs_le (m + bpow radix2 (-13)) x y.
Proof.
  intros (a & b & Ea & Eb & H1 & H2). change (val 24 128 x = Fin a) in Ea. change (val 24 128 y = Fin b) in Eb.
  apply (val_fin_iff 24 128) in Ea, Eb. destruct Ea as [_ <-]. destruct Eb as [F <-]. split; [exact F|]. split; [exact H1|exact H2].
Qed.

Lemma near_float (l y : binary32) (b : binary64) : y = l \/ is_finite 24 128 l = true /\ differs_le (B2R 53 1024 b * (1 + bpow radix2 (- (24)))) l y ->
  log_near A I l y (B2R 53 1024 b).
Proof.
  intros [H|[H1 [H2 H3]]]; [left; exact H|right]. exists (B2R 24 128 y), (B2R 24 128 l).
  split; [apply (fin_val 24 128); exact H2|]. split; [apply (fin_val 24 128); exact H1|exact H3].
Qed.

Theorem pwr_api_float ord ub r1 r2 bs indep precision pad (data : list binary32) jl junk buf size :
  (bs < 2 ^ 31)%Z -> length pad = 3%nat -> (Z.of_nat (length jl) < 2 ^ 64)%Z -> (Z.of_nat (length junk) < 2 ^ 64)%Z ->
  (1 <= r1 * r2)%Z -> Z.of_nat (length data) = (r1 * r2)%Z ->
  (forall x, In x data -> zero_or_usual 100 x) -> (exists x, In x data /\ B2R 24 128 x <> 0) ->
  is_finite 53 1024 precision = true -> bpow radix2 (-16) <= B2R 53 1024 precision <= 1 ->
  compress_pwr A (FO lm) ord ub r1 r2 bs indep precision pad data jl junk = Some (buf, size) ->
  short_pwr A (FO lm) ord r1 r2 bs precision data ->
  exists out, (forall rest, decompress_pwr A (FO lm) r1 r2 (firstn size buf ++ rest) = Some out) /\
    pwr_recovered (B2R 53 1024 precision) data (Z.to_nat (r1 * r2)) out.
Proof.
  intros H1 H2 H3 H4 HN HD HU (x0 & I0 & N0) HF HP HC HS. unfold compress_pwr in HC. bind_as HC [mx mn] ER. bind_as HC [bl sl] EC.
  pose proof (pwr_write_spec A (FA_ser lm) ord ub _ _ _ _ _ _ H4 HC) as HW. rewrite HW.
  assert (HV : vD A I precision = Fin (B2R 53 1024 precision)) by (apply (fin_val 53 1024); exact HF).
  destruct (pwr_range_val A I LL data mx mn) as (a & b & Va & Vb & Ra & Rb & HL); [|exists x0, (B2R 24 128 x0)|exact ER|].
  { intros x Hx. apply usual_float, HU, Hx. }
  { split; [exact I0|]. split; [|exact N0]. apply (fin_val 24 128). apply (HU x0 I0). }
  assert (PT : (24 <= pT A I)%Z) by (cbn; lia). assert (ET : (128 <= eT A I)%Z) by (cbn; lia).
  destruct (log_precision_val A I L PT ET precision _ mx a HV HP Va Ra) as (c & Ec & Rc & Rc2).
  specialize (HS mx mn ER). set (lp := log_precision A precision mx) in *. set (th := pwr_threshold A mn lp) in *.
  change (val 53 1024 lp = Fin c) in Ec. pose proof Ec as Ec'. apply (val_fin_iff 53 1024) in Ec. destruct Ec as [Fl El].
  destruct (sz2_float lm ord ub r1 r2 bs indep lp pad _ jl bl sl H1 H2 H3 Fl EC HS) as (LG & E1 & [D1 D2]).
  exists (restore_pwr A (pwr_value A) th LG (map (pwr_sign A) data)).
  split; [intros rest; exact (decompress_pwr_with_app A (FA_ser lm) _ _ r1 r2 th data _ rest LG HN HD (E1 rest))|].
  assert (LD : length data = Z.to_nat (r1 * r2)) by (clear - HD; lia).
  split.
  { transitivity (length LG); [apply (restore_length A)|exact D1]. rewrite map_length. etransitivity; [exact D1|]. symmetry. exact LD. }
  intros i Hi. destruct (D2 i Hi) as (l & l' & b' & X1 & X2 & X3 & X4). apply Some_inj in X3. subst b'.
  destruct (aget_in data i) as [x Hx]; [rewrite LD; exact Hi|].
  exists x, (pwr_value A th l' (pwr_sign A x)). split; [exact Hx|].
  split; [exact (aget_restore A (pwr_value A) th LG _ i l' _ X2 (aget_map (pwr_sign A) data i x Hx))|].
  unfold pwr_logs in X1. rewrite (aget_map _ _ _ _ Hx) in X1. apply Some_inj in X1. pose proof (near_float l l' lp X4) as HNR. rewrite El in HNR.
  pose proof (HU x (aget_In _ _ _ Hx)) as Ux. pose proof (fin_val 24 128 x (proj1 Ux)) as Vx. change (vT A I x = Fin (B2R 24 128 x)) in Vx.
  assert (HT : teq A x (t0 A) = xeq (Fin (B2R 24 128 x)) (Fin 0)) by (rewrite (v_teq A I), Vx, (vT_0 A I); reflexivity). cbv beta in X1. rewrite HT in X1.
  destruct (Req_dec (B2R 24 128 x) 0) as [Z|N].
  - left. rewrite Z, (proj2 (xeq_fin 0 0) eq_refl) in X1. subst l. rewrite Z in Vx.
    assert (P19 : 0 <= bpow radix2 (-19)) by apply bpow_ge_0.
    destruct (pwr_zero_val A I LL PT ET x l' c mn b lp th Vx Vb Rb Ec' (conj (proj1 Rc) Rc2) eq_refl HNR) as (z & Ez & Pz & Hz).
    change (val 24 128 (pwr_value A th l' (pwr_sign A x)) = Fin z) in Ez. apply (val_fin_iff 24 128) in Ez. destruct Ez as [Fz Vz].
    split; [exact Z|]. split; [exact Fz|]. rewrite Vz. split; [exact Pz|].
    destruct Hz as [Hz|Hz]; [left; exact Hz|right]. intros y Hy Ny. pose proof (HU y Hy) as Uy.
    pose proof (fin_val 24 128 y (proj1 Uy)) as Vy. change (vT A I y = Fin (B2R 24 128 y)) in Vy.
    destruct (pwr_log_val A I LL y _ (usual_float y Uy) Vy Ny) as (ly & Ely & Hly). exact (Hz _ ly Hly Ny (HL y _ ly Hy Vy Ny Ely)).
  - right. rewrite (proj2 (xeq_fin_false _ _) N) in X1. subst l. apply close_float.
    assert (P16 : 0 <= bpow radix2 (-16)) by apply bpow_ge_0.
    apply (pwr_nonzero A I LL PT ET x (B2R 24 128 x) l' _ c mn b lp th (usual_float x Ux) Vx N); auto; [lra|].
    intros l El'. exact (HL x _ l (aget_In _ _ _ Hx) Vx N El').
Qed.

(** log2f(0) is minus infinity. *)
Definition log2f_zero : Prop := lm_log2f lm (B754_zero 24 128 false) = B754_infinity 24 128 true.


(** The first value is zero; or no non-zero value has a bound below 1/16. *)
Definition separated (ebs : list binary64) (data : list binary32) : Prop :=
  exists h t, data = h :: t /\
    (B2R 24 128 h = 0 /\ log2f_zero \/
     B2R 24 128 h <> 0 /\ forall i y e, aget data i = Some y -> aget ebs i = Some e -> B2R 24 128 y <> 0 -> bpow radix2 (-4) <= B2R 53 1024 e).

Lemma nth_combine_In {X Y} (l : list X) (m : list Y) i x y : aget l i = Some x -> aget m i = Some y -> In (x, y) (combine l m).
Proof. unfold aget. destruct (i <? 0)%Z; [discriminate|]. intros H1 H2. eapply nth_error_In, nth_error_combine; eauto. Qed.

Theorem pwr_eb_api_float ord ub r1 r2 bs indep ebs pad (data : list binary32) jl junk buf size lebs :
  (bs < 2 ^ 31)%Z -> length pad = 3%nat -> (Z.of_nat (length jl) < 2 ^ 64)%Z -> (Z.of_nat (length junk) < 2 ^ 64)%Z ->
  (1 <= r1 * r2)%Z -> Z.of_nat (length data) = (r1 * r2)%Z ->
  (forall x, In x data -> zero_or_usual 100 x) ->
  (forall b, In b ebs -> is_finite 53 1024 b = true /\ 0 <= B2R 53 1024 b <= 1) ->
  separated ebs data ->
  compress_pwr_eb A (FO lm) ord ub r1 r2 bs indep ebs pad data jl junk = Some (buf, size, lebs) ->
  short_pwr_eb A (FO lm) ord r1 r2 bs ebs data ->
  exists out, (forall rest, decompress_pwr_eb A (FO lm) r1 r2 lebs (firstn size buf ++ rest) = Some out) /\
    pwr_eb_recovered ebs data (Z.to_nat (r1 * r2)) out.
Proof.
  intros H1 H2 H3 H4 HN HD HU HB HSep HC HS. unfold compress_pwr_eb in HC. destruct (_ =? _)%nat eqn:EL in HC; [|discriminate HC]. apply Nat.eqb_eq in EL. change (length ebs = length data) in EL.
  bind_as HC th ET. bind_as HC lebs' EB. bind_as HC [bl sl] EC. bind_as HC [buf' size'] EW. apply Some_inj in HC. inversion HC; subst buf' size' lebs'. clear HC.
  pose proof (pwr_write_spec A (FA_ser lm) ord ub _ _ _ _ _ _ H4 EW) as HW. rewrite HW.
  specialize (HS th lebs ET EB).
  assert (PT : (24 <= pT A I)%Z) by (cbn; lia). assert (E8 : (128 <= eT A I)%Z) by (cbn; lia).
  assert (HF : forall x e, In (x, e) (combine data ebs) -> usual A I 100 x /\ exists p, vD A I e = Fin p /\ 0 <= p <= 1).
  { intros x e Hi. split; [apply usual_float, HU; eapply in_combine_l; exact Hi|]. apply in_combine_r in Hi. destruct (HB e Hi) as [F1 F2].
    exists (B2R 53 1024 e). split; [apply (fin_val 53 1024); exact F1|exact F2]. }
  destruct HSep as (h & t & ED & HSep).
  assert (TH : thr_ok A I th (combine data ebs) /\ (vT A I th = NInf \/ forall i y e, aget data i = Some y -> aget ebs i = Some e -> B2R 24 128 y <> 0 -> bpow radix2 (-4) <= B2R 53 1024 e)).
  { rewrite ED in ET. unfold eb_threshold in ET. rewrite <- ED in ET. apply Some_inj in ET. subst th.
    pose proof (HU h ltac:(rewrite ED; left; reflexivity)) as Uh. pose proof (fin_val 24 128 h (proj1 Uh)) as Vh. change (vT A I h = Fin (B2R 24 128 h)) in Vh.
    destruct HSep as [[Z0 L0]|[NZ HE]].
    - assert (EN : vT A I (tlog2f A (tabs A h)) = NInf).
      { replace (tabs A h) with (B754_zero 24 128 false); [change (val 24 128 (lm_log2f lm (B754_zero 24 128 false)) = NInf); rewrite L0; reflexivity|].
        destruct Uh as [Fh _]. clear - Z0 Fh. destruct h as [s|s|s pl Hpl|s m e Hb]; try discriminate Fh; [reflexivity|]. exfalso. cbn [B2R] in Z0. apply eq_0_F2R in Z0. destruct s; discriminate. }
      destruct (lower_threshold_fold A I L LL PT E8 (combine data ebs) _ HF (or_introl EN)) as (T1 & T2 & _). split; [exact T1|left; exact (T2 EN)].
    - destruct (usual_float h Uh) as (r & Er & Hr & Hb). rewrite Vh in Er. injection Er as <-. destruct Hr as [|Hr]; [contradiction|].
      destruct (log2f_val A I LL (tabs A h) (B2R 24 128 h)) as (l & El & _ & Rl); [rewrite v_tabs, Vh; reflexivity|split; auto|].
      destruct (lower_threshold_fold A I L LL PT E8 (combine data ebs) (tlog2f A (tabs A h)) HF) as (T1 & _ & _); [right; exists l; split; [exact El|lra]|]. split; [exact T1|right; exact HE]. }
  destruct TH as [TH SEP].
  destruct (all_some_aget _ _ _ EB) as [LB GB].
  assert (GB' : forall i x e, aget data i = Some x -> aget ebs i = Some e -> exists b, aget lebs i = Some b /\ final_log_eb A (x, e) = Some b).
  { intros i x e Hx He. unfold aget in *. destruct (i <? 0)%Z; [discriminate|]. exact (GB _ _ (nth_error_combine _ _ _ _ _ Hx He)). }
  assert (LLE : Z.of_nat (length lebs) = (r1 * r2)%Z) by (rewrite LB, combine_length; rewrite <- HD; f_equal; etransitivity; [apply f_equal2; [reflexivity|exact EL]|apply Nat.min_id]).
  assert (FB : forall x e b, In (x, e) (combine data ebs) -> final_log_eb A (x, e) = Some b ->
    is_finite 53 1024 b = true /\ (B2R 24 128 x = 0 -> B2R 53 1024 b = 0) /\ (B2R 24 128 x <> 0 -> vD A I (pwr_log_eb A x e) = Fin (B2R 53 1024 b))).
  { intros x e b Hi Hb. destruct (HF x e Hi) as [Ux (p & Ep & Rp)]. pose proof (HU x ltac:(eapply in_combine_l; exact Hi)) as Zx.
    pose proof (fin_val 24 128 x (proj1 Zx)) as Vx. change (vT A I x = Fin (B2R 24 128 x)) in Vx.
    unfold final_log_eb in Hb. rewrite (magnitude_pos A I x _ Vx) in Hb. rewrite !(v_teq A I), Vx, (vT_0 A I) in Hb. destruct (Req_dec (B2R 24 128 x) 0) as [Z|N].
    - rewrite Z, (proj2 (xeq_fin 0 0) eq_refl) in Hb. apply Some_inj in Hb. subst b.
      assert (V0 : vD A I (dofZ A 0) = Fin 0) by (apply (vD_const A I 0); lia). change (val 53 1024 (dofZ A 0) = Fin 0) in V0.
      apply (val_fin_iff 53 1024) in V0. destruct V0 as [F0 V0]. split; [exact F0|]. split; [intros _; exact V0|intros N; contradiction].
    - rewrite (proj2 (xeq_fin_false _ _) N) in Hb. cbn [negb] in Hb. apply Some_inj in Hb. subst b.
      destruct (pwr_log_val A I LL x _ Ux Vx N) as (l & El & _ & Rl). destruct (pwr_log_eb_val A I L PT E8 x l e p El Rl Ep Rp) as (c & Ec & _ & _).
      rewrite Ec. change (val 53 1024 (pwr_log_eb A x e) = Fin c) in Ec. apply (val_fin_iff 53 1024) in Ec. destruct Ec as [Fc Vc].
      split; [exact Fc|]. split; [intros Z; contradiction|]. intros _. f_equal. symmetry. exact Vc. }
  assert (FA' : forall b, In b lebs -> is_finite 53 1024 b = true).
  { intros b Hb. apply In_nth_error in Hb. destruct Hb as [k Hk].
    assert (exists xe, nth_error (combine data ebs) k = Some xe) as [[x e] Hxe].
    { destruct (nth_error (combine data ebs) k) eqn:Q; [eauto|]. apply nth_error_None in Q. exfalso. assert (R : nth_error lebs k <> None) by (rewrite Hk; discriminate). apply nth_error_Some in R. exact (Nat.lt_irrefl _ (Nat.lt_le_trans _ _ _ R (Nat.le_trans _ _ _ (Nat.eq_le_incl _ _ LB) Q))). }
    destruct (GB k _ Hxe) as (b' & E1 & E2). rewrite Hk in E1. apply Some_inj in E1. subst b'. apply (FB x e b (nth_error_In _ _ Hxe) E2). }
  destruct (block2_eb_api_float lm ord ub r1 r2 bs indep lebs pad _ jl bl sl H1 H2 H3 LLE FA' EC HS) as (LG & E1 & [D1 D2]).
  exists (restore_pwr A (pwr_eb_value A) th LG (map (pwr_sign A) data)).
  split; [intros rest; exact (decompress_pwr_with_app A (FA_ser lm) _ _ r1 r2 th data _ rest LG HN HD (E1 rest))|].
  assert (LD : length data = Z.to_nat (r1 * r2)) by (clear - HD; lia).
  split.
  { transitivity (length LG); [apply (restore_length A)|exact D1]. rewrite map_length. etransitivity; [exact D1|]. symmetry. exact LD. }
  intros i Hi. destruct (D2 i Hi) as (l & l' & b & X1 & X2 & X3 & X4).
  destruct (aget_in data i) as [x Hx]; [rewrite LD; exact Hi|]. destruct (aget_in ebs i) as [e He]; [rewrite EL, LD; exact Hi|].
  exists x, (pwr_eb_value A th l' (pwr_sign A x)), e. split; [exact Hx|].
  split; [exact (aget_restore A (pwr_eb_value A) th LG _ i l' _ X2 (aget_map (pwr_sign A) data i x Hx))|]. split; [exact He|].
  unfold pwr_logs in X1. rewrite (aget_map _ _ _ _ Hx) in X1. apply Some_inj in X1. pose proof (near_float l l' b X4) as HNR.
  destruct (GB' i x e Hx He) as (b' & Q1 & Q2). change (aget lebs i = Some b) in X3. assert (Q1' : Some b' = Some b) by (transitivity (aget lebs i); [symmetry; exact Q1|exact X3]). apply Some_inj in Q1'. subst b'.
  pose proof (nth_combine_In data ebs i x e Hx He) as HIn. destruct (FB x e b HIn Q2) as (_ & Q3 & Q4).
  pose proof (HU x (aget_In _ _ _ Hx)) as Ux. pose proof (fin_val 24 128 x (proj1 Ux)) as Vx. change (vT A I x = Fin (B2R 24 128 x)) in Vx.
  assert (HT : teq A x (t0 A) = xeq (Fin (B2R 24 128 x)) (Fin 0)) by (rewrite (v_teq A I), Vx, (vT_0 A I); reflexivity). cbv beta in X1. rewrite HT in X1.
  destruct (Req_dec (B2R 24 128 x) 0) as [Z|N].
  - left. split; [exact Z|]. rewrite Z, (proj2 (xeq_fin 0 0) eq_refl) in X1. subst l. rewrite (Q3 Z) in HNR. rewrite Z in Vx.
    exact (pwr_eb_zero A I x l' th _ Vx TH HNR).
  - right. rewrite (proj2 (xeq_fin_false _ _) N) in X1. subst l. apply close_float. destruct (HB e (aget_In _ _ _ He)) as [Fe Re].
    apply (pwr_eb_nonzero A I L LL PT E8 x (B2R 24 128 x) l' e (B2R 53 1024 e) (B2R 53 1024 b) th (combine data ebs) (usual_float x Ux) Vx N); auto.
    + apply (fin_val 53 1024). exact Fe.
    + destruct SEP as [SEP|SEP]; [left; exact SEP|right; exact (SEP i x e Hx He N)].
Qed.
End Float.
