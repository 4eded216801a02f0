(** The multilevel codec from field to bytes to field, for float and double data.  Nothing of /repo is modelled here. *)
From Coq Require Import Reals Lra Lia ZArith List Bool Permutation.
From Coq Require Import ZifyBool ZifyNat.
From Flocq Require Import Core.Core IEEE754.BinarySingleNaN IEEE754.Binary IEEE754.Bits.
From Verif Require Import Base Huffman HuffStream HuffProps Stream Arith Mesh2D Derive2D Codec2D Sync2D Trace2D Scan Stream2D Exact IEEE IEEELaws IEEEQuant
  IEEE2D IEEEAbs2D TotalAny Total2D IEEETotal2D Fit2D Api2D RelaxApi2D Geo2D Preserve2D Sz3 Sz3Order Sz3Sync Sz3Err Sz3Cells.
Import ListNotations.
Local Open Scope Z_scope.
Local Instance p24 : Prec_gt_0 24 := eq_refl.

(** ** The encoder does not leave its arrays *)
Section Any.
Context (A : Arith) (wrap : bool).

Lemma predict_total (w : list (T A)) p s k : (forall t, In t (taps k) -> 0 <= p + t * s < Z.of_nat (length w)) ->
  exists x, predict A (aget w) p s k = Some x.
Proof.
  intros H. assert (G : forall t q, In t (taps k) -> q = p + t * s -> exists x, aget w q = Some x).
  { intros t q Ht ->. apply aget_ok. auto. }
  destruct k; cbn [predict taps] in *.
  - eauto.
  - destruct (G (-1) (p - s)) as [a ->]; [cbn; auto|lia|]. destruct (G 1 (p + s)) as [b ->]; [cbn; auto|lia|]. cbn [bind]. eauto.
  - destruct (G (-1) (p - s)) as [a ->]; [cbn; auto|lia|]. destruct (G 1 (p + s)) as [b ->]; [cbn; auto|lia|].
    destruct (G 3 (p + 3 * s)) as [c ->]; [cbn; auto|lia|]. cbn [bind]. eauto.
  - destruct (G (-3) (p - 3 * s)) as [c ->]; [cbn; auto|lia|]. destruct (G (-1) (p - s)) as [a ->]; [cbn; auto|lia|].
    destruct (G 1 (p + s)) as [b ->]; [cbn; auto|lia|]. destruct (G 3 (p + 3 * s)) as [d ->]; [cbn; auto|lia|]. cbn [bind]. eauto.
  - destruct (G (-3) (p - 3 * s)) as [c ->]; [cbn; auto|lia|]. destruct (G (-1) (p - s)) as [a ->]; [cbn; auto|lia|].
    destruct (G 1 (p + s)) as [b ->]; [cbn; auto|lia|]. cbn [bind]. eauto.
  - destruct (G (-1) (p - s)) as [a ->]; [cbn; auto|lia|]. eauto.
Qed.

Lemma derive_total eb U V r1 r2 i j : 0 <= i < r1 -> 0 <= j < r2 -> Z.of_nat (length U) = r1 * r2 -> Z.of_nat (length V) = r1 * r2 ->
  exists r, derive_eb_abs A eb U V r1 r2 i j = Some r.
Proof. intros. apply req_loop_any; auto. cbn [six In]. intros k Hk. lia. Qed.

(** A run ends if every quantisation does; [Inv] holds of the arrays all along. *)
Lemma sz3_total_gen (Inv : list (T A) -> Prop) max_eb r1 r2 U V : 1 <= r1 -> 1 <= r2 ->
  (forall w, Inv w -> Z.of_nat (length w) = r1 * r2) ->
  (forall v U V r, In v (visits r1 r2) -> Inv U -> Inv V -> derive_eb_abs A (level_eb A max_eb (v_half v)) U V r1 r2 (v_i v) (v_j v) = Some r ->
     exists id ab, eb_exponential_quantize A 4 (eps_double A) r = Some (id, ab) /\
     forall w x p, Inv w -> aget w (v_p v) = Some x -> predict A (aget w) (v_p v) (v_s v) (v_kind v) = Some p ->
     exists q y n, quantize_and_overwrite A wrap x p (d2t A ab) = Some (q, y, n) /\ forall w', aset w (v_p v) y = Some w' -> Inv w') ->
  Inv U -> Inv V -> exists s c, enc_sz3 A wrap max_eb r1 r2 U V = Some (s, c).
Proof.
  intros H1 H2 HL HS IU IV. unfold enc_sz3. destruct (visits_order r1 r2 H1 H2) as [HO HP].
  assert (HC := visits_coord r1 r2 H1 H2).
  assert (Gen : forall vs P U V, (forall v, In v vs -> In v (visits r1 r2)) -> in_order P vs -> (forall q, P q -> 0 <= q < r1 * r2) -> Inv U -> Inv V ->
    exists s c, scan_enc (sz3_point A wrap max_eb r1 r2) vs (U, V) = Some (s, c)).
  { clear U V IU IV. induction vs as [|v vs IH]; intros P U V Hin HO' HP' IU IV; cbn [scan_enc]; [eauto|].
    destruct HO' as (_ & HR & HO'). destruct (HC v (Hin v (or_introl eq_refl))) as (Ci & Cj & Cp).
    assert (Rp : 0 <= v_p v < r1 * r2) by (rewrite Cp; nia).
    assert (GP : forall w, Inv w -> exists p, predict A (aget w) (v_p v) (v_s v) (v_kind v) = Some p).
    { intros w Iw. apply predict_total. rewrite (HL w Iw). intros t Ht. apply HP', HR. unfold reads. apply in_map_iff. exists t. auto. }
    destruct (derive_total (level_eb A max_eb (v_half v)) U V r1 r2 (v_i v) (v_j v) Ci Cj (HL _ IU) (HL _ IV)) as [r Er].
    destruct (HS v U V r (Hin v (or_introl eq_refl)) IU IV Er) as (id & ab & EQ & HQ).
    destruct (aget_ok U (v_p v)) as [u Eu]; [rewrite (HL U IU); auto|]. destruct (GP U IU) as [pu Epu].
    destruct (HQ U u pu IU Eu Epu) as (qu & u' & nu & Qu & IU').
    destruct (aset_ok U (v_p v) u') as [U' SU]; [rewrite (HL U IU); auto|]. specialize (IU' U' SU).
    destruct (aget_ok V (v_p v)) as [w Ew]; [rewrite (HL V IV); auto|]. destruct (GP V IV) as [pw Epw].
    destruct (HQ V w pw IV Ew Epw) as (qw & w' & nw & Qw & IV').
    destruct (aset_ok V (v_p v) w') as [V' SV]; [rewrite (HL V IV); auto|]. specialize (IV' V' SV).
    unfold sz3_point at 1. rewrite Er. cbn [bind]. rewrite EQ. cbn [bind]. rewrite Eu. cbn [bind]. rewrite Epu. cbn [bind]. rewrite Qu. cbn [bind].
    rewrite SU. cbn [bind]. rewrite Ew. cbn [bind]. rewrite Epw. cbn [bind]. rewrite Qw. cbn [bind]. rewrite SV. cbn [bind].
    destruct (IH (fun q => P q \/ q = v_p v) U' V') as (s & c & ->); auto; [intros v0 H0; apply Hin; right; auto| |cbn [bind]; eauto].
    intros q [Hq| ->]; auto. }
  eapply Gen; eauto. intros q [].
Qed.

Section Machine.
Hypothesis convt : forall x, exists z, ttoint A x = Some z.
Lemma quantize_overwrite_total x p eb : wrap = true -> exists q y n, quantize_and_overwrite A wrap x p eb = Some (q, y, n).
Proof.
  intros HW. assert (W : forall z, exists y, int32 wrap z = Some y) by (intros z; unfold int32; rewrite HW; destruct (_ && _)%bool; eauto).
  unfold quantize_and_overwrite. destruct (teq A _ _); [eauto|].
  match goal with |- context [ttoint A ?x] => destruct (convt x) as [z ->] end. cbn [bind].
  destruct (W (z + 1)) as [n ->]. cbn [bind]. destruct (n <? intv_radius * 2); [|eauto].
  destruct (tlt A _ _).
  - match goal with |- context [int32 wrap ?x] => destruct (W x) as [m ->] end. cbn [bind]. destruct (tlt A _ _); eauto.
  - cbn [bind]. destruct (tlt A _ _); eauto.
Qed.
Hypothesis conv : forall x, exists z, dtoint A x = Some z.
Theorem sz3_machine_total max_eb r1 r2 U V : wrap = true -> 1 <= r1 -> 1 <= r2 -> Z.of_nat (length U) = r1 * r2 -> Z.of_nat (length V) = r1 * r2 ->
  exists s c, enc_sz3 A wrap max_eb r1 r2 U V = Some (s, c).
Proof.
  intros HW H1 H2 LU LV. apply (sz3_total_gen (fun w => Z.of_nat (length w) = r1 * r2)); auto.
  intros v U0 V0 r _ IU IV _.
  assert (HX : exists id ab, eb_exponential_quantize A 4 (eps_double A) r = Some (id, ab)).
  { unfold eb_exponential_quantize. destruct (dle A _ _); [eauto|].
    match goal with |- context [dtoint A ?x] => destruct (conv x) as [z ->] end. cbn [bind]. eauto. }
  destruct HX as (id & ab & HX). exists id, ab. split; auto. intros w x p Iw _ _.
  assert (HQ := quantize_overwrite_total x p (d2t A ab) HW).
  destruct HQ as (q & y & n & HQ). exists q, y, n. split; auto. intros w' Hw. destruct (aset_Some _ _ _ _ Hw) as (_ & L & _). rewrite L. auto.
Qed.
End Machine.
End Any.

(** ** Exact arithmetic *)
Definition atmostb (b : R) (x : XR) : Prop := x = NInf \/ exists e, x = Fin e /\ (e <= b)%R.
Lemma minf_atmostb b x y : atmostb b x -> notnan y -> atmostb b (minf XA x y).
Proof.
  intros Hx Hy. unfold minf. cbn [dlt XA]. destruct (xlt x y) eqn:E; [auto|]. destruct Hx as [->|(e & -> & He)].
  - destruct y; try discriminate E; [left; reflexivity|exfalso; apply Hy; reflexivity].
  - destruct y as [f| | |]; try discriminate E; [|left; reflexivity|exfalso; apply Hy; reflexivity].
    apply xlt_fin_false in E. right. exists f. split; [reflexivity|lra].
Qed.
Lemma req_loop_le b f U V r1 r2 i j : forall ks eb r, (forall k w, In k ks -> tri_values XA U V r2 (i * r2 + j) k = Some w -> notnan (f w k)) ->
  atmostb b eb -> req_loop XA f U V r1 r2 i j ks eb = Some r -> atmostb b r.
Proof.
  induction ks as [|k ks IH]; intros eb r HN He H; cbn [req_loop] in H.
  - apply Some_inj in H. subst. auto.
  - destruct (in_mesh r1 r2 i j k).
    + bind_as H w Ew. eapply IH; [|apply minf_atmostb; [exact He|]|exact H].
      * intros k0 w0 Hk. apply HN. right; auto.
      * eapply HN; eauto. left; auto.
    + eapply IH; [|exact He|exact H]. intros k0 w0 Hk. apply HN. right; auto.
Qed.

(** With the machine's conversions, no run fails; bounds of the double range. *)
Theorem sz3_exact_total max_eb r1 r2 u v : (max_eb <= big)%R -> 1 <= r1 -> 1 <= r2 ->
  Z.of_nat (length u) = r1 * r2 -> Z.of_nat (length v) = r1 * r2 ->
  exists s c, enc_sz3 (XO (Some (- 2 ^ 31))) true (Fin max_eb) r1 r2 (map Fin u) (map Fin v) = Some (s, c).
Proof.
  intros HB H1 H2 LU LV. set (X := XO (Some (- 2 ^ 31))). assert (Ho : Some (- 2 ^ 31) = None \/ Some (- 2 ^ 31) = Some (- 2 ^ 31)) by auto.
  apply (sz3_total_gen X true (fun w => allfin w /\ Z.of_nat (length w) = r1 * r2)); auto;
    try (split; [apply allfin_map|rewrite map_length; auto]; fail); [tauto|].
  intros vi U V r Hv [FU LU'] [FV LV'] Er. destruct (visits_coord r1 r2 H1 H2 vi Hv) as (Ci & Cj & Cp).
  assert (Pb := big_ge_1).
  assert (HX : exists id ab, eb_exponential_quantize X 4 (eps_double X) r = Some (id, ab)).
  { unfold X in *. rewrite same_quant. rewrite same_derive in Er. unfold derive_eb_abs in Er.
    assert (HM : atmostb (big * big) (level_eb (XO (Some (- 2 ^ 31))) (Fin max_eb) (v_half vi))).
    { right. unfold level_eb. destruct (v_half vi); [|eexists; split; [reflexivity|nra]].
      cbn [dmul ddiv dofZ XO]. rewrite xdiv_fin by lra. eexists. split; [reflexivity|]. nra. }
    apply (req_loop_le (big * big)) in Er; [|intros k w Hk Hw|exact HM].
    - destruct Er as [->|(e & -> & He)].
      + exists 0, (Fin 0). reflexivity.
      + destruct (quantize_total e He) as [[id ab] E]. exists id, ab. exact E.
    - apply in_six in Hk. apply (tri_values_vec _ _ _ _ _ _ _ Hk FU FV) in Hw. cbn zeta in Hw. rewrite Hw. apply derive_abs_sound. }
  destruct HX as (id & ab & HX). exists id, ab. split; auto. intros w x p [Fw Lw] Ex Ep.
  destruct (used_bound _ _ _ _ HX) as (a & -> & Ha & _). destruct (Fw _ _ Ex) as [rx ->]. destruct (predict_fin _ _ _ _ _ _ Fw Ep) as [rp ->].
  destruct (quantize_overwrite_total X true) with (x := Fin rx) (p := Fin rp) (eb := d2t X (Fin a)) as (q & y & n & HQ); auto.
  { intros z. unfold X. cbn [XO ttoint]. destruct (xtoint z); eauto. }
  exists q, y, n. split; auto. intros w' Hw. apply quantized_inv in HQ. change (d2t X (Fin a)) with (Fin a) in HQ.
  destruct (component _ Ho _ _ _ _ _ _ _ Ha HQ) as (y' & -> & _). split; [eapply allfin_aset; [exact Fw|exact Hw]|].
  destruct (aset_Some _ _ _ _ Hw) as (_ & L & _). transitivity (Z.of_nat (length w)); [f_equal; exact L|exact Lw].
Qed.

(** ** Bytes *)
(** The entropy coder's code words, in terms of the compressor's input. *)
Definition sz3_short (A : Arith) (wrap : bool) max_eb ord r1 r2 U V : Prop :=
  forall s c, enc_sz3 A wrap max_eb r1 r2 U V = Some (s, c) -> code_words_64 ord c.

Lemma compress_sz3_inv A wrap max_eb ord ub r1 r2 U V junk buf size : compress_sz3 A wrap max_eb ord ub r1 r2 U V junk = Some (buf, size) ->
  exists U' V' c, enc_sz3 A wrap max_eb r1 r2 U V = Some ((U', V'), c) /\
    Z.of_nat (length junk) = 2 * (r1 * r2) * Z.of_nat (tsize_of A) /\ write_pieces ord ub (sz3_pieces A c) junk 0 = Some (buf, size).
Proof.
  unfold compress_sz3. intros H. bind_as H [[U' V'] c] E. exists U', V', c. split; auto.
  destruct (_ =? _) eqn:EL; [|discriminate]. apply Z.eqb_eq in EL. auto.
Qed.

(** A block that holds the header is larger than what the decompressor asserts. *)
Lemma header_fits A ord ub c junk buf size : ser_ok A -> Forall (piece_ok ord) (sz3_pieces A c) -> Z.of_nat (length junk) < 2 ^ 64 ->
  write_pieces ord ub (sz3_pieces A c) junk 0 = Some (buf, size) -> 29 <= Z.of_nat (length junk).
Proof.
  intros HS HF HJ HW. pose proof (write_pieces_spec ord ub _ junk 0 buf size HJ HF ltac:(lia) HW) as (_ & _ & cs0 & HC0 & _ & HP & HE0).
  assert (HL : (length (concat cs0) <= length junk)%nat) by lia. clear - HC0 HL HS.
  unfold sz3_pieces in HC0. inv_forall2. cbn [concat] in HL. rewrite !app_length in HL.
  rewrite (dser_length A HS) in HL. unfold capacity, intv_radius in HL. rewrite !le_bytes_length in HL. cbn [length] in HL. lia.
Qed.

(** Level-scaled bound: half the bound on points whose two coordinates are multiples of 4. *)
Definition level_bound (m : R) (i j : Z) : R := (if ((i mod 4 =? 0) && (j mod 4 =? 0))%bool then m / 2 else m)%R.

Section Bytes.
Context (A : Arith) (I : ieee A) (L : libm_ok A I) (HS : ser_ok A) (H0 : teq A (d2t A (d0 A)) (t0 A) = true).

Theorem sz3_api B wrap max_eb m ord ub r1 r2 U V junk buf size :
  0 <= B -> 2 * B + 8 < eT A I -> B + 35 < eT A I -> 5 <= pT A I ->
  1 <= r1 -> 1 <= r2 -> Z.of_nat (tsize_of A) <= 8 ->
  Z.of_nat (length U) = r1 * r2 -> Z.of_nat (length V) = r1 * r2 -> Z.of_nat (length junk) < 2 ^ 64 ->
  vD A I max_eb = Fin m -> (m <= bpow radix2 B)%R -> moderate A I B U -> moderate A I B V ->
  compress_sz3 A wrap max_eb ord ub r1 r2 U V junk = Some (buf, size) -> sz3_short A wrap max_eb ord r1 r2 U V ->
  exists U' V', decompress_sz3 A wrap r1 r2 (firstn size buf) = Some (U', V') /\
    (exists c, enc_sz3 A wrap max_eb r1 r2 U V = Some ((U', V'), c)) /\ length U' = length U /\ length V' = length V /\
    forall i j, 0 <= i < r1 -> 0 <= j < r2 -> forall x x',
      (aget U (i * r2 + j) = Some x /\ aget U' (i * r2 + j) = Some x') \/ (aget V (i * r2 + j) = Some x /\ aget V' (i * r2 + j) = Some x') ->
      x' = x \/ (0 < m)%R /\ within_le A I (level_bound m i j * slack A I) x x'.
Proof.
  intros HB HE HE2 Hp R1 R2 Has LU LV LJ Em Hm MU MV HC HK. apply compress_sz3_inv in HC. destruct HC as (U' & V' & c & E & EJ & W).
  destruct (sz3_err A I L B wrap max_eb m r1 r2 U V U' V' c HB HE HE2 Hp R1 R2 LU LV Em Hm MU MV E) as [HZ HX].
  destruct (HK _ _ E) as [K1 K2]. exists U', V'. split.
  { assert (HF : Forall (piece_ok ord) (sz3_pieces A c)).
    { unfold sz3_pieces, capacity. change (2 * 65536) with 131072. clear - K1 K2.
      repeat apply Forall_cons; try apply Forall_nil; cbn [piece_ok]; try exact Logic.I; (split; [lia|match goal with H : max_code_64 _ ?a _ |- max_code_64 _ ?a _ => exact H end]). }
    pose proof (header_fits A ord ub c junk buf size HS HF LJ W).
    apply (sz3_round_trip A H0 wrap max_eb ord ub r1 r2 U V U' V' c junk buf size); auto. lia. }
  split; [eauto|]. unfold enc_sz3 in E. destruct (run_length A _ _ _ _ _ _ _ _ _ _ E) as (E1 & E2 & _).
  split; [auto|]. split; [auto|]. intros i j Hi Hj x x' Hx. destruct (HX i j Hi Hj) as (h & Hh & HM).
  destruct (HM x x' Hx) as [->|(P & a & b & Ea & Eb & Hd)]; [auto|]. right. split; [auto|]. exists a, b. split; auto. split; auto.
  eapply Rle_trans; [exact Hd|]. destruct (slack_le A I) as [S1 S2]. apply Rmult_le_compat_r; [lra|]. unfold level_bound.
  destruct ((i mod 4 =? 0) && (j mod 4 =? 0))%bool eqn:E4.
  - rewrite Hh by lia. lra.
  - destruct h; lra.
Qed.
End Bytes.

(** ** double *)
Section Double.
Context (lm : Libm binary64 binary64).

Lemma sz3_zero64 : teq (DA lm) (d2t (DA lm) (d0 (DA lm))) (t0 (DA lm)) = true.
Proof. vm_compute. reflexivity. Qed.

Theorem sz3_machine_double max_eb r1 r2 U V : lm_x86 lm = true -> 1 <= r1 -> 1 <= r2 -> Z.of_nat (length U) = r1 * r2 -> Z.of_nat (length V) = r1 * r2 ->
  exists s c, enc_sz3 (DA lm) true max_eb r1 r2 U V = Some (s, c).
Proof.
  intros HX R1 R2. apply sz3_machine_total; auto; intros x.
  - rewrite (v_ttoint (DA lm) (DA_ieee lm)). cbn [DA_ieee oob]. unfold lm_oob. rewrite HX. destruct (xtoint _); eauto.
  - rewrite (v_dtoint (DA lm) (DA_ieee lm)). cbn [DA_ieee oob]. unfold lm_oob. rewrite HX. destruct (xtoint _); eauto.
Qed.

Theorem sz3_api_double (L : libm_ok (DA lm) (DA_ieee lm)) wrap max_eb ord ub r1 r2 U V junk buf size :
  1 <= r1 -> 1 <= r2 ->
  Z.of_nat (length U) = r1 * r2 -> Z.of_nat (length V) = r1 * r2 -> Z.of_nat (length junk) < 2 ^ 64 ->
  is_finite 53 1024 max_eb = true -> (B2R 53 1024 max_eb <= bpow radix2 500)%R -> (forall x, In x U \/ In x V -> finite_le 500 x) ->
  compress_sz3 (DA lm) wrap max_eb ord ub r1 r2 U V junk = Some (buf, size) -> sz3_short (DA lm) wrap max_eb ord r1 r2 U V ->
  exists U' V', decompress_sz3 (DA lm) wrap r1 r2 (firstn size buf) = Some (U', V') /\
    (exists c, enc_sz3 (DA lm) wrap max_eb r1 r2 U V = Some ((U', V'), c)) /\ length U' = length U /\ length V' = length V /\
    forall i j, 0 <= i < r1 -> 0 <= j < r2 -> forall x x',
      (aget U (i * r2 + j) = Some x /\ aget U' (i * r2 + j) = Some x') \/ (aget V (i * r2 + j) = Some x /\ aget V' (i * r2 + j) = Some x') ->
      x' = x \/ (0 < B2R 53 1024 max_eb)%R /\ differs_le (level_bound (B2R 53 1024 max_eb) i j * (1 + bpow radix2 (-39))) x x'.
Proof.
  intros R1 R2 LU LV LJ Fm Hm Hx HC HK.
  destruct (sz3_api (DA lm) (DA_ieee lm) L (DA_ser lm) sz3_zero64 500 wrap max_eb (B2R 53 1024 max_eb) ord ub r1 r2 U V junk buf size)
    as (U' & V' & HD & HE & L1 & L2 & HB); auto; try (cbn [DA_ieee eT pT tsize_of DA]; lia).
  - apply (fin_val 53 1024). auto.
  - apply moderate64. intros. apply Hx. auto.
  - apply moderate64. intros. apply Hx. auto.
  - exists U', V'. repeat (split; [auto|]). intros i j Hi Hj x x' E. destruct (HB i j Hi Hj x x' E) as [->|(P & a & b & Ea & Eb & Hd)]; [auto|].
    right. split; auto. apply (val_fin_iff 53 1024) in Ea, Eb. destruct Ea as [_ <-], Eb as [Fb <-]. split; auto.
    eapply Rle_trans; [exact Hd|]. apply Rmult_le_compat_l; [unfold level_bound; destruct (_ && _)%bool; lra|].
    unfold slack. cbn [DA_ieee pT]. change (bpow radix2 (-40)) with (/ 1099511627776)%R. change (bpow radix2 (- (53))) with (/ 9007199254740992)%R.
    change (bpow radix2 (-39)) with (/ 549755813888)%R. lra.
Qed.
End Double.

(** ** float *)
Section Float.
Context (lm : Libm binary32 binary64).

Lemma sz3_zero32 : teq (FA lm) (d2t (FA lm) (d0 (FA lm))) (t0 (FA lm)) = true.
Proof. vm_compute. reflexivity. Qed.

Theorem sz3_machine_float max_eb r1 r2 U V : lm_x86 lm = true -> 1 <= r1 -> 1 <= r2 -> Z.of_nat (length U) = r1 * r2 -> Z.of_nat (length V) = r1 * r2 ->
  exists s c, enc_sz3 (FA lm) true max_eb r1 r2 U V = Some (s, c).
Proof.
  intros HX R1 R2. apply sz3_machine_total; auto; intros x.
  - rewrite (v_ttoint (FA lm) (FA_ieee lm)). cbn [FA_ieee oob]. unfold lm_oob. rewrite HX. destruct (xtoint _); eauto.
  - rewrite (v_dtoint (FA lm) (FA_ieee lm)). cbn [FA_ieee oob]. unfold lm_oob. rewrite HX. destruct (xtoint _); eauto.
Qed.

Theorem sz3_api_float (L : libm_ok (FA lm) (FA_ieee lm)) wrap max_eb ord ub r1 r2 U V junk buf size :
  1 <= r1 -> 1 <= r2 ->
  Z.of_nat (length U) = r1 * r2 -> Z.of_nat (length V) = r1 * r2 -> Z.of_nat (length junk) < 2 ^ 64 ->
  is_finite 53 1024 max_eb = true -> (B2R 53 1024 max_eb <= bpow radix2 56)%R -> (forall x, In x U \/ In x V -> finite_le 56 x) ->
  compress_sz3 (FA lm) wrap max_eb ord ub r1 r2 U V junk = Some (buf, size) -> sz3_short (FA lm) wrap max_eb ord r1 r2 U V ->
  exists U' V', decompress_sz3 (FA lm) wrap r1 r2 (firstn size buf) = Some (U', V') /\
    (exists c, enc_sz3 (FA lm) wrap max_eb r1 r2 U V = Some ((U', V'), c)) /\ length U' = length U /\ length V' = length V /\
    forall i j, 0 <= i < r1 -> 0 <= j < r2 -> forall x x',
      (aget U (i * r2 + j) = Some x /\ aget U' (i * r2 + j) = Some x') \/ (aget V (i * r2 + j) = Some x /\ aget V' (i * r2 + j) = Some x') ->
      x' = x \/ (0 < B2R 53 1024 max_eb)%R /\ differs_le (level_bound (B2R 53 1024 max_eb) i j * (1 + bpow radix2 (-23))) x x'.
Proof.
  intros R1 R2 LU LV LJ Fm Hm Hx HC HK.
  destruct (sz3_api (FA lm) (FA_ieee lm) L (FA_ser lm) sz3_zero32 56 wrap max_eb (B2R 53 1024 max_eb) ord ub r1 r2 U V junk buf size)
    as (U' & V' & HD & HE & L1 & L2 & HB); auto; try (cbn [FA_ieee eT pT tsize_of FA]; lia).
  - apply (fin_val 53 1024). auto.
  - apply moderate32. intros. apply Hx. auto.
  - apply moderate32. intros. apply Hx. auto.
  - exists U', V'. repeat (split; [auto|]). intros i j Hi Hj x x' E. destruct (HB i j Hi Hj x x' E) as [->|(P & a & b & Ea & Eb & Hd)]; [auto|].
    right. split; auto. apply (val_fin_iff 24 128) in Ea, Eb. destruct Ea as [_ <-], Eb as [Fb <-]. split; auto.
    eapply Rle_trans; [exact Hd|]. apply Rmult_le_compat_l; [unfold level_bound; destruct (_ && _)%bool; lra|].
    unfold slack. cbn [FA_ieee pT]. change (bpow radix2 (-40)) with (/ 1099511627776)%R. change (bpow radix2 (- (24))) with (/ 16777216)%R.
    change (bpow radix2 (-23)) with (/ 8388608)%R. lra.
Qed.
End Float.

(** ** The order of the points, without the helpers of the proofs *)
Theorem sz3_each_once r1 r2 : 1 <= r1 -> 1 <= r2 -> Permutation (map v_p (visits r1 r2)) (zrange 0 (r1 * r2)).
Proof.
  intros H1 H2. destruct (visits_order r1 r2 H1 H2) as [HO HP]. apply NoDup_Permutation.
  - apply (in_order_nodup _ _ HO). - apply NoDup_zrange. - intros q. rewrite HP, in_zrange. reflexivity.
Qed.
Theorem sz3_reads_done (A : Arith) r1 r2 m v (w w' : list (T A)) : 1 <= r1 -> 1 <= r2 -> nth_error (visits r1 r2) m = Some v ->
  (forall q, In q (map v_p (firstn m (visits r1 r2))) -> aget w q = aget w' q) ->
  predict A (aget w) (v_p v) (v_s v) (v_kind v) = predict A (aget w') (v_p v) (v_s v) (v_kind v).
Proof.
  intros H1 H2 Hm HW. destruct (visits_order r1 r2 H1 H2) as [HO _].
  assert (G : forall t, In t (taps (v_kind v)) -> aget w (v_p v + t * v_s v) = aget w' (v_p v + t * v_s v)).
  { intros t Ht. apply HW. destruct (in_order_nth _ _ _ _ HO Hm (v_p v + t * v_s v)) as [[]|HI]; auto. unfold reads. apply in_map_iff. eauto. }
  assert (E1 := G (-1)). assert (E2 := G 1). assert (E3 := G 3). assert (E4 := G (-3)). clear G HW Hm.
  replace (v_p v + -1 * v_s v) with (v_p v - v_s v) in E1 by lia. replace (v_p v + 1 * v_s v) with (v_p v + v_s v) in E2 by lia.
  replace (v_p v + -3 * v_s v) with (v_p v - 3 * v_s v) in E4 by lia.
  destruct (v_kind v); cbn [predict taps In] in *; repeat match goal with E : _ \/ _ -> _ |- _ => try rewrite E by auto; clear E end; try reflexivity.
Qed.
