(** The relaxed codec from field to bytes to field, for float and double data; concrete runs and refutations.
    Nothing of /repo is modelled here. *)
From Coq Require Import Reals Lra Lia ZArith List Bool.
From Coq Require Import ZifyBool ZifyNat.
From Flocq Require Import Core.Core IEEE754.BinarySingleNaN IEEE754.Binary IEEE754.Bits.
From Verif Require Import Base Huffman HuffStream HuffProps Stream Arith Mesh2D Derive2D Codec2D Sync2D Trace2D Scan Stream2D Exact Cells2D Geo2D
  Preserve2D IEEE IEEELaws IEEEQuant IEEE2D Api2D LibmModel Witness2D Examples2D Refute2D
  Relax2D RelaxSync2D RelaxCells2D RelaxAny2D RelaxIEEE2D RelaxErr2D.
Import ListNotations.
Local Open Scope Z_scope.

(** y is finite and differs from x by at most b. *)
Definition differs_le {p e} (b : R) (x y : binary_float p e) : Prop :=
  is_finite p e y = true /\ (Rabs (B2R p e y - B2R p e x) <= b)%R.
Definition at_least {p e} (k : Z) (x : binary_float p e) : Prop := (bpow radix2 k <= B2R p e x)%R.

Section Double.
Context (lm : Libm binary64 binary64) (L : libm_ok (DA lm) (DA_ieee lm)).

Theorem relax_api_double max_eb ord ub r1 r2 U V junk buf size :
  0 <= r1 -> 0 < r2 -> Z.of_nat (length U) = r1 * r2 -> Z.of_nat (length V) = r1 * r2 -> Z.of_nat (length junk) < 2 ^ 64 ->
  finite_le 498 max_eb -> at_least (-47) max_eb -> (forall x, In x U \/ In x V -> finite_le 500 x) ->
  compress_relax (DA lm) max_eb ord ub r1 r2 U V junk = Some (buf, size) ->
  short_codes (enc_relax (DA lm) max_eb) ord r1 r2 U V ->
  exists U' V', decompress_online (DA lm) r1 r2 (firstn size buf) = Some (U', V') /\
    (exists c, enc_relax (DA lm) max_eb r1 r2 U V = Some (U', V', c)) /\
    length U' = length U /\ length V' = length V /\
    forall k u v u' v', aget U k = Some u -> aget V k = Some v -> aget U' k = Some u' -> aget V' k = Some v' ->
      let b x := (B2R 53 1024 max_eb * (1 + bpow radix2 (-33)) + bpow radix2 (-51) * Rabs (B2R 53 1024 x))%R in
      (u' = u /\ v' = v) \/ (differs_le (b u) u u' /\ differs_le (b v) v v').
Proof.
  intros H1 H2 LU LV LJ [M1 M2] M3 HF H HK.
  destruct (relax_round_trip (DA lm) (DA_ser lm) _ _ _ _ _ _ _ _ _ _ H1 H2 LU LV LJ H) as (U' & V' & c & E & HD).
  exists U', V'. set (e := B2R 53 1024 max_eb) in *. unfold at_least in M3.
  assert (He : vD (DA lm) (DA_ieee lm) max_eb = Fin e) by (apply (fin_val 53 1024); auto).
  assert (P47 : (0 < bpow radix2 (-47))%R) by apply bpow_gt_0.
  assert (Hr : (bpow radix2 (-47) <= e <= bpow radix2 500)%R).
  { split; auto. apply Rle_trans with (bpow radix2 498); [|apply bpow_le; lia]. apply Rabs_le_inv in M2. lra. }
  assert (HB : (e <= bpow radix2 (500 - 2))%R) by (apply Rabs_le_inv in M2; apply M2).
  split; [apply HD|].
  { exact (relax_ids_ieee (DA lm) (DA_ieee lm) L max_eb e r1 r2 U V U' V' c He Hr E). }
  { eapply HK; eauto. }
  split; [eauto|].
  destruct (relax_bound (DA lm) (DA_ieee lm) L ltac:(cbn; lia) ltac:(cbn; lia) max_eb e r1 r2 U V U' V' c 500 H1 H2 He Hr) as (L1 & L2 & K); auto.
  { intros x Hx. apply (finite_bnd 53 1024). auto. }
  { cbn. lia. }
  split; auto. split; auto. intros k u v u' v' E1 E2 E3 E4 b.
  assert (W : forall x y, close_to (DA lm) (DA_ieee lm) e x y -> differs_le (b x) x y).
  { intros x y (a & a' & Ea & Ea' & Hb). apply (val_fin_iff 53 1024) in Ea, Ea'. destruct Ea as [_ <-]. destruct Ea' as [F <-].
    split; auto. eapply Rle_trans; [exact Hb|]. unfold b. cbn [pT DA_ieee]. change (19 - 53) with (-34). change (2 - 53) with (-51).
    apply Rplus_le_compat_r. rewrite Rmult_assoc. apply Rmult_le_compat_l; [lra|].
    assert (A1 : (bpow radix2 (-33) = 2 * bpow radix2 (-34))%R) by (change (-33) with (1 + -34); rewrite bpow_plus; reflexivity).
    assert (A2 : (bpow radix2 (-40) = bpow radix2 (-6) * bpow radix2 (-34))%R) by (rewrite <- bpow_plus; reflexivity).
    assert (A3 : (bpow radix2 (-6) = / 64)%R) by reflexivity.
    assert (A4 : (0 < bpow radix2 (-34) <= / 64)%R) by (split; [apply bpow_gt_0|rewrite <- A3; apply bpow_le; lia]).
    rewrite A1, A2, A3. nra. }
  destruct (K k u v u' v' E1 E2 E3 E4) as [X|[X Y]]; [left; auto|right; auto].
Qed.
End Double.

Section Float.
Context (lm : Libm binary32 binary64) (L : libm_ok (FA lm) (FA_ieee lm)).

Theorem relax_api_float max_eb ord ub r1 r2 U V junk buf size :
  0 <= r1 -> 0 < r2 -> Z.of_nat (length U) = r1 * r2 -> Z.of_nat (length V) = r1 * r2 -> Z.of_nat (length junk) < 2 ^ 64 ->
  finite_le 98 max_eb -> at_least (-47) max_eb -> (forall x, In x U \/ In x V -> finite_le 100 x) ->
  compress_relax (FA lm) max_eb ord ub r1 r2 U V junk = Some (buf, size) ->
  short_codes (enc_relax (FA lm) max_eb) ord r1 r2 U V ->
  exists U' V', decompress_online (FA lm) r1 r2 (firstn size buf) = Some (U', V') /\
    (exists c, enc_relax (FA lm) max_eb r1 r2 U V = Some (U', V', c)) /\
    length U' = length U /\ length V' = length V /\
    forall k u v u' v', aget U k = Some u -> aget V k = Some v -> aget U' k = Some u' -> aget V' k = Some v' ->
      let b x := (B2R 53 1024 max_eb * (1 + bpow radix2 (-4)) + bpow radix2 (-22) * Rabs (B2R 24 128 x))%R in
      (u' = u /\ v' = v) \/ (differs_le (b u) u u' /\ differs_le (b v) v v').
Proof.
  intros H1 H2 LU LV LJ [M1 M2] M3 HF H HK.
  destruct (relax_round_trip (FA lm) (FA_ser lm) _ _ _ _ _ _ _ _ _ _ H1 H2 LU LV LJ H) as (U' & V' & c & E & HD).
  exists U', V'. set (e := B2R 53 1024 max_eb) in *. unfold at_least in M3.
  assert (He : vD (FA lm) (FA_ieee lm) max_eb = Fin e) by (apply (fin_val 53 1024); auto).
  assert (P47 : (0 < bpow radix2 (-47))%R) by apply bpow_gt_0.
  assert (Hr : (bpow radix2 (-47) <= e <= bpow radix2 500)%R).
  { split; auto. apply Rle_trans with (bpow radix2 98); [|apply bpow_le; lia]. apply Rabs_le_inv in M2. lra. }
  assert (HB : (e <= bpow radix2 (100 - 2))%R) by (apply Rabs_le_inv in M2; apply M2).
  split; [apply HD|].
  { exact (relax_ids_ieee (FA lm) (FA_ieee lm) L max_eb e r1 r2 U V U' V' c He Hr E). }
  { eapply HK; eauto. }
  split; [eauto|].
  destruct (relax_bound (FA lm) (FA_ieee lm) L ltac:(cbn; lia) ltac:(cbn; lia) max_eb e r1 r2 U V U' V' c 100 H1 H2 He Hr) as (L1 & L2 & K); auto.
  { intros x Hx. apply (finite_bnd 24 128). auto. }
  { cbn. lia. }
  split; auto. split; auto. intros k u v u' v' E1 E2 E3 E4 b.
  assert (W : forall x y, close_to (FA lm) (FA_ieee lm) e x y -> differs_le (b x) x y).
  { intros x y (a & a' & Ea & Ea' & Hb). apply (val_fin_iff 24 128) in Ea, Ea'. destruct Ea as [_ <-]. destruct Ea' as [F <-].
    split; auto. eapply Rle_trans; [exact Hb|]. unfold b. cbn [pT FA_ieee]. change (19 - 24) with (-5). change (2 - 24) with (-22).
    apply Rplus_le_compat_r. rewrite Rmult_assoc. apply Rmult_le_compat_l; [lra|].
    assert (A1 : (bpow radix2 (-4) = / 16)%R) by reflexivity. assert (A2 : (bpow radix2 (-5) = / 32)%R) by reflexivity.
    assert (A3 : (bpow radix2 (-6) = / 64)%R) by reflexivity.
    assert (A4 : (0 < bpow radix2 (-40) <= / 64)%R) by (split; [apply bpow_gt_0|rewrite <- A3; apply bpow_le; lia]).
    rewrite A1, A2. lra. }
  destruct (K k u v u' v' E1 E2 E3 E4) as [X|[X Y]]; [left; auto|right; auto].
Qed.
End Float.

(** Exact arithmetic, through the decoder. *)
Theorem relax_preserves max_eb r1 r2 u v U' V' c :
  (16 * / 4503599627370496 <= max_eb)%R -> 0 <= r1 -> 0 < r2 -> Z.of_nat (length u) = r1 * r2 -> Z.of_nat (length v) = r1 * r2 ->
  enc_relax XA (Fin max_eb) r1 r2 (map Fin u) (map Fin v) = Some (U', V', c) ->
  exists u' v', decode r1 r2 c = Some (map Fin u', map Fin v') /\
  (forall a b d, cell r1 r2 a b d ->
    let t w := regular_cp (w a) (w b) (w d) in
    (t (vecR r2 u v) <-> t (vecR r2 u' v')) /\
    (t (vecR r2 u v) -> forall x, In x [a; b; d] -> vecR r2 u' v' x = vecR r2 u v x)) /\
  (forall k, 0 <= k < r1 * r2 ->
    (Rabs (nth (Z.to_nat k) u' 0 - nth (Z.to_nat k) u 0) <= max_eb /\ Rabs (nth (Z.to_nat k) v' 0 - nth (Z.to_nat k) v 0) <= max_eb)%R).
Proof.
  intros HM H1 H2 Lu Lv H. destruct (relax_exact _ _ _ _ _ _ _ _ H1 H2 Lu Lv H) as (u' & v' & E1 & E2 & HC & HB).
  exists u', v'. split.
  { rewrite <- E1, <- E2. apply (relax_decode_exact max_eb r1 r2 (map Fin u) (map Fin v)); auto; rewrite map_length; auto. }
  split; auto. intros k Hk. specialize (HB k Hk). subst U' V'.
  assert (At : forall l : list R, atR (map Fin l) k = nth (Z.to_nat k) l 0%R).
  { intros l. unfold atR, aget. replace (k <? 0) with false by lia. rewrite nth_error_map.
    destruct (nth_error l (Z.to_nat k)) eqn:E; cbn [option_map].
    - cbn [toR]. symmetry. apply nth_error_nth. auto.
    - symmetry. apply nth_overflow. apply nth_error_None. auto. }
  rewrite !At in HB. pose proof eps_pos.
  destruct HB as [[A1 A2]|HB]; auto. rewrite A1, A2, !Rminus_eq_0, Rabs_R0. split; lra.
Qed.

(** ** A run *)
Lemma short_relax A max_eb ord r1 r2 U V : 0 <= r1 -> 0 < r2 -> 2 * (r1 * r2) <= 65 ->
  Z.of_nat (length U) = r1 * r2 -> Z.of_nat (length V) = r1 * r2 ->
  (forall U' V' c, enc_relax A max_eb r1 r2 U V = Some (U', V', c) -> id_ok A c) -> short_codes (enc_relax A max_eb) ord r1 r2 U V.
Proof.
  intros H1 H2 H3 LU LV HI U' V' c E.
  destruct (relax_field_sync A _ _ _ _ _ _ _ _ H1 H2 LU LV E (HI _ _ _ E)) as (Le & Lq & _).
  assert (N : forall l : list Z, (length (nodup Z.eq_dec l) <= length l)%nat).
  { induction l as [|x l IH]; cbn [nodup]; auto. destruct (in_dec _ _ _); cbn [length]; lia. }
  split; apply few_symbols_max_code; eapply Nat.le_trans; try apply N; lia.
Qed.

Lemma ex_relax_runs : out_size (compress_relax (DA (lm64 false)) ex_eb ord0 ub0 4 4 exU exV (repeat 0 256)) = Some 159%nat.
Proof. vm_compute. reflexivity. Qed.
Lemma ex_relax_lossy : changed (enc_relax (DA (lm64 false)) ex_eb 4 4 exU exV) exU exV = Some 16.
Proof. vm_compute. reflexivity. Qed.
Lemma ex_relax_ok :
  (exists buf, compress_relax (DA (lm64 false)) ex_eb ord0 ub0 4 4 exU exV (repeat 0 256) = Some (buf, 159%nat)) /\
  changed (enc_relax (DA (lm64 false)) ex_eb 4 4 exU exV) exU exV = Some 16 /\
  libm_ok (DA (lm64 false)) (DA_ieee (lm64 false)) /\ (forall x, In x exU \/ In x exV -> finite_le 500 x) /\
  finite_le 498 ex_eb /\ at_least (-47) ex_eb /\
  short_codes (enc_relax (DA (lm64 false)) ex_eb) ord0 4 4 exU exV.
Proof.
  split; [apply out_size_some, ex_relax_runs|]. split; [exact ex_relax_lossy|]. split; [apply lm64_ok|]. split; [exact ex_fin|].
  assert (F : finite_le 498 ex_eb) by (apply dy_finite; lia). split; auto.
  assert (V : B2R 53 1024 ex_eb = bpow radix2 (-2)).
  { destruct (dy_B2R 1 (-2) ltac:(lia) ltac:(lia)) as [_ V]. unfold ex_eb. rewrite V. apply Rmult_1_l. }
  assert (G : at_least (-47) ex_eb) by (unfold at_least; rewrite V; apply bpow_le; lia). split; auto.
  refine (short_relax (DA (lm64 false)) ex_eb ord0 4 4 exU exV ltac:(lia) ltac:(lia) ltac:(lia) eq_refl eq_refl _). intros U' V' c E.
  refine (relax_ids_ieee (DA (lm64 false)) (DA_ieee (lm64 false)) (lm64_ok false) ex_eb (B2R 53 1024 ex_eb) _ _ _ _ _ _ _ _ _ E).
  - apply (fin_val 53 1024). apply F.
  - split; [exact G|]. rewrite V. apply bpow_le. lia.
Qed.
