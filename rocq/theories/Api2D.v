(** The 2D online codecs from field to bytes to field, for float and double data: corollaries of the previous files.
    Nothing of /repo is modelled here. *)
From Coq Require Import Reals Lra Lia ZArith List Bool.
From Coq Require Import ZifyBool ZifyNat.
From Flocq Require Import Core.Core IEEE754.BinarySingleNaN IEEE754.Binary IEEE754.Bits.
From Verif Require Import Base Huffman HuffStream HuffProps Stream Arith Mesh2D Derive2D Codec2D Sync2D Trace2D Stream2D Exact IEEE IEEELaws IEEEQuant
  IEEE2D IEEEAbs2D IEEERel2D TotalAny IEEETotal2D Fit2D.
Import ListNotations.
Local Open Scope Z_scope.
Local Instance p24 : Prec_gt_0 24 := eq_refl.

Section Generic.
Context (A : Arith) (HS : ser_ok A).

Lemma compress_inv enc ord ub r1 r2 U V junk buf size : compress_with A enc ord ub r1 r2 U V junk = Some (buf, size) ->
  exists U' V' c, enc r1 r2 U V = Some (U', V', c) /\ write_stream A ord ub (r1 * r2) c junk = Some (buf, size).
Proof. unfold compress_with. intros H. bind_as H [[U' V'] c] E. eauto. Qed.

Theorem online_round_trip max_eb ord ub r1 r2 U V junk buf size :
  0 <= r1 -> 0 < r2 -> Z.of_nat (length U) = r1 * r2 -> Z.of_nat (length V) = r1 * r2 -> Z.of_nat (length junk) < 2 ^ 64 ->
  compress_online A max_eb ord ub r1 r2 U V junk = Some (buf, size) ->
  exists U' V' c, enc_online A max_eb r1 r2 U V = Some (U', V', c) /\
    (code_words_64 ord c -> decompress_online A r1 r2 (firstn size buf) = Some (U', V')).
Proof.
  intros H1 H2 LU LV LJ H. apply compress_inv in H. destruct H as (U' & V' & c & E & W). exists U', V', c. split; auto.
  intros K. exact (stream_round_trip A _ _ ord ub r1 r2 U V U' V' c junk buf size HS H1 H2 LU LV E K LJ W).
Qed.
Theorem online_abs_round_trip max_eb ord ub r1 r2 U V junk buf size :
  0 <= r1 -> 0 < r2 -> Z.of_nat (length U) = r1 * r2 -> Z.of_nat (length V) = r1 * r2 -> Z.of_nat (length junk) < 2 ^ 64 ->
  compress_online_abs A max_eb ord ub r1 r2 U V junk = Some (buf, size) ->
  exists U' V' c, enc_online_abs A max_eb r1 r2 U V = Some (U', V', c) /\
    (code_words_64 ord c -> decompress_online A r1 r2 (firstn size buf) = Some (U', V')).
Proof.
  intros H1 H2 LU LV LJ H. apply compress_inv in H. destruct H as (U' & V' & c & E & W). exists U', V', c. split; auto.
  intros K. exact (stream_round_trip A _ _ ord ub r1 r2 U V U' V' c junk buf size HS H1 H2 LU LV E K LJ W).
Qed.

(** The hypothesis on the entropy coder, in terms of the compressor's input. *)
Definition short_codes (enc : Z -> Z -> list (T A) -> list (T A) -> option (list (T A) * list (T A) * code (T A)))
  ord r1 r2 U V : Prop := forall U' V' c, enc r1 r2 U V = Some (U', V', c) -> code_words_64 ord c.
End Generic.
Arguments short_codes {A}.

(** Finite and at most 2^k in magnitude. *)
Definition finite_le {p e} (k : Z) (x : binary_float p e) : Prop :=
  is_finite p e x = true /\ (Rabs (B2R p e x) <= bpow radix2 k)%R.
(** y is finite and differs from x by less than b. *)
Definition differs_lt {p e} (b : R) (x y : binary_float p e) : Prop :=
  is_finite p e y = true /\ (Rabs (B2R p e y - B2R p e x) < b)%R.

Lemma val_fin_iff p e (x : binary_float p e) r : val p e x = Fin r <-> is_finite p e x = true /\ B2R p e x = r.
Proof.
  destruct x as [s|s|s pl H|s m ex H]; cbn [val is_finite B2R]; split.
  all: try (intros [X Y]; try discriminate; subst; auto; fail).
  all: intros X; try discriminate X; try (destruct s; discriminate X); injection X as <-; auto.
Qed.

Lemma finite_bnd p e (x : binary_float p e) k : finite_le k x -> exists r, val p e x = Fin r /\ (Rabs r <= bpow radix2 k)%R.
Proof. intros [H1 H2]. exists (B2R p e x). split; auto. apply val_fin_iff. auto. Qed.

Lemma aget_In {X} (l : list X) k x : aget l k = Some x -> In x l.
Proof.
  unfold aget. destruct (k <? 0); [discriminate|]. apply nth_error_In.
Qed.

Lemma fin_val p e (x : binary_float p e) : is_finite p e x = true -> val p e x = Fin (B2R p e x).
Proof. intros H. apply val_fin_iff. auto. Qed.

Lemma val_nonfin p e (x : binary_float p e) : is_finite p e x = false -> forall r, val p e x <> Fin r.
Proof. intros H r E. apply val_fin_iff in E. destruct E. congruence. Qed.

(** ** double *)
Section Double.
Context (lm : Libm binary64 binary64) (L : libm_ok (DA lm) (DA_ieee lm)).

Lemma moderate64 k (U : list binary64) : (forall x, In x U -> finite_le k x) -> moderate (DA lm) (DA_ieee lm) k U.
Proof. intros H i x E. apply (finite_bnd 53 1024). apply H. eapply aget_In; eauto. Qed.
Lemma within64 m (x y : binary64) : within (DA lm) (DA_ieee lm) m x y -> differs_lt m x y.
Proof.
  intros (a & b & E1 & E2 & H). apply (val_fin_iff 53 1024) in E1, E2. destruct E1, E2. split; auto. congruence.
Qed.

Theorem abs_api_double max_eb ord ub r1 r2 U V junk buf size :
  0 <= r1 -> 0 < r2 -> Z.of_nat (length U) = r1 * r2 -> Z.of_nat (length V) = r1 * r2 -> Z.of_nat (length junk) < 2 ^ 64 ->
  finite_le 500 max_eb -> (forall x, In x U \/ In x V -> finite_le 500 x) ->
  compress_online_abs (DA lm) max_eb ord ub r1 r2 U V junk = Some (buf, size) ->
  short_codes (enc_online_abs (DA lm) max_eb) ord r1 r2 U V ->
  exists U' V', decompress_online (DA lm) r1 r2 (firstn size buf) = Some (U', V') /\
    length U' = length U /\ length V' = length V /\
    forall k u v u' v', aget U k = Some u -> aget V k = Some v -> aget U' k = Some u' -> aget V' k = Some v' ->
      let b := (B2R 53 1024 max_eb * (1 + bpow radix2 (-40)))%R in
      (u' = u /\ v' = v) \/ (differs_lt b u u' /\ differs_lt b v v').
Proof.
  intros H1 H2 LU LV LJ [M1 M2] HF H HK.
  destruct (online_abs_round_trip (DA lm) (DA_ser lm) _ _ _ _ _ _ _ _ _ _ H1 H2 LU LV LJ H) as (U' & V' & c & E & HD).
  exists U', V'. split; [apply HD; eapply HK; eauto|].
  destruct (abs_bound (DA lm) (DA_ieee lm) L 500 max_eb (B2R 53 1024 max_eb) r1 r2 U V U' V' c) as (L1 & L2 & K); auto.
  - lia.
  - cbn [DA_ieee eT]. lia.
  - cbn [DA_ieee vD]. apply fin_val. auto.
  - apply Rabs_le_inv in M2. lra.
  - apply moderate64. auto.
  - apply moderate64. auto.
  - split; auto. split; auto. intros k u v u' v' E1 E2 E3 E4 b.
    destruct (K k u v u' v' E1 E2 E3 E4) as [X|[X Y]]; [left; auto|right]. split; apply within64; auto.
Qed.

Theorem abs_zero_api_double max_eb ord ub r1 r2 U V U' V' c junk buf size :
  0 <= r1 -> 0 < r2 -> Z.of_nat (length U) = r1 * r2 -> Z.of_nat (length V) = r1 * r2 -> Z.of_nat (length junk) < 2 ^ 64 ->
  is_finite 53 1024 max_eb = true -> (B2R 53 1024 max_eb <= 0)%R -> (forall x, In x U \/ In x V -> finite_le 500 x) ->
  enc_online_abs (DA lm) max_eb r1 r2 U V = Some (U', V', c) -> code_words_64 ord c ->
  write_pieces ord ub (stream_pieces (DA lm) c) junk 0 = Some (buf, size) ->
  decompress_online (DA lm) r1 r2 (firstn size buf) = Some (U, V).
Proof.
  intros H1 H2 LU LV LJ M1 M2 HF E HK HW.
  rewrite (pieces_round_trip (DA lm) _ _ ord ub r1 r2 U V U' V' c junk buf size (DA_ser lm) H1 H2 LU LV E HK LJ HW).
  destruct (abs_zero (DA lm) (DA_ieee lm) L 500 max_eb (B2R 53 1024 max_eb) r1 r2 U V U' V' c) as [-> ->]; auto.
  - lia.
  - cbn [DA_ieee eT]. lia.
  - cbn [DA_ieee vD]. apply fin_val. auto.
  - apply moderate64. auto.
  - apply moderate64. auto.
Qed.

(** Zero or of magnitude at least 2^-500. *)
Definition normal_enough (x : binary64) : Prop := B2R 53 1024 x = 0%R \/ (bpow radix2 (-500) <= Rabs (B2R 53 1024 x))%R.
Lemma not_tiny64 x : normal_enough x -> not_tiny (DA lm) (DA_ieee lm) x.
Proof. intros H r E N. apply (val_fin_iff 53 1024) in E. destruct E as [_ <-]. destruct H; [contradiction|auto]. Qed.

Theorem rel_api_double max_eb ord ub r1 r2 U V junk buf size :
  0 <= r1 -> 0 < r2 -> Z.of_nat (length U) = r1 * r2 -> Z.of_nat (length V) = r1 * r2 -> Z.of_nat (length junk) < 2 ^ 64 ->
  is_finite 53 1024 max_eb = true -> (B2R 53 1024 max_eb <= 1)%R ->
  (forall x, In x U \/ In x V -> finite_le 500 x /\ normal_enough x) ->
  compress_online (DA lm) max_eb ord ub r1 r2 U V junk = Some (buf, size) ->
  short_codes (enc_online (DA lm) max_eb) ord r1 r2 U V ->
  exists U' V', decompress_online (DA lm) r1 r2 (firstn size buf) = Some (U', V') /\
    length U' = length U /\ length V' = length V /\
    forall k u v u' v', aget U k = Some u -> aget V k = Some v -> aget U' k = Some u' -> aget V' k = Some v' ->
      let b x := (Rabs (B2R 53 1024 x) * B2R 53 1024 max_eb * (1 + bpow radix2 (-39)))%R in
      (u' = u /\ v' = v) \/ (differs_lt (b u) u u' /\ differs_lt (b v) v v').
Proof.
  intros H1 H2 LU LV LJ M1 M2 HF H HK.
  destruct (online_round_trip (DA lm) (DA_ser lm) _ _ _ _ _ _ _ _ _ _ H1 H2 LU LV LJ H) as (U' & V' & c & E & HD).
  exists U', V'. split; [apply HD; eapply HK; eauto|].
  destruct (rel_bound (DA lm) (DA_ieee lm) L 500 max_eb (B2R 53 1024 max_eb) r1 r2 U V U' V' c) as (L1 & L2 & K); auto.
  - lia.
  - cbn [DA_ieee eT]. lia.
  - cbn [DA_ieee vD]. apply fin_val. auto.
  - apply moderate64. intros x Hx. apply HF. auto.
  - apply moderate64. intros x Hx. apply HF. auto.
  - intros k x Ex. apply not_tiny64, HF. left. eapply aget_In; eauto.
  - intros k x Ex. apply not_tiny64, HF. right. eapply aget_In; eauto.
  - split; auto. split; auto. intros k u v u' v' E1 E2 E3 E4 b.
    destruct (K k u v u' v' E1 E2 E3 E4) as [X|(a & a' & Ea & Ea' & X & Y)]; [left; auto|right].
    apply (val_fin_iff 53 1024) in Ea, Ea'. destruct Ea as [_ <-]. destruct Ea' as [_ <-]. split; apply within64; auto.
Qed.

Theorem rel_zero_api_double max_eb ord ub r1 r2 U V U' V' c junk buf size :
  0 <= r1 -> 0 < r2 -> Z.of_nat (length U) = r1 * r2 -> Z.of_nat (length V) = r1 * r2 -> Z.of_nat (length junk) < 2 ^ 64 ->
  is_finite 53 1024 max_eb = true -> (B2R 53 1024 max_eb <= 0)%R ->
  (forall x, In x U \/ In x V -> finite_le 500 x /\ normal_enough x) ->
  enc_online (DA lm) max_eb r1 r2 U V = Some (U', V', c) -> code_words_64 ord c ->
  write_pieces ord ub (stream_pieces (DA lm) c) junk 0 = Some (buf, size) ->
  decompress_online (DA lm) r1 r2 (firstn size buf) = Some (U, V).
Proof.
  intros H1 H2 LU LV LJ M1 M2 HF E HK HW.
  rewrite (pieces_round_trip (DA lm) _ _ ord ub r1 r2 U V U' V' c junk buf size (DA_ser lm) H1 H2 LU LV E HK LJ HW).
  destruct (rel_zero (DA lm) (DA_ieee lm) L 500 max_eb (B2R 53 1024 max_eb) r1 r2 U V U' V' c) as [-> ->]; auto.
  - lia.
  - cbn [DA_ieee eT]. lia.
  - cbn [DA_ieee vD]. apply fin_val. auto.
  - apply moderate64. intros x Hx. apply HF. auto.
  - apply moderate64. intros x Hx. apply HF. auto.
  - intros k x Ex. apply not_tiny64, HF. left. eapply aget_In; eauto.
  - intros k x Ex. apply not_tiny64, HF. right. eapply aget_In; eauto.
Qed.

Theorem nonfinite_api_double compress enc max_eb ord ub r1 r2 U V junk buf size :
  (compress = compress_online (DA lm) max_eb /\ enc = enc_online (DA lm) max_eb) \/
  (compress = compress_online_abs (DA lm) max_eb /\ enc = enc_online_abs (DA lm) max_eb) ->
  0 <= r1 -> 0 < r2 -> Z.of_nat (length U) = r1 * r2 -> Z.of_nat (length V) = r1 * r2 -> Z.of_nat (length junk) < 2 ^ 64 ->
  compress ord ub r1 r2 U V junk = Some (buf, size) -> short_codes enc ord r1 r2 U V ->
  exists U' V', decompress_online (DA lm) r1 r2 (firstn size buf) = Some (U', V') /\
    forall k u v, aget U k = Some u -> aget V k = Some v -> is_finite 53 1024 u = false \/ is_finite 53 1024 v = false ->
      aget U' k = Some u /\ aget V' k = Some v.
Proof.
  intros HC H1 H2 LU LV LJ H HK.
  assert (X : exists U' V' c, enc r1 r2 U V = Some (U', V', c) /\ decompress_online (DA lm) r1 r2 (firstn size buf) = Some (U', V')).
  { destruct HC as [[-> ->]|[-> ->]].
    - destruct (online_round_trip (DA lm) (DA_ser lm) _ _ _ _ _ _ _ _ _ _ H1 H2 LU LV LJ H) as (U' & V' & c & E & HD).
      exists U', V', c. split; auto. apply HD. eapply HK; eauto.
    - destruct (online_abs_round_trip (DA lm) (DA_ser lm) _ _ _ _ _ _ _ _ _ _ H1 H2 LU LV LJ H) as (U' & V' & c & E & HD).
      exists U', V', c. split; auto. apply HD. eapply HK; eauto. }
  destruct X as (U' & V' & c & E & HD). exists U', V'. split; auto. intros k u v Eu Ev HN.
  assert (HN' : (forall r, vT (DA lm) (DA_ieee lm) u <> Fin r) \/ (forall r, vT (DA lm) (DA_ieee lm) v <> Fin r)).
  { destruct HN; [left|right]; apply (val_nonfin 53 1024); auto. }
  destruct HC as [[_ ->]|[_ ->]]; exact (nonfinite_exact (DA lm) (DA_ieee lm) L _ _ r1 r2 U V U' V' c k u v H1 H2 LU LV E Eu Ev HN').
Qed.

Theorem noub_double max_eb r1 r2 U V :
  0 <= r1 -> 0 < r2 -> Z.of_nat (length U) = r1 * r2 -> Z.of_nat (length V) = r1 * r2 ->
  is_finite 53 1024 max_eb = true -> (forall x, In x U \/ In x V -> finite_le 500 x) ->
  ((B2R 53 1024 max_eb <= 1)%R -> exists r, enc_online (DA lm) max_eb r1 r2 U V = Some r) /\
  ((B2R 53 1024 max_eb <= bpow radix2 500)%R -> exists r, enc_online_abs (DA lm) max_eb r1 r2 U V = Some r).
Proof.
  intros H1 H2 LU LV M1 HF. split; intros HM.
  - apply (rel_noub (DA lm) (DA_ieee lm) L 500 max_eb (B2R 53 1024 max_eb)); auto; try lia.
    + cbn [DA_ieee eT]. lia.
    + cbn [DA_ieee vD]. apply fin_val. auto.
    + apply moderate64. auto.
    + apply moderate64. auto.
  - apply (abs_noub (DA lm) (DA_ieee lm) L 500 max_eb (B2R 53 1024 max_eb)); auto; try lia.
    + cbn [DA_ieee eT]. lia.
    + cbn [DA_ieee vD]. apply fin_val. auto.
    + apply moderate64. auto.
    + apply moderate64. auto.
Qed.
Theorem machine_double max_eb r1 r2 U V : lm_x86 lm = true ->
  0 <= r1 -> 0 < r2 -> Z.of_nat (length U) = r1 * r2 -> Z.of_nat (length V) = r1 * r2 ->
  (exists r, enc_online (DA lm) max_eb r1 r2 U V = Some r) /\ (exists r, enc_online_abs (DA lm) max_eb r1 r2 U V = Some r).
Proof.
  intros HX H1 H2 LU LV.
  assert (K : forall x, exists z, dtoint (DA lm) x = Some z).
  { intros x. rewrite (v_dtoint (DA lm) (DA_ieee lm)). cbn [DA_ieee oob]. unfold lm_oob. rewrite HX. destruct (xtoint _); eauto. }
  split; [apply rel_machine_total|apply abs_machine_total]; auto.
Qed.
End Double.

(** ** float *)
Section Float.
Context (lm : Libm binary32 binary64) (L : libm_ok (FA lm) (FA_ieee lm)).

Lemma moderate32 k (U : list binary32) : (forall x, In x U -> finite_le k x) -> moderate (FA lm) (FA_ieee lm) k U.
Proof. intros H i x E. apply (finite_bnd 24 128). apply H. eapply aget_In; eauto. Qed.
Lemma within32 m (x y : binary32) : within (FA lm) (FA_ieee lm) m x y -> differs_lt m x y.
Proof.
  intros (a & b & E1 & E2 & H). apply (val_fin_iff 24 128) in E1, E2. destruct E1, E2. split; auto. congruence.
Qed.

Theorem abs_api_float max_eb ord ub r1 r2 U V junk buf size :
  0 <= r1 -> 0 < r2 -> Z.of_nat (length U) = r1 * r2 -> Z.of_nat (length V) = r1 * r2 -> Z.of_nat (length junk) < 2 ^ 64 ->
  finite_le 56 max_eb -> (forall x, In x U \/ In x V -> finite_le 56 x) ->
  compress_online_abs (FA lm) max_eb ord ub r1 r2 U V junk = Some (buf, size) ->
  short_codes (enc_online_abs (FA lm) max_eb) ord r1 r2 U V ->
  exists U' V', decompress_online (FA lm) r1 r2 (firstn size buf) = Some (U', V') /\
    length U' = length U /\ length V' = length V /\
    forall k u v u' v', aget U k = Some u -> aget V k = Some v -> aget U' k = Some u' -> aget V' k = Some v' ->
      let b := (B2R 53 1024 max_eb * (1 + bpow radix2 (-40)))%R in
      (u' = u /\ v' = v) \/ (differs_lt b u u' /\ differs_lt b v v').
Proof.
  intros H1 H2 LU LV LJ [M1 M2] HF H HK.
  destruct (online_abs_round_trip (FA lm) (FA_ser lm) _ _ _ _ _ _ _ _ _ _ H1 H2 LU LV LJ H) as (U' & V' & c & E & HD).
  exists U', V'. split; [apply HD; eapply HK; eauto|].
  destruct (abs_bound (FA lm) (FA_ieee lm) L 56 max_eb (B2R 53 1024 max_eb) r1 r2 U V U' V' c) as (L1 & L2 & K); auto.
  - lia.
  - cbn [FA_ieee eT]. lia.
  - cbn [FA_ieee vD]. apply fin_val. auto.
  - apply Rabs_le_inv in M2. lra.
  - apply moderate32. auto.
  - apply moderate32. auto.
  - split; auto. split; auto. intros k u v u' v' E1 E2 E3 E4 b.
    destruct (K k u v u' v' E1 E2 E3 E4) as [X|[X Y]]; [left; auto|right]. split; apply within32; auto.
Qed.

Theorem abs_zero_api_float max_eb ord ub r1 r2 U V U' V' c junk buf size :
  0 <= r1 -> 0 < r2 -> Z.of_nat (length U) = r1 * r2 -> Z.of_nat (length V) = r1 * r2 -> Z.of_nat (length junk) < 2 ^ 64 ->
  is_finite 53 1024 max_eb = true -> (B2R 53 1024 max_eb <= 0)%R -> (forall x, In x U \/ In x V -> finite_le 56 x) ->
  enc_online_abs (FA lm) max_eb r1 r2 U V = Some (U', V', c) -> code_words_64 ord c ->
  write_pieces ord ub (stream_pieces (FA lm) c) junk 0 = Some (buf, size) ->
  decompress_online (FA lm) r1 r2 (firstn size buf) = Some (U, V).
Proof.
  intros H1 H2 LU LV LJ M1 M2 HF E HK HW.
  rewrite (pieces_round_trip (FA lm) _ _ ord ub r1 r2 U V U' V' c junk buf size (FA_ser lm) H1 H2 LU LV E HK LJ HW).
  destruct (abs_zero (FA lm) (FA_ieee lm) L 56 max_eb (B2R 53 1024 max_eb) r1 r2 U V U' V' c) as [-> ->]; auto.
  - lia.
  - cbn [FA_ieee eT]. lia.
  - cbn [FA_ieee vD]. apply fin_val. auto.
  - apply moderate32. auto.
  - apply moderate32. auto.
Qed.

Lemma not_tiny32 x : not_tiny (FA lm) (FA_ieee lm) x.
Proof.
  intros r E N. destruct (val_format 24 128 eq_refl _ _ E) as [G _].
  apply (FLT_format_generic radix2 (-149) 24) in G. destruct G as [[fm fe] E1 E2 E3]. cbn [Fnum Fexp] in E2, E3.
  rewrite E1. rewrite <- F2R_Zabs. apply Rle_trans with (bpow radix2 fe); [apply bpow_le; lia|].
  apply bpow_le_F2R. assert (fm <> 0); [|lia]. intros X. apply N. rewrite E1. unfold F2R. cbn [Fnum]. rewrite X. ring.
Qed.

Theorem rel_api_float max_eb ord ub r1 r2 U V junk buf size :
  0 <= r1 -> 0 < r2 -> Z.of_nat (length U) = r1 * r2 -> Z.of_nat (length V) = r1 * r2 -> Z.of_nat (length junk) < 2 ^ 64 ->
  is_finite 53 1024 max_eb = true -> (B2R 53 1024 max_eb <= 1)%R ->
  (forall x, In x U \/ In x V -> finite_le 56 x) ->
  compress_online (FA lm) max_eb ord ub r1 r2 U V junk = Some (buf, size) ->
  short_codes (enc_online (FA lm) max_eb) ord r1 r2 U V ->
  exists U' V', decompress_online (FA lm) r1 r2 (firstn size buf) = Some (U', V') /\
    length U' = length U /\ length V' = length V /\
    forall k u v u' v', aget U k = Some u -> aget V k = Some v -> aget U' k = Some u' -> aget V' k = Some v' ->
      let b x := (Rabs (B2R 24 128 x) * B2R 53 1024 max_eb * (1 + bpow radix2 (-39)))%R in
      (u' = u /\ v' = v) \/ (differs_lt (b u) u u' /\ differs_lt (b v) v v').
Proof.
  intros H1 H2 LU LV LJ M1 M2 HF H HK.
  destruct (online_round_trip (FA lm) (FA_ser lm) _ _ _ _ _ _ _ _ _ _ H1 H2 LU LV LJ H) as (U' & V' & c & E & HD).
  exists U', V'. split; [apply HD; eapply HK; eauto|].
  destruct (rel_bound (FA lm) (FA_ieee lm) L 56 max_eb (B2R 53 1024 max_eb) r1 r2 U V U' V' c) as (L1 & L2 & K); auto.
  - lia.
  - cbn [FA_ieee eT]. lia.
  - cbn [FA_ieee vD]. apply fin_val. auto.
  - apply moderate32. intros x Hx. apply HF. auto.
  - apply moderate32. intros x Hx. apply HF. auto.
  - intros. apply not_tiny32.
  - intros. apply not_tiny32.
  - split; auto. split; auto. intros k u v u' v' E1 E2 E3 E4 b.
    destruct (K k u v u' v' E1 E2 E3 E4) as [X|(a & a' & Ea & Ea' & X & Y)]; [left; auto|right].
    apply (val_fin_iff 24 128) in Ea, Ea'. destruct Ea as [_ <-]. destruct Ea' as [_ <-]. split; apply within32; auto.
Qed.

Theorem rel_zero_api_float max_eb ord ub r1 r2 U V U' V' c junk buf size :
  0 <= r1 -> 0 < r2 -> Z.of_nat (length U) = r1 * r2 -> Z.of_nat (length V) = r1 * r2 -> Z.of_nat (length junk) < 2 ^ 64 ->
  is_finite 53 1024 max_eb = true -> (B2R 53 1024 max_eb <= 0)%R ->
  (forall x, In x U \/ In x V -> finite_le 56 x) ->
  enc_online (FA lm) max_eb r1 r2 U V = Some (U', V', c) -> code_words_64 ord c ->
  write_pieces ord ub (stream_pieces (FA lm) c) junk 0 = Some (buf, size) ->
  decompress_online (FA lm) r1 r2 (firstn size buf) = Some (U, V).
Proof.
  intros H1 H2 LU LV LJ M1 M2 HF E HK HW.
  rewrite (pieces_round_trip (FA lm) _ _ ord ub r1 r2 U V U' V' c junk buf size (FA_ser lm) H1 H2 LU LV E HK LJ HW).
  destruct (rel_zero (FA lm) (FA_ieee lm) L 56 max_eb (B2R 53 1024 max_eb) r1 r2 U V U' V' c) as [-> ->]; auto.
  - lia.
  - cbn [FA_ieee eT]. lia.
  - cbn [FA_ieee vD]. apply fin_val. auto.
  - apply moderate32. intros x Hx. apply HF. auto.
  - apply moderate32. intros x Hx. apply HF. auto.
  - intros. apply not_tiny32.
  - intros. apply not_tiny32.
Qed.

Theorem nonfinite_api_float compress enc max_eb ord ub r1 r2 U V junk buf size :
  (compress = compress_online (FA lm) max_eb /\ enc = enc_online (FA lm) max_eb) \/
  (compress = compress_online_abs (FA lm) max_eb /\ enc = enc_online_abs (FA lm) max_eb) ->
  0 <= r1 -> 0 < r2 -> Z.of_nat (length U) = r1 * r2 -> Z.of_nat (length V) = r1 * r2 -> Z.of_nat (length junk) < 2 ^ 64 ->
  compress ord ub r1 r2 U V junk = Some (buf, size) -> short_codes enc ord r1 r2 U V ->
  exists U' V', decompress_online (FA lm) r1 r2 (firstn size buf) = Some (U', V') /\
    forall k u v, aget U k = Some u -> aget V k = Some v -> is_finite 24 128 u = false \/ is_finite 24 128 v = false ->
      aget U' k = Some u /\ aget V' k = Some v.
Proof.
  intros HC H1 H2 LU LV LJ H HK.
  assert (X : exists U' V' c, enc r1 r2 U V = Some (U', V', c) /\ decompress_online (FA lm) r1 r2 (firstn size buf) = Some (U', V')).
  { destruct HC as [[-> ->]|[-> ->]].
    - destruct (online_round_trip (FA lm) (FA_ser lm) _ _ _ _ _ _ _ _ _ _ H1 H2 LU LV LJ H) as (U' & V' & c & E & HD).
      exists U', V', c. split; auto. apply HD. eapply HK; eauto.
    - destruct (online_abs_round_trip (FA lm) (FA_ser lm) _ _ _ _ _ _ _ _ _ _ H1 H2 LU LV LJ H) as (U' & V' & c & E & HD).
      exists U', V', c. split; auto. apply HD. eapply HK; eauto. }
  destruct X as (U' & V' & c & E & HD). exists U', V'. split; auto. intros k u v Eu Ev HN.
  assert (HN' : (forall r, vT (FA lm) (FA_ieee lm) u <> Fin r) \/ (forall r, vT (FA lm) (FA_ieee lm) v <> Fin r)).
  { destruct HN; [left|right]; apply (val_nonfin 24 128); auto. }
  destruct HC as [[_ ->]|[_ ->]]; exact (nonfinite_exact (FA lm) (FA_ieee lm) L _ _ r1 r2 U V U' V' c k u v H1 H2 LU LV E Eu Ev HN').
Qed.

Theorem noub_float max_eb r1 r2 U V :
  0 <= r1 -> 0 < r2 -> Z.of_nat (length U) = r1 * r2 -> Z.of_nat (length V) = r1 * r2 ->
  is_finite 53 1024 max_eb = true -> (forall x, In x U \/ In x V -> finite_le 56 x) ->
  ((B2R 53 1024 max_eb <= 1)%R -> exists r, enc_online (FA lm) max_eb r1 r2 U V = Some r) /\
  ((B2R 53 1024 max_eb <= bpow radix2 56)%R -> exists r, enc_online_abs (FA lm) max_eb r1 r2 U V = Some r).
Proof.
  intros H1 H2 LU LV M1 HF. split; intros HM.
  - apply (rel_noub (FA lm) (FA_ieee lm) L 56 max_eb (B2R 53 1024 max_eb)); auto; try lia.
    + cbn [FA_ieee eT]. lia.
    + cbn [FA_ieee vD]. apply fin_val. auto.
    + apply moderate32. auto.
    + apply moderate32. auto.
  - apply (abs_noub (FA lm) (FA_ieee lm) L 56 max_eb (B2R 53 1024 max_eb)); auto; try lia.
    + cbn [FA_ieee eT]. lia.
    + cbn [FA_ieee vD]. apply fin_val. auto.
    + apply moderate32. auto.
    + apply moderate32. auto.
Qed.
Theorem machine_float max_eb r1 r2 U V : lm_x86 lm = true ->
  0 <= r1 -> 0 < r2 -> Z.of_nat (length U) = r1 * r2 -> Z.of_nat (length V) = r1 * r2 ->
  (exists r, enc_online (FA lm) max_eb r1 r2 U V = Some r) /\ (exists r, enc_online_abs (FA lm) max_eb r1 r2 U V = Some r).
Proof.
  intros HX H1 H2 LU LV.
  assert (K : forall x, exists z, dtoint (FA lm) x = Some z).
  { intros x. rewrite (v_dtoint (FA lm) (FA_ieee lm)). cbn [FA_ieee oob]. unfold lm_oob. rewrite HX. destruct (xtoint _); eauto. }
  split; [apply rel_machine_total|apply abs_machine_total]; auto.
Qed.
End Float.
