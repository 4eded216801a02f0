(** Critical points kept by the absolute and the multilevel 2D codecs, from the arrays given to the arrays decompressed, in double and in
    float.  Nothing of /repo is modelled here. *)
From Coq Require Import Reals Lra Lia ZArith List Bool.
From Coq Require Import ZifyBool ZifyNat.
From Flocq Require Import Core.Core IEEE754.BinarySingleNaN IEEE754.Binary IEEE754.Bits.
From Verif Require Import Base Huffman HuffStream HuffProps Stream Arith Mesh2D Derive2D Codec2D Sync2D Stream2D Exact Cells2D Geo2D Preserve2D
  IEEE IEEELaws IEEEQuant IEEE2D IEEEAbs2D IEEEKeep2D Api2D Sz3 Sz3Err Sz3Api Sz3Keep.
Import ListNotations.
Local Open Scope Z_scope.

(** The vector at a grid point. *)
Definition vecF {p e} (r2 : Z) (U V : list (binary_float p e)) (a : Z * Z) : R * R := vecR r2 (map (B2R p e) U) (map (B2R p e) V) a.

(** The cell's values come back as they were. *)
Definition same_on {X} (r2 : Z) (U V U' V' : list X) (ps : list (Z * Z)) : Prop :=
  forall x, In x ps -> aget U' (lin r2 x) = aget U (lin r2 x) /\ aget V' (lin r2 x) = aget V (lin r2 x).

Lemma B2R_toR p e (x : binary_float p e) : B2R p e x = toR (val p e x).
Proof. destruct x as [|[]| |]; reflexivity. Qed.
Lemma nth_aget {p e} (U : list (binary_float p e)) k : 0 <= k ->
  nth (Z.to_nat k) (map (B2R p e) U) 0%R = match aget U k with Some x => toR (val p e x) | None => 0%R end.
Proof.
  intros Hk. unfold aget. replace (k <? 0) with false by lia. destruct (nth_error U (Z.to_nat k)) as [x|] eqn:E.
  - rewrite <- B2R_toR. apply nth_error_nth. apply (map_nth_error (B2R p e)). exact E.
  - apply nth_overflow. rewrite map_length. apply nth_error_None. exact E.
Qed.
Lemma cell_nonneg r1 r2 a b d x : cell r1 r2 a b d -> In x [a; b; d] -> 0 <= lin r2 x.
Proof.
  intros HC HI. destruct (cell_points _ _ _ _ _ HC) as [_ HP]. rewrite Forall_forall in HP. destruct (HP _ HI). unfold lin. nia.
Qed.

Section Double.
Context (lm : Libm binary64 binary64) (L : libm_ok (DA lm) (DA_ieee lm)).

Lemma vecF64 r1 r2 (U V : list binary64) a b d x : cell r1 r2 a b d -> In x [a; b; d] -> vecF r2 U V x = vecT (DA lm) (DA_ieee lm) r2 U V x.
Proof. intros HC HI. pose proof (cell_nonneg _ _ _ _ _ _ HC HI). unfold vecF, vecR, vecT, valT, real. rewrite !nth_aget by auto. reflexivity. Qed.

Theorem abs_cp_api_double max_eb ord ub r1 r2 U V junk buf size :
  0 <= r1 -> 0 < r2 -> Z.of_nat (length U) = r1 * r2 -> Z.of_nat (length V) = r1 * r2 -> Z.of_nat (length junk) < 2 ^ 64 ->
  finite_le 500 max_eb -> (forall x, In x U \/ In x V -> finite_le 500 x) ->
  compress_online_abs (DA lm) max_eb ord ub r1 r2 U V junk = Some (buf, size) ->
  short_codes (enc_online_abs (DA lm) max_eb) ord r1 r2 U V ->
  exists U' V', decompress_online (DA lm) r1 r2 (firstn size buf) = Some (U', V') /\
    forall a b d, cell r1 r2 a b d -> has_cp (vecF r2 U V a) (vecF r2 U V b) (vecF r2 U V d) -> same_on r2 U V U' V' [a; b; d].
Proof.
  intros H1 H2 LU LV LJ [M1 M2] HF H HK.
  destruct (online_abs_round_trip (DA lm) (DA_ser lm) _ _ _ _ _ _ _ _ _ _ H1 H2 LU LV LJ H) as (U' & V' & c & E & HD).
  exists U', V'. split; [apply HD; eapply HK; eauto|]. intros a b d HC Hcp.
  rewrite (vecF64 r1 r2 U V a b d a), (vecF64 r1 r2 U V a b d b), (vecF64 r1 r2 U V a b d d) in Hcp by (auto; cbn; auto).
  unfold same_on. apply (abs_keeps_cp (DA lm) (DA_ieee lm) L 500 max_eb (B2R 53 1024 max_eb) r1 r2 U V U' V' c a b d); auto.
  - lia.
  - cbn [DA_ieee eT]. lia.
  - cbn [DA_ieee vD]. apply fin_val. auto.
  - apply Rabs_le_inv in M2. lra.
  - apply moderate64. auto.
  - apply moderate64. auto.
Qed.

Theorem sz3_cp_api_double wrap max_eb ord ub r1 r2 U V junk buf size :
  1 <= r1 -> 1 <= r2 -> Z.of_nat (length U) = r1 * r2 -> Z.of_nat (length V) = r1 * r2 -> Z.of_nat (length junk) < 2 ^ 64 ->
  is_finite 53 1024 max_eb = true -> (B2R 53 1024 max_eb <= bpow radix2 500)%R -> (forall x, In x U \/ In x V -> finite_le 500 x) ->
  compress_sz3 (DA lm) wrap max_eb ord ub r1 r2 U V junk = Some (buf, size) -> sz3_short (DA lm) wrap max_eb ord r1 r2 U V ->
  exists U' V', decompress_sz3 (DA lm) wrap r1 r2 (firstn size buf) = Some (U', V') /\
    forall a b d, cell r1 r2 a b d -> has_cp (vecF r2 U V a) (vecF r2 U V b) (vecF r2 U V d) -> same_on r2 U V U' V' [a; b; d].
Proof.
  intros H1 H2 LU LV LJ M1 M2 HF H HK.
  destruct (sz3_api_double lm L wrap max_eb ord ub r1 r2 U V junk buf size H1 H2 LU LV LJ M1 M2 HF H HK) as (U' & V' & HD & (c & E) & _).
  exists U', V'. split; [exact HD|]. intros a b d HC Hcp.
  rewrite (vecF64 r1 r2 U V a b d a), (vecF64 r1 r2 U V a b d b), (vecF64 r1 r2 U V a b d d) in Hcp by (auto; cbn; auto).
  unfold same_on. apply (sz3_keeps_cp (DA lm) (DA_ieee lm) L 500 wrap max_eb (B2R 53 1024 max_eb) r1 r2 U V U' V' c a b d); auto.
  - lia.
  - cbn [DA_ieee eT]. lia.
  - cbn [DA_ieee eT]. lia.
  - cbn [DA_ieee pT]. lia.
  - cbn [DA_ieee vD]. apply fin_val. auto.
  - apply moderate64. auto.
  - apply moderate64. auto.
Qed.
End Double.

Section Float.
Context (lm : Libm binary32 binary64) (L : libm_ok (FA lm) (FA_ieee lm)).

Lemma vecF32 r1 r2 (U V : list binary32) a b d x : cell r1 r2 a b d -> In x [a; b; d] -> vecF r2 U V x = vecT (FA lm) (FA_ieee lm) r2 U V x.
Proof. intros HC HI. pose proof (cell_nonneg _ _ _ _ _ _ HC HI). unfold vecF, vecR, vecT, valT, real. rewrite !nth_aget by auto. reflexivity. Qed.

Theorem abs_cp_api_float max_eb ord ub r1 r2 U V junk buf size :
  0 <= r1 -> 0 < r2 -> Z.of_nat (length U) = r1 * r2 -> Z.of_nat (length V) = r1 * r2 -> Z.of_nat (length junk) < 2 ^ 64 ->
  finite_le 56 max_eb -> (forall x, In x U \/ In x V -> finite_le 56 x) ->
  compress_online_abs (FA lm) max_eb ord ub r1 r2 U V junk = Some (buf, size) ->
  short_codes (enc_online_abs (FA lm) max_eb) ord r1 r2 U V ->
  exists U' V', decompress_online (FA lm) r1 r2 (firstn size buf) = Some (U', V') /\
    forall a b d, cell r1 r2 a b d -> has_cp (vecF r2 U V a) (vecF r2 U V b) (vecF r2 U V d) -> same_on r2 U V U' V' [a; b; d].
Proof.
  intros H1 H2 LU LV LJ [M1 M2] HF H HK.
  destruct (online_abs_round_trip (FA lm) (FA_ser lm) _ _ _ _ _ _ _ _ _ _ H1 H2 LU LV LJ H) as (U' & V' & c & E & HD).
  exists U', V'. split; [apply HD; eapply HK; eauto|]. intros a b d HC Hcp.
  rewrite (vecF32 r1 r2 U V a b d a), (vecF32 r1 r2 U V a b d b), (vecF32 r1 r2 U V a b d d) in Hcp by (auto; cbn; auto).
  unfold same_on. apply (abs_keeps_cp (FA lm) (FA_ieee lm) L 56 max_eb (B2R 53 1024 max_eb) r1 r2 U V U' V' c a b d); auto.
  - lia.
  - cbn [FA_ieee eT]. lia.
  - cbn [FA_ieee vD]. apply fin_val. auto.
  - apply Rabs_le_inv in M2. lra.
  - apply moderate32. auto.
  - apply moderate32. auto.
Qed.

Theorem sz3_cp_api_float wrap max_eb ord ub r1 r2 U V junk buf size :
  1 <= r1 -> 1 <= r2 -> Z.of_nat (length U) = r1 * r2 -> Z.of_nat (length V) = r1 * r2 -> Z.of_nat (length junk) < 2 ^ 64 ->
  is_finite 53 1024 max_eb = true -> (B2R 53 1024 max_eb <= bpow radix2 56)%R -> (forall x, In x U \/ In x V -> finite_le 56 x) ->
  compress_sz3 (FA lm) wrap max_eb ord ub r1 r2 U V junk = Some (buf, size) -> sz3_short (FA lm) wrap max_eb ord r1 r2 U V ->
  exists U' V', decompress_sz3 (FA lm) wrap r1 r2 (firstn size buf) = Some (U', V') /\
    forall a b d, cell r1 r2 a b d -> has_cp (vecF r2 U V a) (vecF r2 U V b) (vecF r2 U V d) -> same_on r2 U V U' V' [a; b; d].
Proof.
  intros H1 H2 LU LV LJ M1 M2 HF H HK.
  destruct (sz3_api_float lm L wrap max_eb ord ub r1 r2 U V junk buf size H1 H2 LU LV LJ M1 M2 HF H HK) as (U' & V' & HD & (c & E) & _).
  exists U', V'. split; [exact HD|]. intros a b d HC Hcp.
  rewrite (vecF32 r1 r2 U V a b d a), (vecF32 r1 r2 U V a b d b), (vecF32 r1 r2 U V a b d d) in Hcp by (auto; cbn; auto).
  unfold same_on. apply (sz3_keeps_cp (FA lm) (FA_ieee lm) L 56 wrap max_eb (B2R 53 1024 max_eb) r1 r2 U V U' V' c a b d); auto.
  - lia.
  - cbn [FA_ieee eT]. lia.
  - cbn [FA_ieee eT]. lia.
  - cbn [FA_ieee pT]. lia.
  - cbn [FA_ieee vD]. apply fin_val. auto.
  - apply moderate32. auto.
  - apply moderate32. auto.
Qed.
End Float.
