(** The 3D absolute-error codec from field to bytes to field, for float and double data.  Nothing of /repo is modelled here. *)
From Coq Require Import Reals Lra Lia ZArith List Bool.
From Coq Require Import ZifyBool ZifyNat.
From Flocq Require Import Core.Core IEEE754.BinarySingleNaN IEEE754.Binary IEEE754.Bits.
From Verif Require Import Base Huffman HuffStream HuffProps Stream Arith Codec2D Sync2D Scan Stream2D Exact Total2D IEEE IEEELaws IEEEQuant IEEE2D IEEEAbs2D Api2D
  Mesh3D Derive3D Abs3D Sync3D Cells3D Total3D Lossless3D IEEE3D.
Import ListNotations.
Local Open Scope Z_scope.

Section Generic.
Context (A : Arith) (HS : ser_ok A) (HT : 0 < Z.of_nat (tsize_of A)).
Context (ftk : D A * D A * D A -> D A * D A * D A -> D A * D A * D A -> D A * D A * D A -> bool).

(** The hypothesis on the entropy coder, in terms of the compressor's input. *)
Definition short_codes3 (enc : Z -> Z -> Z -> list (T A) -> list (T A) -> list (T A) -> option (field3 A * code (T A)))
  ord r1 r2 r3 U V W : Prop := forall s c, enc r1 r2 r3 U V W = Some (s, c) -> code_words_64 ord c.

Theorem abs3_bytes max_eb ord ub r1 r2 r3 U V W junk buf size : 0 <= r1 -> 0 < r2 -> 0 < r3 ->
  sized r1 r2 r3 U -> sized r1 r2 r3 V -> sized r1 r2 r3 W -> Z.of_nat (length junk) < 2 ^ 64 ->
  compress_abs3 A ftk max_eb ord ub r1 r2 r3 U V W junk = Some (buf, size) ->
  exists U' V' W' c, enc_abs3 A ftk max_eb r1 r2 r3 U V W = Some (U', V', W', c) /\
    (code_words_64 ord c -> decompress_abs3 A r1 r2 r3 (firstn size buf) = Some (U', V', W')).
Proof.
  intros H1 H2 H3 SU SV SW LJ H. unfold compress_abs3 in H. bind_as H [[[U' V'] W'] c] E.
  exists U', V', W', c. split; auto. intros K. unfold write_abs3 in H.
  destruct (Z.eqb_spec (Z.of_nat (length junk)) (3 * (r1 * r2 * r3) * Z.of_nat (tsize_of A))) as [EJ|]; [|discriminate].
  apply (abs3_round_trip A ftk ord ub max_eb r1 r2 r3 U V W U' V' W' c junk buf size); auto.
  assert (0 <= r1 * r2 * r3) by (apply Z.mul_nonneg_nonneg; [apply Z.mul_nonneg_nonneg; lia|lia]). nia.
Qed.
End Generic.
Arguments short_codes3 {A}.

Section Double.
Context (lm : Libm binary64 binary64) (L : libm_ok (DA lm) (DA_ieee lm)).
Local Notation d3 := (binary64 * binary64 * binary64)%type.
Context (ftk : d3 -> d3 -> d3 -> d3 -> bool).

Theorem abs3_api_double max_eb ord ub r1 r2 r3 (U V W : list binary64) junk buf size :
  0 <= r1 -> 0 < r2 -> 0 < r3 -> sized r1 r2 r3 U -> sized r1 r2 r3 V -> sized r1 r2 r3 W -> Z.of_nat (length junk) < 2 ^ 64 ->
  finite_le 336 max_eb -> (forall x, In x U \/ In x V \/ In x W -> finite_le 336 x) ->
  compress_abs3 (DA lm) ftk max_eb ord ub r1 r2 r3 U V W junk = Some (buf, size) ->
  short_codes3 (enc_abs3 (DA lm) ftk max_eb) ord r1 r2 r3 U V W ->
  exists U' V' W', decompress_abs3 (DA lm) r1 r2 r3 (firstn size buf) = Some (U', V', W') /\
    (exists c, enc_abs3 (DA lm) ftk max_eb r1 r2 r3 U V W = Some (U', V', W', c)) /\
    length U' = length U /\ length V' = length V /\ length W' = length W /\
    forall p u v w u' v' w', aget U p = Some u -> aget V p = Some v -> aget W p = Some w ->
      aget U' p = Some u' -> aget V' p = Some v' -> aget W' p = Some w' ->
      let b := (B2R 53 1024 max_eb * (1 + bpow radix2 (-40)))%R in
      (u' = u /\ v' = v /\ w' = w) \/ (differs_lt b u u' /\ differs_lt b v v' /\ differs_lt b w w').
Proof.
  intros H1 H2 H3 SU SV SW LJ [M1 M2] HF H HK.
  destruct (abs3_bytes (DA lm) (DA_ser lm) ltac:(cbn; lia) ftk _ _ _ _ _ _ _ _ _ _ _ _ H1 H2 H3 SU SV SW LJ H) as (U' & V' & W' & c & E & HD).
  exists U', V', W'. split; [apply HD; eapply HK; eauto|]. split; [eauto|].
  destruct (abs3_bound (DA lm) (DA_ieee lm) L 336 ltac:(lia) ltac:(lia) ltac:(cbn [DA_ieee eT]; lia) max_eb (B2R 53 1024 max_eb)
    ltac:(cbn [DA_ieee vD]; apply fin_val; auto) ltac:(apply Rabs_le_inv in M2; lra) r1 r2 r3 ftk U V W U' V' W' c) as (L1 & L2 & L3 & K); auto;
    try (apply moderate64; intros; apply HF; auto; fail).
  split; auto. split; auto. split; auto. intros p u v w u' v' w' E1 E2 E3 E4 E5 E6 b.
  destruct (K p u v w u' v' w' E1 E2 E3 E4 E5 E6) as [X|(X & Y & Z)]; [left; auto|right].
  split; [|split]; apply (within64 lm); auto.
Qed.

(** Every tetrahedron that the compressor's critical-point test marks is returned bit for bit. *)
Theorem abs3_flagged_double max_eb ord ub r1 r2 r3 (U V W : list binary64) junk buf size :
  0 <= r1 -> 0 < r2 -> 0 < r3 -> sized r1 r2 r3 U -> sized r1 r2 r3 V -> sized r1 r2 r3 W -> Z.of_nat (length junk) < 2 ^ 64 ->
  compress_abs3 (DA lm) ftk max_eb ord ub r1 r2 r3 U V W junk = Some (buf, size) ->
  short_codes3 (enc_abs3 (DA lm) ftk max_eb) ord r1 r2 r3 U V W ->
  exists U' V' W', decompress_abs3 (DA lm) r1 r2 r3 (firstn size buf) = Some (U', V', W') /\
    forall a b d e, tet r1 r2 r3 [a; b; d; e] -> check_cp3 (DA lm) ftk U V W r2 r3 a b d e = Some true ->
    forall x, In x [a; b; d; e] ->
      aget U' (lin3 r2 r3 x) = aget U (lin3 r2 r3 x) /\ aget V' (lin3 r2 r3 x) = aget V (lin3 r2 r3 x) /\
      aget W' (lin3 r2 r3 x) = aget W (lin3 r2 r3 x).
Proof.
  intros H1 H2 H3 SU SV SW LJ H HK.
  destruct (abs3_bytes (DA lm) (DA_ser lm) ltac:(cbn; lia) ftk _ _ _ _ _ _ _ _ _ _ _ _ H1 H2 H3 SU SV SW LJ H) as (U' & V' & W' & c & E & HD).
  exists U', V', W'. split; [apply HD; eapply HK; eauto|]. intros a b d e HT HC.
  apply (abs3_flagged_exact (DA lm) ltac:(vm_compute; reflexivity) ftk max_eb r1 r2 r3 U V W U' V' W' c a b d e); auto.
Qed.

(** No undefined conversion of moderate data; on the machine whose conversions saturate, no condition at all. *)
Theorem abs3_noub_double max_eb r1 r2 r3 (U V W : list binary64) :
  0 <= r1 -> 0 < r2 -> 0 < r3 -> sized r1 r2 r3 U -> sized r1 r2 r3 V -> sized r1 r2 r3 W ->
  finite_le 336 max_eb -> (forall x, In x U \/ In x V \/ In x W -> finite_le 336 x) ->
  exists s c, enc_abs3 (DA lm) ftk max_eb r1 r2 r3 U V W = Some (s, c).
Proof.
  intros H1 H2 H3 SU SV SW [M1 M2] HF.
  apply (abs3_noub (DA lm) (DA_ieee lm) L 336 ltac:(lia) ltac:(lia) ltac:(cbn [DA_ieee eT]; lia) max_eb (B2R 53 1024 max_eb)
    ltac:(cbn [DA_ieee vD]; apply fin_val; auto) ltac:(apply Rabs_le_inv in M2; lra) r1 r2 r3 ftk U V W); auto;
    apply moderate64; intros; apply HF; auto.
Qed.
Theorem abs3_machine_double max_eb r1 r2 r3 (U V W : list binary64) : lm_x86 lm = true ->
  0 <= r1 -> 0 < r2 -> 0 < r3 -> sized r1 r2 r3 U -> sized r1 r2 r3 V -> sized r1 r2 r3 W ->
  exists s c, enc_abs3 (DA lm) ftk max_eb r1 r2 r3 U V W = Some (s, c).
Proof.
  intros HX H1 H2 H3 SU SV SW. apply abs3_machine_total; auto.
  intros x. rewrite (v_dtoint (DA lm) (DA_ieee lm)). cbn [DA_ieee oob]. unfold lm_oob. rewrite HX. destruct (xtoint _); eauto.
Qed.
End Double.

Section Float.
Context (lm : Libm binary32 binary64) (L : libm_ok (FA lm) (FA_ieee lm)).
Local Notation d3 := (binary64 * binary64 * binary64)%type.
Context (ftk : d3 -> d3 -> d3 -> d3 -> bool).

Theorem abs3_api_float max_eb ord ub r1 r2 r3 (U V W : list binary32) junk buf size :
  0 <= r1 -> 0 < r2 -> 0 < r3 -> sized r1 r2 r3 U -> sized r1 r2 r3 V -> sized r1 r2 r3 W -> Z.of_nat (length junk) < 2 ^ 64 ->
  finite_le 38 max_eb -> (forall x, In x U \/ In x V \/ In x W -> finite_le 38 x) ->
  compress_abs3 (FA lm) ftk max_eb ord ub r1 r2 r3 U V W junk = Some (buf, size) ->
  short_codes3 (enc_abs3 (FA lm) ftk max_eb) ord r1 r2 r3 U V W ->
  exists U' V' W', decompress_abs3 (FA lm) r1 r2 r3 (firstn size buf) = Some (U', V', W') /\
    (exists c, enc_abs3 (FA lm) ftk max_eb r1 r2 r3 U V W = Some (U', V', W', c)) /\
    length U' = length U /\ length V' = length V /\ length W' = length W /\
    forall p u v w u' v' w', aget U p = Some u -> aget V p = Some v -> aget W p = Some w ->
      aget U' p = Some u' -> aget V' p = Some v' -> aget W' p = Some w' ->
      let b := (B2R 53 1024 max_eb * (1 + bpow radix2 (-40)))%R in
      (u' = u /\ v' = v /\ w' = w) \/ (differs_lt b u u' /\ differs_lt b v v' /\ differs_lt b w w').
Proof.
  intros H1 H2 H3 SU SV SW LJ [M1 M2] HF H HK.
  destruct (abs3_bytes (FA lm) (FA_ser lm) ltac:(cbn; lia) ftk _ _ _ _ _ _ _ _ _ _ _ _ H1 H2 H3 SU SV SW LJ H) as (U' & V' & W' & c & E & HD).
  exists U', V', W'. split; [apply HD; eapply HK; eauto|]. split; [eauto|].
  destruct (abs3_bound (FA lm) (FA_ieee lm) L 38 ltac:(lia) ltac:(lia) ltac:(cbn [FA_ieee eT]; lia) max_eb (B2R 53 1024 max_eb)
    ltac:(cbn [FA_ieee vD]; apply fin_val; auto) ltac:(apply Rabs_le_inv in M2; lra) r1 r2 r3 ftk U V W U' V' W' c) as (L1 & L2 & L3 & K); auto;
    try (apply moderate32; intros; apply HF; auto; fail).
  split; auto. split; auto. split; auto. intros p u v w u' v' w' E1 E2 E3 E4 E5 E6 b.
  destruct (K p u v w u' v' w' E1 E2 E3 E4 E5 E6) as [X|(X & Y & Z)]; [left; auto|right].
  split; [|split]; apply (within32 lm); auto.
Qed.

(** Every tetrahedron that the compressor's critical-point test marks is returned bit for bit. *)
Theorem abs3_flagged_float max_eb ord ub r1 r2 r3 (U V W : list binary32) junk buf size :
  0 <= r1 -> 0 < r2 -> 0 < r3 -> sized r1 r2 r3 U -> sized r1 r2 r3 V -> sized r1 r2 r3 W -> Z.of_nat (length junk) < 2 ^ 64 ->
  compress_abs3 (FA lm) ftk max_eb ord ub r1 r2 r3 U V W junk = Some (buf, size) ->
  short_codes3 (enc_abs3 (FA lm) ftk max_eb) ord r1 r2 r3 U V W ->
  exists U' V' W', decompress_abs3 (FA lm) r1 r2 r3 (firstn size buf) = Some (U', V', W') /\
    forall a b d e, tet r1 r2 r3 [a; b; d; e] -> check_cp3 (FA lm) ftk U V W r2 r3 a b d e = Some true ->
    forall x, In x [a; b; d; e] ->
      aget U' (lin3 r2 r3 x) = aget U (lin3 r2 r3 x) /\ aget V' (lin3 r2 r3 x) = aget V (lin3 r2 r3 x) /\
      aget W' (lin3 r2 r3 x) = aget W (lin3 r2 r3 x).
Proof.
  intros H1 H2 H3 SU SV SW LJ H HK.
  destruct (abs3_bytes (FA lm) (FA_ser lm) ltac:(cbn; lia) ftk _ _ _ _ _ _ _ _ _ _ _ _ H1 H2 H3 SU SV SW LJ H) as (U' & V' & W' & c & E & HD).
  exists U', V', W'. split; [apply HD; eapply HK; eauto|]. intros a b d e HT HC.
  apply (abs3_flagged_exact (FA lm) ltac:(vm_compute; reflexivity) ftk max_eb r1 r2 r3 U V W U' V' W' c a b d e); auto.
Qed.

(** No undefined conversion of moderate data; on the machine whose conversions saturate, no condition at all. *)
Theorem abs3_noub_float max_eb r1 r2 r3 (U V W : list binary32) :
  0 <= r1 -> 0 < r2 -> 0 < r3 -> sized r1 r2 r3 U -> sized r1 r2 r3 V -> sized r1 r2 r3 W ->
  finite_le 38 max_eb -> (forall x, In x U \/ In x V \/ In x W -> finite_le 38 x) ->
  exists s c, enc_abs3 (FA lm) ftk max_eb r1 r2 r3 U V W = Some (s, c).
Proof.
  intros H1 H2 H3 SU SV SW [M1 M2] HF.
  apply (abs3_noub (FA lm) (FA_ieee lm) L 38 ltac:(lia) ltac:(lia) ltac:(cbn [FA_ieee eT]; lia) max_eb (B2R 53 1024 max_eb)
    ltac:(cbn [FA_ieee vD]; apply fin_val; auto) ltac:(apply Rabs_le_inv in M2; lra) r1 r2 r3 ftk U V W); auto;
    apply moderate32; intros; apply HF; auto.
Qed.
Theorem abs3_machine_float max_eb r1 r2 r3 (U V W : list binary32) : lm_x86 lm = true ->
  0 <= r1 -> 0 < r2 -> 0 < r3 -> sized r1 r2 r3 U -> sized r1 r2 r3 V -> sized r1 r2 r3 W ->
  exists s c, enc_abs3 (FA lm) ftk max_eb r1 r2 r3 U V W = Some (s, c).
Proof.
  intros HX H1 H2 H3 SU SV SW. apply abs3_machine_total; auto.
  intros x. rewrite (v_dtoint (FA lm) (FA_ieee lm)). cbn [FA_ieee oob]. unfold lm_oob. rewrite HX. destruct (xtoint _); eauto.
Qed.
End Float.

