(** Property theorems C47: critical points in the machine's arithmetic.  [vecF]: the vector at a grid point, as exact reals; [has_cp]: the linear
    interpolant of a triangle has a zero in it; [crosses]: strictly inside a non-degenerate image. *)
From Coq Require Import Reals Lra Lia ZArith List Bool.
From Flocq Require Import Core.Core IEEE754.BinarySingleNaN IEEE754.Binary IEEE754.Bits.
From Verif Require Import Base Huffman HuffStream HuffProps Stream Arith Mesh2D Derive2D Codec2D Sync2D Trace2D Stream2D Exact Cells2D Geo2D Preserve2D
  IEEE IEEELaws IEEEQuant IEEE2D IEEEAbs2D Api2D LibmModel Witness2D Examples2D Sz3 Sz3Cells Sz3Api Sz3Refute KeepApi2D KeepRefute2D.
Import ListNotations.
Local Open Scope Z_scope.

(** Absolute codec: the vertices of every triangle with a critical point come back bit for bit. *)
Theorem C47_absolute_keeps_double : forall lm, libm_ok (DA lm) (DA_ieee lm) -> forall max_eb ord ub r1 r2 U V junk buf size,
  0 <= r1 -> 0 < r2 -> Z.of_nat (length U) = r1 * r2 -> Z.of_nat (length V) = r1 * r2 -> Z.of_nat (length junk) < 2 ^ 64 ->
  finite_le 500 max_eb -> (forall x, In x U \/ In x V -> finite_le 500 x) ->
  compress_online_abs (DA lm) max_eb ord ub r1 r2 U V junk = Some (buf, size) ->
  short_codes (enc_online_abs (DA lm) max_eb) ord r1 r2 U V ->
  exists U' V', decompress_online (DA lm) r1 r2 (firstn size buf) = Some (U', V') /\
    forall a b d, cell r1 r2 a b d -> has_cp (vecF r2 U V a) (vecF r2 U V b) (vecF r2 U V d) ->
    forall x, In x [a; b; d] -> aget U' (lin r2 x) = aget U (lin r2 x) /\ aget V' (lin r2 x) = aget V (lin r2 x).
Proof. exact abs_cp_api_double. Qed.
Print Assumptions C47_absolute_keeps_double.

Theorem C47_absolute_keeps_float : forall lm, libm_ok (FA lm) (FA_ieee lm) -> forall max_eb ord ub r1 r2 U V junk buf size,
  0 <= r1 -> 0 < r2 -> Z.of_nat (length U) = r1 * r2 -> Z.of_nat (length V) = r1 * r2 -> Z.of_nat (length junk) < 2 ^ 64 ->
  finite_le 56 max_eb -> (forall x, In x U \/ In x V -> finite_le 56 x) ->
  compress_online_abs (FA lm) max_eb ord ub r1 r2 U V junk = Some (buf, size) ->
  short_codes (enc_online_abs (FA lm) max_eb) ord r1 r2 U V ->
  exists U' V', decompress_online (FA lm) r1 r2 (firstn size buf) = Some (U', V') /\
    forall a b d, cell r1 r2 a b d -> has_cp (vecF r2 U V a) (vecF r2 U V b) (vecF r2 U V d) ->
    forall x, In x [a; b; d] -> aget U' (lin r2 x) = aget U (lin r2 x) /\ aget V' (lin r2 x) = aget V (lin r2 x).
Proof. exact abs_cp_api_float. Qed.
Print Assumptions C47_absolute_keeps_float.

(** A run with a triangle with a critical point and a value that changes. *)
Example C47_absolute_nonvacuous :
  (exists buf size, compress_online_abs (FA (lm32 false)) (dy 1 (-4)) ord0 ub0 2 19 FU FV (repeat 0 304) = Some (buf, size)) /\
  libm_ok (FA (lm32 false)) (FA_ieee (lm32 false)) /\ short_codes (enc_online_abs (FA (lm32 false)) (dy 1 (-4))) ord0 2 19 FU FV /\
  finite_le 56 (dy 1 (-4)) /\ (forall x, In x FU \/ In x FV -> finite_le 56 x) /\ Z.of_nat (length FU) = 2 * 19 /\ Z.of_nat (length FV) = 2 * 19 /\
  (exists a b d, cell 2 19 a b d /\ has_cp (vecF 19 FU FV a) (vecF 19 FU FV b) (vecF 19 FU FV d)) /\
  (exists k x x', aget FU k = Some x /\ option_map (fun p => aget (fst (fst p)) k) (enc_online_abs (FA (lm32 false)) (dy 1 (-4)) 2 19 FU FV) = Some (Some x') /\ x' <> x).
Proof. exact keep_example. Qed.

(** Multilevel codec. *)
Theorem C47_multilevel_keeps_double : forall lm, libm_ok (DA lm) (DA_ieee lm) -> forall wrap max_eb ord ub r1 r2 U V junk buf size,
  1 <= r1 -> 1 <= r2 -> Z.of_nat (length U) = r1 * r2 -> Z.of_nat (length V) = r1 * r2 -> Z.of_nat (length junk) < 2 ^ 64 ->
  is_finite 53 1024 max_eb = true -> (B2R 53 1024 max_eb <= bpow radix2 500)%R -> (forall x, In x U \/ In x V -> finite_le 500 x) ->
  compress_sz3 (DA lm) wrap max_eb ord ub r1 r2 U V junk = Some (buf, size) -> sz3_short (DA lm) wrap max_eb ord r1 r2 U V ->
  exists U' V', decompress_sz3 (DA lm) wrap r1 r2 (firstn size buf) = Some (U', V') /\
    forall a b d, cell r1 r2 a b d -> has_cp (vecF r2 U V a) (vecF r2 U V b) (vecF r2 U V d) ->
    forall x, In x [a; b; d] -> aget U' (lin r2 x) = aget U (lin r2 x) /\ aget V' (lin r2 x) = aget V (lin r2 x).
Proof. exact sz3_cp_api_double. Qed.
Print Assumptions C47_multilevel_keeps_double.

Theorem C47_multilevel_keeps_float : forall lm, libm_ok (FA lm) (FA_ieee lm) -> forall wrap max_eb ord ub r1 r2 U V junk buf size,
  1 <= r1 -> 1 <= r2 -> Z.of_nat (length U) = r1 * r2 -> Z.of_nat (length V) = r1 * r2 -> Z.of_nat (length junk) < 2 ^ 64 ->
  is_finite 53 1024 max_eb = true -> (B2R 53 1024 max_eb <= bpow radix2 56)%R -> (forall x, In x U \/ In x V -> finite_le 56 x) ->
  compress_sz3 (FA lm) wrap max_eb ord ub r1 r2 U V junk = Some (buf, size) -> sz3_short (FA lm) wrap max_eb ord r1 r2 U V ->
  exists U' V', decompress_sz3 (FA lm) wrap r1 r2 (firstn size buf) = Some (U', V') /\
    forall a b d, cell r1 r2 a b d -> has_cp (vecF r2 U V a) (vecF r2 U V b) (vecF r2 U V d) ->
    forall x, In x [a; b; d] -> aget U' (lin r2 x) = aget U (lin r2 x) /\ aget V' (lin r2 x) = aget V (lin r2 x).
Proof. exact sz3_cp_api_float. Qed.
Print Assumptions C47_multilevel_keeps_float.

(** The run of C15_nonvacuous has a triangle with a critical point. *)
Example C47_multilevel_nonvacuous :
  (exists buf, compress_sz3 (DA (lm64 true)) true two ord0 ub0 6 6 U6 V6 (repeat 0 576) = Some (buf, 380%nat)) /\
  exists a b d, cell 6 6 a b d /\ has_cp (vecF 6 U6 V6 a) (vecF 6 U6 V6 b) (vecF 6 U6 V6 d).
Proof. exact keep_example_sz3. Qed.

(** The other direction is false: with the absolute codec rounding can create a critical point strictly inside a triangle without one. *)
Theorem C47_no_creation_float_refuted : forall x86, exists max_eb r1 r2 (U V : list binary32) junk buf size U' V' a b d,
  finite_le 56 max_eb /\ (forall x, In x U \/ In x V -> finite_le 56 x) /\ Z.of_nat (length U) = r1 * r2 /\ Z.of_nat (length V) = r1 * r2 /\
  Z.of_nat (length junk) < 2 ^ 64 /\ short_codes (enc_online_abs (FA (lm32 x86)) max_eb) ord0 r1 r2 U V /\
  compress_online_abs (FA (lm32 x86)) max_eb ord0 ub0 r1 r2 U V junk = Some (buf, size) /\
  decompress_online (FA (lm32 x86)) r1 r2 (firstn size buf) = Some (U', V') /\ cell r1 r2 a b d /\
  ~ has_cp (vecF r2 U V a) (vecF r2 U V b) (vecF r2 U V d) /\ crosses (vecF r2 U' V' a) (vecF r2 U' V' b) (vecF r2 U' V' d).
Proof. exact creates_float. Qed.
Print Assumptions C47_no_creation_float_refuted.

Theorem C47_no_creation_double_refuted : forall x86, exists max_eb r1 r2 (U V : list binary64) junk buf size U' V' a b d,
  finite_le 500 max_eb /\ (forall x, In x U \/ In x V -> finite_le 500 x) /\ Z.of_nat (length U) = r1 * r2 /\ Z.of_nat (length V) = r1 * r2 /\
  Z.of_nat (length junk) < 2 ^ 64 /\ short_codes (enc_online_abs (DA (lm64 x86)) max_eb) ord0 r1 r2 U V /\
  compress_online_abs (DA (lm64 x86)) max_eb ord0 ub0 r1 r2 U V junk = Some (buf, size) /\
  decompress_online (DA (lm64 x86)) r1 r2 (firstn size buf) = Some (U', V') /\ cell r1 r2 a b d /\
  ~ has_cp (vecF r2 U V a) (vecF r2 U V b) (vecF r2 U V d) /\ crosses (vecF r2 U' V' a) (vecF r2 U' V' b) (vecF r2 U' V' d).
Proof. exact creates_double. Qed.
Print Assumptions C47_no_creation_double_refuted.
