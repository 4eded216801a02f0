(** Property theorems about the relaxed 2D codec (C13).  Conventions as in Prop_2D. *)
From Coq Require Import Reals Lra Lia ZArith List Bool Permutation.
From Flocq Require Import Core.Core IEEE754.BinarySingleNaN IEEE754.Binary IEEE754.Bits.
From Verif Require Import Base Huffman HuffStream HuffProps Stream Arith Mesh2D Derive2D Codec2D Sync2D Trace2D Scan Stream2D Exact Cells2D Geo2D
  Preserve2D IEEE IEEELaws IEEEQuant IEEE2D Api2D LibmModel Witness2D Examples2D Refute2D
  Relax2D RelaxSync2D RelaxCells2D RelaxAny2D RelaxIEEE2D RelaxErr2D RelaxApi2D RelaxRefute2D.
Import ListNotations.
Local Open Scope Z_scope.

(** Exact arithmetic.  [regular_cp]: the cell's linear interpolant is invertible and has a zero in the cell. *)
Theorem C13_keeps_critical_cells : forall max_eb r1 r2 u v U' V' c,
  (16 * / 4503599627370496 <= max_eb)%R -> 0 <= r1 -> 0 < r2 -> Z.of_nat (length u) = r1 * r2 -> Z.of_nat (length v) = r1 * r2 ->
  enc_relax XA (Fin max_eb) r1 r2 (map Fin u) (map Fin v) = Some (U', V', c) ->
  exists u' v', decode r1 r2 c = Some (map Fin u', map Fin v') /\
  (forall a b d, cell r1 r2 a b d ->
    let t w := regular_cp (w a) (w b) (w d) in
    (t (vecR r2 u v) <-> t (vecR r2 u' v')) /\
    (t (vecR r2 u v) -> forall x, In x [a; b; d] -> vecR r2 u' v' x = vecR r2 u v x)) /\
  (forall k, 0 <= k < r1 * r2 ->
    (Rabs (nth (Z.to_nat k) u' 0 - nth (Z.to_nat k) u 0) <= max_eb /\ Rabs (nth (Z.to_nat k) v' 0 - nth (Z.to_nat k) v 0) <= max_eb)%R).
Proof. exact relax_preserves. Qed.
Print Assumptions C13_keeps_critical_cells.

(** Any arithmetic: a cell is untouched, or the compressor's test was false on the original values and is false
    on the final ones for some order of the vertices. *)
Theorem C13_any_arithmetic : forall A max_eb r1 r2 U V U' V' c,
  0 <= r1 -> 0 < r2 -> enc_relax A max_eb r1 r2 U V = Some (U', V', c) ->
  forall p q s, cell r1 r2 p q s ->
    let at_ (W X : list (T A)) (x : Z * Z) := vat A W X (fst x * r2 + snd x) in
    let test W X x y z := let* a := at_ W X x in let* b := at_ W X y in let* d := at_ W X z in Some (check_cp A a b d) in
    (forall x, In x [p; q; s] -> at_ U' V' x = at_ U V x) \/
    (test U V p q s = Some false /\ exists x y z, Permutation [p; q; s] [x; y; z] /\ test U' V' x y z = Some false).
Proof. exact relax_any. Qed.
Print Assumptions C13_any_arithmetic.

(** In double arithmetic the test depends on that order, and the answer of the full test can change. *)
Theorem C13_same_test_refuted : forall x86, exists max_eb U V U' V' c,
  enc_relax (DA (lm64 x86)) max_eb 2 2 U V = Some (U', V', c) /\
  compute_cp (DA (lm64 x86)) U V 2 2 = Some [true; false] /\
  compute_cp (DA (lm64 x86)) U' V' 2 2 = Some [true; true].
Proof. exact relax_test_refuted. Qed.
Print Assumptions C13_same_test_refuted.

(** Bytes: the decompressor returns the working copy; error bound. *)
Theorem C13_round_trip_bound_double : forall lm, libm_ok (DA lm) (DA_ieee lm) -> forall max_eb ord ub r1 r2 U V junk buf size,
  0 <= r1 -> 0 < r2 -> Z.of_nat (length U) = r1 * r2 -> Z.of_nat (length V) = r1 * r2 -> Z.of_nat (length junk) < 2 ^ 64 ->
  finite_le 498 max_eb -> at_least (-47) max_eb -> (forall x, In x U \/ In x V -> finite_le 500 x) ->
  compress_relax (DA lm) max_eb ord ub r1 r2 U V junk = Some (buf, size) ->
  short_codes (enc_relax (DA lm) max_eb) ord r1 r2 U V ->
  exists U' V', decompress_online (DA lm) r1 r2 (firstn size buf) = Some (U', V') /\
    (exists c, enc_relax (DA lm) max_eb r1 r2 U V = Some (U', V', c)) /\
    length U' = length U /\ length V' = length V /\
    forall k u v u' v', aget U k = Some u -> aget V k = Some v -> aget U' k = Some u' -> aget V' k = Some v' ->
      let b x := (B2R 53 1024 max_eb * (1 + bpow radix2 (-33)) + bpow radix2 (-51) * Rabs (B2R 53 1024 x))%R in
      (u' = u /\ v' = v) \/ (differs_le (b u) u u' /\ differs_le (b v) v v').
Proof. exact relax_api_double. Qed.
Print Assumptions C13_round_trip_bound_double.

Theorem C13_round_trip_bound_float : forall lm, libm_ok (FA lm) (FA_ieee lm) -> forall max_eb ord ub r1 r2 U V junk buf size,
  0 <= r1 -> 0 < r2 -> Z.of_nat (length U) = r1 * r2 -> Z.of_nat (length V) = r1 * r2 -> Z.of_nat (length junk) < 2 ^ 64 ->
  finite_le 98 max_eb -> at_least (-47) max_eb -> (forall x, In x U \/ In x V -> finite_le 100 x) ->
  compress_relax (FA lm) max_eb ord ub r1 r2 U V junk = Some (buf, size) ->
  short_codes (enc_relax (FA lm) max_eb) ord r1 r2 U V ->
  exists U' V', decompress_online (FA lm) r1 r2 (firstn size buf) = Some (U', V') /\
    (exists c, enc_relax (FA lm) max_eb r1 r2 U V = Some (U', V', c)) /\
    length U' = length U /\ length V' = length V /\
    forall k u v u' v', aget U k = Some u -> aget V k = Some v -> aget U' k = Some u' -> aget V' k = Some v' ->
      let b x := (B2R 53 1024 max_eb * (1 + bpow radix2 (-4)) + bpow radix2 (-22) * Rabs (B2R 24 128 x))%R in
      (u' = u /\ v' = v) \/ (differs_le (b u) u u' /\ differs_le (b v) v v').
Proof. exact relax_api_float. Qed.
Print Assumptions C13_round_trip_bound_float.

Example C13_nonvacuous :
  (exists buf, compress_relax (DA (lm64 false)) ex_eb ord0 ub0 4 4 exU exV (repeat 0 256) = Some (buf, 159%nat)) /\
  changed (enc_relax (DA (lm64 false)) ex_eb 4 4 exU exV) exU exV = Some 16 /\
  libm_ok (DA (lm64 false)) (DA_ieee (lm64 false)) /\ (forall x, In x exU \/ In x exV -> finite_le 500 x) /\
  finite_le 498 ex_eb /\ at_least (-47) ex_eb /\
  short_codes (enc_relax (DA (lm64 false)) ex_eb) ord0 4 4 exU exV.
Proof. exact ex_relax_ok. Qed.

(** Without the slack the bound fails; with a bound between 2^-52 and 2^-50 decompression reads past the verbatim values. *)
Theorem C13_bound_refuted : forall x86, exists max_eb U V U' V' c u u',
  enc_relax (DA (lm64 x86)) max_eb 1 1 U V = Some (U', V', c) /\ aget U 0 = Some u /\ aget U' 0 = Some u' /\
  is_finite 53 1024 u = true /\ is_finite 53 1024 u' = true /\ B2R 53 1024 max_eb = 1%R /\
  (1 < Rabs (B2R 53 1024 u' - B2R 53 1024 u))%R.
Proof. exact relax_bound_refuted. Qed.
Print Assumptions C13_bound_refuted.

Theorem C13_small_bound_refuted : exists max_eb U V buf size,
  compress_relax (DA (lm64 false)) max_eb ord0 ub0 4 4 U V (repeat 0 256) = Some (buf, size) /\
  length U = 16%nat /\ length V = 16%nat /\ (0 < B2R 53 1024 max_eb)%R /\
  decompress_online (DA (lm64 false)) 4 4 (firstn size buf) = None.
Proof. exact relax_small_bound_refuted. Qed.
Print Assumptions C13_small_bound_refuted.
