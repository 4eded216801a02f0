(** Property theorems about point-wise relative compression of a 2D float field: one precision (C43), one bound per value (C44).
    Sizes of the blocks as the functions allocate them. *)
From Coq Require Import Reals Lra Lia ZArith List Bool.
From Flocq Require Import Core.Core IEEE754.BinarySingleNaN IEEE754.Binary IEEE754.Bits.
From Verif Require Import Base Huffman HuffStream Arith Codec2D Exact IEEE IEEELaws IEEEQuant IEEE2D Api2D LibmModel LogLibm Witness2D Examples2D LinQuant Block
  BlockIEEE LogErr2D LogApi2D Plan Pwr2D PwrErr2D PwrApi2D PwrWitness2D.
Import ListNotations.
Local Open Scope Z_scope.

(** Decompression of the first [size] bytes, whatever follows: every non-zero value keeps its sign and has, up to 2^-13, the relative precision;
    a zero comes back as +0 or as a positive number not above any magnitude of the field (up to the same 2^-13).
    Missing from the full claim: zeros come back as zeros (refuted below). *)
Theorem C43_round_trip_partial : forall lm, libm_ok (FA lm) (FA_ieee lm) -> log_libm_ok (FA lm) (FA_ieee lm) ->
  forall ord ub r1 r2 bs indep precision pad (data : list binary32) jl junk buf size,
  bs < 2 ^ 31 -> length pad = 3%nat -> Z.of_nat (length jl) < 2 ^ 64 -> Z.of_nat (length junk) < 2 ^ 64 ->
  1 <= r1 * r2 -> Z.of_nat (length data) = r1 * r2 ->
  (forall x, In x data -> zero_or_usual 100 x) -> (exists x, In x data /\ B2R 24 128 x <> 0%R) ->
  is_finite 53 1024 precision = true -> (bpow radix2 (-16) <= B2R 53 1024 precision <= 1)%R ->
  compress_pwr (FA lm) (FO lm) ord ub r1 r2 bs indep precision pad data jl junk = Some (buf, size) ->
  short_pwr (FA lm) (FO lm) ord r1 r2 bs precision data ->
  exists out, (forall rest, decompress_pwr (FA lm) (FO lm) r1 r2 (firstn size buf ++ rest) = Some out) /\
    pwr_recovered (B2R 53 1024 precision) data (Z.to_nat (r1 * r2)) out.
Proof. exact pwr_api_float. Qed.
Print Assumptions C43_round_trip_partial.

Example C43_nonvacuous : exists buf size,
  compress_pwr (FA (lmlog32 false)) (FO (lmlog32 false)) ord0 ub0 8 8 12 true (dy 1 0) (repeat 0 3) (map b32 pw) (repeat 0 307) (repeat 0 205) = Some (buf, size) /\
  libm_ok (FA (lmlog32 false)) (FA_ieee (lmlog32 false)) /\ log_libm_ok (FA (lmlog32 false)) (FA_ieee (lmlog32 false)) /\
  Z.of_nat (length (map b32 pw)) = 8 * 8 /\ (forall x, In x (map b32 pw) -> zero_or_usual 100 x) /\ (exists x, In x (map b32 pw) /\ B2R 24 128 x <> 0%R) /\
  is_finite 53 1024 (dy 1 0) = true /\ (bpow radix2 (-16) <= B2R 53 1024 (dy 1 0) <= 1)%R /\
  short_pwr (FA (lmlog32 false)) (FO (lmlog32 false)) ord0 8 8 12 (dy 1 0) (map b32 pw).
Proof. exact pw_example. Qed.

(** Not true: zeros come back as zeros.  The recovered logarithm of a zero can equal the threshold below which the decompressor writes 0. *)
Theorem C43_zero_refuted : exists buf size out x x',
  libm_ok (FA lmO) (FA_ieee lmO) /\ log_libm_ok (FA lmO) (FA_ieee lmO) /\
  (forall x, In x (map b32 pzero) -> zero_or_usual 100 x) /\
  is_finite 53 1024 pP = true /\ (bpow radix2 (-16) <= B2R 53 1024 pP <= 1)%R /\
  compress_pwr (FA lmO) (FO lmO) ord0 ub0 8 8 12 true pP (repeat 0 3) (map b32 pzero) (repeat 0 307) (repeat 0 163) = Some (buf, size) /\
  decompress_pwr (FA lmO) (FO lmO) 8 8 (firstn size buf) = Some out /\
  aget (map b32 pzero) 2 = Some x /\ B2R 24 128 x = 0%R /\ aget out 2 = Some (Some x') /\ (0 < B2R 24 128 x')%R.
Proof. exact pzero_refuted. Qed.
Print Assumptions C43_zero_refuted.

(** Not true: every field can be compressed.  A field of zeros, and a precision below the resolution of the logarithms, store every value verbatim in a
    block with room for one in twenty. *)
Theorem C43_zero_field_refuted : exists (data : list binary32), length data = 64%nat /\ forall ord ub indep pad jl junk,
  compress_pwr (FA (lmlog32 false)) (FO (lmlog32 false)) ord ub 8 8 12 indep (dy 1 0) pad data jl junk = None.
Proof. exact (ex_intro _ (map b32 (repeat (0, 0) 64)) (conj eq_refl zero_field_overrun)). Qed.
Print Assumptions C43_zero_field_refuted.
Theorem C43_tiny_precision_refuted : exists (data : list binary32), length data = 64%nat /\ forall ord ub indep pad jl junk,
  compress_pwr (FA (lmlog32 false)) (FO (lmlog32 false)) ord ub 8 8 12 indep (dy 1 (-60)) pad data jl junk = None.
Proof. exact (ex_intro _ (map b32 big) (conj eq_refl tiny_precision_overrun)). Qed.
Print Assumptions C43_tiny_precision_refuted.

(** One bound per value: zeros come back as +0, every other value keeps its sign and has, up to 2^-13, its own relative bound; if the field starts with a zero, or
    no bound of a non-zero value is below 1/16.  Missing from the full claim: smaller bounds (refuted below). *)
Theorem C44_round_trip_partial : forall lm, libm_ok (FA lm) (FA_ieee lm) -> log_libm_ok (FA lm) (FA_ieee lm) ->
  forall ord ub r1 r2 bs indep ebs pad (data : list binary32) jl junk buf size lebs,
  bs < 2 ^ 31 -> length pad = 3%nat -> Z.of_nat (length jl) < 2 ^ 64 -> Z.of_nat (length junk) < 2 ^ 64 ->
  1 <= r1 * r2 -> Z.of_nat (length data) = r1 * r2 ->
  (forall x, In x data -> zero_or_usual 100 x) ->
  (forall b, In b ebs -> is_finite 53 1024 b = true /\ (0 <= B2R 53 1024 b <= 1)%R) ->
  separated lm ebs data ->
  compress_pwr_eb (FA lm) (FO lm) ord ub r1 r2 bs indep ebs pad data jl junk = Some (buf, size, lebs) ->
  short_pwr_eb (FA lm) (FO lm) ord r1 r2 bs ebs data ->
  exists out, (forall rest, decompress_pwr_eb (FA lm) (FO lm) r1 r2 lebs (firstn size buf ++ rest) = Some out) /\
    pwr_eb_recovered ebs data (Z.to_nat (r1 * r2)) out.
Proof. exact pwr_eb_api_float. Qed.
Print Assumptions C44_round_trip_partial.

Example C44_nonvacuous : exists buf size lebs,
  compress_pwr_eb (FA (lmlog32 false)) (FO (lmlog32 false)) ord0 ub0 8 8 12 true (repeat (dy 1 0) 64) (repeat 0 3) (map b32 pw) (repeat 0 307) (repeat 0 253) = Some (buf, size, lebs) /\
  libm_ok (FA (lmlog32 false)) (FA_ieee (lmlog32 false)) /\ log_libm_ok (FA (lmlog32 false)) (FA_ieee (lmlog32 false)) /\
  Z.of_nat (length (map b32 pw)) = 8 * 8 /\ (forall x, In x (map b32 pw) -> zero_or_usual 100 x) /\
  (forall b, In b (repeat (dy 1 0) 64) -> is_finite 53 1024 b = true /\ (0 <= B2R 53 1024 b <= 1)%R) /\
  separated (lmlog32 false) (repeat (dy 1 0) 64) (map b32 pw) /\
  short_pwr_eb (FA (lmlog32 false)) (FO (lmlog32 false)) ord0 8 8 12 (repeat (dy 1 0) 64) (map b32 pw).
Proof. exact pe_example. Qed.
Example C44_nonvacuous_first_zero : exists buf size lebs,
  compress_pwr_eb (FA (lmlog32 false)) (FO (lmlog32 false)) ord0 ub0 8 8 12 true pe (repeat 0 3) (map b32 pz) (repeat 0 307) (repeat 0 292) = Some (buf, size, lebs) /\
  libm_ok (FA (lmlog32 false)) (FA_ieee (lmlog32 false)) /\ log_libm_ok (FA (lmlog32 false)) (FA_ieee (lmlog32 false)) /\
  Z.of_nat (length (map b32 pz)) = 8 * 8 /\ (forall x, In x (map b32 pz) -> zero_or_usual 100 x) /\
  (forall b, In b pe -> is_finite 53 1024 b = true /\ (0 <= B2R 53 1024 b <= 1)%R) /\
  separated (lmlog32 false) pe (map b32 pz) /\
  short_pwr_eb (FA (lmlog32 false)) (FO (lmlog32 false)) ord0 8 8 12 pe (map b32 pz).
Proof. exact pz_example. Qed.

(** Not true: a non-zero value comes back within its bound.  A value 8 of bound 0, the smallest magnitude of the field, comes back as 0. *)
Theorem C44_bound_refuted : exists buf size lebs out x,
  libm_ok (FA (lmlog32 false)) (FA_ieee (lmlog32 false)) /\ log_libm_ok (FA (lmlog32 false)) (FA_ieee (lmlog32 false)) /\
  (forall x, In x (map b32 pq) -> zero_or_usual 100 x) /\
  compress_pwr_eb (FA (lmlog32 false)) (FO (lmlog32 false)) ord0 ub0 8 8 12 true pe (repeat 0 3) (map b32 pq) (repeat 0 307) (repeat 0 208) = Some (buf, size, lebs) /\
  decompress_pwr_eb (FA (lmlog32 false)) (FO (lmlog32 false)) 8 8 lebs (firstn size buf) = Some out /\
  aget pe 4 = Some (dy 0 0) /\ aget (map b32 pq) 4 = Some x /\ B2R 24 128 x = 8%R /\ aget out 4 = Some (Some (B754_zero 24 128 false)).
Proof. exact pq_refuted. Qed.
Print Assumptions C44_bound_refuted.
