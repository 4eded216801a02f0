(** The programs that compress with one bound per value (C53, C54, C55). *)
From Coq Require Import Reals Lia ZArith List Bool.
From Flocq Require Import Core.Core IEEE754.BinarySingleNaN IEEE754.Binary IEEE754.Bits.
From Verif Require Import Base Huffman HuffStream HuffProps Stream Arith Codec2D Exact IEEE IEEELaws IEEEQuant Api2D RelaxApi2D
  LinQuant Block BlockSync BlockBytes BlockIEEE BlockApi Lossless LosslessApi Verify LibmModel Witness2D Examples2D EbTool EbToolApi EbToolEx.
Import ListNotations.
Local Open Scope Z_scope.

(** C53: test/sz_compress_2d_with_eb.cpp reaches its report, for any data. *)
Theorem C53_never_stops : forall lm z heap ord ub quantize r1 r2 eb bs pad (data : list binary32) junk buf size,
  zstd_ok compress_bound z -> sizes heap -> (size < 100)%nat \/ (320 <= size)%nat -> Z.of_nat (length junk) <= 2 ^ 52 ->
  length pad = 3%nat -> Z.of_nat (length data) = r1 * r2 -> length data = length eb ->
  bounds_used (FA lm) ord ub quantize eb = Some bs -> (forall b, In b bs -> blt 53 1024 b (b64_ofZ 0) = false) ->
  compress_2d_eb (FA lm) (FO lm) ord ub r1 r2 12 false bs pad data junk = Some (buf, size) ->
  short_blocks ord 65536 (encode_2d_eb (FA lm) (FO lm) r1 r2 12 bs data) ->
  length bs = length data /\
  exists dec r, main_2d_with_eb (FA lm) (FO lm) z heap ord ub quantize r1 r2 eb pad data junk = Some (Finished r) /\
    verify (FA lm) data dec (length data) = Some r /\ length dec = length data /\
    forall k x y b, nth_error data k = Some x -> nth_error dec k = Some y -> nth_error bs k = Some b ->
      y = x \/ (is_finite 53 1024 b = true -> is_finite 24 128 x = true /\ differs_le (B2R 53 1024 b * (1 + bpow radix2 (-24))) x y).
Proof. exact program_2d_eb. Qed.
Print Assumptions C53_never_stops.

Example C53_nonvacuous : exists buf size,
  compress_2d_eb (FA (lm32 false)) (FO (lm32 false)) ord0 ub0 16 16 12 false wide_ebs [0; 0; 0] wide32 (repeat 0 1228) = Some (buf, size) /\ (320 <= size)%nat /\
  short_blocks ord0 65536 (encode_2d_eb (FA (lm32 false)) (FO (lm32 false)) 16 16 12 wide_ebs wide32) /\
  (forall b, In b wide_ebs -> blt 53 1024 b (b64_ofZ 0) = false) /\ length wide32 = length wide_ebs /\ Z.of_nat (length wide32) = 16 * 16 /\
  bounds_used (FA (lm32 false)) ord0 ub0 None wide_ebs = Some wide_ebs.
Proof. exact wide_runs. Qed.

(** The same with quantised bounds, in terms of the bounds given. *)
Theorem C53_quantised : forall lm (L : libm_ok (FA lm) (FA_ieee lm)) z heap ord ub base_eb junk_ids r1 r2 eb bs pad (data : list binary32) junk buf size,
  zstd_ok compress_bound z -> sizes heap -> (size < 100)%nat \/ (320 <= size)%nat -> Z.of_nat (length junk) <= 2 ^ 52 ->
  length pad = 3%nat -> Z.of_nat (length data) = r1 * r2 -> length data = length eb ->
  is_finite 53 1024 base_eb = true -> (bpow radix2 (-900) <= B2R 53 1024 base_eb)%R ->
  (forall e, In e eb -> is_finite 53 1024 e = true /\ (B2R 53 1024 e <= bpow radix2 100)%R) ->
  bounds_used (FA lm) ord ub (Some (base_eb, junk_ids)) eb = Some bs ->
  compress_2d_eb (FA lm) (FO lm) ord ub r1 r2 12 false bs pad data junk = Some (buf, size) ->
  short_blocks ord 65536 (encode_2d_eb (FA lm) (FO lm) r1 r2 12 bs data) ->
  exists dec r, main_2d_with_eb (FA lm) (FO lm) z heap ord ub (Some (base_eb, junk_ids)) r1 r2 eb pad data junk = Some (Finished r) /\
    verify (FA lm) data dec (length data) = Some r /\ length dec = length data /\
    forall k x y e, nth_error data k = Some x -> nth_error dec k = Some y -> nth_error eb k = Some e ->
      y = x \/ is_finite 24 128 x = true /\
        ((B2R 53 1024 e <= B2R 53 1024 base_eb)%R /\ differs_le 0 x y \/
         (B2R 53 1024 base_eb <= B2R 53 1024 e * (1 + bpow radix2 (-39)))%R /\ differs_le (B2R 53 1024 e * (1 + bpow radix2 (-23))) x y).
Proof. exact program_2d_eb_quantised. Qed.
Print Assumptions C53_quantised.

Example C53_quantised_nonvacuous : libm_ok (FA (lm32 false)) (FA_ieee (lm32 false)) /\
  bounds_used (FA (lm32 false)) ord0 ub0 (Some (dy 1 (-10), repeat 0 1024)) wide_ebs = Some wide_ebs /\
  is_finite 53 1024 (dy 1 (-10)) = true /\ (bpow radix2 (-900) <= B2R 53 1024 (dy 1 (-10)))%R /\
  (forall e, In e wide_ebs -> is_finite 53 1024 e = true /\ (B2R 53 1024 e <= bpow radix2 100)%R).
Proof. exact (conj (lm32_ok false) wide_quantised). Qed.

(** Without the condition on the sign of the bounds the program stops. *)
Theorem C53_negative_bound_refuted : exists eb (data : list binary32) junk buf size,
  length data = length eb /\ Z.of_nat (length data) = 16 * 16 /\ (forall x, In x data -> is_finite 24 128 x = true) /\
  compress_2d_eb (FA (lm32 false)) (FO (lm32 false)) ord0 ub0 16 16 12 false eb [0; 0; 0] data junk = Some (buf, size) /\ (320 <= size)%nat /\
  main_2d_with_eb (FA (lm32 false)) (FO (lm32 false)) store0 heap0 ord0 ub0 None 16 16 eb [0; 0; 0] data junk = Some (Stopped 0).
Proof. exact negative_bound_stops. Qed.
Print Assumptions C53_negative_bound_refuted.

(** C54: the indices of the bounds.  What holds: the new bound is 0 or between the base bound and the old bound. *)
Theorem C54_quantised_bounds_partial : forall lm (L : libm_ok (FA lm) (FA_ieee lm)) ord ub base_eb eb junk bs bytes,
  is_finite 53 1024 base_eb = true -> (bpow radix2 (-900) <= B2R 53 1024 base_eb)%R ->
  (forall e, In e eb -> is_finite 53 1024 e = true /\ (B2R 53 1024 e <= bpow radix2 100)%R) ->
  quantize_and_compress_eb (FA lm) ord ub base_eb eb junk = Some (bs, bytes) ->
  length bs = length eb /\
  forall k e b, nth_error eb k = Some e -> nth_error bs k = Some b -> is_finite 53 1024 b = true /\
    (B2R 53 1024 b = 0 /\ B2R 53 1024 e <= B2R 53 1024 base_eb \/
     B2R 53 1024 base_eb <= B2R 53 1024 b <= B2R 53 1024 e * (1 + bpow radix2 (-39)))%R.
Proof. exact quantised_bounds. Qed.
Print Assumptions C54_quantised_bounds_partial.

Example C54_nonvacuous : exists bs bytes, quantize_and_compress_eb (FA (lm32 false)) ord0 ub0 (dy 1 (-10)) wide_ebs (repeat 0 1024) = Some (bs, bytes).
Proof. exact wide_indices. Qed.

(** The stored indices do not determine the bounds. *)
Theorem C54_indices_ambiguous_refuted : forall lm (L : libm_ok (FA lm) (FA_ieee lm)), exists base_eb eb1 eb2 junk bs1 bs2 bytes,
  is_finite 53 1024 base_eb = true /\ (0 < B2R 53 1024 base_eb)%R /\
  quantize_and_compress_eb (FA lm) ord0 ub0 base_eb eb1 junk = Some (bs1, bytes) /\
  quantize_and_compress_eb (FA lm) ord0 ub0 base_eb eb2 junk = Some (bs2, bytes) /\
  length bs1 = length bs2 /\ (forall b, In b bs1 -> B2R 53 1024 b = 0%R) /\ (forall b, In b bs2 -> B2R 53 1024 b = 1%R) /\ bs1 <> [].
Proof. exact indices_ambiguous. Qed.
Print Assumptions C54_indices_ambiguous_refuted.

(** The code of the indices is written beyond the end of its buffer. *)
Theorem C54_index_buffer_refuted : exists base_eb eb,
  is_finite 53 1024 base_eb = true /\ length eb = 64%nat /\ (forall e, In e eb -> is_finite 53 1024 e = true) /\
  (exists ids bs buf size, each_bound (FA (lm32 false)) (eb_exponential_quantize (FA (lm32 false)) 2 base_eb) eb = Some (ids, bs) /\
     write_pieces ord0 ub0 [Huff (2 * 1024) ids] (repeat 0 2000) 0 = Some (buf, size) /\ size = 959%nat) /\
  quantize_and_compress_eb (FA (lm32 false)) ord0 ub0 base_eb eb (repeat 0 256) = None /\
  (exists eb2 r, length eb2 = 64%nat /\ quantize_and_compress_eb (FA (lm32 false)) ord0 ub0 base_eb eb2 (repeat 0 256) = Some r).
Proof. exact index_buffer_overrun. Qed.
Print Assumptions C54_index_buffer_refuted.

(** C55: test/sz_compress_test_with_eb.cpp: the relative bound holds up to a factor 1 + 2^-38. *)
Theorem C55_relative_bound_partial : forall lm (L : libm_ok (DA lm) (DA_ieee lm)) z heap ord ub b r1 r2 r3 tmp bs pad (data : list binary64) junk_ids junk buf size,
  zstd_ok compress_bound z -> sizes heap -> (size < 100)%nat \/ (320 <= size)%nat -> Z.of_nat (length junk) <= 2 ^ 52 ->
  length pad = 7%nat -> Z.of_nat (length data) = r1 * r2 * r3 -> 1 <= b <= 2 ->
  (forall x, In x data -> finite_le 400 x) -> (forall t, In t tmp -> is_finite 53 1024 t = true /\ (0 <= B2R 53 1024 t <= bpow radix2 400)%R) ->
  relative_setup (DA lm) ord ub (2 ^ b) tmp data junk_ids = Some bs ->
  compress_2d_eb (DA lm) (DO lm) ord ub (r1 * r2) r3 12 false bs pad data junk = Some (buf, size) ->
  short_blocks ord 65536 (encode_2d_eb (DA lm) (DO lm) (r1 * r2) r3 12 bs data) ->
  exists dec o, main_test_with_eb (DA lm) (DO lm) z heap ord ub (2 ^ b) r1 r2 r3 tmp pad data junk_ids junk = Some o /\
    match o with
    | Finished r => verify (DA lm) data dec (length data) = Some r
    | Stopped i => exists k t x y, i = Z.of_nat k /\ nth_error tmp k = Some t /\ nth_error data k = Some x /\ nth_error dec k = Some y /\
        blt 53 1024 t (b64_abs (b64_div mode_NE (b64_minus mode_NE y x) x)) = true
    end /\
    length dec = length data /\
    forall k x y t, nth_error data k = Some x -> nth_error dec k = Some y -> nth_error tmp k = Some t ->
      differs_le (B2R 53 1024 t * Rabs (B2R 53 1024 x) * (1 + bpow radix2 (-38))) x y /\
      ((B2R 53 1024 t * Rabs (B2R 53 1024 x) < bpow radix2 (-24))%R -> B2R 53 1024 y = B2R 53 1024 x).
Proof. exact program_test_eb. Qed.
Print Assumptions C55_relative_bound_partial.

Example C55_nonvacuous : (forall x, In x even_data -> finite_le 400 x) /\
  (forall t, In t even_tmp -> is_finite 53 1024 t = true /\ (0 <= B2R 53 1024 t <= bpow radix2 400)%R) /\
  Z.of_nat (length even_data) = 4 * 4 * 8 /\
  exists bs buf size, relative_setup (DA lm_strict) ord0 ub0 (2 ^ 1) even_tmp even_data (repeat 0 512) = Some bs /\
    compress_2d_eb (DA lm_strict) (DO lm_strict) ord0 ub0 (4 * 4) 8 12 false bs (repeat 0 7) even_data (repeat 0 1228) = Some (buf, size) /\ (320 <= size)%nat /\
    short_blocks ord0 65536 (encode_2d_eb (DA lm_strict) (DO lm_strict) (4 * 4) 8 12 bs even_data).
Proof. exact even_hyps. Qed.

(** The exact relative bound does not hold: the program stops at its first value. *)
Theorem C55_relative_test_stops_refuted : exists lm tmp (data : list binary64) junk_ids junk,
  libm_ok (DA lm) (DA_ieee lm) /\ (forall x, In x data -> finite_le 400 x) /\
  (forall t, In t tmp -> is_finite 53 1024 t = true /\ (0 <= B2R 53 1024 t <= bpow radix2 400)%R) /\ Z.of_nat (length data) = 4 * 4 * 8 /\
  (exists bs buf size, relative_setup (DA lm) ord0 ub0 (2 ^ 1) tmp data junk_ids = Some bs /\
    compress_2d_eb (DA lm) (DO lm) ord0 ub0 (4 * 4) 8 12 false bs (repeat 0 7) data junk = Some (buf, size) /\ (320 <= size)%nat /\
    short_blocks ord0 65536 (encode_2d_eb (DA lm) (DO lm) (4 * 4) 8 12 bs data)) /\
  main_test_with_eb (DA lm) (DO lm) store0 heap0 ord0 ub0 (2 ^ 1) 4 4 8 tmp (repeat 0 7) data junk_ids junk = Some (Stopped 0).
Proof. exact relative_test_stops. Qed.
Print Assumptions C55_relative_test_stops_refuted.
