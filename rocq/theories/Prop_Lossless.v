(** Property theorems C49: the lossless stage around Zstd, and the two structured test programs with it.  [zstd_ok]: the contract of zstd.h;
    [compress_bound]: ZSTD_COMPRESSBOUND; [sizes]: malloc returns as many bytes as asked. *)
From Coq Require Import Reals Lra Lia ZArith List Bool.
From Flocq Require Import Core.Core IEEE754.BinarySingleNaN IEEE754.Binary IEEE754.Bits.
From Verif Require Import Base Huffman HuffStream HuffProps Stream Arith Mesh2D Derive2D Codec2D Stream2D Exact Cells2D Geo2D Preserve2D
  IEEE IEEELaws IEEEQuant IEEE2D IEEEAbs2D Api2D RelaxApi2D Mesh3D Derive3D Abs3D Sync3D Cells3D Total3D Api3D Refute3D Sz3 Sz3Cells Sz3Api KeepApi2D
  LibmModel Witness2D Examples2D Sz3Refute Lossless LosslessApi.
Import ListNotations.
Local Open Scope Z_scope.

(** Data of less than 100 or at least 320 bytes come back; the stream is recognised; the 64 KiB preview starts with them. *)
Theorem C49_round_trip_partial : forall z heap level data,
  zstd_ok compress_bound z -> sizes heap -> Z.of_nat (length data) <= 2 ^ 52 ->
  (length data < 100)%nat \/ (320 <= length data)%nat ->
  exists c n s, lossless_compress z heap 1 level data = (Some c, n) /\ 0 <= n <= Z.of_nat (length c) /\ s = firstn (Z.to_nat n) c /\
    is_lossless_compressed_data z s = 1 /\
    lossless_decompress z heap 1 s (Z.of_nat (length data)) = (Some data, Z.of_nat (length data)) /\
    (Z.of_nat (length data) <= 65536 -> exists l, lossless_decompress65536 z 1 s = (Some l, 65536) /\ firstn (length data) l = data /\ Z.of_nat (length l) = 65536).
Proof. exact lossless_round. Qed.
Print Assumptions C49_round_trip_partial.

(** Data of any size come back if Zstd adds at most 20 bytes to incompressible data. *)
Theorem C49_round_trip_small_overhead : forall z heap level data,
  zstd_ok (fun n => n + 20) z -> sizes heap -> Z.of_nat (length data) <= 2 ^ 52 ->
  exists c n s, lossless_compress z heap 1 level data = (Some c, n) /\ 0 <= n <= Z.of_nat (length c) /\ s = firstn (Z.to_nat n) c /\
    is_lossless_compressed_data z s = 1 /\
    lossless_decompress z heap 1 s (Z.of_nat (length data)) = (Some data, Z.of_nat (length data)) /\
    (Z.of_nat (length data) <= 65536 -> exists l, lossless_decompress65536 z 1 s = (Some l, 65536) /\ firstn (length data) l = data /\ Z.of_nat (length l) = 65536).
Proof. exact lossless_round20. Qed.
Print Assumptions C49_round_trip_small_overhead.

Example C49_round_trip_nonvacuous : zstd_ok compress_bound store0 /\ zstd_ok (fun n => n + 20) (store (fun n => n + 20)) /\ sizes heap0 /\
  lossless_compress store0 heap0 1 3 [5; 6; 7] = (Some ([5; 6; 7] ++ repeat 0 197), 3).
Proof. exact lossless_example. Qed.

(** Any other compressor id: no block, size 0. *)
Theorem C49_unknown_compressor : forall z heap compressor level data s target,
  compressor <> 1 ->
  lossless_compress z heap compressor level data = (None, 0) /\ lossless_decompress z heap compressor s target = (None, 0) /\
  lossless_decompress65536 z compressor s = (None, 0).
Proof. exact lossless_unknown. Qed.
Print Assumptions C49_unknown_compressor.

(** Missing in the first theorem: from 100 to 319 bytes the block is smaller than ZSTD_compressBound; a Zstd that keeps its contract may refuse, and its
    error code is returned as a size larger than the block. *)
Theorem C49_small_block_refuted : forall heap,
  sizes heap -> exists z, zstd_ok compress_bound z /\ forall level data, (100 <= length data < 320)%nat ->
  exists c n, lossless_compress z heap 1 level data = (Some c, n) /\ n = z_error z /\ Z.of_nat (length c) < n.
Proof. exact lossless_gap. Qed.
Print Assumptions C49_small_block_refuted.

(** A failed decompression is reported as a success and the block holds what malloc left there. *)
Theorem C49_error_reported_refuted : forall heap,
  sizes heap -> exists z, zstd_ok compress_bound z /\ exists s target,
  snd (z_decompress z (heap target) s) = None /\ lossless_decompress z heap 1 s target = (Some (heap target), target).
Proof. exact lossless_error_lost. Qed.
Print Assumptions C49_error_reported_refuted.

(** The preview of more than 65536 bytes: "the first 32768 bytes should be exact the same" does not follow from the contract. *)
Theorem C49_preview_refuted : forall heap,
  sizes heap -> exists z, zstd_ok compress_bound z /\ exists level data c n s l,
  lossless_compress z heap 1 level data = (Some c, n) /\ bytes_of (Some c) n = Some s /\
  lossless_decompress z heap 1 s (Z.of_nat (length data)) = (Some data, Z.of_nat (length data)) /\
  lossless_decompress65536 z 1 s = (Some l, 65536) /\ 65536 < Z.of_nat (length data) /\ nth_error data 0 = Some 7 /\ nth_error l 0 = Some 0.
Proof. exact lossless_preview. Qed.
Print Assumptions C49_preview_refuted.

(** The 2D program (multilevel codec): its output is within the bound, and every triangle with a critical point comes back bit for bit. *)
Theorem C49_program_2d_float : forall (lm : Libm binary32 binary64) (L : libm_ok (FA lm) (FA_ieee lm)) z heap wrap max_eb ord ub r1 r2 U V junk buf size,
  zstd_ok compress_bound z -> sizes heap -> (size < 100)%nat \/ (320 <= size)%nat ->
  1 <= r1 -> 1 <= r2 -> Z.of_nat (length U) = r1 * r2 -> Z.of_nat (length V) = r1 * r2 -> Z.of_nat (length junk) <= 2 ^ 52 ->
  is_finite 53 1024 max_eb = true -> (B2R 53 1024 max_eb <= bpow radix2 56)%R -> (forall x, In x U \/ In x V -> finite_le 56 x) ->
  compress_sz3 (FA lm) wrap max_eb ord ub r1 r2 U V junk = Some (buf, size) -> sz3_short (FA lm) wrap max_eb ord r1 r2 U V ->
  exists U' V', pipeline z heap (compress_sz3 (FA lm) wrap max_eb ord ub r1 r2 U V junk) (decompress_sz3 (FA lm) wrap r1 r2) = Some (U', V') /\
    length U' = length U /\ length V' = length V /\
    (forall i j, 0 <= i < r1 -> 0 <= j < r2 -> forall x x',
      (aget U (i * r2 + j) = Some x /\ aget U' (i * r2 + j) = Some x') \/ (aget V (i * r2 + j) = Some x /\ aget V' (i * r2 + j) = Some x') ->
      x' = x \/ (0 < B2R 53 1024 max_eb)%R /\ differs_le (level_bound (B2R 53 1024 max_eb) i j * (1 + bpow radix2 (-23))) x x') /\
    forall a b d, cell r1 r2 a b d -> has_cp (vecF r2 U V a) (vecF r2 U V b) (vecF r2 U V d) ->
    forall x, In x [a; b; d] -> aget U' (lin r2 x) = aget U (lin r2 x) /\ aget V' (lin r2 x) = aget V (lin r2 x).
Proof. exact program_2d_float. Qed.
Print Assumptions C49_program_2d_float.

(** The same with double data. *)
Theorem C49_program_2d_double : forall (lm : Libm binary64 binary64) (L : libm_ok (DA lm) (DA_ieee lm)) z heap wrap max_eb ord ub r1 r2 U V junk buf size,
  zstd_ok compress_bound z -> sizes heap -> (size < 100)%nat \/ (320 <= size)%nat ->
  1 <= r1 -> 1 <= r2 -> Z.of_nat (length U) = r1 * r2 -> Z.of_nat (length V) = r1 * r2 -> Z.of_nat (length junk) <= 2 ^ 52 ->
  is_finite 53 1024 max_eb = true -> (B2R 53 1024 max_eb <= bpow radix2 500)%R -> (forall x, In x U \/ In x V -> finite_le 500 x) ->
  compress_sz3 (DA lm) wrap max_eb ord ub r1 r2 U V junk = Some (buf, size) -> sz3_short (DA lm) wrap max_eb ord r1 r2 U V ->
  exists U' V', pipeline z heap (compress_sz3 (DA lm) wrap max_eb ord ub r1 r2 U V junk) (decompress_sz3 (DA lm) wrap r1 r2) = Some (U', V') /\
    length U' = length U /\ length V' = length V /\
    (forall i j, 0 <= i < r1 -> 0 <= j < r2 -> forall x x',
      (aget U (i * r2 + j) = Some x /\ aget U' (i * r2 + j) = Some x') \/ (aget V (i * r2 + j) = Some x /\ aget V' (i * r2 + j) = Some x') ->
      x' = x \/ (0 < B2R 53 1024 max_eb)%R /\ differs_le (level_bound (B2R 53 1024 max_eb) i j * (1 + bpow radix2 (-39))) x x') /\
    forall a b d, cell r1 r2 a b d -> has_cp (vecF r2 U V a) (vecF r2 U V b) (vecF r2 U V d) ->
    forall x, In x [a; b; d] -> aget U' (lin r2 x) = aget U (lin r2 x) /\ aget V' (lin r2 x) = aget V (lin r2 x).
Proof. exact program_2d_double. Qed.
Print Assumptions C49_program_2d_double.

Example C49_program_2d_nonvacuous : (exists buf, compress_sz3 (DA (lm64 true)) true two ord0 ub0 6 6 U6 V6 (repeat 0 576) = Some (buf, 380%nat)) /\
  (320 <= 380)%nat /\ Z.of_nat (length (repeat 0 576)) <= 2 ^ 52.
Proof. exact program_2d_example. Qed.

(** The 3D program (absolute codec): its output is within the bound, and every tetrahedron the compressor's test marks comes back bit for bit. *)
Theorem C49_program_3d_float : forall (lm : Libm binary32 binary64) (L : libm_ok (FA lm) (FA_ieee lm)) z heap ftk max_eb ord ub r1 r2 r3 U V W junk buf size,
  zstd_ok compress_bound z -> sizes heap -> (size < 100)%nat \/ (320 <= size)%nat ->
  0 <= r1 -> 0 < r2 -> 0 < r3 -> sized r1 r2 r3 U -> sized r1 r2 r3 V -> sized r1 r2 r3 W -> Z.of_nat (length junk) <= 2 ^ 52 ->
  finite_le 38 max_eb -> (forall x, In x U \/ In x V \/ In x W -> finite_le 38 x) ->
  compress_abs3 (FA lm) ftk max_eb ord ub r1 r2 r3 U V W junk = Some (buf, size) ->
  short_codes3 (enc_abs3 (FA lm) ftk max_eb) ord r1 r2 r3 U V W ->
  exists U' V' W', pipeline z heap (compress_abs3 (FA lm) ftk max_eb ord ub r1 r2 r3 U V W junk) (decompress_abs3 (FA lm) r1 r2 r3) = Some (U', V', W') /\
    length U' = length U /\ length V' = length V /\ length W' = length W /\
    (forall p u v w u' v' w', aget U p = Some u -> aget V p = Some v -> aget W p = Some w ->
      aget U' p = Some u' -> aget V' p = Some v' -> aget W' p = Some w' ->
      let b := (B2R 53 1024 max_eb * (1 + bpow radix2 (-40)))%R in
      (u' = u /\ v' = v /\ w' = w) \/ (differs_lt b u u' /\ differs_lt b v v' /\ differs_lt b w w')) /\
    forall a b d e, tet r1 r2 r3 [a; b; d; e] -> check_cp3 (FA lm) ftk U V W r2 r3 a b d e = Some true ->
    forall x, In x [a; b; d; e] ->
      aget U' (lin3 r2 r3 x) = aget U (lin3 r2 r3 x) /\ aget V' (lin3 r2 r3 x) = aget V (lin3 r2 r3 x) /\
      aget W' (lin3 r2 r3 x) = aget W (lin3 r2 r3 x).
Proof. exact program_3d_float. Qed.
Print Assumptions C49_program_3d_float.

(** The same with double data. *)
Theorem C49_program_3d_double : forall (lm : Libm binary64 binary64) (L : libm_ok (DA lm) (DA_ieee lm)) z heap ftk max_eb ord ub r1 r2 r3 U V W junk buf size,
  zstd_ok compress_bound z -> sizes heap -> (size < 100)%nat \/ (320 <= size)%nat ->
  0 <= r1 -> 0 < r2 -> 0 < r3 -> sized r1 r2 r3 U -> sized r1 r2 r3 V -> sized r1 r2 r3 W -> Z.of_nat (length junk) <= 2 ^ 52 ->
  finite_le 336 max_eb -> (forall x, In x U \/ In x V \/ In x W -> finite_le 336 x) ->
  compress_abs3 (DA lm) ftk max_eb ord ub r1 r2 r3 U V W junk = Some (buf, size) ->
  short_codes3 (enc_abs3 (DA lm) ftk max_eb) ord r1 r2 r3 U V W ->
  exists U' V' W', pipeline z heap (compress_abs3 (DA lm) ftk max_eb ord ub r1 r2 r3 U V W junk) (decompress_abs3 (DA lm) r1 r2 r3) = Some (U', V', W') /\
    length U' = length U /\ length V' = length V /\ length W' = length W /\
    (forall p u v w u' v' w', aget U p = Some u -> aget V p = Some v -> aget W p = Some w ->
      aget U' p = Some u' -> aget V' p = Some v' -> aget W' p = Some w' ->
      let b := (B2R 53 1024 max_eb * (1 + bpow radix2 (-40)))%R in
      (u' = u /\ v' = v /\ w' = w) \/ (differs_lt b u u' /\ differs_lt b v v' /\ differs_lt b w w')) /\
    forall a b d e, tet r1 r2 r3 [a; b; d; e] -> check_cp3 (DA lm) ftk U V W r2 r3 a b d e = Some true ->
    forall x, In x [a; b; d; e] ->
      aget U' (lin3 r2 r3 x) = aget U (lin3 r2 r3 x) /\ aget V' (lin3 r2 r3 x) = aget V (lin3 r2 r3 x) /\
      aget W' (lin3 r2 r3 x) = aget W (lin3 r2 r3 x).
Proof. exact program_3d_double. Qed.
Print Assumptions C49_program_3d_double.

Example C49_program_3d_nonvacuous : (exists buf, compress_abs3 (DA (lm64 false)) ftk0 ex_eb ord0 ub0 2 2 6 ex3U ex3V ex3W (repeat 0 576) = Some (buf, 337%nat)) /\
  (320 <= 337)%nat /\ Z.of_nat (length (repeat 0 576)) <= 2 ^ 52.
Proof. exact program_3d_example. Qed.
