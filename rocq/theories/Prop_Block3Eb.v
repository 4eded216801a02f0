(** Property theorems about sz_compress_3d_with_eb (one bound per value, 3D): C48. *)
From Coq Require Import Reals Lra Lia ZArith List Bool.
From Flocq Require Import Core.Core IEEE754.BinarySingleNaN IEEE754.Binary IEEE754.Bits.
From Verif Require Import Base Huffman HuffStream HuffProps BitPack Stream Arith Codec2D Sync2D Stream2D Exact IEEE IEEELaws IEEEQuant IEEE2D Api2D RelaxApi2D
  LibmModel Witness2D Examples2D LinQuant Block BlockSync BlockTile BlockBytes BlockIEEE BlockApi BlockTotal BlockRefute Block3Eb Block3EbRefute.
Import ListNotations.
Local Open Scope Z_scope.

(** The stream, the dimensions and the bounds determine a field within the bounds: some reader recovers it from every
    stream the compressor returns.  The library itself ships no such reader (C48_no_reader_refuted). *)
Theorem C48_stream_determines_field_double : forall lm, exists read : Z -> Z -> Z -> list binary64 -> list Z -> option (list (option binary64)),
  forall ord ub r1 r2 r3 bs indep precisions pad (data : list binary64) junk buf size,
  bs < 2 ^ 31 -> length pad = 7%nat -> Z.of_nat (length junk) < 2 ^ 64 ->
  Z.of_nat (length precisions) = r1 * r2 * r3 -> (forall b, In b precisions -> is_finite 53 1024 b = true) ->
  compress_3d_eb (DA lm) (DO lm) ord ub r1 r2 r3 bs indep precisions pad data junk = Some (buf, size) ->
  short_blocks ord 32768 (encode_3d_eb (DA lm) (DO lm) r1 r2 r3 bs precisions data) ->
  exists out, (forall rest, read r1 r2 r3 precisions (firstn size buf ++ rest) = Some out) /\
    recovered (aget precisions) data (Z.to_nat (r1 * r2 * r3)) out.
Proof. exact (fun lm => ex_intro _ (read_3d_eb (DA lm) (DO lm)) (block3_eb_api_double lm)). Qed.
Print Assumptions C48_stream_determines_field_double.

Theorem C48_stream_determines_field_float : forall lm, exists read : Z -> Z -> Z -> list binary64 -> list Z -> option (list (option binary32)),
  forall ord ub r1 r2 r3 bs indep precisions pad (data : list binary32) junk buf size,
  bs < 2 ^ 31 -> length pad = 3%nat -> Z.of_nat (length junk) < 2 ^ 64 ->
  Z.of_nat (length precisions) = r1 * r2 * r3 -> (forall b, In b precisions -> is_finite 53 1024 b = true) ->
  compress_3d_eb (FA lm) (FO lm) ord ub r1 r2 r3 bs indep precisions pad data junk = Some (buf, size) ->
  short_blocks ord 32768 (encode_3d_eb (FA lm) (FO lm) r1 r2 r3 bs precisions data) ->
  exists out, (forall rest, read r1 r2 r3 precisions (firstn size buf ++ rest) = Some out) /\
    recovered (aget precisions) data (Z.to_nat (r1 * r2 * r3)) out.
Proof. exact (fun lm => ex_intro _ (read_3d_eb (FA lm) (FO lm)) (block3_eb_api_float lm)). Qed.
Print Assumptions C48_stream_determines_field_float.

(** 4x4x4 values in eight blocks, one bound 0.  (The float case is part of C48_no_reader_refuted.) *)
Example C48_nonvacuous : exists buf size,
  compress_3d_eb (DA (lm64 false)) (DO (lm64 false)) ord0 ub0 4 4 4 2 false flat_ebs (repeat 0 7) flat64 (repeat 0 614) = Some (buf, size) /\
  short_blocks ord0 32768 (encode_3d_eb (DA (lm64 false)) (DO (lm64 false)) 4 4 4 2 flat_ebs flat64) /\
  (forall b, In b flat_ebs -> is_finite 53 1024 b = true /\ (0 <= B2R 53 1024 b)%R) /\ In (b64_ofZ 0) flat_ebs.
Proof. exact cube_eb_ok_double. Qed.

(** The 3D decompressor of the library (which expects one precision in the header) runs off the stream. *)
Theorem C48_no_reader_refuted : exists (data : list binary32) precisions pad junk buf size,
  Z.of_nat (length data) = 4 * 4 * 4 /\ Z.of_nat (length precisions) = 4 * 4 * 4 /\
  (forall b, In b precisions -> is_finite 53 1024 b = true /\ (0 <= B2R 53 1024 b)%R) /\ length pad = 3%nat /\
  compress_3d_eb (FA (lm32 false)) (FO (lm32 false)) ord0 ub0 4 4 4 2 false precisions pad data junk = Some (buf, size) /\
  short_blocks ord0 32768 (encode_3d_eb (FA (lm32 false)) (FO (lm32 false)) 4 4 4 2 precisions data) /\
  decompress_3d (FA (lm32 false)) (FO (lm32 false)) 4 4 4 (firstn size buf) = None.
Proof. exact no_reader. Qed.
Print Assumptions C48_no_reader_refuted.

(** Quantising neither converts out of range nor leaves the block buffer, for finite bounds that are not negative. *)
Theorem C48_no_undefined_double : forall lm r1 r2 r3 bs precisions (data : list binary64),
  1 <= r1 -> 1 <= r2 -> 1 <= r3 -> 1 <= bs -> Z.of_nat (length data) = r1 * r2 * r3 -> Z.of_nat (length precisions) = r1 * r2 * r3 ->
  (forall b, In b precisions -> is_finite 53 1024 b = true /\ (0 <= B2R 53 1024 b)%R) ->
  exists c, encode_3d_eb (DA lm) (DO lm) r1 r2 r3 bs precisions data = Some c.
Proof. exact block3_eb_total_double. Qed.
Print Assumptions C48_no_undefined_double.

Theorem C48_no_undefined_float : forall lm r1 r2 r3 bs precisions (data : list binary32),
  1 <= r1 -> 1 <= r2 -> 1 <= r3 -> 1 <= bs -> Z.of_nat (length data) = r1 * r2 * r3 -> Z.of_nat (length precisions) = r1 * r2 * r3 ->
  (forall b, In b precisions -> is_finite 53 1024 b = true /\ (0 <= B2R 53 1024 b)%R) ->
  exists c, encode_3d_eb (FA lm) (FO lm) r1 r2 r3 bs precisions data = Some c.
Proof. exact block3_eb_total_float. Qed.
Print Assumptions C48_no_undefined_float.

(** Every field, once more than a twentieth of the bounds are zero: the array of verbatim values overflows. *)
Theorem C48_zero_bounds_double_refuted : forall lm ord ub r1 r2 r3 bs indep precisions pad (data : list binary64) junk,
  Z.of_nat (length precisions) = r1 * r2 * r3 -> (forall b, In b precisions -> is_finite 53 1024 b = true) ->
  r1 * r2 * r3 < 20 * Z.of_nat (length (filter zero64 precisions)) ->
  compress_3d_eb (DA lm) (DO lm) ord ub r1 r2 r3 bs indep precisions pad data junk = None.
Proof. exact block3_eb_zero_double. Qed.
Print Assumptions C48_zero_bounds_double_refuted.

Theorem C48_zero_bounds_float_refuted : forall lm ord ub r1 r2 r3 bs indep precisions pad (data : list binary32) junk,
  Z.of_nat (length precisions) = r1 * r2 * r3 -> (forall b, In b precisions -> is_finite 53 1024 b = true) ->
  r1 * r2 * r3 < 20 * Z.of_nat (length (filter zero64 precisions)) ->
  compress_3d_eb (FA lm) (FO lm) ord ub r1 r2 r3 bs indep precisions pad data junk = None.
Proof. exact block3_eb_zero_float. Qed.
Print Assumptions C48_zero_bounds_float_refuted.

(** One zero bound among eight. *)
Example C48_zero_bounds_nonvacuous : let precisions := b64_ofZ 0 :: repeat half64 7 in
  Z.of_nat (length precisions) = 2 * 2 * 2 /\ (forall b, In b precisions -> is_finite 53 1024 b = true) /\
  2 * 2 * 2 < 20 * Z.of_nat (length (filter zero64 precisions)).
Proof.
  cbv zeta. split; [reflexivity|]. split; [|reflexivity].
  intros b [<-|Hb]; [reflexivity|]. apply repeat_spec in Hb. subst b. reflexivity.
Qed.
