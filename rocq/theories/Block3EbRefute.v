(** sz_compress_3d_with_eb: fields that go through; the 3D decompressor of the library does not read the streams. *)
From Coq Require Import Reals Lra Lia ZArith List Bool Permutation.
From Coq Require Import ZifyBool ZifyNat.
From Flocq Require Import Core.Core IEEE754.BinarySingleNaN IEEE754.Binary IEEE754.Bits.
From Verif Require Import Base Huffman HuffStream HuffProps BitPack Stream Arith Codec2D Sync2D Stream2D Exact IEEE IEEELaws IEEEQuant IEEE2D Api2D RelaxApi2D
  LibmModel Witness2D Examples2D LinQuant Block BlockSync BlockTile BlockBytes BlockIEEE BlockApi BlockTotal BlockRefute Block3Eb.
Import ListNotations.
Local Open Scope Z_scope.

(** The flat field as 4x4x4 values in 8 blocks; one bound is 0. *)
Local Notation out64 := (compress_3d_eb (DA (lm64 false)) (DO (lm64 false)) ord0 ub0 4 4 4 2 false flat_ebs (repeat 0 7) flat64 (repeat 0 614)).
Local Notation out32 := (compress_3d_eb (FA (lm32 false)) (FO (lm32 false)) ord0 ub0 4 4 4 2 false flat_ebs [0; 0; 0] flat32 (repeat 0 307)).

Lemma cube_eb_ok_double : exists buf size, out64 = Some (buf, size) /\
  short_blocks ord0 32768 (encode_3d_eb (DA (lm64 false)) (DO (lm64 false)) 4 4 4 2 flat_ebs flat64) /\
  (forall b, In b flat_ebs -> is_finite 53 1024 b = true /\ (0 <= B2R 53 1024 b)%R) /\ In (b64_ofZ 0) flat_ebs.
Proof.
  destruct (@runs_ex out64) as (buf & size & E); [vm_compute; reflexivity|].
  exists buf, size. split; [exact E|]. split; [apply few_short; vm_compute; reflexivity|].
  assert (HB : (0 <= B2R 53 1024 half64)%R).
  { pose proof (two_pow64_val (-1) ltac:(lia)) as K. apply (val_fin_iff 53 1024) in K. destruct K as [_ K].
    unfold half64. rewrite K. apply bpow_ge_0. }
  split; [|apply in_or_app; right; left; reflexivity].
  intros b Hb. unfold flat_ebs in Hb. apply in_app_or in Hb. destruct Hb as [Hb|Hb]; [apply repeat_spec in Hb; subst b; split; [reflexivity|exact HB]|].
  destruct Hb as [<-|Hb]; [split; [reflexivity|cbn; lra]|]. apply repeat_spec in Hb; subst b; split; [reflexivity|exact HB].
Qed.

(** What sz_decompress_3d takes for the number of verbatim values, and the bytes that follow. *)
Definition count_3d (A : Arith) (s : list Z) : option (Z * list Z) :=
  let* (bs, s1) := read_s32 s in
  let* (pb, s2) := take_bytes 8 s1 in
  let* (ib, s3) := take_bytes 1 s2 in
  let* (radius, s4) := read_s32 s3 in
  let* (mean, s5) := read_mean A s4 in
  let* (rcount, s6) := read_le 8 s5 in
  read_le 8 s6.

Lemma tread_short A : ser_ok A -> forall n s, (length s < n)%nat -> tread_array A n s = None.
Proof.
  intros HS. induction n as [|n IH]; intros s H; [lia|]. cbn [tread_array]. unfold take_bytes. pose proof (tsize_pos A HS).
  destruct (tsize_of A <=? length s)%nat eqn:E; [|reflexivity]. cbn [bind]. rewrite IH; [reflexivity|]. rewrite skipn_length. lia.
Qed.

Lemma count_3d_none A O r1 r2 r3 s cnt rest : ser_ok A -> count_3d A s = Some (cnt, rest) -> Z.of_nat (length rest) < cnt ->
  decompress_3d A O r1 r2 r3 s = None.
Proof.
  intros HS H HC. unfold count_3d in H. unfold decompress_3d.
  bind_as H [bs s1] E1. rewrite E1. cbn [bind]. destruct (_ && _); [|reflexivity].
  bind_as H [pb s2] E2. rewrite E2. cbn [bind]. bind_as H [ib s3] E3. rewrite E3. cbn [bind].
  bind_as H [radius s4] E4. rewrite E4. cbn [bind]. bind_as H [mean s5] E5. rewrite E5. cbn [bind].
  unfold read_blocks. bind_as H [rcount s6] E6. rewrite E6. cbn [bind]. rewrite H. cbn [bind].
  rewrite (tread_short A HS) by lia. reflexivity.
Qed.

Definition lost (A : Arith) (out : option (list Z * nat)) : bool :=
  match out with
  | Some (buf, size) => match count_3d A (firstn size buf) with Some (cnt, rest) => Z.of_nat (length rest) <? cnt | None => false end
  | None => false
  end.
Lemma lost_none A O r1 r2 r3 out : ser_ok A -> lost A out = true ->
  exists buf size, out = Some (buf, size) /\ decompress_3d A O r1 r2 r3 (firstn size buf) = None.
Proof.
  intros HS H. unfold lost in H. destruct out as [[buf size]|]; [|discriminate]. exists buf, size. split; [reflexivity|].
  destruct (count_3d A (firstn size buf)) as [[cnt rest]|] eqn:E; [|discriminate]. eapply count_3d_none; [exact HS|exact E|lia].
Qed.

Theorem no_reader : exists (data : list binary32) precisions pad junk buf size,
  Z.of_nat (length data) = 4 * 4 * 4 /\ Z.of_nat (length precisions) = 4 * 4 * 4 /\
  (forall b, In b precisions -> is_finite 53 1024 b = true /\ (0 <= B2R 53 1024 b)%R) /\ length pad = 3%nat /\
  compress_3d_eb (FA (lm32 false)) (FO (lm32 false)) ord0 ub0 4 4 4 2 false precisions pad data junk = Some (buf, size) /\
  short_blocks ord0 32768 (encode_3d_eb (FA (lm32 false)) (FO (lm32 false)) 4 4 4 2 precisions data) /\
  decompress_3d (FA (lm32 false)) (FO (lm32 false)) 4 4 4 (firstn size buf) = None.
Proof.
  assert (HL : lost (FA (lm32 false)) out32 = true) by (vm_compute; reflexivity).
  destruct (lost_none _ (FO (lm32 false)) 4 4 4 _ (FA_ser _) HL) as (buf & size & E1 & E2).
  exists flat32, flat_ebs, [0; 0; 0], (repeat 0 307), buf, size.
  split; [reflexivity|]. split; [reflexivity|]. split; [destruct cube_eb_ok_double as (b0 & s0 & _ & _ & H & _); exact H|].
  split; [reflexivity|]. split; [exact E1|]. split; [apply few_short; vm_compute; reflexivity|exact E2].
Qed.
