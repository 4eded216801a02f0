(** src/sz_lossless.cpp: the lossless stage around Zstd, and the program that chains it with a codec.  Zstd is an oracle
    with the contract of zstd.h; nothing is assumed of the bytes it produces. *)
From Coq Require Import Reals Lra Lia ZArith List Bool.
From Coq Require Import ZifyBool ZifyNat.
From Flocq Require Import Core.Core IEEE754.BinarySingleNaN IEEE754.Binary IEEE754.Bits.
From Verif Require Import Base Exact IEEE IEEELaws.
Import ListNotations.
Local Open Scope Z_scope.

(** ** Zstd (not in /repo) *)
(** ZSTD_compress, ZSTD_decompress: contents of the destination (its length is dstCapacity), source, and for the
    compressor the level; result: contents of the destination afterwards, size or [None] for an error.
    [z_error] is the size_t returned for an error.  [z_frame]: ZSTD_getFrameContentSize != ZSTD_CONTENTSIZE_ERROR. *)
Record zstd := {
  z_compress : list Z -> list Z -> Z -> list Z * option Z;
  z_decompress : list Z -> list Z -> list Z * option Z;
  z_error : Z;
  z_frame : list Z -> bool
}.

(** zstd.h: a compressed frame fits its destination and decompresses to the source into any destination large enough;
    compression succeeds when the destination has [bound] bytes.  Bytes of the destination behind the result are
    unspecified, and so is everything after an error. *)
Record zstd_ok (bound : Z -> Z) (z : zstd) : Prop := {
  zc_len : forall dst src lv, length (fst (z_compress z dst src lv)) = length dst;
  zc_fits : forall dst src lv n, snd (z_compress z dst src lv) = Some n -> 0 <= n <= Z.of_nat (length dst);
  zc_bound : forall dst src lv, bound (Z.of_nat (length src)) <= Z.of_nat (length dst) -> snd (z_compress z dst src lv) <> None;
  zd_len : forall dst src, length (fst (z_decompress z dst src)) = length dst;
  zd_back : forall dst src lv n dst', snd (z_compress z dst src lv) = Some n -> (length src <= length dst')%nat ->
    let r := z_decompress z dst' (firstn (Z.to_nat n) (fst (z_compress z dst src lv))) in
    firstn (length src) (fst r) = src /\ snd r = Some (Z.of_nat (length src));
  zf_frame : forall dst src lv n, snd (z_compress z dst src lv) = Some n ->
    z_frame z (firstn (Z.to_nat n) (fst (z_compress z dst src lv))) = true;
  zs_error : 2 ^ 63 <= z_error z < 2 ^ 64
}.

(** ZSTD_COMPRESSBOUND of zstd.h. *)
Definition compress_bound (n : Z) : Z := n + Z.shiftr n 8 + (if n <? 131072 then Z.shiftr (131072 - n) 11 else 0).

(** ** src/sz_lossless.cpp *)
(** The constant 1.2 (line 21). *)
Definition c12 : binary64 := b64_of_bits 4608083138725491507.

(** Lines 18-21: dataLength*1.2 in double, converted to size_t. *)
Definition room (n : Z) : Z := if n <? 100 then 200 else Btrunc 53 1024 (b64_mult mode_NE (b64_ofZ n) c12).

Section Wrapper.
Context (z : zstd).
(** malloc (lines 22, 37, 53): a block of the given size with some contents. *)
Context (heap : Z -> list Z).

(** Lines 3-9: ZSTD_COMPRESSOR is 1 (include/sz_lossless.hpp:9). *)
Definition is_lossless_compressed_data (s : list Z) : Z := if z_frame z s then 1 else -1.

(** Lines 11-29.  The new block, [None] if the pointer is left alone, and the size returned. *)
Definition lossless_compress (compressor level : Z) (data : list Z) : option (list Z) * Z :=
  if compressor =? 1 then
    let (dst, r) := z_compress z (heap (room (Z.of_nat (length data)))) data level in
    (Some dst, match r with Some n => n | None => z_error z end)
  else (None, 0).

(** Lines 31-45: the result of ZSTD_decompress is dropped. *)
Definition lossless_decompress (compressor : Z) (s : list Z) (target : Z) : option (list Z) * Z :=
  if compressor =? 1 then (Some (fst (z_decompress z (heap target) s)), target) else (None, 0).

(** Lines 47-62. *)
Definition lossless_decompress65536 (compressor : Z) (s : list Z) : option (list Z) * Z :=
  if compressor =? 1 then (Some (fst (z_decompress z (repeat 0 (Z.to_nat 65536)) s)), 65536) else (None, 0).

(** The [len] first bytes of a block; [None]: the block is shorter. *)
Definition bytes_of (b : option (list Z)) (len : Z) : option (list Z) :=
  match b with Some l => if (0 <=? len) && (len <=? Z.of_nat (length l)) then Some (firstn (Z.to_nat len) l) else None | None => None end.

(** test/sz_compress_cp_preserve_2d_test.cpp:26-45: compress, lossless stage, back, decompress. *)
Definition pipeline {X} (compressed : option (list Z * nat)) (decompress : list Z -> option X) : option X :=
  match compressed with
  | Some (buf, size) =>
      let (c, n) := lossless_compress 1 3 (firstn size buf) in
      match bytes_of c n with
      | Some s => match lossless_decompress 1 s (Z.of_nat size) with (Some l, _) => decompress l | _ => None end
      | None => None
      end
  | None => None
  end.
End Wrapper.

(** ** The size of the block *)
Lemma c12_val : val 53 1024 c12 = Fin (5404319552844595 * / 4503599627370496)%R.
Proof.
  assert (E : B2FF 53 1024 c12 = F754_finite false 5404319552844595 (-52)) by (vm_compute; reflexivity).
  destruct c12 as [s|s|s pl H|s m e H]; try discriminate E. injection E as -> -> ->. cbn [val]. f_equal.
Qed.

Local Instance p53 : Prec_gt_0 53 := eq_refl.
Local Instance e1024 : Prec_lt_emax 53 1024 := eq_refl.
Local Open Scope R_scope.
Lemma room_ge n b : (100 <= n <= 2 ^ 52)%Z -> (0 <= b <= 2 ^ 53)%Z -> IZR b <= IZR n * (5404319552844595 * / 4503599627370496) -> (b <= room n)%Z.
Proof.
  intros Hn Hb H. unfold room. destruct (n <? 100)%Z eqn:E; [lia|].
  assert (IN : 0 < IZR n <= IZR (2 ^ 52)) by (split; [apply IZR_lt|apply IZR_le]; lia).
  assert (VN : val 53 1024 (b64_ofZ n) = Fin (IZR n)).
  { unfold b64_ofZ. rewrite val_ofZ. apply rndx_fin.
    - apply (fmt_IZR 53 1024); first [reflexivity|lia].
    - rewrite Rabs_pos_eq by lra. apply Rle_lt_trans with (IZR (2 ^ 52)); [apply IN|]. rewrite (IZR_Zpower radix2) by lia. apply bpow_lt. lia. }
  set (x := IZR n * (5404319552844595 * / 4503599627370496)) in *.
  assert (X2 : 0 <= x <= bpow radix2 53).
  { unfold x. rewrite <- (IZR_Zpower radix2) by lia. change (IZR (radix2 ^ 53)) with (IZR (2 * 2 ^ 52)). rewrite mult_IZR. split.
    - apply Rmult_le_pos; lra.
    - replace (IZR 2) with 2 by reflexivity.
      apply Rle_trans with (IZR n * 2); [apply Rmult_le_compat_l; lra|]. lra. }
  assert (V : val 53 1024 (b64_mult mode_NE (b64_ofZ n) c12) = Fin (round radix2 (SpecFloat.fexp 53 1024) (round_mode mode_NE) x)).
  { unfold b64_mult. rewrite val_mult, VN, c12_val. cbn [xmul rndx]. fold x. apply sat_fin.
    apply Rle_lt_trans with (bpow radix2 53); [|apply bpow_lt; lia].
    apply (rnd_bound 53 1024 eq_refl); [apply (fmt_bpow 53 1024 eq_refl); lia|]. rewrite Rabs_pos_eq; lra. }
  apply val_Fin_inv in V. destruct V as [F V].
  assert (EZ : Btrunc 53 1024 (b64_mult mode_NE (b64_ofZ n) c12) = Ztrunc (B2R 53 1024 (b64_mult mode_NE (b64_ofZ n) c12))).
  { apply eq_IZR. rewrite Btrunc_correct by reflexivity. apply round_FIX_IZR. }
  rewrite EZ, V.
  assert (L : IZR b <= round radix2 (SpecFloat.fexp 53 1024) (round_mode mode_NE) x).
  { rewrite <- (rnd_id 53 1024 (IZR b)) by (apply (fmt_IZR 53 1024); first [reflexivity|lia]). apply (rnd_le 53 1024 eq_refl). exact H. }
  assert (0 <= IZR b) by (apply IZR_le; lia).
  rewrite Ztrunc_floor by lra. apply Zfloor_lub. exact L.
Qed.
Local Close Scope R_scope.

Lemma room_bound n : 0 <= n <= 2 ^ 52 -> n < 100 \/ 320 <= n -> compress_bound n <= room n.
Proof.
  intros Hn [H|H].
  - unfold room, compress_bound. replace (n <? 100) with true by lia. replace (n <? 131072) with true by lia.
    rewrite !Z.shiftr_div_pow2 by lia. change (2 ^ 8) with 256. change (2 ^ 11) with 2048. lia.
  - destruct (Z.eq_dec n 320) as [->|N]; [vm_compute; discriminate|].
    unfold compress_bound. rewrite !Z.shiftr_div_pow2 by lia. change (2 ^ 8) with 256. change (2 ^ 11) with 2048.
    apply room_ge; [lia|destruct (n <? 131072); lia|].
    set (b := n + n / 256 + _).
    assert (B : 5 * b <= 6 * n - 1 \/ 1000 * b <= 1199 * n).
    { unfold b. destruct (n <? 131072) eqn:E; [|right; lia].
      destruct (Z_lt_le_dec n 400); [left|right; lia].
      assert (n / 256 = 1) by lia. assert ((131072 - n) / 2048 = 63) by lia. lia. }
    destruct B as [B|B]; apply IZR_le in B; rewrite ?minus_IZR, ?mult_IZR in B.
    + assert (IZR n <= IZR (2 ^ 52))%R by (apply IZR_le; lia). change (IZR (2 ^ 52)) with 4503599627370496%R in *. lra.
    + assert (0 <= IZR n)%R by (apply IZR_le; lia). lra.
Qed.

Lemma room_small n : 0 <= n <= 2 ^ 52 -> n + 20 <= room n.
Proof.
  intros Hn. destruct (Z_lt_le_dec n 100) as [L|L].
  - unfold room. replace (n <? 100) with true by lia. lia.
  - destruct (Z.eq_dec n 100) as [->|N]; [vm_compute; discriminate|].
    apply room_ge; [lia|lia|]. rewrite plus_IZR. assert (101 <= IZR n)%R by (apply IZR_le; lia). lra.
Qed.

(** The block is too small for the bound exactly when 100 <= n < 320. *)
Lemma room_gap n : 100 <= n < 320 -> room n < compress_bound n.
Proof.
  intros H. assert (A : forallb (fun n => room n <? compress_bound n) (zrange 100 320) = true) by (vm_compute; reflexivity).
  rewrite forallb_forall in A. specialize (A n). rewrite in_zrange in A. specialize (A H). lia.
Qed.

(** ** Round trip *)
Section Round.
Context (bound : Z -> Z) (z : zstd) (HZ : zstd_ok bound z) (heap : Z -> list Z) (HH : forall n, Z.of_nat (length (heap n)) = Z.max 0 n).

Lemma wrapper_round level data : Z.of_nat (length data) <= 2 ^ 52 -> bound (Z.of_nat (length data)) <= room (Z.of_nat (length data)) ->
  exists c n s, lossless_compress z heap 1 level data = (Some c, n) /\ 0 <= n <= room (Z.of_nat (length data)) /\ bytes_of (Some c) n = Some s /\
    is_lossless_compressed_data z s = 1 /\
    lossless_decompress z heap 1 s (Z.of_nat (length data)) = (Some data, Z.of_nat (length data)) /\
    (Z.of_nat (length data) <= 65536 -> exists l, lossless_decompress65536 z 1 s = (Some l, 65536) /\ firstn (length data) l = data /\ Z.of_nat (length l) = 65536).
Proof.
  intros HM HB. pose proof (room_small (Z.of_nat (length data)) ltac:(lia)) as RS. unfold lossless_compress. cbn [Z.eqb Pos.eqb]. set (dst := heap (room (Z.of_nat (length data)))).
  assert (LD : Z.of_nat (length dst) = Z.max 0 (room (Z.of_nat (length data)))) by apply HH.
  assert (HN : snd (z_compress z dst data level) <> None) by (apply (zc_bound _ _ HZ); lia).
  destruct (z_compress z dst data level) as [c r] eqn:E. cbn [snd] in HN. destruct r as [n|]; [|congruence].
  assert (E1 : fst (z_compress z dst data level) = c) by (rewrite E; reflexivity).
  assert (E2 : snd (z_compress z dst data level) = Some n) by (rewrite E; reflexivity).
  pose proof (zc_fits _ _ HZ _ _ _ _ E2) as F. pose proof (zc_len _ _ HZ dst data level) as L. rewrite E1 in L.
  exists c, n, (firstn (Z.to_nat n) c). split; [reflexivity|].
  split; [|split; [|split; [|split]]].
  - lia.
  - unfold bytes_of. replace ((0 <=? n) && (n <=? Z.of_nat (length c))) with true by lia. reflexivity.
  - unfold is_lossless_compressed_data. rewrite <- E1, (zf_frame _ _ HZ _ _ _ _ E2). reflexivity.
  - unfold lossless_decompress. cbn [Z.eqb Pos.eqb]. set (dst' := heap (Z.of_nat (length data))).
    assert (LD' : length dst' = length data) by (pose proof (HH (Z.of_nat (length data))); fold dst' in H; lia).
    destruct (zd_back _ _ HZ dst data level n dst' E2 ltac:(lia)) as [B _]. rewrite E1 in B.
    pose proof (zd_len _ _ HZ dst' (firstn (Z.to_nat n) c)) as L'.
    rewrite <- LD', <- L', firstn_all in B. rewrite B. reflexivity.
  - intros H. eexists. split; [reflexivity|].
    destruct (zd_back _ _ HZ dst data level n (repeat 0 (Z.to_nat 65536)) E2) as [B _]; [rewrite repeat_length; lia|]. rewrite E1 in B.
    split; [exact B|]. rewrite (zd_len _ _ HZ), repeat_length. lia.
Qed.
End Round.
