(** The lossless stage: round trip under the contract of zstd.h, what the wrapper does not guarantee, and the two structured test programs
    (codec, lossless stage, and back) from the fields given to the fields recovered. *)
From Coq Require Import Reals Lra Lia ZArith List Bool.
From Coq Require Import ZifyBool ZifyNat.
From Flocq Require Import Core.Core IEEE754.BinarySingleNaN IEEE754.Binary IEEE754.Bits.
From Verif Require Import Base Huffman HuffStream HuffProps Stream Arith Mesh2D Derive2D Codec2D Stream2D Exact Cells2D Geo2D Preserve2D
  IEEE IEEELaws IEEEQuant IEEE2D IEEEAbs2D Api2D RelaxApi2D Mesh3D Derive3D Abs3D Sync3D Cells3D Total3D Api3D Sz3 Sz3Cells Sz3Api KeepApi2D
  LibmModel Witness2D Examples2D Sz3Refute Refute3D Lossless.
Import ListNotations.
Local Open Scope Z_scope.

(** malloc returns as many bytes as it is asked for. *)
Definition sizes (heap : Z -> list Z) : Prop := forall n, Z.of_nat (length (heap n)) = Z.max 0 n.

(** ** Round trip *)
Theorem lossless_round z heap level data : zstd_ok compress_bound z -> sizes heap -> Z.of_nat (length data) <= 2 ^ 52 ->
  (length data < 100)%nat \/ (320 <= length data)%nat ->
  exists c n s, lossless_compress z heap 1 level data = (Some c, n) /\ 0 <= n <= Z.of_nat (length c) /\ s = firstn (Z.to_nat n) c /\
    is_lossless_compressed_data z s = 1 /\
    lossless_decompress z heap 1 s (Z.of_nat (length data)) = (Some data, Z.of_nat (length data)) /\
    (Z.of_nat (length data) <= 65536 -> exists l, lossless_decompress65536 z 1 s = (Some l, 65536) /\ firstn (length data) l = data /\ Z.of_nat (length l) = 65536).
Proof.
  intros HZ HH HM HG. destruct (wrapper_round _ z HZ heap HH level data HM) as (c & n & s & E1 & E2 & E3 & E4 & E5 & E6).
  - apply room_bound; lia.
  - exists c, n, s. unfold bytes_of in E3. destruct ((0 <=? n) && (n <=? Z.of_nat (length c))) eqn:EB; [|discriminate]. injection E3 as <-.
    split; [exact E1|]. split; [lia|]. auto.
Qed.

(** A Zstd that adds at most 20 bytes to incompressible input. *)
Theorem lossless_round20 z heap level data : zstd_ok (fun n => n + 20) z -> sizes heap -> Z.of_nat (length data) <= 2 ^ 52 ->
  exists c n s, lossless_compress z heap 1 level data = (Some c, n) /\ 0 <= n <= Z.of_nat (length c) /\ s = firstn (Z.to_nat n) c /\
    is_lossless_compressed_data z s = 1 /\
    lossless_decompress z heap 1 s (Z.of_nat (length data)) = (Some data, Z.of_nat (length data)) /\
    (Z.of_nat (length data) <= 65536 -> exists l, lossless_decompress65536 z 1 s = (Some l, 65536) /\ firstn (length data) l = data /\ Z.of_nat (length l) = 65536).
Proof.
  intros HZ HH HM. destruct (wrapper_round _ z HZ heap HH level data HM) as (c & n & s & E1 & E2 & E3 & E4 & E5 & E6).
  - apply room_small; lia.
  - exists c, n, s. unfold bytes_of in E3. destruct ((0 <=? n) && (n <=? Z.of_nat (length c))) eqn:EB; [|discriminate]. injection E3 as <-.
    split; [exact E1|]. split; [lia|]. auto.
Qed.

(** Any other compressor id: nothing happens. *)
Theorem lossless_unknown z heap compressor level data s target : compressor <> 1 ->
  lossless_compress z heap compressor level data = (None, 0) /\ lossless_decompress z heap compressor s target = (None, 0) /\
  lossless_decompress65536 z compressor s = (None, 0).
Proof.
  intros H. unfold lossless_compress, lossless_decompress, lossless_decompress65536. replace (compressor =? 1) with false by lia. auto.
Qed.

(** ** A Zstd that stores, and refuses what the contract lets it refuse *)
Definition store_into (src dst : list Z) : list Z := src ++ skipn (length src) dst.
Definition store (bound : Z -> Z) : zstd := {|
  z_compress := fun dst src _ => if (bound (Z.of_nat (length src)) <=? Z.of_nat (length dst)) && (Z.of_nat (length src) <=? Z.of_nat (length dst))
    then (store_into src dst, Some (Z.of_nat (length src))) else (dst, None);
  z_decompress := fun dst src => if Z.of_nat (length src) <=? Z.of_nat (length dst) then (store_into src dst, Some (Z.of_nat (length src))) else (dst, None);
  z_error := 2 ^ 64 - 1;
  z_frame := fun _ => true |}.

Lemma store_into_len src dst : (length src <= length dst)%nat -> length (store_into src dst) = length dst.
Proof. intros H. unfold store_into. rewrite app_length, skipn_length. lia. Qed.
Lemma store_into_firstn src dst : firstn (length src) (store_into src dst) = src.
Proof. unfold store_into. rewrite firstn_app, Nat.sub_diag, firstn_all. cbn. apply app_nil_r. Qed.

Lemma store_ok bound : (forall n, 0 <= n -> n <= bound n) -> zstd_ok bound (store bound).
Proof.
  intros HB. constructor; cbn [store z_compress z_decompress z_frame z_error].
  - intros dst src _. destruct (_ && _) eqn:E; [|reflexivity]. apply store_into_len. lia.
  - intros dst src _ n. destruct (_ && _) eqn:E; [|discriminate]. cbn [snd]. intros H. injection H as <-. lia.
  - intros dst src _ H. pose proof (HB (Z.of_nat (length src)) ltac:(lia)).
    replace ((bound (Z.of_nat (length src)) <=? Z.of_nat (length dst)) && (Z.of_nat (length src) <=? Z.of_nat (length dst))) with true by lia. discriminate.
  - intros dst src. destruct (_ <=? _) eqn:E; [|reflexivity]. apply store_into_len. lia.
  - intros dst src _ n dst'. destruct (_ && _) eqn:E; [|discriminate]. cbn [fst snd]. intros H HL. injection H as <-.
    rewrite Nat2Z.id, store_into_firstn. replace (Z.of_nat (length src) <=? Z.of_nat (length dst')) with true by lia.
    cbn [fst snd]. rewrite store_into_firstn. auto.
  - auto.
  - lia.
Qed.
Lemma bound_ge n : 0 <= n -> n <= compress_bound n.
Proof.
  intros H. unfold compress_bound. pose proof (Z.shiftr_nonneg n 8). destruct (n <? 131072) eqn:E; [|lia].
  pose proof (Z.shiftr_nonneg (131072 - n) 11). lia.
Qed.
Definition store0 := store compress_bound.
Lemma store0_ok : zstd_ok compress_bound store0.
Proof. apply store_ok, bound_ge. Qed.

(** Between 100 and 319 bytes the block is smaller than ZSTD_compressBound: Zstd may fail, and the error code is returned as the size. *)
Theorem lossless_gap heap : sizes heap -> exists z, zstd_ok compress_bound z /\ forall level data, (100 <= length data < 320)%nat ->
  exists c n, lossless_compress z heap 1 level data = (Some c, n) /\ n = z_error z /\ Z.of_nat (length c) < n.
Proof.
  intros HH. exists store0. split; [apply store0_ok|]. intros level data H. unfold lossless_compress, store0. cbn [Z.eqb Pos.eqb store z_compress].
  pose proof (room_gap (Z.of_nat (length data)) ltac:(lia)) as G. pose proof (HH (room (Z.of_nat (length data)))) as L.
  assert (R : compress_bound (Z.of_nat (length data)) < 1000).
  { unfold compress_bound. rewrite !Z.shiftr_div_pow2 by lia. change (2 ^ 8) with 256. change (2 ^ 11) with 2048. clear - H.
    destruct (_ <? _); lia. }
  assert (0 <= compress_bound (Z.of_nat (length data))) by (pose proof (bound_ge (Z.of_nat (length data))); lia).
  replace ((compress_bound (Z.of_nat (length data)) <=? Z.of_nat (length (heap (room (Z.of_nat (length data)))))) && (Z.of_nat (length data) <=? Z.of_nat (length (heap (room (Z.of_nat (length data))))))) with false by lia.
  eexists _, _. split; [reflexivity|]. split; [reflexivity|]. cbn [store z_error]. lia.
Qed.

(** The decompressor reports the size it was told even when Zstd fails; the block is what malloc gave. *)
Theorem lossless_error_lost heap : sizes heap -> exists z, zstd_ok compress_bound z /\ exists s target,
  snd (z_decompress z (heap target) s) = None /\ lossless_decompress z heap 1 s target = (Some (heap target), target).
Proof.
  intros HH. exists store0. split; [apply store0_ok|]. exists [1; 2; 3], 2. unfold lossless_decompress, store0. cbn [Z.eqb Pos.eqb store z_decompress].
  pose proof (HH 2) as L. replace (Z.of_nat (length [1; 2; 3]) <=? Z.of_nat (length (heap 2))) with false by (cbn [length]; lia). auto.
Qed.

(** The preview of longer data ("the first 32768 bytes should be exact the same"). *)
Theorem lossless_preview heap : sizes heap -> exists z, zstd_ok compress_bound z /\ exists level data c n s l,
  lossless_compress z heap 1 level data = (Some c, n) /\ bytes_of (Some c) n = Some s /\
  lossless_decompress z heap 1 s (Z.of_nat (length data)) = (Some data, Z.of_nat (length data)) /\
  lossless_decompress65536 z 1 s = (Some l, 65536) /\ 65536 < Z.of_nat (length data) /\ nth_error data 0 = Some 7 /\ nth_error l 0 = Some 0.
Proof.
  intros HH. exists store0. split; [apply store0_ok|].
  set (data := repeat 7 (Z.to_nat 70000)). assert (LD : Z.of_nat (length data) = 70000) by (unfold data; rewrite repeat_length; lia).
  assert (N0 : nth_error data 0 = Some 7) by (unfold data; replace (Z.to_nat 70000) with (S (Z.to_nat 69999)) by lia; reflexivity). clearbody data.
  destruct (wrapper_round _ store0 store0_ok heap HH 3 data) as (c & n & s & E1 & E2 & E3 & E4 & E5 & _).
  - rewrite LD. lia.
  - rewrite LD. apply room_bound; lia.
  - exists 3, data, c, n, s, (repeat 0 (Z.to_nat 65536)). repeat (split; [assumption|]).
    assert (LS : Z.of_nat (length s) = 70000).
    { clear E4 E5. unfold lossless_compress, store0 in E1. cbn [Z.eqb Pos.eqb store z_compress] in E1.
      assert (R : room (Z.of_nat (length data)) < 2 ^ 40) by (rewrite LD; vm_compute; reflexivity).
      destruct ((compress_bound (Z.of_nat (length data)) <=? _) && _) eqn:EB.
      - unfold bytes_of in E3. injection E1 as E1 E1'. destruct (_ && _) in E3; [|discriminate]. injection E3 as E3.
        rewrite <- E3, <- E1, <- E1', Nat2Z.id, firstn_length, store_into_len by lia. lia.
      - injection E1 as E1 E1'. cbn [store z_error] in E1'. lia. }
    split; [|split; [|split]].
    + unfold lossless_decompress65536, store0. cbn [Z.eqb Pos.eqb store z_decompress]. rewrite repeat_length, LS.
      replace (70000 <=? Z.of_nat (Z.to_nat 65536)) with false by lia. reflexivity.
    + lia.
    + exact N0.
    + replace (Z.to_nat 65536) with (S (Z.to_nat 65535)) by lia. reflexivity.
Qed.

(** ** Codec and lossless stage *)
Lemma pipeline_id z heap {X} buf size (dec : list Z -> option X) : zstd_ok compress_bound z -> sizes heap ->
  (size <= length buf)%nat -> Z.of_nat size <= 2 ^ 52 -> (size < 100)%nat \/ (320 <= size)%nat ->
  pipeline z heap (Some (buf, size)) dec = dec (firstn size buf).
Proof.
  intros HZ HH HS HM HG. assert (EL : length (firstn size buf) = size) by (rewrite firstn_length; lia).
  destruct (wrapper_round _ z HZ heap HH 3 (firstn size buf)) as (c & n & s & E1 & E2 & E3 & E4 & E5 & _).
  - rewrite EL. lia.
  - rewrite EL. apply room_bound; lia.
  - unfold pipeline. rewrite E1, E3. rewrite EL in E5. rewrite E5. reflexivity.
Qed.

Lemma written_fits ord ub ps junk buf size : Z.of_nat (length junk) < 2 ^ 64 -> Forall (piece_ok ord) ps ->
  write_pieces ord ub ps junk 0 = Some (buf, size) -> (size <= length buf)%nat /\ length buf = length junk.
Proof.
  intros HJ HF HW. destruct (write_pieces_spec ord ub ps junk 0 buf size HJ HF ltac:(lia) HW) as (E & _ & cs & _ & _ & _ & H). lia.
Qed.

Lemma sz3_fits A wrap max_eb ord ub r1 r2 U V junk buf size : Z.of_nat (length junk) < 2 ^ 64 ->
  compress_sz3 A wrap max_eb ord ub r1 r2 U V junk = Some (buf, size) -> sz3_short A wrap max_eb ord r1 r2 U V ->
  (size <= length buf)%nat /\ length buf = length junk.
Proof.
  intros HJ HC HK. apply compress_sz3_inv in HC. destruct HC as (U' & V' & c & E & _ & W). destruct (HK _ _ E) as [K1 K2].
  apply (written_fits ord ub (sz3_pieces A c)); auto.
  unfold sz3_pieces, capacity. change (2 * 65536) with 131072. clear - K1 K2.
  repeat apply Forall_cons; try apply Forall_nil; cbn [piece_ok]; try exact Logic.I; (split; [lia|match goal with H : max_code_64 _ ?a _ |- max_code_64 _ ?a _ => exact H end]).
Qed.

Lemma abs3_fits A ftk max_eb ord ub r1 r2 r3 U V W junk buf size : Z.of_nat (length junk) < 2 ^ 64 ->
  compress_abs3 A ftk max_eb ord ub r1 r2 r3 U V W junk = Some (buf, size) -> short_codes3 (enc_abs3 A ftk max_eb) ord r1 r2 r3 U V W ->
  (size <= length buf)%nat /\ length buf = length junk.
Proof.
  intros HJ HC HK. unfold compress_abs3 in HC. bind_as HC [[[U' V'] W'] c] E. unfold write_abs3 in HC. destruct (HK _ _ E) as [K1 K2].
  destruct (_ =? _) in HC; [|discriminate]. apply (written_fits ord ub (abs3_pieces A c)); auto.
  unfold abs3_pieces, capacity. change (2 * 65536) with 131072. repeat apply Forall_cons; try apply Forall_nil; cbn [piece_ok]; auto; split; auto; lia.
Qed.


(** test/sz_compress_cp_preserve_2d_test.cpp:26-45. *)
Theorem program_2d_double (lm : Libm binary64 binary64) (L : libm_ok (DA lm) (DA_ieee lm)) z heap wrap max_eb ord ub r1 r2 U V junk buf size :
  zstd_ok compress_bound z -> sizes heap -> (size < 100)%nat \/ (320 <= size)%nat ->
  1 <= r1 -> 1 <= r2 -> Z.of_nat (length U) = r1 * r2 -> Z.of_nat (length V) = r1 * r2 -> Z.of_nat (length junk) <= 2 ^ 52 ->
  is_finite 53 1024 max_eb = true -> (B2R 53 1024 max_eb <= bpow radix2 500)%R -> (forall x, In x U \/ In x V -> finite_le 500 x) ->
  compress_sz3 (DA lm) wrap max_eb ord ub r1 r2 U V junk = Some (buf, size) -> sz3_short (DA lm) wrap max_eb ord r1 r2 U V ->
  exists U' V', pipeline z heap (compress_sz3 (DA lm) wrap max_eb ord ub r1 r2 U V junk) (decompress_sz3 (DA lm) wrap r1 r2) = Some (U', V') /\
    length U' = length U /\ length V' = length V /\
    (forall i j, 0 <= i < r1 -> 0 <= j < r2 -> forall x x',
      (aget U (i * r2 + j) = Some x /\ aget U' (i * r2 + j) = Some x') \/ (aget V (i * r2 + j) = Some x /\ aget V' (i * r2 + j) = Some x') ->
      x' = x \/ (0 < B2R 53 1024 max_eb)%R /\ differs_le (level_bound (B2R 53 1024 max_eb) i j * (1 + bpow radix2 (-39))) x x') /\
    forall a b d, cell r1 r2 a b d -> has_cp (vecF r2 U V a) (vecF r2 U V b) (vecF r2 U V d) ->
    forall x, In x [a; b; d] -> aget U' (lin r2 x) = aget U (lin r2 x) /\ aget V' (lin r2 x) = aget V (lin r2 x).
Proof.
  intros HZ HH HG R1 R2 LU LV LJ Fm Hm Hx HC HK.
  destruct (sz3_api_double lm L wrap max_eb ord ub r1 r2 U V junk buf size) as (U' & V' & HD & _ & L1 & L2 & HB); auto; try lia.
  destruct (sz3_cp_api_double lm L wrap max_eb ord ub r1 r2 U V junk buf size) as (U2 & V2 & HD2 & HP); auto; try lia.
  rewrite HD in HD2. injection HD2 as <- <-. destruct (sz3_fits (DA lm) wrap max_eb ord ub r1 r2 U V junk buf size ltac:(lia) HC HK) as [F1 F2].
  exists U', V'. split; [|auto]. rewrite HC, pipeline_id; auto. lia.
Qed.

(** test/sz_compress_cp_preserve_2d_test.cpp:26-45. *)
Theorem program_2d_float (lm : Libm binary32 binary64) (L : libm_ok (FA lm) (FA_ieee lm)) z heap wrap max_eb ord ub r1 r2 U V junk buf size :
  zstd_ok compress_bound z -> sizes heap -> (size < 100)%nat \/ (320 <= size)%nat ->
  1 <= r1 -> 1 <= r2 -> Z.of_nat (length U) = r1 * r2 -> Z.of_nat (length V) = r1 * r2 -> Z.of_nat (length junk) <= 2 ^ 52 ->
  is_finite 53 1024 max_eb = true -> (B2R 53 1024 max_eb <= bpow radix2 56)%R -> (forall x, In x U \/ In x V -> finite_le 56 x) ->
  compress_sz3 (FA lm) wrap max_eb ord ub r1 r2 U V junk = Some (buf, size) -> sz3_short (FA lm) wrap max_eb ord r1 r2 U V ->
  exists U' V', pipeline z heap (compress_sz3 (FA lm) wrap max_eb ord ub r1 r2 U V junk) (decompress_sz3 (FA lm) wrap r1 r2) = Some (U', V') /\
    length U' = length U /\ length V' = length V /\
    (forall i j, 0 <= i < r1 -> 0 <= j < r2 -> forall x x',
      (aget U (i * r2 + j) = Some x /\ aget U' (i * r2 + j) = Some x') \/ (aget V (i * r2 + j) = Some x /\ aget V' (i * r2 + j) = Some x') ->
      x' = x \/ (0 < B2R 53 1024 max_eb)%R /\ differs_le (level_bound (B2R 53 1024 max_eb) i j * (1 + bpow radix2 (-23))) x x') /\
    forall a b d, cell r1 r2 a b d -> has_cp (vecF r2 U V a) (vecF r2 U V b) (vecF r2 U V d) ->
    forall x, In x [a; b; d] -> aget U' (lin r2 x) = aget U (lin r2 x) /\ aget V' (lin r2 x) = aget V (lin r2 x).
Proof.
  intros HZ HH HG R1 R2 LU LV LJ Fm Hm Hx HC HK.
  destruct (sz3_api_float lm L wrap max_eb ord ub r1 r2 U V junk buf size) as (U' & V' & HD & _ & L1 & L2 & HB); auto; try lia.
  destruct (sz3_cp_api_float lm L wrap max_eb ord ub r1 r2 U V junk buf size) as (U2 & V2 & HD2 & HP); auto; try lia.
  rewrite HD in HD2. injection HD2 as <- <-. destruct (sz3_fits (FA lm) wrap max_eb ord ub r1 r2 U V junk buf size ltac:(lia) HC HK) as [F1 F2].
  exists U', V'. split; [|auto]. rewrite HC, pipeline_id; auto. lia.
Qed.

(** test/sz_compress_cp_preserve_3d_test.cpp:28-44. *)
Theorem program_3d_double (lm : Libm binary64 binary64) (L : libm_ok (DA lm) (DA_ieee lm)) z heap ftk max_eb ord ub r1 r2 r3 U V W junk buf size :
  zstd_ok compress_bound z -> sizes heap -> (size < 100)%nat \/ (320 <= size)%nat ->
  0 <= r1 -> 0 < r2 -> 0 < r3 -> sized r1 r2 r3 U -> sized r1 r2 r3 V -> sized r1 r2 r3 W -> Z.of_nat (length junk) <= 2 ^ 52 ->
  finite_le 336 max_eb -> (forall x, In x U \/ In x V \/ In x W -> finite_le 336 x) ->
  compress_abs3 (DA lm) ftk max_eb ord ub r1 r2 r3 U V W junk = Some (buf, size) ->
  short_codes3 (enc_abs3 (DA lm) ftk max_eb) ord r1 r2 r3 U V W ->
  exists U' V' W', pipeline z heap (compress_abs3 (DA lm) ftk max_eb ord ub r1 r2 r3 U V W junk) (decompress_abs3 (DA lm) r1 r2 r3) = Some (U', V', W') /\
    length U' = length U /\ length V' = length V /\ length W' = length W /\
    (forall p u v w u' v' w', aget U p = Some u -> aget V p = Some v -> aget W p = Some w ->
      aget U' p = Some u' -> aget V' p = Some v' -> aget W' p = Some w' ->
      let b := (B2R 53 1024 max_eb * (1 + bpow radix2 (-40)))%R in
      (u' = u /\ v' = v /\ w' = w) \/ (differs_lt b u u' /\ differs_lt b v v' /\ differs_lt b w w')) /\
    forall a b d e, tet r1 r2 r3 [a; b; d; e] -> check_cp3 (DA lm) ftk U V W r2 r3 a b d e = Some true ->
    forall x, In x [a; b; d; e] ->
      aget U' (lin3 r2 r3 x) = aget U (lin3 r2 r3 x) /\ aget V' (lin3 r2 r3 x) = aget V (lin3 r2 r3 x) /\
      aget W' (lin3 r2 r3 x) = aget W (lin3 r2 r3 x).
Proof.
  intros HZ HH HG R1 R2 R3 SU SV SW LJ Fm Hx HC HK.
  destruct (abs3_api_double lm L ftk max_eb ord ub r1 r2 r3 U V W junk buf size) as (U' & V' & W' & HD & _ & L1 & L2 & L3 & HB); auto; try lia.
  destruct (abs3_flagged_double lm ftk max_eb ord ub r1 r2 r3 U V W junk buf size) as (U2 & V2 & W2 & HD2 & HP); auto; try lia.
  rewrite HD in HD2. injection HD2 as <- <- <-.
  destruct (abs3_fits (DA lm) ftk max_eb ord ub r1 r2 r3 U V W junk buf size ltac:(lia) HC HK) as [F1 F2].
  exists U', V', W'. split; [|split; [auto|split; [auto|split; auto]]]. rewrite HC, pipeline_id; auto. lia.
Qed.

(** test/sz_compress_cp_preserve_3d_test.cpp:28-44. *)
Theorem program_3d_float (lm : Libm binary32 binary64) (L : libm_ok (FA lm) (FA_ieee lm)) z heap ftk max_eb ord ub r1 r2 r3 U V W junk buf size :
  zstd_ok compress_bound z -> sizes heap -> (size < 100)%nat \/ (320 <= size)%nat ->
  0 <= r1 -> 0 < r2 -> 0 < r3 -> sized r1 r2 r3 U -> sized r1 r2 r3 V -> sized r1 r2 r3 W -> Z.of_nat (length junk) <= 2 ^ 52 ->
  finite_le 38 max_eb -> (forall x, In x U \/ In x V \/ In x W -> finite_le 38 x) ->
  compress_abs3 (FA lm) ftk max_eb ord ub r1 r2 r3 U V W junk = Some (buf, size) ->
  short_codes3 (enc_abs3 (FA lm) ftk max_eb) ord r1 r2 r3 U V W ->
  exists U' V' W', pipeline z heap (compress_abs3 (FA lm) ftk max_eb ord ub r1 r2 r3 U V W junk) (decompress_abs3 (FA lm) r1 r2 r3) = Some (U', V', W') /\
    length U' = length U /\ length V' = length V /\ length W' = length W /\
    (forall p u v w u' v' w', aget U p = Some u -> aget V p = Some v -> aget W p = Some w ->
      aget U' p = Some u' -> aget V' p = Some v' -> aget W' p = Some w' ->
      let b := (B2R 53 1024 max_eb * (1 + bpow radix2 (-40)))%R in
      (u' = u /\ v' = v /\ w' = w) \/ (differs_lt b u u' /\ differs_lt b v v' /\ differs_lt b w w')) /\
    forall a b d e, tet r1 r2 r3 [a; b; d; e] -> check_cp3 (FA lm) ftk U V W r2 r3 a b d e = Some true ->
    forall x, In x [a; b; d; e] ->
      aget U' (lin3 r2 r3 x) = aget U (lin3 r2 r3 x) /\ aget V' (lin3 r2 r3 x) = aget V (lin3 r2 r3 x) /\
      aget W' (lin3 r2 r3 x) = aget W (lin3 r2 r3 x).
Proof.
  intros HZ HH HG R1 R2 R3 SU SV SW LJ Fm Hx HC HK.
  destruct (abs3_api_float lm L ftk max_eb ord ub r1 r2 r3 U V W junk buf size) as (U' & V' & W' & HD & _ & L1 & L2 & L3 & HB); auto; try lia.
  destruct (abs3_flagged_float lm ftk max_eb ord ub r1 r2 r3 U V W junk buf size) as (U2 & V2 & W2 & HD2 & HP); auto; try lia.
  rewrite HD in HD2. injection HD2 as <- <- <-.
  destruct (abs3_fits (FA lm) ftk max_eb ord ub r1 r2 r3 U V W junk buf size ltac:(lia) HC HK) as [F1 F2].
  exists U', V', W'. split; [|split; [auto|split; [auto|split; auto]]]. rewrite HC, pipeline_id; auto. lia.
Qed.

(** A heap of zeros, the storing Zstd, and runs of both programs. *)
Definition heap0 (n : Z) : list Z := repeat 0 (Z.to_nat n).
Lemma heap0_ok : sizes heap0.
Proof. intros n. unfold heap0. rewrite repeat_length. lia. Qed.
Lemma store20_ok : zstd_ok (fun n => n + 20) (store (fun n => n + 20)).
Proof. apply store_ok. intros. lia. Qed.
Lemma lossless_example : zstd_ok compress_bound store0 /\ zstd_ok (fun n => n + 20) (store (fun n => n + 20)) /\ sizes heap0 /\
  lossless_compress store0 heap0 1 3 [5; 6; 7] = (Some ([5; 6; 7] ++ repeat 0 197), 3).
Proof. split; [exact store0_ok|]. split; [exact store20_ok|]. split; [exact heap0_ok|]. vm_compute. reflexivity. Qed.
Lemma program_2d_example : (exists buf, compress_sz3 (DA (lm64 true)) true two ord0 ub0 6 6 U6 V6 (repeat 0 576) = Some (buf, 380%nat)) /\
  (320 <= 380)%nat /\ Z.of_nat (length (repeat 0 576)) <= 2 ^ 52.
Proof. split; [apply (sz3_example true true)|]. split; [lia|vm_compute; discriminate]. Qed.
Lemma program_3d_example : (exists buf, compress_abs3 (DA (lm64 false)) ftk0 ex_eb ord0 ub0 2 2 6 ex3U ex3V ex3W (repeat 0 576) = Some (buf, 337%nat)) /\
  (320 <= 337)%nat /\ Z.of_nat (length (repeat 0 576)) <= 2 ^ 52.
Proof. split; [apply ex3_ok|]. split; [lia|vm_compute; discriminate]. Qed.
