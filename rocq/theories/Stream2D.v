(** Byte-level agreement of the 2D online codecs and their decompressor. *)
From Coq Require Import List ZArith Lia Bool Arith.
From Coq Require Import ZifyBool ZifyNat.
From Verif Require Import Base Huffman HuffStream HuffProps Stream Arith Mesh2D Derive2D Codec2D Sync2D.
Import ListNotations.
Local Open Scope Z_scope.

Lemma tser_array_nil_inv A l : ser_ok A -> (length l <= length (tser_array A l))%nat.
Proof. intros HS. rewrite tser_array_length by auto. pose proof (tsize_pos _ HS). nia. Qed.

(** Both Huffman arrays of a code have code words of at most 64 bits. *)
Definition code_words_64 {X} (ord : queue -> bool) (c : code X) : Prop :=
  max_code_64 ord 2048 (c_eb c) /\ max_code_64 ord 131072 (c_q c).

(** From the bytes to the loop of the decompressor; the block may have any size. *)
Theorem pieces_decode (A : Arith) ord ub r1 r2 U' V' c dU dV junk buf size :
  ser_ok A -> length (c_eb c) = (2 * Z.to_nat (r1 * r2))%nat -> length (c_q c) = (2 * Z.to_nat (r1 * r2))%nat ->
  dec_loop A (dec_point A 4 (eps_double A) intv_radius r2) (scan2 r1 r2)
           (repeat None (Z.to_nat (r1 * r2))) (repeat None (Z.to_nat (r1 * r2))) c = Some (dU, dV) ->
  written dU = Some U' -> written dV = Some V' ->
  code_words_64 ord c -> Z.of_nat (length junk) < 2 ^ 64 ->
  write_pieces ord ub (stream_pieces A c) junk 0 = Some (buf, size) ->
  decompress_online A r1 r2 (firstn size buf) = Some (U', V').
Proof.
  intros HS Le Lq ED WU WV [K1 K2] HJ HW.
  assert (HF : Forall (piece_ok ord) (stream_pieces A c)).
  { unfold stream_pieces, capacity. change (2 * 65536) with 131072. repeat apply Forall_cons; try apply Forall_nil; cbn [piece_ok]; auto; split; auto; lia. }
  pose proof (write_pieces_spec ord ub _ junk 0 buf size HJ HF ltac:(lia) HW) as (_ & _ & cs0 & HC0 & _ & HP & HE0).
  destruct (write_pieces_bytes ord ub _ _ _ _ HJ HF HW) as (cs & HC & EF).
  assert (Hcnt : Z.of_nat (length (c_unp c)) < 2 ^ 64).
  { assert (HL : (length (concat cs0) <= length junk)%nat) by lia. clear - HC0 HL HS HJ.
    unfold stream_pieces in HC0. inv_forall2. cbn [concat] in HL. rewrite !app_length in HL.
    pose proof (tser_array_nil_inv A (c_unp c) HS). lia. }
  clear HC0 cs0 HP.
  rewrite EF. unfold stream_pieces in HC. inv_forall2. cbn [concat]. unfold decompress_online.
  rewrite read_s32_app by lia. cbn [bind].
  rewrite take_bytes_app by apply (dser_length _ HS). cbn [bind].
  rewrite read_s32_app by (unfold intv_radius; lia). cbn [bind].
  rewrite read_le_app by (change (256 ^ Z.of_nat 8) with (2 ^ 64); lia). cbn [bind].
  rewrite Nat2Z.id. rewrite tread_array_app by auto. cbn [bind].
  match goal with H : forall rest, huffman_decode_tree_and_data (length (c_eb c)) _ = _ |- _ => rewrite Le in H; rewrite H end.
  cbn [bind].
  match goal with H : forall rest, huffman_decode_tree_and_data (length (c_q c)) _ = _ |- _ => rewrite Lq in H; rewrite H end.
  cbn [bind].
  replace {| c_eb := c_eb c; c_q := c_q c; c_unp := c_unp c |} with c by (destruct c; reflexivity).
  rewrite (ddes_dser _ HS), ED. cbn [bind]. rewrite WU. cbn [bind]. rewrite WV. reflexivity.
Qed.

Theorem pieces_round_trip (A : Arith) req abs_eb ord ub r1 r2 U V U' V' c junk buf size :
  ser_ok A -> 0 <= r1 -> 0 < r2 -> Z.of_nat (length U) = r1 * r2 -> Z.of_nat (length V) = r1 * r2 ->
  enc_field A req abs_eb r1 r2 U V = Some (U', V', c) ->
  code_words_64 ord c -> Z.of_nat (length junk) < 2 ^ 64 ->
  write_pieces ord ub (stream_pieces A c) junk 0 = Some (buf, size) ->
  decompress_online A r1 r2 (firstn size buf) = Some (U', V').
Proof.
  intros HS H1 H2 LU LV HE HC HJ HW.
  destruct (field_sync A _ _ _ _ _ _ _ _ _ H1 H2 LU LV HE) as (Le & Lq & LU' & LV' & dU & dV & ED & WU & WV).
  exact (pieces_decode A ord ub r1 r2 U' V' c dU dV junk buf size HS Le Lq ED WU WV HC HJ HW).
Qed.

Theorem stream_round_trip (A : Arith) req abs_eb ord ub r1 r2 U V U' V' c junk buf size :
  ser_ok A -> 0 <= r1 -> 0 < r2 -> Z.of_nat (length U) = r1 * r2 -> Z.of_nat (length V) = r1 * r2 ->
  enc_field A req abs_eb r1 r2 U V = Some (U', V', c) ->
  code_words_64 ord c -> Z.of_nat (length junk) < 2 ^ 64 ->
  write_stream A ord ub (r1 * r2) c junk = Some (buf, size) ->
  decompress_online A r1 r2 (firstn size buf) = Some (U', V').
Proof.
  intros HS H1 H2 LU LV HE HC HJ HW. unfold write_stream in HW.
  destruct (Z.of_nat (length junk) =? 2 * (r1 * r2) * Z.of_nat (tsize_of A)) eqn:EJ; [|discriminate].
  exact (pieces_round_trip A req abs_eb ord ub r1 r2 U V U' V' c junk buf size HS H1 H2 LU LV HE HC HJ HW).
Qed.
