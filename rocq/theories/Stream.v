(** Output streams: a sequence of write_variable_to_dst / write_array_to_dst / Huffman_encode_tree_and_data calls
    on one malloc'ed block (include/sz_compression_utils.hpp:35-47, src/sz_compression_utils.cpp:61-82). *)
From Coq Require Import List ZArith Lia Bool Arith.
From Coq Require Import ZifyBool ZifyNat.
From Verif Require Import Base Huffman HuffQueue HuffCode HuffRound HuffStream HuffProps.
Import ListNotations.
Local Open Scope Z_scope.

Inductive piece :=
| Raw (bs : list Z)               (* memcpy of these bytes, position advances by their number *)
| Huff (sn : Z) (s : list Z).     (* Huffman_encode_tree_and_data(sn, s, ...) *)

Fixpoint write_pieces (ord : queue -> bool) (ub : Z -> Z -> Z) (ps : list piece) (buf : list Z) (pos : nat)
  : option (list Z * nat) :=
  match ps with
  | [] => Some (buf, pos)
  | Raw bs :: ps' =>
      let* b := store pos bs buf in write_pieces ord ub ps' b (pos + length bs)
  | Huff sn s :: ps' =>
      let* (b, p) := huffman_encode_tree_and_data ord ub sn s buf pos in write_pieces ord ub ps' b p
  end.

(** What a reader finds for a piece. *)
Inductive chunk_of : piece -> list Z -> Prop :=
| chunk_raw bs : chunk_of (Raw bs) bs
| chunk_huff sn s chunk :
    (forall rest, huffman_decode_tree_and_data (length s) (chunk ++ rest) = Some (s, rest)) ->
    chunk_of (Huff sn s) chunk.

(** Hypotheses on the symbol arrays: declared state count in the range used by the code, no code word
    longer than 64 bits. *)
Definition piece_ok (ord : queue -> bool) (p : piece) : Prop :=
  match p with
  | Raw _ => True
  | Huff sn s => 1 <= sn <= 2 ^ 26 /\ max_code_64 ord sn s
  end.

Lemma store_length_eq p bs m m' : store p bs m = Some m' -> length m' = length m.
Proof. intros H. apply (store_nth _ _ _ _ 0 H). Qed.

Lemma store_bound p bs m m' : store p bs m = Some m' -> bs <> [] -> (p + length bs <= length m)%nat.
Proof. intros. eapply store_Some; eauto. Qed.

Theorem write_pieces_spec ord ub ps : forall buf pos buf' pos',
  Z.of_nat (length buf) < 2 ^ 64 -> Forall (piece_ok ord) ps -> (pos <= length buf)%nat ->
  write_pieces ord ub ps buf pos = Some (buf', pos') ->
  length buf' = length buf /\ (forall k, (k < pos)%nat -> nth_error buf' k = nth_error buf k) /\
  exists cs, Forall2 chunk_of ps cs /\ holds buf' pos (concat cs) /\ (pos' = pos + length (concat cs))%nat /\
             (pos' <= length buf)%nat.
Proof.
  induction ps as [|p ps IH]; intros buf pos buf' pos' HB HF Hpos H; cbn [write_pieces] in H.
  - apply Some_inj in H. inversion H; subst. split; auto. split; auto. exists [].
    split; [constructor|]. split; [intros k Hk; simpl in Hk; lia|]. simpl. lia.
  - inversion HF as [|? ? Hp HF']; subst. destruct p as [bs|sn s].
    + bind_as H b Hs. pose proof (store_length_eq _ _ _ _ Hs) as HL.
      assert (Hpos' : (pos + length bs <= length b)%nat).
      { destruct bs as [|x bs]; [simpl in *; apply Some_inj in Hs; subst; lia|].
        rewrite HL. eapply store_bound; eauto. discriminate. }
      destruct (IH b (pos + length bs)%nat buf' pos') as (L & Hk & cs & HC & HH & HP & HE);
        [lia|auto|auto|auto|].
      split; [lia|]. split.
      * intros k Hlt. rewrite Hk by lia. rewrite (proj2 (store_nth _ _ _ _ k Hs)).
        replace ((pos <=? k)%nat) with false by lia. reflexivity.
      * exists (bs :: cs). split; [constructor; [constructor|auto]|]. cbn [concat].
        rewrite app_length. split; [|split; [lia|lia]].
        rewrite holds_app. split; [|auto].
        intros k Hlt. rewrite Hk by lia. apply (store_holds _ _ _ _ Hs). auto.
    + bind_as H [b p] Hh. destruct Hp as [Hsn H64].
      destruct (huffman_stream_round_trip _ _ _ _ _ _ _ _ Hsn HB H64 Hh) as (L1 & L2 & Hb & _ & ch & H1 & H2 & H3).
      destruct (IH b p buf' pos') as (L & Hk & cs & HC & HH & HP & HE); [lia|auto|lia|auto|].
      split; [lia|]. split.
      * intros k Hlt. rewrite Hk by lia. apply Hb. auto.
      * exists (ch :: cs). split; [constructor; [constructor; auto|auto]|]. cbn [concat].
        rewrite app_length. split; [|split; [lia|lia]].
        rewrite holds_app. split; [|subst p; auto].
        intros k Hlt. rewrite Hk by lia. apply H1. auto.
Qed.

(** Hence the bytes up to the reported size are exactly the chunks. *)
Corollary write_pieces_bytes ord ub ps buf buf' pos' :
  Z.of_nat (length buf) < 2 ^ 64 -> Forall (piece_ok ord) ps ->
  write_pieces ord ub ps buf 0 = Some (buf', pos') ->
  exists cs, Forall2 chunk_of ps cs /\ firstn pos' buf' = concat cs.
Proof.
  intros HB HF H.
  destruct (write_pieces_spec ord ub ps buf 0 buf' pos' HB HF ltac:(lia) H) as (_ & _ & cs & HC & HH & HP & _).
  exists cs. split; auto. apply holds_firstn in HH. cbn [skipn] in HH. subst pos'. exact HH.
Qed.

(** Number of bytes of a piece, and success when there is room for 8 bytes more than the total. *)
Definition piece_size_ok (ord : queue -> bool) (ub : Z -> Z -> Z) (p : piece) (n : Z) : Prop :=
  match p with
  | Raw bs => n = Z.of_nat (length bs)
  | Huff sn s => exists t tb, huff_init ord ub sn s = Some (t, tb) /\ n = stream_bytes t tb s
  end.

Definition piece_good (ord : queue -> bool) (p : piece) : Prop :=
  match p with
  | Raw _ => True
  | Huff sn s => 1 <= sn <= 2 ^ 26 /\ s <> [] /\ alphabet_ok sn s /\ max_code_64 ord sn s
  end.

Lemma message_bits_nonneg tb s : (forall c e, lookup tb c = Some e -> 0 <= cout e) -> 0 <= message_bits tb s.
Proof.
  intros H. induction s as [|c s IH]; cbn [message_bits]; [lia|].
  destruct (lookup tb c) eqn:E; [specialize (H _ _ E)|]; lia.
Qed.

Lemma stream_bytes_nonneg ord ub sn s t tb :
  s <> [] -> alphabet_ok sn s -> max_code_64 ord sn s -> huff_init ord ub sn s = Some (t, tb) ->
  0 <= stream_bytes t tb s.
Proof.
  intros Hne Hal H64 E. unfold stream_bytes, tree_bytes.
  destruct (huff_init_spec ord ub sn s Hne Hal H64) as (t' & tb' & E' & _ & _ & _ & _ & _ & _ & G1 & G2).
  rewrite E in E'. apply Some_inj in E'. inversion E'; subst.
  assert (0 <= message_bits tb s).
  { apply message_bits_nonneg. intros c e He. destruct (in_dec Z.eq_dec c (leaves t)) as [Hc|Hc].
    - destruct (in_path _ _ Hc) as [bs Hbs]. destruct (G2 _ _ Hbs) as (e' & He' & Hok & _). rewrite He in He'.
      apply Some_inj in He'. subst. lia.
    - rewrite G1 in He by auto. discriminate. }
  pose proof (Z.div_pos (message_bits tb s + 7) 8). nia.
Qed.

Lemma piece_size_nonneg ord ub p n : piece_good ord p -> piece_size_ok ord ub p n -> 0 <= n.
Proof.
  destruct p; cbn [piece_good piece_size_ok]; [lia|]. intros (_ & ? & ? & ?) (t & tb & E & ->).
  eapply stream_bytes_nonneg; eauto.
Qed.

Theorem write_pieces_total ord ub ps : forall ns buf pos,
  Forall (piece_good ord) ps -> Forall2 (piece_size_ok ord ub) ps ns -> Z.of_nat (length buf) < 2 ^ 64 ->
  Z.of_nat pos + fold_right Z.add 0 ns + 8 <= Z.of_nat (length buf) ->
  exists buf', write_pieces ord ub ps buf pos = Some (buf', (pos + Z.to_nat (fold_right Z.add 0%Z ns))%nat).
Proof.
  induction ps as [|p ps IH]; intros ns buf pos HF HN HB Hcap; inversion HN as [|? n ? ns' Hn HN']; subst;
    cbn [write_pieces fold_right] in *.
  - exists buf. f_equal. f_equal. lia.
  - inversion HF as [|? ? Hp HF']; subst.
    pose proof (piece_size_nonneg _ _ _ _ Hp Hn) as Hn0.
    assert (Hsum : 0 <= fold_right Z.add 0 ns').
    { clear - HF' HN'. revert HF'. induction HN' as [|p n ps ns Hn HN IH]; intros HF; cbn [fold_right]; [lia|].
      inversion HF; subst. pose proof (piece_size_nonneg ord ub p n). intuition lia. }
    destruct p as [bs|sn s]; cbn [piece_size_ok piece_good] in *.
    + subst n. destruct (store_ok pos bs buf) as (b & E & _); [lia|].
      rewrite E. cbn [bind]. pose proof (store_length_eq _ _ _ _ E) as L.
      destruct (IH ns' b (pos + length bs)%nat HF' HN') as (buf' & E'); [lia|lia|].
      exists buf'. rewrite E'. f_equal. f_equal. lia.
    + destruct Hn as (t & tb & Ei & ->). destruct Hp as (Hsn & Hne & Hal & H64).
      destruct (huffman_stream_total ord ub sn s buf pos Hsn Hne Hal H64) as (t' & tb' & E' & HT).
      rewrite Ei in E'. apply Some_inj in E'. inversion E'; subst t' tb'.
      destruct HT as (b & Eb); [lia|]. rewrite Eb. cbn [bind].
      destruct (huffman_stream_round_trip _ _ _ _ _ _ _ _ Hsn HB H64 Eb) as (L1 & L2 & _).
      destruct (IH ns' b (pos + Z.to_nat (stream_bytes t tb s))%nat HF' HN') as (buf' & E''); [lia|lia|].
      exists buf'. rewrite E''. f_equal. f_equal. lia.
Qed.

Lemma chunk_raw_inv bs c : chunk_of (Raw bs) c -> c = bs.
Proof. intros H. inversion H. reflexivity. Qed.
Lemma chunk_huff_inv sn s c : chunk_of (Huff sn s) c ->
  forall rest, huffman_decode_tree_and_data (length s) (c ++ rest) = Some (s, rest).
Proof. intros H. inversion H. assumption. Qed.
Lemma Forall2_cons_ex {X Y} (R : X -> Y -> Prop) x l m : Forall2 R (x :: l) m ->
  exists y m', m = y :: m' /\ R x y /\ Forall2 R l m'.
Proof. intros H. inversion H; subst. eauto. Qed.
Lemma Forall2_nil_ex {X Y} (R : X -> Y -> Prop) m : Forall2 R [] m -> m = [].
Proof. intros H. inversion H; subst. auto. Qed.

(** Inversion of [Forall2 chunk_of [..] cs] without reducing the pieces. *)
Ltac inv_forall2 :=
  repeat match goal with
  | H : Forall2 _ (_ :: _) _ |- _ =>
      let y := fresh "ch" in let m := fresh "cs" in let E := fresh "E" in let H1 := fresh "HC" in
      apply Forall2_cons_ex in H; destruct H as (y & m & E & H1 & H); subst
  | H : Forall2 _ [] _ |- _ => apply Forall2_nil_ex in H; subst
  | H : chunk_of (Raw _) _ |- _ => apply chunk_raw_inv in H; subst
  | H : chunk_of (Huff _ _) _ |- _ => pose proof (chunk_huff_inv _ _ _ H); clear H
  end.
