(** Consequences about the entropy coder in the form used by the property files, the model of
    encode_withTree/decode_withTree, and the refutations for long code words. *)
From Coq Require Import List ZArith Lia Bool Arith Permutation.
From Coq Require Import ZifyBool ZifyNat.
From Verif Require Import Base Huffman HuffQueue HuffCode HuffRound HuffStream.
Import ListNotations.
Local Open Scope Z_scope.
Ltac Zify.zify_post_hook ::= Z.div_mod_to_equations.

(** init (sz_huffman.cpp:195-213): tree and code table for the data [s] (either order of the two removals). *)
Definition huff_init (ord : queue -> bool) (ub : Z -> Z -> Z) (sn : Z) (s : list Z) : option (tree * table) :=
  let* t := build_tree ord sn s in
  let* tb := build_code ub sn [] t 0 0 0 in
  Some (t, tb).

(** The code word stored for a symbol: the [cout] leading bits of its first code unit
    (sz_huffman.cpp:152-187; meaningful for at most 64 bits). *)
Definition code_word (tb : table) (c : Z) : option (list bool) :=
  match lookup tb c with
  | Some e => Some (map (fun k => Z.testbit (code0 e) (63 - Z.of_nat k)) (seq 0 (Z.to_nat (cout e))))
  | None => None
  end.

Definition alphabet_ok (sn : Z) (s : list Z) : Prop := forall c, In c s -> 0 <= c < sn.

Definition is_prefix (a b : list bool) : Prop := exists r, b = a ++ r.

(** Total number of code bits of a message. *)
Fixpoint message_bits (tb : table) (s : list Z) : Z :=
  match s with
  | [] => 0
  | c :: s' => (match lookup tb c with Some e => cout e | None => 0 end) + message_bits tb s'
  end.

Lemma alphabet_symbols_ok sn s : alphabet_ok sn s -> symbols_ok (2 * sn) s = true.
Proof. intros H. apply symbols_ok_spec. intros c Hc. specialize (H c Hc). lia. Qed.

Lemma huff_init_spec ord ub sn s :
  s <> [] -> alphabet_ok sn s -> max_code_64 ord sn s ->
  exists t tb, huff_init ord ub sn s = Some (t, tb) /\ build_tree ord sn s = Some t /\
    code_table ub sn t = Some tb /\ (height t <= 64)%nat /\ NoDup (leaves t) /\
    (forall c, In c (leaves t) <-> In c s) /\ (forall c, In c (leaves t) -> 0 <= c < sn) /\
    (forall c, ~ In c (leaves t) -> lookup tb c = None) /\
    (forall c bs, path t bs c -> exists e, lookup tb c = Some e /\ entry_ok e bs).
Proof.
  intros Hne Hal H64.
  destruct (build_tree_spec ord sn s Hne (alphabet_symbols_ok _ _ Hal)) as (t & Ht & Hnd & Hin).
  pose proof (H64 t Ht) as Hh.
  assert (Hr : forall c, In c (leaves t) -> 0 <= c < sn) by (intros c Hc; apply Hal, Hin, Hc).
  destruct (code_table_spec ub sn t Hh Hnd Hr) as (tb & Etb & H1 & H2).
  exists t, tb. unfold huff_init. rewrite Ht. cbn [bind]. unfold code_table in Etb. rewrite Etb.
  split; [reflexivity|]. split; [auto|]. split; [exact Etb|]. auto 10.
Qed.

Lemma bitat_skipn buf p k : bitat (skipn p buf) k = bitat buf (8 * p + k).
Proof.
  unfold bitat. rewrite nth_error_skipn'.
  replace ((8 * p + k) / 8)%nat with (p + k / 8)%nat by lia.
  replace ((8 * p + k) mod 8)%nat with (k mod 8)%nat by lia. reflexivity.
Qed.


Lemma nth_error_firstn_lt {A} (l : list A) n k : (k < n)%nat -> nth_error (firstn n l) k = nth_error l k.
Proof.
  revert l k; induction n; intros l k H; [lia|]. destruct l; [reflexivity|]. destruct k; simpl; auto.
  apply IHn. lia.
Qed.

Lemma bitat_firstn buf n k : (k < 8 * n)%nat -> bitat (firstn n buf) k = bitat buf k.
Proof.
  intros H. unfold bitat. rewrite nth_error_firstn_lt; auto. lia.
Qed.

Lemma codes_bits tb s B : codes tb s B -> Z.of_nat (length B) = message_bits tb s.
Proof.
  induction 1; cbn [message_bits length]; auto.
  rewrite app_length. rewrite H. destruct H0 as [-> _]. lia.
Qed.

Lemma ceil8_div b : 0 <= b -> ceil8 b = (b + 7) / 8.
Proof. intros. pose proof (ceil8_spec b). lia. Qed.

(** C01 *)
Theorem entropy_round_trip ord ub sn s :
  s <> [] -> alphabet_ok sn s -> max_code_64 ord sn s ->
  exists t tb, huff_init ord ub sn s = Some (t, tb) /\
    forall buf p, Z.of_nat p + (message_bits tb s + 7) / 8 + 8 <= Z.of_nat (length buf) ->
      exists buf' sz, encode ub tb s buf p = Some (buf', sz) /\
        decode (firstn (Z.to_nat sz) (skipn p buf')) (length s) t = Some s.
Proof.
  intros Hne Hal H64.
  destruct (huff_init_spec ord ub sn s Hne Hal H64)
    as (t & tb & Ei & Et & Etb & Hh & Hnd & Hin & Hr & H1 & H2).
  exists t, tb. split; auto. intros buf p Hcap.
  destruct (encode_decode_tree ub sn t s buf p) as (tb' & B & Etb' & HC & HP & Henc & Htot); auto.
  { intros; apply Hin; auto. }
  rewrite Etb in Etb'. apply Some_inj in Etb'. subst tb'.
  pose proof (codes_bits _ _ _ HC) as HB. rewrite <- HB in Hcap.
  rewrite <- ceil8_div in Hcap by lia.
  destruct (Htot Hcap) as (buf' & sz & E). exists buf', sz. split; auto.
  destruct (Henc _ _ E) as (Hsz & Hlen & _ & _ & Hbits).
  pose proof (ceil8_spec (Z.of_nat (length B))) as Hc8.
  destruct (bits_prefix (firstn (Z.to_nat sz) (skipn p buf')) 0 B) as [r Hr0].
  { intros k Hk. rewrite bitat_firstn by lia. rewrite bitat_skipn.
    replace (8 * p + (8 * 0 + k))%nat with (8 * p + k)%nat by lia. apply Hbits. auto. }
  eapply decode_paths; eauto.
Qed.

(** C04 *)
Theorem entropy_size_exact ord ub sn s t tb buf p buf' sz :
  s <> [] -> alphabet_ok sn s -> max_code_64 ord sn s ->
  huff_init ord ub sn s = Some (t, tb) -> encode ub tb s buf p = Some (buf', sz) ->
  sz = (message_bits tb s + 7) / 8 /\ length buf' = length buf /\
  (forall k, (k < p)%nat -> nth_error buf' k = nth_error buf k) /\
  (forall k, Z.of_nat p + sz + 8 <= Z.of_nat k -> nth_error buf' k = nth_error buf k).
Proof.
  intros Hne Hal H64 Ei0 E.
  destruct (huff_init_spec ord ub sn s Hne Hal H64)
    as (t' & tb' & Ei & Et & Etb & Hh & Hnd & Hin & Hr & H1 & H2).
  rewrite Ei0 in Ei. apply Some_inj in Ei. inversion Ei; subst t' tb'.
  destruct (encode_decode_tree ub sn t s buf p) as (tb' & B & Etb' & HC & HP & Henc & Htot); auto.
  { intros; apply Hin; auto. }
  rewrite Etb in Etb'. apply Some_inj in Etb'. subst tb'.
  destruct (Henc _ _ E) as (Hsz & Hlen & Hb & Ha & _).
  rewrite ceil8_div in Hsz by lia. rewrite (codes_bits _ _ _ HC) in Hsz. auto.
Qed.

(** ** Prefix code *)
Lemma code_word_ok tb c e bs : lookup tb c = Some e -> entry_ok e bs -> code_word tb c = Some bs.
Proof.
  intros Hl (Hc & H64 & _ & Hb). unfold code_word. rewrite Hl, Hc, Nat2Z.id. f_equal.
  destruct bs as [|b bs]; [reflexivity|]. specialize (Hb ltac:(discriminate)).
  apply nth_error_ext'. intros i.
  destruct (Nat.lt_ge_cases i (length (b :: bs))) as [Hi|Hi].
  - rewrite nth_error_map. rewrite (nth_error_nth' (seq 0 (length (b :: bs))) _ 0%nat) by (rewrite seq_length; auto).
    rewrite seq_nth by auto. cbn [option_map Nat.add]. rewrite Hb by lia.
    symmetry. apply nth_error_nth'. auto.
  - rewrite (proj2 (nth_error_None _ _)) by (rewrite map_length, seq_length; auto).
    symmetry. apply nth_error_None. auto.
Qed.

Lemma path_prefix t : forall bs bs' c c', path t bs c -> path t bs' c' -> is_prefix bs bs' -> c = c' /\ bs = bs'.
Proof.
  induction t as [x|l IHl r IHr]; intros bs bs' c c' H H' HP.
  - inversion H; inversion H'; subst. auto.
  - inversion H as [|? ? b1 ? P1|? ? b1 ? P1]; subst; inversion H' as [|? ? b2 ? P2|? ? b2 ? P2]; subst;
      destruct HP as [rr E]; cbn [app] in E; try discriminate; injection E as E.
    + destruct (IHl b1 b2 c c' P1 P2 (ex_intro _ rr E)) as [-> ->]. auto.
    + destruct (IHr b1 b2 c c' P1 P2 (ex_intro _ rr E)) as [-> ->]. auto.
Qed.

Lemma path_complete t : forall (f : nat -> bool) o,
  exists c bs, path t bs c /\ bs = map f (seq o (length bs)).
Proof.
  induction t as [x|l IHl r IHr]; intros f o.
  - exists x, []. split; [apply path_leaf|reflexivity].
  - destruct (f o) eqn:E.
    + destruct (IHr f (S o)) as (c & bs & Hp & Hbs). exists c, (true :: bs). split.
      * apply path_right; auto.
      * cbn [length seq map]. rewrite E. f_equal. exact Hbs.
    + destruct (IHl f (S o)) as (c & bs & Hp & Hbs). exists c, (false :: bs). split.
      * apply path_left; auto.
      * cbn [length seq map]. rewrite E. f_equal. exact Hbs.
Qed.

(** C03 *)
Theorem complete_prefix_code ord ub sn s :
  s <> [] -> alphabet_ok sn s -> max_code_64 ord sn s ->
  exists t tb, huff_init ord ub sn s = Some (t, tb) /\
    (forall c, In c s <-> exists w, code_word tb c = Some w) /\
    (forall c c' w w', c <> c' -> code_word tb c = Some w -> code_word tb c' = Some w' -> ~ is_prefix w w') /\
    (forall f : nat -> bool, exists c w, code_word tb c = Some w /\ w = map f (seq 0 (length w))).
Proof.
  intros Hne Hal H64.
  destruct (huff_init_spec ord ub sn s Hne Hal H64)
    as (t & tb & Ei & Et & Etb & Hh & Hnd & Hin & Hr & H1 & H2).
  assert (HW : forall c bs, path t bs c -> code_word tb c = Some bs).
  { intros c bs Hp. destruct (H2 c bs Hp) as (e & He & Hok). eapply code_word_ok; eauto. }
  assert (HW' : forall c w, code_word tb c = Some w -> path t w c).
  { intros c w Hw. destruct (in_dec Z.eq_dec c (leaves t)) as [Hc|Hc].
    - destruct (in_path _ _ Hc) as [bs Hp]. rewrite (HW _ _ Hp) in Hw. congruence.
    - unfold code_word in Hw. rewrite H1 in Hw by auto. discriminate. }
  exists t, tb. split; [auto|]. split; [|split].
  - intros c. split.
    + intros Hc. apply Hin in Hc. destruct (in_path _ _ Hc) as [bs Hp]. eauto.
    + intros [w Hw]. apply HW' in Hw. apply Hin. eapply path_in; eauto.
  - intros c c' w w' Hcc Hw Hw' Hp. apply HW' in Hw. apply HW' in Hw'.
    destruct (path_prefix t _ _ _ _ Hw Hw' Hp). auto.
  - intros f. destruct (path_complete t f 0) as (c & bs & Hp & Hbs). exists c, bs. auto.
Qed.

(** ** Streams always produced when the buffer is large enough *)

(** Bytes needed by one self-describing array: header, tree, size field, code bytes. *)
Definition tree_bytes (t : tree) : Z :=
  1 + Z.of_nat (tsize t) * (2 * Z.of_nat (idx_width (Z.of_nat (tsize t))) + 5).
Definition stream_bytes (t : tree) (tb : table) (s : list Z) : Z :=
  20 + tree_bytes t + (message_bits tb s + 7) / 8.

Theorem huffman_stream_total ord ub sn s buf pos :
  1 <= sn <= 2 ^ 26 -> s <> [] -> alphabet_ok sn s -> max_code_64 ord sn s ->
  exists t tb, huff_init ord ub sn s = Some (t, tb) /\
   (Z.of_nat pos + stream_bytes t tb s + 8 <= Z.of_nat (length buf) ->
    exists buf', huffman_encode_tree_and_data ord ub sn s buf pos
                 = Some (buf', (pos + Z.to_nat (stream_bytes t tb s))%nat)).
Proof.
  intros Hsn Hne Hal H64.
  destruct (huff_init_spec ord ub sn s Hne Hal H64)
    as (t & tb & Ei & Et & Etb & Hh & Hnd & Hin & Hr & H1 & H2).
  exists t, tb. split; [auto|]. intros Hcap. unfold huffman_encode_tree_and_data.
  rewrite Et. cbn [bind]. unfold code_table in Etb. rewrite Etb. cbn [bind].
  rewrite (code_count_spec sn t tb Hnd Hr H1 H2).
  pose proof (tsize_leaves t) as Hsz.
  replace (2 * Z.of_nat (length (leaves t)) - 1) with (Z.of_nat (tsize t)) by lia.
  assert (Hlv : (length (leaves t) <= Z.to_nat sn)%nat).
  { replace (Z.to_nat sn) with (length (zrange 0 sn)).
    - apply NoDup_incl_length; auto. intros c Hc. apply in_zrange. auto.
    - unfold zrange. replace (sn - 0) with sn by lia. generalize 0.
      induction (Z.to_nat sn); intros; simpl; auto. }
  destruct (tree_round_trip t) as (tbytes & Etr & Hlen & _); [lia|intros c Hc; specialize (Hr c Hc); lia|].
  rewrite Etr. cbn [bind].
  assert (Hw : (idx_width (Z.of_nat (tsize t)) <= 4)%nat).
  { unfold idx_width. destruct (_ <=? _); [lia|]. destruct (_ <=? _); lia. }
  assert (Hts : Z.of_nat (length tbytes) < 2 ^ 32) by (rewrite Hlen; nia).
  rewrite (Z.mod_small (Z.of_nat (length tbytes))) by lia.
  rewrite Nat2Z.id, firstn_all.
  assert (HT : Z.of_nat (length tbytes) = tree_bytes t).
  { rewrite Hlen. unfold tree_bytes. lia. }
  unfold stream_bytes in *. rewrite <- HT in *. clear HT Hlen Hts Etr Hlv Hsz.
  destruct (encode_decode_tree ub sn t s buf pos) as (tb' & B & Etb' & HC & _); auto.
  { intros; apply Hin; auto. }
  unfold code_table in Etb'. rewrite Etb in Etb'. apply Some_inj in Etb'. subst tb'.
  pose proof (codes_bits _ _ _ HC) as HB.
  pose proof store_ok as ST.
  destruct (ST pos (le_bytes 8 (Z.of_nat (tsize t))) buf) as (b1 & -> & L1); [rewrite le_bytes_length; lia|]. cbn [bind].
  destruct (ST (pos + 8)%nat (le_bytes 4 (Z.of_nat (length tbytes))) b1) as (b2 & -> & L2); [rewrite le_bytes_length; lia|]. cbn [bind].
  destruct (ST (pos + 12)%nat tbytes b2) as (b3 & -> & L3); [lia|]. cbn [bind].
  destruct (encode_decode_tree ub sn t s b3 (pos + 12 + length tbytes + 8)) as (tb' & B' & Etb' & HC' & HP & Henc & Htot); auto.
  { intros; apply Hin; auto. }
  unfold code_table in Etb'. rewrite Etb in Etb'. apply Some_inj in Etb'. subst tb'.
  pose proof (codes_bits _ _ _ HC') as HB'.
  destruct Htot as (b4 & sz & E4). { rewrite ceil8_div by lia. lia. }
  rewrite E4. cbn [bind]. destruct (Henc _ _ E4) as (Hsz & L4 & _).
  rewrite ceil8_div in Hsz by lia. rewrite HB' in Hsz.
  destruct (ST (pos + 12 + length tbytes)%nat (le_bytes 8 sz) b4) as (b5 & -> & L5); [rewrite le_bytes_length; lia|]. cbn [bind].
  exists b5. f_equal. f_equal. lia.
Qed.

(** ** encode_withTree / decode_withTree *)

(** sz_huffman.cpp: intToBytes_bigEndian / bytesToInt_bigEndian (lines 26-45). *)
Definition be32 (x : Z) : list Z := rev (le_bytes 4 x).
(** src/sz_huffman.cpp:34-53 bytesToInt_bigEndian. *)
Definition read_be32 (s : list Z) : option (Z * list Z) :=
  let* (b, r) := take_bytes 4 s in Some (le_val (rev b), r).

(** sz_huffman.cpp:651-677.  [junk] is the content of the malloc'ed block; only its first
    length*sizeof(int)+treeByteSize bytes belong to the block. *)
Definition encode_with_tree (ord : queue -> bool) (ub : Z -> Z -> Z) (sn : Z) (s : list Z) (junk : list Z)
  : option (list Z * Z) :=
  let* (t, tb) := huff_init ord ub sn s in
  let nodeCount := 2 * code_count sn tb - 1 in
  let* treeBytes := convert_tree nodeCount t in
  let tsz := length treeBytes in
  let out := firstn (4 * length s + tsz) junk in
  check* (length out =? 4 * length s + tsz)%nat in
  let* b1 := store 0 (be32 nodeCount) out in
  let* b2 := store 4 (be32 (sn / 2)) b1 in
  let* b3 := store 8 treeBytes b2 in
  let* (b4, sz) := encode ub tb s b3 (8 + tsz) in
  Some (b4, 8 + Z.of_nat tsz + sz).

(** sz_huffman.cpp:683-707 (the bytes after [s] may be anything, the decoder only needs enough of them). *)
Definition decode_with_tree (num : nat) (s : list Z) : option (list Z) :=
  let* (nodeCount, s1) := read_be32 s in
  let* (_, s2) := take_bytes 4 s1 in
  let* root := reconstruct_tree nodeCount s2 in
  let start := if nodeCount <=? 256 then 1 + 3 * nodeCount + nodeCount * 4
               else if nodeCount <=? 65536 then 1 + 2 * nodeCount * 2 + nodeCount + nodeCount * 4
               else 1 + 3 * nodeCount * 4 + nodeCount in
  let* (_, s3) := take_bytes (Z.to_nat start) s2 in
  decode s3 num root.

Lemma be32_length x : length (be32 x) = 4%nat.
Proof. unfold be32. rewrite rev_length, le_bytes_length. reflexivity. Qed.

Lemma read_be32_app x r : 0 <= x < 2 ^ 32 -> read_be32 (be32 x ++ r) = Some (x, r).
Proof.
  intros H. unfold read_be32. rewrite take_bytes_app by apply be32_length. cbn [bind].
  unfold be32. rewrite rev_involutive, le_val_bytes_small; [reflexivity|].
  change (256 ^ Z.of_nat 4) with (2 ^ 32). auto.
Qed.

Lemma holds_split buf p bs : holds buf p bs -> (p + length bs <= length buf)%nat ->
  skipn p buf = bs ++ skipn (p + length bs) buf.
Proof.
  intros H Hl. rewrite <- (holds_firstn _ _ _ H) at 1.
  rewrite <- (firstn_skipn (length bs) (skipn p buf)) at 1. f_equal.
  rewrite skipn_skipn'. reflexivity.
Qed.

Theorem with_tree_round_trip ord ub sn s junk out sz :
  1 <= sn <= 2 ^ 26 -> s <> [] -> alphabet_ok sn s -> max_code_64 ord sn s ->
  encode_with_tree ord ub sn s junk = Some (out, sz) ->
  decode_with_tree (length s) (firstn (Z.to_nat sz) out) = Some s.
Proof.
  intros Hsn Hne Hal H64 H.
  destruct (huff_init_spec ord ub sn s Hne Hal H64)
    as (t & tb & Ei & Et & Etb & Hh & Hnd & Hin & Hr & H1 & H2).
  unfold encode_with_tree in H. rewrite Ei in H. cbn [bind] in H.
  rewrite (code_count_spec sn t tb Hnd Hr H1 H2) in H.
  pose proof (tsize_leaves t) as Hsz.
  replace (2 * Z.of_nat (length (leaves t)) - 1) with (Z.of_nat (tsize t)) in H by lia.
  assert (Hlv : (length (leaves t) <= Z.to_nat sn)%nat).
  { replace (Z.to_nat sn) with (length (zrange 0 sn)).
    - apply NoDup_incl_length; auto. intros c Hc. apply in_zrange. auto.
    - unfold zrange. replace (sn - 0) with sn by lia. generalize 0.
      induction (Z.to_nat sn); intros; simpl; auto. }
  destruct (tree_round_trip t) as (tbytes & Etr & Hlen & Hrec); [lia|intros c Hc; specialize (Hr c Hc); lia|].
  rewrite Etr in H. cbn [bind] in H.
  destruct (_ =? _)%nat in H; [|discriminate].
  inv_bind H. rename a into b1, Ha into S1. inv_bind H. rename a into b2, Ha into S2.
  inv_bind H. rename a into b3, Ha into S3. inv_bind H. destruct a as [b4 sz'].
  rename Ha into S4. apply Some_inj in H.
  assert (HE : out = b4 /\ sz = 8 + Z.of_nat (length tbytes) + sz') by (split; congruence).
  destruct HE as [-> ->]. clear H.
  destruct (encode_decode_tree ub sn t s b3 (8 + length tbytes)) as (tb' & B & Etb' & HC & HP & Henc & _); auto.
  { intros; apply Hin; auto. }
  rewrite Etb in Etb'. apply Some_inj in Etb'. subst tb'.
  destruct (Henc _ _ S4) as (Hsz4 & L4 & Hbef & _ & Hbits). clear Henc.
  assert (Hh3 : holds b3 0 (be32 (Z.of_nat (tsize t)) ++ be32 (sn / 2) ++ tbytes)).
  { rewrite !holds_app, !be32_length. cbn [Nat.add]. split; [|split].
    - eapply store_preserves; [exact S3|rewrite be32_length; left; lia|].
      eapply store_preserves; [exact S2|rewrite be32_length; left; lia|]. eapply store_holds; eauto.
    - eapply store_preserves; [exact S3|rewrite be32_length; left; lia|]. eapply store_holds; eauto.
    - eapply store_holds; eauto. }
  assert (Hl3 : (8 + length tbytes <= length b3)%nat).
  { pose proof (proj1 (store_nth _ _ _ _ 0 S3)) as E3. rewrite E3.
    destruct tbytes as [|b tbs].
    - pose proof (proj1 (store_nth _ _ _ _ 0 S2)) as E2. rewrite E2.
      apply store_Some in S2; [|destruct (be32 (sn/2)) eqn:E; [|discriminate]; pose proof (be32_length (sn/2)); rewrite E in *; discriminate].
      rewrite be32_length in S2. simpl. lia.
    - apply store_Some in S3; [|discriminate]. lia. }
  assert (Hh4 : holds b4 0 (be32 (Z.of_nat (tsize t)) ++ be32 (sn / 2) ++ tbytes)).
  { intros k Hk. rewrite Hbef; [apply Hh3; auto|]. rewrite !app_length, !be32_length in Hk. lia. }
  pose proof (ceil8_spec (Z.of_nat (length B))) as Hc8.
  set (hd := be32 (Z.of_nat (tsize t)) ++ be32 (sn / 2) ++ tbytes) in *.
  assert (Hhd : length hd = (8 + length tbytes)%nat) by (unfold hd; rewrite !app_length, !be32_length; lia).
  assert (Hb4 : b4 = hd ++ skipn (8 + length tbytes) b4).
  { pose proof (holds_split b4 0 hd Hh4) as Hs. rewrite Hhd in Hs. apply Hs. lia. }
  replace (Z.to_nat (8 + Z.of_nat (length tbytes) + sz')) with (length hd + Z.to_nat sz')%nat by lia.
  rewrite Hb4 at 1. rewrite firstn_app_2. unfold hd. rewrite <- !app_assoc.
  unfold decode_with_tree. rewrite read_be32_app by lia. cbn [bind].
  rewrite take_bytes_app by apply be32_length. cbn [bind].
  rewrite Hrec. cbn [bind].
  rewrite take_bytes_app.
  2:{ rewrite Hlen. unfold idx_width. destruct (_ <=? 256); [lia|]. destruct (_ <=? 65536); lia. }
  cbn [bind].
  destruct (bits_prefix (firstn (Z.to_nat sz') (skipn (8 + length tbytes) b4)) 0 B) as [r Hr0].
  { intros k Hk. rewrite bitat_firstn by lia. rewrite bitat_skipn.
    replace (8 * (8 + length tbytes) + (8 * 0 + k))%nat with (8 * (8 + length tbytes) + k)%nat by lia.
    apply Hbits. auto. }
  eapply decode_paths; eauto.
Qed.

(** One symbol: the block is four bytes too short for the header and the tree. *)
Theorem with_tree_overflow_refuted :
  exists sn s, s <> [] /\ alphabet_ok sn s /\
    forall ord ub junk, max_code_64 ord sn s /\ encode_with_tree ord ub sn s junk = None.
Proof.
  exists 4, [1]. split; [discriminate|]. split; [intros c [<-|[]]; lia|].
  intros ord ub junk. split.
  - apply few_symbols_max_code. simpl. lia.
  - assert (E : huff_init ord ub 4 [1]
                = Some (Leaf 1, [(1, {| code0 := shl64 ub 0 64; code1 := 0; cout := 0 |})])) by reflexivity.
    unfold encode_with_tree. rewrite E. cbn [bind].
    change (code_count 4 _) with 1. change (convert_tree (2 * 1 - 1) (Leaf 1)) with (Some [0; 0; 0; 1; 0; 0; 0; 1]).
    cbn [bind length Nat.mul Nat.add]. destruct (length (firstn 12 junk) =? 12)%nat eqn:EL; [|reflexivity].
    apply Nat.eqb_eq in EL. set (o := firstn 12 junk) in *. clearbody o.
    do 12 (destruct o as [|? o]; [discriminate EL|]). destruct o; [|discriminate EL].
    reflexivity.
Qed.

(** ** Code words longer than 64 bits *)

(** A vine: leaf [k] hangs at depth [k+1]. *)
Fixpoint vine (n : nat) (c : Z) : tree :=
  match n with O => Leaf c | S n' => Node (Leaf c) (vine n' (c + 1)) end.

(** The encoder's branch for long code words reports a wrong size and garbles the message: a 67-leaf vine,
    any value of the undefined shifts. *)
Theorem long_codes_refuted :
  exists t tb s buf buf' sz,
    NoDup (leaves t) /\ (forall c, In c s -> In c (leaves t)) /\
    code_table (fun _ _ => 0) 128 t = Some tb /\
    encode (fun _ _ => 0) tb s buf 0 = Some (buf', sz) /\
    sz <> (message_bits tb s + 7) / 8 /\
    decode buf' (length s) t <> Some s.
Proof.
  exists (vine 66 0).
  assert (E : exists tb, code_table (fun _ _ => 0) 128 (vine 66 0) = Some tb).
  { vm_compute. eexists. reflexivity. }
  destruct (code_table (fun _ _ => 0) 128 (vine 66 0)) as [tb|] eqn:Etb; [|destruct E; discriminate].
  exists tb, [3; 66; 1], (repeat 0 100).
  vm_compute in Etb. apply Some_inj in Etb. subst tb.
  eexists _, _. split; [|split; [|split; [reflexivity|split; [vm_compute; reflexivity|split]]]].
  - change (leaves (vine 66 0)) with (zseq 0 67). apply NoDup_zseq.
  - intros c Hc. change (leaves (vine 66 0)) with (zseq 0 67). apply in_zseq. simpl in Hc. lia.
  - vm_compute. discriminate.
  - vm_compute. discriminate.
Qed.

(** The queue does not hand out minima: for the data below the code is longer than an optimal one. *)
Definition skewed : list Z := [0; 1; 2; 2; 2; 2; 2; 3; 4; 5; 5; 5].

(** Cost of the code: total bits.  The comparison code is the fixed prefix code
    {2:0, 5:10, 0:1100, 1:1101, 3:1110, 4:1111}. *)
Theorem optimality_refuted :
  exists s t tb, s <> [] /\ alphabet_ok 8 s /\
    huff_init (fun _ => true) (fun _ _ => 0) 8 s = Some (t, tb) /\
    exists w : Z -> list bool,
      (forall c c', In c s -> In c' s -> c <> c' -> ~ is_prefix (w c) (w c')) /\
      fold_right (fun c a => Z.of_nat (length (w c)) + a) 0 s < message_bits tb s.
Proof.
  exists skewed.
  destruct (huff_init (fun _ => true) (fun _ _ => 0) 8 skewed) as [[t tb]|] eqn:E; [|vm_compute in E; discriminate].
  exists t, tb. split; [discriminate|]. split; [|split; [reflexivity|]].
  - intros c Hc. simpl in Hc. lia.
  - exists (fun c => if c =? 2 then [false] else if c =? 5 then [true; false]
           else if c =? 0 then [true; true; false; false] else if c =? 1 then [true; true; false; true]
           else if c =? 3 then [true; true; true; false] else [true; true; true; true]).
    split.
    + assert (HI : forall c, In c skewed -> c = 0 \/ c = 1 \/ c = 2 \/ c = 3 \/ c = 4 \/ c = 5)
        by (intros c Hc; simpl in Hc; lia).
      intros c c' Hc Hc' Hne [r Hr]. apply HI in Hc. apply HI in Hc'.
      destruct Hc as [->|[->|[->|[->|[->| ->]]]]], Hc' as [->|[->|[->|[->|[->| ->]]]]];
        simpl in Hr; try discriminate; lia.
    + vm_compute in E. apply Some_inj in E. inversion E; subst. vm_compute. reflexivity.
Qed.
