(** Property theorems C01-C06, C26: entropy coder, sign maps, integer helper. *)
From Coq Require Import List ZArith Lia Bool Arith.
From Verif Require Import Base Huffman HuffQueue HuffCode HuffRound HuffStream HuffProps BitPack.
Import ListNotations.
Local Open Scope Z_scope.

(** C01.  Any non-empty symbol sequence whose code words have at most 64 bits is encoded (into any buffer with
    room for the code bytes plus 8) and decoded from exactly the reported bytes.  [ord]: evaluation order of the
    two queue removals; [ub]: results of undefined shifts. *)
Theorem C01_entropy_lossless : forall ord ub sn s,
  s <> [] -> alphabet_ok sn s -> max_code_64 ord sn s ->
  exists t tb, huff_init ord ub sn s = Some (t, tb) /\
    forall buf p, Z.of_nat p + (message_bits tb s + 7) / 8 + 8 <= Z.of_nat (length buf) ->
      exists buf' sz, encode ub tb s buf p = Some (buf', sz) /\
        decode (firstn (Z.to_nat sz) (skipn p buf')) (length s) t = Some s.
Proof. exact entropy_round_trip. Qed.
Print Assumptions C01_entropy_lossless.

(** At most 65 distinct symbols always satisfy the hypothesis on code lengths. *)
Theorem C01_few_symbols : forall ord sn s,
  (length (nodup Z.eq_dec s) <= 65)%nat -> max_code_64 ord sn s.
Proof. exact few_symbols_max_code. Qed.
Print Assumptions C01_few_symbols.

Example C01_nonvacuous : forall ord,
  let s := [3; 1; 4; 1; 5; 9; 2; 6; 5; 3; 5] in
  s <> [] /\ alphabet_ok 16 s /\ max_code_64 ord 16 s.
Proof.
  intros ord s. split; [discriminate|]. split.
  - intros c Hc. simpl in Hc. lia.
  - apply C01_few_symbols. simpl. lia.
Qed.

(** Code words longer than 64 bits (tree given directly): wrong size, wrong symbols. *)
Theorem C01_long_codes_refuted :
  exists t tb s buf buf' sz,
    NoDup (leaves t) /\ (forall c, In c s -> In c (leaves t)) /\
    code_table (fun _ _ => 0) 128 t = Some tb /\
    encode (fun _ _ => 0) tb s buf 0 = Some (buf', sz) /\
    sz <> (message_bits tb s + 7) / 8 /\
    decode buf' (length s) t <> Some s.
Proof. exact long_codes_refuted. Qed.
Print Assumptions C01_long_codes_refuted.

(** C02.  Tree serialisation, followed by anything. *)
Theorem C02_tree_serialisation : forall t,
  Z.of_nat (tsize t) < 2 ^ 31 -> (forall c, In c (leaves t) -> 0 <= c < 2 ^ 32) ->
  exists bytes, convert_tree (Z.of_nat (tsize t)) t = Some bytes /\
    length bytes = (1 + tsize t * (2 * idx_width (Z.of_nat (tsize t)) + 5))%nat /\
    (forall rest, reconstruct_tree (Z.of_nat (tsize t)) (bytes ++ rest) = Some t).
Proof. exact tree_round_trip. Qed.
Print Assumptions C02_tree_serialisation.

Example C02_nonvacuous :
  let t := vine 200 0 in
  Z.of_nat (tsize t) = 401 /\ idx_width (Z.of_nat (tsize t)) = 2%nat /\
  (forall c, In c (leaves t) -> 0 <= c < 2 ^ 32).
Proof.
  split; [reflexivity|]. split; [reflexivity|]. intros c Hc.
  change (leaves (vine 200 0)) with (zseq 0 201) in Hc. apply in_zseq in Hc. lia.
Qed.

(** C03. *)
Theorem C03_complete_prefix_code : forall ord ub sn s,
  s <> [] -> alphabet_ok sn s -> max_code_64 ord sn s ->
  exists t tb, huff_init ord ub sn s = Some (t, tb) /\
    (forall c, In c s <-> exists w, code_word tb c = Some w) /\
    (forall c c' w w', c <> c' -> code_word tb c = Some w -> code_word tb c' = Some w' -> ~ is_prefix w w') /\
    (forall f : nat -> bool, exists c w, code_word tb c = Some w /\ w = map f (seq 0 (length w))).
Proof. exact complete_prefix_code. Qed.
Print Assumptions C03_complete_prefix_code.

(** The code is nevertheless not optimal: the queue is not a heap. *)
Theorem C03_optimality_refuted :
  exists s t tb, s <> [] /\ alphabet_ok 8 s /\
    huff_init (fun _ => true) (fun _ _ => 0) 8 s = Some (t, tb) /\
    exists w : Z -> list bool,
      (forall c c', In c s -> In c' s -> c <> c' -> ~ is_prefix (w c) (w c')) /\
      fold_right (fun c a => Z.of_nat (length (w c)) + a) 0 s < message_bits tb s.
Proof. exact optimality_refuted. Qed.
Print Assumptions C03_optimality_refuted.

(** C04. *)
Theorem C04_size_accounting : forall ord ub sn s t tb buf p buf' sz,
  s <> [] -> alphabet_ok sn s -> max_code_64 ord sn s ->
  huff_init ord ub sn s = Some (t, tb) -> encode ub tb s buf p = Some (buf', sz) ->
  sz = (message_bits tb s + 7) / 8 /\ length buf' = length buf /\
  (forall k, (k < p)%nat -> nth_error buf' k = nth_error buf k) /\
  (forall k, Z.of_nat p + sz + 8 <= Z.of_nat k -> nth_error buf' k = nth_error buf k).
Proof. exact entropy_size_exact. Qed.
Print Assumptions C04_size_accounting.

(** A run of the encoder to which C04 applies: 11 symbols, 29 bits, 4 bytes. *)
Example C04_nonvacuous :
  let s := [3; 1; 4; 1; 5; 9; 2; 6; 5; 3; 5] in
  exists t tb buf', huff_init (fun _ => true) (fun _ _ => 0) 16 s = Some (t, tb) /\
    encode (fun _ _ => 0) tb s (repeat 7 20) 2 = Some (buf', 4).
Proof. intros s. eexists _, _, _. split; [vm_compute; reflexivity|]. vm_compute. reflexivity. Qed.

(** C05. *)
Theorem C05_sign_maps : forall l rest,
  (1 <= length l)%nat -> Forall is_flag l ->
  unpack_flags (length l) (sign_map_size (length l)) (pack_flags l ++ rest) = Some (l, rest)
  /\ length (pack_flags l) = sign_map_size (length l).
Proof. exact flags_round_trip. Qed.
Print Assumptions C05_sign_maps.

Example C05_nonvacuous : let l := [1; 0; 0; 1; 1; 0; 1; 0; 1; 1] in
  (1 <= length l)%nat /\ Forall is_flag l /\ sign_map_size (length l) = 2%nat.
Proof.
  split; [simpl; lia|]. split; [|reflexivity].
  repeat (constructor; [first [left; reflexivity | right; reflexivity]|]). constructor.
Qed.

(** C06. *)
Theorem C06_stream_round_trip : forall ord ub sn s buf pos buf' pos',
  1 <= sn <= 2 ^ 26 -> Z.of_nat (length buf) < 2 ^ 64 -> max_code_64 ord sn s ->
  huffman_encode_tree_and_data ord ub sn s buf pos = Some (buf', pos') ->
  length buf' = length buf /\ (pos <= pos' <= length buf)%nat /\
  (forall k, (k < pos)%nat -> nth_error buf' k = nth_error buf k) /\
  (forall k, (pos' + 8 <= k)%nat -> nth_error buf' k = nth_error buf k) /\
  exists chunk, holds buf' pos chunk /\ (pos' = pos + length chunk)%nat /\
    forall rest, huffman_decode_tree_and_data (length s) (chunk ++ rest) = Some (s, rest).
Proof. exact huffman_stream_round_trip. Qed.
Print Assumptions C06_stream_round_trip.

(** The writer succeeds whenever there is room for the stream plus 8 bytes, and advances by its exact size. *)
Theorem C06_stream_total : forall ord ub sn s buf pos,
  1 <= sn <= 2 ^ 26 -> s <> [] -> alphabet_ok sn s -> max_code_64 ord sn s ->
  exists t tb, huff_init ord ub sn s = Some (t, tb) /\
   (Z.of_nat pos + stream_bytes t tb s + 8 <= Z.of_nat (length buf) ->
    exists buf', huffman_encode_tree_and_data ord ub sn s buf pos
                 = Some (buf', (pos + Z.to_nat (stream_bytes t tb s))%nat)).
Proof. exact huffman_stream_total. Qed.
Print Assumptions C06_stream_total.

Example C06_nonvacuous : exists buf' pos',
  huffman_encode_tree_and_data (fun _ => false) (fun _ _ => 1) 16 [3; 1; 4; 1; 5; 9; 2; 6] (repeat 0 200) 5
  = Some (buf', pos') /\ huffman_decode_tree_and_data 8 (skipn 5 buf') = Some ([3; 1; 4; 1; 5; 9; 2; 6], skipn pos' buf').
Proof. eexists _, _. split; [vm_compute; reflexivity|]. vm_compute. reflexivity. Qed.

(** The standalone pair encode_withTree/decode_withTree. *)
Theorem C06_with_tree_round_trip : forall ord ub sn s junk out sz,
  1 <= sn <= 2 ^ 26 -> s <> [] -> alphabet_ok sn s -> max_code_64 ord sn s ->
  encode_with_tree ord ub sn s junk = Some (out, sz) ->
  decode_with_tree (length s) (firstn (Z.to_nat sz) out) = Some s.
Proof. exact with_tree_round_trip. Qed.
Print Assumptions C06_with_tree_round_trip.

Example C06_with_tree_nonvacuous : exists out,
  encode_with_tree (fun _ => true) (fun _ _ => 0) 16 [3; 1; 4; 1; 3; 1; 4; 1] (repeat 9 300) = Some (out, 46).
Proof. eexists. vm_compute. reflexivity. Qed.

(** encode_withTree overruns its own allocation on short inputs. *)
Theorem C06_with_tree_overflow_refuted :
  exists sn s, s <> [] /\ alphabet_ok sn s /\
    forall ord ub junk, max_code_64 ord sn s /\ encode_with_tree ord ub sn s junk = None.
Proof. exact with_tree_overflow_refuted. Qed.
Print Assumptions C06_with_tree_overflow_refuted.

(** C26 (first half). *)
Theorem C26_round_up_power_of_2 : forall base,
  1 <= base <= 2 ^ 31 ->
  exists k, 0 <= k <= 31 /\ round_up_power_of_2 base = 2 ^ k /\ base <= 2 ^ k /\
            (forall m, 0 <= m -> base <= 2 ^ m -> 2 ^ k <= 2 ^ m).
Proof. exact round_up_power_of_2_spec. Qed.
Print Assumptions C26_round_up_power_of_2.

Example C26_nonvacuous : 1 <= 65537 <= 2 ^ 31 /\ round_up_power_of_2 65537 = 2 ^ 17.
Proof. split; [lia|reflexivity]. Qed.
