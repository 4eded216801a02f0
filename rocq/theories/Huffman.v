(** Model of src/sz_huffman.cpp (the entropy coder).  Definitions only. *)
From Coq Require Import List ZArith Lia Bool Arith.
From Verif Require Import Base.
Import ListNotations.
Local Open Scope Z_scope.

(** ** Trees and the priority queue *)

(** include/sz_huffman.hpp: struct node_t {left,right,freq,t,c}.  A node with [t]=1 is [Leaf c],
    with [t]=0 is [Node left right] (its [c] stays 0, src/sz_huffman.cpp:72,106).  The field [freq] is only
    used while the node sits in the queue, so it is kept beside the tree in [qnode]. *)
Inductive tree : Type :=
| Leaf (c : Z)
| Node (l r : tree).

(** A queue entry: (freq, node) (src/sz_huffman.cpp:92-109). *)
Definition qnode : Type := Z * tree.

(** The queue: the list holds qq[1], ..., qq[qend-1] (sz_huffman.cpp:76,79), hence qend = length + 1. *)
Definition queue := list qnode.

(** qq[i] (1-based; cell 0 lies before the allocation). *)
Definition qget (q : queue) (i : nat) : option qnode :=
  match i with O => None | S k => nth_error q k end.
(** src/sz_huffman.cpp:125,127,140,142: a write to qq[i], 1 <= i < qend. *)
Definition qset (q : queue) (i : nat) (x : qnode) : option queue :=
  match i with O => None | S k => upd k x q end.

(** sz_huffman.cpp:122-127, loop of qinsert.  [fuel] bounds the iterations; running out is [None]. *)
Fixpoint sift_up (fuel : nat) (q : queue) (i : nat) (n : qnode) : option queue :=
  match fuel with
  | O => None
  | S fuel' =>
      let j := Nat.div2 i in                                    (* j = i >> 1 *)
      if (j =? 0)%nat then qset q i n
      else
        let* m := qget q j in
        if fst m <=? fst n then qset q i n
        else let* q' := qset q i m in sift_up fuel' q' j n
  end.

(** sz_huffman.cpp:119-128 qinsert.  The new cell qq[qend] is never read before being written. *)
Definition qinsert (q : queue) (n : qnode) : option queue :=
  sift_up (S (length q)) (q ++ [n]) (S (length q)) n.

(** sz_huffman.cpp:137-141, loop of qremove; [qend] is the already decremented value.
    Returns the queue array and the final position [i] of the hole. *)
Fixpoint sift_down (fuel : nat) (q : queue) (qend i : nat) : option (queue * nat) :=
  match fuel with
  | O => None
  | S fuel' =>
      let l := (2 * i)%nat in
      if (l <? qend)%nat then
        let* a := qget q l in
        let* l' :=
          (if (l + 1 <? qend)%nat then
             let* b := qget q (l + 1) in
             Some (if fst b <? fst a then (l + 1)%nat else l)
           else Some l) in
        let* x := qget q l' in
        let* q' := qset q i x in
        sift_down fuel' q' qend l'
      else Some (q, i)
  end.

(** sz_huffman.cpp:130-144 qremove.  The last element is dropped into the hole *without* sifting it
    up, so the heap order is not maintained.  On an empty queue the code returns NULL, which its only
    caller dereferences (line 104): [None]. *)
Definition qremove (q : queue) : option (qnode * queue) :=
  let* n := qget q 1 in
  let qend := length q in                                       (* qend-- *)
  let* (q', i) := sift_down (S qend) q qend 1 in
  let* x := qget q' qend in
  let* q'' := qset q' i x in
  Some (n, firstn (qend - 1) q'').

(** sz_huffman.cpp:198-208: freq[] counting and insertion of the leaves in index order.
    Symbols are [int]s; [freq] has 2*stateNum cells, any other index is out of bounds. *)
Definition count (s : list Z) (c : Z) : Z :=
  Z.of_nat (length (filter (Z.eqb c) s)).

(** src/sz_huffman.cpp:202-203: freq[index] stays inside the allNodes counters. *)
Definition symbols_ok (n : Z) (s : list Z) : bool :=
  forallb (fun c => (0 <=? c) && (c <? n)) s.

(** src/sz_huffman.cpp:206-208. *)
Fixpoint insert_leaves (s : list Z) (cs : list Z) (q : queue) : option queue :=
  match cs with
  | [] => Some q
  | c :: cs' =>
      if 0 <? count s c then
        let* q' := qinsert q (count s c, Leaf c) in insert_leaves s cs' q'
      else insert_leaves s cs' q
  end.

(** sz_huffman.cpp:210-211: repeatedly merge the two entries handed out by qremove.
    C++ leaves the evaluation order of the two qremove calls unspecified; [ord] decides it at each step
    (it may depend on the queue).  new_node with freq=0 sums the frequencies (line 104). *)
Fixpoint merge_loop (ord : queue -> bool) (fuel : nat) (q : queue) : option queue :=
  if (length q + 1 <=? 2)%nat then Some q
  else match fuel with
  | O => None
  | S fuel' =>
      let* (n1, q1) := qremove q in
      let* (n2, q2) := qremove q1 in
      let t := if ord q then Node (snd n1) (snd n2) else Node (snd n2) (snd n1) in
      let* q3 := qinsert q2 (fst n1 + fst n2, t) in
      merge_loop ord fuel' q3
  end.

(** sz_huffman.cpp:195-213 init, tree part: the final qq[1]; [None] if there is none (empty data: NULL
    dereference in build_code). *)
Definition build_tree_loop (ord : queue -> bool) (stateNum : Z) (s : list Z) : option tree :=
  check* (symbols_ok (2 * stateNum) s) in
  let* q := insert_leaves s (zrange 0 (2 * stateNum)) [] in
  let* q' := merge_loop ord (length q) q in
  let* n := qget q' 1 in
  Some (snd n).

(** The members of a list in increasing order, each once. *)
Fixpoint uinsert (x : Z) (l : list Z) : list Z :=
  match l with
  | [] => [x]
  | y :: l' => if x <? y then x :: l else if x =? y then l else y :: uinsert x l'
  end.
Definition usort (l : list Z) : list Z := fold_right uinsert [] l.

(** The same function (HuffQueue.v, [build_tree_is_loop]), visiting only the cells of freq[] that are not zero: the loop over all
    2*stateNum cells is too slow to evaluate. *)
Definition build_tree (ord : queue -> bool) (stateNum : Z) (s : list Z) : option tree :=
  check* (symbols_ok (2 * stateNum) s) in
  let* q := insert_leaves s (usort s) [] in
  let* q' := merge_loop ord (length q) q in
  let* n := qget q' 1 in
  Some (snd n).

(** ** Code table *)

(** unsigned long arithmetic of src/sz_huffman.cpp:152-187. *)
Definition u64 (x : Z) : Z := x mod 2 ^ 64.

(** x << k on unsigned long.  For k outside 0..63 the behaviour is undefined: [ubshift x k] is an
    arbitrary result. *)
Definition shl64 (ubshift : Z -> Z -> Z) (x k : Z) : Z :=
  if (0 <=? k) && (k <? 64) then u64 (Z.shiftl x k) else u64 (ubshift x k).

(** code[c][0], code[c][1], cout[c]. *)
Record entry := { code0 : Z; code1 : Z; cout : Z }.

(** code/cout arrays (src/sz_huffman.cpp:155-166): most recent assignment first. *)
Definition table := list (Z * entry).

(** src/sz_huffman.cpp:227-228,246: code[state], cout[state]. *)
Fixpoint lookup (t : table) (c : Z) : option entry :=
  match t with
  | [] => None
  | (c', e) :: t' => if c =? c' then Some e else lookup t' c
  end.

(** sz_huffman.cpp:152-187 build_code.  [stateNum] cells: other indices are out of bounds. *)
Fixpoint build_code (ubshift : Z -> Z -> Z) (stateNum : Z) (tb : table)
         (n : tree) (len : Z) (out1 out2 : Z) : option table :=
  match n with
  | Leaf c =>
      check* ((0 <=? c) && (c <? stateNum)) in
      let e :=
        if len <=? 64
        then {| code0 := shl64 ubshift out1 (64 - len); code1 := out2; cout := len mod 256 |}
        else {| code0 := out1; code1 := shl64 ubshift out2 (128 - len); cout := len mod 256 |} in
      Some ((c, e) :: tb)
  | Node l r =>
      if Z.shiftr len 6 =? 0 then
        let o1 := shl64 ubshift out1 1 in
        let* tb1 := build_code ubshift stateNum tb l (len + 1) o1 0 in
        build_code ubshift stateNum tb1 r (len + 1) (Z.lor o1 1) 0
      else
        let o2 := if Z.eqb (len mod 64) 0 then out2 else shl64 ubshift out2 1 in
        let* tb1 := build_code ubshift stateNum tb l (len + 1) out1 o2 in
        build_code ubshift stateNum tb1 r (len + 1) out1 (Z.lor o2 1)
  end.

(** ** Encoder *)

(** sz_huffman.cpp:14-24 longToBytes_bigEndian. *)
Definition be64 (x : Z) : list Z :=
  map (fun k => Z.shiftr x k mod 256) [56; 48; 40; 32; 24; 16; 8; 0].

(** Local state of encode (sz_huffman.cpp:217-223): memory, p, *outSize, lackBits and the variable
    byteSize ([None] = uninitialised), which the > 64 bit branch reads before setting. *)
Record est := { e_buf : list Z; e_p : nat; e_out : Z; e_lack : Z; e_bsz : option Z }.

(** src/sz_huffman.cpp:242,257: bits rounded up to bytes, bits left in the last byte. *)
Definition ceil8 (b : Z) : Z := if b mod 8 =? 0 then b / 8 else b / 8 + 1.
Definition lack8 (b : Z) : Z := if b mod 8 =? 0 then 0 else 8 - b mod 8.

(** *p = ( *p ) | (unsigned char) v (src/sz_huffman.cpp:261,287,301). *)
Definition or_byte (buf : list Z) (p : nat) (v : Z) : option (list Z) :=
  let* b := nth_error buf p in upd p (Z.lor b (v mod 256)) buf.

(** sz_huffman.cpp:227-312, one iteration.  [p] is an offset into [buf]. *)
Definition encode_step (ubshift : Z -> Z -> Z) (tb : table) (st : est) (state : Z) : option est :=
  let* e := lookup tb state in
  let bitSize := cout e in
  if e_lack st =? 0 then
    let byteSize := ceil8 bitSize in
    let byteSizep := bitSize / 8 in
    if byteSize <=? 8 then                                                     (* 244-248 *)
      let* b1 := store (e_p st) (be64 (code0 e)) (e_buf st) in
      Some {| e_buf := b1; e_p := e_p st + Z.to_nat byteSizep;
              e_out := e_out st + byteSize; e_lack := lack8 bitSize; e_bsz := Some byteSize |}
    else                                                                       (* 249-255 *)
      let* b1 := store (e_p st) (be64 (code0 e)) (e_buf st) in
      let* b2 := store (e_p st + 8) (be64 (code1 e)) b1 in
      Some {| e_buf := b2; e_p := e_p st + 8 + Z.to_nat (byteSizep - 8);
              e_out := e_out st + byteSize; e_lack := lack8 bitSize; e_bsz := Some byteSize |}
  else
    let* b1 := or_byte (e_buf st) (e_p st) (Z.shiftr (code0 e) (64 - e_lack st)) in   (* 261 *)
    if e_lack st <? bitSize then
      let p1 := S (e_p st) in
      let* b2 := store p1 (be64 (shl64 ubshift (code0 e) (e_lack st))) b1 in   (* 266-267 *)
      if bitSize <=? 64 then                                                   (* 269-277 *)
        let bitSize' := bitSize - e_lack st in
        let byteSize := ceil8 bitSize' in
        Some {| e_buf := b2; e_p := p1 + Z.to_nat (bitSize' / 8);
                e_out := e_out st + byteSize; e_lack := lack8 bitSize'; e_bsz := Some byteSize |}
      else                                                                     (* 278-304 *)
        let p2 := (p1 + 7)%nat in
        let* stale := e_bsz st in
        let out1 := e_out st + stale in
        let bitSize' := bitSize - 64 in
        if e_lack st <? bitSize' then
          let* b3 := or_byte b2 p2 (Z.shiftr (code0 e) (64 - e_lack st)) in
          let p3 := S p2 in
          let* b4 := store p3 (be64 (shl64 ubshift (code1 e) (e_lack st))) b3 in
          let bitSize2 := bitSize' - e_lack st in
          let byteSize := ceil8 bitSize2 in
          Some {| e_buf := b4; e_p := p3 + Z.to_nat (bitSize2 / 8);
                  e_out := out1 + byteSize; e_lack := lack8 bitSize2; e_bsz := Some byteSize |}
        else
          let* b3 := or_byte b2 p2 (Z.shiftr (code0 e) (64 - bitSize')) in
          Some {| e_buf := b3; e_p := p2; e_out := out1;
                  e_lack := e_lack st - bitSize'; e_bsz := e_bsz st |}
    else                                                                       (* 306-311 *)
      let lack' := e_lack st - bitSize in
      Some {| e_buf := b1; e_p := if lack' =? 0 then S (e_p st) else e_p st;
              e_out := e_out st; e_lack := lack'; e_bsz := e_bsz st |}.

(** src/sz_huffman.cpp:225-313: the loop over the symbols. *)
Fixpoint encode_loop (ubshift : Z -> Z -> Z) (tb : table) (s : list Z) (st : est) : option est :=
  match s with
  | [] => Some st
  | c :: s' => let* st' := encode_step ubshift tb st c in encode_loop ubshift tb s' st'
  end.

(** sz_huffman.cpp:217-320 encode, writing at offset [p] of [buf] with *outSize = 0 initially (as at both
    call sites).  Result: memory and *outSize. *)
Definition encode (ubshift : Z -> Z -> Z) (tb : table) (s : list Z) (buf : list Z) (p : nat)
  : option (list Z * Z) :=
  let* st := encode_loop ubshift tb s
               {| e_buf := buf; e_p := p; e_out := 0; e_lack := 0; e_bsz := None |} in
  Some (e_buf st, e_out st).

(** ** Decoder *)

(** The bits of a byte in the order the decoder reads them: (b >> (7-r)) & 1 (sz_huffman.cpp:338-340). *)
Definition byte_bits (b : Z) : list bool :=
  map (fun r => Z.testbit b (7 - r)) [0; 1; 2; 3; 4; 5; 6; 7].
(** src/sz_huffman.cpp:335-340: all bits of the stream, most significant first. *)
Definition bits_of (bs : list Z) : list bool := flat_map byte_bits bs.

(** sz_huffman.cpp:335-351: one bit per iteration; [None] if the bits run out (read past the buffer). *)
Fixpoint decode_loop (t n : tree) (bits : list bool) (todo : nat) : option (list Z) :=
  match todo with
  | O => Some []
  | S todo' =>
      match bits with
      | [] => None
      | b :: bits' =>
          match n with
          | Leaf _ => None                        (* NULL child of a leaf: cannot happen, n is never a leaf *)
          | Node l r =>
              match (if b then r else l) with
              | Leaf c => let* out := decode_loop t t bits' todo' in Some (c :: out)
              | Node _ _ as n' => decode_loop t n' bits' todo
              end
          end
      end
  end.

(** sz_huffman.cpp:322-355 decode. *)
Definition decode (s : list Z) (targetLength : nat) (t : tree) : option (list Z) :=
  match t with
  | Leaf c => Some (repeat c targetLength)
  | Node _ _ => decode_loop t t (bits_of s) targetLength
  end.

(** ** Tree serialisation *)

(** Arrays L, R, C, t and the counter n_inode (src/sz_huffman.cpp:357-375,421-430). *)
Record tabs := { tL : list Z; tR : list Z; tC : list Z; tT : list Z; n_inode : Z }.

(** sz_huffman.cpp:357-415 pad_tree_uchar/ushort/uint; [m] is 2^8, 2^16, 2^32 (range of the index type). *)
Fixpoint pad_tree (m : Z) (tb : tabs) (i : nat) (root : tree) : option tabs :=
  match root with
  | Leaf c =>
      let* c' := upd i (c mod 2 ^ 32) (tC tb) in
      let* t' := upd i 1 (tT tb) in
      Some {| tL := tL tb; tR := tR tb; tC := c'; tT := t'; n_inode := n_inode tb |}
  | Node l r =>
      let* c' := upd i 0 (tC tb) in
      let* t' := upd i 0 (tT tb) in
      let k := n_inode tb + 1 in
      let* L' := upd i (k mod m) (tL tb) in
      let* tb1 := pad_tree m {| tL := L'; tR := tR tb; tC := c'; tT := t'; n_inode := k |} (Z.to_nat k) l in
      let k2 := n_inode tb1 + 1 in
      let* R' := upd i (k2 mod m) (tR tb1) in
      pad_tree m {| tL := tL tb1; tR := R'; tC := tC tb1; tT := tT tb1; n_inode := k2 |} (Z.to_nat k2) r
  end.

(** Width in bytes of L and R entries (sz_huffman.cpp:419,446,470). *)
Definition idx_width (nodeCount : Z) : nat :=
  if nodeCount <=? 256 then 1%nat else if nodeCount <=? 65536 then 2%nat else 4%nat.

(** src/sz_huffman.cpp:435-438 and its wider variants: memcpy of the arrays L, R, C, t. *)
Definition ser_array (w : nat) (l : list Z) : list Z := flat_map (le_bytes w) l.

(** sz_huffman.cpp:417-499 convert_HuffTree_to_bytes_anyStates.  sysEndianType = 0 (line 13).
    n_inode starts at 0 (line 78). *)
Definition convert_tree (nodeCount : Z) (root : tree) : option (list Z) :=
  let z := repeat 0 (Z.to_nat nodeCount) in
  let w := idx_width nodeCount in
  let* tb := pad_tree (256 ^ Z.of_nat w) {| tL := z; tR := z; tC := z; tT := z; n_inode := 0 |} 0 root in
  Some ([0] ++ ser_array w (tL tb) ++ ser_array w (tR tb) ++ ser_array 4 (tC tb) ++ ser_array 1 (tT tb)).

(** sz_huffman.cpp:501-568 unpad_tree_*: builds the node whose fields (C[i], t[i]) were already set.
    A missing child of an internal node or an index out of the arrays is [None]; so is exceeding [fuel]. *)
Fixpoint unpad_tree (fuel : nat) (L R C t : list Z) (i : nat) (c ft : Z) : option tree :=
  match fuel with
  | O => None
  | S fuel' =>
      if ft =? 0 then
        let* l := nth_error L i in
        check* (negb (l =? 0)) in
        let* cl := nth_error C (Z.to_nat l) in
        let* ftl := nth_error t (Z.to_nat l) in
        let* tl := unpad_tree fuel' L R C t (Z.to_nat l) cl ftl in
        let* r := nth_error R i in
        check* (negb (r =? 0)) in
        let* cr := nth_error C (Z.to_nat r) in
        let* ftr := nth_error t (Z.to_nat r) in
        let* tr := unpad_tree fuel' L R C t (Z.to_nat r) cr ftr in
        Some (Node tl tr)
      else Some (Leaf c)
  end.

(** src/sz_huffman.cpp:584-587 and its wider variants: memcpy into the arrays L, R, C, t. *)
Fixpoint read_array (w : nat) (n : nat) (s : list Z) : option (list Z * list Z) :=
  match n with
  | O => Some ([], s)
  | S n' =>
      let* (v, s1) := read_le w s in
      let* (vs, s2) := read_array w n' s1 in
      Some (v :: vs, s2)
  end.

(** sz_huffman.cpp:570-649 reconstruct_HuffTree_from_bytes_anyStates.  For nodeCount <= 256 the root's
    fields come from the arrays, otherwise the root is assumed internal (lines 588, 615, 641). *)
Definition reconstruct_tree (nodeCount : Z) (s : list Z) : option tree :=
  let n := Z.to_nat nodeCount in
  let w := idx_width nodeCount in
  let* (_, s0) := take_bytes 1 s in
  let* (L, s1) := read_array w n s0 in
  let* (R, s2) := read_array w n s1 in
  let* (C, s3) := read_array 4 n s2 in
  let* (t, _) := read_array 1 n s3 in
  if nodeCount <=? 256 then
    let* c := nth_error C 0 in
    let* ft := nth_error t 0 in
    unpad_tree (S n) L R C t 0 c ft
  else unpad_tree (S n) L R C t 0 0 0.

(** ** Self-describing streams (src/sz_compression_utils.cpp, src/sz_decompression_utils.cpp) *)

(** sz_compression_utils.cpp:66-67: number of non-NULL code[i] for i < state_num. *)
Definition code_count_loop (stateNum : Z) (tb : table) : Z :=
  Z.of_nat (length (filter (fun c => match lookup tb c with Some _ => true | None => false end)
                           (zrange 0 stateNum))).
(** The same number (HuffQueue.v, [code_count_is_loop]) from the table itself. *)
Definition code_count (stateNum : Z) (tb : table) : Z :=
  Z.of_nat (length (filter (fun c => (0 <=? c) && (c <? stateNum)) (usort (map fst tb)))).

(** sz_compression_utils.cpp:61-82 Huffman_encode_tree_and_data: writes into [buf] at [pos], returns the
    memory and the advanced position.  node_count is passed as [int] to the tree writer; it is below 2^31 for
    every possible state count here.  tree_size is an [unsigned int]. *)
Definition huffman_encode_tree_and_data (ord : queue -> bool) (ubshift : Z -> Z -> Z)
           (stateNum : Z) (s : list Z) (buf : list Z) (pos : nat) : option (list Z * nat) :=
  let* t := build_tree ord stateNum s in
  let* tb := build_code ubshift stateNum [] t 0 0 0 in
  let node_count := 2 * code_count stateNum tb - 1 in
  let* tree_structure := convert_tree node_count t in
  let tree_size := Z.of_nat (length tree_structure) mod 2 ^ 32 in
  let* b1 := store pos (le_bytes 8 node_count) buf in
  let* b2 := store (pos + 8) (le_bytes 4 tree_size) b1 in
  let* b3 := store (pos + 12) (firstn (Z.to_nat tree_size) tree_structure) b2 in
  let pos1 := (pos + 12 + Z.to_nat tree_size)%nat in
  let* (b4, sz) := encode ubshift tb s b3 (pos1 + 8) in
  let* b5 := store pos1 (le_bytes 8 sz) b4 in
  Some (b5, (pos1 + 8 + Z.to_nat sz)%nat).

(** sz_decompression_utils.cpp:92-108 Huffman_decode_tree_and_data: the symbols and the rest of the stream. *)
Definition huffman_decode_tree_and_data (num : nat) (s : list Z) : option (list Z * list Z) :=
  let* (node_count, s1) := read_le 8 s in
  let* (tree_size, s2) := read_le 4 s1 in
  let* root := reconstruct_tree node_count s2 in
  let* (_, s3) := take_bytes (Z.to_nat tree_size) s2 in
  let* (sz, s4) := read_le 8 s3 in
  let* out := decode s4 num root in
  let* (_, s5) := take_bytes (Z.to_nat sz) s4 in
  Some (out, s5).
