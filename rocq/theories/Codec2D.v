(** The 2D online codecs sz_compress_cp_preserve_2d_online and ..._online_abs
    (src/sz_compress_cp_preserve_2d.cpp:545-714, 989-1242) and their common decompressor
    sz_decompress_cp_preserve_2d_online (src/sz_decompress_cp_preserve_2d.cpp:109-165), for any arithmetic.
    [transpose] is unused by the code. *)
From Coq Require Import List ZArith Bool.
From Verif Require Import Base Huffman Stream Arith Mesh2D Derive2D.
Import ListNotations.
Local Open Scope Z_scope.

(** What one grid point contributes to the three output arrays eb_quant_index, data_quant_index, unpred_data (src/sz_compress_cp_preserve_2d.cpp:553-562). *)
Record code (X : Type) := { c_eb : list Z; c_q : list Z; c_unp : list X }.
Arguments c_eb {X}. Arguments c_q {X}. Arguments c_unp {X}.

Definition code_app {X} (a b : code X) : code X :=
  {| c_eb := c_eb a ++ c_eb b; c_q := c_q a ++ c_q b; c_unp := c_unp a ++ c_unp b |}.
Definition code_nil {X} : code X := {| c_eb := []; c_q := []; c_unp := [] |}.

Section Codec.
Context (A : Arith).
Local Notation T := (T A).
Local Notation D := (D A).

(** 560-561. *)
Definition capacity : Z := 65536.
(** src/sz_compress_cp_preserve_2d.cpp:560-561. *)
Definition intv_radius : Z := 32768.

(** 641-644: Lorenzo prediction from the working array [w]. *)
Definition lorenzo (w : list T) (r2 i j : Z) : option T :=
  let p := i * r2 + j in
  let* e0 := (if (negb (i =? 0)) && (negb (j =? 0)) then aget w (p - 1 - r2) else Some (t0 A)) in
  let* e1 := (if negb (i =? 0) then aget w (p - r2) else Some (t0 A)) in
  let* e2 := (if negb (j =? 0) then aget w (p - 1) else Some (t0 A)) in
  Some (tsub A (tadd A e1 e2) e0).

(** pred + 2 * (quant_index - intv_radius) * abs_eb, converted to T
    (compressor line 651, decompressor line 155). *)
Definition recon (pred : T) (radius q : Z) (eb : D) : T :=
  d2t A (dadd A (t2d A pred) (dmul A (dofZ A (2 * (q - radius))) eb)).

(** Result of trying to predict one component (src/sz_compress_cp_preserve_2d.cpp:635-663). *)
Inductive attempt := Fail                        (* unpredictable *)
                   | Coded (q : Z) (dec : T).

(** 645-661: quantisation of the prediction error and check of the reconstruction. *)
Definition quantise (pred cur : T) (abs_eb : D) : option attempt :=
  let diff := t2d A (tsub A cur pred) in
  let quant_diff := dadd A (ddiv A (dabs A diff) abs_eb) (dofZ A 1) in
  if dlt A quant_diff (dofZ A capacity) then
    let quant_diff := if dlt A (dofZ A 0) diff then quant_diff else dneg A quant_diff in
    let* h := dtoint A (ddiv A quant_diff (dofZ A 2)) in
    let q := h + intv_radius in
    let dec := recon pred intv_radius q abs_eb in
    if dle A abs_eb (t2d A (tabs A (tsub A dec cur))) then Some Fail else Some (Coded q dec)
  else Some Fail.

(** State of the loop over k (629-664): [None] means unpred_flag with break. *)
Definition try_component (base : Z) (threshold : D) (w : list T) (r2 i j : Z) (cur : T) (eb0 : D)
  : option (Z * option attempt) :=
  let* (id, abs_eb) := eb_exponential_quantize A base threshold eb0 in
  if 0 <? id then
    let* pred := lorenzo w r2 i j in
    let* a := quantise pred cur abs_eb in Some (id, Some a)
  else Some (id, None).

(** Code of a point stored verbatim (666-672, 683-689). *)
Definition verbatim (u v : T) : code T :=
  {| c_eb := [0; 0]; c_q := [intv_radius; intv_radius]; c_unp := [u; v] |}.

(** 609-692: one grid point.  [req] computes required_eb, [abs_eb] turns it into the bound for a component.
    Result: new U, new V, emitted code. *)
Definition enc_point (req : list T -> list T -> Z -> Z -> Z -> Z -> option D) (abs_eb : T -> D -> D)
           (base : Z) (threshold : D) (r1 r2 : Z) (U V : list T) (ij : Z * Z)
  : option (list T * list T * code T) :=
  let '(i, j) := ij in
  let p := i * r2 + j in
  let* u := aget U p in
  let* v := aget V p in
  let* required_eb := req U V r1 r2 i j in
  if dlt A (dofZ A 0) required_eb then
    let* (id0, a0) := try_component base threshold U r2 i j u (abs_eb u required_eb) in
    match a0 with
    | Some Fail => Some (U, V, verbatim u v)                                   (* break at k = 0 *)
    | _ =>
        let* (id1, a1) := try_component base threshold V r2 i j v (abs_eb v required_eb) in
        match a0, a1 with
        | Some (Coded q0 x0), Some (Coded q1 x1) =>
            let* U' := aset U p x0 in
            let* V' := aset V p x1 in
            Some (U', V', {| c_eb := [id0; id1]; c_q := [q0; q1]; c_unp := [] |})
        | _, _ => Some (U, V, verbatim u v)
        end
    end
  else Some (U, V, verbatim u v).

(** src/sz_compress_cp_preserve_2d.cpp:604-695: the two loops over the points. *)
Fixpoint enc_loop (step : list T -> list T -> Z * Z -> option (list T * list T * code T))
         (pts : list (Z * Z)) (U V : list T) : option (list T * list T * code T) :=
  match pts with
  | [] => Some (U, V, code_nil)
  | ij :: pts' =>
      let* (U1, V1, c) := step U V ij in
      let* (U2, V2, cs) := enc_loop step pts' U1 V1 in
      Some (U2, V2, code_app c cs)
  end.

(** Both compressors up to the three arrays: final working copies and code.  base = 4, threshold =
    numeric_limits<double>::epsilon() (558, 602). *)
Definition enc_field req abs_eb (r1 r2 : Z) (U V : list T) :=
  enc_loop (enc_point req abs_eb 4 (eps_double A) r1 r2) (scan2 r1 r2) U V.

(** 621, 632: relative bound. *)
Definition enc_online (max_eb : D) :=
  enc_field (required_eb_rel A max_eb) (fun cur eb => dmul A (t2d A (tabs A cur)) eb).
(** 1070, 1082: absolute bound. *)
Definition enc_online_abs (max_eb : D) :=
  enc_field (required_eb_abs A max_eb) (fun _ eb => eb).

(** 699-713: output stream.  [junk]: the malloc'ed block; its length must be 2*n*sizeof(T). *)
Definition stream_pieces (c : code T) : list piece :=
  [ Raw (le_bytes 4 4);                                     (* base *)
    Raw (dser A (eps_double A));                            (* threshold *)
    Raw (le_bytes 4 intv_radius);
    Raw (le_bytes 8 (Z.of_nat (length (c_unp c))));         (* unpredictable_count *)
    Raw (tser_array A (c_unp c));
    Huff 2048 (c_eb c);                                     (* 2*1024 *)
    Huff (2 * capacity) (c_q c) ].
(** src/sz_compress_cp_preserve_2d.cpp:699-712: the stream. *)
Definition write_stream (ord : queue -> bool) (ub : Z -> Z -> Z) (n : Z) (c : code T) (junk : list Z)
  : option (list Z * nat) :=
  check* (Z.of_nat (length junk) =? 2 * n * Z.of_nat (tsize_of A)) in
  write_pieces ord ub (stream_pieces c) junk 0.

(** Whole compressors (src/sz_compress_cp_preserve_2d.cpp:545-714, 989-1242): (memory block, compressed_size). *)
Definition compress_with (enc : Z -> Z -> list T -> list T -> option (list T * list T * code T))
           ord ub (r1 r2 : Z) (U V : list T) (junk : list Z) : option (list Z * nat) :=
  let* (_, _, c) := enc r1 r2 U V in
  write_stream ord ub (r1 * r2) c junk.

(** src/sz_compress_cp_preserve_2d.cpp:545-714 and 989-1242. *)
Definition compress_online (max_eb : D) := compress_with (enc_online max_eb).
Definition compress_online_abs (max_eb : D) := compress_with (enc_online_abs max_eb).

(** ** Decompressor *)

(** decompressor lines 151-154 on partially written arrays. *)
Definition lorenzo_dec (w : list (option T)) (r2 i j : Z) : option T :=
  let p := i * r2 + j in
  let* e0 := (if (negb (i =? 0)) && (negb (j =? 0)) then uget w (p - 1 - r2) else Some (t0 A)) in
  let* e1 := (if negb (i =? 0) then uget w (p - r2) else Some (t0 A)) in
  let* e2 := (if negb (j =? 0) then uget w (p - 1) else Some (t0 A)) in
  Some (tsub A (tadd A e1 e2) e0).

(** 147-156, one component. *)
Definition dec_component (base : Z) (threshold : D) (radius : Z) (w : list (option T)) (r2 i j : Z) (id q : Z)
  : option (list (option T)) :=
  let eb := dmul A (dpow A base id) threshold in
  let* pred := lorenzo_dec w r2 i j in
  aset w (i * r2 + j) (Some (recon pred radius q eb)).

(** 138-162: one grid point; consumes from the three arrays. *)
Definition dec_point (base : Z) (threshold : D) (radius r2 : Z)
           (U V : list (option T)) (c : code T) (ij : Z * Z)
  : option (list (option T) * list (option T) * code T) :=
  let '(i, j) := ij in
  let p := i * r2 + j in
  match c_eb c, c_q c with
  | id0 :: id1 :: ebs, q0 :: q1 :: qs =>
      if id0 =? 0 then
        match c_unp c with
        | u :: v :: un =>
            let* U' := aset U p (Some u) in
            let* V' := aset V p (Some v) in
            Some (U', V', {| c_eb := ebs; c_q := qs; c_unp := un |})
        | _ => None
        end
      else
        let* U' := dec_component base threshold radius U r2 i j id0 q0 in
        let* V' := dec_component base threshold radius V r2 i j id1 q1 in
        Some (U', V', {| c_eb := ebs; c_q := qs; c_unp := c_unp c |})
  | _, _ => None
  end.

(** src/sz_decompress_cp_preserve_2d.cpp:138-162: the two loops over the points. *)
Fixpoint dec_loop (step : list (option T) -> list (option T) -> code T -> Z * Z ->
                          option (list (option T) * list (option T) * code T))
         (pts : list (Z * Z)) (U V : list (option T)) (c : code T)
  : option (list (option T) * list (option T)) :=
  match pts with
  | [] => Some (U, V)
  | ij :: pts' => let* (U1, V1, c1) := step U V c ij in dec_loop step pts' U1 V1 c1
  end.

(** Reading a completely written array (what a caller of the decompressors does). *)
Fixpoint written {X} (l : list (option X)) : option (list X) :=
  match l with
  | [] => Some []
  | Some x :: l' => let* r := written l' in Some (x :: r)
  | None :: _ => None
  end.

(** 109-165. *)
Definition decompress_online (r1 r2 : Z) (s : list Z) : option (list T * list T) :=
  let n := Z.to_nat (r1 * r2) in
  let* (base, s1) := read_s32 s in
  let* (tb, s2) := take_bytes 8 s1 in
  let threshold := ddes A tb in
  let* (radius, s3) := read_s32 s2 in
  let* (cnt, s4) := read_le 8 s3 in
  let* (unp, s5) := tread_array A (Z.to_nat cnt) s4 in
  let* (ebs, s6) := huffman_decode_tree_and_data (2 * n) s5 in
  let* (qs, _) := huffman_decode_tree_and_data (2 * n) s6 in
  let* (U, V) := dec_loop (dec_point base threshold radius r2) (scan2 r1 r2) (repeat None n) (repeat None n)
                          {| c_eb := ebs; c_q := qs; c_unp := unp |} in
  let* u := written U in
  let* v := written V in
  Some (u, v).
End Codec.
