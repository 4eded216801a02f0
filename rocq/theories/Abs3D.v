(** sz_compress_cp_preserve_3d_online_abs (src/sz_compress_cp_preserve_3d.cpp:1306-1475) and
    sz_decompress_cp_preserve_3d_online_abs (src/sz_decompress_cp_preserve_3d.cpp:205-280), for any arithmetic. *)
From Coq Require Import List ZArith Bool.
From Verif Require Import Base Huffman Stream Arith Mesh2D Mesh3D Derive3D Codec2D Scan.
Import ListNotations.
Local Open Scope Z_scope.

Section Abs3D.
Context (A : Arith).
Local Notation T := (T A).
Local Notation D := (D A).

(** 1397-1404 (decompressor 260-267; 858-865 and decompressor 69-76 in the log domain): Lorenzo prediction;
    [get] reads the working array. *)
Definition lorenzo3 (get : Z -> option T) (r2 r3 i j k : Z) : option T :=
  let p := lin3 r2 r3 (i, j, k) in
  let nz x := negb (x =? 0) in
  let at_ (c : bool) q := if c then get q else Some (t0 A) in
  let* d0 := at_ (nz i && nz j && nz k) (p - r2 * r3 - r3 - 1) in
  let* d1 := at_ (nz i && nz j) (p - r2 * r3 - r3) in
  let* d2 := at_ (nz i && nz k) (p - r2 * r3 - 1) in
  let* d3 := at_ (nz i) (p - r2 * r3) in
  let* d4 := at_ (nz j && nz k) (p - r3 - 1) in
  let* d5 := at_ (nz j) (p - r3) in
  let* d6 := at_ (nz k) (p - 1) in
  Some (tsub A (tsub A (tsub A (tadd A (tadd A (tadd A d0 d3) d5) d6) d1) d2) d4).

(** 1388-1423: loop over the components, with the break on the first failure ([Some None]).
    [op]: the prediction, read when its turn comes. *)
Fixpoint try_list (l : list (option T * T)) (abs_eb : D) : option (option (list (Z * T))) :=
  match l with
  | [] => Some (Some [])
  | (op, cur) :: l' =>
      let* pred := op in
      let* a := quantise A pred cur abs_eb in
      match a with
      | Fail _ => Some None
      | Coded _ q x => let* r := try_list l' abs_eb in Some (option_map (cons (q, x)) r)
      end
  end.

(** 1427-1430, 1442-1445. *)
Definition verbatim3 (u v w : T) : code T := {| c_eb := [0]; c_q := []; c_unp := [u; v; w] |}.

(** src/sz_compress_cp_preserve_3d.cpp:1309-1314: decompressed_U, decompressed_V, decompressed_W. *)
Definition field3 : Type := list T * list T * list T.

(** 1351-1447: one grid point. *)
Definition abs3_point (req : list T -> list T -> list T -> Z -> Z -> Z -> option D) (r2 r3 : Z)
           (s : field3) (ijk : Z * Z * Z) : option (field3 * code T) :=
  let '(U, V, W) := s in
  let '(i, j, k) := ijk in
  let p := lin3 r2 r3 ijk in
  let* (u, v, w) := vec_at A U V W p in
  let* required_eb := req U V W i j k in
  if deq A required_eb (dofZ A 0) then Some (s, verbatim3 u v w)
  else
    let* (id, abs_eb) := eb_exponential_quantize A 4 (eps_double A) required_eb in
    if 0 <? id then
      let* r := try_list [(lorenzo3 (aget U) r2 r3 i j k, u); (lorenzo3 (aget V) r2 r3 i j k, v);
                          (lorenzo3 (aget W) r2 r3 i j k, w)] abs_eb in
      match r with
      | Some [(q0, x0); (q1, x1); (q2, x2)] =>
          let* U' := aset U p x0 in let* V' := aset V p x1 in let* W' := aset W p x2 in
          Some (U', V', W', {| c_eb := [id]; c_q := [q0; q1; q2]; c_unp := [] |})
      | _ => Some (s, verbatim3 u v w)
      end
    else Some (s, verbatim3 u v w).

Context (ftk : D * D * D -> D * D * D -> D * D * D -> D * D * D -> bool).

(** 1342-1450: working copies and the three output arrays. *)
Definition enc_abs3 (max_eb : D) (r1 r2 r3 : Z) (U V W : list T) : option (field3 * code T) :=
  let* cp := compute_cp3 A ftk U V W r1 r2 r3 in
  scan_enc (abs3_point (fun U V W i j k => required_eb3_abs A max_eb cp U V W r1 r2 r3 i j k) r2 r3)
           (scan3 r1 r2 r3) (U, V, W).

(** 1455-1473. *)
Definition abs3_pieces (c : code T) : list piece :=
  [ Raw (le_bytes 4 4);
    Raw (dser A (eps_double A));
    Raw (le_bytes 4 intv_radius);
    Raw (le_bytes 8 (Z.of_nat (length (c_q c))));
    Raw (le_bytes 8 (Z.of_nat (length (c_unp c))));
    Raw (tser_array A (c_unp c));
    Huff 2048 (c_eb c);
    Huff (2 * capacity) (c_q c) ].
(** 1455: the block has 3*n*sizeof(T) bytes. *)
Definition write_abs3 (ord : queue -> bool) (ub : Z -> Z -> Z) (n : Z) (c : code T) (junk : list Z)
  : option (list Z * nat) :=
  check* (Z.of_nat (length junk) =? 3 * n * Z.of_nat (tsize_of A)) in
  write_pieces ord ub (abs3_pieces c) junk 0.

(** src/sz_compress_cp_preserve_3d.cpp:1305-1475; the memory block and compressed_size. *)
Definition compress_abs3 (max_eb : D) ord ub (r1 r2 r3 : Z) (U V W : list T) (junk : list Z) : option (list Z * nat) :=
  let* (_, c) := enc_abs3 max_eb r1 r2 r3 U V W in
  write_abs3 ord ub (r1 * r2 * r3) c junk.

(** ** Decompressor *)
(** src/sz_decompress_cp_preserve_3d.cpp:229-231: U, V, W as malloc left them, [None] until written. *)
Definition ufield3 : Type := list (option T) * list (option T) * list (option T).

(** decompressor 256-269: one component. *)
Definition dec_component3 (base : Z) (threshold : D) (radius : Z) (w : list (option T)) (r2 r3 i j k id q : Z)
  : option (list (option T)) :=
  let* pred := lorenzo3 (uget w) r2 r3 i j k in
  aset w (lin3 r2 r3 (i, j, k)) (Some (recon A pred radius q (dmul A (dpow A base id) threshold))).

(** decompressor 246-274: one point. *)
Definition abs3_dec_point (base : Z) (threshold : D) (radius r2 r3 : Z) (s : ufield3) (c : code T) (ijk : Z * Z * Z)
  : option (ufield3 * code T) :=
  let '(U, V, W) := s in
  let '(i, j, k) := ijk in
  let p := lin3 r2 r3 ijk in
  match c_eb c with
  | [] => None
  | id :: ebs =>
      if id =? 0 then
        match c_unp c with
        | u :: v :: w :: un =>
            let* U' := aset U p (Some u) in let* V' := aset V p (Some v) in let* W' := aset W p (Some w) in
            Some (U', V', W', {| c_eb := ebs; c_q := c_q c; c_unp := un |})
        | _ => None
        end
      else
        match c_q c with
        | q0 :: q1 :: q2 :: qs =>
            let* U' := dec_component3 base threshold radius U r2 r3 i j k id q0 in
            let* V' := dec_component3 base threshold radius V r2 r3 i j k id q1 in
            let* W' := dec_component3 base threshold radius W r2 r3 i j k id q2 in
            Some (U', V', W', {| c_eb := ebs; c_q := qs; c_unp := c_unp c |})
        | _ => None
        end
  end.

(** decompressor 205-280. *)
Definition decompress_abs3 (r1 r2 r3 : Z) (s : list Z) : option field3 :=
  let n := Z.to_nat (r1 * r2 * r3) in
  let* (base, s1) := read_s32 s in
  let* (tb, s2) := take_bytes 8 s1 in
  let threshold := ddes A tb in
  let* (radius, s3) := read_s32 s2 in
  let* (nq, s4) := read_le 8 s3 in
  let* (cnt, s5) := read_le 8 s4 in
  let* (unp, s6) := tread_array A (Z.to_nat cnt) s5 in
  let* (ebs, s7) := huffman_decode_tree_and_data n s6 in
  let* (qs, _) := huffman_decode_tree_and_data (Z.to_nat nq) s7 in
  let* (U, V, W, _) := scan_dec (abs3_dec_point base threshold radius r2 r3) (scan3 r1 r2 r3)
                          (repeat None n, repeat None n, repeat None n)
                          {| c_eb := ebs; c_q := qs; c_unp := unp |} in
  let* u := written U in let* v := written V in let* w := written W in
  Some (u, v, w).
End Abs3D.
