(** construct_tets and sz_compress_cp_preserve_3d_unstructured (src/sz_compress_cp_preserve_3d.cpp:984-1139) and
    sz_decompress_cp_preserve_3d_unstructured (src/sz_decompress_cp_preserve_3d.cpp:120-196), for any arithmetic.
    [points] is unused by the code, and the decompressor does not use the mesh.  The interleaved array data[3*i + p] is split
    into its three components: component p of point i is cell i of the p-th list. *)
From Coq Require Import List ZArith Bool.
From Verif Require Import Base Huffman BitPack Stream Arith Derive3D Codec2D Scan Abs3D Log2D Log3D.
Import ListNotations.
Local Open Scope Z_scope.

Section Uns3D.
Context (A : Arith).
Local Notation T := (T A).
Local Notation D := (D A).

(** data[3*i + p] as three arrays, and back. *)
Fixpoint split3 {X} (l : list X) : list X * list X * list X :=
  match l with
  | a :: b :: c :: l' => let '(x, y, z) := split3 l' in (a :: x, b :: y, c :: z)
  | _ => ([], [], [])
  end.
Definition join3 {X} (l : list (X * X * X)) : list X := concat (map (fun x => let '(a, b, c) := x in [a; b; c]) l).

(** Compressor 984-986: the vertices of a tetrahedron. *)
Definition tetra : Type := Z * Z * Z * Z.

(** 1046-1052: the bound of one tetrahedron for the vertex [p], the others in order being [a], [b], [c]. *)
Definition adj_bound (U V W : list T) (p a b c : Z) (eb : D) : option D :=
  let* x0 := vec_at A U V W a in
  let* x1 := vec_at A U V W b in
  let* x2 := vec_at A U V W c in
  let* x3 := vec_at A U V W p in
  Some (minf A eb (derive3_rel A x0 x1 x2 x3)).

(** 989-1007 with 1042-1053: point_tets[p] lists the tetrahedra in the order of the mesh, and one of them as often as [p] occurs in it. *)
Fixpoint uns_loop (U V W : list T) (p : Z) (tets : list tetra) (eb : D) : option D :=
  match tets with
  | [] => Some eb
  | (v0, v1, v2, v3) :: tets' =>
      let* e0 := if v0 =? p then adj_bound U V W p v1 v2 v3 eb else Some eb in
      let* e1 := if v1 =? p then adj_bound U V W p v0 v2 v3 e0 else Some e0 in
      let* e2 := if v2 =? p then adj_bound U V W p v0 v1 v3 e1 else Some e1 in
      let* e3 := if v3 =? p then adj_bound U V W p v0 v1 v2 e2 else Some e2 in
      uns_loop U V W p tets' e3
  end.

(** 1041-1054: required_eb; 1e-10 is the double nearest to 1/10^10, which is what the division gives. *)
Definition required_eb_uns (max_eb : D) (tets : list tetra) (U V W : list T) (p : Z) : option D :=
  let* eb := uns_loop U V W p tets max_eb in
  Some (if dlt A eb (ddiv A (dofZ A 1) (dofZ A 10000000000)) then dofZ A 0 else eb).

(** 1065, decompressor 169: the prediction, the logarithm at the point before. *)
Definition prev_log (get : Z -> option T) (p : Z) : option T := if p =? 0 then Some (t0 A) else get (p - 1).

(** 1040-1113: one point. *)
Definition uns_point (max_eb : D) (tets : list tetra) (s : log3_state A) (p : Z) : option (log3_state A * code T) :=
  let '(U, V, W, (LU, LV, LW)) := s in
  let* (u, v, w) := vec_at A U V W p in
  let* required_eb := required_eb_uns max_eb tets U V W p in
  if dlt A (dofZ A 0) required_eb then
    let* (id, abs_eb) := eb_exponential_quantize A 2 (eps_float A) (dlog2 A (dadd A (dofZ A 1) required_eb)) in
    if 0 <? id then
      let* (lu, lv, lw) := vec_at A LU LV LW p in
      let* r := try_list A [(prev_log (aget LU) p, lu); (prev_log (aget LV) p, lv); (prev_log (aget LW) p, lw)] abs_eb in
      match r with
      | Some [(q0, x0); (q1, x1); (q2, x2)] =>
          let* LU' := aset LU p x0 in let* LV' := aset LV p x1 in let* LW' := aset LW p x2 in
          let* U' := aset U p (unlog A u x0) in
          let* V' := aset V p (unlog A v x1) in
          let* W' := aset W p (unlog A w x2) in
          Some (U', V', W', (LU', LV', LW'), {| c_eb := [id]; c_q := [q0; q1; q2]; c_unp := [] |})
      | _ => Some (s, verbatim_as A 0 u v w)
      end
    else Some (s, verbatim_as A 0 u v w)
  else Some (s, verbatim_as A 0 u v w).

(** 1016, 1031-1113: final working arrays and code. *)
Definition enc_uns (max_eb : D) (tets : list tetra) (n : Z) (data : list T) : option (log3_state A * code T) :=
  let '(U, V, W) := split3 data in
  scan_enc (uns_point max_eb tets) (zrange 0 n) (U, V, W, (map (log_value A) U, map (log_value A) V, map (log_value A) W)).

(** 1119-1135: output stream. *)
Definition uns_pieces (data : list T) (c : code T) : list piece :=
  [ Raw (le_bytes 4 2);                                     (* base *)
    Raw (le_bytes 4 intv_radius);
    Raw (pack_flags (map (log_sign A) data));
    Raw (le_bytes 8 (Z.of_nat (length (c_unp c))));         (* unpredictable_count *)
    Raw (tser_array A (c_unp c));
    Raw (le_bytes 8 (Z.of_nat (length (c_eb c))));          (* eb_quant_num *)
    Huff 512 (c_eb c);                                      (* 2*256 *)
    Raw (le_bytes 8 (Z.of_nat (length (c_q c))));           (* data_quant_num *)
    Huff (2 * capacity) (c_q c) ].

(** 1002: point_tets[ind] exists. *)
Definition in_range (n : Z) (t : tetra) : bool :=
  let '(v0, v1, v2, v3) := t in
  (0 <=? v0) && (v0 <? n) && (0 <=? v1) && (v1 <? n) && (0 <=? v2) && (v2 <? n) && (0 <=? v3) && (v3 <? n).

(** Whole compressor; block of 3*n*sizeof(T) bytes (1118).  With n = 0 the sign map has one byte that is never written, and 3*n is an
    [int]: [None]. *)
Definition compress_uns (max_eb : D) ord ub (n : Z) (tets : list tetra) (data : list T) (junk : list Z) : option (list Z * nat) :=
  check* ((1 <=? n) && (3 * n <? 2 ^ 31)) in
  check* (forallb (in_range n) tets) in
  let* (_, c) := enc_uns max_eb tets n data in
  check* (Z.of_nat (length junk) =? 3 * n * Z.of_nat (tsize_of A)) in
  write_pieces ord ub (uns_pieces data c) junk 0.

(** ** Decompressor *)

(** 165, 168-170: one component. *)
Definition dec_prev (base : Z) (threshold : D) (radius : Z) (w : list (option T)) (p id q : Z) : option (list (option T)) :=
  let* pred := prev_log (uget w) p in
  aset w p (Some (recon A pred radius q (dmul A (dpow A base id) threshold))).

(** 153-175: first pass, one point; the logarithms and unpred_data_indices, most recent first. *)
Definition uns_dec_point (base : Z) (threshold : D) (radius esc : Z)
           (s : ufield3 A * list Z) (c : code T) (p : Z) : option (ufield3 A * list Z * code T) :=
  let '(U, V, W, idx) := s in
  match c_eb c with
  | [] => None
  | id :: ebs =>
      if is_verbatim esc id then
        match c_unp c with
        | u :: v :: w :: un =>
            let* U' := aset U p (Some (log_of_stored A u)) in
            let* V' := aset V p (Some (log_of_stored A v)) in
            let* W' := aset W p (Some (log_of_stored A w)) in
            Some (U', V', W', p :: idx, {| c_eb := ebs; c_q := c_q c; c_unp := un |})
        | _ => None
        end
      else
        match c_q c with
        | q0 :: q1 :: q2 :: qs =>
            let* U' := dec_prev base threshold radius U p id q0 in
            let* V' := dec_prev base threshold radius V p id q1 in
            let* W' := dec_prev base threshold radius W p id q2 in
            Some (U', V', W', idx, {| c_eb := ebs; c_q := qs; c_unp := c_unp c |})
        | _ => None
        end
  end.

(** 188-189: one value; the sign flag is consumed only when the value is not a zero. *)
Definition restore_value (l : T) (signs : list Z) : option (T * list Z) :=
  if tlt A l (tofZ A (-99)) then Some (t0 A, signs)
  else match signs with
       | s :: signs' => Some (if s =? 0 then tneg A (texp2 A l) else texp2 A l, signs')
       | [] => None
       end.

(** 177-192: second pass from point [i] on.  At a verbatim point three sign flags are skipped. *)
Fixpoint restore_uns (idx : list Z) (i : Z) (L : list (T * T * T)) (signs : list Z) (unp : list T) : option (list (T * T * T)) :=
  match L with
  | [] => Some []
  | (lu, lv, lw) :: L' =>
      if existsb (Z.eqb i) idx then
        match unp with
        | u :: v :: w :: unp' => let* r := restore_uns idx (i + 1) L' (skipn 3 signs) unp' in Some ((u, v, w) :: r)
        | _ => None
        end
      else
        let* (u, s1) := restore_value lu signs in
        let* (v, s2) := restore_value lv s1 in
        let* (w, s3) := restore_value lw s2 in
        let* r := restore_uns idx (i + 1) L' s3 unp in
        Some ((u, v, w) :: r)
  end.

(** 143-192: both passes, given the arrays read from the stream. *)
Definition decode_uns (base radius n : Z) (signs : list Z) (c : code T) : option (list T) :=
  let m := Z.to_nat n in
  let* esc := escape A base in
  let* (st, _) := scan_dec (uns_dec_point base (eps_float A) radius esc) (zrange 0 n) (repeat None m, repeat None m, repeat None m, []) c in
  let '(dU, dV, dW, idx) := st in
  let* lu := written dU in let* lv := written dV in let* lw := written dW in
  let* r := restore_uns idx 0 (zip3 lu lv lw) signs (c_unp c) in
  Some (join3 r).

(** 120-196. *)
Definition decompress_uns (n : Z) (s : list Z) : option (list T) :=
  let m := Z.to_nat (3 * n) in
  check* ((1 <=? n) && (3 * n <? 2 ^ 31)) in
  let* (base, s1) := read_s32 s in
  let* (radius, s2) := read_s32 s1 in
  let* (signs, s3) := unpack_flags m (sign_map_size m) s2 in
  let* (cnt, s4) := read_le 8 s3 in
  let* (unp, s5) := tread_array A (Z.to_nat cnt) s4 in
  let* (ne, s6) := read_le 8 s5 in
  let* (ebs, s7) := huffman_decode_tree_and_data (Z.to_nat ne) s6 in
  let* (nq, s8) := read_le 8 s7 in
  let* (qs, _) := huffman_decode_tree_and_data (Z.to_nat nq) s8 in
  decode_uns base radius n signs {| c_eb := ebs; c_q := qs; c_unp := unp |}.
End Uns3D.
