(** sz_compress_cp_preserve_3d_online_log (src/sz_compress_cp_preserve_3d.cpp:747-974) and
    sz_decompress_cp_preserve_3d_online_log (src/sz_decompress_cp_preserve_3d.cpp:7-110), for any arithmetic. *)
From Coq Require Import List ZArith Bool.
From Verif Require Import Base Huffman BitPack Stream Arith Mesh2D Mesh3D Derive3D Codec2D Scan Abs3D Log2D.
Import ListNotations.
Local Open Scope Z_scope.

Section Log3D.
Context (A : Arith).
Local Notation T := (T A).
Local Notation D := (D A).

(** Compressor line 801, decompressor 47-48: eb_quant_index_max, the symbol of a point that could not be predicted. *)
Definition escape (base : Z) : option Z :=
  let* k := dtoint A (ddiv A (dlog2 A (ddiv A (dofZ A 1) (eps_float A))) (dlog2 A (dofZ A base))) in
  Some (k + 1).

(** 819-839: required_eb.  1e-6 is the double nearest to 1/1000000, which is what the division gives. *)
Definition required_eb3_log (max_eb : D) (U V W : list T) (r1 r2 r3 i j k : Z) : option D :=
  let* eb := req_loop3 A U V W r1 r2 r3 i j k twenty_four max_eb in
  Some (if dlt A eb (ddiv A (dofZ A 1) (dofZ A 1000000)) then dofZ A 0 else eb).

(** 887-900, 913-918: a point stored verbatim under the symbol [id]. *)
Definition verbatim_as (id : Z) (u v w : T) : code T := {| c_eb := [id]; c_q := []; c_unp := [u; v; w] |}.

(** decompressed_U, _V, _W and log_U, log_V, log_W. *)
Definition log3_state : Type := field3 A * field3 A.

(** Where required_eb comes from: the working arrays and the point. *)
Definition bound_source : Type := list T -> list T -> list T -> Z -> Z -> Z -> option D.

(** 840-922: one grid point, given the source of required_eb; [esc] is eb_quant_index_max.  The same text as 464-535 of
    sz_compress_cp_preserve_3d_offline_log. *)
Definition log3_point (req : bound_source) (esc r1 r2 r3 : Z) (s : log3_state) (ijk : Z * Z * Z) : option (log3_state * code T) :=
  let '(U, V, W, (LU, LV, LW)) := s in
  let '(i, j, k) := ijk in
  let p := lin3 r2 r3 ijk in
  let* (u, v, w) := vec_at A U V W p in
  let* required_eb := req U V W i j k in
  if dlt A (dofZ A 0) required_eb then
    let* (id, abs_eb) := eb_exponential_quantize A 2 (eps_float A) (dlog2 A (dadd A (dofZ A 1) required_eb)) in
    if 0 <? id then
      let* (lu, lv, lw) := vec_at A LU LV LW p in
      let* r := try_list A [(lorenzo3 A (aget LU) r2 r3 i j k, lu); (lorenzo3 A (aget LV) r2 r3 i j k, lv);
                            (lorenzo3 A (aget LW) r2 r3 i j k, lw)] abs_eb in
      match r with
      | Some [(q0, x0); (q1, x1); (q2, x2)] =>
          let* LU' := aset LU p x0 in let* LV' := aset LV p x1 in let* LW' := aset LW p x2 in
          let* U' := aset U p (unlog A u x0) in
          let* V' := aset V p (unlog A v x1) in
          let* W' := aset W p (unlog A w x2) in
          Some (U', V', W', (LU', LV', LW'), {| c_eb := [id]; c_q := [q0; q1; q2]; c_unp := [] |})
      | _ => Some (s, verbatim_as esc u v w)
      end
    else Some (s, verbatim_as esc u v w)
  else Some (s, verbatim_as 0 u v w).

(** 757-770, 815-924 (= 414-541): final working arrays and code. *)
Definition enc_log3_with (req : bound_source) (r1 r2 r3 : Z) (U V W : list T) : option (log3_state * code T) :=
  let* esc := escape 2 in
  scan_enc (log3_point req esc r1 r2 r3) (scan3 r1 r2 r3)
           (U, V, W, (map (log_value A) U, map (log_value A) V, map (log_value A) W)).

(** 818-839: the online codec derives the bound of a point when it gets there. *)
Definition enc_log3 (max_eb : D) (r1 r2 r3 : Z) (U V W : list T) : option (log3_state * code T) :=
  enc_log3_with (fun U V W => required_eb3_log max_eb U V W r1 r2 r3) r1 r2 r3 U V W.

(** 938-969 (= 551-570): output stream. *)
Definition log3_pieces (U V W : list T) (c : code T) : list piece :=
  [ Raw (le_bytes 4 2);                                     (* base *)
    Raw (le_bytes 4 intv_radius);
    Raw (pack_flags (map (log_sign A) U));
    Raw (pack_flags (map (log_sign A) V));
    Raw (pack_flags (map (log_sign A) W));
    Raw (le_bytes 8 (Z.of_nat (length (c_unp c))));         (* unpredictable_count *)
    Raw (tser_array A (c_unp c));
    Raw (le_bytes 8 (Z.of_nat (length (c_eb c))));          (* eb_quant_num *)
    Huff 512 (c_eb c);                                      (* 2*256 *)
    Raw (le_bytes 8 (Z.of_nat (length (c_q c))));           (* data_quant_num *)
    Huff (2 * capacity) (c_q c) ].

(** Whole compressor; block of 3*n*sizeof(T) bytes (936).  With no points sign_map_size wraps around (752): [None]. *)
Definition compress_log3_with (req : bound_source) ord ub (r1 r2 r3 : Z) (U V W : list T) (junk : list Z) : option (list Z * nat) :=
  check* (1 <=? r1 * r2 * r3) in
  let* (_, c) := enc_log3_with req r1 r2 r3 U V W in
  check* (Z.of_nat (length junk) =? 3 * (r1 * r2 * r3) * Z.of_nat (tsize_of A)) in
  write_pieces ord ub (log3_pieces U V W c) junk 0.
Definition compress_log3 (max_eb : D) ord ub (r1 r2 r3 : Z) (U V W : list T) (junk : list Z) : option (list Z * nat) :=
  compress_log3_with (fun U V W => required_eb3_log max_eb U V W r1 r2 r3) ord ub r1 r2 r3 U V W junk.

(** ** Decompressor *)

(** Decompressor 57: the symbol stands for a verbatim point. *)
Definition is_verbatim (esc id : Z) : bool := (id =? 0) || (id =? esc).

(** 50-85: first pass, one point.  State: the logarithms and unpred_data_indices, most recent first (an [int] index,
    so the grid has less than 2^31 points). *)
Definition log3_dec_point (base : Z) (threshold : D) (radius esc r2 r3 : Z)
           (s : ufield3 A * list Z) (c : code T) (ijk : Z * Z * Z) : option (ufield3 A * list Z * code T) :=
  let '(U, V, W, idx) := s in
  let '(i, j, k) := ijk in
  let p := lin3 r2 r3 ijk in
  match c_eb c with
  | [] => None
  | id :: ebs =>
      if is_verbatim esc id then
        match c_unp c with
        | u :: v :: w :: un =>
            let* U' := aset U p (Some (log_of_stored A u)) in
            let* V' := aset V p (Some (log_of_stored A v)) in
            let* W' := aset W p (Some (log_of_stored A w)) in
            Some (U', V', W', p :: idx, {| c_eb := ebs; c_q := c_q c; c_unp := un |})
        | _ => None
        end
      else
        match c_q c with
        | q0 :: q1 :: q2 :: qs =>
            let* U' := dec_component3 A base threshold radius U r2 r3 i j k id q0 in
            let* V' := dec_component3 A base threshold radius V r2 r3 i j k id q1 in
            let* W' := dec_component3 A base threshold radius W r2 r3 i j k id q2 in
            Some (U', V', W', idx, {| c_eb := ebs; c_q := qs; c_unp := c_unp c |})
        | _ => None
        end
  end.

(** 90-104: second pass from index [i] on; the three arrays of logarithms and sign flags, point by point. *)
Fixpoint restore3 (idx : list Z) (i : Z) (L : list (T * T * T)) (S : list (Z * Z * Z)) (unp : list T)
  : option (list (T * T * T)) :=
  match L, S with
  | (lu, lv, lw) :: L', (a, b, c) :: S' =>
      if existsb (Z.eqb i) idx then
        match unp with
        | u :: v :: w :: unp' => let* r := restore3 idx (i + 1) L' S' unp' in Some ((u, v, w) :: r)
        | _ => None
        end
      else
        let* r := restore3 idx (i + 1) L' S' unp in
        Some ((from_log A lu a, from_log A lv b, from_log A lw c) :: r)
  | [], _ => Some []
  | _, _ => None
  end.

(** Three arrays side by side. *)
Definition zip3 {X} (a b c : list X) : list (X * X * X) := combine (combine a b) c.
Definition fst3 {X} (l : list (X * X * X)) : list X := map (fun x => fst (fst x)) l.
Definition snd3 {X} (l : list (X * X * X)) : list X := map (fun x => snd (fst x)) l.
Definition trd3 {X} (l : list (X * X * X)) : list X := map snd l.

(** 39-104: both passes, given the arrays read from the stream. *)
Definition decode_log3 (base radius r1 r2 r3 : Z) (su sv sw : list Z) (c : code T) : option (field3 A) :=
  let n := Z.to_nat (r1 * r2 * r3) in
  let* esc := escape base in
  let* (st, _) := scan_dec (log3_dec_point base (eps_float A) radius esc r2 r3) (scan3 r1 r2 r3)
                           (repeat None n, repeat None n, repeat None n, []) c in
  let '(dU, dV, dW, idx) := st in
  let* lu := written dU in let* lv := written dV in let* lw := written dW in
  let* r := restore3 idx 0 (zip3 lu lv lw) (zip3 su sv sw) (c_unp c) in
  Some (fst3 r, snd3 r, trd3 r).

(** 7-110. *)
Definition decompress_log3 (r1 r2 r3 : Z) (s : list Z) : option (field3 A) :=
  let n := Z.to_nat (r1 * r2 * r3) in
  check* (1 <=? n)%nat in
  let* (base, s1) := read_s32 s in
  let* (radius, s2) := read_s32 s1 in
  let* (su, s3) := unpack_flags n (sign_map_size n) s2 in
  let* (sv, s4) := unpack_flags n (sign_map_size n) s3 in
  let* (sw, s5) := unpack_flags n (sign_map_size n) s4 in
  let* (cnt, s6) := read_le 8 s5 in
  let* (unp, s7) := tread_array A (Z.to_nat cnt) s6 in
  let* (ne, s8) := read_le 8 s7 in
  let* (ebs, s9) := huffman_decode_tree_and_data (Z.to_nat ne) s8 in
  let* (nq, s10) := read_le 8 s9 in
  let* (qs, _) := huffman_decode_tree_and_data (Z.to_nat nq) s10 in
  decode_log3 base radius r1 r2 r3 su sv sw {| c_eb := ebs; c_q := qs; c_unp := unp |}.
End Log3D.
