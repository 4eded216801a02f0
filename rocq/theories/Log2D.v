(** sz_compress_cp_preserve_2d_online_log (src/sz_compress_cp_preserve_2d.cpp:773-979) and
    sz_decompress_cp_preserve_2d_online_log (src/sz_decompress_cp_preserve_2d.cpp:175-252), for any arithmetic.
    [transpose] is unused by the code. *)
From Coq Require Import List ZArith Bool.
From Verif Require Import Base Huffman BitPack Stream Arith Mesh2D Derive2D Codec2D Scan.
Import ListNotations.
Local Open Scope Z_scope.

Section Log.
Context (A : Arith).
Local Notation T := (T A).
Local Notation D := (D A).

(** include/sz_cp_preserve_utils.hpp:138-147 log_transform, the logarithm of one value. *)
Definition log_value (x : T) : T :=
  if teq A x (t0 A) then tofZ A (-100)
  else if tlt A (t0 A) x then tlog2f A x else tlog2f A (tneg A x).
(** The same lines, the sign flag. *)
Definition log_sign (x : T) : Z :=
  if teq A x (t0 A) then 0 else if tlt A (t0 A) x then 1 else 0.

(** 930-931: the value of log [l] with the sign of [cur]. *)
Definition unlog (cur l : T) : T :=
  if tlt A (t0 A) cur then texp2 A l else tneg A (texp2 A l).

(** 916-921, 936-940: a point stored verbatim; one bound index per point. *)
Definition log_verbatim (u v : T) : code T :=
  {| c_eb := [0]; c_q := [intv_radius; intv_radius]; c_unp := [u; v] |}.

(** Working arrays decompressed_U, decompressed_V, log_U, log_V. *)
Definition log_state : Type := list T * list T * list T * list T.

(** 855-944: one grid point. *)
Definition log_point (max_eb : D) (r1 r2 : Z) (s : log_state) (ij : Z * Z) : option (log_state * code T) :=
  let '(U, V, LU, LV) := s in
  let '(i, j) := ij in
  let p := i * r2 + j in
  let* u := aget U p in
  let* v := aget V p in
  let* required_eb := required_eb_rel A max_eb U V r1 r2 i j in
  let stored := Some (U, V, LU, LV, log_verbatim u v) in
  if dlt A (dofZ A 0) required_eb && negb (teq A u (t0 A)) && negb (teq A v (t0 A)) then
    let* (id, abs_eb) := eb_exponential_quantize A 2 (eps_float A) (dlog2 A (dadd A (dofZ A 1) required_eb)) in
    if 0 <? id then
      let* lu := aget LU p in
      let* pred0 := lorenzo A LU r2 i j in
      let* a0 := quantise A pred0 lu abs_eb in
      match a0 with
      | Fail _ => stored
      | Coded _ q0 x0 =>
          let* lv := aget LV p in
          let* pred1 := lorenzo A LV r2 i j in
          let* a1 := quantise A pred1 lv abs_eb in
          match a1 with
          | Fail _ => stored
          | Coded _ q1 x1 =>
              let* LU' := aset LU p x0 in
              let* LV' := aset LV p x1 in
              let* U' := aset U p (unlog u x0) in
              let* V' := aset V p (unlog v x1) in
              Some (U', V', LU', LV', {| c_eb := [id]; c_q := [q0; q1]; c_unp := [] |})
          end
      end
    else stored
  else stored.

(** 777-949: final working arrays and code. *)
Definition enc_log (max_eb : D) (r1 r2 : Z) (U V : list T) : option (log_state * code T) :=
  scan_enc (log_point max_eb r1 r2) (scan2 r1 r2) (U, V, map log_value U, map log_value V).

(** 960-978: output stream. *)
Definition log_pieces (U V : list T) (c : code T) : list piece :=
  [ Raw (le_bytes 4 2);                                     (* base *)
    Raw (le_bytes 4 intv_radius);
    Raw (pack_flags (map log_sign U));
    Raw (pack_flags (map log_sign V));
    Raw (le_bytes 8 (Z.of_nat (length (c_unp c))));         (* unpredictable_count *)
    Raw (tser_array A (c_unp c));
    Huff 2048 (c_eb c);                                     (* 2*1024 *)
    Huff (2 * capacity) (c_q c) ].

(** Whole compressor.  With no points sign_map_size wraps around (line 778): [None]. *)
Definition compress_log (max_eb : D) ord ub (r1 r2 : Z) (U V : list T) (junk : list Z) : option (list Z * nat) :=
  check* (1 <=? r1 * r2) in
  let* (_, c) := enc_log max_eb r1 r2 U V in
  check* (Z.of_nat (length junk) =? 2 * (r1 * r2) * Z.of_nat (tsize_of A)) in
  write_pieces ord ub (log_pieces U V c) junk 0.

(** ** Decompressor *)

(** Decompressor lines 210-211: the logarithm of a point stored verbatim. *)
Definition log_of_stored (x : T) : T := if teq A x (t0 A) then tofZ A (-100) else tlog2f A (tabs A x).

(** 203-232: first pass, one point.  State: U and V (logarithms) and unpred_data_indices, most recent first;
    insertion of an [int] index, so the grid has less than 2^31 points. *)
Definition log_dec_point (base : Z) (threshold : D) (radius r2 : Z)
           (s : list (option T) * list (option T) * list Z) (c : code T) (ij : Z * Z)
  : option (list (option T) * list (option T) * list Z * code T) :=
  let '(U, V, idx) := s in
  let '(i, j) := ij in
  let p := i * r2 + j in
  match c_eb c, c_q c with
  | id :: ebs, q0 :: q1 :: qs =>
      if id =? 0 then
        match c_unp c with
        | u :: v :: un =>
            let* U' := aset U p (Some (log_of_stored u)) in
            let* V' := aset V p (Some (log_of_stored v)) in
            Some (U', V', p :: idx, {| c_eb := ebs; c_q := qs; c_unp := un |})
        | _ => None
        end
      else
        let* U' := dec_component A base threshold radius U r2 i j id q0 in
        let* V' := dec_component A base threshold radius V r2 i j id q1 in
        Some (U', V', idx, {| c_eb := ebs; c_q := qs; c_unp := c_unp c |})
  | _, _ => None
  end.

(** 241-244: one value from its logarithm and sign flag. *)
Definition from_log (l : T) (s : Z) : T :=
  if tlt A l (tofZ A (-99)) then t0 A
  else if s =? 0 then tneg A (texp2 A l) else texp2 A l.

(** 234-246: second pass from index [i] on. *)
Fixpoint restore (idx : list Z) (i : Z) (LU LV : list T) (su sv : list Z) (unp : list T)
  : option (list T * list T) :=
  match LU, LV, su, sv with
  | lu :: LU', lv :: LV', a :: su', b :: sv' =>
      if existsb (Z.eqb i) idx then
        match unp with
        | u :: v :: unp' =>
            let* (U, V) := restore idx (i + 1) LU' LV' su' sv' unp' in Some (u :: U, v :: V)
        | _ => None
        end
      else
        let* (U, V) := restore idx (i + 1) LU' LV' su' sv' unp in Some (from_log lu a :: U, from_log lv b :: V)
  | [], [], _, _ => Some ([], [])
  | _, _, _, _ => None
  end.

(** 195-246: both passes, given the arrays read from the stream. *)
Definition decode_log (base radius r1 r2 : Z) (su sv : list Z) (c : code T) : option (list T * list T) :=
  let n := Z.to_nat (r1 * r2) in
  let* (st, _) := scan_dec (log_dec_point base (eps_float A) radius r2) (scan2 r1 r2)
                           (repeat None n, repeat None n, []) c in
  let '(dU, dV, idx) := st in
  let* lu := written dU in
  let* lv := written dV in
  restore idx 0 lu lv su sv (c_unp c).

(** 175-252. *)
Definition decompress_log (r1 r2 : Z) (s : list Z) : option (list T * list T) :=
  let n := Z.to_nat (r1 * r2) in
  check* (1 <=? n)%nat in
  let* (base, s1) := read_s32 s in
  let* (radius, s2) := read_s32 s1 in
  let* (su, s3) := unpack_flags n (sign_map_size n) s2 in
  let* (sv, s4) := unpack_flags n (sign_map_size n) s3 in
  let* (cnt, s5) := read_le 8 s4 in
  let* (unp, s6) := tread_array A (Z.to_nat cnt) s5 in
  let* (ebs, s7) := huffman_decode_tree_and_data n s6 in
  let* (qs, _) := huffman_decode_tree_and_data (2 * n) s7 in
  decode_log base radius r1 r2 su sv {| c_eb := ebs; c_q := qs; c_unp := unp |}.
End Log.
