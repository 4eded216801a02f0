(** sz_compress_cp_preserve_2d_online_abs_relax_FN (src/sz_compress_cp_preserve_2d.cpp:1252-1530), for any arithmetic.
    It shares tables, stream layout and decompressor with the other online codecs. *)
From Coq Require Import List ZArith Bool.
From Verif Require Import Base Huffman Stream Arith Mesh2D Derive2D Codec2D Sync2D Scan.
Import ListNotations.
Local Open Scope Z_scope.

Section Relax.
Context (A : Arith).
Local Notation T := (T A).
Local Notation D := (D A).

(** 1252-1256 det2__, 1258-1270 solve_linear2x2__, 1272-1289 inverse_lerp_s2v2__ and 1291-1298 check_cp == 1.
    mu[2] = 1.0 - mu[0] - mu[1] and the comparisons with 1.0 are in double. *)
Definition check_cp (a b c : T * T) : bool :=
  let A00 := tsub A (fst a) (fst c) in
  let A01 := tsub A (fst b) (fst c) in
  let A10 := tsub A (snd a) (snd c) in
  let A11 := tsub A (snd b) (snd c) in
  let b0 := tneg A (fst c) in
  let b1 := tneg A (snd c) in
  let det := tsub A (tmul A A00 A11) (tmul A A10 A01) in
  let mu0 := tdiv A (tsub A (tmul A b0 A11) (tmul A A01 b1)) det in
  let mu1 := tdiv A (tsub A (tmul A A00 b1) (tmul A b0 A10)) det in
  let mu2 := d2t A (dsub A (dsub A (dofZ A 1) (t2d A mu0)) (t2d A mu1)) in
  forallb (fun mu => tle A (t0 A) mu && dle A (t2d A mu) (dofZ A 1)) [mu0; mu1; mu2].

Definition vat (U V : list T) (k : Z) : option (T * T) :=
  let* u := aget U k in let* v := aget V k in Some (u, v).

(** 1304-1324 compute_cp: the two cells of square (i,j). *)
Definition cell_cp (U V : list T) (r2 : Z) (ij : Z * Z) : option (list bool) :=
  let '(i, j) := ij in
  let* a := vat U V (i * r2 + j) in
  let* b := vat U V ((i + 1) * r2 + j) in
  let* c := vat U V ((i + 1) * r2 + (j + 1)) in
  let* b' := vat U V (i * r2 + (j + 1)) in
  Some [check_cp a b c; check_cp a b' c].

Fixpoint cells_cp (U V : list T) (r2 : Z) (sq : list (Z * Z)) : option (list bool) :=
  match sq with
  | [] => Some []
  | ij :: sq' => let* x := cell_cp U V r2 ij in let* xs := cells_cp U V r2 sq' in Some (x ++ xs)
  end.

(** 1302-1326: the vector cp_exist, in index order. *)
Definition compute_cp (U V : list T) (r1 r2 : Z) : option (list bool) := cells_cp U V r2 (scan2 (r1 - 1) (r2 - 1)).

(** 1378-1380: cell_offset. *)
Definition cell_offsets (r2 : Z) : list Z := [-2 * (r2 - 1) - 1; -2 * (r2 - 1) - 2; -1; 0; 1; -2 * (r2 - 1)].
Definition cell_offset (r2 : Z) (k : nat) : Z := nth k (cell_offsets r2) 0.

(** 1401-1420: does a cell around (i,j) have a critical point in the original field? *)
Fixpoint adj_cp (cp : list bool) (r1 r2 i j : Z) (ks : list nat) : option bool :=
  match ks with
  | [] => Some false
  | k :: ks' =>
      if in_mesh r1 r2 i j k then
        let* b := aget cp (2 * (i * (r2 - 1) + j) + cell_offset r2 k) in
        if b then Some true else adj_cp cp r1 r2 i j ks'
      else adj_cp cp r1 r2 i j ks'
  end.

(** 1426-1451: one component, without any check of the reconstruction; quant_diff has type T. *)
Definition relax_component (w : list T) (r2 i j : Z) (cur : T) (abs_eb : D) : option (option (Z * T)) :=
  let* pred := lorenzo A w r2 i j in
  let diff := tsub A cur pred in
  let quant_diff := d2t A (dadd A (ddiv A (t2d A (tabs A diff)) abs_eb) (dofZ A 1)) in
  if tlt A quant_diff (tofZ A capacity) then
    let quant_diff := if tlt A (t0 A) diff then quant_diff else tneg A quant_diff in
    let* h := ttoint A (tdiv A quant_diff (tofZ A 2)) in
    let q := h + intv_radius in
    Some (Some (q, recon A pred intv_radius q abs_eb))
  else Some None.

(** 1453-1480: some cell around (i,j) has a critical point when (i,j) holds [x]. *)
Fixpoint verify_cp (U V : list T) (r1 r2 i j : Z) (x : T * T) (ks : list nat) : option bool :=
  match ks with
  | [] => Some true
  | k :: ks' =>
      if in_mesh r1 r2 i j k then
        let* a := vat U V (i * r2 + j + offset r2 k) in
        let* b := vat U V (i * r2 + j + offset r2 (S k)) in
        if check_cp a b x then Some false else verify_cp U V r1 r2 i j x ks'
      else verify_cp U V r1 r2 i j x ks'
  end.

(** 1422-1488: the while loop.  [count] is never reset between points; max_count = 1, so two iterations of fuel
    are enough.  Result: what to store ([None]: verbatim) and the new count.  ([int] count does not overflow on
    grids with less than 2^31 points.) *)
Fixpoint relax_loop (fuel : nat) (U V : list T) (r1 r2 i j : Z) (u v : T) (abs_eb : D) (count : Z)
  : option (option (Z * Z * Z * T * T) * Z) :=
  match fuel with
  | O => None
  | S fuel' =>
      let* (id, abs_eb) := eb_exponential_quantize A 4 (eps_double A) abs_eb in
      let* c0 := relax_component U r2 i j u abs_eb in
      match c0 with
      | None => Some (None, count)
      | Some (q0, x0) =>
          let* c1 := relax_component V r2 i j v abs_eb in
          match c1 with
          | None => Some (None, count)
          | Some (q1, x1) =>
              let* ok := verify_cp U V r1 r2 i j (x0, x1) six in
              let count := count + 1 in
              if ok then Some (Some (id, q0, q1, x0, x1), count)
              else if 1 <? count then Some (None, count)
              else relax_loop fuel' U V r1 r2 i j u v (ddiv A abs_eb (dofZ A 2)) count
          end
      end
  end.

(** 1391-1507: one point; the state is (U, V, count). *)
Definition relax_point (cp : list bool) (max_eb : D) (r1 r2 : Z) (s : list T * list T * Z) (ij : Z * Z)
  : option (list T * list T * Z * code T) :=
  let '(U, V, count) := s in
  let '(i, j) := ij in
  let p := i * r2 + j in
  let* u := aget U p in
  let* v := aget V p in
  let* blocked := (if teq A u (t0 A) && teq A v (t0 A) then Some true else adj_cp cp r1 r2 i j six) in
  if blocked then Some (U, V, count, verbatim A u v)
  else
    let* (r, count) := relax_loop 2 U V r1 r2 i j u v max_eb count in
    match r with
    | None => Some (U, V, count, verbatim A u v)
    | Some (id, q0, q1, x0, x1) =>
        let* U' := aset U p x0 in
        let* V' := aset V p x1 in
        Some (U', V', count, {| c_eb := [id; id]; c_q := [q0; q1]; c_unp := [] |})
    end.

(** 1331-1510: final working copies and code. *)
Definition enc_relax (max_eb : D) (r1 r2 : Z) (U V : list T) : option (list T * list T * code T) :=
  let* cp := compute_cp U V r1 r2 in
  let* (s, c) := scan_enc (relax_point cp max_eb r1 r2) (scan2 r1 r2) (U, V, 0) in
  Some (fst (fst s), snd (fst s), c).

(** 1512-1530: same stream and block as the other two codecs. *)
Definition compress_relax (max_eb : D) := compress_with A (enc_relax max_eb).
End Relax.
