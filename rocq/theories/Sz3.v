(** The multilevel 2D codec sz3_compress_cp_preserve_2d_online_abs (src/sz_compress_cp_preserve_2d.cpp:1540-1811) and its decompressor
    sz3_decompress_cp_preserve_2d_online (src/sz_decompress_cp_preserve_2d.cpp:262-369), with the quantiser of include/sz3_utils.hpp, for any
    arithmetic.  [transpose] is unused by the code. *)
From Coq Require Import List ZArith Bool.
From Verif Require Import Base Huffman Stream Arith Mesh2D Derive2D Codec2D Scan.
Import ListNotations.
Local Open Scope Z_scope.

(** for(i = a; i < lim; i += d). *)
Definition steps (a lim d : Z) : list Z := map (fun k => a + d * k) (zrange 0 ((lim - a + d - 1) / d)).

(** Which interpolation predicts a point. *)
Inductive kind := First | Linear | Quad1 | Cubic | Quad2 | Last.

(** 1579-1588, 1623-1631: for n even the last point of a line is predicted from its predecessor. *)
Definition last_of (n : Z) : list (Z * kind) := if n mod 2 =? 0 then [(n - 1, Last)] else [].

(** Control flow of sz3_cp_preserve_2d_predict_r1 and ..._r2 (1563-1633, 1635-1705): indices along a line of n points. *)
Definition predict_line (n : Z) : list (Z * kind) :=
  if n <=? 1 then []
  else if n <? 5 then map (fun i => (i, Linear)) (steps 1 (n - 1) 2) ++ last_of n
  else
    let is := steps 3 (n - 3) 2 in
    (1, Quad1) :: map (fun i => (i, Cubic)) is ++ [(3 + 2 * Z.of_nat (length is), Quad2)] ++ last_of n.

(** Control flow of recover (decompressor 263-317). *)
Definition recover_line (n : Z) : list (Z * kind) :=
  if n <=? 1 then []
  else if n <? 5 then map (fun i => (i, Linear)) (steps 1 (n - 1) 2) ++ (if n mod 2 =? 0 then [(n - 1, Last)] else [])
  else
    let is := steps 3 (n - 3) 2 in
    [(1, Quad1)] ++ map (fun i => (i, Cubic)) is ++ [(3 + 2 * Z.of_nat (length is), Quad2)] ++
    (if n mod 2 =? 0 then [(n - 1, Last)] else []).

(** 1761, decompressor 334: interpolation_level = ceil(log2(max(r1, r2))); assumed exact. *)
Definition interpolation_level (r1 r2 : Z) : Z := Z.log2_up (Z.max r1 r2).
(** 1770: level = interpolation_level, ..., 1. *)
Definition levels (l : Z) : list Z := map (fun k => l - k) (zrange 0 l).

(** A processed point: grid coordinates (only used to derive the bound), index into the arrays, distance of the
    neighbours used for prediction, interpolation, and whether the level halves the bound. *)
Record visit := { v_i : Z; v_j : Z; v_p : Z; v_s : Z; v_kind : kind; v_half : bool }.

(** 1765-1769: the first point. *)
Definition first_visit : visit := {| v_i := 0; v_j := 0; v_p := 0; v_s := 0; v_kind := First; v_half := true |}.
(** 1780-1784: along r1, columns j = 0, 2*stride, ... *)
Definition visits_r1 (r1 r2 l : Z) : list visit :=
  let s := 2 ^ (l - 1) in
  flat_map (fun j => map (fun '(i, k) => {| v_i := i * s; v_j := j; v_p := j + i * (s * r2); v_s := s * r2; v_kind := k; v_half := 3 <=? l |})
                         (predict_line ((r1 - 1) / s + 1))) (steps 0 r2 (s * 2)).
(** 1787-1791: along r2, rows i = 0, stride, ... *)
Definition visits_r2 (r1 r2 l : Z) : list visit :=
  let s := 2 ^ (l - 1) in
  flat_map (fun i => map (fun '(j, k) => {| v_i := i; v_j := j * s; v_p := i * r2 + j * s; v_s := s; v_kind := k; v_half := 3 <=? l |})
                         (predict_line ((r2 - 1) / s + 1))) (steps 0 r1 s).
(** 1765-1793. *)
Definition visits (r1 r2 : Z) : list visit :=
  first_visit :: flat_map (fun l => visits_r1 r1 r2 l ++ visits_r2 r1 r2 l) (levels (interpolation_level r1 r2)).

(** Decompressor 348-366: (index, distance, interpolation). *)
Definition dec_visits (r1 r2 : Z) : list (Z * Z * kind) :=
  (0, 0, First) ::
  flat_map (fun l =>
    let s := 2 ^ (l - 1) in
    flat_map (fun j => map (fun '(i, k) => (j + i * (s * r2), s * r2, k)) (recover_line ((r1 - 1) / s + 1))) (steps 0 r2 (s * 2)) ++
    flat_map (fun i => map (fun '(j, k) => (i * r2 + j * s, s, k)) (recover_line ((r2 - 1) / s + 1))) (steps 0 r1 s))
    (levels (interpolation_level r1 r2)).

(** Signed 32-bit arithmetic.  Overflow is undefined behaviour; with [wrap] it wraps around instead. *)
Definition int32 (wrap : bool) (z : Z) : option Z :=
  if (- 2 ^ 31 <=? z) && (z <? 2 ^ 31) then Some z
  else if wrap then Some ((z + 2 ^ 31) mod 2 ^ 32 - 2 ^ 31) else None.

Section Sz3.
Context (A : Arith).
Local Notation T := (T A).
Local Notation D := (D A).

(** include/sz3_utils.hpp:196-214 (the interpolations), and the argument lists of the calls.  [get] reads the array. *)
Definition predict (get : Z -> option T) (p s : Z) (k : kind) : option T :=
  match k with
  | First => Some (t0 A)
  | Linear => let* a := get (p - s) in let* b := get (p + s) in Some (tdiv A (tadd A a b) (tofZ A 2))
  | Quad1 =>
      let* a := get (p - s) in let* b := get (p + s) in let* c := get (p + 3 * s) in
      Some (tdiv A (tsub A (tadd A (tmul A (tofZ A 3) a) (tmul A (tofZ A 6) b)) c) (tofZ A 8))
  | Cubic =>
      let* a := get (p - 3 * s) in let* b := get (p - s) in let* c := get (p + s) in let* d := get (p + 3 * s) in
      Some (tdiv A (tsub A (tadd A (tadd A (tneg A a) (tmul A (tofZ A 9) b)) (tmul A (tofZ A 9) c)) d) (tofZ A 16))
  | Quad2 =>
      let* a := get (p - 3 * s) in let* b := get (p - s) in let* c := get (p + s) in
      Some (tdiv A (tadd A (tadd A (tneg A a) (tmul A (tofZ A 6) b)) (tmul A (tofZ A 3) c)) (tofZ A 8))
  | Last => get (p - s)
  end.

(** 39-75 VariableEBLinearQuantizer::quantize_and_overwrite, radius = capacity >> 1: (index, new value, pushed to unpred).
    fabs at the type of its argument. *)
Definition quantize_and_overwrite (wrap : bool) (data pred eb : T) : option (Z * T * list T) :=
  if teq A eb (t0 A) then Some (0, data, [data])
  else
    let diff := tsub A data pred in
    let* c := ttoint A (tdiv A (tabs A diff) eb) in
    let* quant_index := int32 wrap (c + 1) in
    if quant_index <? intv_radius * 2 then
      let half_index := Z.shiftr quant_index 1 in
      let quant_index := 2 * half_index in
      let* (quant_index, shifted) :=
        (if tlt A diff (t0 A) then let* n := int32 wrap (- quant_index) in Some (n, intv_radius - half_index)
         else Some (quant_index, intv_radius + half_index)) in
      let decompressed := tadd A pred (tmul A (tofZ A quant_index) eb) in
      if tlt A eb (tabs A (tsub A decompressed data)) then Some (0, data, [data])
      else Some (shifted, decompressed, [])
    else Some (0, data, [data]).

(** 1540-1561 derive_eb_abs_online_2d. *)
Definition derive_eb_abs (eb : D) (U V : list T) (r1 r2 i j : Z) : option D :=
  req_loop A (fun '(u0, u1, u2, v0, v1, v2) _ => derive_cp_eb_for_positions_online_abs A u0 u1 u2 v0 v1 v2) U V r1 r2 i j six eb.

(** 1766, 1771-1774: eb = max_pwr_eb, or max_pwr_eb * 0.5 (0.5 as 1/2). *)
Definition level_eb (max_eb : D) (half : bool) : D :=
  if half then dmul A max_eb (ddiv A (dofZ A 1) (dofZ A 2)) else max_eb.

(** One point, e.g. 1571-1577. *)
Definition sz3_point (wrap : bool) (max_eb : D) (r1 r2 : Z) (s : list T * list T) (v : visit) : option ((list T * list T) * code T) :=
  let '(U, V) := s in
  let* abs_eb := derive_eb_abs (level_eb max_eb (v_half v)) U V r1 r2 (v_i v) (v_j v) in
  let* (id, abs_eb) := eb_exponential_quantize A 4 (eps_double A) abs_eb in
  let* u := aget U (v_p v) in
  let* pu := predict (aget U) (v_p v) (v_s v) (v_kind v) in
  let* (qu, u', nu) := quantize_and_overwrite wrap u pu (d2t A abs_eb) in
  let* U' := aset U (v_p v) u' in
  let* w := aget V (v_p v) in
  let* pv := predict (aget V) (v_p v) (v_s v) (v_kind v) in
  let* (qv, w', nv) := quantize_and_overwrite wrap w pv (d2t A abs_eb) in
  let* V' := aset V (v_p v) w' in
  Some ((U', V'), {| c_eb := [id]; c_q := [qu; qv]; c_unp := nu ++ nv |}).

(** 1765-1793: final working copies and code. *)
Definition enc_sz3 (wrap : bool) (max_eb : D) (r1 r2 : Z) (U V : list T) : option ((list T * list T) * code T) :=
  scan_enc (sz3_point wrap max_eb r1 r2) (visits r1 r2) (U, V).

(** 1800-1806 and VariableEBLinearQuantizer::save (sz3_utils.hpp:148-160). *)
Definition sz3_pieces (c : code T) : list piece :=
  [ Raw (le_bytes 4 4);                                     (* base *)
    Raw (dser A (eps_double A));                            (* threshold *)
    Raw (le_bytes 4 capacity);
    Raw [2];
    Raw (le_bytes 4 intv_radius);
    Raw (le_bytes 8 (Z.of_nat (length (c_unp c))));
    Raw (tser_array A (c_unp c));
    Huff 2048 (c_eb c);
    Huff (2 * capacity) (c_q c) ].

(** Whole compressor; block of 2*n*sizeof(T) bytes (1798). *)
Definition compress_sz3 (wrap : bool) (max_eb : D) ord ub (r1 r2 : Z) (U V : list T) (junk : list Z) : option (list Z * nat) :=
  let* (_, c) := enc_sz3 wrap max_eb r1 r2 U V in
  check* (Z.of_nat (length junk) =? 2 * (r1 * r2) * Z.of_nat (tsize_of A)) in
  write_pieces ord ub (sz3_pieces c) junk 0.

(** ** Decompressor *)

(** sz3_utils.hpp:113-127 recover; consumes from unpred. *)
Definition recover (wrap : bool) (radius : Z) (pred : T) (q : Z) (eb : T) (unp : list T) : option (T * list T) :=
  if q =? 0 then match unp with x :: unp' => Some (x, unp') | [] => None end
  else
    let* d := int32 wrap (q - radius) in
    let* m := int32 wrap (2 * d) in
    Some (tadd A pred (tmul A (tofZ A m) eb), unp).

(** e.g. decompressor 272-276: one point. *)
Definition sz3_dec_point (wrap : bool) (base : Z) (threshold : D) (radius : Z) (s : list (option T) * list (option T)) (c : code T) (v : Z * Z * kind)
  : option ((list (option T) * list (option T)) * code T) :=
  let '(U, V) := s in
  let '(p, d, k) := v in
  match c_eb c, c_q c with
  | id :: ebs, qu :: qv :: qs =>
      let eb := d2t A (dmul A (dpow A base id) threshold) in
      let* pu := predict (uget U) p d k in
      let* (u, n1) := recover wrap radius pu qu eb (c_unp c) in
      let* U' := aset U p (Some u) in
      let* pv := predict (uget V) p d k in
      let* (w, n2) := recover wrap radius pv qv eb n1 in
      let* V' := aset V p (Some w) in
      Some ((U', V'), {| c_eb := ebs; c_q := qs; c_unp := n2 |})
  | _, _ => None
  end.

(** 342-366 with the three arrays. *)
Definition decode_sz3 (wrap : bool) (base : Z) (threshold : D) (radius r1 r2 : Z) (c : code T) : option (list T * list T) :=
  let n := Z.to_nat (r1 * r2) in
  let* (s, _) := scan_dec (sz3_dec_point wrap base threshold radius) (dec_visits r1 r2) (repeat None n, repeat None n) c in
  let* u := written (fst s) in
  let* v := written (snd s) in
  Some (u, v).

(** 320-369; 337 load (sz3_utils.hpp:162-173) with its assert on the placeholder length. *)
Definition decompress_sz3 (wrap : bool) (r1 r2 : Z) (s : list Z) : option (list T * list T) :=
  let n := Z.to_nat (r1 * r2) in
  let* (base, s1) := read_s32 s in
  let* (tb, s2) := take_bytes 8 s1 in
  let* (_, s3) := read_s32 s2 in
  check* (1 + Z.of_nat (tsize_of A) + 4 <? r1 * r2 * Z.of_nat (tsize_of A)) in
  let* (_, s4) := take_bytes 1 s3 in
  let* (radius, s5) := read_s32 s4 in
  let* (cnt, s6) := read_le 8 s5 in
  let* (unp, s7) := tread_array A (Z.to_nat cnt) s6 in
  let* (ebs, s8) := huffman_decode_tree_and_data n s7 in
  let* (qs, _) := huffman_decode_tree_and_data (2 * n) s8 in
  decode_sz3 wrap base (ddes A tb) radius r1 r2 {| c_eb := ebs; c_q := qs; c_unp := unp |}.
End Sz3.
