(** sz_compress_cp_preserve_2d_bilinear_online_log (src/sz_compress_cp_preserve_2d_bilinear.cpp:755-1071), for any arithmetic.
    Line numbers without a file name are of that file.  The stream is the one of the log-domain codec (Log2D) and is read by
    sz_decompress_cp_preserve_2d_online_log.  [transpose] is unused by the code; prints are left out. *)
From Coq Require Import List ZArith Bool.
From Verif Require Import Base Huffman BitPack Stream Arith Mesh2D Derive2D Codec2D Scan Log2D.
Import ListNotations.
Local Open Scope Z_scope.

Declare Scope dbl_scope.
Delimit Scope dbl_scope with dbl.

Section Bil.
Context (A : Arith).
Local Notation T := (T A).
Local Notation D := (D A).
Local Notation "# n" := (dofZ A n%Z) (at level 8, n at level 7, format "# n").
Local Notation "x + y" := (dadd A x y) : dbl_scope.
Local Notation "x - y" := (dsub A x y) : dbl_scope.
Local Notation "x * y" := (dmul A x y) : dbl_scope.
Local Notation "x / y" := (ddiv A x y) : dbl_scope.
Local Notation "- x" := (dneg A x) : dbl_scope.
Local Notation "x <? y" := (dlt A x y) : dbl_scope.
Local Open Scope dbl_scope.

(** ** Bounds that keep signs *)

(** 10-15 max_eb_to_keep_sign_2d_online, on doubles. *)
Definition keep_sign (a b c : D) : D :=
  let fabs_sum := dabs A a + dabs A b in
  if deq A fabs_sum #0 then #0 else dabs A (a + b + c) / fabs_sum.

(** 71 (= 80, 89, 98, 112, 116): lower [eb] to the root [x] when it is positive. *)
Definition root_min (x eb : D) : D := if #0 <? x then minf A eb x else eb.

(** 111: root of a quadratic with the minus sign. *)
Definition root_gt0 (a b c : D) : D := (- b - dsqrt A (b * b - #4 * a * c)) / (#2 * a).
(** 70 (= 79, 88, 97, 115): with the plus sign. *)
Definition root_lt0 (a b c : D) : D := (- b + dsqrt A (b * b - #4 * a * c)) / (#2 * a).

(** 61-103 max_eb_to_keep_sign_2d_online_corners_lt0.  (20-56, the version for f > 0, is never called.) *)
Definition corners_lt0 (a b c d e f : D) : D :=
  let eb := root_min (root_lt0 (a + b + c) (- d - e) f) #1 in
  let eb := root_min (root_lt0 (a + b - c) (- d + e) f) eb in
  let eb := root_min (root_lt0 (a + b - c) (d - e) f) eb in
  root_min (root_lt0 (a + b + c) (d + e) f) eb.

(** 107-119 max_eb_to_keep_sign_quadratic. *)
Definition keep_sign_quadratic (a b c : D) : D :=
  if #0 <? c then root_min (root_gt0 a b c) #1 else root_min (root_lt0 a b c) #1.

(** 124-142 max_eb_to_keep_sign_2d_online_quadratic_cylinder. *)
Definition cylinder (a b c d e f : D) : D :=
  if #0 <? f then minf A #1 (f / (dabs A d + dabs A e)) else minf A #1 (corners_lt0 a b c d e f).

(** 173-185 and the similar blocks 194-206, 218-230, 264-275, 281-292, 303-315, 324-336: eb1; [e1] is its value before the block.
    [den2] is tested and [den3] divides: they differ in 331-332. *)
Definition edge_eb1 (e1 e den1 den2 den3 : D) : D :=
  let e1 := if #0 <? den1 then dmax A #0 (e / den1) else if #0 <? e then #1 else e1 in
  if #0 <? den2 then dmax A e1 (- e / den3) else if e <? #0 then #1 else e1.
(** 187-189 and the blocks alike: eb2, unchanged ([e2]) unless the constant term has the sign of f. *)
Definition edge_eb2 (ok : bool) (e2 a b c : D) : D := if ok then keep_sign_quadratic a b c else e2.

(** 146-346 max_eb_to_keep_sign_2d_online_general. *)
Definition general (a b c d e f : D) : D :=
  let det_H := #4 * a * b - c * c in
  let eb := cylinder a b c d e f in
  if dle A #0 det_H then eb
  else if #0 <? f then
    let eb :=
      if #0 <? b then
        let g := f - (e * e) / (#4 * b) in
        let q := a - (c * c) / (#4 * b) in
        let eb1 := edge_eb1 #0 e (#2 * b - c) (#2 * b + c) (#2 * b + c) in
        let eb2 := edge_eb2 (#0 <? g) #0 q (d - (c * e) / (#2 * b)) g in
        let eb := minf A eb (dmax A eb1 eb2) in
        let eb1 := edge_eb1 eb1 e (#2 * b + c) (#2 * b - c) (#2 * b - c) in
        let eb2 := edge_eb2 (#0 <? g) eb2 q (- d + (c * e) / (#2 * b)) g in
        minf A eb (dmax A eb1 eb2)
      else eb in
    if #0 <? a then                         (* 236-255: the bound of the edge y = -t is computed but not used *)
      let g := f - (d * d) / (#4 * a) in
      let q := b - (c * c) / (#4 * a) in
      let eb1 := edge_eb1 #0 d (#2 * a - c) (#2 * a + c) (#2 * a + c) in
      let eb2 := edge_eb2 (#0 <? g) #0 q (e - (c * d) / (#2 * a)) g in
      minf A eb (dmax A eb1 eb2)
    else eb
  else
    let eb :=
      if b <? #0 then
        let g := f + (e * e) / (#(-4) * b) in
        let q := a + (c * c) / (#(-4) * b) in
        let eb1 := edge_eb1 #0 e (#(-2) * b - c) (#(-2) * b + c) (#(-2) * b + c) in
        let eb2 := edge_eb2 (g <? #0) #0 q (d + (c * e) / (#(-2) * b)) g in
        let eb := minf A eb (dmax A eb1 eb2) in
        let eb1 := edge_eb1 eb1 e (#(-2) * b + c) (#(-2) * b - c) (#(-2) * b - c) in
        let eb2 := edge_eb2 (g <? #0) eb2 q (- d - (c * e) / (#(-2) * b)) g in
        minf A eb (dmax A eb1 eb2)
      else eb in
    if a <? #0 then
      let g := f + (d * d) / (#(-4) * a) in
      let q := b + (c * c) / (#(-4) * a) in
      let eb1 := edge_eb1 #0 d (#(-2) * a - c) (#(-2) * a + c) (#(-2) * a + c) in
      let eb2 := edge_eb2 (g <? #0) #0 q (e + (c * d) / (#(-2) * a)) g in
      let eb := minf A eb (dmax A eb1 eb2) in
      let eb1 := edge_eb1 eb1 d (#(-2) * a + c) (#(-2) * a - c) (#(-2) * a + c) in
      let eb2 := edge_eb2 (g <? #0) eb2 q (- e - (c * d) / (#(-2) * a)) g in
      minf A eb (dmax A eb1 eb2)
    else eb.

(** ** Bound of one cell *)
Section Cell.
Context (u0 u1 u2 u3 v0 v1 v2 v3 : D).

(** 417-423, 428 (= 489-497): keep the sign of the discriminant. *)
Definition eb_delta : D :=
  cylinder (u3*u3*v1*v1) (u1*u1*v3*v3) (#(-2)*u1*u3*v1*v3)
    (#(-2)*u2*u3*v0*v1 + #2*u3*u3*v1*v1 + #4*u1*u3*v0*v2 - #2*u0*u3*v1*v2 - #2*u1*u3*v1*v3)
    (#(-2)*u1*u2*v0*v3 + #4*u0*u2*v1*v3 - #2*u1*u3*v1*v3 - #2*u0*u1*v2*v3 + #2*u1*u1*v3*v3)
    (u2*u2*v0*v0 - #2*u2*u3*v0*v1 + u3*u3*v1*v1 - #2*u0*u2*v0*v2 + #4*u1*u3*v0*v2 - #2*u0*u3*v1*v2
     + u0*u0*v2*v2 - #2*u1*u2*v0*v3 + #4*u0*u2*v1*v3 - #2*u1*u3*v1*v3 - #2*u0*u1*v2*v3 + u1*u1*v3*v3).
(** 426 (= 469, 509): keep the sign of A0C1 - A1C0. *)
Definition eb_det : D := keep_sign (- u3*v1 + u3*v2) (u1*v3 - u2*v3) (- u1*v0 + u2*v0 + u0*v1 - u0*v2).
(** 446-449 (= 501-504, 542-545, 572-575): keep the sign of f(0). *)
Definition eb_f0 : D :=
  keep_sign (u1*u3*v0*v1 - u0*u3*v1*v1 - u1*u3*v0*v2 + u0*u3*v1*v2)
    (- u1*u1*v0*v3 + u1*u2*v0*v3 + u0*u1*v1*v3 - u0*u2*v1*v3)
    (u1*u1*v0*v0 - u1*u2*v0*v0 - #2*u0*u1*v0*v1 + u0*u2*v0*v1 + u0*u0*v1*v1 + u0*u1*v0*v2 - u0*u0*v1*v2).
(** 458-465 (= 523-530, 551-559, 579-586): keep the sign of f(1). *)
Definition eb_f1 : D :=
  general (u3*u3*v2*v2 - u3*u3*v1*v2) (- u1*u2*v3*v3 + u2*u2*v3*v3) (u2*u3*v1*v3 + u1*u3*v2*v3 - #2*u2*u3*v2*v3)
    (- u1*u3*v0*v2 + u2*u3*v0*v2 + u0*u3*v1*v2 - #2*u3*u3*v1*v2 - u0*u3*v2*v2 + #2*u3*u3*v2*v2 + u2*u3*v1*v3 + u1*u3*v2*v3 - #2*u2*u3*v2*v3)
    (u1*u2*v0*v3 - u2*u2*v0*v3 - u0*u2*v1*v3 + u2*u3*v1*v3 + u0*u2*v2*v3 + u1*u3*v2*v3 - #2*u2*u3*v2*v3 - #2*u1*u2*v3*v3 + #2*u2*u2*v3*v3)
    (- u1*u3*v0*v2 + u2*u3*v0*v2 + u0*u3*v1*v2 - u3*u3*v1*v2 - u0*u3*v2*v2 + u3*u3*v2*v2 + u1*u2*v0*v3 - u2*u2*v0*v3 - u0*u2*v1*v3
     + u2*u3*v1*v3 + u0*u2*v2*v3 + u1*u3*v2*v3 - #2*u2*u3*v2*v3 - u1*u2*v3*v3 + u2*u2*v3*v3).
(** 471-474 (= 511-514): keep the sign of the trace. *)
Definition tr_a : D := - u3*v1.
Definition tr_b : D := u1*v3.
Definition tr_c : D := #(-2)*u1*v0 + u2*v0 + #2*u0*v1 - u0*v2.
Definition eb_tr : D := keep_sign tr_a tr_b tr_c.
(** 476-479 (= 516-519): keep the sign of the trace minus twice the determinant. *)
Definition eb_tr2 : D :=
  keep_sign (tr_a - #2*(- u3*v1 + u3*v2)) (tr_b - #2*(u1*v3 - u2*v3)) (tr_c - #2*(- u1*v0 + u2*v0 + u0*v1 - u0*v2)).

(** 355-595 derive_cp_eb_bilinear_online. *)
Definition derive_bil : D :=
  let A0 := u3 - u0 - u2 + u1 in
  let B0 := u0 - u1 in
  let C0 := u2 - u1 in
  let D0 := u1 in
  let A1 := v3 - v0 - v2 + v1 in
  let B1 := v0 - v1 in
  let C1 := v2 - v1 in
  let D1 := v1 in
  let det := A0*C1 - A1*C0 in
  if deq A det #0 then #0
  else
    let m0 := (- B0*C1 + B1*C0) / det in
    let m1 := (- C1*D0 + C0*D1) / det in
    let m2 := (A1*B0 - A0*B1) / det in
    let m3 := (A1*D0 - A0*D1) / det in
    let dM := m0*m3 - m1*m2 in
    let tM := m0 + m3 in
    let delta := tM*tM - #4*dM in
    if deq A dM #0 || deq A tM #0 then #0
    else if deq A delta #0 then #0
    else if delta <? #0 then minf A (minf A #1 eb_det) eb_delta
    else if (#0 <? dM) && (#0 <? #1 - tM + dM) then
      if (tM <? #0) || dle A #2 tM then
        let eb := minf A (minf A #1 eb_f0) eb_f1 in
        let eb := minf A eb eb_det in
        minf A eb (dmax A eb_tr eb_tr2)
      else
        let eb := minf A (minf A #1 eb_delta) eb_f0 in
        let eb := minf A eb eb_det in
        let eb := minf A (minf A eb eb_tr) eb_tr2 in
        minf A eb eb_f1
    else minf A (minf A #1 eb_f0) eb_f1.      (* 534-563 and 564-588 do the same *)
End Cell.

(** ** Critical points of a cell *)

(** 646-649: the real part of the complex square root of [delta], when [delta >= 0] is false; an oracle. *)
Context (csqrt_re : D -> D).

(** 651-687 solve_eigenvalues2x2 (delta and the real parts of both roots) and 690-711 get_cp_type.
    For [delta >= 0] false only the first real part is used. *)
Definition cp_type (j00 j01 j10 j11 : D) : Z :=
  let P1 := - (j00 + j11) in
  let P0 := j00 * j11 - j10 * j01 in
  let delta := P1 * P1 - #4 * #1 * P0 in
  if dle A #0 delta then
    let x0 := (- P1 + dsqrt A delta) / (#2 * #1) in
    let x1 := (- P1 - dsqrt A delta) / (#2 * #1) in
    if x0 * x1 <? #0 then 3%Z else if x0 <? #0 then 1%Z else if #0 <? x0 then 2%Z else 0%Z
  else
    let x0 := (- P1 + csqrt_re delta) / (#2 * #1) in
    if x0 <? #0 then 4%Z else if #0 <? x0 then 5%Z else 6%Z.

(** 597-643 inverse_bilinear_interpolation, followed by the type of each root (737-753 compares them one by one). *)
Definition roots (A0 B0 C0 D0 A1 B1 C1 D1 : D) : list Z :=
  let detM1 := A0*C1 - A1*C0 in
  let i0 := C1 / detM1 in let i1 := - C0 / detM1 in let i2 := - A1 / detM1 in let i3 := A0 / detM1 in
  let q0 := i0 * - B0 + i1 * - B1 in
  let q1 := i0 * - D0 + i1 * - D1 in
  let q2 := i2 * - B0 + i3 * - B1 in
  let q3 := i2 * - D0 + i3 * - D1 in
  let trace := q0 + q3 in
  let det := q0*q3 - q1*q2 in
  if trace*trace/#4 - det <? #0 then []
  else
    let s := dsqrt A (trace*trace/#4 - det) in
    flat_map (fun y =>
      let x := (y - q3) / q2 in
      if dle A #0 x && (x <? #1) && dle A #0 y && (y <? #1)
      then [cp_type (A0*y + B0) (A0*x + C0) (A1*y + B1) (A1*x + C1)] else [])
      [trace/#2 + s; trace/#2 - s].

(** 719-735 bilinear_extract_critical_point: the types of the critical points found, in order. *)
Definition cell_roots (u0 u1 u2 u3 v0 v1 v2 v3 : D) : list Z :=
  roots (u0 - u1 - u3 + u2) (u1 - u0) (u3 - u0) u0 (v0 - v1 - v3 + v2) (v1 - v0) (v3 - v0) v0.

(** ** The encoder *)
Local Open Scope Z_scope.

(** 800-811: tables x and y, 813-819: index_offset. *)
Definition sq_x : list (list Z) := [[1; 0; 0; 1]; [0; 0; 1; 1]; [0; 1; 1; 0]; [1; 1; 0; 0]].
Definition sq_y : list (list Z) := [[0; 0; 1; 1]; [0; 1; 1; 0]; [1; 1; 0; 0]; [1; 0; 0; 1]].
Definition sq_off_x (k p : nat) : Z := tab sq_x k p - tab sq_x k 3.
Definition sq_off_y (k p : nat) : Z := tab sq_y k p - tab sq_y k 3.
(** 833-841 (= 900-908, 934-942, 961-969, 988-996): the cell is inside the grid. *)
Definition sq_in_mesh (r1 r2 i j : Z) (k : nat) : bool :=
  forallb (fun p => in_range (i + sq_off_y k p) r1 && in_range (j + sq_off_x k p) r2) [0%nat; 1%nat; 2%nat].
(** 795-797: offsets. *)
Definition sq_offset (r2 : Z) (k : nat) : Z := nth k [- r2; - r2 - 1; -1; r2 - 1; r2; r2 + 1; 1; - r2 + 1; - r2] 0.

(** 832: the values of k. *)
Definition four : list nat := [0; 1; 2; 3]%nat.

(** 830-848: required_eb. *)
Fixpoint bil_loop (U V : list T) (r1 r2 i j : Z) (ks : list nat) (eb : D) : option D :=
  match ks with
  | [] => Some eb
  | k :: ks' =>
      if sq_in_mesh r1 r2 i j k then
        let g (w : list T) n := option_map (t2d A) (aget w (i * r2 + j + sq_offset r2 n)) in
        let* u0 := g U (2 * k)%nat in
        let* u1 := g U (2 * k + 1)%nat in
        let* u2 := g U (2 * k + 2)%nat in
        let* u3 := option_map (t2d A) (aget U (i * r2 + j)) in
        let* v0 := g V (2 * k)%nat in
        let* v1 := g V (2 * k + 1)%nat in
        let* v2 := g V (2 * k + 2)%nat in
        let* v3 := option_map (t2d A) (aget V (i * r2 + j)) in
        bil_loop U V r1 r2 i j ks' (minf A eb (derive_bil u0 u1 u2 u3 v0 v1 v2 v3))
      else bil_loop U V r1 r2 i j ks' eb
  end.
(** src/sz_compress_cp_preserve_2d_bilinear.cpp:830-848: the loop over the four squares, from required_eb = max_pwr_eb. *)
Definition required_eb_bil (max_eb : D) (U V : list T) (r1 r2 i j : Z) : option D := bil_loop U V r1 r2 i j four max_eb.

(** 912-915, 946-949, 973-976, 1000-1003: offsets of the four corners of cell k, in the order of the call, and the one that is the
    current point. *)
Definition corner (r2 : Z) (k c : nat) : Z :=
  nth c (nth k [[-1 - r2; - r2; 0; -1]; [-1; 0; r2; r2 - 1]; [0; 1; r2 + 1; r2]; [- r2; - r2 + 1; 1; 0]] []) 0.
Definition cur_corner (k : nat) : nat := nth k [2; 1; 0; 3]%nat 0%nat.
(** Argument c of the call on [w], [x] being passed for the current point. *)
Definition corner_value (w : list T) (x : D) (r2 p : Z) (k c : nat) : option D :=
  if Nat.eqb c (cur_corner k) then Some x else option_map (t2d A) (aget w (p + corner r2 k c)).
(** The types found by the call. *)
Definition corner_roots (U V : list T) (u v : D) (r2 p : Z) (k : nat) : option (list Z) :=
  let* u0 := corner_value U u r2 p k 0 in
  let* u1 := corner_value U u r2 p k 1 in
  let* u2 := corner_value U u r2 p k 2 in
  let* u3 := corner_value U u r2 p k 3 in
  let* v0 := corner_value V v r2 p k 0 in
  let* v1 := corner_value V v r2 p k 1 in
  let* v2 := corner_value V v r2 p k 2 in
  let* v3 := corner_value V v r2 p k 3 in
  Some (cell_roots u0 u1 u2 u3 v0 v1 v2 v3).

(** 889-1014: verification; [u], [v] the current values and [u'], [v'] the reconstructed ones.  true: accepted. *)
Fixpoint verify (U V : list T) (u v u' v' : D) (r1 r2 i j : Z) (ks : list nat) : option bool :=
  match ks with
  | [] => Some true
  | k :: ks' =>
      if sq_in_mesh r1 r2 i j k then
        let* l := corner_roots U V u v r2 (i * r2 + j) k in
        let* l' := corner_roots U V u' v' r2 (i * r2 + j) k in
        if list_eq_dec Z.eq_dec l l' then verify U V u v u' v' r1 r2 i j ks' else Some false
      else verify U V u v u' v' r1 r2 i j ks'
  end.

(** 830-1044: one grid point (892-893: the reconstructed values). *)
Definition bil_point (max_eb : D) (r1 r2 : Z) (s : log_state A) (ij : Z * Z) : option (log_state A * code T) :=
  let '(U, V, LU, LV) := s in
  let '(i, j) := ij in
  let p := i * r2 + j in
  let* u := aget U p in
  let* v := aget V p in
  let* required_eb := required_eb_bil max_eb U V r1 r2 i j in
  let stored := Some (U, V, LU, LV, log_verbatim A u v) in
  if dlt A (dofZ A 0) required_eb && negb (teq A u (t0 A)) && negb (teq A v (t0 A)) then
    let* (id, abs_eb) := eb_exponential_quantize A 2 (eps_float A) (dlog2 A (dadd A (dofZ A 1) required_eb)) in
    if 0 <? id then
      let* lu := aget LU p in
      let* pred0 := lorenzo A LU r2 i j in
      let* a0 := quantise A pred0 lu abs_eb in
      match a0 with
      | Fail _ => stored
      | Coded _ q0 x0 =>
          let* lv := aget LV p in
          let* pred1 := lorenzo A LV r2 i j in
          let* a1 := quantise A pred1 lv abs_eb in
          match a1 with
          | Fail _ => stored
          | Coded _ q1 x1 =>
              let* ok := verify U V (t2d A u) (t2d A v) (t2d A (unlog A u x0)) (t2d A (unlog A v x1)) r1 r2 i j four in
              if (ok : bool) then
                let* LU' := aset LU p x0 in
                let* LV' := aset LV p x1 in
                let* U' := aset U p (unlog A u x0) in
                let* V' := aset V p (unlog A v x1) in
                Some (U', V', LU', LV', {| c_eb := [id]; c_q := [q0; q1]; c_unp := [] |})
              else stored
          end
      end
    else stored
  else stored.

(** 759-1046: final working arrays and code. *)
Definition enc_bil (max_eb : D) (r1 r2 : Z) (U V : list T) : option (log_state A * code T) :=
  scan_enc (bil_point max_eb r1 r2) (scan2 r1 r2) (U, V, map (log_value A) U, map (log_value A) V).

(** Whole compressor; 1055: the output block has 3*n*sizeof(T) bytes. *)
Definition compress_bil (max_eb : D) ord ub (r1 r2 : Z) (U V : list T) (junk : list Z) : option (list Z * nat) :=
  check* (1 <=? r1 * r2) in
  let* (_, c) := enc_bil max_eb r1 r2 U V in
  check* (Z.of_nat (length junk) =? 3 * (r1 * r2) * Z.of_nat (tsize_of A)) in
  write_pieces ord ub (log_pieces A U V c) junk 0.
End Bil.
