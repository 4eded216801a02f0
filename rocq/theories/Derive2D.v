(** Derivation of critical-point preserving error bounds in 2D
    (src/sz_compress_cp_preserve_2d.cpp:53-61, 390-537, 724-771), for any arithmetic.
    fabs is taken at the type of its argument (the std:: overloads). *)
From Coq Require Import List ZArith Bool.
From Verif Require Import Base Arith Mesh2D.
Import ListNotations.
Local Open Scope Z_scope.

Section Derive.
Context (A : Arith).
Local Notation T := (T A).
Local Notation D := (D A).
Local Infix "+'" := (tadd A) (at level 50, left associativity).
Local Infix "-'" := (tsub A) (at level 50, left associativity).
Local Infix "*'" := (tmul A) (at level 40, left associativity).
Local Infix "/'" := (tdiv A) (at level 40, left associativity).
Local Notation "-! x" := (tneg A x) (at level 35, right associativity).
Local Infix "+." := (dadd A) (at level 50, left associativity).
Local Infix "-." := (dsub A) (at level 50, left associativity).
Local Infix "*." := (dmul A) (at level 40, left associativity).
Local Infix "/." := (ddiv A) (at level 40, left associativity).
Local Notation "# n" := (dofZ A n) (at level 1, format "# n").
Local Notation t2d := (t2d A).
Local Notation tabs := (tabs A).
Local Notation dabs := (dabs A).

(** 53-61 get_adjugate_matrix_for_position (result c[0..3]). *)
Definition adjugate (x0 x1 x2 y0 y1 y2 : T) : T * T * T * T :=
  let det := (x0 -' x2) *' (y1 -' y2) -' (x1 -' x2) *' (y0 -' y2) in
  ((y1 -' y2) /' det, (-! (y0 -' y2)) /' det, (-! (x1 -' x2)) /' det, (x0 -' x2) /' det).

(** 591-594: inv_C[k]. *)
Definition inv_C (k : nat) : T * T * T * T :=
  adjugate (tofZ A (tab tab_x k 0)) (tofZ A (tab tab_x k 1)) (tofZ A (tab tab_x k 2))
           (tofZ A (tab tab_y k 0)) (tofZ A (tab tab_y k 1)) (tofZ A (tab tab_y k 2)).

(** 391-396 max_eb_to_keep_sign_2d_online(A,B,C). *)
Definition max_eb_to_keep_sign_2d_online (a b c : T) : D :=
  let fabs_sum := t2d (tabs a +' tabs b) in
  if deq A fabs_sum #0 then #0 else t2d (tabs (a +' b +' c)) /. fabs_sum.

(** 401-408. *)
Definition max_eb_to_keep_position_online (u0v1 u1v0 u1v2 u2v1 u2v0 u0v2 : T) : D :=
  minf A (max_eb_to_keep_sign_2d_online (-! u2v1) u1v2 (t0 A))
         (max_eb_to_keep_sign_2d_online u2v0 (-! u0v2) (t0 A)).

(** 413-477. *)
Definition max_eb_to_keep_type_online (u0 u1 u2 v0 v1 v2 : T) (c : T * T * T * T) : D :=
  let '(c0, c1, c2, c3) := c in
  let eb := minf A #1 (max_eb_to_keep_sign_2d_online (u2 *' v0 -' u2 *' v1) (u1 *' v2 -' u0 *' v2)
                                                     (u0 *' v1 -' u1 *' v0)) in
  let m := c1 *' c2 -' c0 *' c3 in
  let C := (-! m) *' (u0 *' v1 -' u0 *' v2 +' u1 *' v2 -' u1 *' v0 +' u2 *' v0 -' u2 *' v1) in
  if tle A C (t0 A) then eb
  else
    let tA := (-! c0) *' u2 -' c1 *' u2 in
    let tB := (-! c2) *' v2 -' c3 *' v2 in
    let tC := c0 *' u0 +' c1 *' u1 +' c2 *' v0 +' c3 *' v1 in
    let eb := max_eb_to_keep_sign_2d_online tA tB tC in
    let dA := t2d tA in let dB := t2d tB in let dC := t2d tC in
    let dD := t2d ((-! m) *' (u2 *' v0 -' u2 *' v1)) in
    let dE := t2d ((-! m) *' (u1 *' v2 -' u0 *' v2)) in
    let dF := t2d ((-! m) *' (u0 *' v1 -' u1 *' v0)) in
    let dC := dC +. (dA +. dB) in
    let dF := dF +. (dD +. dE) in
    let delta := dC *. dC -. #4 *. dF in
    let s1 := dabs (#2 *. dA *. dC -. #4 *. dD) in
    let s2 := dabs (#2 *. dB *. dC -. #4 *. dE) in
    if deq A delta #0 then #0
    else if dlt A #0 delta then
      if deq A (s1 +. s2) #0 then #1
      else minf A eb (delta /. (s1 +. s2))
    else
      let a := (dabs dA +. dabs dB) *. (dabs dA +. dabs dB) in
      let b := s1 +. s2 in
      minf A eb ((dneg A b +. dsqrt A (b *. b -. #4 *. a *. delta)) /. (#2 *. a)).

(** 482-537. *)
Definition derive_cp_eb_for_positions_online (u0 u1 u2 v0 v1 v2 : T) (c : T * T * T * T) : D :=
  let M0 := t2d (u2 *' v0 -' u0 *' v2) in
  let M1 := t2d (u1 *' v2 -' u2 *' v1) in
  let M2 := t2d (u0 *' v1 -' u1 *' v0) in
  let M := M0 +. M1 +. M2 in
  if deq A M #0 then #0
  else
    let f1 := deq A M0 #0 || dle A #1 (M /. M0) in
    let f2 := deq A M1 #0 || dle A #1 (M /. M1) in
    let f3 := deq A M2 #0 || dle A #1 (M /. M2) in
    if f1 && f2 && f3 then
      minf A (max_eb_to_keep_position_online (u0 *' v1) (u1 *' v0) (u1 *' v2) (u2 *' v1) (u2 *' v0) (u0 *' v2))
             (max_eb_to_keep_type_online u0 u1 u2 v0 v1 v2 c)
    else
      let eb := #0 in
      let eb := if f1 then eb else
        dmax A eb (minf A (max_eb_to_keep_sign_2d_online (u2 *' v0) ((-! u0) *' v2) (t0 A))
                          (max_eb_to_keep_sign_2d_online ((-! u2) *' v1) (u1 *' v2) (u0 *' v1 -' u1 *' v0))) in
      let eb := if f2 then eb else
        dmax A eb (minf A (max_eb_to_keep_sign_2d_online ((-! u2) *' v1) (u1 *' v2) (t0 A))
                          (max_eb_to_keep_sign_2d_online (u2 *' v0) ((-! u0) *' v2) (u0 *' v1 -' u1 *' v0))) in
      if f3 then eb else
        dmax A eb (max_eb_to_keep_sign_2d_online (u2 *' v0 -' u2 *' v1) (u1 *' v2 -' u0 *' v2) (t0 A)).

(** 725-728. *)
Definition max_eb_to_keep_sign_2d_online_abs (a b c : T) : D :=
  t2d (tabs c /' (tabs a +' tabs b)).

(** 732-771. *)
Definition derive_cp_eb_for_positions_online_abs (u0 u1 u2 v0 v1 v2 : T) : D :=
  let M0 := t2d (u2 *' v0 -' u0 *' v2) in
  let M1 := t2d (u1 *' v2 -' u2 *' v1) in
  let M2 := t2d (u0 *' v1 -' u1 *' v0) in
  let M := M0 +. M1 +. M2 in
  if deq A M #0 then #0
  else
    let f1 := deq A M0 #0 || dle A #1 (M /. M0) in
    let f2 := deq A M1 #0 || dle A #1 (M /. M1) in
    let f3 := deq A M2 #0 || dle A #1 (M /. M2) in
    if f1 && f2 && f3 then #0
    else
      let eb := #0 in
      let eb := if f1 then eb else
        dmax A eb (minf A (max_eb_to_keep_sign_2d_online_abs v0 (-! u0) (u2 *' v0 -' u0 *' v2))
                          (max_eb_to_keep_sign_2d_online_abs (-! v1) u1
                             (u1 *' v2 -' u2 *' v1 +' u0 *' v1 -' u1 *' v0))) in
      let eb := if f2 then eb else
        dmax A eb (minf A (max_eb_to_keep_sign_2d_online_abs (-! v1) u1 (u1 *' v2 -' u2 *' v1))
                          (max_eb_to_keep_sign_2d_online_abs v0 (-! u0)
                             (u2 *' v0 -' u0 *' v2 +' u0 *' v1 -' u1 *' v0))) in
      if f3 then eb else
        dmax A eb (max_eb_to_keep_sign_2d_online_abs (v0 -' v1) (u1 -' u0)
                     (u2 *' v0 -' u0 *' v2 +' u1 *' v2 -' u2 *' v1)).

(** Values of the triangle k around the point with linear index p:
    (u0,u1,u2,v0,v1,v2) = (U[p+offsets[k]], U[p+offsets[k+1]], U[p], ...). *)
Definition tri_values (U V : list T) (r2 p : Z) (k : nat) : option (T * T * T * T * T * T) :=
  let* u0 := aget U (p + offset r2 k) in
  let* u1 := aget U (p + offset r2 (S k)) in
  let* u2 := aget U p in
  let* v0 := aget V (p + offset r2 k) in
  let* v1 := aget V (p + offset r2 (S k)) in
  let* v2 := aget V p in
  Some (u0, u1, u2, v0, v1, v2).

(** 609-624 (= 866-884): loop over the six triangles. *)
Fixpoint req_loop (f : T * T * T * T * T * T -> nat -> D) (U V : list T) (r1 r2 i j : Z)
         (ks : list nat) (eb : D) : option D :=
  match ks with
  | [] => Some eb
  | k :: ks' =>
      if in_mesh r1 r2 i j k then
        let* v := tri_values U V r2 (i * r2 + j) k in
        req_loop f U V r1 r2 i j ks' (minf A eb (f v k))
      else req_loop f U V r1 r2 i j ks' eb
  end.

(** src/sz_compress_cp_preserve_2d.cpp:611: the values of k. *)
Definition six : list nat := [0; 1; 2; 3; 4; 5]%nat.

(** required_eb of the relative codecs (lines 609-624, 866-884). *)
Definition required_eb_rel (max_eb : D) (U V : list T) (r1 r2 i j : Z) : option D :=
  req_loop (fun '(u0, u1, u2, v0, v1, v2) k => derive_cp_eb_for_positions_online u0 u1 u2 v0 v1 v2 (inv_C k))
           U V r1 r2 i j six max_eb.

(** required_eb of the absolute codec (lines 1053-1074). *)
Definition required_eb_abs (max_eb : D) (U V : list T) (r1 r2 i j : Z) : option D :=
  let* u := aget U (i * r2 + j) in
  let* v := aget V (i * r2 + j) in
  if teq A u (t0 A) || teq A v (t0 A) then Some #0
  else
    req_loop (fun '(u0, u1, u2, v0, v1, v2) _ => derive_cp_eb_for_positions_online_abs u0 u1 u2 v0 v1 v2)
             U V r1 r2 i j six max_eb.
End Derive.
