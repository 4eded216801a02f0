(** The offline 2D bounds: one relative bound per triangle, valid for simultaneous changes of all six values
    (include/sz_cp_preserve_utils.hpp:48-78, 127-131, src/sz_compress_cp_preserve_2d.cpp:15-170), for any arithmetic. *)
From Coq Require Import List ZArith Bool.
From Verif Require Import Base Arith Mesh2D Derive2D.
Import ListNotations.
Local Open Scope Z_scope.

Section Offline.
Context (A : Arith) (cbrt : D A -> D A).      (* cbrt: libm, not in [Arith] *)
Local Notation T := (T A).
Local Notation D := (D A).
Local Infix "+'" := (tadd A) (at level 50, left associativity).
Local Infix "-'" := (tsub A) (at level 50, left associativity).
Local Infix "*'" := (tmul A) (at level 40, left associativity).
Local Notation "-! x" := (tneg A x) (at level 35, right associativity).
Local Infix "+." := (dadd A) (at level 50, left associativity).
Local Infix "-." := (dsub A) (at level 50, left associativity).
Local Infix "/." := (ddiv A) (at level 40, left associativity).
Local Notation "# n" := (dofZ A n) (at level 1, format "# n").
Local Notation t2d := (t2d A).

(** sz_cp_preserve_utils.hpp:127-131 accumulate, for values of the data type and for doubles. *)
Definition accumulate_t (pn : D * D) (value : T) : D * D :=
  let '(p, n) := pn in if tle A (t0 A) value then (p +. t2d value, n) else (p, n +. t2d (-! value)).
Definition accumulate_d (pn : D * D) (value : D) : D * D :=
  let '(p, n) := pn in if dle A #0 value then (p +. value, n) else (p, n +. dneg A value).
Definition acc_t (l : list T) : D * D := fold_left accumulate_t l (#0, #0).
Definition acc_d (l : list D) : D * D := fold_left accumulate_d l (#0, #0).

(** 60-76: the root of the given degree.  [None]: the process exits. *)
Definition degree_root (degree : nat) : option (D -> D) :=
  match degree with
  | 1%nat => Some (fun x => x)
  | 2%nat => Some (dsqrt A)
  | 3%nat => Some cbrt
  | _ => None
  end.

(** 48-78 max_eb_to_keep_sign.  [None]: the process exits. *)
Definition max_eb_to_keep_sign (pn : D * D) (degree : nat) : option D :=
  let '(positive, negative) := pn in
  if dlt A negative #0 || dlt A positive #0 then None
  else if deq A negative #0 || deq A positive #0 then Some #1
  else
    let* r := degree_root degree in
    Some (dabs A (r positive -. r negative) /. (r positive +. r negative)).

(** sz_compress_cp_preserve_2d.cpp:17-27. *)
Definition max_eb_to_keep_sign_det2x2 (u0 u1 u2 v0 v1 v2 : T) : option D :=
  max_eb_to_keep_sign (acc_t [u0 *' v1; (-! u0) *' v2; u1 *' v2; (-! u1) *' v0; u2 *' v0; (-! u2) *' v1]) 2.

(** 30-47 max_eb_to_keep_sign_2d_offline_2, _4 (called on doubles, degree 2). *)
Definition max_eb_to_keep_sign_2d_offline (l : list D) : option D := max_eb_to_keep_sign (acc_d l) 2.

(** 65-71 accumulate_in_square: the products in the order of the two loops. *)
Definition squares (coeff : list T) : list T := flat_map (fun a => map (fun b => a *' b) coeff) coeff.

Definition min_opt (x y : option D) : option D := let* a := x in let* b := y in Some (minf A a b).

(** 77-119 max_eb_to_keep_sign_eigen_delta_2; [c] is get_adjugate_matrix_for_position (53-61). *)
Definition max_eb_to_keep_sign_eigen_delta_2 (u0 u1 u2 v0 v1 v2 : T) (c : T * T * T * T) : option D :=
  let '(c0, c1, c2, c3) := c in
  let eb := min_opt (max_eb_to_keep_sign (acc_t [c0 *' u0; c1 *' u1; (-! (c0 +' c1)) *' u2;
                                                 c2 *' v0; c3 *' v1; (-! (c2 +' c3)) *' v2]) 1)
                    (max_eb_to_keep_sign_det2x2 u0 u1 u2 v0 v1 v2) in
  let m := c1 *' c2 -' c0 *' c3 in
  let C := (-! m) *' (u0 *' v1 -' u0 *' v2 +' u1 *' v2 -' u1 *' v0 +' u2 *' v0 -' u2 *' v1) in
  let* eb := eb in
  if teq A C (t0 A) then Some #0
  else if tlt A C (t0 A) then Some eb
  else
    let coeff := [c0 *' u0; c1 *' u1; (-! (c1 +' c0)) *' u2; c2 *' v0; c3 *' v1; (-! (c3 +' c2)) *' v2] in
    let m4 := tofZ A (-4) *' m in let p4 := tofZ A 4 *' m in
    min_opt (Some eb)
      (max_eb_to_keep_sign (acc_t (squares coeff ++
         [m4 *' u1 *' v0; p4 *' u2 *' v0; p4 *' u0 *' v1; m4 *' u2 *' v1; m4 *' u0 *' v2; p4 *' u1 *' v2])) 2).

(** 121-170 max_eb_to_keep_position_and_type. *)
Definition max_eb_to_keep_position_and_type (u0 u1 u2 v0 v1 v2 x0 x1 x2 y0 y1 y2 : T) : option D :=
  let u0v1 := t2d (u0 *' v1) in let u1v0 := t2d (u1 *' v0) in
  let u0v2 := t2d (u0 *' v2) in let u2v0 := t2d (u2 *' v0) in
  let u1v2 := t2d (u1 *' v2) in let u2v1 := t2d (u2 *' v1) in
  let n := dneg A in
  let det := u0v1 -. u1v0 +. u1v2 -. u2v1 +. u2v0 -. u0v2 in
  let keep := max_eb_to_keep_sign_2d_offline in
  if deq A det #0 then Some #0
  else
    let f1 := dle A #1 (det /. (u2v0 -. u0v2)) in
    let f2 := dle A #1 (det /. (u1v2 -. u2v1)) in
    let f3 := dle A #1 (det /. (u0v1 -. u1v0)) in
    let eb1 := min_opt (keep [u2v0; n u0v2]) (keep [u0v1; n u1v0; u1v2; n u2v1]) in
    let eb2 := min_opt (keep [u1v2; n u2v1]) (keep [u0v1; n u1v0; u2v0; n u0v2]) in
    let eb3 := min_opt (keep [u0v1; n u1v0]) (keep [u1v2; n u2v1; u2v0; n u0v2]) in
    if f1 && f2 && f3 then
      let eb4 := min_opt eb3 (max_eb_to_keep_sign_eigen_delta_2 u0 u1 u2 v0 v1 v2 (adjugate A x0 x1 x2 y0 y1 y2)) in
      min_opt (min_opt eb1 eb2) eb4
    else
      let bump (f : bool) (cur : option D) (eb : option D) : option D :=
        if f then eb else let* e := eb in let* c := cur in Some (dmax A e c) in
      bump f3 eb3 (bump f2 eb2 (bump f1 eb1 (Some #0))).

(** 182-185 (= 283-286): corner [m] of triangle [k] of a cell, as (row, column); X_upper/X_lower hold the same numbers, and
    offset_upper/offset_lower are their linear indices. *)
Definition corner (k m : nat) : Z * Z :=
  nth m (match k with O => [(0, 0); (1, 0); (1, 1)] | _ => [(0, 0); (0, 1); (1, 1)] end) (0, 0).
Definition corner_index (r2 : Z) (i j : Z) (k m : nat) : Z := (i + fst (corner k m)) * r2 + (j + snd (corner k m)).

(** 199-201: eb[.] = MINF(eb[.], max_cur_eb). *)
Definition lower_eb (eb : list D) (p : Z) (cur : D) : option (list D) :=
  let* x := aget eb p in aset eb p (minf A x cur).

(** 192-202: one triangle.  Rows are passed as y and columns as x ("reversed order"). *)
Definition offline_triangle (r2 : Z) (U V : list T) (eb : list D) (t : Z * Z * nat) : option (list D) :=
  let '(i, j, k) := t in
  let ix := corner_index r2 i j k in
  let x m := tofZ A (snd (corner k m)) in
  let y m := tofZ A (fst (corner k m)) in
  let* u0 := aget U (ix 0%nat) in let* u1 := aget U (ix 1%nat) in let* u2 := aget U (ix 2%nat) in
  let* v0 := aget V (ix 0%nat) in let* v1 := aget V (ix 1%nat) in let* v2 := aget V (ix 2%nat) in
  let* cur := max_eb_to_keep_position_and_type u0 u1 u2 v0 v1 v2 (x 0%nat) (x 1%nat) (x 2%nat) (y 0%nat) (y 1%nat) (y 2%nat) in
  let* eb := lower_eb eb (ix 0%nat) cur in
  let* eb := lower_eb eb (ix 1%nat) cur in
  lower_eb eb (ix 2%nat) cur.

(** 188-211: triangles in the order of the loops. *)
Definition triangles (r1 r2 : Z) : list (Z * Z * nat) :=
  flat_map (fun ij => [(ij, 0%nat); (ij, 1%nat)]) (scan2 (r1 - 1) (r2 - 1)).

Fixpoint fold_opt {S X} (f : S -> X -> option S) (l : list X) (s : S) : option S :=
  match l with
  | [] => Some s
  | x :: l => let* s' := f s x in fold_opt f l s'
  end.

(** 176-211 (= 277-313): one relative bound per vertex. *)
Definition offline_ebs (max_eb : D) (r1 r2 : Z) (U V : list T) : option (list D) :=
  fold_opt (offline_triangle r2 U V) (triangles r1 r2) (repeat max_eb (Z.to_nat (r1 * r2))).
End Offline.
