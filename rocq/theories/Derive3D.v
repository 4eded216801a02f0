(** Derivation of critical-point preserving error bounds in 3D
    (src/sz_compress_cp_preserve_3d.cpp:598-602, 660-745, 1156-1238), for any arithmetic.
    A vertex is the triple of its three components. *)
From Coq Require Import List ZArith Bool.
From Verif Require Import Base Arith Mesh2D Mesh3D.
Import ListNotations.
Local Open Scope Z_scope.

Section Derive.
Context (A : Arith).
Local Notation T := (T A).
Local Notation D := (D A).
Local Infix "+'" := (tadd A) (at level 50, left associativity).
Local Infix "-'" := (tsub A) (at level 50, left associativity).
Local Infix "*'" := (tmul A) (at level 40, left associativity).
Local Notation "-! x" := (tneg A x) (at level 35, right associativity).
Local Infix "+." := (dadd A) (at level 50, left associativity).
Local Infix "*." := (dmul A) (at level 40, left associativity).
Local Infix "/." := (ddiv A) (at level 40, left associativity).
Local Notation "# n" := (dofZ A n) (at level 1, format "# n").
Local Notation t2d := (t2d A).
Local Notation dabs := (dabs A).
(** src/sz_compress_cp_preserve_3d.cpp:1373-1375: one vertex, (U, V, W). *)
Definition vec3 : Type := T * T * T.

(** 1157-1163 max_eb_to_keep_sign_3d_online_abs (called on doubles only). *)
Definition max_eb_to_keep_sign_3d_online_abs (a b c d : D) : D :=
  if deq A (dabs a +. dabs b +. dabs c) #0 then (if deq A d #0 then #0 else #1000000000)
  else dabs d /. (dabs a +. dabs b +. dabs c).

(** 599-602 max_eb_to_keep_sign_3d_online (called on doubles only). *)
Definition max_eb_to_keep_sign_3d_online (a b c d : D) : D :=
  if deq A a #0 && deq A b #0 && deq A c #0 then #1
  else dabs (a +. b +. c +. d) /. (dabs a +. dabs b +. dabs c).

(** M == 0 || M / Mi > 1 (1182-1185, 704-707). *)
Definition inside_flag (M Mi : D) : bool := deq A Mi #0 || dlt A #1 (M /. Mi).

(** 1166-1238 max_eb_to_keep_position_and_type_3d_online_abs. *)
Definition derive3_abs (x0 x1 x2 x3 : vec3) : D :=
  let '(u0, v0, w0) := x0 in let '(u1, v1, w1) := x1 in
  let '(u2, v2, w2) := x2 in let '(u3, v3, w3) := x3 in
  let u3_0 := t2d ((-! v1) *' w2 +' v2 *' w1) in
  let u3_1 := t2d ((-! v2) *' w0 +' v0 *' w2) in
  let u3_2 := t2d ((-! v0) *' w1 +' v1 *' w0) in
  let v3_0 := t2d (u1 *' w2 -' u2 *' w1) in
  let v3_1 := t2d (u2 *' w0 -' u0 *' w2) in
  let v3_2 := t2d (u0 *' w1 -' u1 *' w0) in
  let w3_0 := t2d ((-! u1) *' v2 +' u2 *' v1) in
  let w3_1 := t2d (u0 *' v2 -' u2 *' v0) in
  let w3_2 := t2d ((-! u0) *' v1 +' u1 *' v0) in
  let c_4 := t2d (u0 *' v1 *' w2 -' u0 *' v2 *' w1 +' u1 *' v2 *' w0 -' u1 *' v0 *' w2
                  +' u2 *' v0 *' w1 -' u2 *' v1 *' w0) in
  let M0 := u3_0 *. t2d u3 +. v3_0 *. t2d v3 +. w3_0 *. t2d w3 in
  let M1 := u3_1 *. t2d u3 +. v3_1 *. t2d v3 +. w3_1 *. t2d w3 in
  let M2 := u3_2 *. t2d u3 +. v3_2 *. t2d v3 +. w3_2 *. t2d w3 in
  let M3 := c_4 in
  let M := M0 +. M1 +. M2 +. M3 in
  if deq A M #0 then #0
  else
    let f0 := inside_flag M M0 in let f1 := inside_flag M M1 in
    let f2 := inside_flag M M2 in let f3 := inside_flag M M3 in
    if f0 && f1 && f2 && f3 then #0
    else
      let keep := max_eb_to_keep_sign_3d_online_abs in
      let eb := #0 in
      let eb := if f0 then eb else
        dmax A eb (minf A (keep u3_0 v3_0 w3_0 M0)
                          (keep (u3_1 +. u3_2) (v3_1 +. v3_2) (w3_1 +. w3_2) (M1 +. M2 +. M3))) in
      let eb := if f1 then eb else
        dmax A eb (minf A (keep u3_1 v3_1 w3_1 M1)
                          (keep (u3_0 +. u3_2) (v3_0 +. v3_2) (w3_0 +. w3_2) (M0 +. M2 +. M3))) in
      let eb := if f2 then eb else
        dmax A eb (minf A (keep u3_2 v3_2 w3_2 M2)
                          (keep (u3_0 +. u3_1) (v3_0 +. v3_1) (w3_0 +. w3_1) (M0 +. M1 +. M3))) in
      if f3 then eb else
        dmax A eb (keep (u3_0 +. u3_1 +. u3_2) (v3_0 +. v3_1 +. v3_2) (w3_0 +. w3_1 +. w3_2) (M0 +. M1 +. M2)).

(** include/sz_cp_preserve_utils.hpp:30-32 sgn. *)
Definition sgn (x : T) : Z := (if tlt A (t0 A) x then 1 else 0) - (if tlt A x (t0 A) then 1 else 0).

(** include/sz_cp_preserve_utils.hpp:41-46 same_direction. *)
Definition same_direction (a b c d : T) : bool :=
  if sgn a =? 0 then false else (sgn a =? sgn b) && (sgn a =? sgn c) && (sgn a =? sgn d).

(** 661-745 max_eb_to_keep_position_and_type_3d_online (712-719 are unreachable). *)
Definition derive3_rel (x0 x1 x2 x3 : vec3) : D :=
  let '(u0, v0, w0) := x0 in let '(u1, v1, w1) := x1 in
  let '(u2, v2, w2) := x2 in let '(u3, v3, w3) := x3 in
  let u3_0 := t2d ((-! u3) *' v1 *' w2 +' u3 *' v2 *' w1) in
  let u3_1 := t2d ((-! u3) *' v2 *' w0 +' u3 *' v0 *' w2) in
  let u3_2 := t2d ((-! u3) *' v0 *' w1 +' u3 *' v1 *' w0) in
  let v3_0 := t2d (u1 *' v3 *' w2 -' u2 *' v3 *' w1) in
  let v3_1 := t2d (u2 *' v3 *' w0 -' u0 *' v3 *' w2) in
  let v3_2 := t2d (u0 *' v3 *' w1 -' u1 *' v3 *' w0) in
  let w3_0 := t2d ((-! u1) *' v2 *' w3 +' u2 *' v1 *' w3) in
  let w3_1 := t2d (u0 *' v2 *' w3 -' u2 *' v0 *' w3) in
  let w3_2 := t2d ((-! u0) *' v1 *' w3 +' u1 *' v0 *' w3) in
  let c_4 := t2d (u0 *' v1 *' w2 -' u0 *' v2 *' w1 +' u1 *' v2 *' w0 -' u1 *' v0 *' w2
                  +' u2 *' v0 *' w1 -' u2 *' v1 *' w0) in
  let M0 := u3_0 +. v3_0 +. w3_0 in
  let M1 := u3_1 +. v3_1 +. w3_1 in
  let M2 := u3_2 +. v3_2 +. w3_2 in
  let M3 := c_4 in
  let M := M0 +. M1 +. M2 +. M3 in
  if deq A M #0 then
    (if same_direction u0 u1 u2 u3 || same_direction v0 v1 v2 v3 || same_direction w0 w1 w2 w3 then #1 else #0)
  else
    let f0 := inside_flag M M0 in let f1 := inside_flag M M1 in
    let f2 := inside_flag M M2 in let f3 := inside_flag M M3 in
    if f0 && f1 && f2 && f3 then #0
    else
      let keep := max_eb_to_keep_sign_3d_online in
      let eb := #0 in
      let eb := if f0 then eb else
        dmax A eb (minf A (keep u3_0 v3_0 w3_0 #0)
                          (keep (u3_1 +. u3_2) (v3_1 +. v3_2) (w3_1 +. w3_2) c_4)) in
      let eb := if f1 then eb else
        dmax A eb (minf A (keep u3_1 v3_1 w3_1 #0)
                          (keep (u3_0 +. u3_2) (v3_0 +. v3_2) (w3_0 +. w3_2) c_4)) in
      let eb := if f2 then eb else
        dmax A eb (minf A (keep u3_2 v3_2 w3_2 #0)
                          (keep (u3_0 +. u3_1) (v3_0 +. v3_1) (w3_0 +. w3_1) c_4)) in
      if f3 then eb else
        dmax A eb (keep (u3_0 +. u3_1 +. u3_2) (v3_0 +. v3_1 +. v3_2) (w3_0 +. w3_1 +. w3_2) #0).

(** The vertex with linear index p of the field (U, V, W) (src/sz_compress_cp_preserve_3d.cpp:1373-1375). *)
Definition vec_at (U V W : list T) (p : Z) : option vec3 :=
  let* u := aget U p in let* v := aget V p in let* w := aget W p in Some (u, v, w).

(** 1372-1375, 832-835: the vectors at offset[n][0..2] and at the current point. *)
Definition tet_values (U V W : list T) (r2 r3 p : Z) (n : nat) : option (vec3 * vec3 * vec3 * vec3) :=
  let* x0 := vec_at U V W (p + offset3 r2 r3 n 0) in
  let* x1 := vec_at U V W (p + offset3 r2 r3 n 1) in
  let* x2 := vec_at U V W (p + offset3 r2 r3 n 2) in
  let* x3 := vec_at U V W p in
  Some (x0, x1, x2, x3).

(** ** The separate critical point test of the absolute codec *)
(** ftk::inverse_lerp_s3v3 is not part of the repository: any function of the twelve doubles. *)
Context (ftk : D * D * D -> D * D * D -> D * D * D -> D * D * D -> bool).

(** 1242-1247, 1250-1258: update_index_and_value and check_cp on four grid points. *)
Definition check_cp3 (U V W : list T) (r2 r3 : Z) (a b c d : Z * Z * Z) : option bool :=
  let get x := let* (u, v, w) := vec_at U V W (lin3 r2 r3 x) in Some (t2d u, t2d v, t2d w) in
  let* x := get a in let* y := get b in let* z := get c in let* t := get d in Some (ftk x y z t).

(** 1276-1298: the six tetrahedra of the cube with lowest corner (i,j,k), in the order of cp_exist. *)
Definition cube_tets (x : Z * Z * Z) : list (Z * Z * Z * (Z * Z * Z) * (Z * Z * Z) * (Z * Z * Z)) :=
  let '(i, j, k) := x in
  [ ((i, j, k), (i + 1, j, k), (i + 1, j + 1, k), (i + 1, j + 1, k + 1));
    ((i, j, k), (i, j + 1, k), (i + 1, j + 1, k), (i + 1, j + 1, k + 1));
    ((i, j, k), (i + 1, j, k), (i + 1, j, k + 1), (i + 1, j + 1, k + 1));
    ((i, j, k), (i, j, k + 1), (i + 1, j, k + 1), (i + 1, j + 1, k + 1));
    ((i, j, k), (i, j + 1, k), (i, j + 1, k + 1), (i + 1, j + 1, k + 1));
    ((i, j, k), (i, j, k + 1), (i, j + 1, k + 1), (i + 1, j + 1, k + 1)) ].

(** 1270-1301: the checks of all tetrahedra in order. *)
Fixpoint check_all (U V W : list T) (r2 r3 : Z) (l : list (Z * Z * Z * (Z * Z * Z) * (Z * Z * Z) * (Z * Z * Z)))
  : option (list bool) :=
  match l with
  | [] => Some []
  | (a, b, c, d) :: l' =>
      let* x := check_cp3 U V W r2 r3 a b c d in
      let* r := check_all U V W r2 r3 l' in Some (x :: r)
  end.

(** 1261-1303 compute_cp: cp_exist. *)
Definition compute_cp3 (U V W : list T) (r1 r2 r3 : Z) : option (list bool) :=
  check_all U V W r2 r3 (flat_map cube_tets (scan3 (r1 - 1) (r2 - 1) (r3 - 1))).

(** 1355-1380: loop over the 24 tetrahedra around the point. *)
Fixpoint req_loop_abs (cp : list bool) (U V W : list T) (r1 r2 r3 i j k : Z) (ns : list nat) (eb : D) : option D :=
  match ns with
  | [] => Some eb
  | n :: ns' =>
      if in_mesh3 r1 r2 r3 i j k n then
        let* b := aget cp (simplex_offset r2 r3 n + 6 * (i * (r2 - 1) * (r3 - 1) + j * (r3 - 1) + k)) in
        if b : bool then Some #0
        else
          let* (x0, x1, x2, x3) := tet_values U V W r2 r3 (lin3 r2 r3 (i, j, k)) n in
          req_loop_abs cp U V W r1 r2 r3 i j k ns' (minf A eb (derive3_abs x0 x1 x2 x3))
      else req_loop_abs cp U V W r1 r2 r3 i j k ns' eb
  end.

(** 1351-1381: required_eb of the absolute codec. *)
Definition required_eb3_abs (max_eb : D) (cp : list bool) (U V W : list T) (r1 r2 r3 i j k : Z) : option D :=
  let* (u, v, w) := vec_at U V W (lin3 r2 r3 (i, j, k)) in
  let eb := if teq A u (t0 A) || teq A v (t0 A) || teq A w (t0 A) then #0 else max_eb in
  if deq A eb #0 then Some eb
  else req_loop_abs cp U V W r1 r2 r3 i j k twenty_four eb.

(** 819-836: loop of the log codec. *)
Fixpoint req_loop3 (U V W : list T) (r1 r2 r3 i j k : Z) (ns : list nat) (eb : D) : option D :=
  match ns with
  | [] => Some eb
  | n :: ns' =>
      if in_mesh3 r1 r2 r3 i j k n then
        let* (x0, x1, x2, x3) := tet_values U V W r2 r3 (lin3 r2 r3 (i, j, k)) n in
        req_loop3 U V W r1 r2 r3 i j k ns' (minf A eb (derive3_rel x0 x1 x2 x3))
      else req_loop3 U V W r1 r2 r3 i j k ns' eb
  end.
End Derive.
