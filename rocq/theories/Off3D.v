(** The offline 3D bounds and the codec using them (src/sz_compress_cp_preserve_3d.cpp:258-574,
    include/sz_cp_preserve_utils.hpp:105-131), for any arithmetic. *)
From Coq Require Import List ZArith Bool.
From Verif Require Import Base Arith Mesh2D Mesh3D Derive2D Derive3D Codec2D LinQuant Offline2D Log3D.
Import ListNotations.
Local Open Scope Z_scope.

Section Off3.
Context (A : Arith) (O : FOps A) (acbrt : F O -> F O).      (* acbrt: sz_cp_preserve_utils.hpp:106-118 acbrt1, see Acbrt.v *)
Local Notation T := (T A).
Local Notation D := (D A).
Local Notation F := (F O).
Local Infix "*'" := (tmul A) (at level 40, left associativity).
Local Infix "+." := (dadd A) (at level 50, left associativity).
Local Infix "-." := (dsub A) (at level 50, left associativity).
Local Infix "+f" := (fadd O) (at level 50, left associativity).
Local Notation "# n" := (dofZ A n) (at level 1, format "# n").
Local Notation t2d := (t2d A).

(** sz_cp_preserve_utils.hpp:120-124 max_eb_to_keep_sign_3d_offline, all in float. *)
Definition keep3 (positive negative : F) : F :=
  let P := acbrt positive in
  let N := acbrt negative in
  fdiv O (fabsf O (fsub O P N)) (fadd O P N).

(** MAX and MIN (include/sz_def.hpp:147-148) on floats; comparing floats is comparing the same values as doubles. *)
Definition fmax_ (a b : F) : F := if dlt A (f2d O b) (f2d O a) then a else b.
Definition fmin_ (a b : F) : F := if dlt A (f2d O a) (f2d O b) then a else b.

(** sz_compress_cp_preserve_3d.cpp:263-266: a product of three values, in the data type, stored in a double. *)
Definition prod3 (a b c : T) : D := t2d (a *' b *' c).

(** 290-331 (with 267-270): the signed terms of the four minors, in the order they are accumulated. *)
Definition minor_terms (x0 x1 x2 x3 : T * T * T) : list (list D) :=
  let '(u0, v0, w0) := x0 in let '(u1, v1, w1) := x1 in
  let '(u2, v2, w2) := x2 in let '(u3, v3, w3) := x3 in
  let n a b c := dneg A (prod3 a b c) in
  [[n u3 v1 w2; prod3 u3 v2 w1; prod3 u1 v3 w2; n u2 v3 w1; n u1 v2 w3; prod3 u2 v1 w3];
   [n u3 v2 w0; prod3 u3 v0 w2; prod3 u2 v3 w0; n u0 v3 w2; prod3 u0 v2 w3; n u2 v0 w3];
   [n u3 v0 w1; prod3 u3 v1 w0; prod3 u0 v3 w1; n u1 v3 w0; n u0 v1 w3; prod3 u1 v0 w3];
   [prod3 u0 v1 w2; n u0 v2 w1; prod3 u1 v2 w0; n u1 v0 w2; prod3 u2 v0 w1; n u2 v1 w0]].

(** 332-333: positive and negative part of a minor, converted to float. *)
Definition parts (l : list D) : F * F := let '(p, n) := acc_d A l in (d2f O p, d2f O n).

(** 258-352 max_eb_to_keep_position_and_type_3d_offline. *)
Definition offline3_eb (x0 x1 x2 x3 : T * T * T) : D :=
  let '(u0, v0, w0) := x0 in let '(u1, v1, w1) := x1 in
  let '(u2, v2, w2) := x2 in let '(u3, v3, w3) := x3 in
  let n a b c := dneg A (prod3 a b c) in
  let u3_0 := n u3 v1 w2 +. prod3 u3 v2 w1 in
  let u3_1 := n u3 v2 w0 +. prod3 u3 v0 w2 in
  let u3_2 := n u3 v0 w1 +. prod3 u3 v1 w0 in
  let v3_0 := prod3 u1 v3 w2 -. prod3 u2 v3 w1 in
  let v3_1 := prod3 u2 v3 w0 -. prod3 u0 v3 w2 in
  let v3_2 := prod3 u0 v3 w1 -. prod3 u1 v3 w0 in
  let w3_0 := n u1 v2 w3 +. prod3 u2 v1 w3 in
  let w3_1 := prod3 u0 v2 w3 -. prod3 u2 v0 w3 in
  let w3_2 := n u0 v1 w3 +. prod3 u1 v0 w3 in
  let c_4 := prod3 u0 v1 w2 -. prod3 u0 v2 w1 +. prod3 u1 v2 w0 -. prod3 u1 v0 w2 +. prod3 u2 v0 w1 -. prod3 u2 v1 w0 in
  let M0 := u3_0 +. v3_0 +. w3_0 in
  let M1 := u3_1 +. v3_1 +. w3_1 in
  let M2 := u3_2 +. v3_2 +. w3_2 in
  let M3 := c_4 in
  let M := M0 +. M1 +. M2 +. M3 in
  if deq A M #0 then #0
  else
    let f0 := inside_flag A M M0 in let f1 := inside_flag A M M1 in
    let f2 := inside_flag A M M2 in let f3 := inside_flag A M M3 in
    if f0 && f1 && f2 && f3 then
      (if same_direction A u0 u1 u2 u3 || same_direction A v0 v1 v2 v3 || same_direction A w0 w1 w2 w3 then #1 else #0)
    else
      match map parts (minor_terms x0 x1 x2 x3) with
      | [(p0, n0); (p1, n1); (p2, n2); (p3, n3)] =>
          let eb := fofZ O 0 in
          let eb := if f0 then eb else fmax_ eb (fmin_ (keep3 p0 n0) (keep3 (p1 +f p2 +f p3) (n1 +f n2 +f n3))) in
          let eb := if f1 then eb else fmax_ eb (fmin_ (keep3 p1 n1) (keep3 (p0 +f p2 +f p3) (n0 +f n2 +f n3))) in
          let eb := if f2 then eb else fmax_ eb (fmin_ (keep3 p2 n2) (keep3 (p0 +f p1 +f p3) (n0 +f n1 +f n3))) in
          let eb := if f3 then eb else fmax_ eb (fmin_ (keep3 p3 n3) (keep3 (p0 +f p1 +f p2) (n0 +f n1 +f n2))) in
          f2d O eb
      | _ => #0
      end.

(** 367-373, 394-397: the vertices of tetrahedron [n] (n < 6) of the cell whose low corner is [b]: three others, then [b] itself. *)
Definition off_vertex (b : Z * Z * Z) (n p : nat) : Z * Z * Z :=
  let '(i, j, k) := b in (i + index_offset n p 2, j + index_offset n p 1, k + index_offset n p 0).

(** 390-402: one tetrahedron; the bound of the low corner is lowered first. *)
Definition offline3_tet (r2 r3 : Z) (U V W : list T) (eb : list D) (t : Z * Z * Z * nat) : option (list D) :=
  let '(b, n) := t in
  let ix p := lin3 r2 r3 (off_vertex b n p) in
  let pt i := let* u := aget U i in let* v := aget V i in let* w := aget W i in Some (u, v, w) in
  let* x0 := pt (ix 0%nat) in let* x1 := pt (ix 1%nat) in let* x2 := pt (ix 2%nat) in let* x3 := pt (lin3 r2 r3 b) in
  let cur := offline3_eb x0 x1 x2 x3 in
  let* eb := lower_eb A eb (lin3 r2 r3 b) cur in
  let* eb := lower_eb A eb (ix 0%nat) cur in
  let* eb := lower_eb A eb (ix 1%nat) cur in
  lower_eb A eb (ix 2%nat) cur.

(** 386-413: tetrahedra in the order of the loops. *)
Definition cell_tets (r1 r2 r3 : Z) : list (Z * Z * Z * nat) :=
  flat_map (fun b => map (fun n => (b, n)) (seq 0 6)) (scan3 (r1 - 1) (r2 - 1) (r3 - 1)).

(** 361-413: one relative bound per vertex. *)
Definition offline3_ebs (max_eb : D) (r1 r2 r3 : Z) (U V W : list T) : option (list D) :=
  fold_opt (offline3_tet r2 r3 U V W) (cell_tets r1 r2 r3) (repeat max_eb (Z.to_nat (r1 * r2 * r3))).

(** 463-467: the bounds come from the array; the loop variables are those of the three nested loops. *)
Definition stored_bound (eb : list D) (r2 r3 : Z) : bound_source A := fun _ _ _ i j k => aget eb (lin3 r2 r3 (i, j, k)).

(** 353-574 sz_compress_cp_preserve_3d_offline_log.  From line 417 on the text is that of sz_compress_cp_preserve_3d_online_log
    (751-967) with required_eb read from the array: the same encoder.  The stream is read by sz_decompress_cp_preserve_3d_online_log. *)
Definition compress_off3 (max_eb : D) ord ub (r1 r2 r3 : Z) (U V W : list T) (junk : list Z) : option (list Z * nat) :=
  check* (1 <=? r1 * r2 * r3) in
  let* eb := offline3_ebs max_eb r1 r2 r3 U V W in
  compress_log3_with A (stored_bound eb r2 r3) ord ub r1 r2 r3 U V W junk.
End Off3.
