(** The programs test/cp_extraction_2d.cpp and test/cp_extraction_3d.cpp: they extract the critical points of the original and of the
    decompressed field and report true and false positives, false negatives and type changes.
    The numerical routines of the ftk library are parameters.  File IO is not modelled: the programs are functions of the arrays read. *)
From Coq Require Import List ZArith Bool.
From Verif Require Import Base Arith Mesh2D Mesh3D Derive3D Sz3.
Import ListNotations.
Local Open Scope Z_scope.

(** cp_extraction_2d.cpp:16-29, cp_extraction_3d.cpp:23-28 critical_point_t, the members the programs set.  [e_id]: simplex_id, a size_t. *)
Record entry (P : Type) : Type := { e_pos : P; e_type : Z; e_id : Z }.
Arguments e_pos {P}. Arguments e_type {P}. Arguments e_id {P}.

(** std::unordered_map<int, critical_point_t> as a list of pairs (test/cp_extraction_2d.cpp:125); its iteration order is not modelled. *)
Definition cp_map (P : Type) : Type := list (Z * entry P).
(** find: cp_extraction_2d.cpp:262, 278; cp_extraction_3d.cpp:339, 356. *)
Definition mfind {P} (k : Z) (m : cp_map P) : option (entry P) := option_map snd (find (fun p => fst p =? k) m).
(** critical_points[simplex_id] = cp: cp_extraction_2d.cpp:105, cp_extraction_3d.cpp:151.  An entry with the same key is overwritten. *)
Definition mset {P} (k : Z) (e : entry P) (m : cp_map P) : cp_map P := (k, e) :: filter (fun p => negb (fst p =? k)) m.

(** cp_extraction_2d.cpp:125-146, cp_extraction_3d.cpp:173-208, the loop over the simplices: each is examined once, with at most one entry added. *)
Fixpoint run_sites {S P} (f : S -> option (Z * option (entry P))) (l : list S) (m : cp_map P) : option (cp_map P) :=
  match l with
  | [] => Some m
  | s :: l' =>
      let* (k, o) := f s in
      run_sites f l' (match o with Some e => mset k e m | None => m end)
  end.

(** cp_extraction_2d.cpp:256-281, cp_extraction_3d.cpp:333-359: origin, the entries of the decompressed field, m, fp, fn, ft. *)
Record cp_report (P : Type) : Type :=
  { r_origin : list (entry P); r_decompressed : list (entry P); r_tp : list (entry P); r_fp : list (entry P); r_fn : list (entry P); r_ft : list (entry P) }.
Arguments r_origin {P}. Arguments r_decompressed {P}. Arguments r_tp {P}. Arguments r_fp {P}. Arguments r_fn {P}. Arguments r_ft {P}.
(** test/cp_extraction_2d.cpp:256-281, test/cp_extraction_3d.cpp:333-359. *)
Definition compare_cps {P} (m0 m1 : cp_map P) : cp_report P :=
  {| r_origin := map snd m0;
     r_decompressed := map snd m1;
     r_tp := flat_map (fun p => match mfind (fst p) m1 with Some c => if e_type (snd p) =? e_type c then [c] else [] | None => [] end) m0;
     r_ft := flat_map (fun p => match mfind (fst p) m1 with Some c => if e_type (snd p) =? e_type c then [] else [c] | None => [] end) m0;
     r_fn := flat_map (fun p => match mfind (fst p) m1 with Some _ => [] | None => [snd p] end) m0;
     r_fp := flat_map (fun p => match mfind (fst p) m0 with Some _ => [] | None => [snd p] end) m1 |}.

Section Tool.
Context (A : Arith).
Local Notation T := (T A).
Local Notation D := (D A).
Local Notation "# z" := (dofZ A z) (at level 1).

(** ** Two dimensions *)
(** cp_extraction_2d.cpp:63: v[3][2]. *)
Definition tri2 : Type := (D * D) * (D * D) * (D * D).
(** ftk::inverse_lerp_s2v2(v, mu, &cond, 0.0), [None]: no success; ftk::lerp_s2v2(X, mu, x);
    ftk::jacobian_2dsimplex2(X, v, J) and ftk::solve_eigenvalues2x2(J, eig): (delta, eig[0].real(), eig[1].real()). *)
Context (inv2 : tri2 -> option (D * D * D)) (lerp2 : tri2 -> D * D * D -> D * D) (eig2 : tri2 -> tri2 -> D * D * D).

(** cp_extraction_2d.cpp:79-100. *)
Definition cp_type2 (delta e0 e1 : D) : Z :=
  if dle A #0 delta then
    if dlt A (dmul A e0 e1) #0 then 3
    else if dlt A e0 #0 then 1
    else if dlt A #0 e0 then 2
    else 0
  else if dlt A e0 #0 then 4
  else if dlt A #0 e0 then 5
  else 6.

(** cp_extraction_2d.cpp:66. *)
Definition zero2 (v : D * D) : bool := deq A (fst v) #0 && deq A (snd v) #0.

(** cp_extraction_2d.cpp:62-106 check_simplex_seq. *)
Definition check_simplex2 (v X : tri2) (i j simplex_id : Z) : option (entry (D * D)) :=
  if zero2 (fst (fst v)) || zero2 (snd (fst v)) || zero2 (snd v) then None
  else
    match inv2 v with
    | None => None
    | Some mu =>
        let x := lerp2 X mu in
        let '(delta, e0, e1) := eig2 X v in
        Some {| e_pos := (dadd A #j (fst x), dadd A #i (snd x)); e_type := cp_type2 delta e0 e1; e_id := simplex_id mod 2 ^ 64 |}
    end.

(** cp_extraction_2d.cpp:114-123 X1, X2. *)
Definition X2d (upper : bool) : tri2 :=
  if upper then ((#0, #0), (#1, #0), (#1, #1)) else ((#0, #0), (#0, #1), (#1, #1)).

(** cp_extraction_2d.cpp:129-143: one triangle of the cell (i,j), [upper]: cell index 1.  The index expressions are int. *)
Definition site2 (U V : list T) (r2 : Z) (s : Z * Z * bool) : option (Z * option (entry (D * D))) :=
  let '(i, j, upper) := s in
  let* cell_offset := int32 false (2 * (i * (r2 - 1) + j)) in
  let* k0 := int32 false (i * r2 + j) in
  let* k1 := int32 false (if upper then i * r2 + (j + 1) else (i + 1) * r2 + j) in
  let* k2 := int32 false ((i + 1) * r2 + (j + 1)) in
  let* simplex_id := int32 false (if upper then cell_offset + 1 else cell_offset) in
  let* u0 := aget U k0 in let* u1 := aget U k1 in let* u2 := aget U k2 in
  let* v0 := aget V k0 in let* v1 := aget V k1 in let* v2 := aget V k2 in
  let v := ((t2d A u0, t2d A v0), (t2d A u1, t2d A v1), (t2d A u2, t2d A v2)) in
  Some (simplex_id, check_simplex2 v (X2d upper) i j simplex_id).

(** cp_extraction_2d.cpp:126-128, 139-143: the order of the loops. *)
Definition sites2 (r1 r2 : Z) : list (Z * Z * bool) :=
  flat_map (fun i => flat_map (fun j => [(i, j, false); (i, j, true)]) (zrange 1 (r2 - 2))) (zrange 1 (r1 - 2)).

(** cp_extraction_2d.cpp:108-147 compute_critical_points. *)
Definition extract2 (U V : list T) (r1 r2 : Z) : option (cp_map (D * D)) := run_sites (site2 U V r2) (sites2 r1 r2) [].

(** cp_extraction_2d.cpp:220-293 main with the arrays of the four files; r1 = DH, r2 = DW. *)
Definition tool2 (U V U' V' : list T) (r1 r2 : Z) : option (cp_report (D * D)) :=
  let* m0 := extract2 U V r1 r2 in
  let* m1 := extract2 U' V' r1 r2 in
  Some (compare_cps m0 m1).

(** ** Three dimensions *)
(** cp_extraction_3d.cpp:128: v[4][3]. *)
Definition vecd3 : Type := D * D * D.
(** test/cp_extraction_3d.cpp:128: v[4][3]. *)
Definition tet3 : Type := vecd3 * vecd3 * vecd3 * vecd3.
(** ftk::inverse_lerp_s3v3(v, mu, &cond, 0.0), ftk::lerp_s3v3(X, mu, x); matrix_inverse3x3, matrix3x3_matrix3x3_multiplication,
    characteristic_polynomial_3x3 and solve_cubic of get_cp_type: (disc, real parts of the roots). *)
Context (inv3 : tet3 -> option (D * D * D * D)) (lerp3 : tet3 -> D * D * D * D -> vecd3) (roots3 : tet3 -> tet3 -> D * vecd3).

(** cp_extraction_3d.cpp:79-118 get_cp_type. *)
Definition cp_type3 (X v : tet3) : Z :=
  let '(disc, (a, b, c)) := roots3 X v in
  if dlt A (dabs A disc) (eps_double A) then 0
  else
    let neg x := if dlt A x #0 then 1 else 0 in
    let n := neg a + neg b + neg c in
    let up := dlt A #0 disc in
    if n =? 0 then (if up then 2 else 1)
    else if n =? 1 then (if up then 4 else 3)
    else if n =? 2 then (if up then 6 else 5)
    else (if up then 8 else 7).

(** cp_extraction_3d.cpp:130. *)
Definition zero3 (v : vecd3) : bool := deq A (fst (fst v)) #0 && deq A (snd (fst v)) #0 && deq A (snd v) #0.

(** cp_extraction_3d.cpp:127-153 check_simplex_seq. *)
Definition check_simplex3 (v X : tet3) (x : Z * Z * Z) (simplex_id : Z) : option (entry vecd3) :=
  let '(v0, v1, v2, v3) := v in
  if zero3 v0 || zero3 v1 || zero3 v2 || zero3 v3 then None
  else
    match inv3 v with
    | None => None
    | Some mu =>
        let '(i, j, k) := x in
        let p := lerp3 X mu in
        Some {| e_pos := (dadd A #k (fst (fst p)), dadd A #j (snd (fst p)), dadd A #i (snd p)); e_type := cp_type3 X v; e_id := simplex_id mod 2 ^ 64 |}
    end.

(** cp_extraction_3d.cpp:40-77 tet_coords. *)
Definition tet_coords : list tet3 :=
  [ ((#0, #0, #0), (#0, #0, #1), (#0, #1, #1), (#1, #1, #1));
    ((#0, #0, #0), (#0, #1, #0), (#0, #1, #1), (#1, #1, #1));
    ((#0, #0, #0), (#0, #0, #1), (#1, #0, #1), (#1, #1, #1));
    ((#0, #0, #0), (#1, #0, #0), (#1, #0, #1), (#1, #1, #1));
    ((#0, #0, #0), (#0, #1, #0), (#1, #1, #0), (#1, #1, #1));
    ((#0, #0, #0), (#1, #0, #0), (#1, #1, #0), (#1, #1, #1)) ].

(** cp_extraction_3d.cpp:187-204: the numbers added to cell_offset, in the order of the six calls. *)
Definition tet_numbers : list Z := [0; 2; 1; 4; 3; 5].

(** cp_extraction_3d.cpp:128, 187: conversion of a ptrdiff_t to the int parameter simplex_id: modulo 2^32. *)
Definition to_int (z : Z) : Z := (z + 2 ^ 31) mod 2 ^ 32 - 2 ^ 31.

(** cp_extraction_3d.cpp:178-204: tetrahedron n (0..5, in the order of the calls) of the cell x.  [cube_tets]: the vertices, in the same order as in
    the compressor (src/sz_compress_cp_preserve_3d.cpp:1276-1298). *)
Definition site3 (U V W : list T) (r2 r3 : Z) (s : Z * Z * Z * nat) : option (Z * option (entry vecd3)) :=
  let '(x, n) := s in
  let simplex_id := to_int (6 * lin3 r2 r3 x + nth n tet_numbers 0) in
  let* (a, b, c, d) := nth_error (cube_tets x) n in
  let* X := nth_error tet_coords n in
  let get x := let* (u, v, w) := vec_at A U V W (lin3 r2 r3 x) in Some (t2d A u, t2d A v, t2d A w) in
  let* v0 := get a in let* v1 := get b in let* v2 := get c in let* v3 := get d in
  Some (simplex_id, check_simplex3 (v0, v1, v2, v3) X x simplex_id).

(** cp_extraction_3d.cpp:174-177: the order of the loops. *)
Definition sites3 (r1 r2 r3 : Z) : list (Z * Z * Z * nat) :=
  flat_map (fun x => map (fun n => (x, n)) (seq 0 6)) (scan3 (r1 - 1) (r2 - 1) (r3 - 1)).

(** cp_extraction_3d.cpp:155-209 compute_critical_points; dim0_offset and num_elements are int products. *)
Definition extract3 (U V W : list T) (r1 r2 r3 : Z) : option (cp_map vecd3) :=
  let* _ := int32 false (r2 * r3) in
  let* _ := int32 false (r1 * r2 * r3) in
  run_sites (site3 U V W r2 r3) (sites3 r1 r2 r3) [].

(** cp_extraction_3d.cpp:290-382 main when the file origin__sid.dat does not exist; r1 = DD, r2 = DH, r3 = DW. *)
Definition tool3 (U V W U' V' W' : list T) (r1 r2 r3 : Z) : option (cp_report vecd3) :=
  let* m0 := extract3 U V W r1 r2 r3 in
  let* m1 := extract3 U' V' W' r1 r2 r3 in
  Some (compare_cps m0 m1).
End Tool.
