(** The 3D mesh: grid order, neighbourhood tables and cell numbering of the 3D compressors. *)
From Coq Require Import List ZArith Bool.
From Verif Require Import Base Arith Mesh2D.
Import ListNotations.
Local Open Scope Z_scope.

(** The points of an r1 x r2 x r3 grid in the order of the three nested loops for(i<r1) for(j<r2) for(k<r3)
    (src/sz_compress_cp_preserve_3d.cpp:1347-1350, 815-818). *)
Definition scan3 (r1 r2 r3 : Z) : list (Z * Z * Z) :=
  flat_map (fun i => flat_map (fun j => map (fun k => (i, j, k)) (zrange 0 r3)) (zrange 0 r2)) (zrange 0 r1).

(** src/sz_compress_cp_preserve_3d.cpp:9-162 coordinates. *)
Definition coordinates : list (list (list Z)) :=
  [[[0; 0; 1]; [0; 1; 1]; [1; 1; 1]; [0; 0; 0]];
   [[0; 1; 0]; [0; 1; 1]; [1; 1; 1]; [0; 0; 0]];
   [[0; 0; 1]; [1; 0; 1]; [1; 1; 1]; [0; 0; 0]];
   [[1; 0; 0]; [1; 0; 1]; [1; 1; 1]; [0; 0; 0]];
   [[0; 1; 0]; [1; 1; 0]; [1; 1; 1]; [0; 0; 0]];
   [[1; 0; 0]; [1; 1; 0]; [1; 1; 1]; [0; 0; 0]];
   [[0; 0; 0]; [1; 0; 1]; [1; 1; 1]; [1; 0; 0]];
   [[0; 0; 0]; [1; 1; 0]; [1; 1; 1]; [1; 0; 0]];
   [[0; 0; 0]; [0; 1; 1]; [1; 1; 1]; [0; 1; 0]];
   [[0; 0; 0]; [1; 1; 0]; [1; 1; 1]; [0; 1; 0]];
   [[0; 0; 0]; [0; 1; 0]; [1; 1; 1]; [1; 1; 0]];
   [[0; 0; 0]; [1; 0; 0]; [1; 1; 1]; [1; 1; 0]];
   [[0; 0; 0]; [0; 1; 1]; [1; 1; 1]; [0; 0; 1]];
   [[0; 0; 0]; [1; 0; 1]; [1; 1; 1]; [0; 0; 1]];
   [[0; 0; 0]; [0; 0; 1]; [1; 1; 1]; [1; 0; 1]];
   [[0; 0; 0]; [1; 0; 0]; [1; 1; 1]; [1; 0; 1]];
   [[0; 0; 0]; [0; 0; 1]; [1; 1; 1]; [0; 1; 1]];
   [[0; 0; 0]; [0; 1; 0]; [1; 1; 1]; [0; 1; 1]];
   [[0; 0; 0]; [0; 0; 1]; [0; 1; 1]; [1; 1; 1]];
   [[0; 0; 0]; [0; 1; 0]; [0; 1; 1]; [1; 1; 1]];
   [[0; 0; 0]; [0; 0; 1]; [1; 0; 1]; [1; 1; 1]];
   [[0; 0; 0]; [1; 0; 0]; [1; 0; 1]; [1; 1; 1]];
   [[0; 0; 0]; [0; 1; 0]; [1; 1; 0]; [1; 1; 1]];
   [[0; 0; 0]; [1; 0; 0]; [1; 1; 0]; [1; 1; 1]]].
Definition coord (n p c : nat) : Z := nth c (nth p (nth n coordinates []) []) 0.

(** 242-248: index_offset[n][p][c]. *)
Definition index_offset (n p c : nat) : Z := coord n p c - coord n 3 c.

(** 249-253: offset[n][p], with dim0_offset = r2*r3 and dim1_offset = r3. *)
Definition offset3 (r2 r3 : Z) (n p : nat) : Z :=
  index_offset n p 0 + index_offset n p 1 * r3 + index_offset n p 2 * (r2 * r3).

(** 208-241: simplex_offset, with cell_dim0_offset = (r2-1)*(r3-1) and cell_dim1_offset = r3-1. *)
Definition simplex_offsets (r2 r3 : Z) : list Z :=
  let d0 := (r2 - 1) * (r3 - 1) in
  let d1 := r3 - 1 in
  [0; 1; 2; 3; 4; 5;
   -6 + 3; -6 + 5;
   -6 * d1 + 1; -6 * d1 + 4;
   -6 - 6 * d1 + 4; -6 - 6 * d1 + 5;
   -6 * d0 + 0; -6 * d0 + 2;
   -6 * d0 - 6 + 2; -6 * d0 - 6 + 3;
   -6 * d1 - 6 * d0 + 0; -6 * d1 - 6 * d0 + 1;
   -6 * d0 - 6 * d1 - 6 + 0; -6 * d0 - 6 * d1 - 6 + 1; -6 * d0 - 6 * d1 - 6 + 2;
   -6 * d0 - 6 * d1 - 6 + 3; -6 * d0 - 6 * d1 - 6 + 4; -6 * d0 - 6 * d1 - 6 + 5].
Definition simplex_offset (r2 r3 : Z) (n : nat) : Z := nth n (simplex_offsets r2 r3) 0.

(** 1356-1362, 822-828: in_mesh for entry n around (i,j,k); index_offset is in the order x, y, z = k, j, i. *)
Definition in_mesh3 (r1 r2 r3 i j k : Z) (n : nat) : bool :=
  forallb (fun p => in_range (i + index_offset n p 2) r1 && in_range (j + index_offset n p 1) r2 && in_range (k + index_offset n p 0) r3)
          [0%nat; 1%nat; 2%nat].

(** 1355, 821: the loop over n. *)
Definition twenty_four : list nat := seq 0 24.

(** 1264-1265, 1275-1276: linear index of a point. *)
Definition lin3 (r2 r3 : Z) (x : Z * Z * Z) : Z := fst (fst x) * (r2 * r3) + snd (fst x) * r3 + snd x.
