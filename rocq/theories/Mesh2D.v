(** The 2D mesh: neighbourhood tables of the 2D compressors. *)
From Coq Require Import List ZArith Bool.
From Verif Require Import Base Arith.
Import ListNotations.
Local Open Scope Z_scope.

(** src/sz_compress_cp_preserve_2d.cpp:575-590 (= 815-830, 1019-1034, ...): tables x and y. *)
Definition tab_x : list (list Z) :=
  [[1; 0; 1]; [0; 0; 1]; [0; 1; 1]; [0; 1; 0]; [1; 1; 0]; [1; 0; 0]].
Definition tab_y : list (list Z) :=
  [[0; 0; 1]; [0; 1; 1]; [0; 1; 0]; [1; 1; 0]; [1; 0; 0]; [1; 0; 1]].

Definition tab (t : list (list Z)) (k j : nat) : Z := nth j (nth k t []) 0.

(** 595-601: index_offset[k][p][0/1]. *)
Definition off_x (k p : nat) : Z := tab tab_x k p - tab tab_x k 2.
Definition off_y (k p : nat) : Z := tab tab_y k p - tab tab_y k 2.

(** 572-574: offsets. *)
Definition offsets (r2 : Z) : list Z := [- r2; - r2 - 1; -1; r2; r2 + 1; 1; - r2].
Definition offset (r2 : Z) (k : nat) : Z := nth k (offsets r2) 0.

(** include/sz_cp_preserve_utils.hpp:171-174 in_range. *)
Definition in_range (pos n : Z) : bool := (0 <=? pos) && (pos <? n).

(** 612-619: in_mesh for triangle k around (i,j). *)
Definition in_mesh (r1 r2 i j : Z) (k : nat) : bool :=
  forallb (fun p => in_range (i + off_y k p) r1 && in_range (j + off_x k p) r2) [0%nat; 1%nat].
