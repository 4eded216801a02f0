(** The programs test/sz_compress_cp_preserve_2d_test.cpp, test/sz_compress_cp_preserve_3d_test.cpp,
    test/sz_compress_cp_preserve_3d_unstructured_test.cpp and test/sz_compress_test.cpp, from the bytes of their input files to the bytes of
    their output files and what they print, and the file functions of include/utils.hpp.  All four use float data.  Arguments are taken as numbers (atoi, atof
    are not modelled); times are not modelled; opening an output file is taken to succeed. *)
From Coq Require Import List ZArith Bool.
From Flocq Require Import Core.Core IEEE754.Binary.
From Verif Require Import Base Huffman Stream Arith Codec2D Abs3D Uns3D Sz3 LinQuant Block Plan Pwr2D Lossless Verify.
Import ListNotations.
Local Open Scope Z_scope.

(** Reading [n] values of type int. *)
Fixpoint read_ints (n : nat) (s : list Z) : option (list Z * list Z) :=
  match n with
  | O => Some ([], s)
  | S n' => let* (x, s1) := read_s32 s in let* (l, s2) := read_ints n' s1 in Some (x :: l, s2)
  end.

(** include/utils.hpp:12-28 readfile.  [f]: the contents of the file, [None] if there is none.  Result: the array, [None] for the null pointer, and num,
    which keeps its value if there is no file. *)
Definition read_as {X} (size : nat) (read : nat -> list Z -> option (list X * list Z)) (f : option (list Z)) (num : Z) : option (list X) * Z :=
  match f with
  | None => (None, num)
  | Some s => let n := (length s / size)%nat in (option_map fst (read n s), Z.of_nat n)
  end.
(** readfile<int>. *)
Definition readfile_int : option (list Z) -> Z -> option (list Z) * Z := read_as 4 read_ints.

(** src/sz_compress_cp_preserve_3d.cpp:989-1007: tets[4*i .. 4*i+3]. *)
Fixpoint quads (l : list Z) : list tetra :=
  match l with a :: b :: c :: d :: l' => (a, b, c, d) :: quads l' | _ => [] end.

(** What a run leaves behind: the compressed size it prints, the reports, the output files. *)
Record run (R : Type) := { o_size : Z; o_reports : list R; o_files : list (list Z) }.
Arguments o_size {R}. Arguments o_reports {R}. Arguments o_files {R}.

Section Programs.
Context (A : Arith) (O : FOps A) (ftk : D A * D A * D A -> D A * D A * D A -> D A * D A * D A -> D A * D A * D A -> bool).
Notation T := (T A).
Notation D := (D A).

(** readfile<float>. *)
Definition readfile : option (list Z) -> Z -> option (list T) * Z := read_as (tsize_of A) (tread_array A).

(** include/utils.hpp:44-49 writefile: the contents of the file; [None]: the array is too short. *)
Definition writefile (data : list T) (num : Z) : option (list Z) :=
  if (0 <=? num) && (num <=? Z.of_nat (length data)) then Some (tser_array A (firstn (Z.to_nat num) data)) else None.

(** The first [n] values behind a pointer: the codecs copy or read so many (e.g. src/sz_compress_cp_preserve_3d.cpp:1309-1314). *)
Definition values (p : option (list T)) (n : Z) : option (list T) :=
  let* l := p in
  check* ((0 <=? n) && (n <=? Z.of_nat (length l))) in
  Some (firstn (Z.to_nat n) l).

(** The size returned by the lossless stage, which the programs print. *)
Definition outsize z heap (compressed : option (list Z * nat)) : option Z :=
  option_map (fun c => snd (lossless_compress z heap 1 3 (firstn (snd c) (fst c)))) compressed.

(** verify(ori, dec, num_elements). *)
Definition check_values (p : option (list T)) (dec : list T) (num : Z) : option (report A) :=
  let* l := p in verify A l dec (Z.to_nat num).

Section Runs.
Context (z : zstd) (heap : Z -> list Z) (ord : queue -> bool) (ub : Z -> Z -> Z).

(** test/sz_compress_cp_preserve_2d_test.cpp:7-58.  [None]: an access outside of an array or through a null pointer, or another undefined operation.
    [junk]: the block the compressor gets from malloc. *)
Definition main_2d (wrap : bool) (max_eb : D) (r1 r2 : Z) (fU fV : option (list Z)) (junk : list Z) : option (run (report A)) :=
  let (U, n1) := readfile fU 0 in
  let (V, n) := readfile fV n1 in
  let* u := values U (r1 * r2) in
  let* v := values V (r1 * r2) in
  let c := compress_sz3 A wrap max_eb ord ub r1 r2 u v junk in
  let* size := outsize z heap c in
  let* (u', v') := pipeline z heap c (decompress_sz3 A wrap r1 r2) in
  let* ru := check_values U u' n in
  let* rv := check_values V v' n in
  let* ou := writefile u' n in
  let* ov := writefile v' n in
  Some {| o_size := size; o_reports := [ru; rv]; o_files := [ou; ov] |}.

(** test/sz_compress_cp_preserve_3d_test.cpp:7-65. *)
Definition main_3d (max_eb : D) (r1 r2 r3 : Z) (fU fV fW : option (list Z)) (junk : list Z) : option (run (report A)) :=
  let (U, n1) := readfile fU 0 in
  let (V, n2) := readfile fV n1 in
  let (W, n) := readfile fW n2 in
  let* u := values U (r1 * r2 * r3) in
  let* v := values V (r1 * r2 * r3) in
  let* w := values W (r1 * r2 * r3) in
  let c := compress_abs3 A ftk max_eb ord ub r1 r2 r3 u v w junk in
  let* size := outsize z heap c in
  let* (u', v', w') := pipeline z heap c (decompress_abs3 A r1 r2 r3) in
  let* ru := check_values U u' n in
  let* rv := check_values V v' n in
  let* rw := check_values W w' n in
  let* ou := writefile u' n in
  let* ov := writefile v' n in
  let* ow := writefile w' n in
  Some {| o_size := size; o_reports := [ru; rv; rw]; o_files := [ou; ov; ow] |}.

(** test/sz_compress_cp_preserve_3d_unstructured_test.cpp:8-57.  A failed assert also gives [None].  Without a mesh there are no tetrahedra. *)
Definition main_uns (max_eb : D) (fpoints fdata ftets : option (list Z)) (junk : list Z) : option (run (report A)) :=
  let (tets, nt) := readfile_int ftets 0 in
  check* (nt mod 4 =? 0) in
  let (_, np) := readfile fpoints nt in
  check* (np mod 3 =? 0) in
  let n := np / 3 in
  let (data, _) := readfile fdata np in
  let* d := values data (3 * n) in
  let mesh := quads (match tets with Some l => l | None => [] end) in
  let c := compress_uns A max_eb ord ub n mesh d junk in
  let* size := outsize z heap c in
  let* d' := pipeline z heap c (decompress_uns A n) in
  let* r := check_values data d' (3 * n) in
  let* o := writefile d' (3 * n) in
  Some {| o_size := size; o_reports := [r]; o_files := [o] |}.

(** test/sz_compress_test.cpp:16-22: max and min of the data, from which the value range is printed; [None]: no values. *)
Definition value_range (data : list T) : option (T * T) :=
  match data with
  | x0 :: rest => Some (fold_left (fun m x => (if tlt A (fst m) x then x else fst m, if tlt A x (snd m) then x else snd m)) rest (x0, x0))
  | [] => None
  end.

(** test/sz_compress_test.cpp:9-48: the range printed, and the rest; the field is read as (r1*r2) x r3, the block size is 12 and the blocks are independent
    (include/sz_compress_pwr.hpp:8).  No file is written. *)
Definition main_test (eb : D) (r1 r2 r3 : Z) (fdata : option (list Z)) (pad jl junk : list Z) : option (T * run (report A)) :=
  let (p, n) := readfile fdata 0 in
  let* l := p in
  let* (mx, mn) := value_range l in
  let* data := values p (r1 * r2 * r3) in
  let c := compress_pwr A O ord ub (r1 * r2) r3 12 true eb pad data jl junk in
  let* size := outsize z heap c in
  let* out := pipeline z heap c (decompress_pwr A O (r1 * r2) r3) in
  let* dec := written out in
  let* r := check_values p dec n in
  Some (tsub A mx mn, {| o_size := size; o_reports := [r]; o_files := [] |}).
End Runs.
End Programs.
