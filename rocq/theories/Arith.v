(** The arithmetic interface of the codecs: types and operations only, no laws.
    [T] is the template type (float or double), [D] is double.  Nothing of /repo is modelled here; the record
    lists the C++ operators and libm calls the modelled functions use. *)
From Coq Require Import List ZArith Bool.
From Verif Require Import Base.
Import ListNotations.
Local Open Scope Z_scope.

Record Arith : Type := {
  T : Type;
  D : Type;
  (* operators on T *)
  tadd : T -> T -> T;
  tsub : T -> T -> T;
  tmul : T -> T -> T;
  tdiv : T -> T -> T;
  tneg : T -> T;
  tabs : T -> T;                    (* fabs *)
  tlt : T -> T -> bool;
  tle : T -> T -> bool;
  teq : T -> T -> bool;
  tofZ : Z -> T;                    (* int -> T *)
  ttoint : T -> option Z;           (* (int)x; None: value not representable (undefined behaviour) *)
  (* operators on double *)
  dadd : D -> D -> D;
  dsub : D -> D -> D;
  dmul : D -> D -> D;
  ddiv : D -> D -> D;
  dneg : D -> D;
  dabs : D -> D;
  dsqrt : D -> D;
  dlt : D -> D -> bool;
  dle : D -> D -> bool;
  deq : D -> D -> bool;
  dofZ : Z -> D;
  dtoint : D -> option Z;
  (* conversions *)
  t2d : T -> D;
  d2t : D -> T;
  (* libm *)
  dlog2 : D -> D;                   (* log2(double) *)
  dpow : Z -> Z -> D;               (* pow(int,int) *)
  tlog2f : T -> T;                  (* log2f, result converted to T *)
  texp2 : T -> T;                   (* exp2, result converted to T *)
  (* constants std::numeric_limits<double/float>::epsilon() as double *)
  eps_double : D;
  eps_float : D;
  (* memory representation *)
  tsize_of : nat;                   (* sizeof(T) *)
  tser : T -> list Z;
  tdes : list Z -> T;
  dser : D -> list Z;               (* 8 bytes *)
  ddes : list Z -> D;
}.

(** What memcpy of a variable in and out of a buffer needs: the only law the byte-level theorems use. *)
Record ser_ok (A : Arith) : Prop := {
  tser_length : forall x, length (tser A x) = tsize_of A;
  tdes_tser : forall x, tdes A (tser A x) = x;
  dser_length : forall x, length (dser A x) = 8%nat;
  ddes_dser : forall x, ddes A (dser A x) = x;
  tsize_pos : (1 <= tsize_of A)%nat;
}.

Section Ops.
Context (A : Arith).

(** include/sz_def.hpp:147 MAX macro and :149-152 MINF on doubles. *)
Definition dmax (a b : D A) : D A := if dlt A b a then a else b.
(** include/sz_def.hpp:149-152 MINF. *)
Definition minf (a b : D A) : D A := if dlt A a b then a else b.

(** The constants 0 of type double and T. *)
Definition d0 : D A := dofZ A 0.
Definition t0 : T A := tofZ A 0.

(** Array read, for any a[i] of the code (not a function of /repo); [None] when out of bounds. *)
Definition aget {X} (l : list X) (i : Z) : option X :=
  if i <? 0 then None else nth_error l (Z.to_nat i).

(** Array write, for any a[i] = x of the code (not a function of /repo). *)
Definition aset {X} (l : list X) (i : Z) (x : X) : option (list X) :=
  if i <? 0 then None else upd (Z.to_nat i) x l.

(** Read of a cell of a malloc'ed array (e.g. src/sz_decompress_cp_preserve_2d.cpp:131-132) whose cells are [None] until written. *)
Definition uget {X} (l : list (option X)) (i : Z) : option X :=
  let* o := aget l i in o.

(** include/sz_cp_preserve_utils.hpp:14-22 eb_exponential_quantize with log_of_base = log2(base):
    (id, updated eb). *)
Definition eb_exponential_quantize (base : Z) (threshold eb : D A) : option (Z * D A) :=
  if dle A eb threshold then Some (0, d0)
  else
    let* id := dtoint A (ddiv A (dlog2 A (ddiv A eb threshold)) (dlog2 A (dofZ A base))) in
    Some (id, dmul A (dpow A base id) threshold).

(** include/sz_compression_utils.hpp:44-47 write_array_to_dst of a T array. *)
Definition tser_array (l : list (T A)) : list Z := flat_map (tser A) l.

(** Reading [n] values of type T from the stream (decompressors keep a T* into the stream, e.g. src/sz_decompress_cp_preserve_2d.cpp:126-127). *)
Fixpoint tread_array (n : nat) (s : list Z) : option (list (T A) * list Z) :=
  match n with
  | O => Some ([], s)
  | S n' =>
      let* (b, s1) := take_bytes (tsize_of A) s in
      let* (l, s2) := tread_array n' s1 in
      Some (tdes A b :: l, s2)
  end.

Lemma tread_array_app l rest : ser_ok A ->
  tread_array (length l) (tser_array l ++ rest) = Some (l, rest).
Proof.
  intros HS. induction l as [|x l IH]; cbn [tread_array length tser_array flat_map app]; [reflexivity|].
  rewrite <- app_assoc. rewrite take_bytes_app by apply (tser_length _ HS). cbn [bind].
  fold (tser_array l). rewrite IH. cbn [bind]. rewrite (tdes_tser _ HS). reflexivity.
Qed.

Lemma tser_array_length l : ser_ok A -> length (tser_array l) = (length l * tsize_of A)%nat.
Proof.
  intros HS. induction l as [|x l IH]; cbn [tser_array flat_map length]; [reflexivity|].
  rewrite app_length, (tser_length _ HS). fold (tser_array l). rewrite IH. reflexivity.
Qed.
End Ops.

(** The points of an r1 x r2 grid in the order of the two nested loops
    for(i<r1) for(j<r2). *)
Definition scan2 (r1 r2 : Z) : list (Z * Z) :=
  flat_map (fun i => map (fun j => (i, j)) (zrange 0 r2)) (zrange 0 r1).
