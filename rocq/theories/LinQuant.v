(** The single-precision side of the block codecs: predictions are [float] whatever the data type, regression
    coefficients are [float] arrays.  Operations only, no laws; then the linear quantiser and its inverse. *)
From Coq Require Import List ZArith Bool.
From Verif Require Import Base Arith.
Import ListNotations.
Local Open Scope Z_scope.

Record FOps (A : Arith) : Type := {
  F : Type;
  fadd : F -> F -> F;
  fmul : F -> F -> F;
  fdiv : F -> F -> F;
  fofZ : Z -> F;                     (* int -> float *)
  f2d : F -> D A;
  d2f : D A -> F;
  f2t : F -> T A;                    (* float -> T *)
  t2f : T A -> F;                    (* T -> float *)
  fsub : F -> F -> F;
  fabsf : F -> F;
  fsize_of : nat;                    (* sizeof(float) *)
  fser : F -> list Z;
  fdes : list Z -> F;
  dtenth : D A;                      (* the literal 0.1 *)
}.
Arguments F {_} _.
Arguments fadd {_} _.
Arguments fmul {_} _.
Arguments fdiv {_} _.
Arguments fofZ {_} _.
Arguments f2d {_} _.
Arguments d2f {_} _.
Arguments f2t {_} _.
Arguments t2f {_} _.
Arguments fsub {_} _.
Arguments fabsf {_} _.
Arguments fsize_of {_} _.
Arguments fser {_} _.
Arguments fdes {_} _.
Arguments dtenth {_} _.

(** The operations of the quantiser on its value type X: T for field values, float for regression coefficients. *)
Record qops (A : Arith) (O : FOps A) (X : Type) : Type := {
  q_diff : X -> F O -> D A;          (* (double)(cur_data - pred), the subtraction done in X *)
  q_conv : D A -> X;                 (* conversion of a double to X *)
  q_err : X -> X -> D A;             (* (double)fabs(a - b), done in X *)
}.
Arguments q_diff {_ _ _} _.
Arguments q_conv {_ _ _} _.
Arguments q_err {_ _ _} _.

(** cur_data - pred with cur_data a T: pred is converted to T. *)
Definition qT (A : Arith) (O : FOps A) : qops A O (T A) :=
  {| q_diff := fun x p => t2d A (tsub A x (f2t O p)); q_conv := d2t A;
     q_err := fun a b => t2d A (tabs A (tsub A a b)) |}.

Definition qF (A : Arith) (O : FOps A) : qops A O (F O) :=
  {| q_diff := fun x p => f2d O (fsub O x p); q_conv := d2f O;
     q_err := fun a b => f2d O (fabsf O (fsub O a b)) |}.

Inductive quantised (X : Type) : Type :=
| Unpredictable                       (* value appended to the verbatim array, return 0 *)
| Predicted (index : Z) (decompressed : X).
Arguments Unpredictable {_}.
Arguments Predicted {_} _ _.

Section Quant.
Context {A : Arith} {O : FOps A} {X : Type} (Q : qops A O X).

(** include/sz_compression_utils.hpp:58 and include/sz_decompression_utils.hpp:58,71:
    pred + 2 * (index - intv_radius) * precision, evaluated in double and converted to X. *)
Definition dequantise (pred : F O) (precision : D A) (index radius : Z) : X :=
  q_conv Q (dadd A (f2d O pred) (dmul A (dofZ A (2 * (index - radius))) precision)).

(** include/sz_compression_utils.hpp:50-65 quantize (and 68-81, the same without the decompressed output).
    [None]: the conversion to int on line 57 is undefined. *)
Definition lin_quantize (pred : F O) (cur_data : X) (precision : D A) (capacity radius : Z) : option (quantised X) :=
  let diff := q_diff Q cur_data pred in
  let quant_diff := dadd A (ddiv A (dabs A diff) precision) (dofZ A 1) in
  if dlt A quant_diff (dofZ A capacity) then
    let quant_diff := if dlt A (dofZ A 0) diff then quant_diff else dneg A quant_diff in
    let* k := dtoint A (ddiv A quant_diff (dofZ A 2)) in
    let quant_index := k + radius in
    let decompressed_data := dequantise pred precision quant_index radius in
    if dle A (q_err Q decompressed_data cur_data) precision then Some (Predicted quant_index decompressed_data)
    else Some Unpredictable
  else Some Unpredictable.

(** Lines 60-64: the symbol, the value left in the decompressed buffer and the values appended to the verbatim array. *)
Definition quant_out (cur : X) (r : quantised X) : Z * X * list X :=
  match r with
  | Predicted q x => (q, x, [])
  | Unpredictable => (0, cur, [cur])
  end.

(** include/sz_decompression_utils.hpp:51-73 recover; [mean] is Some m when mean_info.use_mean (Lorenzo overload),
    None otherwise and in the regression overload.  Returns the value and the verbatim values left. *)
Definition recover (mean : option X) (pred : F O) (precision : D A) (type_val radius : Z) (unp : list X)
  : option (X * list X) :=
  if type_val =? 0 then
    match unp with
    | x :: unp' => Some (x, unp')
    | [] => None
    end
  else
    match mean with
    | Some m => if type_val =? 1 then Some (m, unp) else Some (dequantise pred precision type_val radius, unp)
    | None => Some (dequantise pred precision type_val radius, unp)
    end.
End Quant.
