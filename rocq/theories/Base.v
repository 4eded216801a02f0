(** Basic vocabulary shared by the model: partial operations, arrays, memory
    buffers and little-/big-endian integers.  Nothing here models a specific
    function of /repo except where a comment cites one. *)
From Coq Require Import List ZArith Lia Bool Arith.
From Coq Require Import ZifyBool ZifyNat.
Import ListNotations.
Local Open Scope Z_scope.

(** [None] stands for undefined behaviour (out-of-bounds or uninitialised
    access, NULL dereference) or a crash of the C++ code. *)
Definition bind {A B} (o : option A) (f : A -> option B) : option B :=
  match o with Some a => f a | None => None end.

Declare Scope opt_scope.
Notation "'let*' x := e 'in' k" := (bind e (fun x => k))
  (at level 200, x pattern, e at level 100, k at level 200, right associativity) : opt_scope.
Notation "'check*' b 'in' k" := (if b then k else None)
  (at level 200, b at level 100, k at level 200, right associativity) : opt_scope.
Open Scope opt_scope.

Lemma bind_some {A B} (o : option A) (f : A -> option B) b :
  bind o f = Some b -> exists a, o = Some a /\ f a = Some b.
Proof. destruct o; simpl; intros; [eauto | discriminate]. Qed.

Lemma Some_inj {A} (a b : A) : Some a = Some b -> b = a.
Proof. congruence. Qed.

Ltac inv_bind H :=
  let a := fresh "a" in let Ha := fresh "Ha" in
  apply bind_some in H; destruct H as [a [Ha H]].

Tactic Notation "bind_as" hyp(H) simple_intropattern(x) ident(E) :=
  apply bind_some in H; destruct H as [x [E H]].

(** Array store: [upd i x l] is [l] with cell [i] overwritten; [None] when out of bounds. *)
Fixpoint upd {A} (i : nat) (x : A) (l : list A) : option (list A) :=
  match l, i with
  | [], _ => None
  | _ :: t, O => Some (x :: t)
  | a :: t, S i' => let* t' := upd i' x t in Some (a :: t')
  end.

(** Array store at position known to be in range. *)
Fixpoint setn {A} (i : nat) (x : A) (l : list A) : list A :=
  match l, i with
  | [], _ => []
  | _ :: t, O => x :: t
  | a :: t, S i' => a :: setn i' x t
  end.

Lemma upd_setn {A} i (x : A) l : (i < length l)%nat -> upd i x l = Some (setn i x l).
Proof.
  revert i; induction l as [|a l IH]; intros [|i] H; simpl in *; try lia; auto.
  rewrite IH by lia. reflexivity.
Qed.

Lemma upd_None {A} i (x : A) l : (length l <= i)%nat -> upd i x l = None.
Proof.
  revert i; induction l as [|a l IH]; intros [|i] H; simpl in *; try lia; auto.
  rewrite IH by lia. reflexivity.
Qed.

Lemma upd_Some {A} i (x : A) l l' :
  upd i x l = Some l' -> (i < length l)%nat /\ l' = setn i x l.
Proof.
  intros H. destruct (Nat.lt_ge_cases i (length l)) as [Hl|Hl].
  - rewrite upd_setn in H by auto. inversion H; auto.
  - rewrite upd_None in H by auto. discriminate.
Qed.

Lemma setn_length {A} i (x : A) l : length (setn i x l) = length l.
Proof. revert i; induction l; intros [|i]; simpl; auto. Qed.

Lemma nth_error_setn_eq {A} i (x : A) l :
  (i < length l)%nat -> nth_error (setn i x l) i = Some x.
Proof. revert i; induction l; intros [|i]; simpl; intros; try lia; auto. apply IHl; lia. Qed.

Lemma nth_error_setn_ne {A} i j (x : A) l :
  i <> j -> nth_error (setn i x l) j = nth_error l j.
Proof. revert i j; induction l; intros [|i] [|j]; simpl; intros; try lia; auto. Qed.

Lemma setn_id {A} i (x : A) l : nth_error l i = Some x -> setn i x l = l.
Proof.
  revert i; induction l; intros [|i]; simpl; intros; auto; try discriminate.
  - congruence.
  - rewrite IHl; auto.
Qed.

Lemma setn_setn {A} i (x y : A) l : setn i x (setn i y l) = setn i x l.
Proof. revert i; induction l; intros [|i]; simpl; auto. rewrite IHl; auto. Qed.

Lemma setn_comm {A} i j (x y : A) l :
  i <> j -> setn i x (setn j y l) = setn j y (setn i x l).
Proof.
  revert i j; induction l; intros [|i] [|j]; simpl; intros; auto; try lia.
  rewrite IHl; auto.
Qed.

Lemma setn_split {A} i (x : A) l :
  (i < length l)%nat -> setn i x l = firstn i l ++ x :: skipn (S i) l.
Proof.
  revert i; induction l; intros [|i]; simpl; intros; try lia; auto.
  rewrite IHl by lia. reflexivity.
Qed.

(** Consecutive integers [lo, lo+1, ...] ([n] of them): a counting loop. *)
Fixpoint zseq (lo : Z) (n : nat) : list Z :=
  match n with O => [] | S n' => lo :: zseq (lo + 1) n' end.
Definition zrange (lo hi : Z) : list Z := zseq lo (Z.to_nat (hi - lo)).

Lemma in_zseq x lo n : In x (zseq lo n) <-> lo <= x < lo + Z.of_nat n.
Proof.
  revert lo; induction n; intros; simpl.
  - split; intros; lia.
  - rewrite IHn. split; intros; lia.
Qed.

Lemma in_zrange x lo hi : In x (zrange lo hi) <-> lo <= x < hi.
Proof. unfold zrange. rewrite in_zseq. lia. Qed.

Lemma NoDup_zseq lo n : NoDup (zseq lo n).
Proof.
  revert lo; induction n; intros; simpl; constructor; auto.
  rewrite in_zseq. lia.
Qed.

(** ** Bytes *)

(** Little-endian bytes of the low [8*n] bits of [v] (x86-64 memory layout used by
    write_variable_to_dst / memcpy). *)
Fixpoint le_bytes (n : nat) (v : Z) : list Z :=
  match n with
  | O => []
  | S n' => (v mod 256) :: le_bytes n' (v / 256)
  end.

Fixpoint le_val (l : list Z) : Z :=
  match l with [] => 0 | b :: t => b + 256 * le_val t end.

Lemma le_bytes_length n v : length (le_bytes n v) = n.
Proof. revert v; induction n; simpl; auto. Qed.

Lemma le_val_bytes n v : le_val (le_bytes n v) = v mod 256 ^ (Z.of_nat n).
Proof.
  revert v; induction n as [|n IH]; intros v; cbn [le_bytes le_val].
  - simpl. rewrite Z.mod_1_r. reflexivity.
  - rewrite IH.
    replace (Z.of_nat (S n)) with (Z.succ (Z.of_nat n)) by lia.
    rewrite Z.pow_succ_r by lia.
    rewrite Z.rem_mul_r by (try lia; apply Z.pow_pos_nonneg; lia).
    lia.
Qed.

Lemma le_val_bytes_small n v :
  0 <= v < 256 ^ (Z.of_nat n) -> le_val (le_bytes n v) = v.
Proof. intros. rewrite le_val_bytes. apply Z.mod_small; auto. Qed.

Definition is_byte (b : Z) : Prop := 0 <= b < 256.

Lemma le_bytes_bytes n v : Forall is_byte (le_bytes n v).
Proof.
  revert v; induction n; simpl; intros; constructor; auto.
  apply Z.mod_pos_bound; lia.
Qed.

(** Read the first [n] bytes of a stream: value and rest; [None] past the end. *)
Definition take_bytes (n : nat) (l : list Z) : option (list Z * list Z) :=
  if (n <=? length l)%nat then Some (firstn n l, skipn n l) else None.

Lemma take_bytes_app n a b :
  length a = n -> take_bytes n (a ++ b) = Some (a, b).
Proof.
  intros <-. unfold take_bytes. rewrite app_length.
  destruct (Nat.leb_spec (length a) (length a + length b)); [|lia].
  rewrite firstn_app, Nat.sub_diag, firstn_all, firstn_O, app_nil_r.
  rewrite skipn_app, skipn_all, Nat.sub_diag. reflexivity.
Qed.

Definition read_le (n : nat) (l : list Z) : option (Z * list Z) :=
  let* (a, r) := take_bytes n l in Some (le_val a, r).

Lemma read_le_app n v b :
  0 <= v < 256 ^ (Z.of_nat n) -> read_le n (le_bytes n v ++ b) = Some (v, b).
Proof.
  intros H. unfold read_le. rewrite take_bytes_app by apply le_bytes_length.
  simpl. rewrite le_val_bytes_small by auto. reflexivity.
Qed.

(** Signed 32-bit interpretation of 4 little-endian bytes (C [int]). *)
Definition to_s32 (u : Z) : Z := if u <? 2 ^ 31 then u else u - 2 ^ 32.
Definition read_s32 (l : list Z) : option (Z * list Z) :=
  let* (u, r) := read_le 4 l in Some (to_s32 u, r).

Lemma read_s32_app v b :
  - 2 ^ 31 <= v < 2 ^ 31 -> read_s32 (le_bytes 4 v ++ b) = Some (v, b).
Proof.
  intros H. unfold read_s32, read_le. rewrite take_bytes_app by apply le_bytes_length.
  cbn [bind]. rewrite le_val_bytes. unfold to_s32. change (256 ^ Z.of_nat 4) with (2 ^ 32).
  f_equal. f_equal. change (2^31) with 2147483648 in *. change (2^32) with 4294967296.
  assert (v mod 4294967296 = if v <? 0 then v + 4294967296 else v) as ->.
  { destruct (Z.ltb_spec v 0); [|apply Z.mod_small; lia].
    symmetry; apply Z.mod_unique with (-1); lia. }
  destruct (Z.ltb_spec v 0);
  match goal with |- context[?a <? ?b] => destruct (Z.ltb_spec a b) end; lia.
Qed.

Lemma skipn_skipn' {X : Type} a b (l : list X) : skipn a (skipn b l) = skipn (b + a) l.
Proof.
  revert a l; induction b; intros a l; simpl; auto.
  destruct l; simpl; auto. destruct a; reflexivity.
Qed.

Lemma nth_error_skipn' {X : Type} p : forall (l : list X) k, nth_error (skipn p l) k = nth_error l (p + k).
Proof.
  induction p as [|p IH]; intros l k; [reflexivity|].
  destruct l as [|x l]; [destruct k; reflexivity|]. cbn [skipn Nat.add nth_error]. apply IH.
Qed.

(** ** Memory buffers
    A buffer returned by [malloc]: its (arbitrary) current contents.  Stores outside are
    undefined behaviour. *)
Fixpoint store (p : nat) (bs : list Z) (m : list Z) : option (list Z) :=
  match bs with
  | [] => Some m
  | b :: t => let* m' := upd p b m in store (S p) t m'
  end.

Lemma store_spec p bs m :
  (p + length bs <= length m)%nat ->
  store p bs m = Some (firstn p m ++ bs ++ skipn (p + length bs) m).
Proof.
  revert p m; induction bs as [|b t IH]; intros p m H; simpl in *.
  - rewrite Nat.add_0_r, firstn_skipn. reflexivity.
  - rewrite upd_setn by lia. cbn [bind]. rewrite IH by (rewrite setn_length; lia).
    f_equal. rewrite setn_split by lia.
    replace (p + S (length t))%nat with (S p + length t)%nat by lia.
    rewrite firstn_app, firstn_firstn, firstn_length.
    rewrite (Nat.min_l p (length m)) by lia.
    replace (Nat.min (S p) p) with p by lia.
    replace (S p - p)%nat with 1%nat by lia.
    cbn [firstn]. rewrite <- app_assoc. cbn [app]. f_equal. f_equal.
    f_equal. rewrite skipn_app. rewrite firstn_length, Nat.min_l by lia.
    rewrite (skipn_all2 (firstn p m)) by (rewrite firstn_length; lia).
    cbn [app]. replace (S p + length t - p)%nat with (S (length t)) by lia.
    rewrite skipn_cons, skipn_skipn'. reflexivity.
Qed.

Lemma store_Some p bs m m' :
  store p bs m = Some m' -> bs <> [] -> (p + length bs <= length m)%nat.
Proof.
  revert p m; induction bs as [|b t IH]; intros p m H Hne; simpl in *; [congruence|].
  inv_bind H. apply upd_Some in Ha as [Hlt ->].
  destruct t as [|b' t'].
  - simpl. lia.
  - apply IH in H; [|congruence]. rewrite setn_length in H. simpl in *. lia.
Qed.


Lemma nth_error_ext' {A} (l l' : list A) : (forall i, nth_error l i = nth_error l' i) -> l = l'.
Proof.
  revert l'; induction l as [|a l IH]; intros [|b l'] H; auto.
  - specialize (H O). discriminate.
  - specialize (H O). discriminate.
  - pose proof (H O) as H0. simpl in H0. injection H0 as ->. f_equal. apply IH.
    intros i. apply (H (S i)).
Qed.

Lemma store_ok p bs m : (p + length bs <= length m)%nat ->
  exists m', store p bs m = Some m' /\ length m' = length m.
Proof.
  revert p m. induction bs as [|b bs IH]; intros p m Hl; cbn [store length] in *; [eauto|].
  rewrite upd_setn by lia. cbn [bind]. destruct (IH (S p) (setn p b m)) as (m' & E & L).
  - rewrite setn_length. lia.
  - exists m'. rewrite L, setn_length. auto.
Qed.
