(** The triangles of the 2D mesh and the hard-wired neighbourhood tables. *)
From Coq Require Import List ZArith Lia Bool Permutation.
From Coq Require Import ZifyBool ZifyNat.
From Verif Require Import Base Arith Mesh2D.
Import ListNotations.
Local Open Scope Z_scope.

(** The cells of an r1 x r2 grid: each square is cut along the diagonal from (i,j) to (i+1,j+1)
    (src/sz_compress_cp_preserve_2d.cpp:1302-1326 enumerates the same triangles). *)
Inductive cell (r1 r2 : Z) : Z * Z -> Z * Z -> Z * Z -> Prop :=
| cell_lower i j : 0 <= i < r1 - 1 -> 0 <= j < r2 - 1 -> cell r1 r2 (i, j) (i + 1, j) (i + 1, j + 1)
| cell_upper i j : 0 <= i < r1 - 1 -> 0 <= j < r2 - 1 -> cell r1 r2 (i, j) (i, j + 1) (i + 1, j + 1).

(** Neighbour p (0 or 1) in table entry k of the vertex (i,j). *)
Definition nbr (i j : Z) (k p : nat) : Z * Z := (i + off_y k p, j + off_x k p).

(** Linear index of a grid point. *)
Definition lin (r2 : Z) (a : Z * Z) : Z := fst a * r2 + snd a.

Definition same_cell (a b c a' b' c' : Z * Z) : Prop := Permutation [a; b; c] [a'; b'; c'].

Ltac each_k k H :=
  destruct k as [|[|[|[|[|[|k]]]]]]; [| | | | | |exfalso; lia].

Lemma off_y0 k : (k < 6)%nat -> off_y k 0 = nth k [-1; -1; 0; 1; 1; 0] 0.
Proof. intros H. each_k k H; reflexivity. Qed.
Lemma off_x0 k : (k < 6)%nat -> off_x k 0 = nth k [0; -1; -1; 0; 1; 1] 0.
Proof. intros H. each_k k H; reflexivity. Qed.
Lemma off_y1 k : (k < 6)%nat -> off_y k 1 = nth k [-1; 0; 1; 1; 0; -1] 0.
Proof. intros H. each_k k H; reflexivity. Qed.
Lemma off_x1 k : (k < 6)%nat -> off_x k 1 = nth k [-1; -1; 0; 1; 1; 0] 0.
Proof. intros H. each_k k H; reflexivity. Qed.
Ltac offs H := rewrite ?(off_y0 _ H), ?(off_x0 _ H), ?(off_y1 _ H), ?(off_x1 _ H); cbn [nth fst snd].
Ltac offs_in H X := rewrite ?(off_y0 _ H), ?(off_x0 _ H), ?(off_y1 _ H), ?(off_x1 _ H) in X; cbn [nth fst snd] in X.

Lemma in_mesh_nbr r1 r2 i j k : in_mesh r1 r2 i j k =
  in_range (fst (nbr i j k 0)) r1 && in_range (snd (nbr i j k 0)) r2 &&
  (in_range (fst (nbr i j k 1)) r1 && in_range (snd (nbr i j k 1)) r2).
Proof. unfold in_mesh. cbn [forallb nbr fst snd]. rewrite andb_true_r. reflexivity. Qed.

(** The offsets used to read the neighbours are those of the tables. *)
Lemma offset_lin r2 i j k : (k < 6)%nat ->
  i * r2 + j + offset r2 k = lin r2 (nbr i j k 0) /\ i * r2 + j + offset r2 (S k) = lin r2 (nbr i j k 1).
Proof.
  intros H. unfold lin, nbr. each_k k H; offs H; unfold offset, offsets; cbn [nth]; lia.
Qed.

Ltac perm3 :=
  match goal with
  | |- Permutation [?a; ?b; ?c] _ =>
    first [ apply Permutation_refl
          | apply perm_skip, perm_swap
          | apply perm_swap
          | apply (Permutation_trans (perm_swap _ _ _)), perm_skip, perm_swap
          | apply (Permutation_trans (perm_skip _ (perm_swap _ _ _))), perm_swap
          | apply (Permutation_trans (perm_swap _ _ _)), (Permutation_trans (perm_skip _ (perm_swap _ _ _))), perm_swap ]
  end.

(** Every table entry that passes the in-mesh test is a cell containing the vertex. *)
Theorem table_sound r1 r2 i j k : (k < 6)%nat -> 0 <= i < r1 -> 0 <= j < r2 -> in_mesh r1 r2 i j k = true ->
  exists a b c, cell r1 r2 a b c /\ same_cell a b c (nbr i j k 0) (nbr i j k 1) (i, j).
Proof.
  intros H Hi Hj. rewrite in_mesh_nbr. unfold nbr, in_range, same_cell.
  each_k k H; offs H; intros HM.
  - exists (i - 1, j - 1), (i - 1, j - 1 + 1), (i - 1 + 1, j - 1 + 1). split; [apply cell_upper; lia|].
    replace (i - 1, j - 1 + 1) with (i + -1, j + 0) by (f_equal; lia).
    replace (i - 1, j - 1) with (i + -1, j + -1) by (f_equal; lia).
    replace (i - 1 + 1, j - 1 + 1) with (i, j) by (f_equal; lia). perm3.
  - exists (i - 1, j - 1), (i - 1 + 1, j - 1), (i - 1 + 1, j - 1 + 1). split; [apply cell_lower; lia|].
    replace (i - 1 + 1, j - 1) with (i + 0, j + -1) by (f_equal; lia).
    replace (i - 1, j - 1) with (i + -1, j + -1) by (f_equal; lia).
    replace (i - 1 + 1, j - 1 + 1) with (i, j) by (f_equal; lia). perm3.
  - exists (i, j - 1), (i, j - 1 + 1), (i + 1, j - 1 + 1). split; [apply cell_upper; lia|].
    replace (i, j - 1 + 1) with (i, j) by (f_equal; lia).
    replace (i, j - 1) with (i + 0, j + -1) by (f_equal; lia).
    replace (i + 1, j - 1 + 1) with (i + 1, j + 0) by (f_equal; lia). perm3.
  - exists (i, j), (i + 1, j), (i + 1, j + 1). split; [apply cell_lower; lia|].
    replace (i + 1, j) with (i + 1, j + 0) by (f_equal; lia). perm3.
  - exists (i, j), (i, j + 1), (i + 1, j + 1). split; [apply cell_upper; lia|].
    replace (i, j + 1) with (i + 0, j + 1) by (f_equal; lia). perm3.
  - exists (i - 1, j), (i - 1 + 1, j), (i - 1 + 1, j + 1). split; [apply cell_lower; lia|].
    replace (i - 1 + 1, j + 1) with (i + 0, j + 1) by (f_equal; lia).
    replace (i - 1, j) with (i + -1, j + 0) by (f_equal; lia).
    replace (i - 1 + 1, j) with (i, j) by (f_equal; lia). perm3.
Qed.

(** Every cell containing the vertex is listed. *)
Theorem table_complete r1 r2 a b c i j : cell r1 r2 a b c -> In (i, j) [a; b; c] ->
  exists k, (k < 6)%nat /\ in_mesh r1 r2 i j k = true /\ same_cell a b c (nbr i j k 0) (nbr i j k 1) (i, j).
Proof.
  intros HC HI. unfold same_cell.
  assert (V : forall k, (k < 6)%nat -> forall dy0 dx0 dy1 dx1,
     nth k [-1; -1; 0; 1; 1; 0] 0 = dy0 -> nth k [0; -1; -1; 0; 1; 1] 0 = dx0 ->
     nth k [-1; 0; 1; 1; 0; -1] 0 = dy1 -> nth k [-1; -1; 0; 1; 1; 0] 0 = dx1 ->
     in_range (i + dy0) r1 && in_range (j + dx0) r2 && (in_range (i + dy1) r1 && in_range (j + dx1) r2) = true ->
     Permutation [a; b; c] [(i + dy0, j + dx0); (i + dy1, j + dx1); (i, j)] ->
     exists k, (k < 6)%nat /\ in_mesh r1 r2 i j k = true /\
               Permutation [a; b; c] [nbr i j k 0; nbr i j k 1; (i, j)]).
  { intros k Hk dy0 dx0 dy1 dx1 E1 E2 E3 E4 HM HP. exists k. split; auto.
    rewrite in_mesh_nbr. unfold nbr. rewrite (off_y0 _ Hk), (off_x0 _ Hk), (off_y1 _ Hk), (off_x1 _ Hk). subst dy0 dx0 dy1 dx1.
    cbn [fst snd]. auto. }
  destruct HC as [i0 j0 Hi Hj|i0 j0 Hi Hj]; destruct HI as [E|[E|[E|[]]]]; inversion E; subst; clear E.
  - apply (V 3%nat ltac:(lia) 1 0 1 1 eq_refl eq_refl eq_refl eq_refl); [unfold in_range; lia|]. rewrite Z.add_0_r. perm3.
  - apply (V 5%nat ltac:(lia) 0 1 (-1) 0 eq_refl eq_refl eq_refl eq_refl); [unfold in_range; lia|].
    rewrite !Z.add_0_r. replace (i0 + 1 + -1, j) with (i0, j) by (f_equal; lia). perm3.
  - apply (V 1%nat ltac:(lia) (-1) (-1) 0 (-1) eq_refl eq_refl eq_refl eq_refl); [unfold in_range; lia|].
    rewrite !Z.add_0_r. replace (i0 + 1 + -1, j0 + 1 + -1) with (i0, j0) by (f_equal; lia).
    replace (j0 + 1 + -1) with j0 by lia. perm3.
  - apply (V 4%nat ltac:(lia) 1 1 0 1 eq_refl eq_refl eq_refl eq_refl); [unfold in_range; lia|]. rewrite Z.add_0_r. perm3.
  - apply (V 2%nat ltac:(lia) 0 (-1) 1 0 eq_refl eq_refl eq_refl eq_refl); [unfold in_range; lia|].
    rewrite !Z.add_0_r. replace (j0 + 1 + -1) with j0 by lia. perm3.
  - apply (V 0%nat ltac:(lia) (-1) 0 (-1) (-1) eq_refl eq_refl eq_refl eq_refl); [unfold in_range; lia|].
    rewrite !Z.add_0_r. replace (i0 + 1 + -1) with i0 by lia. replace (j0 + 1 + -1) with j0 by lia. perm3.
Qed.

(** ... and only once. *)
Theorem table_unique i j k k' : (k < 6)%nat -> (k' < 6)%nat ->
  same_cell (nbr i j k 0) (nbr i j k 1) (i, j) (nbr i j k' 0) (nbr i j k' 1) (i, j) -> k = k'.
Proof.
  intros H H' HP. unfold same_cell in HP.
  assert (H0 : In (nbr i j k 0) [nbr i j k' 0; nbr i j k' 1; (i, j)]).
  { apply (Permutation_in _ HP). simpl; auto. }
  assert (H1 : In (nbr i j k 1) [nbr i j k' 0; nbr i j k' 1; (i, j)]).
  { apply (Permutation_in _ HP). simpl; auto. }
  clear HP. unfold nbr in *. cbn [In] in *.
  each_k k H; each_k k' H'; auto; exfalso; offs_in H H0; offs_in H' H0; offs_in H H1; offs_in H' H1;
    destruct H0 as [X|[X|[X|[]]]]; apply pair_equal_spec in X; destruct X as [X1 X2]; try (exfalso; lia);
    destruct H1 as [Y|[Y|[Y|[]]]]; apply pair_equal_spec in Y; destruct Y as [Y1 Y2]; exfalso; lia.
Qed.

(** The three vertices of a cell are distinct grid points. *)
Lemma cell_points r1 r2 a b c : cell r1 r2 a b c ->
  NoDup [a; b; c] /\ Forall (fun x => 0 <= fst x < r1 /\ 0 <= snd x < r2) [a; b; c].
Proof.
  intros H. destruct H; (split;
    [repeat constructor; cbn [In]; intros K; decompose [or] K; try tauto;
       match goal with E : (_, _) = (_, _) |- _ => injection E; lia end
    |repeat apply Forall_cons; try apply Forall_nil; cbn [fst snd]; lia]).
Qed.

Lemma lin_inj r2 a b : 0 <= snd a < r2 -> 0 <= snd b < r2 -> lin r2 a = lin r2 b -> a = b.
Proof. destruct a, b; unfold lin; cbn [fst snd]; intros. assert (z = z1) by nia. subst. f_equal. lia. Qed.
