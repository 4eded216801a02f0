(** The tetrahedra of the 3D mesh and the tables of the 3D compressors. *)
From Coq Require Import List ZArith Lia Bool Arith Permutation.
From Coq Require Import ZifyBool ZifyNat.
From Verif Require Import Base Huffman Arith Mesh2D Mesh3D Derive3D Codec2D Sync2D Scan Sync3D.
Import ListNotations.
Local Open Scope Z_scope.

Definition pt : Type := Z * Z * Z.
Definition padd (a b : pt) : pt := (fst (fst a) + fst (fst b), snd (fst a) + snd (fst b), snd a + snd b).
Definition units : list pt := [(1, 0, 0); (0, 1, 0); (0, 0, 1)].

(** ** Specification: each cube is cut into six tetrahedra, the monotone paths from its lowest to its highest corner. *)
Inductive tet (r1 r2 r3 : Z) : list pt -> Prop :=
| tet_path b e1 e2 e3 :
    0 <= fst (fst b) < r1 - 1 -> 0 <= snd (fst b) < r2 - 1 -> 0 <= snd b < r3 - 1 ->
    Permutation [e1; e2; e3] units ->
    tet r1 r2 r3 [b; padd b e1; padd (padd b e1) e2; padd (padd (padd b e1) e2) e3].

(** Vertices of entry n of the table around x, x last. *)
Definition nbr3 (x : pt) (n p : nat) : pt :=
  (fst (fst x) + index_offset n p 2, snd (fst x) + index_offset n p 1, snd x + index_offset n p 0).
Definition around (x : pt) (n : nat) : list pt := [nbr3 x n 0; nbr3 x n 1; nbr3 x n 2; x].

Definition in_grid (r1 r2 r3 : Z) (x : pt) : Prop :=
  0 <= fst (fst x) < r1 /\ 0 <= snd (fst x) < r2 /\ 0 <= snd x < r3.

(** ** Finite checks on the table *)
Definition pt_eqb (a b : pt) : bool :=
  (fst (fst a) =? fst (fst b)) && (snd (fst a) =? snd (fst b)) && (snd a =? snd b).
Lemma pt_eqb_eq a b : pt_eqb a b = true <-> a = b.
Proof.
  destruct a as [[a1 a2] a3], b as [[b1 b2] b3]. unfold pt_eqb. cbn [fst snd].
  rewrite !andb_true_iff, !Z.eqb_eq. split; [intros [[-> ->] ->]; auto|intros H; injection H; auto].
Qed.

Fixpoint take_pt (x : pt) (l : list pt) : option (list pt) :=
  match l with
  | [] => None
  | y :: l' => if pt_eqb x y then Some l' else option_map (cons y) (take_pt x l')
  end.
Lemma take_pt_perm x l : forall l', take_pt x l = Some l' -> Permutation (x :: l') l.
Proof.
  induction l as [|y l IH]; intros l' H; cbn in H; [discriminate|].
  destruct (pt_eqb x y) eqn:E.
  - apply pt_eqb_eq in E. injection H as <-. subst. auto.
  - destruct (take_pt x l) as [r|]; [|discriminate]. cbn in H. injection H as <-.
    eapply Permutation_trans; [apply perm_swap|]. apply perm_skip. auto.
Qed.
Fixpoint permb (l l' : list pt) : bool :=
  match l with
  | [] => match l' with [] => true | _ => false end
  | x :: l1 => match take_pt x l' with Some l2 => permb l1 l2 | None => false end
  end.
Lemma permb_sound l : forall l', permb l l' = true -> Permutation l l'.
Proof.
  induction l as [|x l IH]; intros l' H; cbn in H.
  - destruct l'; [auto|discriminate].
  - destruct (take_pt x l') as [l2|] eqn:E; [|discriminate]. apply take_pt_perm in E.
    eapply Permutation_trans; [|exact E]. apply perm_skip. auto.
Qed.

Definition crd (n p : nat) : pt := (coord n p 2, coord n p 1, coord n p 0).
Definition path (e1 e2 e3 : pt) : list pt := [(0, 0, 0); e1; padd e1 e2; padd (padd e1 e2) e3].
Definition ex : pt := (1, 0, 0). Definition ey : pt := (0, 1, 0). Definition ez : pt := (0, 0, 1).
Definition paths : list (pt * pt * pt) :=
  [(ex, ey, ez); (ex, ez, ey); (ey, ex, ez); (ey, ez, ex); (ez, ex, ey); (ez, ey, ex)].
Definition perms3 : list (pt * pt * pt) := paths.

Lemma padd_0 b : padd b (0, 0, 0) = b.
Proof. destruct b as [[a1 a2] a3]. unfold padd. cbn. f_equal; [f_equal|]; lia. Qed.
Lemma padd_assoc a b c : padd (padd a b) c = padd a (padd b c).
Proof. unfold padd. cbn. f_equal; [f_equal|]; lia. Qed.

Lemma perm_units e1 e2 e3 : Permutation [e1; e2; e3] units -> In (e1, e2, e3) paths.
Proof.
  intros H. unfold units in H. fold ex ey ez in H.
  assert (I1 : In e1 [ex; ey; ez]) by (apply (Permutation_in _ H); left; auto).
  assert (I2 : In e2 [ex; ey; ez]) by (apply (Permutation_in _ H); right; left; auto).
  assert (I3 : In e3 [ex; ey; ez]) by (apply (Permutation_in _ H); right; right; left; auto).
  assert (ND : NoDup [e1; e2; e3]).
  { apply (Permutation_NoDup (Permutation_sym H)). unfold ex, ey, ez. repeat constructor; cbn; intros X; repeat destruct X as [X|X]; try discriminate; auto. }
  inversion ND as [|? ? N1 ND1]; subst. inversion ND1 as [|? ? N2 ND2]; subst. cbn in N1, N2.
  destruct I1 as [<-|[<-|[<-|[]]]], I2 as [<-|[<-|[<-|[]]]]; try (exfalso; tauto);
    destruct I3 as [<-|[<-|[<-|[]]]]; try (exfalso; tauto); unfold paths; cbn; tauto.
Qed.

Lemma paths_perm e1 e2 e3 : In (e1, e2, e3) paths -> Permutation [e1; e2; e3] units.
Proof.
  intros H. apply permb_sound. unfold paths in H. cbn in H.
  repeat destruct H as [H|H]; try (injection H as <- <- <-; reflexivity). contradiction.
Qed.

Lemma tet_inv r1 r2 r3 c : tet r1 r2 r3 c -> exists b e1 e2 e3, In (e1, e2, e3) paths /\ c = map (padd b) (path e1 e2 e3) /\
  0 <= fst (fst b) < r1 - 1 /\ 0 <= snd (fst b) < r2 - 1 /\ 0 <= snd b < r3 - 1.
Proof.
  intros [b e1 e2 e3 H1 H2 H3 HP]. exists b, e1, e2, e3. split; [apply perm_units; auto|]. split; [|auto].
  unfold path. cbn [map]. rewrite padd_0, !padd_assoc. reflexivity.
Qed.
Lemma tet_make r1 r2 r3 b e1 e2 e3 : In (e1, e2, e3) paths ->
  0 <= fst (fst b) < r1 - 1 -> 0 <= snd (fst b) < r2 - 1 -> 0 <= snd b < r3 - 1 -> tet r1 r2 r3 (map (padd b) (path e1 e2 e3)).
Proof.
  intros H H1 H2 H3. unfold path. cbn [map]. rewrite padd_0, <- !padd_assoc. constructor; auto. apply paths_perm. auto.
Qed.

(** The cube of entry n around x. *)
Definition cube_base (x : pt) (n : nat) : pt := padd x (- coord n 3 2, - coord n 3 1, - coord n 3 0).
Definition crds (n : nat) : list pt := [crd n 0; crd n 1; crd n 2; crd n 3].
Lemma nbr3_crd x n p : nbr3 x n p = padd (cube_base x n) (crd n p).
Proof. unfold nbr3, cube_base, crd, index_offset, padd. cbn [fst snd]. f_equal; [f_equal|]; lia. Qed.
Lemma around_crds x n : around x n = map (padd (cube_base x n)) (crds n).
Proof.
  unfold around, crds. cbn [map]. rewrite <- !nbr3_crd. repeat (f_equal; []). f_equal.
  unfold nbr3, index_offset. rewrite !Z.sub_diag, !Z.add_0_r. destruct x as [[a b] c]. reflexivity.
Qed.

Definition check_sound (n : nat) : bool := existsb (fun e => permb (path (fst (fst e)) (snd (fst e)) (snd e)) (crds n)) paths.
Lemma all_sound : forallb check_sound (seq 0 24) = true.
Proof. vm_compute. reflexivity. Qed.

Lemma in_mesh3_spec r1 r2 r3 i j k n :
  in_mesh3 r1 r2 r3 i j k n = true <-> forall p, (p < 3)%nat -> in_grid r1 r2 r3 (nbr3 (i, j, k) n p).
Proof.
  unfold in_mesh3. rewrite forallb_forall. unfold in_grid, nbr3, in_range. cbn [fst snd]. split.
  - intros H p Hp. assert (Hin : In p [0%nat; 1%nat; 2%nat]) by (cbn; lia). apply H in Hin. lia.
  - intros H p Hp. assert (Hl : (p < 3)%nat) by (cbn in Hp; lia). apply H in Hl. lia.
Qed.

Lemma forall24 (P : nat -> bool) : forallb P (seq 0 24) = true -> forall n, (n < 24)%nat -> P n = true.
Proof. intros H n Hn. rewrite forallb_forall in H. apply H. apply in_seq. lia. Qed.

(** Base and top of a cell are among its vertices. *)
Lemma path_ends e1 e2 e3 : In (e1, e2, e3) paths -> In (0, 0, 0) (path e1 e2 e3) /\ In (1, 1, 1) (path e1 e2 e3).
Proof.
  intros H. cbn in H. repeat destruct H as [H|H]; try contradiction; injection H as <- <- <-; split; vm_compute; tauto.
Qed.

Lemma cube_in_grid r1 r2 r3 i j k n : (n < 24)%nat -> in_grid r1 r2 r3 (i, j, k) -> in_mesh3 r1 r2 r3 i j k n = true ->
  let b := cube_base (i, j, k) n in 0 <= fst (fst b) < r1 - 1 /\ 0 <= snd (fst b) < r2 - 1 /\ 0 <= snd b < r3 - 1.
Proof.
  intros Hn HG HM b. pose proof (forall24 _ all_sound n Hn) as HS. unfold check_sound in HS. apply existsb_exists in HS.
  destruct HS as ([[e1 e2] e3] & He & HP). cbn [fst snd] in HP. apply permb_sound in HP.
  destruct (path_ends _ _ _ He) as [Z0 Z1].
  rewrite in_mesh3_spec in HM.
  assert (HA : forall q, In q (crds n) -> in_grid r1 r2 r3 (padd b q)).
  { intros q Hq. assert (Ha : In (padd b q) (around (i, j, k) n)) by (rewrite around_crds; apply in_map; auto).
    destruct Ha as [<-|[<-|[<-|[<-|[]]]]]; [apply HM; lia|apply HM; lia|apply HM; lia|auto]. }
  pose proof (HA _ (Permutation_in _ HP Z0)) as G0. pose proof (HA _ (Permutation_in _ HP Z1)) as G1.
  unfold in_grid, padd in G0, G1. cbn [fst snd] in G0, G1. lia.
Qed.

(** ** The table lists exactly the cells around a vertex, each once. *)
Theorem table3_sound r1 r2 r3 i j k n : (n < 24)%nat -> in_grid r1 r2 r3 (i, j, k) -> in_mesh3 r1 r2 r3 i j k n = true ->
  exists c, tet r1 r2 r3 c /\ Permutation c (around (i, j, k) n).
Proof.
  intros Hn HG HM. destruct (cube_in_grid _ _ _ _ _ _ _ Hn HG HM) as (B1 & B2 & B3).
  pose proof (forall24 _ all_sound n Hn) as HS. unfold check_sound in HS. apply existsb_exists in HS.
  destruct HS as ([[e1 e2] e3] & He & HP). cbn [fst snd] in HP. apply permb_sound in HP.
  exists (map (padd (cube_base (i, j, k) n)) (path e1 e2 e3)). split; [apply tet_make; auto|].
  rewrite around_crds. apply Permutation_map. auto.
Qed.

Definition check_complete (e : pt * pt * pt) : bool :=
  let l := path (fst (fst e)) (snd (fst e)) (snd e) in
  forallb (fun v => existsb (fun n => pt_eqb (crd n 3) v && permb l (crds n)) (seq 0 24)) l.
Lemma all_complete : forallb check_complete paths = true.
Proof. vm_compute. reflexivity. Qed.

Lemma tet_in_grid r1 r2 r3 c x : tet r1 r2 r3 c -> In x c -> in_grid r1 r2 r3 x.
Proof.
  intros H Hx. destruct (tet_inv _ _ _ _ H) as (b & e1 & e2 & e3 & He & -> & B1 & B2 & B3).
  apply in_map_iff in Hx. destruct Hx as (v & <- & Hv).
  assert (G : 0 <= fst (fst v) <= 1 /\ 0 <= snd (fst v) <= 1 /\ 0 <= snd v <= 1).
  { cbn in He. repeat destruct He as [He|He]; try contradiction; injection He as <- <- <-;
      vm_compute in Hv; repeat destruct Hv as [<-|Hv]; try contradiction; cbn [fst snd]; lia. }
  unfold in_grid, padd. cbn [fst snd]. lia.
Qed.

Theorem table3_complete r1 r2 r3 i j k c : tet r1 r2 r3 c -> In (i, j, k) c ->
  exists n, (n < 24)%nat /\ in_mesh3 r1 r2 r3 i j k n = true /\ Permutation c (around (i, j, k) n).
Proof.
  intros H Hx. destruct (tet_inv _ _ _ _ H) as (b & e1 & e2 & e3 & He & Ec & B1 & B2 & B3).
  pose proof Hx as Hx'. rewrite Ec in Hx'. apply in_map_iff in Hx'. destruct Hx' as (v & Ev & Hv).
  pose proof all_complete as AC. rewrite forallb_forall in AC. specialize (AC _ He). unfold check_complete in AC. cbn [fst snd] in AC.
  rewrite forallb_forall in AC. specialize (AC _ Hv). apply existsb_exists in AC. destruct AC as (n & Hn & HC).
  apply andb_true_iff in HC. destruct HC as [HC HP]. apply pt_eqb_eq in HC. apply permb_sound in HP. apply in_seq in Hn.
  assert (Eb : cube_base (i, j, k) n = b).
  { rewrite <- Ev, <- HC. unfold cube_base, crd, padd. destruct b as [[b1 b2] b3]. cbn [fst snd]. f_equal; [f_equal|]; lia. }
  assert (HPA : Permutation c (around (i, j, k) n)).
  { rewrite around_crds, Eb, Ec. apply Permutation_map. auto. }
  exists n. split; [lia|]. split; [|auto].
  apply in_mesh3_spec. intros p Hp. apply (tet_in_grid r1 r2 r3 c); auto.
  apply (Permutation_in _ (Permutation_sym HPA)). unfold around. destruct p as [|[|[|p]]]; cbn [In]; auto. lia.
Qed.

Definition rel_pts (n : nat) : list pt := map (fun p => (index_offset n p 2, index_offset n p 1, index_offset n p 0)) [0; 1; 2; 3]%nat.
Definition distinct_rows (n n' : nat) : bool :=
  Nat.eqb n n' || existsb (fun v => negb (existsb (pt_eqb v) (rel_pts n'))) (rel_pts n).
Lemma all_distinct : forallb (fun n => forallb (distinct_rows n) (seq 0 24)) (seq 0 24) = true.
Proof. vm_compute. reflexivity. Qed.

Lemma around_rel x n : around x n = map (padd x) (rel_pts n).
Proof.
  unfold around, rel_pts. cbn [map]. replace (padd x (index_offset n 3 2, index_offset n 3 1, index_offset n 3 0)) with x; [reflexivity|].
  unfold index_offset. rewrite !Z.sub_diag, padd_0. auto.
Qed.
Lemma padd_inj x a b : padd x a = padd x b -> a = b.
Proof.
  destruct x as [[x1 x2] x3], a as [[a1 a2] a3], b as [[b1 b2] b3]. unfold padd. cbn [fst snd]. intros H. injection H. intros.
  f_equal; [f_equal|]; lia.
Qed.

Theorem table3_unique x n n' : (n < 24)%nat -> (n' < 24)%nat -> Permutation (around x n) (around x n') -> n = n'.
Proof.
  intros Hn Hn' HP. pose proof (forall24 _ all_distinct n Hn) as HD. cbv beta in HD. pose proof (forall24 _ HD n' Hn') as HD'.
  unfold distinct_rows in HD'. apply orb_true_iff in HD'. destruct HD' as [E|E]; [apply Nat.eqb_eq; auto|].
  apply existsb_exists in E. destruct E as (v & Hv & HN). exfalso.
  assert (Hi : In (padd x v) (around x n')).
  { apply (Permutation_in _ HP). rewrite around_rel. apply in_map. auto. }
  rewrite around_rel in Hi. apply in_map_iff in Hi. destruct Hi as (v' & Ev & Hv'). apply padd_inj in Ev. subst v'.
  apply negb_true_iff in HN. assert (HT : existsb (pt_eqb v) (rel_pts n') = true).
  { apply existsb_exists. exists v. split; auto. apply pt_eqb_eq. auto. }
  congruence.
Qed.

(** Linear offsets. *)
Lemma offset3_lin r2 r3 x n p : lin3 r2 r3 x + offset3 r2 r3 n p = lin3 r2 r3 (nbr3 x n p).
Proof. unfold lin3, offset3, nbr3. cbn [fst snd]. lia. Qed.

(** ** The numbering of cells in cp_exist *)
Definition list_of_tet (t : pt * pt * pt * pt) : list pt := let '(a, b, c, d) := t in [a; b; c; d].
Definition sub_index (n : nat) : nat :=
  nth n [0; 1; 2; 3; 4; 5; 3; 5; 1; 4; 4; 5; 0; 2; 2; 3; 0; 1; 0; 1; 2; 3; 4; 5]%nat 0%nat.

Definition check_index (n : nat) : bool :=
  match nth_error (cube_tets (0, 0, 0)) (sub_index n) with
  | Some t => permb (list_of_tet t) (crds n)
  | None => false
  end.
Lemma all_index : forallb check_index (seq 0 24) = true.
Proof. vm_compute. reflexivity. Qed.

Fixpoint pts_eqb (l l' : list pt) : bool :=
  match l, l' with
  | [], [] => true
  | x :: l1, y :: l2 => pt_eqb x y && pts_eqb l1 l2
  | _, _ => false
  end.
Lemma pts_eqb_eq l : forall l', pts_eqb l l' = true -> l = l'.
Proof.
  induction l as [|x l IH]; intros [|y l'] H; cbn in H; try discriminate; auto.
  apply andb_true_iff in H. destruct H as [H1 H2]. apply pt_eqb_eq in H1. f_equal; auto.
Qed.

Definition check_index_path (n : nat) : bool :=
  forallb (fun e => let l := path (fst (fst e)) (snd (fst e)) (snd e) in
             negb (permb l (crds n)) ||
             match nth_error (cube_tets (0, 0, 0)) (sub_index n) with Some t => pts_eqb (list_of_tet t) l | None => false end) paths.
Lemma all_index_path : forallb check_index_path (seq 0 24) = true.
Proof. vm_compute. reflexivity. Qed.

Lemma cube_tets_shift b t : nth_error (cube_tets b) t =
  option_map (fun q => let '(x, y, z, w) := q in (padd b x, padd b y, padd b z, padd b w)) (nth_error (cube_tets (0, 0, 0)) t).
Proof.
  destruct b as [[i j] k]. unfold cube_tets, padd. cbn [fst snd].
  destruct t as [|[|[|[|[|[|t]]]]]]; cbn [nth_error option_map]; rewrite ?Z.add_0_l, ?Z.add_0_r; try reflexivity.
  destruct t; reflexivity.
Qed.

Lemma simplex_index r2 r3 x n : (n < 24)%nat ->
  simplex_offset r2 r3 n + 6 * (fst (fst x) * (r2 - 1) * (r3 - 1) + snd (fst x) * (r3 - 1) + snd x) =
  6 * lin3 (r2 - 1) (r3 - 1) (cube_base x n) + Z.of_nat (sub_index n).
Proof.
  intros Hn. unfold cube_base, lin3, padd. destruct x as [[i j] k]. cbn [fst snd].
  do 24 (destruct n as [|n]; [unfold simplex_offset, simplex_offsets, sub_index, coord; cbn [nth coordinates]; lia|]). lia.
Qed.

Lemma flat_map_nth6 {X Y} (f : X -> list Y) l : (forall x, length (f x) = 6%nat) -> forall m t x, nth_error l m = Some x -> (t < 6)%nat ->
  nth_error (flat_map f l) (6 * m + t) = nth_error (f x) t.
Proof.
  intros H6. induction l as [|y l IH]; intros m t x Hm Ht; [destruct m; discriminate|].
  cbn [flat_map]. destruct m as [|m]; cbn [nth_error] in Hm.
  - injection Hm as ->. rewrite nth_error_app1 by (rewrite H6; lia). reflexivity.
  - rewrite nth_error_app2 by (rewrite H6; lia). rewrite H6. replace (6 * S m + t - 6)%nat with (6 * m + t)%nat by lia. auto.
Qed.

Section Lookup.
Context (A : Arith).
Context (ftk : D A * D A * D A -> D A * D A * D A -> D A * D A * D A -> D A * D A * D A -> bool).

Lemma check_all_nth U V W r2 r3 l : forall r m a b c d, check_all A ftk U V W r2 r3 l = Some r ->
  nth_error l m = Some (a, b, c, d) -> exists x, check_cp3 A ftk U V W r2 r3 a b c d = Some x /\ nth_error r m = Some x.
Proof.
  induction l as [|[[[a0 b0] c0] d0] l IH]; intros r m a b c d H Hm; [destruct m; discriminate|].
  cbn [check_all] in H. bind_as H x Ex. bind_as H r' Er. apply Some_inj in H. subst r.
  destruct m as [|m]; cbn [nth_error] in *; [|eauto]. injection Hm as E1 E2 E3 E4. subst. eauto.
Qed.

Lemma compute_cp3_nth U V W r1 r2 r3 cp bs t a b c d :
  compute_cp3 A ftk U V W r1 r2 r3 = Some cp ->
  0 <= fst (fst bs) < r1 - 1 -> 0 <= snd (fst bs) < r2 - 1 -> 0 <= snd bs < r3 - 1 ->
  nth_error (cube_tets bs) t = Some (a, b, c, d) ->
  exists x, check_cp3 A ftk U V W r2 r3 a b c d = Some x /\ aget cp (6 * lin3 (r2 - 1) (r3 - 1) bs + Z.of_nat t) = Some x.
Proof.
  intros HC H1 H2 H3 Ht. unfold compute_cp3 in HC.
  assert (Ht6 : (t < 6)%nat).
  { assert (Hn : nth_error (cube_tets bs) t <> None) by congruence. apply nth_error_Some in Hn. destruct bs as [[? ?] ?]. exact Hn. }
  assert (HP : 0 <= lin3 (r2 - 1) (r3 - 1) bs).
  { unfold lin3. destruct bs as [[i j] k]. cbn [fst snd] in *.
    assert (0 <= (r2 - 1) * (r3 - 1)) by (apply Z.mul_nonneg_nonneg; lia).
    assert (0 <= i * ((r2 - 1) * (r3 - 1))) by (apply Z.mul_nonneg_nonneg; lia).
    assert (0 <= j * (r3 - 1)) by (apply Z.mul_nonneg_nonneg; lia). lia. }
  assert (HN : nth_error (flat_map cube_tets (scan3 (r1 - 1) (r2 - 1) (r3 - 1)))
                 (6 * Z.to_nat (lin3 (r2 - 1) (r3 - 1) bs) + t) = Some (a, b, c, d)).
  { rewrite (flat_map_nth6 cube_tets _ (fun x => match x with (_, _, _) => eq_refl end) _ _ bs); auto.
    destruct bs as [[i j] k]. cbn [fst snd] in *. apply scan3_nth_ok; auto. }
  destruct (check_all_nth _ _ _ _ _ _ _ _ _ _ _ _ HC HN) as (x & E1 & E2). exists x. split; auto.
  unfold aget. replace (6 * lin3 (r2 - 1) (r3 - 1) bs + Z.of_nat t <? 0) with false by lia.
  rewrite <- E2. f_equal. lia.
Qed.

(** Every tetrahedron at a point is found under its own number. *)
Theorem cp_lookup U V W r1 r2 r3 cp i j k a b c d :
  compute_cp3 A ftk U V W r1 r2 r3 = Some cp -> tet r1 r2 r3 [a; b; c; d] -> In (i, j, k) [a; b; c; d] ->
  exists n x, (n < 24)%nat /\ in_mesh3 r1 r2 r3 i j k n = true /\ Permutation [a; b; c; d] (around (i, j, k) n) /\
    check_cp3 A ftk U V W r2 r3 a b c d = Some x /\
    aget cp (simplex_offset r2 r3 n + 6 * (i * (r2 - 1) * (r3 - 1) + j * (r3 - 1) + k)) = Some x.
Proof.
  intros HC H Hx. destruct (tet_inv _ _ _ _ H) as (bs & e1 & e2 & e3 & He & Ec & B1 & B2 & B3).
  pose proof Hx as Hx'. rewrite Ec in Hx'. apply in_map_iff in Hx'. destruct Hx' as (v & Ev & Hv).
  pose proof all_complete as AC. rewrite forallb_forall in AC. specialize (AC _ He). unfold check_complete in AC. cbn [fst snd] in AC.
  rewrite forallb_forall in AC. specialize (AC _ Hv). apply existsb_exists in AC. destruct AC as (n & Hn & HCn).
  apply andb_true_iff in HCn. destruct HCn as [HCc HPb]. apply pt_eqb_eq in HCc. apply in_seq in Hn.
  assert (Hn24 : (n < 24)%nat) by lia.
  assert (Eb : cube_base (i, j, k) n = bs).
  { rewrite <- Ev, <- HCc. unfold cube_base, crd, padd. destruct bs as [[b1 b2] b3]. cbn [fst snd]. f_equal; [f_equal|]; lia. }
  pose proof (permb_sound _ _ HPb) as HP.
  assert (HPA : Permutation [a; b; c; d] (around (i, j, k) n)).
  { rewrite around_crds, Eb, Ec. apply Permutation_map. auto. }
  pose proof (forall24 _ all_index_path n Hn24) as HI. unfold check_index_path in HI. rewrite forallb_forall in HI.
  specialize (HI _ He). cbn [fst snd] in HI. rewrite HPb in HI. cbn [negb orb] in HI.
  destruct (nth_error (cube_tets (0, 0, 0)) (sub_index n)) as [[[[a0 b0] c0] d0]|] eqn:Et; [|discriminate].
  apply pts_eqb_eq in HI. cbn [list_of_tet] in HI. rewrite <- HI in Ec. cbn [map] in Ec. injection Ec as Ea0 Eb0 Ec0 Ed0.
  assert (Et' : nth_error (cube_tets bs) (sub_index n) = Some (a, b, c, d)).
  { rewrite cube_tets_shift, Et. cbn [option_map]. congruence. }
  destruct (compute_cp3_nth _ _ _ _ _ _ _ _ _ _ _ _ _ HC B1 B2 B3 Et') as (x & X1 & X2).
  exists n, x. split; [auto|]. split; [|split; [auto|split; [auto|]]].
  - apply in_mesh3_spec. intros p Hp. apply (tet_in_grid r1 r2 r3 [a; b; c; d]); auto.
    apply (Permutation_in _ (Permutation_sym HPA)). unfold around. destruct p as [|[|[|p]]]; cbn [In]; auto. lia.
  - pose proof (simplex_index r2 r3 (i, j, k) n Hn24) as SI. cbn [fst snd] in SI. rewrite SI, Eb. auto.
Qed.
End Lookup.
