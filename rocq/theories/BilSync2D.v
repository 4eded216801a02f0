(** The bilinear codec: what one point does, and the critical points of the cells of the working copy, for every arithmetic.
    Nothing of /repo is modelled here. *)
From Coq Require Import List ZArith Lia Bool Arith.
From Coq Require Import ZifyBool ZifyNat.
From Verif Require Import Base Huffman HuffStream HuffProps BitPack Stream Arith Mesh2D Derive2D Codec2D Sync2D Stream2D Scan Log2D LogSync2D Bil2D.
Import ListNotations.
Local Open Scope Z_scope.

Section Sync.
Context (A : Arith) (cs : D A -> D A).
Local Notation T := (T A).

(** The types of the critical points of the cell with corner (a,b), in the arrays U, V. *)
Definition cell_types (r2 : Z) (U V : list T) (a b : Z) : option (list Z) :=
  let g w i j := option_map (t2d A) (aget w (i * r2 + j)) in
  let* u0 := g U a b in let* u1 := g U a (b + 1) in let* u2 := g U (a + 1) (b + 1) in let* u3 := g U (a + 1) b in
  let* v0 := g V a b in let* v1 := g V a (b + 1) in let* v2 := g V (a + 1) (b + 1) in let* v3 := g V (a + 1) b in
  Some (cell_roots A cs u0 u1 u2 u3 v0 v1 v2 v3).

Lemma bil_point_inv max_eb r1 r2 U V LU LV i j U' V' LU' LV' c :
  bil_point A cs max_eb r1 r2 (U, V, LU, LV) (i, j) = Some (U', V', LU', LV', c) ->
  log_outcome A (fun U V i j => required_eb_bil A max_eb U V r1 r2 i j) r2 U V LU LV i j U' V' LU' LV' c /\
  ((U' = U /\ V' = V) \/ exists u v u' v', aget U (i * r2 + j) = Some u /\ aget V (i * r2 + j) = Some v /\
     aset U (i * r2 + j) u' = Some U' /\ aset V (i * r2 + j) v' = Some V' /\
     verify A cs U V (t2d A u) (t2d A v) (t2d A u') (t2d A v') r1 r2 i j four = Some true).
Proof.
  intros H. cbn [bil_point] in H. bind_as H u Eu. bind_as H v Ev. bind_as H eb Er.
  assert (G : Some (U, V, LU, LV, log_verbatim A u v) = Some (U', V', LU', LV', c) ->
              log_outcome A (fun U V i j => required_eb_bil A max_eb U V r1 r2 i j) r2 U V LU LV i j U' V' LU' LV' c /\
              ((U' = U /\ V' = V) \/ exists u v u' v', aget U (i * r2 + j) = Some u /\ aget V (i * r2 + j) = Some v /\
                 aset U (i * r2 + j) u' = Some U' /\ aset V (i * r2 + j) v' = Some V' /\
                 verify A cs U V (t2d A u) (t2d A v) (t2d A u') (t2d A v') r1 r2 i j four = Some true)).
  { intros E. apply Some_inj in E. injection E as E1 E2 E3 E4 E5. subst. split; [constructor; auto|left; auto]. }
  destruct (dlt A (dofZ A 0) eb) eqn:Ep; [|auto].
  destruct (teq A u (t0 A)) eqn:Zu; [auto|]. destruct (teq A v (t0 A)) eqn:Zv; [auto|].
  cbn [andb negb] in H. bind_as H [id a] Eq. destruct (0 <? id) eqn:Ei; [|auto].
  bind_as H lu El. bind_as H p0 E0. bind_as H a0 Ea0. destruct a0 as [|q0 x0]; auto.
  bind_as H lv Em. bind_as H p1 E1. bind_as H a1 Ea1. destruct a1 as [|q1 x1]; auto.
  bind_as H ok Eo. destruct ok; auto.
  bind_as H LU1 X1. bind_as H LV1 X2. bind_as H U1 X3. bind_as H V1 X4.
  apply Some_inj in H. injection H as Y1 Y2 Y3 Y4 Y5. subst. split.
  - eapply (lo_coded A _ r2 U V LU LV i j u v lu lv eb id q0 q1 x0 x1); eauto;
      unfold try_component, log_eb; rewrite Eq; cbn [bind]; rewrite Ei.
    + rewrite E0. cbn [bind]. rewrite Ea0. reflexivity.
    + rewrite E1. cbn [bind]. rewrite Ea1. reflexivity.
  - right. exists u, v, (unlog A u x0), (unlog A v x1). auto 6.
Qed.

Lemma verify_true U V u v u' v' r1 r2 i j : forall ks, verify A cs U V u v u' v' r1 r2 i j ks = Some true ->
  forall k, In k ks -> sq_in_mesh r1 r2 i j k = true ->
  exists l, corner_roots A cs U V u v r2 (i * r2 + j) k = Some l /\ corner_roots A cs U V u' v' r2 (i * r2 + j) k = Some l.
Proof.
  induction ks as [|k0 ks IH]; intros H k Hk HM; [contradiction|]. cbn [verify] in H.
  destruct (sq_in_mesh r1 r2 i j k0) eqn:E0.
  - bind_as H l El. bind_as H l' El'. destruct (list_eq_dec Z.eq_dec l l') as [->|]; [|discriminate].
    destruct Hk as [<-|Hk]; eauto.
  - destruct Hk as [<-|Hk]; [congruence|eauto].
Qed.

(** Position of cell k around (i,j). *)
Definition cell_i (i : Z) (k : nat) : Z := nth k [i - 1; i; i; i - 1] 0.
Definition cell_j (j : Z) (k : nat) : Z := nth k [j - 1; j - 1; j; j] 0.

Lemma corner_roots_cell U V U' V' u' v' r2 i j k : In k four ->
  (forall n, n <> i * r2 + j -> aget U' n = aget U n) -> (forall n, n <> i * r2 + j -> aget V' n = aget V n) ->
  aget U' (i * r2 + j) = Some u' -> aget V' (i * r2 + j) = Some v' -> 1 < r2 ->
  corner_roots A cs U V (t2d A u') (t2d A v') r2 (i * r2 + j) k = cell_types r2 U' V' (cell_i i k) (cell_j j k).
Proof.
  intros Hk OU OV Eu Ev H1.
  assert (G : forall (W W' : list T) w a b c, (forall n, n <> i * r2 + j -> aget W' n = aget W n) -> aget W' (i * r2 + j) = Some w ->
     a * r2 + b = i * r2 + j + corner r2 k c -> (c = cur_corner k -> corner r2 k c = 0) -> (c <> cur_corner k -> corner r2 k c <> 0) ->
     corner_value A W (t2d A w) r2 (i * r2 + j) k c = option_map (t2d A) (aget W' (a * r2 + b))).
  { intros W W' w a b c O E HE H2 H3. unfold corner_value. destruct (Nat.eqb_spec c (cur_corner k)) as [Hc|Hc].
    - rewrite HE, (H2 Hc), Z.add_0_r, E. reflexivity.
    - rewrite HE, O; auto. specialize (H3 Hc). lia. }
  unfold corner_roots, cell_types.
  cbn [four In] in Hk. destruct Hk as [<-|[<-|[<-|[<-|[]]]]]; cbn [cell_i cell_j nth];
    (repeat erewrite G; try reflexivity; eauto); cbn [corner nth cur_corner]; lia.
Qed.

Lemma cell_in_mesh r1 r2 a b i j : 0 <= a < r1 - 1 -> 0 <= b < r2 - 1 -> 
  In (i, j) [(a, b); (a, b + 1); (a + 1, b + 1); (a + 1, b)] ->
  exists k, In k four /\ cell_i i k = a /\ cell_j j k = b /\ sq_in_mesh r1 r2 i j k = true.
Proof.
  intros Ha Hb H. cbn [In] in H.
  destruct H as [H|[H|[H|[H|[]]]]]; apply pair_equal_spec in H; destruct H as [<- <-];
    [exists 2%nat|exists 1%nat|exists 0%nat|exists 3%nat]; (split; [cbn; auto|]); cbn; (split; [lia|split; [lia|]]);
    unfold sq_in_mesh, in_range, sq_off_y, sq_off_x, tab; cbn; lia.
Qed.

Lemma idx_inj r2 i j i' j' : 0 <= j < r2 -> 0 <= j' < r2 -> i * r2 + j = i' * r2 + j' -> i = i' /\ j = j'.
Proof. intros Hj Hj' H. assert (i = i') by nia. subst. lia. Qed.

(** One point leaves the types of the critical points of every cell as they were. *)
Lemma bil_step_cells max_eb r1 r2 U V LU LV i j U' V' LU' LV' c :
  0 <= i < r1 -> 0 <= j < r2 ->
  bil_point A cs max_eb r1 r2 (U, V, LU, LV) (i, j) = Some (U', V', LU', LV', c) ->
  forall a b, 0 <= a < r1 - 1 -> 0 <= b < r2 - 1 -> cell_types r2 U' V' a b = cell_types r2 U V a b.
Proof.
  intros Hi Hj H a b Ha Hb. apply bil_point_inv in H. destruct H as [_ [[-> ->]|(u & v & u' & v' & Eu & Ev & X1 & X2 & HV)]]; auto.
  apply aset_Some in X1, X2. destruct X1 as (_ & _ & X1), X2 as (_ & _ & X2).
  assert (O1 : forall n, n <> i * r2 + j -> aget U' n = aget U n) by (intros n Hn; rewrite X1; replace (n =? _) with false by lia; auto).
  assert (O2 : forall n, n <> i * r2 + j -> aget V' n = aget V n) by (intros n Hn; rewrite X2; replace (n =? _) with false by lia; auto).
  destruct (in_dec (fun x y : Z * Z => ltac:(decide equality; apply Z.eq_dec)) (i, j) [(a, b); (a, b + 1); (a + 1, b + 1); (a + 1, b)]) as [HI|HI].
  - destruct (cell_in_mesh r1 r2 a b i j Ha Hb HI) as (k & Hk & <- & <- & HM).
    destruct (verify_true _ _ _ _ _ _ _ _ _ _ _ HV k Hk HM) as (l & E1 & E2).
    rewrite (corner_roots_cell U V U V u v) in E1 by (auto; lia).
    rewrite (corner_roots_cell U V U' V' u' v') in E2; auto; try lia; [congruence|rewrite X1, Z.eqb_refl; auto|rewrite X2, Z.eqb_refl; auto].
  - unfold cell_types.
    assert (N : forall x y, In (x, y) [(a, b); (a, b + 1); (a + 1, b + 1); (a + 1, b)] -> 0 <= y < r2 -> x * r2 + y <> i * r2 + j).
    { intros x y Hx Hy E. destruct (idx_inj r2 x y i j Hy Hj E). subst. auto. }
    rewrite !O1, !O2 by (apply N; [cbn; auto|lia]). reflexivity.
Qed.

(** Every cell of the working copy has the critical points of the original cell. *)
Theorem bil_cells max_eb r1 r2 U V U' V' LU LV c : 0 <= r1 -> 0 < r2 ->
  enc_bil A cs max_eb r1 r2 U V = Some (U', V', LU, LV, c) ->
  forall a b, 0 <= a < r1 - 1 -> 0 <= b < r2 - 1 -> cell_types r2 U' V' a b = cell_types r2 U V a b.
Proof.
  intros H1 H2 H. unfold enc_bil in H.
  set (Inv := fun (_ : nat) (s : log_state A) => let '(U1, V1, _, _) := s in
    forall a b, 0 <= a < r1 - 1 -> 0 <= b < r2 - 1 -> cell_types r2 U1 V1 a b = cell_types r2 U V a b).
  refine (scan_inv (bil_point A cs max_eb r1 r2) Inv (scan2 r1 r2) 0%nat _ _ _ _ _ H); [|intros a b _ _; reflexivity].
  clear H. intros m [i j] s s' c' Hm HI H. destruct (scan2_nth _ _ _ _ H1 H2 Hm) as (Hi & Hj & _). cbn [fst snd] in *.
  destruct s as [[[U1 V1] LU1] LV1], s' as [[[U2 V2] LU2] LV2]. intros a b Ha Hb. rewrite <- (HI a b Ha Hb). exact (bil_step_cells _ _ _ _ _ _ _ _ _ _ _ _ _ _ Hi Hj H a b Ha Hb).
Qed.

Lemma bil_step max_eb r1 r2 U V LU LV i j U' V' LU' LV' c :
  bil_point A cs max_eb r1 r2 (U, V, LU, LV) (i, j) = Some (U', V', LU', LV', c) ->
  log_outcome A (fun U V i j => required_eb_bil A max_eb U V r1 r2 i j) r2 U V LU LV i j U' V' LU' LV' c.
Proof. intros H. apply bil_point_inv in H. tauto. Qed.
End Sync.
