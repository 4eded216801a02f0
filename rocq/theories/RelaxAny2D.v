(** What the relaxed codec guarantees about its own critical point test, for every arithmetic. *)
From Coq Require Import Lia ZArith List Bool Permutation.
From Coq Require Import ZifyBool ZifyNat.
From Verif Require Import Base Huffman Arith Mesh2D Derive2D Codec2D Sync2D Scan Cells2D Relax2D RelaxSync2D.
Import ListNotations.
Local Open Scope Z_scope.

Lemma cell_unique r1 r2 a b c a' b' c' : cell r1 r2 a b c -> cell r1 r2 a' b' c' -> Permutation [a; b; c] [a'; b'; c'] ->
  a = a' /\ b = b' /\ c = c'.
Proof.
  intros H H' HP.
  assert (I1 : In a' [a; b; c]) by (apply (Permutation_in _ (Permutation_sym HP)); cbn; auto).
  assert (I2 : In b' [a; b; c]) by (apply (Permutation_in _ (Permutation_sym HP)); cbn; auto).
  assert (I3 : In c' [a; b; c]) by (apply (Permutation_in _ (Permutation_sym HP)); cbn; auto).
  clear HP. destruct H, H'; cbn [In] in *;
    destruct I1 as [I1|[I1|[I1|[]]]]; injection I1 as ? ?;
    destruct I3 as [I3|[I3|[I3|[]]]]; injection I3 as ? ?; try lia;
    destruct I2 as [I2|[I2|[I2|[]]]]; injection I2 as ? ?; try lia;
    (split; [|split]); f_equal; lia.
Qed.

Section Any.
Context (A : Arith).
Local Notation T := (T A).

Definition pt (U V : list T) (r2 : Z) (a : Z * Z) : option (T * T) := vat A U V (lin r2 a).

Lemma vat_other (U V U' V' : list T) k p : (forall m, m <> p -> aget U' m = aget U m) -> (forall m, m <> p -> aget V' m = aget V m) ->
  k <> p -> vat A U' V' k = vat A U V k.
Proof. intros HU HV Hk. unfold vat. rewrite HU, HV by auto. reflexivity. Qed.

Lemma cells_cp_nth_any U V r2 : forall sq l, cells_cp A U V r2 sq = Some l -> forall m ij, nth_error sq m = Some ij ->
  exists x y, cell_cp A U V r2 ij = Some [x; y] /\ nth_error l (2 * m) = Some x /\ nth_error l (2 * m + 1) = Some y.
Proof.
  induction sq as [|[i j] sq IH]; intros l H m ij Hm; [destruct m; discriminate|]. cbn [cells_cp] in H.
  bind_as H x Ex. bind_as H xs Exs. apply Some_inj in H. subst l.
  assert (S2 : exists a b, x = [a; b]).
  { unfold cell_cp in Ex. bind_as Ex a Ea. bind_as Ex b Eb. bind_as Ex c Ec. bind_as Ex b' Eb'. apply Some_inj in Ex. eauto. }
  destruct S2 as (a & b & ->). destruct m as [|m]; cbn [nth_error] in Hm.
  - apply Some_inj in Hm. subst ij. exists a, b. auto.
  - destruct (IH _ Exs _ _ Hm) as (x & y & E1 & E2 & E3). exists x, y. split; auto.
    replace (2 * S m)%nat with (S (S (2 * m))) by lia. replace (S (S (2 * m)) + 1)%nat with (S (S (2 * m + 1))) by lia.
    cbn [app nth_error]. auto.
Qed.

(** The test on three grid points. *)
Definition test (U V : list T) (r2 : Z) (a b c : Z * Z) : option bool :=
  let* x := pt U V r2 a in let* y := pt U V r2 b in let* z := pt U V r2 c in Some (check_cp A x y z).

Lemma cp_table_any U V r1 r2 cp i j : compute_cp A U V r1 r2 = Some cp -> 0 <= i < r1 - 1 -> 0 <= j < r2 - 1 ->
  exists x y, aget cp (2 * (i * (r2 - 1) + j)) = Some x /\ aget cp (2 * (i * (r2 - 1) + j) + 1) = Some y /\
    test U V r2 (i, j) (i + 1, j) (i + 1, j + 1) = Some x /\ test U V r2 (i, j) (i, j + 1) (i + 1, j + 1) = Some y.
Proof.
  intros H Hi Hj. unfold compute_cp in H.
  destruct (cells_cp_nth_any _ _ _ _ _ H _ _ (scan2_nth_ok _ _ _ _ Hi Hj)) as (x & y & E & Ex & Ey).
  exists x, y. assert (0 <= i * (r2 - 1) + j) by nia.
  split; [unfold aget; replace (_ <? 0) with false by lia;
          replace (Z.to_nat _) with (2 * Z.to_nat (i * (r2 - 1) + j))%nat by lia; exact Ex|].
  split; [unfold aget; replace (_ <? 0) with false by lia;
          replace (Z.to_nat _) with (2 * Z.to_nat (i * (r2 - 1) + j) + 1)%nat by lia; exact Ey|].
  unfold cell_cp in E. bind_as E a Ea. bind_as E b Eb. bind_as E c Ec. bind_as E b' Eb'. apply Some_inj in E.
  injection E as E1 E2. subst x y. unfold test, pt, lin. cbn [fst snd]. rewrite Ea, Eb, Ec, Eb'. cbn [bind]. auto.
Qed.

(** The entry looked up for triangle k around (i,j) is the one of that cell. *)
Lemma cell_offset_any U V r1 r2 cp i j k : compute_cp A U V r1 r2 = Some cp ->
  (k < 6)%nat -> 0 <= i < r1 -> 0 <= j < r2 -> in_mesh r1 r2 i j k = true ->
  exists x a b c, aget cp (2 * (i * (r2 - 1) + j) + cell_offset r2 k) = Some x /\ cell r1 r2 a b c /\
    same_cell a b c (nbr i j k 0) (nbr i j k 1) (i, j) /\ test U V r2 a b c = Some x.
Proof.
  intros H Hk Hi Hj. rewrite in_mesh_nbr. unfold nbr, in_range, cell_offset, cell_offsets, same_cell.
  each_k k Hk; offs Hk; intros HM.
  - destruct (cp_table_any U V r1 r2 cp (i - 1) (j - 1) H) as (x & y & Ex & Ey & Kx & Ky); [lia|lia|].
    exists y. do 3 eexists. split; [rewrite <- Ey; f_equal; lia|]. split; [apply cell_upper; shelve|]. split; [|exact Ky].
    replace (i - 1, j - 1 + 1) with (i + -1, j + 0) by (f_equal; lia).
    replace (i - 1, j - 1) with (i + -1, j + -1) by (f_equal; lia).
    replace (i - 1 + 1, j - 1 + 1) with (i, j) by (f_equal; lia). perm3.
    Unshelve. all: lia.
  - destruct (cp_table_any U V r1 r2 cp (i - 1) (j - 1) H) as (x & y & Ex & Ey & Kx & Ky); [lia|lia|].
    exists x. do 3 eexists. split; [rewrite <- Ex; f_equal; lia|]. split; [apply cell_lower; shelve|]. split; [|exact Kx].
    replace (i - 1 + 1, j - 1) with (i + 0, j + -1) by (f_equal; lia).
    replace (i - 1, j - 1) with (i + -1, j + -1) by (f_equal; lia).
    replace (i - 1 + 1, j - 1 + 1) with (i, j) by (f_equal; lia). perm3.
    Unshelve. all: lia.
  - destruct (cp_table_any U V r1 r2 cp i (j - 1) H) as (x & y & Ex & Ey & Kx & Ky); [lia|lia|].
    exists y. do 3 eexists. split; [rewrite <- Ey; f_equal; lia|]. split; [apply cell_upper; shelve|]. split; [|exact Ky].
    replace (i, j - 1 + 1) with (i, j) by (f_equal; lia).
    replace (i, j - 1) with (i + 0, j + -1) by (f_equal; lia).
    replace (i + 1, j - 1 + 1) with (i + 1, j + 0) by (f_equal; lia). perm3.
    Unshelve. all: lia.
  - destruct (cp_table_any U V r1 r2 cp i j H) as (x & y & Ex & Ey & Kx & Ky); [lia|lia|].
    exists x. do 3 eexists. split; [rewrite <- Ex; f_equal; lia|]. split; [apply cell_lower; shelve|]. split; [|exact Kx].
    replace (i + 1, j) with (i + 1, j + 0) by (f_equal; lia). perm3.
    Unshelve. all: lia.
  - destruct (cp_table_any U V r1 r2 cp i j H) as (x & y & Ex & Ey & Kx & Ky); [lia|lia|].
    exists y. do 3 eexists. split; [rewrite <- Ey; f_equal; lia|]. split; [apply cell_upper; shelve|]. split; [|exact Ky].
    replace (i, j + 1) with (i + 0, j + 1) by (f_equal; lia). perm3.
    Unshelve. all: lia.
  - destruct (cp_table_any U V r1 r2 cp (i - 1) j H) as (x & y & Ex & Ey & Kx & Ky); [lia|lia|].
    exists x. do 3 eexists. split; [rewrite <- Ex; f_equal; lia|]. split; [apply cell_lower; shelve|]. split; [|exact Kx].
    replace (i - 1 + 1, j + 1) with (i + 0, j + 1) by (f_equal; lia).
    replace (i - 1, j) with (i + -1, j + 0) by (f_equal; lia).
    replace (i - 1 + 1, j) with (i, j) by (f_equal; lia). perm3.
    Unshelve. all: lia.
Qed.

Lemma adj_cp_false_any U V r1 r2 cp i j : compute_cp A U V r1 r2 = Some cp -> 0 <= i < r1 -> 0 <= j < r2 ->
  adj_cp cp r1 r2 i j six = Some false ->
  forall a b c, cell r1 r2 a b c -> In (i, j) [a; b; c] -> test U V r2 a b c = Some false.
Proof.
  intros H Hi Hj.
  assert (G : forall ks, adj_cp cp r1 r2 i j ks = Some false -> forall k, In k ks -> in_mesh r1 r2 i j k = true ->
    aget cp (2 * (i * (r2 - 1) + j) + cell_offset r2 k) = Some false).
  { induction ks as [|k ks IH]; intros HA k' Hk' HM; [destruct Hk'|]. cbn [adj_cp] in HA.
    destruct (in_mesh r1 r2 i j k) eqn:EM.
    - bind_as HA b Eb. destruct b; [discriminate|]. destruct Hk' as [<-|Hk']; auto.
    - destruct Hk' as [<-|Hk']; [congruence|auto]. }
  intros HA a b c HC HI. destruct (table_complete _ _ _ _ _ _ _ HC HI) as (k & Hk & HM & HS).
  destruct (cell_offset_any U V r1 r2 cp i j k H Hk Hi Hj HM) as (x & a' & b' & c' & Ex & HC' & HS' & Ht).
  destruct (cell_unique r1 r2 a b c a' b' c' HC HC') as (-> & -> & ->).
  { unfold same_cell in *. eapply Permutation_trans; [exact HS|apply Permutation_sym; exact HS']. }
  rewrite Ht. rewrite <- Ex. apply (G six HA k); auto. unfold six. cbn. lia.
Qed.

Lemma verify_cp_true_any U V r1 r2 i j x :
  verify_cp A U V r1 r2 i j x six = Some true ->
  forall k, (k < 6)%nat -> in_mesh r1 r2 i j k = true ->
    exists a b, pt U V r2 (nbr i j k 0) = Some a /\ pt U V r2 (nbr i j k 1) = Some b /\ check_cp A a b x = false.
Proof.
  assert (G : forall ks, (forall k, In k ks -> (k < 6)%nat) -> verify_cp A U V r1 r2 i j x ks = Some true ->
    forall k, In k ks -> in_mesh r1 r2 i j k = true ->
    exists a b, pt U V r2 (nbr i j k 0) = Some a /\ pt U V r2 (nbr i j k 1) = Some b /\ check_cp A a b x = false).
  { induction ks as [|k ks IH]; intros HK HA k' Hk' HM; [destruct Hk'|]. cbn [verify_cp] in HA.
    destruct (in_mesh r1 r2 i j k) eqn:EM.
    - destruct (offset_lin r2 i j k (HK k (or_introl eq_refl))) as [E0 E1]. rewrite E0, E1 in HA.
      bind_as HA a Ea. bind_as HA b Eb.
      destruct (check_cp _ _ _ _) eqn:EC; [discriminate|]. destruct Hk' as [<-|Hk'].
      + exists a, b. auto.
      + apply IH; auto. intros q Hq. apply HK. right; auto.
    - destruct Hk' as [<-|Hk']; [congruence|]. apply IH; auto. intros q Hq. apply HK. right; auto. }
  intros HA k Hk. apply (G six); auto; unfold six; cbn; lia.
Qed.

(** A cell where the test on the original field fails still fails it in some order of its vertices;
    a cell that passes is unchanged. *)
Definition kept (U V W X : list T) (r2 : Z) (a b c : Z * Z) : Prop :=
  (forall p, In p [a; b; c] -> pt W X r2 p = pt U V r2 p) \/
  (test U V r2 a b c = Some false /\
   exists x y z, Permutation [a; b; c] [x; y; z] /\ test W X r2 x y z = Some false).

Theorem relax_any max_eb r1 r2 U V U' V' c :
  0 <= r1 -> 0 < r2 -> enc_relax A max_eb r1 r2 U V = Some (U', V', c) ->
  forall a b d, cell r1 r2 a b d -> kept U V U' V' r2 a b d.
Proof.
  intros H1 H2 H.
  destruct (relax_trace A _ _ _ _ _ _ _ _ H1 H2 H
    (fun _ W X => forall a b d, cell r1 r2 a b d -> kept U V W X r2 a b d)) as (cp & Hcp & G).
  { intros a b d _. left. auto. }
  apply G; clear G. intros _ i j W X W' X' c0 Hi Hj _ HI HO a b d HC.
  destruct (outcome_lens _ _ _ _ _ _ _ _ _ _ _ _ HO) as (_ & _ & _ & _ & GU & GV).
  destruct HO as [u v Eu Ev|u v eb0 id q0 q1 x0 x1 W' X' Eu Ev HA HT C0 C1 HV EU EV]; auto.
  destruct (cell_points _ _ _ _ _ HC) as [ND HP]. rewrite Forall_forall in HP.
  assert (GO : forall p, 0 <= snd p < r2 -> p <> (i, j) -> pt W' X' r2 p = pt W X r2 p).
  { intros p Hp Hne. unfold pt. eapply vat_other; eauto. intros E. apply Hne. apply (lin_inj r2); auto. }
  destruct (in_dec (fun x y : Z * Z => ltac:(repeat decide equality)) (i, j) [a; b; d]) as [HIn|HIn].
  - right. split; [eapply adj_cp_false_any; eauto|].
    destruct (table_complete _ _ _ _ _ _ _ HC HIn) as (k & Hk & HM & HS). unfold same_cell in HS.
    exists (nbr i j k 0), (nbr i j k 1), (i, j). split; auto.
    destruct (verify_cp_true_any _ _ _ _ _ _ _ HV k Hk HM) as (ya & yb & Ya & Yb & EC).
    assert (ND' := Permutation_NoDup HS ND). inversion ND' as [|? ? N1 ND2]; subst. inversion ND2 as [|? ? N2 _]; subst.
    unfold test. rewrite GO, Ya.
    2:{ apply HP, (Permutation_in _ (Permutation_sym HS)). left; auto. }
    2:{ intros E. apply N1. rewrite E. right; left; auto. }
    cbn [bind]. rewrite GO, Yb.
    2:{ apply HP, (Permutation_in _ (Permutation_sym HS)). right; left; auto. }
    2:{ intros E. apply N2. rewrite E. left; auto. }
    cbn [bind]. unfold pt, vat, lin. cbn [fst snd].
    rewrite (proj2 (proj2 (aset_Some _ _ _ _ EU))), (proj2 (proj2 (aset_Some _ _ _ _ EV))), Z.eqb_refl. cbn [bind].
    rewrite EC. reflexivity.
  - assert (GE : forall p, In p [a; b; d] -> pt W' X' r2 p = pt W X r2 p).
    { intros p Hp. apply GO; [apply HP; auto|]. intros ->. auto. }
    destruct (HI a b d HC) as [K|[K1 (x & y & z & KP & K2)]].
    + left. intros p Hp. rewrite GE by auto. auto.
    + right. split; auto. exists x, y, z. split; auto. unfold test in *.
      assert (HX : forall p, In p [x; y; z] -> pt W' X' r2 p = pt W X r2 p).
      { intros p Hp. apply GE. apply (Permutation_in _ (Permutation_sym KP)). auto. }
      rewrite (HX x), (HX y), (HX z) by (cbn; auto). auto.
Qed.
End Any.
