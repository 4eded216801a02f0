(** The faulty priority queue still is a correct multiset, hence tree building is total and the tree's leaves
    are exactly the symbols that occur. *)
From Coq Require Import List ZArith Lia Bool Arith Permutation Sorted.
From Coq Require Import ZifyBool ZifyNat.
From Verif Require Import Base Huffman.
Import ListNotations.
Local Open Scope Z_scope.

Lemma perm_swap_setn {A} (q : list A) i j n m :
  (i < length q)%nat -> nth_error q j = Some m -> i <> j ->
  Permutation (setn j n (setn i m q)) (setn i n q).
Proof.
  revert i j; induction q as [|a q IH]; intros i j Hi Hj Hij; simpl in *; [lia|].
  destruct i as [|i], j as [|j]; simpl in *; try lia.
  - (* i = 0 *)
    assert (Hp : Permutation (m :: setn j n q) (n :: q)).
    { apply nth_error_split in Hj as (l1 & l2 & -> & <-).
      rewrite setn_split by (rewrite app_length; simpl; lia).
      rewrite firstn_app, firstn_all, Nat.sub_diag, firstn_O, app_nil_r.
      replace (skipn (S (length l1)) (l1 ++ m :: l2)) with l2.
      2:{ rewrite skipn_app, skipn_all2 by lia.
          replace (S (length l1) - length l1)%nat with 1%nat by lia. reflexivity. }
      rewrite <- Permutation_middle. rewrite <- Permutation_middle. apply perm_swap. }
    exact Hp.
  - inversion Hj; subst.
    assert (Hp : Permutation (n :: setn i m q) (m :: setn i n q)).
    { rewrite !setn_split by lia. rewrite <- !Permutation_middle. apply perm_swap. }
    exact Hp.
  - constructor. apply IH; auto; lia.
Qed.

Lemma qget_lt q i : (1 <= i <= length q)%nat -> exists x, qget q i = Some x.
Proof.
  intros H. destruct i; [lia|]. simpl.
  destruct (nth_error q i) eqn:E; eauto. apply nth_error_None in E. lia.
Qed.

Lemma sift_up_spec fuel : forall q i n,
  (1 <= i <= length q)%nat -> (i <= fuel)%nat ->
  exists q', sift_up fuel q i n = Some q' /\ Permutation q' (setn (i - 1) n q).
Proof.
  induction fuel as [|fuel IH]; intros q i n Hi Hf; [lia|].
  cbn [sift_up].
  assert (Hset : qset q i n = Some (setn (i - 1) n q)).
  { destruct i; [lia|]. cbn [qset]. rewrite upd_setn by lia.
    replace (S i - 1)%nat with i by lia. reflexivity. }
  pose proof (Nat.div2_div i) as Hd.
  assert (Hdiv : (i / 2 < i)%nat) by (apply Nat.div_lt; lia).
  destruct (Nat.eqb_spec (Nat.div2 i) 0) as [H0|H0].
  - rewrite Hset. eauto.
  - destruct (qget_lt q (Nat.div2 i)) as [m Hm]; [lia|].
    rewrite Hm. cbn [bind].
    destruct (fst m <=? fst n).
    + rewrite Hset. eauto.
    + assert (Hsm : qset q i m = Some (setn (i - 1) m q)).
      { destruct i; [lia|]. cbn [qset]. rewrite upd_setn by lia.
        replace (S i - 1)%nat with i by lia. reflexivity. }
      rewrite Hsm. cbn [bind].
      destruct (IH (setn (i - 1) m q) (Nat.div2 i) n) as (q' & Hq' & HP).
      { rewrite setn_length. lia. } { lia. }
      exists q'. split; auto. rewrite HP.
      destruct (Nat.div2 i) as [|j] eqn:Ej; [lia|]. cbn [qget] in Hm.
      replace (S j - 1)%nat with j by lia.
      apply perm_swap_setn; auto; lia.
Qed.

Lemma qinsert_spec q n : exists q', qinsert q n = Some q' /\ Permutation q' (n :: q).
Proof.
  unfold qinsert.
  destruct (sift_up_spec (S (length q)) (q ++ [n]) (S (length q)) n) as (q' & H & HP).
  - rewrite app_length. simpl. lia.
  - lia.
  - exists q'; split; auto. rewrite HP.
    replace (S (length q) - 1)%nat with (length q) by lia.
    rewrite setn_id.
    + symmetry. apply Permutation_cons_append.
    + rewrite nth_error_app2, Nat.sub_diag by lia. reflexivity.
Qed.

(** Loop invariant of qremove: with the hole at [i], filling it with any [x] gives a permutation of the initial
    queue with its first entry replaced by [x]; cells from [qend] on are untouched. *)
Lemma sift_down_spec fuel : forall q qend i,
  (1 <= i)%nat -> (i <= length q)%nat -> (qend <= length q)%nat -> (qend - i < fuel)%nat ->
  exists q' i', sift_down fuel q qend i = Some (q', i')
    /\ (1 <= i')%nat /\ (i' = i \/ i' < qend)%nat /\ length q' = length q
    /\ (forall k, (qend <= k)%nat -> (i < k)%nat -> qget q' k = qget q k)
    /\ (forall x, Permutation (setn (i' - 1) x q') (setn (i - 1) x q)).
Proof.
  induction fuel as [|fuel IH]; intros q qend i Hi Hil Hq Hf; [lia|].
  cbn [sift_down].
  destruct (Nat.ltb_spec (2 * i) qend) as [Hl|Hl].
  - destruct (qget_lt q (2 * i)) as [a Ha]; [lia|]. rewrite Ha. cbn [bind].
    assert (Hex : exists l', (if (2 * i + 1 <? qend)%nat then
             let* b := qget q (2 * i + 1) in
             Some (if fst b <? fst a then (2 * i + 1)%nat else (2 * i)%nat)
           else Some (2 * i)%nat) = Some l' /\ (2 * i <= l' < qend)%nat).
    { destruct (Nat.ltb_spec (2 * i + 1) qend).
      - destruct (qget_lt q (2 * i + 1)) as [b Hb]; [lia|]. rewrite Hb. cbn [bind].
        destruct (fst b <? fst a); eexists; (split; [reflexivity|]); lia.
      - eexists; split; [reflexivity|]; lia. }
    destruct Hex as (l' & -> & Hl'). cbn [bind].
    destruct (qget_lt q l') as [x Hx]; [lia|]. rewrite Hx. cbn [bind].
    assert (Hs : qset q i x = Some (setn (i - 1) x q)).
    { destruct i; [lia|]. cbn [qset]. rewrite upd_setn by lia.
      replace (S i - 1)%nat with i by lia. reflexivity. }
    rewrite Hs. cbn [bind].
    destruct (IH (setn (i - 1) x q) qend l') as (q' & i' & E & H1 & H2 & H3 & H4 & H5);
      try (rewrite setn_length; lia); try lia.
    exists q', i'. split; [exact E|]. split; [lia|]. split; [lia|].
    split; [rewrite H3, setn_length; auto|]. split.
    + intros k Hk Hik. rewrite H4 by lia. destruct k; [lia|]. cbn [qget].
      apply nth_error_setn_ne. lia.
    + intros y. rewrite H5. destruct l' as [|l']; [lia|]. cbn [qget] in Hx.
      replace (S l' - 1)%nat with l' by lia. apply perm_swap_setn; auto; lia.
  - exists q, i. repeat split; auto.
Qed.

Lemma qremove_spec q : q <> [] ->
  exists n q', qremove q = Some (n, q') /\ Permutation q (n :: q').
Proof.
  intros Hne. destruct q as [|n q0]; [congruence|]. clear Hne.
  unfold qremove. cbn [qget nth_error bind].
  set (q := n :: q0). assert (HL : length q = S (length q0)) by reflexivity.
  destruct (sift_down_spec (S (length q)) q (length q) 1) as (q' & i & E & H1 & H2 & H3 & H4 & H5); try lia.
  rewrite E. cbn [bind].
  destruct (qget_lt q' (length q)) as [x Hx]; [lia|]. rewrite Hx. cbn [bind].
  assert (Hs : qset q' i x = Some (setn (i - 1) x q')).
  { destruct i; [lia|]. cbn [qset]. rewrite upd_setn by lia.
    replace (S i - 1)%nat with i by lia. reflexivity. }
  rewrite Hs. cbn [bind].
  eexists _, _. split; [reflexivity|].
  specialize (H5 x). replace (1 - 1)%nat with 0%nat in H5 by lia.
  unfold q in H5 at 1. cbn [setn] in H5.
  destruct q0 as [|n1 q1].
  - (* single element *)
    assert (i = 1)%nat by (simpl in *; lia). subst i.
    assert (length q' = 1)%nat by (rewrite H3; reflexivity).
    destruct q' as [|y [|? ?]]; simpl in *; try lia.
    reflexivity.
  - assert (Hi : (i < length q)%nat) by (simpl in *; lia).
    set (r := setn (i - 1) x q') in *.
    assert (Hlr : length r = length q) by (unfold r; rewrite setn_length; auto).
    assert (Hlast : nth_error r (length q - 1) = Some x).
    { unfold r. rewrite nth_error_setn_ne by lia.
      rewrite HL in Hx |- *. cbn [qget] in Hx.
      replace (S (length (n1 :: q1)) - 1)%nat with (length (n1 :: q1)) by lia. exact Hx. }
    assert (Hr : r = firstn (length q - 1) r ++ [x]).
    { rewrite <- (firstn_skipn (length q - 1) r) at 1. f_equal.
      apply nth_error_split in Hlast as (l1 & l2 & -> & Hl1).
      rewrite <- Hl1. rewrite skipn_app, skipn_all, Nat.sub_diag. simpl.
      destruct l2; auto. rewrite app_length in Hlr. simpl in Hlr. simpl in *. lia. }
    unfold q. apply perm_skip.
    apply Permutation_cons_inv with x.
    etransitivity; [symmetry; exact H5|].
    rewrite Hr at 1. symmetry. apply Permutation_cons_append.
Qed.

(** ** Leaves *)
Fixpoint leaves (t : tree) : list Z :=
  match t with Leaf c => [c] | Node l r => leaves l ++ leaves r end.

Definition qleaves (q : queue) : list Z := flat_map (fun n => leaves (snd n)) q.

Lemma qleaves_perm q q' : Permutation q q' -> Permutation (qleaves q) (qleaves q').
Proof. intros. apply Permutation_flat_map; auto. Qed.

Definition qtotal (q : queue) : Z := fold_right (fun n a => fst n + a) 0 q.

Lemma qtotal_perm q q' : Permutation q q' -> qtotal q = qtotal q'.
Proof. induction 1; simpl; lia. Qed.

Lemma insert_leaves_spec s cs : forall q,
  exists q', insert_leaves s cs q = Some q'
    /\ Permutation q' (map (fun c => (count s c, Leaf c)) (filter (fun c => 0 <? count s c) cs) ++ q).
Proof.
  induction cs as [|c cs IH]; intros q; cbn [insert_leaves filter].
  - exists q. split; auto.
  - destruct (0 <? count s c) eqn:E.
    + destruct (qinsert_spec q (count s c, Leaf c)) as (q1 & -> & HP). cbn [bind].
      destruct (IH q1) as (q' & -> & HP'). exists q'. split; auto.
      rewrite HP'. cbn [map app].
      rewrite HP. symmetry. apply Permutation_middle.
    + apply IH.
Qed.

Lemma merge_loop_spec ord fuel : forall q,
  q <> [] -> (length q <= S fuel)%nat ->
  exists n, merge_loop ord fuel q = Some [n] /\ Permutation (leaves (snd n)) (qleaves q)
    /\ fst n = qtotal q.
Proof.
  induction fuel as [|fuel IH]; intros q Hne Hf.
  - destruct q as [|n [|? ?]]; simpl in Hf; try lia; try congruence.
    exists n. simpl. rewrite app_nil_r. repeat split; auto. lia.
  - cbn [merge_loop]. destruct (Nat.leb_spec (length q + 1) 2) as [Hl|Hl].
    + destruct q as [|n [|? ?]]; simpl in Hl; try lia; try congruence.
      exists n. simpl. rewrite app_nil_r. repeat split; auto. lia.
    + destruct (qremove_spec q Hne) as (n1 & q1 & -> & HP1). cbn [bind].
      assert (Hq1 : q1 <> []).
      { intros ->. apply Permutation_length in HP1. simpl in HP1. lia. }
      destruct (qremove_spec q1 Hq1) as (n2 & q2 & -> & HP2). cbn [bind].
      match goal with |- context[qinsert q2 ?x] => destruct (qinsert_spec q2 x) as (q3 & -> & HP3) end.
      cbn [bind].
      assert (Hlen : length q = S (length q3)).
      { apply Permutation_length in HP1, HP2, HP3. simpl in *. lia. }
      destruct (IH q3) as (n & En & HPn & HT); [intros ->; simpl in *; lia | lia|].
      exists n. split; auto. split.
      * rewrite HPn. rewrite (qleaves_perm _ _ HP3), (qleaves_perm _ _ HP1).
        cbn [qleaves flat_map]. fold (qleaves q2). fold (qleaves q1).
        rewrite (qleaves_perm _ _ HP2). cbn [qleaves flat_map]. fold (qleaves q2).
        rewrite app_assoc. apply Permutation_app_tail.
        destruct (ord q); cbn [snd leaves]; auto. apply Permutation_app_comm.
      * rewrite HT, (qtotal_perm _ _ HP3), (qtotal_perm _ _ HP1).
        cbn [qtotal fold_right]. fold (qtotal q2). fold (qtotal q1).
        rewrite (qtotal_perm _ _ HP2). simpl. fold (qtotal q2). lia.
Qed.

Lemma count_pos s c : 0 < count s c <-> In c s.
Proof.
  unfold count. split.
  - intros H. destruct (filter (Z.eqb c) s) as [|x l] eqn:E; simpl in H; [lia|].
    assert (Hx : In x (filter (Z.eqb c) s)) by (rewrite E; left; auto).
    apply filter_In in Hx as [Hin Hx]. apply Z.eqb_eq in Hx. subst; auto.
  - intros H. assert (Hx : In c (filter (Z.eqb c) s)).
    { apply filter_In. split; auto. apply Z.eqb_refl. }
    destruct (filter (Z.eqb c) s); [destruct Hx|simpl; lia].
Qed.

Lemma symbols_ok_spec n s : symbols_ok n s = true <-> (forall c, In c s -> 0 <= c < n).
Proof.
  unfold symbols_ok. rewrite forallb_forall. split; intros H c Hc; specialize (H c Hc); lia.
Qed.

(** ** The evaluated forms of the loops *)
Lemma uinsert_in x l y : In y (uinsert x l) <-> y = x \/ In y l.
Proof.
  induction l as [|z l IH]; cbn [uinsert]; [cbn; intuition|]. destruct (x <? z); [cbn; intuition|].
  destruct (Z.eqb_spec x z) as [->|N]; cbn; [intuition|]. rewrite IH. intuition.
Qed.
Lemma usort_in l y : In y (usort l) <-> In y l.
Proof. induction l as [|x l IH]; cbn [usort fold_right]; [tauto|]. fold (usort l). rewrite uinsert_in, IH. cbn. intuition. Qed.
Lemma uinsert_sorted x l : StronglySorted Z.lt l -> StronglySorted Z.lt (uinsert x l).
Proof.
  induction 1 as [|y l HS IH HF]; cbn [uinsert]; [repeat constructor|].
  destruct (Z.ltb_spec x y) as [L|L].
  - constructor; [constructor; auto|]. constructor; [auto|]. rewrite Forall_forall in *. intros z Hz. specialize (HF z Hz). lia.
  - destruct (Z.eqb_spec x y) as [->|N]; [constructor; auto|]. constructor; auto. rewrite Forall_forall in *. intros z Hz.
    apply uinsert_in in Hz. destruct Hz as [->|Hz]; [lia|auto].
Qed.
Lemma usort_sorted l : StronglySorted Z.lt (usort l).
Proof. induction l; cbn [usort fold_right]; [constructor|apply uinsert_sorted; auto]. Qed.
Lemma sorted_unique l : forall m, StronglySorted Z.lt l -> StronglySorted Z.lt m -> (forall x, In x l <-> In x m) -> l = m.
Proof.
  induction l as [|a l IH]; intros m HL HM HE.
  - destruct m as [|b m]; [auto|]. exfalso. apply (HE b). left; auto.
  - destruct m as [|b m]; [exfalso; apply (HE a); left; auto|].
    inversion HL as [|? ? SL FL]; subst. inversion HM as [|? ? SM FM]; subst. rewrite Forall_forall in FL, FM.
    assert (E : a = b).
    { destruct (proj1 (HE a) ltac:(left; auto)) as [|Ha]; [auto|]. destruct (proj2 (HE b) ltac:(left; auto)) as [|Hb]; [auto|].
      specialize (FL b Hb). specialize (FM a Ha). lia. }
    subst b. f_equal. apply IH; auto. intros x. specialize (HE x). cbn in HE. split; intros Hx.
    + destruct (proj1 HE ltac:(auto)) as [<-|]; [specialize (FL a Hx); lia|auto].
    + destruct (proj2 HE ltac:(auto)) as [<-|]; [specialize (FM a Hx); lia|auto].
Qed.
Lemma zseq_sorted n : forall lo, StronglySorted Z.lt (zseq lo n).
Proof.
  induction n; intros lo; simpl; constructor; auto. apply Forall_forall. intros x Hx. apply in_zseq in Hx. lia.
Qed.
Lemma filter_sorted f l : StronglySorted Z.lt l -> StronglySorted Z.lt (filter f l).
Proof.
  induction 1 as [|y l HS IH HF]; cbn [filter]; [constructor|]. destruct (f y); auto. constructor; auto.
  rewrite Forall_forall in *. intros z Hz. apply filter_In in Hz. apply HF. tauto.
Qed.
Lemma insert_leaves_filter s cs : forall q, insert_leaves s (filter (fun c => 0 <? count s c) cs) q = insert_leaves s cs q.
Proof.
  induction cs as [|c cs IH]; intros q; cbn [insert_leaves filter]; [auto|]. destruct (0 <? count s c) eqn:E; [|apply IH].
  cbn [insert_leaves]. rewrite E. destruct (qinsert q _); cbn [bind]; auto.
Qed.
Theorem build_tree_is_loop ord n s : build_tree ord n s = build_tree_loop ord n s.
Proof.
  unfold build_tree, build_tree_loop. destruct (symbols_ok (2 * n) s) eqn:E; [|reflexivity].
  rewrite <- (insert_leaves_filter s (zrange _ _)).
  replace (filter (fun c => 0 <? count s c) (zrange 0 (2 * n))) with (usort s); [reflexivity|].
  apply sorted_unique; [apply usort_sorted|apply filter_sorted, zseq_sorted|].
  intros x. rewrite usort_in, filter_In, in_zrange, <- count_pos. rewrite symbols_ok_spec in E. specialize (E x). rewrite <- count_pos in E. split; intros; lia.
Qed.
Theorem code_count_is_loop n tb : code_count n tb = code_count_loop n tb.
Proof.
  unfold code_count, code_count_loop. do 2 f_equal. apply sorted_unique; [apply filter_sorted, usort_sorted|apply filter_sorted, zseq_sorted|].
  intros x. rewrite !filter_In, usort_in, in_zrange.
  assert (L : In x (map fst tb) <-> exists e, lookup tb x = Some e).
  { clear. induction tb as [|[c e] tb IH]; cbn [map In lookup fst].
    - split; [tauto|intros [e H]; discriminate].
    - destruct (Z.eqb_spec x c) as [->|N]; [split; eauto|]. rewrite <- IH. split; [intros [K|K]; [exfalso; apply N; auto|exact K]|auto]. }
  rewrite L. destruct (lookup tb x) as [e|]; split; intros [H1 H2].
  - split; [lia|auto].
  - split; [eauto|lia].
  - destruct H1; discriminate.
  - discriminate.
Qed.

(** Tree building is total on non-empty data and yields a tree with exactly the occurring symbols as leaves,
    each once. *)
Theorem build_tree_spec ord n s :
  s <> [] -> symbols_ok (2 * n) s = true ->
  exists t, build_tree ord n s = Some t /\ NoDup (leaves t) /\ (forall c, In c (leaves t) <-> In c s).
Proof.
  intros Hne Hok. rewrite build_tree_is_loop. unfold build_tree_loop. rewrite Hok.
  destruct (insert_leaves_spec s (zrange 0 (2 * n)) []) as (q & -> & HP). cbn [bind].
  rewrite app_nil_r in HP.
  set (cs := filter (fun c => 0 <? count s c) (zrange 0 (2 * n))) in *.
  assert (Hcs : forall c, In c cs <-> In c s).
  { intros c. unfold cs. rewrite filter_In, in_zrange. rewrite <- count_pos.
    rewrite symbols_ok_spec in Hok. specialize (Hok c). rewrite <- count_pos in Hok.
    split; [intros; lia|intros; split; [auto|lia]]. }
  assert (Hnd : NoDup cs). { apply NoDup_filter. apply NoDup_zseq. }
  assert (Hq : q <> []).
  { intros ->. apply Permutation_nil in HP. destruct s as [|c s']; [congruence|].
    assert (In c cs) by (apply Hcs; left; auto). destruct cs; [destruct H|discriminate]. }
  destruct (merge_loop_spec ord (length q) q Hq) as (m & -> & HPm & _); [lia|].
  cbn [bind qget nth_error].
  assert (HPl : Permutation (leaves (snd m)) cs).
  { rewrite HPm, (qleaves_perm _ _ HP). unfold qleaves.
    rewrite flat_map_concat_map, map_map. cbn [snd leaves].
    rewrite <- flat_map_concat_map.
    clear. induction cs; simpl; auto. }
  exists (snd m). split; auto. split.
  - eapply Permutation_NoDup; [symmetry; exact HPl|auto].
  - intros c. rewrite <- Hcs. split; apply Permutation_in; auto. symmetry; auto.
Qed.
