(** What the extraction programs report, stated on the mesh. *)
From Coq Require Import List ZArith Lia Bool Permutation.
From Coq Require Import ZifyBool ZifyNat.
From Verif Require Import Base Huffman Arith Mesh2D Mesh3D Derive3D Codec2D Sync2D Scan Sync3D Cells2D Cells3D Preserve3D Total3D Sz3 CpTool CpToolProps.
Import ListNotations.
Local Open Scope Z_scope.

(** The triangles the 2D program looks at, with their numbers: those of the cells not at the border. *)
Inductive examined2 (r1 r2 : Z) : Z * Z -> Z * Z -> Z * Z -> Z -> Prop :=
| examined_lower i j : 1 <= i < r1 - 2 -> 1 <= j < r2 - 2 -> examined2 r1 r2 (i, j) (i + 1, j) (i + 1, j + 1) (2 * (i * (r2 - 1) + j))
| examined_upper i j : 1 <= i < r1 - 2 -> 1 <= j < r2 - 2 -> examined2 r1 r2 (i, j) (i, j + 1) (i + 1, j + 1) (2 * (i * (r2 - 1) + j) + 1).

(** The tetrahedra the 3D program looks at: all, see [examined3_tet]. *)
Definition examined3 (r1 r2 r3 : Z) (a b c d : pt) (id : Z) : Prop :=
  exists x n, 0 <= fst (fst x) < r1 - 1 /\ 0 <= snd (fst x) < r2 - 1 /\ 0 <= snd x < r3 - 1 /\
    nth_error (cube_tets x) n = Some (a, b, c, d) /\ id = 6 * lin3 r2 r3 x + nth n [0; 2; 1; 4; 3; 5] 0.

Lemma examined2_cell r1 r2 a b d id : examined2 r1 r2 a b d id -> cell r1 r2 a b d.
Proof. intros H. inversion H; subst; constructor; lia. Qed.

Lemma cell_key r2 i j i' j' s s' : 1 <= j < r2 - 2 -> 1 <= j' < r2 - 2 -> 0 <= s < 2 -> 0 <= s' < 2 ->
  2 * (i * (r2 - 1) + j) + s = 2 * (i' * (r2 - 1) + j') + s' -> i = i' /\ j = j' /\ s = s'.
Proof.
  intros Hj Hj' Hs Hs' E. assert (E2 : i * (r2 - 1) + j = i' * (r2 - 1) + j') by lia.
  assert (i = i') by nia. subst. lia.
Qed.
Theorem examined2_unique r1 r2 a b d a' b' d' id : examined2 r1 r2 a b d id -> examined2 r1 r2 a' b' d' id -> (a, b, d) = (a', b', d').
Proof.
  intros H H'. inversion H as [i j Hi Hj|i j Hi Hj]; inversion H' as [i' j' Hi' Hj'|i' j' Hi' Hj']; subst.
  - destruct (cell_key r2 i' j' i j 0 0) as (-> & -> & _); try lia; auto.
  - destruct (cell_key r2 i' j' i j 1 0) as (-> & -> & ?); try lia.
  - destruct (cell_key r2 i' j' i j 0 1) as (-> & -> & ?); try lia.
  - destruct (cell_key r2 i' j' i j 1 1) as (-> & -> & _); try lia; auto.
Qed.

(** Every tetrahedron of the mesh is looked at, and nothing else. *)
Theorem examined3_tet r1 r2 r3 a b c d : tet r1 r2 r3 [a; b; c; d] <-> exists id, examined3 r1 r2 r3 a b c d id.
Proof.
  split.
  - intros H. remember [a; b; c; d] as l eqn:E. destruct H as [x e1 e2 e3 H1 H2 H3 HP]. destruct x as [[i j] k]. cbn [fst snd] in *.
    assert (In e1 units /\ In e2 units /\ In e3 units) as (I1 & I2 & I3).
    { repeat split; apply (Permutation_in _ HP); cbn; auto. }
    assert (HN : NoDup [e1; e2; e3]).
    { apply (Permutation_NoDup (Permutation_sym HP)). unfold units. repeat constructor; cbn; intuition discriminate. }
    inversion HN as [|? ? N1 HN1]; subst. inversion HN1 as [|? ? N2 HN2]; subst. cbn [In] in N1, N2.
    assert (G : forall n x, nth_error (cube_tets (i, j, k)) n = Some x -> x = (a, b, c, d) -> exists id, examined3 r1 r2 r3 a b c d id).
    { intros n x Hn ->. exists (6 * lin3 r2 r3 (i, j, k) + nth n [0; 2; 1; 4; 3; 5] 0), (i, j, k), n. cbn [fst snd]. auto. }
    unfold units in I1, I2, I3. cbn [In] in I1, I2, I3. unfold padd in E. cbn [fst snd] in E.
    destruct I1 as [<-|[<-|[<-|[]]]], I2 as [<-|[<-|[<-|[]]]], I3 as [<-|[<-|[<-|[]]]]; try (exfalso; intuition congruence); cbn [fst snd] in E;
      injection E as <- <- <- <-;
      [eapply (G 0%nat)|eapply (G 2%nat)|eapply (G 1%nat)|eapply (G 4%nat)|eapply (G 3%nat)|eapply (G 5%nat)]; try reflexivity;
      rewrite !Z.add_0_r; reflexivity.
  - intros (id & x & n & H1 & H2 & H3 & Hn & _). destruct x as [[i j] k]. cbn [fst snd] in *.
    assert (G : forall e1 e2 e3, Permutation [e1; e2; e3] units -> [a; b; c; d] = [(i, j, k); padd (i, j, k) e1; padd (padd (i, j, k) e1) e2; padd (padd (padd (i, j, k) e1) e2) e3] ->
       tet r1 r2 r3 [a; b; c; d]).
    { intros e1 e2 e3 HP ->. apply tet_path; auto. }
    destruct n as [|[|[|[|[|[|n]]]]]]; [| | | | | |destruct n; discriminate]; injection Hn as <- <- <- <-.
    + apply (G (1, 0, 0) (0, 1, 0) (0, 0, 1)); [apply permb_sound; reflexivity|]. unfold padd. cbn [fst snd]. rewrite !Z.add_0_r; reflexivity.
    + apply (G (0, 1, 0) (1, 0, 0) (0, 0, 1)); [apply permb_sound; reflexivity|]. unfold padd. cbn [fst snd]. rewrite !Z.add_0_r; reflexivity.
    + apply (G (1, 0, 0) (0, 0, 1) (0, 1, 0)); [apply permb_sound; reflexivity|]. unfold padd. cbn [fst snd]. rewrite !Z.add_0_r; reflexivity.
    + apply (G (0, 0, 1) (1, 0, 0) (0, 1, 0)); [apply permb_sound; reflexivity|]. unfold padd. cbn [fst snd]. rewrite !Z.add_0_r; reflexivity.
    + apply (G (0, 1, 0) (0, 0, 1) (1, 0, 0)); [apply permb_sound; reflexivity|]. unfold padd. cbn [fst snd]. rewrite !Z.add_0_r; reflexivity.
    + apply (G (0, 0, 1) (0, 1, 0) (1, 0, 0)); [apply permb_sound; reflexivity|]. unfold padd. cbn [fst snd]. rewrite !Z.add_0_r; reflexivity.
Qed.

Lemma number_range n : 0 <= nth n [0; 2; 1; 4; 3; 5] 0 < 6.
Proof. destruct n as [|[|[|[|[|[|[|n]]]]]]]; cbn; lia. Qed.
Lemma number_inj n n' : (n < 6)%nat -> (n' < 6)%nat -> nth n [0; 2; 1; 4; 3; 5] 0 = nth n' [0; 2; 1; 4; 3; 5] 0 -> n = n'.
Proof.
  intros H H'. destruct n as [|[|[|[|[|[|n]]]]]]; [| | | | | |lia]; destruct n' as [|[|[|[|[|[|n']]]]]]; cbn; try lia.
Qed.
Lemma tets_six x n t : nth_error (cube_tets x) n = Some t -> (n < 6)%nat.
Proof. intros H. assert (X : nth_error (cube_tets x) n <> None) by congruence. apply nth_error_Some in X. destruct x as [[i j] k]. exact X. Qed.
Lemma base_grid r1 r2 r3 x : 0 <= fst (fst x) < r1 - 1 -> 0 <= snd (fst x) < r2 - 1 -> 0 <= snd x < r3 - 1 -> in_grid r1 r2 r3 x.
Proof. unfold in_grid. lia. Qed.

(** Different tetrahedra have different numbers; the numbers are below 6 n. *)
Theorem examined3_unique r1 r2 r3 a b c d a' b' c' d' id : examined3 r1 r2 r3 a b c d id -> examined3 r1 r2 r3 a' b' c' d' id -> (a, b, c, d) = (a', b', c', d').
Proof.
  intros (x & n & H1 & H2 & H3 & Hn & E) (x' & n' & H1' & H2' & H3' & Hn' & E').
  pose proof (number_range n). pose proof (number_range n').
  assert (x = x').
  { apply (lin3_inj r1 r2 r3); [apply base_grid; auto|apply base_grid; auto|lia]. }
  subst x'. assert (n = n') by (apply number_inj; [eapply tets_six; eauto|eapply tets_six; eauto|lia]). congruence.
Qed.
Lemma examined3_range r1 r2 r3 a b c d id : examined3 r1 r2 r3 a b c d id -> 0 <= id < 6 * (r1 * r2 * r3).
Proof.
  intros (x & n & H1 & H2 & H3 & Hn & ->). pose proof (number_range n). pose proof (lin3_nonneg r1 r2 r3 x (base_grid _ _ _ _ H1 H2 H3)). lia.
Qed.

Section Two.
Context (A : Arith).
Local Notation T := (T A).
Local Notation D := (D A).
Context (inv2 : tri2 A -> option (D * D * D)) (lerp2 : tri2 A -> D * D * D -> D * D) (eig2 : tri2 A -> tri2 A -> D * D * D).

(** The vector at a grid point as the pair of doubles given to ftk. *)
Definition dvec2 (U V : list T) (r2 : Z) (x : Z * Z) : option (D * D) :=
  let* u := aget U (lin r2 x) in let* v := aget V (lin r2 x) in Some (t2d A u, t2d A v).
(** ftk finds a critical point in the triangle and none of its vertices is a zero of the field. *)
Definition detects2 (U V : list T) (r2 : Z) (a b d : Z * Z) : Prop :=
  exists va vb vd, dvec2 U V r2 a = Some va /\ dvec2 U V r2 b = Some vb /\ dvec2 U V r2 d = Some vd /\
    zero2 A va = false /\ zero2 A vb = false /\ zero2 A vd = false /\ inv2 (va, vb, vd) <> None.

Local Notation site2 := (site2 A inv2 lerp2 eig2).
Local Notation check_simplex2 := (check_simplex2 A inv2 lerp2 eig2).
Local Notation extract2 := (extract2 A inv2 lerp2 eig2).
Local Notation tool2 := (tool2 A inv2 lerp2 eig2).

Definition mid (s : Z * Z * bool) : Z * Z := let '(i, j, up) := s in if up then (i, j + 1) else (i + 1, j).
Definition site_id (r2 : Z) (s : Z * Z * bool) : Z := let '(i, j, up) := s in 2 * (i * (r2 - 1) + j) + (if up then 1 else 0).

Lemma int32_inv z z' : int32 false z = Some z' -> z' = z /\ - 2 ^ 31 <= z < 2 ^ 31.
Proof. unfold int32. destruct (_ && _) eqn:E; [|discriminate]. intros H. injection H as <-. split; [auto|lia]. Qed.

Lemma in_sites2 r1 r2 i j up : In (i, j, up) (sites2 r1 r2) <-> 1 <= i < r1 - 2 /\ 1 <= j < r2 - 2.
Proof.
  unfold sites2. rewrite in_flat_map. split.
  - intros (i' & Hi & H). apply in_flat_map in H. destruct H as (j' & Hj & H). apply in_zrange in Hi, Hj. destruct H as [H|[H|[]]]; injection H as ? ? ?; subst; lia.
  - intros [Hi Hj]. exists i. rewrite in_zrange. split; [lia|]. apply in_flat_map. exists j. rewrite in_zrange. split; [lia|]. destruct up; cbn; auto.
Qed.
Lemma site_examined r1 r2 i j up : In (i, j, up) (sites2 r1 r2) -> examined2 r1 r2 (i, j) (mid (i, j, up)) (i + 1, j + 1) (site_id r2 (i, j, up)).
Proof. rewrite in_sites2. intros [Hi Hj]. unfold mid, site_id. destruct up; [|rewrite Z.add_0_r]; constructor; auto. Qed.
Lemma examined_site r1 r2 a b d id : examined2 r1 r2 a b d id ->
  exists i j up, In (i, j, up) (sites2 r1 r2) /\ a = (i, j) /\ b = mid (i, j, up) /\ d = (i + 1, j + 1) /\ id = site_id r2 (i, j, up).
Proof.
  intros H. inversion H as [i j Hi Hj|i j Hi Hj]; subst; exists i, j; [exists false|exists true]; rewrite in_sites2; repeat split; auto; try lia. unfold site_id. lia.
Qed.

Lemma site2_inv U V r2 i j up k o : site2 U V r2 (i, j, up) = Some (k, o) ->
  k = site_id r2 (i, j, up) /\ - 2 ^ 31 <= k < 2 ^ 31 /\ exists va vb vd,
    dvec2 U V r2 (i, j) = Some va /\ dvec2 U V r2 (mid (i, j, up)) = Some vb /\ dvec2 U V r2 (i + 1, j + 1) = Some vd /\
    o = check_simplex2 (va, vb, vd) (X2d A up) i j k.
Proof.
  unfold CpTool.site2. intros H. bind_as H co Ec. bind_as H k0 E0. bind_as H k1 E1. bind_as H k2 E2. bind_as H sid Es.
  bind_as H u0 Eu0. bind_as H u1 Eu1. bind_as H u2 Eu2. bind_as H v0 Ev0. bind_as H v1 Ev1. bind_as H v2 Ev2.
  injection H as Hk Ho. subst k. apply int32_inv in Ec, E0, E1, E2, Es. destruct Ec as [-> _], E0 as [-> _], E1 as [-> _], E2 as [-> _], Es as [-> Hs].
  split; [unfold site_id; destruct up; lia|]. split; [auto|].
  exists (t2d A u0, t2d A v0), (t2d A u1, t2d A v1), (t2d A u2, t2d A v2). unfold dvec2, lin, mid. cbn [fst snd].
  rewrite Eu0, Ev0. destruct up; cbn [fst snd]; rewrite Eu1, Ev1, Eu2, Ev2; auto.
Qed.
Lemma check2_id v X i j k e : check_simplex2 v X i j k = Some e -> e_id e = k mod 2 ^ 64.
Proof.
  unfold CpTool.check_simplex2. destruct (_ || _ || _); [discriminate|]. destruct (inv2 v); [|discriminate]. destruct (eig2 X v) as [[? ?] ?].
  intros H. injection H as <-. reflexivity.
Qed.
Lemma check2_detects va vb vd X i j k : check_simplex2 (va, vb, vd) X i j k <> None <->
  zero2 A va = false /\ zero2 A vb = false /\ zero2 A vd = false /\ inv2 (va, vb, vd) <> None.
Proof.
  unfold CpTool.check_simplex2. cbn [fst snd]. destruct (zero2 A va), (zero2 A vb), (zero2 A vd); cbn [orb]; try (split; [congruence|intros (?&?&?&?); discriminate]).
  destruct (inv2 (va, vb, vd)); [|split; [congruence|intros (?&?&?&?); congruence]].
  destruct (eig2 X (va, vb, vd)) as [[? ?] ?]. split; [repeat split; discriminate|discriminate].
Qed.
(** Detection at a site, on the mesh. *)
Lemma site2_detects U V r2 i j up k o : site2 U V r2 (i, j, up) = Some (k, o) ->
  (o <> None <-> detects2 U V r2 (i, j) (mid (i, j, up)) (i + 1, j + 1)).
Proof.
  intros H. apply site2_inv in H. destruct H as (_ & _ & va & vb & vd & Ea & Eb & Ed & ->). rewrite check2_detects. unfold detects2. split.
  - intros H. exists va, vb, vd. auto.
  - intros (va' & vb' & vd' & Ea' & Eb' & Ed' & H). rewrite Ea in Ea'. rewrite Eb in Eb'. rewrite Ed in Ed'.
    apply Some_inj in Ea', Eb', Ed'. subst. auto.
Qed.
Lemma site2_key U V U' V' r2 s k o k' o' : site2 U V r2 s = Some (k, o) -> site2 U' V' r2 s = Some (k', o') -> k = k'.
Proof. destruct s as [[i j] up]. intros H H'. apply site2_inv in H, H'. destruct H as [-> _], H' as [-> _]. auto. Qed.
Lemma site2_inj U V r1 r2 s s' k o o' : In s (sites2 r1 r2) -> In s' (sites2 r1 r2) ->
  site2 U V r2 s = Some (k, o) -> site2 U V r2 s' = Some (k, o') -> s = s'.
Proof.
  destruct s as [[i j] up], s' as [[i' j'] up']. rewrite !in_sites2. intros [Hi Hj] [Hi' Hj'] H H'. apply site2_inv in H, H'.
  destruct H as [-> _], H' as [H' _]. unfold site_id in H'.
  destruct (cell_key r2 i j i' j' (if up then 1 else 0) (if up' then 1 else 0)) as (-> & -> & E); try (destruct up, up'; lia); auto.
  destruct up, up'; try lia; reflexivity.
Qed.
Lemma site2_e_id U V r1 r2 s k e : In s (sites2 r1 r2) -> site2 U V r2 s = Some (k, Some e) -> e_id e = site_id r2 s.
Proof.
  destruct s as [[i j] up]. rewrite in_sites2. intros [Hi Hj] H. apply site2_inv in H. destruct H as (-> & Hk & va & vb & vd & _ & _ & _ & H).
  symmetry in H. apply check2_id in H. rewrite H. apply Z.mod_small. unfold site_id in *. split; [|lia].
  assert (0 <= i * (r2 - 1)) by (apply Z.mul_nonneg_nonneg; lia). destruct up; lia.
Qed.

Lemma tool2_inv U V U' V' r1 r2 r : tool2 U V U' V' r1 r2 = Some r ->
  exists m0 m1, run_sites (site2 U V r2) (sites2 r1 r2) [] = Some m0 /\ run_sites (site2 U' V' r2) (sites2 r1 r2) [] = Some m1 /\ r = compare_cps m0 m1.
Proof. unfold CpTool.tool2. intros H. bind_as H m0 E0. bind_as H m1 E1. apply Some_inj in H. exists m0, m1. auto. Qed.

(** The printed numbers add up. *)
Theorem tool2_counts U V U' V' r1 r2 r : tool2 U V U' V' r1 r2 = Some r ->
  length (r_origin r) = (length (r_tp r) + length (r_ft r) + length (r_fn r))%nat /\
  length (r_decompressed r) = (length (r_tp r) + length (r_ft r) + length (r_fp r))%nat.
Proof.
  intros H. apply tool2_inv in H. destruct H as (m0 & m1 & H0 & H1 & ->). apply compare_counts; eapply run0_NoDup; eauto.
Qed.

Lemma map_entries U V r1 r2 m id : run_sites (site2 U V r2) (sites2 r1 r2) [] = Some m ->
  ((exists e, In e (map snd m) /\ e_id e = id) <-> exists a b d, examined2 r1 r2 a b d id /\ detects2 U V r2 a b d).
Proof.
  intros H. pose proof (run0_NoDup _ _ _ H) as HN. split.
  - intros (e & He & <-). apply in_map_iff in He. destruct He as ([k e'] & E & HI). cbn [snd] in E. subst e'. apply (mfind_In k e m HN) in HI.
    destruct (run_only _ _ _ _ _ _ H HI) as [X|([[i j] up] & Hs & Es)]; [rewrite mfind_nil in X; discriminate|].
    rewrite (site2_e_id _ _ _ _ _ _ _ Hs Es). exists (i, j), (mid (i, j, up)), (i + 1, j + 1). split; [apply site_examined; auto|].
    apply (site2_detects _ _ _ _ _ _ _ _ Es). discriminate.
  - intros (a & b & d & He & Hd). apply examined_site in He. destruct He as (i & j & up & Hs & -> & -> & -> & ->).
    destruct (run_all _ _ _ _ _ H Hs) as (k & o & Es & Hn). apply (site2_detects _ _ _ _ _ _ _ _ Es) in Hd.
    destruct o as [e|]; [|congruence]. exists e. split; [|apply (site2_e_id _ _ _ _ _ _ _ Hs Es)].
    apply in_map_iff. exists (k, e). split; auto. apply mfind_In; auto. apply (run_lookup _ _ _ (i, j, up) _ _ H); auto.
    intros. eapply site2_inj; eauto.
Qed.
(** The two lists of critical points are the examined triangles in which ftk finds one. *)
Theorem tool2_lists U V U' V' r1 r2 r id : tool2 U V U' V' r1 r2 = Some r ->
  ((exists e, In e (r_origin r) /\ e_id e = id) <-> exists a b d, examined2 r1 r2 a b d id /\ detects2 U V r2 a b d) /\
  ((exists e, In e (r_decompressed r) /\ e_id e = id) <-> exists a b d, examined2 r1 r2 a b d id /\ detects2 U' V' r2 a b d).
Proof.
  intros H. apply tool2_inv in H. destruct H as (m0 & m1 & H0 & H1 & ->). cbn [compare_cps r_origin r_decompressed]. split; apply map_entries; auto.
Qed.

Lemma nd_dec U V r2 i j up k : site2 U V r2 (i, j, up) = Some (k, None) -> ~ detects2 U V r2 (i, j) (mid (i, j, up)) (i + 1, j + 1).
Proof. intros H Hd. apply (site2_detects _ _ _ _ _ _ _ _ H) in Hd. congruence. Qed.

(** False negatives, false positives and type changes. *)
Theorem tool2_false U V U' V' r1 r2 r : tool2 U V U' V' r1 r2 = Some r ->
  (forall id, (exists e, In e (r_fn r) /\ e_id e = id) <->
     exists a b d, examined2 r1 r2 a b d id /\ detects2 U V r2 a b d /\ ~ detects2 U' V' r2 a b d) /\
  (forall id, (exists e, In e (r_fp r) /\ e_id e = id) <->
     exists a b d, examined2 r1 r2 a b d id /\ ~ detects2 U V r2 a b d /\ detects2 U' V' r2 a b d) /\
  (forall e, In e (r_ft r) -> exists a b d, examined2 r1 r2 a b d (e_id e) /\ detects2 U V r2 a b d /\ detects2 U' V' r2 a b d).
Proof.
  intros H. apply tool2_inv in H. destruct H as (m0 & m1 & H0 & H1 & ->).
  destruct (report_sites _ _ _ _ _ H0 H1 (fun s k o k' o' => site2_key U V U' V' r2 s k o k' o') (fun s s' k o o' => site2_inj U V r1 r2 s s' k o o')) as (Hfn & Hfp & Hft).
  pose proof (run0_NoDup _ _ _ H0) as N0. pose proof (run0_NoDup _ _ _ H1) as N1.
  assert (L0 : forall s k o, In s (sites2 r1 r2) -> site2 U V r2 s = Some (k, o) -> mfind k m0 = o).
  { intros s k o Hs Es. apply (run_lookup _ _ _ s _ _ H0); auto. intros. eapply site2_inj; eauto. }
  assert (L1 : forall s k o, In s (sites2 r1 r2) -> site2 U' V' r2 s = Some (k, o) -> mfind k m1 = o).
  { intros s k o Hs Es. apply (run_lookup _ _ _ s _ _ H1); auto. intros. eapply site2_inj; eauto. }
  assert (G : forall a b d id, examined2 r1 r2 a b d id -> exists i j up k o o', In (i, j, up) (sites2 r1 r2) /\ a = (i, j) /\ b = mid (i, j, up) /\ d = (i + 1, j + 1) /\
     id = site_id r2 (i, j, up) /\ site2 U V r2 (i, j, up) = Some (k, o) /\ site2 U' V' r2 (i, j, up) = Some (k, o')).
  { intros a b d id He. apply examined_site in He. destruct He as (i & j & up & Hs & -> & -> & -> & ->).
    destruct (run_all _ _ _ _ _ H0 Hs) as (k & o & Es & _). destruct (run_all _ _ _ _ _ H1 Hs) as (k' & o' & Es' & _).
    rewrite <- (site2_key _ _ _ _ _ _ _ _ _ _ Es Es') in Es'. exists i, j, up, k, o, o'. auto 8. }
  split; [|split].
  - intros id. split.
    + intros (e & He & <-). destruct (Hfn _ He) as ([[i j] up] & k & Hs & E0 & E1). rewrite (site2_e_id _ _ _ _ _ _ _ Hs E0).
      exists (i, j), (mid (i, j, up)), (i + 1, j + 1). split; [apply site_examined; auto|]. split; [apply (site2_detects _ _ _ _ _ _ _ _ E0); discriminate|].
      eapply nd_dec; eauto.
    + intros (a & b & d & He & Hd & Hn). destruct (G _ _ _ _ He) as (i & j & up & k & o & o' & Hs & -> & -> & -> & -> & E0 & E1).
      apply (site2_detects _ _ _ _ _ _ _ _ E0) in Hd. rewrite <- (site2_detects _ _ _ _ _ _ _ _ E1) in Hn. destruct o as [e|]; [|congruence].
      destruct o' as [e'|]; [exfalso; apply Hn; discriminate|]. exists e. split; [|apply (site2_e_id _ _ _ _ _ _ _ Hs E0)].
      cbn [compare_cps r_fn]. apply in_flat_map. exists (k, e). split; [apply mfind_In; auto; eapply L0; eauto|]. cbn [fst snd]. rewrite (L1 _ _ _ Hs E1). left. auto.
  - intros id. split.
    + intros (e & He & <-). destruct (Hfp _ He) as ([[i j] up] & k & Hs & E1 & E0). rewrite (site2_e_id _ _ _ _ _ _ _ Hs E1).
      exists (i, j), (mid (i, j, up)), (i + 1, j + 1). split; [apply site_examined; auto|]. split; [eapply nd_dec; eauto|].
      apply (site2_detects _ _ _ _ _ _ _ _ E1); discriminate.
    + intros (a & b & d & He & Hn & Hd). destruct (G _ _ _ _ He) as (i & j & up & k & o & o' & Hs & -> & -> & -> & -> & E0 & E1).
      apply (site2_detects _ _ _ _ _ _ _ _ E1) in Hd. rewrite <- (site2_detects _ _ _ _ _ _ _ _ E0) in Hn. destruct o' as [e|]; [|congruence].
      destruct o as [e'|]; [exfalso; apply Hn; discriminate|]. exists e. split; [|apply (site2_e_id _ _ _ _ _ _ _ Hs E1)].
      cbn [compare_cps r_fp]. apply in_flat_map. exists (k, e). split; [apply mfind_In; auto; eapply L1; eauto|]. cbn [fst snd]. rewrite (L0 _ _ _ Hs E0). left. auto.
  - intros e He. destruct (Hft _ He) as ([[i j] up] & k & e0 & Hs & E0 & E1 & _). rewrite (site2_e_id _ _ _ _ _ _ _ Hs E1).
    exists (i, j), (mid (i, j, up)), (i + 1, j + 1). split; [apply site_examined; auto|].
    split; [apply (site2_detects _ _ _ _ _ _ _ _ E0)|apply (site2_detects _ _ _ _ _ _ _ _ E1)]; discriminate.
Qed.

Lemma dvec2_same U V U' V' r2 x : aget U' (lin r2 x) = aget U (lin r2 x) /\ aget V' (lin r2 x) = aget V (lin r2 x) -> dvec2 U' V' r2 x = dvec2 U V r2 x.
Proof. unfold dvec2. intros [-> ->]. auto. Qed.

(** An entry in one of the lists of errors: a triangle that ftk sees differently before and after. *)
Theorem tool2_changed U V U' V' r1 r2 r e : tool2 U V U' V' r1 r2 = Some r -> In e (r_fn r) \/ In e (r_fp r) \/ In e (r_ft r) ->
  exists a b d va vb vd va' vb' vd', examined2 r1 r2 a b d (e_id e) /\
    dvec2 U V r2 a = Some va /\ dvec2 U V r2 b = Some vb /\ dvec2 U V r2 d = Some vd /\
    dvec2 U' V' r2 a = Some va' /\ dvec2 U' V' r2 b = Some vb' /\ dvec2 U' V' r2 d = Some vd' /\
    (va, vb, vd) <> (va', vb', vd') /\ (inv2 (va, vb, vd) <> None \/ inv2 (va', vb', vd') <> None).
Proof.
  intros H He. apply tool2_inv in H. destruct H as (m0 & m1 & H0 & H1 & ->).
  destruct (report_sites _ _ _ _ _ H0 H1 (fun s k o k' o' => site2_key U V U' V' r2 s k o k' o') (fun s s' k o o' => site2_inj U V r1 r2 s s' k o o')) as (Hfn & Hfp & Hft).
  assert (G : exists s k o o', In s (sites2 r1 r2) /\ site2 U V r2 s = Some (k, o) /\ site2 U' V' r2 s = Some (k, o') /\ o <> o' /\ e_id e = site_id r2 s).
  { destruct He as [He|[He|He]].
    - destruct (Hfn _ He) as (s & k & Hs & E0 & E1). exists s, k, (Some e), None. repeat split; auto; [discriminate|]. eapply site2_e_id; eauto.
    - destruct (Hfp _ He) as (s & k & Hs & E1 & E0). exists s, k, None, (Some e). repeat split; auto; [discriminate|]. eapply site2_e_id; eauto.
    - destruct (Hft _ He) as (s & k & e0 & Hs & E0 & E1 & Et). exists s, k, (Some e0), (Some e). repeat split; auto; [congruence|]. eapply site2_e_id; eauto. }
  destruct G as ([[i j] up] & k & o & o' & Hs & E0 & E1 & Ho & Ee). exists (i, j), (mid (i, j, up)), (i + 1, j + 1).
  apply site2_inv in E0, E1. destruct E0 as (-> & _ & va & vb & vd & Ea & Eb & Ed & ->). destruct E1 as (_ & _ & va' & vb' & vd' & Ea' & Eb' & Ed' & ->).
  exists va, vb, vd, va', vb', vd'. rewrite Ee. split; [apply site_examined; auto|]. repeat (split; [assumption|]). split; [congruence|].
  unfold CpTool.check_simplex2 in Ho. destruct (inv2 (va, vb, vd)), (inv2 (va', vb', vd')); try (left; discriminate); try (right; discriminate).
  exfalso. apply Ho. destruct (_ || _ || _), (_ || _ || _); reflexivity.
Qed.

(** A triangle whose vertices come back bit for bit is in none of the three lists of errors. *)
Theorem tool2_unchanged U V U' V' r1 r2 r e : tool2 U V U' V' r1 r2 = Some r ->
  In e (r_fn r) \/ In e (r_fp r) \/ In e (r_ft r) ->
  exists a b d, examined2 r1 r2 a b d (e_id e) /\
    ~ (forall x, In x [a; b; d] -> aget U' (lin r2 x) = aget U (lin r2 x) /\ aget V' (lin r2 x) = aget V (lin r2 x)).
Proof.
  intros H He. destruct (tool2_changed _ _ _ _ _ _ _ _ H He) as (a & b & d & va & vb & vd & va' & vb' & vd' & HE & Ea & Eb & Ed & Ea' & Eb' & Ed' & Hne & _).
  exists a, b, d. split; [auto|]. intros Hx. apply Hne.
  rewrite (dvec2_same U V) in Ea' by (apply Hx; cbn; auto). rewrite (dvec2_same U V) in Eb' by (apply Hx; cbn; auto).
  rewrite (dvec2_same U V) in Ed' by (apply Hx; cbn; auto). congruence.
Qed.

Lemma run_total {P S} (f : S -> option (Z * option (entry P))) l : (forall s, In s l -> f s <> None) -> forall m, exists m', run_sites f l m = Some m'.
Proof.
  induction l as [|s l IH]; intros H m; cbn [run_sites]; [eauto|]. destruct (f s) as [[k o]|] eqn:E; [|exfalso; apply (H s); [left; auto|auto]].
  apply IH. intros s' Hs. apply H. right. auto.
Qed.
Lemma int32_some z : - 2 ^ 31 <= z < 2 ^ 31 -> int32 false z = Some z.
Proof. intros H. unfold int32. replace ((- 2 ^ 31 <=? z) && (z <? 2 ^ 31)) with true by lia. reflexivity. Qed.
Lemma cell_index r1 r2 i j : 0 <= i < r1 -> 0 <= j < r2 -> 0 <= i * r2 + j < r1 * r2.
Proof. intros. nia. Qed.
(** The program runs to the end on grids of up to 2^30 points. *)
Theorem tool2_total U V U' V' r1 r2 : r1 * r2 <= 2 ^ 30 ->
  Z.of_nat (length U) = r1 * r2 -> Z.of_nat (length V) = r1 * r2 -> Z.of_nat (length U') = r1 * r2 -> Z.of_nat (length V') = r1 * r2 ->
  exists r, tool2 U V U' V' r1 r2 = Some r.
Proof.
  intros HS LU LV LU' LV'.
  assert (G : forall U V, Z.of_nat (length U) = r1 * r2 -> Z.of_nat (length V) = r1 * r2 -> exists m, extract2 U V r1 r2 = Some m).
  { clear U V U' V' LU LV LU' LV'. intros U V LU LV. apply run_total. intros [[i j] up] Hs. apply in_sites2 in Hs. destruct Hs as [Hi Hj].
    unfold CpTool.site2.
    pose proof (cell_index r1 r2 i j ltac:(lia) ltac:(lia)). pose proof (cell_index r1 r2 i (j + 1) ltac:(lia) ltac:(lia)).
    pose proof (cell_index r1 r2 (i + 1) j ltac:(lia) ltac:(lia)). pose proof (cell_index r1 r2 (i + 1) (j + 1) ltac:(lia) ltac:(lia)).
    assert (0 <= i * (r2 - 1) + j < 2 ^ 30) by nia.
    rewrite (int32_some (2 * _)) by lia. cbn [bind]. rewrite (int32_some (i * r2 + j)) by lia. cbn [bind].
    assert (K : 0 <= (if up then i * r2 + (j + 1) else (i + 1) * r2 + j) < r1 * r2) by (destruct up; lia).
    rewrite (int32_some (if up then i * r2 + (j + 1) else _)) by lia. cbn [bind]. rewrite (int32_some ((i + 1) * r2 + (j + 1))) by lia. cbn [bind].
    rewrite int32_some by (destruct up; lia). cbn [bind].
    assert (GA : forall (w : list T) k, Z.of_nat (length w) = r1 * r2 -> 0 <= k < r1 * r2 -> exists y, aget w k = Some y).
    { intros w k Lw Hk. unfold aget. replace (k <? 0) with false by lia. destruct (nth_error w (Z.to_nat k)) eqn:E; [eauto|]. apply nth_error_None in E. lia. }
    destruct (GA U (i * r2 + j) LU ltac:(lia)) as (y1 & ->). cbn [bind]. destruct (GA U _ LU K) as (y2 & ->). cbn [bind].
    destruct (GA U ((i + 1) * r2 + (j + 1)) LU ltac:(lia)) as (y3 & ->). cbn [bind].
    destruct (GA V (i * r2 + j) LV ltac:(lia)) as (y4 & ->). cbn [bind]. destruct (GA V _ LV K) as (y5 & ->). cbn [bind].
    destruct (GA V ((i + 1) * r2 + (j + 1)) LV ltac:(lia)) as (y6 & ->). cbn [bind]. discriminate. }
  destruct (G U V LU LV) as (m0 & E0). destruct (G U' V' LU' LV') as (m1 & E1). exists (compare_cps m0 m1). unfold CpTool.tool2. rewrite E0. cbn [bind]. rewrite E1. reflexivity.
Qed.
End Two.

(** *** Three dimensions *)
Section Three.
Context (A : Arith).
Local Notation T := (T A).
Local Notation D := (D A).
Context (inv3 : tet3 A -> option (D * D * D * D)) (lerp3 : tet3 A -> D * D * D * D -> vecd3 A) (roots3 : tet3 A -> tet3 A -> D * vecd3 A).

(** src/sz_compress_cp_preserve_3d.cpp:1251-1258 check_cp: the compressor's test, the same ftk function with the same threshold. *)
Definition found3 (a b c d : D * D * D) : bool := match inv3 (a, b, c, d) with Some _ => true | None => false end.

(** The vector at a grid point as doubles. *)
Definition dvec3 (U V W : list T) (r2 r3 : Z) (x : pt) : option (vecd3 A) :=
  let* (u, v, w) := vec_at A U V W (lin3 r2 r3 x) in Some (t2d A u, t2d A v, t2d A w).
Definition detects3 (U V W : list T) (r2 r3 : Z) (a b c d : pt) : Prop :=
  exists va vb vc vd, dvec3 U V W r2 r3 a = Some va /\ dvec3 U V W r2 r3 b = Some vb /\ dvec3 U V W r2 r3 c = Some vc /\ dvec3 U V W r2 r3 d = Some vd /\
    zero3 A va = false /\ zero3 A vb = false /\ zero3 A vc = false /\ zero3 A vd = false /\ inv3 (va, vb, vc, vd) <> None.

Local Notation site3 := (site3 A inv3 lerp3 roots3).
Local Notation check_simplex3 := (check_simplex3 A inv3 lerp3 roots3).
Local Notation tool3 := (tool3 A inv3 lerp3 roots3).

Lemma in_sites3 r1 r2 r3 x n : In (x, n) (sites3 r1 r2 r3) <->
  (0 <= fst (fst x) < r1 - 1 /\ 0 <= snd (fst x) < r2 - 1 /\ 0 <= snd x < r3 - 1) /\ (n < 6)%nat.
Proof.
  unfold sites3. rewrite in_flat_map. split.
  - intros (y & Hy & H). apply in_map_iff in H. destruct H as (n' & E & Hn). injection E as -> ->. apply in_seq in Hn. split; [|lia].
    unfold scan3 in Hy. apply in_flat_map in Hy. destruct Hy as (i & Hi & Hy). apply in_flat_map in Hy. destruct Hy as (j & Hj & Hy).
    apply in_map_iff in Hy. destruct Hy as (k & <- & Hk). apply in_zrange in Hi, Hj, Hk. cbn [fst snd]. lia.
  - intros [(H1 & H2 & H3) Hn]. exists x. split; [|apply in_map_iff; exists n; split; auto; apply in_seq; lia].
    destruct x as [[i j] k]. cbn [fst snd] in *. unfold scan3. apply in_flat_map. exists i. split; [apply in_zrange; lia|].
    apply in_flat_map. exists j. split; [apply in_zrange; lia|]. apply in_map_iff. exists k. split; auto. apply in_zrange. lia.
Qed.
Lemma site3_inv U V W r2 r3 x n k o : site3 U V W r2 r3 (x, n) = Some (k, o) ->
  k = to_int (6 * lin3 r2 r3 x + nth n [0; 2; 1; 4; 3; 5] 0) /\ exists a b c d X va vb vc vd,
    nth_error (cube_tets x) n = Some (a, b, c, d) /\ nth_error (tet_coords A) n = Some X /\
    dvec3 U V W r2 r3 a = Some va /\ dvec3 U V W r2 r3 b = Some vb /\ dvec3 U V W r2 r3 c = Some vc /\ dvec3 U V W r2 r3 d = Some vd /\
    o = check_simplex3 (va, vb, vc, vd) X x k.
Proof.
  unfold CpTool.site3. intros H. destruct (nth_error (cube_tets x) n) as [[[[a b] c] d]|]; [|discriminate]. cbn [bind] in H.
  bind_as H X EX. bind_as H va Ea. bind_as H vb Eb. bind_as H vc Ec. bind_as H vd Ed. injection H as <- <-.
  split; [reflexivity|]. exists a, b, c, d, X, va, vb, vc, vd. repeat split; auto.
Qed.
Lemma check3_id v X x k e : check_simplex3 v X x k = Some e -> e_id e = k mod 2 ^ 64.
Proof.
  unfold CpTool.check_simplex3. destruct v as [[[v0 v1] v2] v3]. destruct (_ || _ || _ || _); [discriminate|]. destruct (inv3 _); [|discriminate].
  destruct x as [[i j] k0]. intros H. injection H as <-. reflexivity.
Qed.
Lemma check3_detects va vb vc vd X x k : check_simplex3 (va, vb, vc, vd) X x k <> None <->
  zero3 A va = false /\ zero3 A vb = false /\ zero3 A vc = false /\ zero3 A vd = false /\ inv3 (va, vb, vc, vd) <> None.
Proof.
  unfold CpTool.check_simplex3. destruct (zero3 A va), (zero3 A vb), (zero3 A vc), (zero3 A vd); cbn [orb]; try (split; [congruence|intros (?&?&?&?&?); discriminate]).
  destruct (inv3 (va, vb, vc, vd)); [|split; [congruence|intros (?&?&?&?&?); congruence]].
  destruct x as [[i j] k0]. split; [repeat split; discriminate|discriminate].
Qed.
Lemma site3_detects U V W r2 r3 x n k o a b c d : site3 U V W r2 r3 (x, n) = Some (k, o) -> nth_error (cube_tets x) n = Some (a, b, c, d) ->
  (o <> None <-> detects3 U V W r2 r3 a b c d).
Proof.
  intros H Ht. apply site3_inv in H. destruct H as (_ & a' & b' & c' & d' & X & va & vb & vc & vd & Ht' & _ & Ea & Eb & Ec & Ed & ->).
  rewrite Ht in Ht'. injection Ht' as <- <- <- <-. rewrite check3_detects. unfold detects3. split.
  - intros H. exists va, vb, vc, vd. auto 8.
  - intros (va' & vb' & vc' & vd' & Ea' & Eb' & Ec' & Ed' & H). rewrite Ea in Ea'. rewrite Eb in Eb'. rewrite Ec in Ec'. rewrite Ed in Ed'.
    apply Some_inj in Ea', Eb', Ec', Ed'. subst. auto.
Qed.
Lemma site3_key U V W U' V' W' r2 r3 s k o k' o' : site3 U V W r2 r3 s = Some (k, o) -> site3 U' V' W' r2 r3 s = Some (k', o') -> k = k'.
Proof. destruct s as [x n]. intros H H'. apply site3_inv in H, H'. destruct H as [-> _], H' as [-> _]. auto. Qed.

Lemma to_int_inj z z' : 0 <= z < 2 ^ 32 -> 0 <= z' < 2 ^ 32 -> to_int z = to_int z' -> z = z'.
Proof. unfold to_int. intros H H' E. assert (E2 : (z + 2 ^ 31) mod 2 ^ 32 = (z' + 2 ^ 31) mod 2 ^ 32) by lia.
  pose proof (Z.div_mod (z + 2 ^ 31) (2 ^ 32) ltac:(lia)). pose proof (Z.div_mod (z' + 2 ^ 31) (2 ^ 32) ltac:(lia)).
  pose proof (Z.mod_pos_bound (z + 2 ^ 31) (2 ^ 32) ltac:(lia)). pose proof (Z.mod_pos_bound (z' + 2 ^ 31) (2 ^ 32) ltac:(lia)). lia. Qed.
Lemma site3_inj U V W r1 r2 r3 s s' k o o' : 6 * (r1 * r2 * r3) <= 2 ^ 32 -> In s (sites3 r1 r2 r3) -> In s' (sites3 r1 r2 r3) ->
  site3 U V W r2 r3 s = Some (k, o) -> site3 U V W r2 r3 s' = Some (k, o') -> s = s'.
Proof.
  intros HS. destruct s as [x n], s' as [x' n']. rewrite !in_sites3. intros [(H1 & H2 & H3) Hn] [(H1' & H2' & H3') Hn'] H H'.
  apply site3_inv in H, H'. destruct H as [-> _], H' as [E _].
  pose proof (lin3_nonneg _ _ _ _ (base_grid _ _ _ _ H1 H2 H3)) as L. pose proof (lin3_nonneg _ _ _ _ (base_grid _ _ _ _ H1' H2' H3')) as L'.
  pose proof (number_range n). pose proof (number_range n'). apply to_int_inj in E; [|lia|lia].
  assert (x = x') by (apply (lin3_inj r1 r2 r3); [apply base_grid; auto|apply base_grid; auto|lia]). subst x'.
  assert (n = n') by (apply number_inj; auto; lia). subst. auto.
Qed.
Lemma to_int_small z : 0 <= z < 2 ^ 31 -> to_int z = z.
Proof. unfold to_int. intros H. rewrite Z.mod_small by lia. lia. Qed.
Lemma site3_e_id U V W r1 r2 r3 x n k e a b c d : 6 * (r1 * r2 * r3) <= 2 ^ 31 -> In (x, n) (sites3 r1 r2 r3) ->
  site3 U V W r2 r3 (x, n) = Some (k, Some e) -> nth_error (cube_tets x) n = Some (a, b, c, d) -> examined3 r1 r2 r3 a b c d (e_id e).
Proof.
  intros HS Hs H Ht. apply in_sites3 in Hs. destruct Hs as [(H1 & H2 & H3) Hn].
  assert (HE : examined3 r1 r2 r3 a b c d (6 * lin3 r2 r3 x + nth n [0; 2; 1; 4; 3; 5] 0)) by (exists x, n; auto).
  apply site3_inv in H. destruct H as (-> & a' & b' & c' & d' & X & va & vb & vc & vd & _ & _ & _ & _ & _ & _ & H).
  symmetry in H. apply check3_id in H. pose proof (examined3_range _ _ _ _ _ _ _ _ HE). rewrite to_int_small in H by lia.
  rewrite Z.mod_small in H by lia. rewrite H. auto.
Qed.

Lemma tool3_inv U V W U' V' W' r1 r2 r3 r : tool3 U V W U' V' W' r1 r2 r3 = Some r ->
  exists m0 m1, run_sites (site3 U V W r2 r3) (sites3 r1 r2 r3) [] = Some m0 /\ run_sites (site3 U' V' W' r2 r3) (sites3 r1 r2 r3) [] = Some m1 /\ r = compare_cps m0 m1.
Proof.
  unfold CpTool.tool3. intros H. bind_as H m0 E0. bind_as H m1 E1. apply Some_inj in H. exists m0, m1.
  unfold CpTool.extract3 in E0, E1. bind_as E0 p0 P0. bind_as E0 q0 Q0. bind_as E1 p1 P1. bind_as E1 q1 Q1. auto.
Qed.

(** The printed numbers add up, also for grids so large that numbers of tetrahedra collide. *)
Theorem tool3_counts U V W U' V' W' r1 r2 r3 r : tool3 U V W U' V' W' r1 r2 r3 = Some r ->
  length (r_origin r) = (length (r_tp r) + length (r_ft r) + length (r_fn r))%nat /\
  length (r_decompressed r) = (length (r_tp r) + length (r_ft r) + length (r_fp r))%nat.
Proof.
  intros H. apply tool3_inv in H. destruct H as (m0 & m1 & H0 & H1 & ->). apply compare_counts; eapply run0_NoDup; eauto.
Qed.

Lemma dvec3_same U V W U' V' W' r2 r3 x : aget U' (lin3 r2 r3 x) = aget U (lin3 r2 r3 x) /\ aget V' (lin3 r2 r3 x) = aget V (lin3 r2 r3 x) /\
  aget W' (lin3 r2 r3 x) = aget W (lin3 r2 r3 x) -> dvec3 U' V' W' r2 r3 x = dvec3 U V W r2 r3 x.
Proof. unfold dvec3, vec_at. intros (-> & -> & ->). auto. Qed.
Lemma site3_same U V W U' V' W' r2 r3 x n k o k' o' a b c d : site3 U V W r2 r3 (x, n) = Some (k, o) -> site3 U' V' W' r2 r3 (x, n) = Some (k', o') ->
  nth_error (cube_tets x) n = Some (a, b, c, d) ->
  (forall y, In y [a; b; c; d] -> aget U' (lin3 r2 r3 y) = aget U (lin3 r2 r3 y) /\ aget V' (lin3 r2 r3 y) = aget V (lin3 r2 r3 y) /\
     aget W' (lin3 r2 r3 y) = aget W (lin3 r2 r3 y)) -> o' = o.
Proof.
  intros H H' Ht Hy. apply site3_inv in H, H'. destruct H as (-> & a1 & b1 & c1 & d1 & X & va & vb & vc & vd & Ht1 & EX & Ea & Eb & Ec & Ed & ->).
  destruct H' as (-> & a2 & b2 & c2 & d2 & X' & va' & vb' & vc' & vd' & Ht2 & EX' & Ea' & Eb' & Ec' & Ed' & ->).
  rewrite Ht in Ht1, Ht2. injection Ht1 as <- <- <- <-. injection Ht2 as <- <- <- <-.
  rewrite (dvec3_same U V W) in Ea' by (apply Hy; cbn; auto). rewrite (dvec3_same U V W) in Eb' by (apply Hy; cbn; auto).
  rewrite (dvec3_same U V W) in Ec' by (apply Hy; cbn; auto). rewrite (dvec3_same U V W) in Ed' by (apply Hy; cbn; auto). congruence.
Qed.
(** What the program detects, the compressor's own test has marked. *)
Lemma detects3_marked U V W r2 r3 a b c d : detects3 U V W r2 r3 a b c d -> check_cp3 A found3 U V W r2 r3 a b c d = Some true.
Proof.
  intros (va & vb & vc & vd & Ea & Eb & Ec & Ed & _ & _ & _ & _ & HF). unfold check_cp3. unfold dvec3 in Ea, Eb, Ec, Ed.
  rewrite Ea. cbn [bind]. rewrite Eb. cbn [bind]. rewrite Ec. cbn [bind]. rewrite Ed. cbn [bind]. unfold found3. destruct (inv3 _); congruence.
Qed.
Lemma site_tet r1 r2 r3 x n a b c d : In (x, n) (sites3 r1 r2 r3) -> nth_error (cube_tets x) n = Some (a, b, c, d) -> tet r1 r2 r3 [a; b; c; d].
Proof.
  intros Hs Ht. apply in_sites3 in Hs. destruct Hs as [(H1 & H2 & H3) Hn]. apply examined3_tet.
  exists (6 * lin3 r2 r3 x + nth n [0; 2; 1; 4; 3; 5] 0), x, n. auto.
Qed.

(** If the marked tetrahedra come back bit for bit, the program reports no false negative, no type change, and false positives only in
    tetrahedra that were not marked. *)
Theorem tool3_marked U V W U' V' W' r1 r2 r3 r :
  (forall a b c d, tet r1 r2 r3 [a; b; c; d] -> check_cp3 A found3 U V W r2 r3 a b c d = Some true ->
     forall x, In x [a; b; c; d] -> aget U' (lin3 r2 r3 x) = aget U (lin3 r2 r3 x) /\ aget V' (lin3 r2 r3 x) = aget V (lin3 r2 r3 x) /\
       aget W' (lin3 r2 r3 x) = aget W (lin3 r2 r3 x)) ->
  tool3 U V W U' V' W' r1 r2 r3 = Some r ->
  r_fn r = [] /\
  (6 * (r1 * r2 * r3) <= 2 ^ 32 -> r_ft r = []) /\
  (6 * (r1 * r2 * r3) <= 2 ^ 31 -> forall e, In e (r_fp r) -> exists a b c d, examined3 r1 r2 r3 a b c d (e_id e) /\
     check_cp3 A found3 U V W r2 r3 a b c d = Some false).
Proof.
  intros HM H. apply tool3_inv in H. destruct H as (m0 & m1 & H0 & H1 & ->).
  assert (G : forall s k e, In s (sites3 r1 r2 r3) -> site3 U V W r2 r3 s = Some (k, Some e) -> site3 U' V' W' r2 r3 s = Some (k, Some e)).
  { intros [x n] k e Hs Es. destruct (run_all _ _ _ _ _ H1 Hs) as (k' & o' & Es' & _).
    pose proof (site3_key _ _ _ _ _ _ _ _ _ _ _ _ _ Es Es'). subst k'. rewrite Es'. do 2 f_equal.
    destruct (site3_inv _ _ _ _ _ _ _ _ _ Es) as (_ & a & b & c & d & _ & _ & _ & _ & _ & Ht & _).
    apply (site3_same _ _ _ _ _ _ _ _ _ _ _ _ _ _ _ _ _ _ Es Es' Ht). intros y Hy.
    apply (HM a b c d); auto; [eapply site_tet; eauto|]. apply detects3_marked. apply (site3_detects _ _ _ _ _ _ _ _ _ _ _ _ _ Es Ht). discriminate. }
  split; [|split].
  - apply (no_fn _ _ _ _ _ H0 H1). intros s k e Hs Es. exists e. auto.
  - intros HS. destruct (report_sites _ _ _ _ _ H0 H1 (fun s k o k' o' => site3_key U V W U' V' W' r2 r3 s k o k' o') (fun s s' k o o' => site3_inj U V W r1 r2 r3 s s' k o o' HS)) as (_ & _ & Hft).
    destruct (r_ft (compare_cps m0 m1)) as [|e l] eqn:E; auto. exfalso. destruct (Hft e) as (s & k & e0 & Hs & E0 & E1 & Et); [left; auto|].
    rewrite (G _ _ _ Hs E0) in E1. injection E1 as ->. auto.
  - intros HS e He. destruct (report_sites _ _ _ _ _ H0 H1 (fun s k o k' o' => site3_key U V W U' V' W' r2 r3 s k o k' o') (fun s s' k o o' => site3_inj U V W r1 r2 r3 s s' k o o' ltac:(lia))) as (_ & Hfp & _).
    destruct (Hfp _ He) as ([x n] & k & Hs & E1 & E0). destruct (site3_inv _ _ _ _ _ _ _ _ _ E0) as (_ & a & b & c & d & X & va & vb & vc & vd & Ht & _ & Ea & Eb & Ec & Ed & _).
    exists a, b, c, d. split; [eapply site3_e_id; eauto|].
    assert (EC : check_cp3 A found3 U V W r2 r3 a b c d = Some (found3 va vb vc vd)).
    { unfold check_cp3. unfold dvec3 in Ea, Eb, Ec, Ed. rewrite Ea. cbn [bind]. rewrite Eb. cbn [bind]. rewrite Ec. cbn [bind]. rewrite Ed. reflexivity. }
    destruct (found3 va vb vc vd) eqn:Ef; auto. exfalso.
    pose proof (site3_same _ _ _ _ _ _ _ _ _ _ _ _ _ _ _ _ _ _ E0 E1 Ht (HM _ _ _ _ (site_tet _ _ _ _ _ _ _ _ _ Hs Ht) EC)). discriminate.
Qed.

(** The lists on the mesh. *)
Theorem tool3_false U V W U' V' W' r1 r2 r3 r : 6 * (r1 * r2 * r3) <= 2 ^ 31 -> tool3 U V W U' V' W' r1 r2 r3 = Some r ->
  (forall e, In e (r_fn r) -> exists a b c d, examined3 r1 r2 r3 a b c d (e_id e) /\ detects3 U V W r2 r3 a b c d /\ ~ detects3 U' V' W' r2 r3 a b c d) /\
  (forall e, In e (r_fp r) -> exists a b c d, examined3 r1 r2 r3 a b c d (e_id e) /\ ~ detects3 U V W r2 r3 a b c d /\ detects3 U' V' W' r2 r3 a b c d) /\
  (forall a b c d id, examined3 r1 r2 r3 a b c d id -> detects3 U V W r2 r3 a b c d -> exists e, In e (r_origin r) /\ e_id e = id) /\
  (forall a b c d id, examined3 r1 r2 r3 a b c d id -> detects3 U' V' W' r2 r3 a b c d -> exists e, In e (r_decompressed r) /\ e_id e = id).
Proof.
  intros HS H. apply tool3_inv in H. destruct H as (m0 & m1 & H0 & H1 & ->).
  destruct (report_sites _ _ _ _ _ H0 H1 (fun s k o k' o' => site3_key U V W U' V' W' r2 r3 s k o k' o') (fun s s' k o o' => site3_inj U V W r1 r2 r3 s s' k o o' ltac:(lia))) as (Hfn & Hfp & _).
  assert (G : forall U V W m a b c d id, run_sites (site3 U V W r2 r3) (sites3 r1 r2 r3) [] = Some m -> examined3 r1 r2 r3 a b c d id ->
     detects3 U V W r2 r3 a b c d -> exists e, In e (map snd m) /\ e_id e = id).
  { intros U0 V0 W0 m a b c d id HR HE HD. pose proof HE as (x & n & X1 & X2 & X3 & Ht & Eid).
    assert (Hs : In (x, n) (sites3 r1 r2 r3)) by (apply in_sites3; split; [auto|eapply tets_six; eauto]).
    destruct (run_all _ _ _ _ _ HR Hs) as (k & o & Es & _). apply (site3_detects _ _ _ _ _ _ _ _ _ _ _ _ _ Es Ht) in HD. destruct o as [e|]; [|congruence].
    exists e. split.
    - apply in_map_iff. exists (k, e). split; auto. apply mfind_In; [eapply run0_NoDup; eauto|].
      apply (run_lookup _ _ _ (x, n) _ _ HR); auto. intros. eapply site3_inj; eauto. lia.
    - apply site3_inv in Es. destruct Es as (-> & a' & b' & c' & d' & X & va & vb & vc & vd & _ & _ & _ & _ & _ & _ & Es).
      symmetry in Es. apply check3_id in Es. rewrite <- Eid in Es. pose proof (examined3_range _ _ _ _ _ _ _ _ HE). rewrite to_int_small in Es by lia.
      rewrite Z.mod_small in Es by lia. auto. }
  split; [|split; [|split]].
  - intros e He. destruct (Hfn _ He) as ([x n] & k & Hs & E0 & E1). destruct (site3_inv _ _ _ _ _ _ _ _ _ E0) as (_ & a & b & c & d & _ & _ & _ & _ & _ & Ht & _).
    exists a, b, c, d. split; [eapply site3_e_id; eauto|]. split; [apply (site3_detects _ _ _ _ _ _ _ _ _ _ _ _ _ E0 Ht); discriminate|].
    intros HD. apply (site3_detects _ _ _ _ _ _ _ _ _ _ _ _ _ E1 Ht) in HD. congruence.
  - intros e He. destruct (Hfp _ He) as ([x n] & k & Hs & E1 & E0). destruct (site3_inv _ _ _ _ _ _ _ _ _ E0) as (_ & a & b & c & d & _ & _ & _ & _ & _ & Ht & _).
    exists a, b, c, d. split; [eapply site3_e_id; eauto|]. split; [|apply (site3_detects _ _ _ _ _ _ _ _ _ _ _ _ _ E1 Ht); discriminate].
    intros HD. apply (site3_detects _ _ _ _ _ _ _ _ _ _ _ _ _ E0 Ht) in HD. congruence.
  - intros. cbn [compare_cps r_origin]. eapply G; eauto.
  - intros. cbn [compare_cps r_decompressed]. eapply G; eauto.
Qed.

(** An entry in one of the lists of errors: a tetrahedron that ftk sees differently before and after. *)
Theorem tool3_changed U V W U' V' W' r1 r2 r3 r e : 6 * (r1 * r2 * r3) <= 2 ^ 32 -> tool3 U V W U' V' W' r1 r2 r3 = Some r ->
  In e (r_fn r) \/ In e (r_fp r) \/ In e (r_ft r) ->
  exists a b c d va vb vc vd va' vb' vc' vd', tet r1 r2 r3 [a; b; c; d] /\
    dvec3 U V W r2 r3 a = Some va /\ dvec3 U V W r2 r3 b = Some vb /\ dvec3 U V W r2 r3 c = Some vc /\ dvec3 U V W r2 r3 d = Some vd /\
    dvec3 U' V' W' r2 r3 a = Some va' /\ dvec3 U' V' W' r2 r3 b = Some vb' /\ dvec3 U' V' W' r2 r3 c = Some vc' /\ dvec3 U' V' W' r2 r3 d = Some vd' /\
    (va, vb, vc, vd) <> (va', vb', vc', vd') /\ (inv3 (va, vb, vc, vd) <> None \/ inv3 (va', vb', vc', vd') <> None).
Proof.
  intros HS H He. apply tool3_inv in H. destruct H as (m0 & m1 & H0 & H1 & ->).
  destruct (report_sites _ _ _ _ _ H0 H1 (fun s k o k' o' => site3_key U V W U' V' W' r2 r3 s k o k' o') (fun s s' k o o' => site3_inj U V W r1 r2 r3 s s' k o o' HS)) as (Hfn & Hfp & Hft).
  assert (G : exists s k o o', In s (sites3 r1 r2 r3) /\ site3 U V W r2 r3 s = Some (k, o) /\ site3 U' V' W' r2 r3 s = Some (k, o') /\ o <> o').
  { destruct He as [He|[He|He]].
    - destruct (Hfn _ He) as (s & k & Hs & E0 & E1). exists s, k, (Some e), None. repeat split; auto; discriminate.
    - destruct (Hfp _ He) as (s & k & Hs & E1 & E0). exists s, k, None, (Some e). repeat split; auto; discriminate.
    - destruct (Hft _ He) as (s & k & e0 & Hs & E0 & E1 & Et). exists s, k, (Some e0), (Some e). repeat split; auto; congruence. }
  destruct G as ([x n] & k & o & o' & Hs & E0 & E1 & Ho).
  apply site3_inv in E0, E1. destruct E0 as (-> & a & b & c & d & X & va & vb & vc & vd & Ht & EX & Ea & Eb & Ec & Ed & ->).
  destruct E1 as (_ & a2 & b2 & c2 & d2 & X2 & va' & vb' & vc' & vd' & Ht2 & EX2 & Ea' & Eb' & Ec' & Ed' & ->).
  rewrite Ht in Ht2. injection Ht2 as <- <- <- <-. rewrite EX in EX2. injection EX2 as <-.
  exists a, b, c, d, va, vb, vc, vd, va', vb', vc', vd'. split; [eapply site_tet; eauto|]. repeat (split; [assumption|]). split; [congruence|].
  unfold CpTool.check_simplex3 in Ho. destruct (inv3 (va, vb, vc, vd)), (inv3 (va', vb', vc', vd')); try (left; discriminate); try (right; discriminate).
  exfalso. apply Ho. destruct (_ || _ || _ || _), (_ || _ || _ || _); reflexivity.
Qed.

(** The program runs to the end on every grid whose number of points is an int. *)
Theorem tool3_total U V W U' V' W' r1 r2 r3 : 1 <= r1 -> 1 <= r2 -> 1 <= r3 -> r1 * r2 * r3 < 2 ^ 31 ->
  sized r1 r2 r3 U -> sized r1 r2 r3 V -> sized r1 r2 r3 W -> sized r1 r2 r3 U' -> sized r1 r2 r3 V' -> sized r1 r2 r3 W' ->
  exists r, tool3 U V W U' V' W' r1 r2 r3 = Some r.
Proof.
  intros H1 H2 H3 HS LU LV LW LU' LV' LW'.
  assert (G : forall U V W, sized r1 r2 r3 U -> sized r1 r2 r3 V -> sized r1 r2 r3 W -> exists m, extract3 A inv3 lerp3 roots3 U V W r1 r2 r3 = Some m).
  { clear U V W U' V' W' LU LV LW LU' LV' LW'. intros U V W LU LV LW. unfold CpTool.extract3.
    assert (0 <= r2 * r3) by (apply Z.mul_nonneg_nonneg; lia). assert (r2 * r3 <= r1 * r2 * r3) by nia.
    rewrite (int32_some (r2 * r3)) by lia. cbn [bind]. rewrite int32_some by lia. cbn [bind].
    apply run_total. intros [x n] Hs. pose proof Hs as Hs'. apply in_sites3 in Hs. destruct Hs as [(X1 & X2 & X3) Hn]. unfold CpTool.site3.
    destruct (nth_error (cube_tets x) n) as [[[[a b] c] d]|] eqn:Ht; [|apply nth_error_None in Ht; destruct x as [[? ?] ?]; cbn in Ht; lia]. cbn [bind].
    destruct (nth_error (tet_coords A) n) as [X|] eqn:EX; [|apply nth_error_None in EX; cbn in EX; lia]. cbn [bind].
    assert (K : forall y, In y [a; b; c; d] -> exists u v w, vec_at A U V W (lin3 r2 r3 y) = Some (u, v, w)).
    { intros y Hy. pose proof (tet_points _ _ _ _ _ (site_tet _ _ _ _ _ _ _ _ _ Hs' Ht) Hy) as HG.
      destruct (get_any A r1 r2 r3 U y LU HG) as (u & Eu). destruct (get_any A r1 r2 r3 V y LV HG) as (v & Ev). destruct (get_any A r1 r2 r3 W y LW HG) as (w & Ew).
      exists u, v, w. apply vec_at_Some; auto. }
    destruct (K a) as (u1 & v1 & w1 & ->); [cbn; auto|]. destruct (K b) as (u2 & v2 & w2 & ->); [cbn; auto|].
    destruct (K c) as (u3 & v3 & w3 & ->); [cbn; auto|]. destruct (K d) as (u4 & v4 & w4 & ->); [cbn; auto|]. cbn [bind]. discriminate. }
  destruct (G U V W LU LV LW) as (m0 & E0). destruct (G U' V' W' LU' LV' LW') as (m1 & E1). exists (compare_cps m0 m1).
  unfold CpTool.tool3. rewrite E0. cbn [bind]. rewrite E1. reflexivity.
Qed.

(** Two detected tetrahedra with the same key: the list of critical points is shorter than the number of detections. *)
Lemma NoDup_sites3 r1 r2 r3 : 0 <= r1 - 1 -> 0 < r2 - 1 -> 0 < r3 - 1 -> NoDup (sites3 r1 r2 r3).
Proof.
  intros H1 H2 H3.
  assert (HN : NoDup (scan3 (r1 - 1) (r2 - 1) (r3 - 1))).
  { apply NoDup_nth_error. intros m m' Hm E. destruct (nth_error (scan3 (r1 - 1) (r2 - 1) (r3 - 1)) m) as [x|] eqn:Ex; [|apply nth_error_None in Ex; lia].
    symmetry in E. apply scan3_nth in Ex, E; auto. destruct Ex as (_ & _ & _ & Ex), E as (_ & _ & _ & E). lia. }
  unfold sites3. induction (scan3 (r1 - 1) (r2 - 1) (r3 - 1)) as [|x l IH]; [constructor|]. inversion HN as [|? ? N1 N2]; subst. cbn [flat_map].
  assert (D : forall l1 l2 : list (Z * Z * Z * nat), NoDup l1 -> NoDup l2 -> (forall y, In y l1 -> ~ In y l2) -> NoDup (l1 ++ l2)).
  { induction l1 as [|y l1 IHl]; intros l2 A1 A2 A3; [auto|]. inversion A1; subst. cbn [app]. constructor.
    - rewrite in_app_iff. intros [X|X]; [contradiction|]. apply (A3 y); [left; auto|auto].
    - apply IHl; auto. intros z Hz. apply A3. right. auto. }
  apply D; [|auto|].
  - apply FinFun.Injective_map_NoDup; [intros n n' E; injection E as E; auto|apply seq_NoDup].
  - intros y Hy HI. apply in_map_iff in Hy. destruct Hy as (n & <- & _). apply in_flat_map in HI. destruct HI as (x' & Hx' & HI).
    apply in_map_iff in HI. destruct HI as (n' & E & _). injection E as <- <-. contradiction.
Qed.
Lemma tets_inj x n x' n' t : nth_error (cube_tets x) n = Some t -> nth_error (cube_tets x') n' = Some t -> (x, n) = (x', n').
Proof.
  destruct x as [[i j] k], x' as [[i' j'] k'].
  intros H H'. destruct n as [|[|[|[|[|[|n]]]]]]; [| | | | | |destruct n; discriminate]; cbn in H; injection H as <-;
    (destruct n' as [|[|[|[|[|[|n']]]]]]; [| | | | | |destruct n'; discriminate]); cbn in H'; injection H' as ?; subst; try (exfalso; lia); f_equal; f_equal; try f_equal; lia.
Qed.
Definition tet_of (s : Z * Z * Z * nat) : list (pt * pt * pt * pt) := match nth_error (cube_tets (fst s)) (snd s) with Some t => [t] | None => [] end.
Lemma NoDup_tets l : NoDup l -> (forall s, In s l -> (snd s < 6)%nat) -> NoDup (flat_map tet_of l) /\ length (flat_map tet_of l) = length l.
Proof.
  induction l as [|[x n] l IH]; intros HN H6; [split; [constructor|auto]|]. inversion HN as [|? ? N1 N2]; subst. cbn [flat_map]. unfold tet_of at 1 3. cbn [fst snd].
  destruct (nth_error (cube_tets x) n) as [t|] eqn:Et.
  2:{ apply nth_error_None in Et. specialize (H6 (x, n) (or_introl eq_refl)). cbn [snd] in H6. destruct x as [[? ?] ?]. cbn in Et. lia. }
  destruct IH as [I1 I2]; auto. { intros s Hs. apply H6. right. auto. }
  cbn [app length]. split; [|lia]. constructor; auto. intros HI. apply in_flat_map in HI. destruct HI as ([x' n'] & Hs & HI). unfold tet_of in HI. cbn [fst snd] in HI.
  destruct (nth_error (cube_tets x') n') as [t'|] eqn:Et'; [|destruct HI]. destruct HI as [->|[]]. rewrite (tets_inj _ _ _ _ _ Et Et') in N1. contradiction.
Qed.
Theorem tool3_collision U V W U' V' W' r1 r2 r3 r a b c d id a' b' c' d' id' : 2 <= r1 -> 2 <= r2 -> 2 <= r3 ->
  tool3 U V W U' V' W' r1 r2 r3 = Some r -> examined3 r1 r2 r3 a b c d id -> examined3 r1 r2 r3 a' b' c' d' id' -> id <> id' -> to_int id = to_int id' ->
  detects3 U V W r2 r3 a b c d -> detects3 U V W r2 r3 a' b' c' d' ->
  exists l, NoDup l /\ (forall p q s t, In (p, q, s, t) l -> tet r1 r2 r3 [p; q; s; t] /\ detects3 U V W r2 r3 p q s t) /\ (length (r_origin r) < length l)%nat.
Proof.
  intros R1 R2 R3 H HE HE' Hne Hk HD HD'. apply tool3_inv in H. destruct H as (m0 & m1 & H0 & _ & ->). cbn [compare_cps r_origin]. rewrite map_length.
  set (det := fun s => match site3 U V W r2 r3 s with Some (_, Some _) => true | _ => false end).
  assert (HN : NoDup (sites3 r1 r2 r3)) by (apply NoDup_sites3; lia).
  destruct (NoDup_tets (filter det (sites3 r1 r2 r3))) as [T1 T2].
  { apply NoDup_filter. auto. }
  { intros [x n] Hs. apply filter_In in Hs. destruct Hs as [Hs _]. apply in_sites3 in Hs. cbn [snd]. tauto. }
  exists (flat_map tet_of (filter det (sites3 r1 r2 r3))). split; [auto|]. split.
  - intros p q s t HI. apply in_flat_map in HI. destruct HI as ([x n] & Hs & HI). apply filter_In in Hs. destruct Hs as [Hs Hd].
    unfold tet_of in HI. cbn [fst snd] in HI. destruct (nth_error (cube_tets x) n) as [t'|] eqn:Et; [|destruct HI]. destruct HI as [->|[]].
    split; [eapply site_tet; eauto|]. unfold det in Hd. destruct (site3 U V W r2 r3 (x, n)) as [[k o]|] eqn:Es; [|discriminate].
    apply (site3_detects _ _ _ _ _ _ _ _ _ _ _ _ _ Es Et). destruct o; discriminate.
  - rewrite T2. destruct HE as (x & n & X1 & X2 & X3 & Ht & Eid). destruct HE' as (x' & n' & X1' & X2' & X3' & Ht' & Eid').
    assert (Hs : In (x, n) (sites3 r1 r2 r3)) by (apply in_sites3; split; [auto|eapply tets_six; eauto]).
    assert (Hs' : In (x', n') (sites3 r1 r2 r3)) by (apply in_sites3; split; [auto|eapply tets_six; eauto]).
    destruct (run_all _ _ _ _ _ H0 Hs) as (k & o & Es & _). destruct (run_all _ _ _ _ _ H0 Hs') as (k' & o' & Es' & _).
    apply (site3_detects _ _ _ _ _ _ _ _ _ _ _ _ _ Es Ht) in HD. apply (site3_detects _ _ _ _ _ _ _ _ _ _ _ _ _ Es' Ht') in HD'.
    destruct o as [e|]; [|congruence]. destruct o' as [e'|]; [|congruence].
    destruct (site3_inv _ _ _ _ _ _ _ _ _ Es) as [Ek _]. destruct (site3_inv _ _ _ _ _ _ _ _ _ Es') as [Ek' _]. rewrite <- Eid in Ek. rewrite <- Eid' in Ek'.
    assert (Ekk : k' = k) by congruence. rewrite Ekk in Es'. clear Ek Ek' Ekk.
    assert (Hd : (x, n) <> (x', n')) by (intros X; injection X as <- <-; congruence).
    apply in_split in Hs. destruct Hs as (l1 & l2 & El). rewrite El, in_app_iff in Hs'. cbn [In] in Hs'. destruct Hs' as [Hs'|[Hs'|Hs']]; [|congruence|].
    + apply in_split in Hs'. destruct Hs' as (l3 & l4 & El'). refine (collision_loses _ _ _ l3 (x', n') l4 (x, n) l2 _ _ _ _ Es' Es H0). rewrite El, El', <- app_assoc. reflexivity.
    + apply in_split in Hs'. destruct Hs' as (l3 & l4 & El'). refine (collision_loses _ _ _ l1 (x, n) l3 (x', n') l4 _ _ _ _ Es Es' H0). rewrite El, El'. reflexivity.
Qed.
End Three.
