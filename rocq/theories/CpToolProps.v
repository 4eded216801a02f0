(** Properties of the extraction programs, for any ftk. *)
From Coq Require Import List ZArith Lia Bool Permutation.
From Coq Require Import ZifyBool ZifyNat.
From Verif Require Import Base Arith Mesh2D Mesh3D Derive3D Codec2D Sync2D Scan Sync3D Cells2D Cells3D Sz3 CpTool.
Import ListNotations.
Local Open Scope Z_scope.

(** ** The map *)
Section Map.
Context {P : Type}.
Implicit Types (m : cp_map P) (e : entry P).

Lemma mfind_nil k : @mfind P k [] = None. Proof. reflexivity. Qed.
Lemma mfind_cons k k' e m : mfind k ((k', e) :: m) = if k' =? k then Some e else mfind k m.
Proof. unfold mfind. cbn [find fst]. destruct (k' =? k); reflexivity. Qed.
Lemma mfind_filter k k' m : mfind k (filter (fun p => negb (fst p =? k')) m) = if k =? k' then None else mfind k m.
Proof.
  induction m as [|[k0 e0] m IH]; [cbn; destruct (k =? k'); reflexivity|].
  cbn [filter fst]. destruct (k0 =? k') eqn:E; cbn [negb].
  - rewrite IH, mfind_cons. destruct (k =? k') eqn:E1; auto. replace (k0 =? k) with false by lia. reflexivity.
  - rewrite !mfind_cons, IH. destruct (k0 =? k) eqn:E2; auto. replace (k =? k') with false by lia. reflexivity.
Qed.
Lemma mfind_mset k k' e m : mfind k (mset k' e m) = if k' =? k then Some e else mfind k m.
Proof.
  unfold mset. rewrite mfind_cons, mfind_filter. destruct (k' =? k) eqn:E; auto. replace (k =? k') with false by lia. reflexivity.
Qed.
Lemma mfind_None k m : mfind k m = None <-> ~ In k (map fst m).
Proof.
  induction m as [|[k0 e0] m IH]; [cbn; tauto|]. rewrite mfind_cons. cbn [map fst In].
  destruct (k0 =? k) eqn:E; [split; [discriminate|intros H; exfalso; apply H; lia]|]. rewrite IH. split; intros H; [intros [X|X]; [lia|auto]|tauto].
Qed.
Lemma mfind_In k e m : NoDup (map fst m) -> (mfind k m = Some e <-> In (k, e) m).
Proof.
  induction m as [|[k0 e0] m IH]; intros HN; [cbn; split; [discriminate|tauto]|]. cbn [map fst] in HN. inversion HN as [|? ? N1 N2]; subst.
  rewrite mfind_cons. cbn [In]. destruct (k0 =? k) eqn:E.
  - assert (k0 = k) by lia. subst. split.
    + intros H. injection H as ->. auto.
    + intros [H|H]; [injection H as ->; auto|]. exfalso. apply N1. apply in_map_iff. exists (k, e). auto.
  - rewrite (IH N2). split; [auto|]. intros [H|H]; auto. injection H as -> ->. lia.
Qed.
Lemma NoDup_filter_keys (f : Z * entry P -> bool) m : NoDup (map fst m) -> NoDup (map fst (filter f m)).
Proof.
  induction m as [|p m IH]; intros HN; [constructor|]. cbn [map] in HN. inversion HN as [|? ? N1 N2]; subst. cbn [filter].
  destruct (f p); auto. cbn [map]. constructor; auto. intros HI. apply N1. apply in_map_iff in HI. destruct HI as (q & Eq & HI).
  apply filter_In in HI. rewrite <- Eq. apply in_map. tauto.
Qed.
Lemma NoDup_mset k e m : NoDup (map fst m) -> NoDup (map fst (mset k e m)).
Proof.
  intros HN. unfold mset. cbn [map fst]. constructor; [|apply NoDup_filter_keys; auto].
  intros HI. apply in_map_iff in HI. destruct HI as ([k' e'] & E & HI). cbn [fst] in E. subst. apply filter_In in HI. cbn [fst] in HI.
  rewrite Z.eqb_refl in HI. destruct HI. discriminate.
Qed.

(** ** The loop *)
Context {S : Type} (f : S -> option (Z * option (entry P))).

Lemma run_NoDup l : forall m m', NoDup (map fst m) -> run_sites f l m = Some m' -> NoDup (map fst m').
Proof.
  induction l as [|s l IH]; intros m m' HN H; cbn [run_sites] in H; [apply Some_inj in H; subst; auto|].
  destruct (f s) as [[k o]|]; [|discriminate]. apply IH in H; auto. destruct o; auto using NoDup_mset.
Qed.
Lemma run0_NoDup l m' : run_sites f l [] = Some m' -> NoDup (map fst m').
Proof. apply run_NoDup. constructor. Qed.
Lemma run_only l : forall m m' k e, run_sites f l m = Some m' -> mfind k m' = Some e ->
  mfind k m = Some e \/ exists s, In s l /\ f s = Some (k, Some e).
Proof.
  induction l as [|s l IH]; intros m m' k e H Hf; cbn [run_sites] in H; [apply Some_inj in H; subst; auto|].
  destruct (f s) as [[k0 o]|] eqn:Es; [|discriminate]. destruct (IH _ _ _ _ H Hf) as [H1|(s1 & H1 & H2)].
  - destruct o as [e0|]; [|auto]. rewrite mfind_mset in H1. destruct (k0 =? k) eqn:E; [|auto].
    apply Some_inj in H1. subst. right. exists s. split; [left; auto|]. replace k0 with k in Es by lia. auto.
  - right. exists s1. split; [right; auto|auto].
Qed.
Lemma run_keeps l : forall m m' k, run_sites f l m = Some m' -> mfind k m <> None -> mfind k m' <> None.
Proof.
  induction l as [|s l IH]; intros m m' k H Hf; cbn [run_sites] in H; [apply Some_inj in H; subst; auto|].
  destruct (f s) as [[k0 o]|] eqn:Es; [|discriminate]. apply (IH _ _ _ H). destruct o; auto. rewrite mfind_mset. destruct (k0 =? k); [discriminate|auto].
Qed.
Lemma run_all l : forall m m' s, run_sites f l m = Some m' -> In s l -> exists k o, f s = Some (k, o) /\ (o <> None -> mfind k m' <> None).
Proof.
  induction l as [|s l IH]; intros m m' s0 H HI; [destruct HI|]. cbn [run_sites] in H.
  destruct (f s) as [[k o]|] eqn:Es; [|discriminate]. destruct HI as [<-|HI]; [|eauto].
  exists k, o. split; auto. intros Ho. apply (run_keeps _ _ _ _ H). destruct o; [|congruence]. rewrite mfind_mset, Z.eqb_refl. discriminate.
Qed.
Lemma run_lookup l m' s k o : run_sites f l [] = Some m' ->
  (forall s s' k o o', In s l -> In s' l -> f s = Some (k, o) -> f s' = Some (k, o') -> s = s') ->
  In s l -> f s = Some (k, o) -> mfind k m' = o.
Proof.
  intros H Hinj HI Es. destruct (run_all _ _ _ _ H HI) as (k1 & o1 & E1 & H1). rewrite Es in E1. injection E1 as <- <-.
  destruct (mfind k m') as [e|] eqn:Em.
  - destruct (run_only _ _ _ _ _ H Em) as [X|(s1 & HI1 & Es1)]; [rewrite mfind_nil in X; discriminate|].
    assert (s1 = s) by (eapply Hinj; eauto). subst. rewrite Es in Es1. injection Es1 as ->. auto.
  - destruct o; auto. exfalso. apply H1; [discriminate|auto].
Qed.
End Map.

(** ** The report *)
Section Report.
Context {P : Type}.
Implicit Types (m : cp_map P) (e : entry P).

Lemma compare_partition m0 m1 : length m0 = (length (r_tp (compare_cps m0 m1)) + length (r_ft (compare_cps m0 m1)) + length (r_fn (compare_cps m0 m1)))%nat.
Proof.
  cbn [compare_cps r_tp r_ft r_fn]. induction m0 as [|[k e] m IH]; [reflexivity|]. cbn [flat_map fst snd]. rewrite !app_length. cbn [length].
  destruct (mfind k m1) as [c|]; [destruct (e_type e =? e_type c)|]; cbn [length]; lia.
Qed.
Lemma flat_fp m0 m1 : length m1 = (length (filter (fun p => match mfind (fst p) m0 with Some _ => true | None => false end) m1) + length (r_fp (compare_cps m0 m1)))%nat.
Proof.
  cbn [compare_cps r_fp]. induction m1 as [|[k e] m IH]; [reflexivity|]. cbn [flat_map filter fst snd]. rewrite app_length. cbn [length].
  destruct (mfind k m0); cbn [length]; lia.
Qed.
Lemma flat_matched m0 m1 : (length (r_tp (compare_cps m0 m1)) + length (r_ft (compare_cps m0 m1)))%nat =
  length (filter (fun p => match mfind (fst p) m1 with Some _ => true | None => false end) m0).
Proof.
  cbn [compare_cps r_tp r_ft]. induction m0 as [|[k e] m IH]; [reflexivity|]. cbn [flat_map filter fst snd]. rewrite !app_length.
  destruct (mfind k m1) as [c|]; [destruct (e_type e =? e_type c)|]; cbn [length]; lia.
Qed.
Lemma matched_sym m0 m1 : NoDup (map fst m0) -> NoDup (map fst m1) ->
  length (filter (fun p => match mfind (fst p) m1 with Some _ => true | None => false end) m0) =
  length (filter (fun p => match mfind (fst p) m0 with Some _ => true | None => false end) m1).
Proof.
  intros N0 N1.
  match goal with |- length ?a = length ?b => rewrite <- (map_length fst a), <- (map_length fst b) end.
  apply Permutation_length, NoDup_Permutation; try (apply NoDup_filter_keys; auto).
  assert (G : forall (ma mb : cp_map P) k, NoDup (map fst ma) -> (In k (map fst (filter (fun p => match @mfind P (fst p) mb with Some _ => true | None => false end) ma)) <->
     mfind k ma <> None /\ mfind k mb <> None)).
  { intros ma mb k HN. rewrite in_map_iff. split.
    - intros ([k' e] & E & HI). cbn [fst] in E. subst k'. apply filter_In in HI. cbn [fst] in HI. destruct HI as [HI Hb].
      apply (mfind_In k e ma HN) in HI. rewrite HI. split; [discriminate|]. destruct (mfind k mb); [discriminate|discriminate Hb].
    - intros [Ha Hb]. destruct (mfind k ma) as [e|] eqn:E; [|congruence]. exists (k, e). split; auto. apply filter_In. split; [apply (mfind_In k e ma HN); auto|].
      cbn [fst]. destruct (mfind k mb); [auto|congruence]. }
  intros k. rewrite (G m0 m1 k N0), (G m1 m0 k N1). tauto.
Qed.
Theorem compare_counts m0 m1 : NoDup (map fst m0) -> NoDup (map fst m1) ->
  let r := compare_cps m0 m1 in
  length (r_origin r) = (length (r_tp r) + length (r_ft r) + length (r_fn r))%nat /\
  length (r_decompressed r) = (length (r_tp r) + length (r_ft r) + length (r_fp r))%nat.
Proof.
  intros N0 N1 r. subst r. split.
  - cbn [r_origin compare_cps]. rewrite map_length. apply (compare_partition m0 m1).
  - rewrite flat_matched, (matched_sym _ _ N0 N1), <- flat_fp. cbn [r_decompressed compare_cps]. apply map_length.
Qed.

Lemma in_fn m0 m1 e : NoDup (map fst m0) -> In e (r_fn (compare_cps m0 m1)) -> exists k, mfind k m0 = Some e /\ mfind k m1 = None.
Proof.
  intros HN H. cbn [compare_cps r_fn] in H. apply in_flat_map in H. destruct H as ([k e0] & HI & H). cbn [fst snd] in H. exists k.
  destruct (mfind k m1) eqn:E; [destruct H|]. destruct H as [->|[]]. split; auto. apply mfind_In; auto.
Qed.
Lemma in_fp m0 m1 e : NoDup (map fst m1) -> In e (r_fp (compare_cps m0 m1)) -> exists k, mfind k m1 = Some e /\ mfind k m0 = None.
Proof.
  intros HN H. cbn [compare_cps r_fp] in H. apply in_flat_map in H. destruct H as ([k e0] & HI & H). cbn [fst snd] in H. exists k.
  destruct (mfind k m0) eqn:E; [destruct H|]. destruct H as [->|[]]. split; auto. apply mfind_In; auto.
Qed.
Lemma in_ft m0 m1 e : NoDup (map fst m0) -> In e (r_ft (compare_cps m0 m1)) ->
  exists k e0, mfind k m0 = Some e0 /\ mfind k m1 = Some e /\ e_type e0 <> e_type e.
Proof.
  intros HN H. cbn [compare_cps r_ft] in H. apply in_flat_map in H. destruct H as ([k e0] & HI & H). cbn [fst snd] in H. exists k, e0.
  apply (mfind_In k e0 m0 HN) in HI. destruct (mfind k m1) as [c|] eqn:E; [|destruct H]. destruct (e_type e0 =? e_type c) eqn:Et; [destruct H|].
  destruct H as [->|[]]. repeat split; auto. lia.
Qed.

(** Two runs over the same simplices. *)
Context {S : Type} (f0 f1 : S -> option (Z * option (entry P))).
Theorem report_sites l m0 m1 : run_sites f0 l [] = Some m0 -> run_sites f1 l [] = Some m1 ->
  (forall s k o k' o', f0 s = Some (k, o) -> f1 s = Some (k', o') -> k = k') ->
  (forall s s' k o o', In s l -> In s' l -> f0 s = Some (k, o) -> f0 s' = Some (k, o') -> s = s') ->
  let r := compare_cps m0 m1 in
  (forall e, In e (r_fn r) -> exists s k, In s l /\ f0 s = Some (k, Some e) /\ f1 s = Some (k, None)) /\
  (forall e, In e (r_fp r) -> exists s k, In s l /\ f1 s = Some (k, Some e) /\ f0 s = Some (k, None)) /\
  (forall e, In e (r_ft r) -> exists s k e0, In s l /\ f0 s = Some (k, Some e0) /\ f1 s = Some (k, Some e) /\ e_type e0 <> e_type e).
Proof.
  intros H0 H1 Hk Hinj r. subst r.
  pose proof (run0_NoDup _ _ _ H0) as N0. pose proof (run0_NoDup _ _ _ H1) as N1.
  assert (Hinj1 : forall s s' k o o', In s l -> In s' l -> f1 s = Some (k, o) -> f1 s' = Some (k, o') -> s = s').
  { intros s s' k o o' I I' E E'. destruct (run_all _ _ _ _ _ H0 I) as (k0 & o0 & E0 & _). destruct (run_all _ _ _ _ _ H0 I') as (k0' & o0' & E0' & _).
    assert (k0 = k) by eauto. assert (k0' = k) by eauto. subst. eauto. }
  assert (G0 : forall k e, mfind k m0 = Some e -> exists s, In s l /\ f0 s = Some (k, Some e)).
  { intros k e E. destruct (run_only _ _ _ _ _ _ H0 E) as [X|X]; auto. rewrite mfind_nil in X. discriminate. }
  assert (G1 : forall k e, mfind k m1 = Some e -> exists s, In s l /\ f1 s = Some (k, Some e)).
  { intros k e E. destruct (run_only _ _ _ _ _ _ H1 E) as [X|X]; auto. rewrite mfind_nil in X. discriminate. }
  split; [|split]; intros e He.
  - destruct (in_fn _ _ _ N0 He) as (k & E0 & E1). destruct (G0 _ _ E0) as (s & I & Es). exists s, k. repeat split; auto.
    destruct (run_all _ _ _ _ _ H1 I) as (k1 & o1 & Es1 & _). rewrite <- (Hk _ _ _ _ _ Es Es1) in Es1.
    rewrite (run_lookup _ _ _ _ _ _ H1 Hinj1 I Es1) in E1. subst. auto.
  - destruct (in_fp _ _ _ N1 He) as (k & E1 & E0). destruct (G1 _ _ E1) as (s & I & Es). exists s, k. repeat split; auto.
    destruct (run_all _ _ _ _ _ H0 I) as (k0 & o0 & Es0 & _). rewrite (Hk _ _ _ _ _ Es0 Es) in Es0.
    rewrite (run_lookup _ _ _ _ _ _ H0 Hinj I Es0) in E0. subst. auto.
  - destruct (in_ft _ _ _ N0 He) as (k & e0 & E0 & E1 & Et). destruct (G0 _ _ E0) as (s & I & Es). exists s, k, e0. repeat split; auto.
    destruct (run_all _ _ _ _ _ H1 I) as (k1 & o1 & Es1 & _). rewrite <- (Hk _ _ _ _ _ Es Es1) in Es1.
    rewrite (run_lookup _ _ _ _ _ _ H1 Hinj1 I Es1) in E1. subst. auto.
Qed.

(** Without distinct keys: no false negative if every detected simplex is detected again. *)
Theorem no_fn l m0 m1 : run_sites f0 l [] = Some m0 -> run_sites f1 l [] = Some m1 ->
  (forall s k e, In s l -> f0 s = Some (k, Some e) -> exists e', f1 s = Some (k, Some e')) -> r_fn (compare_cps m0 m1) = [].
Proof.
  intros H0 H1 Hd. pose proof (run0_NoDup _ _ _ H0) as N0.
  destruct (r_fn (compare_cps m0 m1)) as [|e l'] eqn:E; auto. exfalso.
  assert (He : In e (r_fn (compare_cps m0 m1))) by (rewrite E; left; auto). destruct (in_fn _ _ _ N0 He) as (k & E0 & E1).
  destruct (run_only _ _ _ _ _ _ H0 E0) as [X|(s & I & Es)]; [rewrite mfind_nil in X; discriminate|].
  destruct (Hd _ _ _ I Es) as (e' & Es1). destruct (run_all _ _ _ _ _ H1 I) as (k1 & o1 & Es1' & Hn). rewrite Es1 in Es1'. injection Es1' as <- <-.
  apply Hn; [discriminate|auto].
Qed.
End Report.

(** Fewer entries than detected simplices when two of them share a key. *)
Lemma run_length {P S} (f : S -> option (Z * option (entry P))) l : forall m m', run_sites f l m = Some m' ->
  (length m' <= length m + length (filter (fun s => match f s with Some (_, Some _) => true | _ => false end) l))%nat.
Proof.
  induction l as [|s l IH]; intros m m' H; cbn [run_sites] in H; [apply Some_inj in H; subst; cbn; lia|].
  destruct (f s) as [[k o]|] eqn:Es; [|discriminate]. specialize (IH _ _ H). cbn [filter]. rewrite Es. destruct o as [e|]; [|exact IH].
  cbn [length]. assert (length (mset k e m) <= Datatypes.S (length m))%nat.
  { unfold mset. cbn [length]. apply le_n_S. clear. induction m as [|p m IH]; cbn [filter]; [auto|]. destruct (negb _); cbn [length]; lia. }
  lia.
Qed.
Lemma keys_incl {P S} (f : S -> option (Z * option (entry P))) l m' : run_sites f l [] = Some m' ->
  incl (map fst m') (flat_map (fun s => match f s with Some (k, Some _) => [k] | _ => [] end) l).
Proof.
  intros H k Hk. destruct (mfind k m') as [e|] eqn:E; [|apply mfind_None in E; contradiction].
  destruct (run_only _ _ _ _ _ _ H E) as [X|(s & I & Es)]; [rewrite mfind_nil in X; discriminate|].
  apply in_flat_map. exists s. rewrite Es. split; [auto|left; auto].
Qed.
Lemma detected_length {P S} (f : S -> option (Z * option (entry P))) l :
  length (flat_map (fun s => match f s with Some (k, Some _) => [k] | _ => [] end) l) =
  length (filter (fun s => match f s with Some (_, Some _) => true | _ => false end) l).
Proof.
  induction l as [|s l IH]; [reflexivity|]. cbn [flat_map filter]. rewrite app_length. destruct (f s) as [[k [e|]]|]; cbn [length]; lia.
Qed.
Theorem collision_loses {P S} (f : S -> option (Z * option (entry P))) l m' l1 s l2 s' l3 k e e' :
  l = l1 ++ s :: l2 ++ s' :: l3 -> f s = Some (k, Some e) -> f s' = Some (k, Some e') -> run_sites f l [] = Some m' ->
  (length m' < length (filter (fun s => match f s with Some (_, Some _) => true | _ => false end) l))%nat.
Proof.
  intros El Es Es' H. pose proof (run0_NoDup _ _ _ H) as HN. pose proof (keys_incl _ _ _ H) as HK.
  rewrite <- detected_length. rewrite <- (map_length fst m').
  set (g := fun s => match f s with Some (k, Some _) => [k] | _ => [] end) in *.
  assert (Eg : g s = [k]) by (unfold g; rewrite Es; auto). assert (Eg' : g s' = [k]) by (unfold g; rewrite Es'; auto).
  assert (Ef : flat_map g l = flat_map g l1 ++ k :: flat_map g l2 ++ k :: flat_map g l3).
  { rewrite El, flat_map_app. cbn [flat_map]. rewrite Eg, flat_map_app. cbn [flat_map]. rewrite Eg'. reflexivity. }
  assert (HI : incl (map fst m') (flat_map g l1 ++ k :: flat_map g l2 ++ flat_map g l3)).
  { intros x Hx. apply HK in Hx. rewrite Ef in Hx. rewrite in_app_iff in *. cbn [In] in *. rewrite in_app_iff in *. cbn [In] in *. tauto. }
  apply NoDup_incl_length in HI; auto. rewrite Ef. rewrite app_length in *. cbn [length] in *. rewrite app_length in *. cbn [length] in *. lia.
Qed.
