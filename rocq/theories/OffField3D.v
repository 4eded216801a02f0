(** The offline 3D bounds of a whole field, in exact arithmetic: every change below them keeps the critical tetrahedra.
    Nothing of /repo is modelled here. *)
From Coq Require Import Reals Lra Lia ZArith List Bool Permutation.
From Coq Require Import ZifyBool ZifyNat.
From Flocq Require Import Core.Raux.
From Verif Require Import Base Arith Mesh2D Mesh3D Derive2D Derive3D Codec2D Sync2D Scan Sync3D Cells3D Exact Trace2D Cells2D Geo2D Preserve2D Type2D Offline2D
  OfflineSound2D OfflineField2D Geo3D Geo3DRel Preserve3D LogCells3D LinQuant BlockRefute Off3D OffSound3D.
Import ListNotations.
Local Open Scope R_scope.

(** ** Each tetrahedron of the mesh is one of the first six rows around the low corner of its cell. *)
Definition check_low (e : pt * pt * pt) : bool :=
  existsb (fun n => pt_eqb (crd n 3) (0, 0, 0)%Z && permb (path (fst (fst e)) (snd (fst e)) (snd e)) (crds n)) (seq 0 6).
Lemma all_low : forallb check_low paths = true.
Proof. vm_compute. reflexivity. Qed.
Lemma low_rows : forallb (fun n => pt_eqb (crd n 3) (0, 0, 0)%Z) (seq 0 6) = true.
Proof. vm_compute. reflexivity. Qed.

Definition cell_in (r1 r2 r3 : Z) (t : pt * nat) : Prop :=
  let '(b, n) := t in (0 <= fst (fst b) < r1 - 1)%Z /\ (0 <= snd (fst b) < r2 - 1)%Z /\ (0 <= snd b < r3 - 1)%Z /\ (n < 6)%nat.

Lemma low_base b n : (n < 6)%nat -> cube_base b n = b.
Proof.
  intros Hn. pose proof low_rows as L. rewrite forallb_forall in L. specialize (L n ltac:(apply in_seq; lia)). apply pt_eqb_eq in L.
  unfold crd in L. injection L as E1 E2 E3. unfold cube_base. rewrite E1, E2, E3. apply padd_0.
Qed.
Lemma off_nbr b n p : off_vertex b n p = nbr3 b n p.
Proof. destruct b as [[i j] k]. reflexivity. Qed.

Lemma tet_low r1 r2 r3 t : tet r1 r2 r3 t -> exists b n, cell_in r1 r2 r3 (b, n) /\ Permutation t (around b n).
Proof.
  intros H. destruct (tet_inv _ _ _ _ H) as (b & e1 & e2 & e3 & He & -> & B1 & B2 & B3).
  pose proof all_low as AL. rewrite forallb_forall in AL. specialize (AL _ He). unfold check_low in AL. cbn [fst snd] in AL.
  apply existsb_exists in AL. destruct AL as (n & Hn & HC). apply andb_true_iff in HC. destruct HC as [_ HP].
  apply permb_sound in HP. apply in_seq in Hn. exists b, n. split; [repeat split; tauto || lia|].
  rewrite around_crds, low_base by lia. apply Permutation_map. exact HP.
Qed.
Lemma cell_points r1 r2 r3 b n x : cell_in r1 r2 r3 (b, n) -> In x (around b n) -> in_grid r1 r2 r3 x.
Proof.
  intros (B1 & B2 & B3 & Hn) Hx. pose proof (forall24 _ all_sound n ltac:(lia)) as HS. unfold check_sound in HS. apply existsb_exists in HS.
  destruct HS as ([[e1 e2] e3] & He & HP). cbn [fst snd] in HP. apply permb_sound in HP.
  rewrite around_crds, low_base in Hx by lia. apply (tet_in_grid r1 r2 r3 (map (padd b) (path e1 e2 e3))); [apply tet_make; auto|].
  apply (Permutation_in _ (Permutation_sym (Permutation_map _ HP))). exact Hx.
Qed.

Lemma cell_tets_in r1 r2 r3 t : In t (cell_tets r1 r2 r3) <-> cell_in r1 r2 r3 t.
Proof.
  unfold cell_tets. rewrite in_flat_map. destruct t as [b n]. unfold cell_in, scan3. split.
  - intros (b' & H & HI). apply in_map_iff in HI. destruct HI as (n' & E & Hn). injection E as -> ->. apply in_seq in Hn.
    apply in_flat_map in H. destruct H as (i & Hi & H). apply in_flat_map in H. destruct H as (j & Hj & H). apply in_map_iff in H.
    destruct H as (k & <- & Hk). apply zrange_in in Hi. apply zrange_in in Hj. apply zrange_in in Hk. cbn [fst snd]. lia.
  - destruct b as [[i j] k]. cbn [fst snd]. intros (Hi & Hj & Hk & Hn). exists (i, j, k). split.
    + apply in_flat_map. exists i. split; [apply zrange_in; lia|]. apply in_flat_map. exists j. split; [apply zrange_in; lia|].
      apply in_map_iff. exists k. split; [auto|apply zrange_in; lia].
    + apply in_map_iff. exists n. split; [auto|apply in_seq; lia].
Qed.

Ltac find_in := repeat (first [left; reflexivity|right]).

Definition nonneg (eb : list XR) : Prop := forall p x, aget eb p = Some (Fin x) -> 0 <= x.
Lemma lower_nonneg eb p b eb' : allfin eb -> nonneg eb -> 0 <= b -> lower_eb XA eb p (Fin b) = Some eb' -> nonneg eb'.
Proof.
  intros F N Hb H. unfold lower_eb in H. change (D XA) with XR in *. destruct (aget eb p) as [x|] eqn:E; [|discriminate]. cbn [bind] in H.
  destruct (F _ _ E) as [r ->]. pose proof (N _ _ E) as Hr. apply aset_Some in H. destruct H as (_ & _ & G).
  intros q y Hq. rewrite G in Hq. destruct (q =? p)%Z; [|eapply N; eauto].
  unfold minf in Hq. cbn [dlt XA] in Hq. destruct (xlt (Fin r) (Fin b)); injection Hq as <-; auto.
Qed.

Section Field.
Variable acbrt : XR -> XR.
Hypothesis HC : cube_root0 acbrt.
Variables (r1 r2 r3 : Z) (u v w : list R).
Local Notation val := (vecR3 r2 r3 u v w).

(** The bound of a tetrahedron. *)
Definition cell_eb (t : pt * nat) : XR :=
  let '(b, n) := t in
  offline3_eb XA XO acbrt (fin3 (val (nbr3 b n 0))) (fin3 (val (nbr3 b n 1))) (fin3 (val (nbr3 b n 2))) (fin3 (val b)).
Lemma cell_eb_ok t : exists b, cell_eb t = Fin b /\ 0 <= b <= 1.
Proof using HC.
  destruct t as [p n]. assert (Z : Rabs 0 <= 0) by (rewrite Rabs_R0; lra).
  destruct (tet_kept acbrt HC (val (nbr3 p n 0)) (val (nbr3 p n 1)) (val (nbr3 p n 2)) (val p) 0 0 0 0 0 0 0 0 0 0 0 0 0
     ltac:(lra) Z Z Z Z Z Z Z Z Z Z Z Z) as (b & E & Rb & _).
  exists b. split; [exact E|exact Rb].
Qed.

Definition capped3 (eb : list XR) (t : pt * nat) : Prop :=
  exists b, cell_eb t = Fin b /\ forall x, In x (around (fst t) (snd t)) -> exists y, aget eb (lin3 r2 r3 x) = Some (Fin y) /\ y <= b.
Lemma capped3_lowered eb eb' t : capped3 eb t -> lowered eb eb' -> capped3 eb' t.
Proof using Type.
  intros (b & E & H) [_ L]. exists b. split; [exact E|]. intros x Hx. destruct (H x Hx) as (y & Hy & Ly).
  destruct (L _ _ Hy) as (z & Hz & Lz). exists z. split; [auto|lra].
Qed.

Hypothesis (Lu : Z.of_nat (length u) = (r1 * r2 * r3)%Z) (Lv : Z.of_nat (length v) = (r1 * r2 * r3)%Z) (Lw : Z.of_nat (length w) = (r1 * r2 * r3)%Z).

Lemma tet_step eb t : allfin eb -> Z.of_nat (length eb) = (r1 * r2 * r3)%Z -> cell_in r1 r2 r3 t ->
  exists eb', offline3_tet XA XO acbrt r2 r3 (map Fin u) (map Fin v) (map Fin w) eb t = Some eb' /\ allfin eb' /\ lowered eb eb' /\ capped3 eb' t /\
    (nonneg eb -> nonneg eb').
Proof using HC Lu Lv Lw.
  intros F L Ht. destruct (cell_eb_ok t) as (b & E & Rb). destruct t as [p n]. unfold offline3_tet.
  assert (IN : forall x, In x (around p n) -> (0 <= lin3 r2 r3 x < r1 * r2 * r3)%Z) by (intros x Hx; apply lin3_range, (cell_points _ _ _ _ _ _ Ht Hx)).
  assert (G : forall l x, Z.of_nat (length l) = (r1 * r2 * r3)%Z -> In x (around p n) -> aget (map Fin l) (lin3 r2 r3 x) = Some (Fin (at_ l (lin3 r2 r3 x)))).
  { intros l x Ll Hx. apply at_get. rewrite Ll. apply IN, Hx. }
  assert (I0 : In (nbr3 p n 0) (around p n)) by (unfold around; cbn [In]; auto). assert (I1 : In (nbr3 p n 1) (around p n)) by (unfold around; cbn [In]; auto).
  assert (I2 : In (nbr3 p n 2) (around p n)) by (unfold around; cbn [In]; auto). assert (I3 : In p (around p n)) by (unfold around; cbn [In]; auto).
  rewrite !off_nbr. change (T XA) with XR. rewrite !G by auto. cbn [bind].
  match goal with |- context [offline3_eb ?q1 ?q2 ?q3 ?x0 ?x1 ?x2 ?x3] =>
    replace (offline3_eb q1 q2 q3 x0 x1 x2 x3) with (Fin b) by (symmetry; exact E) end.
  destruct (lower_ok eb (lin3 r2 r3 p) b F) as (e0 & E0 & F0 & L0 & y0 & Y0 & Z0); [rewrite L; auto|].
  destruct (lower_ok e0 (lin3 r2 r3 (nbr3 p n 0)) b F0) as (e1 & E1 & F1 & L1 & y1 & Y1 & Z1); [rewrite (proj1 L0), L; auto|].
  destruct (lower_ok e1 (lin3 r2 r3 (nbr3 p n 1)) b F1) as (e2 & E2 & F2 & L2 & y2 & Y2 & Z2); [rewrite (proj1 L1), (proj1 L0), L; auto|].
  destruct (lower_ok e2 (lin3 r2 r3 (nbr3 p n 2)) b F2) as (e3 & E3 & F3 & L3 & y3 & Y3 & Z3); [rewrite (proj1 L2), (proj1 L1), (proj1 L0), L; auto|].
  change (D XA) with XR in *. rewrite E0. cbn [bind]. rewrite E1. cbn [bind]. rewrite E2. cbn [bind]. exists e3. split; [exact E3|]. split; [exact F3|].
  pose proof (lowered_trans _ _ _ L2 L3) as M1. pose proof (lowered_trans _ _ _ L1 M1) as M0. split; [eapply lowered_trans; eauto|].
  split; [|intros N; apply (lower_nonneg e2 _ b e3 F2) in E3; [exact E3| |lra]; apply (lower_nonneg e1 _ b e2 F1) in E2; [exact E2| |lra];
    apply (lower_nonneg e0 _ b e1 F0) in E1; [exact E1| |lra]; apply (lower_nonneg eb _ b e0 F) in E0; [exact E0|exact N|lra]].
  exists b. split; [exact E|]. intros x [<-|[<-|[<-|[<-|[]]]]].
  - destruct (proj2 M1 _ _ Y1) as (z & Hz & Lz). exists z. split; [auto|lra].
  - destruct (proj2 L3 _ _ Y2) as (z & Hz & Lz). exists z. split; [auto|lra].
  - exists y3. auto.
  - destruct (proj2 M0 _ _ Y0) as (z & Hz & Lz). exists z. split; [auto|lra].
Qed.

Lemma ebs3_gen ts : (forall t, In t ts -> cell_in r1 r2 r3 t) -> forall eb, allfin eb -> Z.of_nat (length eb) = (r1 * r2 * r3)%Z ->
  exists eb', fold_opt (offline3_tet XA XO acbrt r2 r3 (map Fin u) (map Fin v) (map Fin w)) ts eb = Some eb' /\ allfin eb' /\ lowered eb eb' /\
    (forall t, In t ts -> capped3 eb' t) /\ (nonneg eb -> nonneg eb').
Proof using HC Lu Lv Lw.
  induction ts as [|t ts IH]; intros Hts eb F L; cbn [fold_opt].
  - exists eb. split; [auto|]. split; [auto|]. split; [apply lowered_refl|]. split; [intros t []|auto].
  - destruct (tet_step eb t F L (Hts t (or_introl eq_refl))) as (e1 & E1 & F1 & L1 & C1 & N1).
    change (D XA) with XR in *. rewrite E1. cbn [bind].
    destruct (IH (fun x Hx => Hts x (or_intror Hx)) e1 F1) as (e2 & E2 & F2 & L2 & C2 & N2); [rewrite (proj1 L1); auto|].
    exists e2. split; [exact E2|]. split; [exact F2|]. split; [eapply lowered_trans; eauto|].
    split; [intros x [<-|Hx]; [eapply capped3_lowered; eauto|auto]|auto].
Qed.

(** ** Any change below the bounds *)
Variables (u' v' w' : list R) (eb : list XR).
Hypothesis (CU : forall p x, aget eb p = Some (Fin x) -> small_change x (at_ u p) (at_ u' p)).
Hypothesis (CV : forall p x, aget eb p = Some (Fin x) -> small_change x (at_ v p) (at_ v' p)).
Hypothesis (CW : forall p x, aget eb p = Some (Fin x) -> small_change x (at_ w p) (at_ w' p)).
Local Notation val' := (vecR3 r2 r3 u' v' w').

Lemma point_factor b x y : aget eb (lin3 r2 r3 x) = Some (Fin y) -> y <= b ->
  exists c d e, val' x = scaled (val x) c d e /\ (c = 0 \/ Rabs c < b) /\ (d = 0 \/ Rabs d < b) /\ (e = 0 \/ Rabs e < b).
Proof using CU CV CW.
  intros Hy Ly.
  assert (K : forall s t, small_change y s t -> exists a, t = s * (1 + a) /\ (a = 0 \/ Rabs a < b)).
  { intros s t H. apply change_factor. destruct H as [H|H]; [auto|right]. pose proof (Rabs_pos s). nra. }
  destruct (K _ _ (CU _ _ Hy)) as (c & E1 & B1). destruct (K _ _ (CV _ _ Hy)) as (d & E2 & B2). destruct (K _ _ (CW _ _ Hy)) as (e & E3 & B3).
  exists c, d, e. split; [|auto]. unfold vecR3, scaled, cx, cy, cz. cbn [fst snd]. unfold at_ in E1, E2, E3. rewrite E1, E2, E3. reflexivity.
Qed.

Theorem tet_change_kept t : cell_in r1 r2 r3 t -> capped3 eb t -> forall c, Permutation c (around (fst t) (snd t)) ->
  (has_cp3 (map val c) <-> has_cp3 (map val' c)).
Proof using HC CU CV CW.
  destruct t as [p n]. cbn [fst snd]. intros Ht (b & Eb & CB) c HP.
  assert (GO : has_cp3 (map val (around p n)) <-> has_cp3 (map val' (around p n))).
  2:{ pose proof (Permutation_map val HP) as P1. pose proof (Permutation_map val' HP) as P2.
      split; intros H; [apply (has_cp3_perm _ _ (Permutation_sym P2)), GO, (has_cp3_perm _ _ P1 H)|
                        apply (has_cp3_perm _ _ (Permutation_sym P1)), GO, (has_cp3_perm _ _ P2 H)]. }
  assert (PF : forall x, In x (around p n) -> exists c d e, val' x = scaled (val x) c d e /\ (c = 0 \/ Rabs c < b) /\ (d = 0 \/ Rabs d < b) /\ (e = 0 \/ Rabs e < b)).
  { intros x Hx. destruct (CB x Hx) as (y & Hy & Ly). eapply point_factor; eauto. }
  unfold around in *. cbn [map].
  destruct (PF (nbr3 p n 0)) as (a0 & b0 & c0 & E0 & A0 & B0 & C0); [cbn [In]; auto|].
  destruct (PF (nbr3 p n 1)) as (a1 & b1 & c1 & E1 & A1 & B1 & C1); [cbn [In]; auto|].
  destruct (PF (nbr3 p n 2)) as (a2 & b2 & c2 & E2 & A2 & B2 & C2); [cbn [In]; auto|].
  destruct (PF p) as (a3 & b3 & c3 & E3 & A3 & B3 & C3); [cbn [In]; auto 6|].
  rewrite E0, E1, E2, E3.
  destruct (Rlt_le_dec 0 b) as [Pb|Nb].
  - set (mx := fun l : list R => fold_right Rmax 0 (map Rabs l)).
    assert (MX : forall l a, In a l -> Rabs a <= mx l).
    { induction l as [|x l IH]; intros a []; unfold mx in *; cbn [map fold_right].
      - subst. apply Rmax_l.
      - eapply Rle_trans; [apply IH; auto|apply Rmax_r]. }
    assert (ML : forall l, Forall (fun a => a = 0 \/ Rabs a < b) l -> 0 <= mx l < b).
    { induction l as [|x l IH]; intros FF; unfold mx in *; cbn [map fold_right]; [lra|]. inversion FF as [|? ? Q1 Q2]; subst.
      specialize (IH Q2). split; [eapply Rle_trans; [apply IH|apply Rmax_r]|]. apply Rmax_lub_lt; [|lra].
      destruct Q1 as [->|Q1]; [rewrite Rabs_R0|]; auto. }
    set (l := [a0; a1; a2; a3; b0; b1; b2; b3; c0; c1; c2; c3]).
    assert (Fl : Forall (fun a => a = 0 \/ Rabs a < b) l) by (unfold l; repeat (constructor; [assumption|]); constructor).
    destruct (ML l Fl) as [M1 M2].
    assert (IL : forall a, In a l -> Rabs a <= mx l) by (intros; apply MX; auto).
    destruct (tet_kept acbrt HC (val (nbr3 p n 0)) (val (nbr3 p n 1)) (val (nbr3 p n 2)) (val p) (mx l) a0 a1 a2 a3 b0 b1 b2 b3 c0 c1 c2 c3 M1
      ltac:(apply IL; find_in) ltac:(apply IL; find_in) ltac:(apply IL; find_in) ltac:(apply IL; find_in)
      ltac:(apply IL; find_in) ltac:(apply IL; find_in) ltac:(apply IL; find_in) ltac:(apply IL; find_in)
      ltac:(apply IL; find_in) ltac:(apply IL; find_in) ltac:(apply IL; find_in) ltac:(apply IL; find_in)) as (b' & E' & _ & G).
    unfold cell_eb in Eb. assert (Q := eq_trans (eq_sym E') Eb). injection Q as Q. subst b'. destruct (G M2) as [G1 G2]. clear - G1 G2. split; intros H; contradiction.
  - assert (ZA : forall a, a = 0 \/ Rabs a < b -> a = 0) by (intros a [->|X]; [auto|pose proof (Rabs_pos a); lra]).
    apply ZA in A0, A1, A2, A3, B0, B1, B2, B3, C0, C1, C2, C3. subst.
    assert (S0 : forall x, scaled x 0 0 0 = x). { intros [[x y] z]. unfold scaled, cx, cy, cz. cbn [fst snd]. rewrite Rplus_0_r, !Rmult_1_r. reflexivity. }
    rewrite !S0. tauto.
Qed.
End Field.

Theorem offline3_bounds_keep acbrt : cube_root0 acbrt -> forall max_eb r1 r2 r3 u v w,
  0 <= max_eb -> (0 <= r1)%Z -> (0 <= r2)%Z -> (0 <= r3)%Z ->
  Z.of_nat (length u) = (r1 * r2 * r3)%Z -> Z.of_nat (length v) = (r1 * r2 * r3)%Z -> Z.of_nat (length w) = (r1 * r2 * r3)%Z ->
  exists eb, offline3_ebs XA XO acbrt (Fin max_eb) r1 r2 r3 (map Fin u) (map Fin v) (map Fin w) = Some (map Fin eb) /\
  Z.of_nat (length eb) = (r1 * r2 * r3)%Z /\ Forall (fun e => 0 <= e <= max_eb) eb /\
  forall u' v' w', (forall k, small_change (nth k eb 0) (nth k u 0) (nth k u' 0)) ->
                   (forall k, small_change (nth k eb 0) (nth k v 0) (nth k v' 0)) ->
                   (forall k, small_change (nth k eb 0) (nth k w 0) (nth k w' 0)) ->
  forall t, tet r1 r2 r3 t -> (has_cp3 (map (vecR3 r2 r3 u v w) t) <-> has_cp3 (map (vecR3 r2 r3 u' v' w') t)).
Proof.
  intros HC max_eb r1 r2 r3 u v w HM H1 H2 H3 Lu Lv Lw. unfold offline3_ebs. set (eb0 := repeat (Fin max_eb) (Z.to_nat (r1 * r2 * r3))).
  assert (HG : forall p x, aget eb0 p = Some x -> x = Fin max_eb).
  { intros p x E. unfold aget in E. destruct (p <? 0)%Z; [discriminate|]. apply nth_error_In, repeat_spec in E. auto. }
  assert (Pos : (0 <= r1 * r2 * r3)%Z) by (repeat apply Z.mul_nonneg_nonneg; auto).
  destruct (ebs3_gen acbrt HC r1 r2 r3 u v w Lu Lv Lw (cell_tets r1 r2 r3) (fun t => proj1 (cell_tets_in r1 r2 r3 t)) eb0) as (ebx & E & F & L & C & N).
  - intros p x E. apply HG in E. eauto.
  - unfold eb0. rewrite repeat_length. lia.
  - assert (Len : Z.of_nat (length ebx) = (r1 * r2 * r3)%Z) by (transitivity (Z.of_nat (length eb0)); [f_equal; exact (proj1 L)|unfold eb0; rewrite repeat_length; lia]).
    assert (N' : nonneg ebx) by (apply N; intros p x Q; apply HG in Q; injection Q as ->; lra). clear N.
    assert (B : forall p x, aget ebx p = Some (Fin x) -> x <= max_eb).
    { intros p x Hx. assert (HP := aget_Some _ _ _ Hx). destruct (aget_ok eb0 p) as [y Hy]; [replace (length eb0) with (length ebx) by exact (proj1 L); exact HP|].
      pose proof (HG _ _ Hy). subst y. destruct (proj2 L _ _ Hy) as (z & Hz & Lz). pose proof (eq_trans (eq_sym Hx) Hz) as Q. injection Q as ->. auto. }
    pose proof (allfin_inv _ F) as EI. set (eb := map toR ebx) in *. clearbody eb. change (D XA) with XR in *. subst ebx.
    rewrite map_length in Len. exists eb. split; [exact E|]. split; [exact Len|].
    assert (G : forall p x, aget (map Fin eb) p = Some (Fin x) -> nth (Z.to_nat p) eb 0 = x).
    { intros p x Hx. pose proof (aget_Some _ _ _ Hx) as R. rewrite map_length in R. rewrite at_get in Hx by auto. injection Hx as <-. reflexivity. }
    split.
    + apply Forall_forall. intros x Hx. apply In_nth with (d := 0) in Hx. destruct Hx as (n & Hn & <-).
      assert (Q : aget (map Fin eb) (Z.of_nat n) = Some (Fin (nth n eb 0))) by (rewrite at_get by lia; unfold at_; rewrite Nat2Z.id; reflexivity).
      split; [exact (N' _ _ Q)|exact (B _ _ Q)].
    + intros u' v' w' CU CV CW t Ht. destruct (tet_low _ _ _ _ Ht) as (b & n & HB & HP).
      apply (tet_change_kept acbrt HC r1 r2 r3 u v w u' v' w' (map Fin eb)
        ltac:(intros p x Hx; pose proof (G _ _ Hx) as <-; apply CU) ltac:(intros p x Hx; pose proof (G _ _ Hx) as <-; apply CV)
        ltac:(intros p x Hx; pose proof (G _ _ Hx) as <-; apply CW) (b, n) HB); [|exact HP].
      apply C, cell_tets_in, HB.
Qed.
