(** Critical point preservation of the 2D online codecs in exact arithmetic. *)
From Coq Require Import Reals Lra Lia ZArith List Bool Permutation.
From Coq Require Import ZifyBool ZifyNat.
From Flocq Require Import Core.Raux.
From Verif Require Import Base Huffman Arith Mesh2D Derive2D Codec2D Sync2D Trace2D Exact Cells2D Geo2D.
Import ListNotations.

Lemma perm3_cases {X} (a b c x y z : X) : Permutation [a; b; c] [x; y; z] ->
  (x = a /\ y = b /\ z = c) \/ (x = a /\ y = c /\ z = b) \/ (x = b /\ y = a /\ z = c) \/
  (x = b /\ y = c /\ z = a) \/ (x = c /\ y = a /\ z = b) \/ (x = c /\ y = b /\ z = a).
Proof.
  intros H. assert (Hx : In x [a; b; c]) by (apply (Permutation_in _ (Permutation_sym H)); left; auto).
  assert (G : forall p q, Permutation [p; q] [y; z] -> (y = p /\ z = q) \/ (y = q /\ z = p)).
  { intros p q HP. apply Permutation_length_2 in HP. intuition. }
  destruct Hx as [<-|[<-|[<-|[]]]].
  - apply Permutation_cons_inv in H. apply G in H. intuition.
  - assert (H' : Permutation [b; a; c] [b; y; z]) by (eapply Permutation_trans; [apply perm_swap|exact H]).
    apply Permutation_cons_inv in H'. apply G in H'. intuition.
  - assert (H' : Permutation [c; a; b] [c; y; z]).
    { eapply Permutation_trans; [apply (Permutation_trans (perm_swap _ _ _) (perm_skip _ (perm_swap _ _ _)))|exact H]. }
    apply Permutation_cons_inv in H'. apply G in H'. intuition.
Qed.

Lemma has_cp_perm {X} (f : X -> R * R) a b c x y z : Permutation [a; b; c] [x; y; z] ->
  has_cp (f a) (f b) (f c) -> has_cp (f x) (f y) (f z).
Proof.
  intros HP H.
  destruct (perm3_cases _ _ _ _ _ _ HP) as [(-> & -> & ->)|[(-> & -> & ->)|[(-> & -> & ->)|[(-> & -> & ->)|[(-> & -> & ->)|(-> & -> & ->)]]]]];
    auto using has_cp_swap, has_cp_rot.
Qed.

(** ** Real-valued arrays *)
Definition toR (x : XR) : R := match x with Fin r => r | _ => 0%R end.
Definition atR (w : list XR) (k : Z) : R := match aget w k with Some x => toR x | None => 0%R end.
Definition allfin (w : list XR) : Prop := forall k x, aget w k = Some x -> exists r, x = Fin r.

Lemma atR_fin w k x : allfin w -> aget w k = Some x -> x = Fin (atR w k).
Proof. intros H E. unfold atR. rewrite E. destruct (H _ _ E) as [r ->]. reflexivity. Qed.

Lemma allfin_aset w k r w' : allfin w -> aset w k (Fin r) = Some w' -> allfin w'.
Proof.
  intros H E i x Hx. destruct (aset_Some _ _ _ _ E) as (_ & _ & G). rewrite G in Hx.
  destruct (i =? k)%Z; [|eauto]. injection Hx as <-. eauto.
Qed.

Lemma allfin_map u : allfin (map Fin u).
Proof.
  intros k x H. unfold aget in H. destruct (k <? 0)%Z; [discriminate|]. rewrite nth_error_map in H.
  destruct (nth_error u (Z.to_nat k)); [|discriminate]. injection H as <-. eauto.
Qed.

Lemma allfin_inv w : allfin w -> w = map Fin (map toR w).
Proof.
  intros H. apply aget_ext. intros k. unfold aget. destruct (k <? 0)%Z eqn:E; auto.
  rewrite !nth_error_map. destruct (nth_error w (Z.to_nat k)) eqn:En; auto. cbn [option_map].
  destruct (H k x) as [r ->]; auto. unfold aget. rewrite E. auto.
Qed.

(** Vector at a grid point. *)
Definition vec (r2 : Z) (U V : list XR) (a : Z * Z) : R * R := (atR U (lin r2 a), atR V (lin r2 a)).

(** ** One component *)
Lemma lorenzo_fin w r2 i j p : allfin w -> lorenzo XA w r2 i j = Some p -> exists r, p = Fin r.
Proof.
  intros HF H. unfold lorenzo in H. bind_as H a Ha. bind_as H b Hb. bind_as H c Hc. apply Some_inj in H. subst p.
  assert (G : forall (t : bool) k x, (if t then aget w k else Some (t0 XA)) = Some x -> exists r, x = Fin r).
  { intros [|] k x E; [eauto|]. apply Some_inj in E. subst x. cbn. eauto. }
  destruct (G _ _ _ Ha) as [ra ->]. destruct (G _ _ _ Hb) as [rb ->]. destruct (G _ _ _ Hc) as [rc ->]. cbn. eauto.
Qed.

Local Open Scope R_scope.

Lemma quantise_fin p cur a q x : 0 < a -> quantise XA (Fin p) (Fin cur) (Fin a) = Some (Coded XA q x) ->
  exists d, x = Fin d /\ Rabs (d - cur) < a.
Proof.
  intros Ha H. unfold quantise in H. cbn [t2d tsub dabs ddiv dadd dofZ XA xsub xabs] in H.
  rewrite xdiv_fin in H by lra. destruct (dlt XA _ _) in H; [|discriminate].
  bind_as H h Hh. unfold recon in H. cbn [d2t dadd dmul t2d dofZ XA xadd xmul tabs tsub xsub xabs dle] in H.
  destruct (xle _ _) eqn:E; [discriminate|]. apply xle_fin_false in E. injection H as Hq Hx.
  eexists. split; [symmetry; exact Hx|exact E].
Qed.

(** A coded component differs from the current value by strictly less than its bound. *)
Lemma coded_exact w r2 i j cur eb0 id q x : allfin w -> coded XA w r2 i j (Fin cur) eb0 id q x ->
  exists d eb, x = Fin d /\ eb0 = Fin eb /\ Rabs (d - cur) < eb /\ / 4503599627370496 < eb.
Proof.
  intros HF (ab & pred & Hq & Hid & Hl & Hc).
  destruct (lorenzo_fin _ _ _ _ _ HF Hl) as [p ->].
  assert (HE : exists eb, eb0 = Fin eb).
  { destruct eb0 as [eb| | |]; eauto; exfalso; unfold eb_exponential_quantize in Hq;
      cbn [dle dlog2 ddiv dtoint dofZ eps_double XA xle xlt xeq orb] in Hq.
    - Local Transparent xdiv.
      bind_as Hq z Hz. cbn [xdiv] in Hz. rewrite Rlt_bool_false in Hz by lra. cbn [xlog2] in Hz.
      destruct (Rlt_bool 0 4) in Hz; [|destruct (Rlt_bool 4 0) in Hz; discriminate].
      cbn [xdiv] in Hz. destruct (Rlt_bool _ _) in Hz; discriminate.
    - cbn in Hq. apply Some_inj in Hq. inversion Hq. subst id. discriminate.
    - bind_as Hq z Hz. cbn [xdiv xlog2] in Hz. discriminate.
    Local Opaque xdiv. }
  destruct HE as [eb ->].
  apply quantize_exact in Hq; [|lia|lra]. destruct Hq as [(_ & E & _)|(Ht & _ & a & -> & _ & Ha & Hle & _)]; [lia|].
  destruct (quantise_fin _ _ _ _ _ Ha Hc) as (d & -> & Hd). exists d, eb. repeat split; auto. lra.
Qed.

(** ** The six triangles *)
Lemma req_loop_below f U V r1 r2 i j e : forall ks eb r,
  (forall k v, In k ks -> in_mesh r1 r2 i j k = true -> tri_values XA U V r2 (i * r2 + j) k = Some v -> notnan (f v k)) ->
  notnan eb -> req_loop XA f U V r1 r2 i j ks eb = Some r -> below e r ->
  below e eb /\ forall k, In k ks -> in_mesh r1 r2 i j k = true ->
    exists v, tri_values XA U V r2 (i * r2 + j) k = Some v /\ below e (f v k).
Proof.
  induction ks as [|k ks IH]; intros eb r HN Hn H HB; cbn [req_loop] in H.
  - apply Some_inj in H. subst. split; auto. intros k [].
  - destruct (in_mesh r1 r2 i j k) eqn:EM.
    + bind_as H v Hv. destruct (IH (minf XA eb (f v k)) r) as [B1 B2]; auto.
      { intros k' v' Hk. apply HN. right. auto. }
      { apply notnan_minf, HN; auto. left; auto. }
      apply below_minf in B1 as [B1 B3]; auto; [|apply HN; auto; left; auto].
      split; auto. intros k' [<-|Hk] HM; eauto.
    + destruct (IH eb r) as [B1 B2]; auto. { intros k' v' Hk. apply HN. right. auto. }
      split; auto. intros k' [<-|Hk] HM; [congruence|eauto].
Qed.

(** Neighbour values as real vectors. *)
Lemma tri_values_vec U V r2 i j k v : (k < 6)%nat -> allfin U -> allfin V ->
  tri_values XA U V r2 (i * r2 + j) k = Some v ->
  let a := vec r2 U V (nbr i j k 0) in let b := vec r2 U V (nbr i j k 1) in let c := vec r2 U V (i, j) in
  v = (Fin (fst a), Fin (fst b), Fin (fst c), Fin (snd a), Fin (snd b), Fin (snd c)).
Proof.
  intros Hk FU FV H. unfold tri_values in H.
  destruct (offset_lin r2 i j k Hk) as [E0 E1]. rewrite E0, E1 in H.
  change (i * r2 + j)%Z with (lin r2 (i, j)) in H.
  bind_as H u0 H0. bind_as H u1 H1. bind_as H u2 H2. bind_as H v0 H3. bind_as H v1 H4. bind_as H v2 H5.
  apply Some_inj in H. subst v. unfold vec. cbn [fst snd].
  rewrite (atR_fin U _ _ FU H0), (atR_fin U _ _ FU H1), (atR_fin U _ _ FU H2),
          (atR_fin V _ _ FV H3), (atR_fin V _ _ FV H4), (atR_fin V _ _ FV H5). reflexivity.
Qed.

Lemma in_six k : In k six <-> (k < 6)%nat.
Proof. unfold six. cbn [In]. lia. Qed.

(** Arrays that differ in one cell. *)
Lemma vec_other r2 U V U' V' i j a : 
  (forall k, k <> (i * r2 + j)%Z -> aget U' k = aget U k) -> (forall k, k <> (i * r2 + j)%Z -> aget V' k = aget V k) ->
  (0 <= j < r2)%Z -> (0 <= snd a < r2)%Z -> a <> (i, j) -> vec r2 U' V' a = vec r2 U V a.
Proof.
  intros HU HV Hj Ha Hne. unfold vec, atR.
  assert (lin r2 a <> i * r2 + j)%Z.
  { intros E. apply Hne. apply (lin_inj r2); auto. }
  rewrite HU, HV by auto. reflexivity.
Qed.

Lemma ZZ_dec (x y : Z * Z) : {x = y} + {x <> y}.
Proof. repeat decide equality. Qed.

(** What a step must guarantee on a cell. *)
Definition cell_rel (keep : Prop) (t t' : (R * R) * (R * R) * (R * R)) : Prop :=
  let '(a, b, c) := t in let '(a', b', c') := t' in
  (has_cp a b c <-> has_cp a' b' c') /\ (keep -> has_cp a b c -> t = t').

Definition cell_vecs r2 U V (a b c : Z * Z) := (vec r2 U V a, vec r2 U V b, vec r2 U V c).

Lemma cell_rel_refl keep t : cell_rel keep t t.
Proof. destruct t as [[a b] c]. cbn. tauto. Qed.
Lemma cell_rel_trans keep t1 t2 t3 : cell_rel keep t1 t2 -> cell_rel keep t2 t3 -> cell_rel keep t1 t3.
Proof.
  destruct t1 as [[a b] c], t2 as [[a' b'] c'], t3 as [[a'' b''] c'']. cbn. intros [H1 K1] [H2 K2].
  split; [tauto|]. intros HK H. rewrite K1 by auto. apply K2; auto. tauto.
Qed.

(** A step at (i,j) which respects every triangle around (i,j) respects every cell. *)
Lemma step_cells (keep : Prop) r1 r2 U V U' V' i j :
  (0 <= i < r1)%Z -> (0 <= j < r2)%Z ->
  (forall k, k <> (i * r2 + j)%Z -> aget U' k = aget U k) -> (forall k, k <> (i * r2 + j)%Z -> aget V' k = aget V k) ->
  (forall k, (k < 6)%nat -> in_mesh r1 r2 i j k = true ->
     let a := vec r2 U V (nbr i j k 0) in let b := vec r2 U V (nbr i j k 1) in
     (has_cp a b (vec r2 U V (i, j)) <-> has_cp a b (vec r2 U' V' (i, j))) /\
     (keep -> ~ has_cp a b (vec r2 U V (i, j)))) ->
  forall a b c, cell r1 r2 a b c -> cell_rel keep (cell_vecs r2 U V a b c) (cell_vecs r2 U' V' a b c).
Proof.
  intros Hi Hj HU HV HK a b c HC.
  destruct (cell_points _ _ _ _ _ HC) as [ND HP].
  destruct (in_dec ZZ_dec (i, j) [a; b; c]) as [HI|HI].
  - destruct (table_complete _ _ _ _ _ _ _ HC HI) as (k & Hk & HM & HS). unfold same_cell in HS.
    destruct (HK k Hk HM) as [H1 H2].
    assert (E0 : vec r2 U' V' (nbr i j k 0) = vec r2 U V (nbr i j k 0)).
    { apply (vec_other r2 U V U' V' i j); auto.
      - rewrite Forall_forall in HP. apply HP. apply (Permutation_in _ (Permutation_sym HS)). left; auto.
      - intros E. assert (ND' := Permutation_NoDup HS ND). rewrite E in ND'. inversion ND'; subst.
        match goal with H : ~ In _ _ |- _ => apply H; right; left; auto end. }
    assert (E1 : vec r2 U' V' (nbr i j k 1) = vec r2 U V (nbr i j k 1)).
    { apply (vec_other r2 U V U' V' i j); auto.
      - rewrite Forall_forall in HP. apply HP. apply (Permutation_in _ (Permutation_sym HS)). right; left; auto.
      - intros E. assert (ND' := Permutation_NoDup HS ND). rewrite E in ND'. inversion ND' as [|? ? _ ND'']; subst.
        inversion ND''; subst. match goal with H : ~ In _ _ |- _ => apply H; left; auto end. }
    unfold cell_rel, cell_vecs.
    assert (P1 : has_cp (vec r2 U V a) (vec r2 U V b) (vec r2 U V c) <->
                 has_cp (vec r2 U V (nbr i j k 0)) (vec r2 U V (nbr i j k 1)) (vec r2 U V (i, j))).
    { split; apply has_cp_perm; auto. apply Permutation_sym; auto. }
    assert (P2 : has_cp (vec r2 U' V' a) (vec r2 U' V' b) (vec r2 U' V' c) <->
                 has_cp (vec r2 U V (nbr i j k 0)) (vec r2 U V (nbr i j k 1)) (vec r2 U' V' (i, j))).
    { rewrite <- E0, <- E1. split; apply has_cp_perm; auto. apply Permutation_sym; auto. }
    split; [tauto|]. intros K Y. exfalso. apply (H2 K). tauto.
  - assert (G : forall x, In x [a; b; c] -> vec r2 U' V' x = vec r2 U V x).
    { intros x Hx. apply (vec_other r2 U V U' V' i j); auto.
      - rewrite Forall_forall in HP. apply HP; auto.
      - intros ->. auto. }
    unfold cell_vecs. rewrite (G a), (G b), (G c) by (cbn; auto). apply cell_rel_refl.
Qed.

(** ** Absolute codec *)
Lemma abs_step max_eb r1 r2 U V U' V' i j c :
  (0 <= i < r1)%Z -> (0 <= j < r2)%Z -> allfin U -> allfin V ->
  outcome XA (required_eb_abs XA (Fin max_eb)) (fun _ eb => eb) r1 r2 U V i j U' V' c ->
  allfin U' /\ allfin V' /\
  forall a b d, cell r1 r2 a b d -> cell_rel True (cell_vecs r2 U V a b d) (cell_vecs r2 U' V' a b d).
Proof.
  intros Hi Hj FU FV HO. pose proof (outcome_local _ _ _ _ _ _ _ _ _ _ _ _ HO) as (_ & _ & GU & GV).
  destruct HO as [u v Eu Ev|u v eb id0 id1 q0 q1 x0 x1 U' V' Eu Ev Er Hp C0 C1 EU EV].
  - split; auto. split; auto. intros. apply cell_rel_refl.
  - pose proof (atR_fin _ _ _ FU Eu) as Fu. pose proof (atR_fin _ _ _ FV Ev) as Fv. subst u v.
    destruct (coded_exact _ _ _ _ _ _ _ _ _ FU C0) as (d0 & e0 & -> & -> & D0 & _).
    destruct (coded_exact _ _ _ _ _ _ _ _ _ FV C1) as (d1 & e1 & -> & He & D1 & _).
    inversion He; subst e1; clear He.
    split; [eapply allfin_aset; [exact FU|exact EU]|]. split; [eapply allfin_aset; [exact FV|exact EV]|].
    assert (A0 : atR U' (i * r2 + j) = d0).
    { unfold atR. rewrite (proj2 (proj2 (aset_Some _ _ _ _ EU))), Z.eqb_refl. reflexivity. }
    assert (A1 : atR V' (i * r2 + j) = d1).
    { unfold atR. rewrite (proj2 (proj2 (aset_Some _ _ _ _ EV))), Z.eqb_refl. reflexivity. }
    apply step_cells with (i := i) (j := j); auto.
    unfold required_eb_abs in Er. rewrite Eu, Ev in Er. cbn [bind] in Er.
    destruct (_ || _)%bool in Er.
    { apply Some_inj in Er. inversion Er; subst. cbn [dlt XA] in Hp. apply xlt_fin in Hp. cbn in Hp. lra. }
    set (e := Rmax (Rabs (d0 - atR U (i * r2 + j))) (Rabs (d1 - atR V (i * r2 + j)))).
    assert (HB : below e (Fin e0)) by (apply below_fin; unfold e; apply Rmax_lub_lt; auto).
    assert (He0 : 0 <= e) by (unfold e; eapply Rle_trans; [apply Rabs_pos|apply Rmax_l]).
    apply (req_loop_below _ _ _ _ _ _ _ e) in Er; auto; [|
      intros k v Hk HM Hv; apply in_six in Hk; apply (tri_values_vec _ _ _ _ _ _ _ Hk FU FV) in Hv; cbn zeta in Hv;
      rewrite Hv; apply derive_abs_sound | discriminate].
    destruct Er as [_ HK]. intros k Hk HM. apply in_six in Hk. destruct (HK k Hk HM) as (v & Hv & Bk).
    apply in_six in Hk. apply (tri_values_vec _ _ _ _ _ _ _ Hk FU FV) in Hv. cbn zeta in Hv. rewrite Hv in Bk.
    set (a := vec r2 U V (nbr i j k 0)) in *. set (b := vec r2 U V (nbr i j k 1)) in *.
    set (w := vec r2 U V (i, j)) in *.
    destruct (derive_abs_sound (fst a) (fst b) (fst w) (snd a) (snd b) (snd w)) as [_ HS].
    destruct (HS e (vec r2 U' V' (i, j)) He0 Bk) as [N1 N2].
    + unfold vec, w, lin. cbn [fst snd]. rewrite A0. apply Rmax_l.
    + unfold vec, w, lin. cbn [fst snd]. rewrite A1. apply Rmax_r.
    + rewrite <- !surjective_pairing in *. cbn zeta. split; [tauto|auto].
Qed.

(** ** Relative codec *)
Lemma inv_C_fin k : (k < 6)%nat ->
  exists c0 c1 c2 c3, inv_C XA k = (Fin c0, Fin c1, Fin c2, Fin c3) /\ (c0 + c1 <> 0 \/ c2 + c3 <> 0).
Proof.
  intros H. unfold inv_C, adjugate. cbn [tofZ tsub tmul tneg tdiv XA xsub xmul xneg].
  destruct k as [|[|[|[|[|[|k]]]]]]; [| | | | | |exfalso; lia]; unfold tab, tab_x, tab_y; cbn [nth];
    rewrite !xdiv_fin by lra; do 4 eexists; (split; [reflexivity|]); try (left; lra); try (right; lra).
Qed.

(** A change of the current vector by less than required_eb, relative to each component. *)
Lemma rel_change max_eb r1 r2 U V U' V' i j r d0 d1 :
  (0 <= i < r1)%Z -> (0 <= j < r2)%Z -> allfin U -> allfin V ->
  required_eb_rel XA (Fin max_eb) U V r1 r2 i j = Some (Fin r) ->
  atR U (i * r2 + j) <> 0 -> atR V (i * r2 + j) <> 0 ->
  Rabs (d0 - atR U (i * r2 + j)) < Rabs (atR U (i * r2 + j)) * r ->
  Rabs (d1 - atR V (i * r2 + j)) < Rabs (atR V (i * r2 + j)) * r ->
  aset U (i * r2 + j) (Fin d0) = Some U' -> aset V (i * r2 + j) (Fin d1) = Some V' ->
  forall a b d, cell r1 r2 a b d -> cell_rel False (cell_vecs r2 U V a b d) (cell_vecs r2 U' V' a b d).
Proof.
  intros Hi Hj FU FV Er Nu Nv T0 T1 EU EV.
  assert (GU : forall k, k <> (i * r2 + j)%Z -> aget U' k = aget U k).
  { intros k Hk. rewrite (proj2 (proj2 (aset_Some _ _ _ _ EU))). replace (k =? i * r2 + j)%Z with false by lia. auto. }
  assert (GV : forall k, k <> (i * r2 + j)%Z -> aget V' k = aget V k).
  { intros k Hk. rewrite (proj2 (proj2 (aset_Some _ _ _ _ EV))). replace (k =? i * r2 + j)%Z with false by lia. auto. }
  set (u := atR U (i * r2 + j)) in *. set (v := atR V (i * r2 + j)) in *.
    assert (A0 : atR U' (i * r2 + j) = d0).
    { unfold atR. rewrite (proj2 (proj2 (aset_Some _ _ _ _ EU))), Z.eqb_refl. reflexivity. }
    assert (A1 : atR V' (i * r2 + j) = d1).
    { unfold atR. rewrite (proj2 (proj2 (aset_Some _ _ _ _ EV))), Z.eqb_refl. reflexivity. }
    pose proof (Rabs_pos_lt _ Nu) as Pu. pose proof (Rabs_pos_lt _ Nv) as Pv.
    set (f0 := (d0 - u) / u). set (f1 := (d1 - v) / v).
    assert (R0 : Rabs f0 < r).
    { unfold f0, Rdiv. rewrite Rabs_mult, Rabs_inv. apply (Rmult_lt_reg_r (Rabs u)); auto.
      rewrite Rmult_assoc, Rinv_l by lra. lra. }
    assert (R1 : Rabs f1 < r).
    { unfold f1, Rdiv. rewrite Rabs_mult, Rabs_inv. apply (Rmult_lt_reg_r (Rabs v)); auto.
      rewrite Rmult_assoc, Rinv_l by lra. lra. }
    apply step_cells with (i := i) (j := j); auto.
    set (e := Rmax (Rabs f0) (Rabs f1)).
    assert (HB : below e (Fin r)) by (apply below_fin; unfold e; apply Rmax_lub_lt; auto).
    assert (He0 : 0 <= e) by (unfold e; eapply Rle_trans; [apply Rabs_pos|apply Rmax_l]).
    assert (SD : forall k, (k < 6)%nat -> let a := vec r2 U V (nbr i j k 0) in let b := vec r2 U V (nbr i j k 1) in
      rel_bound (fst a) (fst b) u (snd a) (snd b) v
        (derive_cp_eb_for_positions_online XA (Fin (fst a)) (Fin (fst b)) (Fin u) (Fin (snd a)) (Fin (snd b)) (Fin v)
                                           (inv_C XA k))).
    { intros k Hk a b. destruct (inv_C_fin k Hk) as (c0 & c1 & c2 & c3 & -> & Hc). apply derive_rel_sound; auto. }
    unfold required_eb_rel in Er. apply (req_loop_below _ _ _ _ _ _ _ e) in Er; auto; [|
      intros k w Hk HM Hv; apply in_six in Hk; apply (tri_values_vec _ _ _ _ _ _ _ Hk FU FV) in Hv; cbn zeta in Hv;
      rewrite Hv; apply (SD k Hk) | discriminate].
    destruct Er as [_ HK]. intros k Hk HM. apply in_six in Hk. destruct (HK k Hk HM) as (w & Hv & Bk).
    apply in_six in Hk. apply (tri_values_vec _ _ _ _ _ _ _ Hk FU FV) in Hv. cbn zeta in Hv. rewrite Hv in Bk.
    specialize (SD k Hk). cbn zeta in SD. destruct SD as [_ HS].
    specialize (HS e f0 f1 He0 Bk (Rmax_l _ _) (Rmax_r _ _)).
    replace (u * (1 + f0), v * (1 + f1)) with (vec r2 U' V' (i, j)) in HS.
    2:{ unfold vec, lin. cbn [fst snd]. rewrite A0, A1. unfold f0, f1. f_equal; field; auto. }
    rewrite <- !surjective_pairing in HS. cbn zeta. split; [exact HS|tauto].
Qed.

Lemma rel_step max_eb r1 r2 U V U' V' i j c :
  (0 <= i < r1)%Z -> (0 <= j < r2)%Z -> allfin U -> allfin V ->
  outcome XA (required_eb_rel XA (Fin max_eb)) (fun cur eb => dmul XA (t2d XA (tabs XA cur)) eb) r1 r2 U V i j U' V' c ->
  allfin U' /\ allfin V' /\
  forall a b d, cell r1 r2 a b d -> cell_rel False (cell_vecs r2 U V a b d) (cell_vecs r2 U' V' a b d).
Proof.
  intros Hi Hj FU FV HO. pose proof (outcome_local _ _ _ _ _ _ _ _ _ _ _ _ HO) as (_ & _ & GU & GV).
  destruct HO as [u v Eu Ev|u v eb id0 id1 q0 q1 x0 x1 U' V' Eu Ev Er Hp C0 C1 EU EV].
  - split; auto. split; auto. intros. apply cell_rel_refl.
  - pose proof (atR_fin _ _ _ FU Eu) as Fu. pose proof (atR_fin _ _ _ FV Ev) as Fv. subst u v.
    destruct (coded_exact _ _ _ _ _ _ _ _ _ FU C0) as (d0 & e0 & -> & E0 & D0 & T0).
    destruct (coded_exact _ _ _ _ _ _ _ _ _ FV C1) as (d1 & e1 & -> & E1 & D1 & T1).
    set (u := atR U (i * r2 + j)) in *. set (v := atR V (i * r2 + j)) in *.
    cbn [dmul t2d tabs XA xabs] in E0, E1.
    assert (HE : exists r, eb = Fin r).
    { destruct eb; eauto; exfalso; cbn [xmul] in E0; unfold xinf in E0;
        repeat match type of E0 with context [if ?b then _ else _] => destruct b end; discriminate. }
    destruct HE as [r ->]. cbn [xmul] in E0, E1. injection E0 as E0. injection E1 as E1.
    split; [eapply allfin_aset; [exact FU|exact EU]|]. split; [eapply allfin_aset; [exact FV|exact EV]|].
    assert (Nu : u <> 0) by (intros X; rewrite X, Rabs_R0 in E0; lra).
    assert (Nv : v <> 0) by (intros X; rewrite X, Rabs_R0 in E1; lra).
    apply (rel_change max_eb r1 r2 U V U' V' i j r d0 d1); auto; fold u v; lra.
Qed.

(** ** Whole field *)
Section Field.
Variables (req : list XR -> list XR -> Z -> Z -> Z -> Z -> option XR) (abs_eb : XR -> XR -> XR) (keep : Prop) (r1 r2 : Z).
Hypothesis step : forall U V U' V' i j c, (0 <= i < r1)%Z -> (0 <= j < r2)%Z -> allfin U -> allfin V ->
  outcome XA req abs_eb r1 r2 U V i j U' V' c ->
  allfin U' /\ allfin V' /\
  forall a b d, cell r1 r2 a b d -> cell_rel keep (cell_vecs r2 U V a b d) (cell_vecs r2 U' V' a b d).

Lemma field_cells U V U' V' c :
  (0 <= r1)%Z -> (0 < r2)%Z -> Z.of_nat (length U) = (r1 * r2)%Z -> Z.of_nat (length V) = (r1 * r2)%Z ->
  allfin U -> allfin V -> enc_field XA req abs_eb r1 r2 U V = Some (U', V', c) ->
  allfin U' /\ allfin V' /\
  forall a b d, cell r1 r2 a b d -> cell_rel keep (cell_vecs r2 U V a b d) (cell_vecs r2 U' V' a b d).
Proof.
  intros H1 H2 LU LV FU FV H.
  destruct (field_trace XA _ _ _ _ _ _ _ _ _ H1 H2 LU LV H) as (L1 & L2 & HT).
  assert (G : forall n : nat, (Z.of_nat n <= r1 * r2)%Z ->
    allfin (mix (Z.of_nat n) U' U) /\ allfin (mix (Z.of_nat n) V' V) /\
    forall a b d, cell r1 r2 a b d ->
      cell_rel keep (cell_vecs r2 U V a b d) (cell_vecs r2 (mix (Z.of_nat n) U' U) (mix (Z.of_nat n) V' V) a b d)).
  { induction n as [|n IH]; intros Hn.
    - cbn [Z.of_nat]. rewrite !mix_0. split; auto. split; auto. intros. apply cell_rel_refl.
    - destruct IH as (F1 & F2 & IC); [lia|]. set (p := Z.of_nat n) in *.
      assert (Hj : (0 <= p mod r2 < r2)%Z) by (apply Z.mod_pos_bound; auto).
      assert (Hi : (0 <= p / r2 < r1)%Z).
      { split; [apply Z.div_pos; lia|]. apply Z.div_lt_upper_bound; lia. }
      destruct (HT (p / r2)%Z (p mod r2)%Z Hi Hj) as [cq HO].
      replace (p / r2 * r2 + p mod r2)%Z with p in HO by (pose proof (Z.div_mod p r2); lia).
      destruct (step _ _ _ _ _ _ _ Hi Hj F1 F2 HO) as (F1' & F2' & SC).
      replace (Z.of_nat (S n)) with (p + 1)%Z by lia. split; auto. split; auto.
      intros a b d HC. eapply cell_rel_trans; [apply IC|apply SC]; auto. }
  destruct (G (Z.to_nat (r1 * r2)) ltac:(lia)) as (G1 & G2 & G3).
  assert (EU : mix (Z.of_nat (Z.to_nat (r1 * r2))) U' U = U') by (apply mix_all; [exact L1|eapply Z.le_trans; [apply Z.eq_le_incl; exact LU|lia]]).
  assert (EV : mix (Z.of_nat (Z.to_nat (r1 * r2))) V' V = V') by (apply mix_all; [exact L2|eapply Z.le_trans; [apply Z.eq_le_incl; exact LV|lia]]).
  rewrite EU in *. rewrite EV in *. auto.
Qed.
End Field.

(** The stream arrays decode to the final working copies (Sync2D.field_sync); [decode] is the loop of
    sz_decompress_cp_preserve_2d_online on them. *)
Definition decode (r1 r2 : Z) (c : code XR) : option (list XR * list XR) :=
  let n := Z.to_nat (r1 * r2) in
  let* (U, V) := dec_loop XA (dec_point XA 4 (eps_double XA) intv_radius r2) (scan2 r1 r2)
                          (repeat None n) (repeat None n) c in
  let* u := written U in
  let* v := written V in
  Some (u, v).

(** Field value of real arrays. *)
Definition vecR (r2 : Z) (u v : list R) (a : Z * Z) : R * R :=
  (nth (Z.to_nat (lin r2 a)) u 0%R, nth (Z.to_nat (lin r2 a)) v 0%R).

Lemma atR_map u k : (0 <= k)%Z -> atR (map Fin u) k = nth (Z.to_nat k) u 0.
Proof.
  intros H. unfold atR, aget. replace (k <? 0)%Z with false by lia. rewrite nth_error_map.
  destruct (nth_error u (Z.to_nat k)) eqn:E; cbn [option_map toR].
  - symmetry. apply nth_error_nth. auto.
  - symmetry. apply nth_overflow. apply nth_error_None. auto.
Qed.

Lemma vec_map r1 r2 u v a b c x : cell r1 r2 a b c -> In x [a; b; c] -> vec r2 (map Fin u) (map Fin v) x = vecR r2 u v x.
Proof.
  intros HC HI. destruct (cell_points _ _ _ _ _ HC) as [_ HP]. rewrite Forall_forall in HP. apply HP in HI.
  unfold vec, vecR. assert (0 <= lin r2 x)%Z by (unfold lin; nia). rewrite !atR_map by auto. reflexivity.
Qed.

Lemma decode_ok req abs_eb r1 r2 U V U' V' c :
  (0 <= r1)%Z -> (0 < r2)%Z -> Z.of_nat (length U) = (r1 * r2)%Z -> Z.of_nat (length V) = (r1 * r2)%Z ->
  enc_field XA req abs_eb r1 r2 U V = Some (U', V', c) -> decode r1 r2 c = Some (U', V').
Proof.
  intros H1 H2 LU LV H. destruct (field_sync XA _ _ _ _ _ _ _ _ _ H1 H2 LU LV H) as (_ & _ & _ & _ & dU & dV & E & W1 & W2).
  unfold decode. rewrite E. cbn [bind]. rewrite W1. cbn [bind]. rewrite W2. reflexivity.
Qed.

Theorem abs_preserves max_eb r1 r2 u v U' V' c :
  (0 <= r1)%Z -> (0 < r2)%Z -> Z.of_nat (length u) = (r1 * r2)%Z -> Z.of_nat (length v) = (r1 * r2)%Z ->
  enc_online_abs XA (Fin max_eb) r1 r2 (map Fin u) (map Fin v) = Some (U', V', c) ->
  exists u' v', decode r1 r2 c = Some (map Fin u', map Fin v') /\
  forall a b d, cell r1 r2 a b d ->
    let t w := has_cp (w a) (w b) (w d) in
    (t (vecR r2 u v) <-> t (vecR r2 u' v')) /\
    (t (vecR r2 u v) -> forall x, In x [a; b; d] -> vecR r2 u' v' x = vecR r2 u v x).
Proof.
  intros H1 H2 Lu Lv H. exists (map toR U'), (map toR V').
  destruct (field_cells _ _ True r1 r2 (fun U V U' V' i j c => abs_step max_eb r1 r2 U V U' V' i j c)
              (map Fin u) (map Fin v) U' V' c H1 H2 ltac:(rewrite map_length; auto) ltac:(rewrite map_length; auto)
              (allfin_map u) (allfin_map v) H) as (F1 & F2 & HC).
  rewrite <- (allfin_inv U' F1), <- (allfin_inv V' F2).
  split. { eapply decode_ok; eauto; rewrite map_length; auto. }
  intros a b d Hc t. specialize (HC a b d Hc). unfold cell_rel, cell_vecs in HC.
  rewrite (allfin_inv U' F1), (allfin_inv V' F2) in HC.
  assert (G : forall x y z, In z [a; b; d] -> vec r2 (map Fin x) (map Fin y) z = vecR r2 x y z)
    by (intros; eapply vec_map; eauto).
  rewrite !G in HC by (cbn; auto). destruct HC as [HC1 HC2]. split; [exact HC1|].
  intros Y x Hx. specialize (HC2 I Y). injection HC2 as E1 E2 E3 E4 E5 E6.
  unfold vecR. destruct Hx as [<-|[<-|[<-|[]]]]; f_equal; auto.
Qed.

Theorem rel_preserves max_eb r1 r2 u v U' V' c :
  (0 <= r1)%Z -> (0 < r2)%Z -> Z.of_nat (length u) = (r1 * r2)%Z -> Z.of_nat (length v) = (r1 * r2)%Z ->
  enc_online XA (Fin max_eb) r1 r2 (map Fin u) (map Fin v) = Some (U', V', c) ->
  exists u' v', decode r1 r2 c = Some (map Fin u', map Fin v') /\
  forall a b d, cell r1 r2 a b d ->
    (has_cp (vecR r2 u v a) (vecR r2 u v b) (vecR r2 u v d) <->
     has_cp (vecR r2 u' v' a) (vecR r2 u' v' b) (vecR r2 u' v' d)).
Proof.
  intros H1 H2 Lu Lv H. exists (map toR U'), (map toR V').
  destruct (field_cells _ _ False r1 r2 (fun U V U' V' i j c => rel_step max_eb r1 r2 U V U' V' i j c)
              (map Fin u) (map Fin v) U' V' c H1 H2 ltac:(rewrite map_length; auto) ltac:(rewrite map_length; auto)
              (allfin_map u) (allfin_map v) H) as (F1 & F2 & HC).
  rewrite <- (allfin_inv U' F1), <- (allfin_inv V' F2).
  split. { eapply decode_ok; eauto; rewrite map_length; auto. }
  intros a b d Hc. specialize (HC a b d Hc). unfold cell_rel, cell_vecs in HC.
  rewrite (allfin_inv U' F1), (allfin_inv V' F2) in HC.
  assert (G : forall x y z, In z [a; b; d] -> vec r2 (map Fin x) (map Fin y) z = vecR r2 x y z)
    by (intros; eapply vec_map; eauto).
  rewrite !G in HC by (cbn; auto). apply HC.
Qed.
