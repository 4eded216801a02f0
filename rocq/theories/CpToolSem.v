(** What an entry of the extraction programs says: position and type of the critical point, in exact arithmetic with exact ftk functions; the reports after
    the relative codecs. *)
From Coq Require Import Reals Lra Lia ZArith List Bool Permutation.
From Coq Require Import ZifyBool ZifyNat.
From Flocq Require Import Core.Core.
From Verif Require Import Base Arith Mesh2D Derive2D Codec2D Sync2D Trace2D Exact Total2D Cells2D Geo2D Preserve2D Type2D LogCells2D
  Mesh3D Derive3D Sync3D Cells3D Geo3D Preserve3D Sz3 Sz3Api CpTool CpToolProps CpToolApi CpToolCodec.
Import ListNotations.
Local Open Scope Z_scope.

(** *** Exact ftk functions, two dimensions *)
Definition xv2 (x : R * R) : XR * XR := (Fin (fst x), Fin (snd x)).
(** The weights of a success are those of the zero. *)
Definition weights2 (inv2 : tri2 XA -> option (XR * XR * XR)) : Prop := forall (x y z : R * R) m, inv2 (xv2 x, xv2 y, xv2 z) = Some m ->
  exists l0 l1 l2, m = (Fin l0, Fin l1, Fin l2) /\ (0 <= l0 /\ 0 <= l1 /\ 0 <= l2 /\ l0 + l1 + l2 = 1 /\
    l0 * fst x + l1 * fst y + l2 * fst z = 0 /\ l0 * snd x + l1 * snd y + l2 * snd z = 0)%R.
Definition lerps2 (lerp2 : tri2 XA -> XR * XR * XR -> XR * XR) : Prop := forall (p q s : R * R) l0 l1 l2,
  lerp2 (xv2 p, xv2 q, xv2 s) (Fin l0, Fin l1, Fin l2) = (Fin (l0 * fst p + l1 * fst q + l2 * fst s), Fin (l0 * snd p + l1 * snd q + l2 * snd s)).
(** Discriminant and eigenvalues of the Jacobian; [s]: which of the two real eigenvalues comes first. *)
Definition eigen2 (s : R) (eig2 : tri2 XA -> tri2 XA -> XR * XR * XR) : Prop := (s = 1 \/ s = -1)%R /\ forall (p0 p1 p2 w0 w1 w2 : R * R) J,
  ((fst p1 - fst p0) * (snd p2 - snd p0) - (fst p2 - fst p0) * (snd p1 - snd p0) <> 0)%R ->
  (forall p w, In (p, w) [(p1, w1); (p2, w2)] -> fst w - fst w0 = ux J * (fst p - fst p0) + uy J * (snd p - snd p0) /\
     snd w - snd w0 = vx J * (fst p - fst p0) + vy J * (snd p - snd p0))%R ->
  exists e0 e1, eig2 (xv2 p0, xv2 p1, xv2 p2) (xv2 w0, xv2 w1, xv2 w2) = (Fin (jdisc J), Fin e0, Fin e1) /\
    ((0 <= jdisc J)%R -> e0 = (jtr J + s * sqrt (jdisc J)) / 2 /\ e1 = (jtr J - s * sqrt (jdisc J)) / 2)%R /\
    ((jdisc J < 0)%R -> e0 = jtr J / 2 /\ e1 = jtr J / 2)%R.

(** The names of cp_extraction_2d.cpp:33-39. *)
Definition has_type (J : jac) (t : Z) : Prop :=
  (t = 3 /\ (jdet J < 0)%R) \/
  ((0 < jdet J)%R /\ ((t = 1 /\ (0 <= jdisc J /\ jtr J < 0)%R) \/ (t = 2 /\ (0 <= jdisc J /\ 0 < jtr J)%R) \/
    (t = 4 /\ (jdisc J < 0 /\ jtr J < 0)%R) \/ (t = 5 /\ (jdisc J < 0 /\ 0 < jtr J)%R) \/ (t = 6 /\ (jdisc J < 0 /\ jtr J = 0)%R))).

Lemma type_ok s J e0 e1 : (s = 1 \/ s = -1)%R -> jdet J <> 0%R ->
  ((0 <= jdisc J)%R -> e0 = (jtr J + s * sqrt (jdisc J)) / 2 /\ e1 = (jtr J - s * sqrt (jdisc J)) / 2)%R ->
  ((jdisc J < 0)%R -> e0 = jtr J / 2 /\ e1 = jtr J / 2)%R -> has_type J (cp_type2 XA (Fin (jdisc J)) (Fin e0) (Fin e1)).
Proof.
  intros Hs Hd HR HC. unfold cp_type2, has_type. cbn [dle dlt dmul dofZ XA xmul xle xlt].
  assert (HJ : (jdisc J = jtr J * jtr J - 4 * jdet J)%R) by reflexivity. set (t := jtr J) in *. set (d := jdet J) in *. set (q := jdisc J) in *. clearbody t d q.
  destruct (Rle_bool_spec 0 q) as [Hq|Hq].
  - destruct (HR Hq) as [E0 E1]. pose proof (sqrt_sqrt q Hq) as HS. pose proof (sqrt_pos q) as HP. set (rt := sqrt q) in *. clearbody rt. clear HR HC.
    assert (EP : (e0 * e1 = d)%R) by (subst e0 e1; destruct Hs as [-> | ->]; nra).
    destruct (Rlt_bool_spec (e0 * e1) 0) as [HM|HM]; [left; split; [auto|lra]|]. right. split; [lra|].
    assert (ES : (e0 + e1 = t)%R) by (subst e0 e1; lra). assert (Hd0 : (0 < d)%R) by lra.
    destruct (Rlt_bool_spec e0 0) as [H0|H0].
    + left. split; [auto|]. split; [auto|]. assert (e1 < 0)%R by nra. lra.
    + destruct (Rlt_bool_spec 0 e0) as [H1|H1].
      * right. left. split; [auto|]. split; [auto|]. assert (0 < e1)%R by nra. lra.
      * exfalso. assert (e0 = 0)%R by lra. subst e0. nra.
  - destruct (HC Hq) as [E0 E1]. clear HR HC. assert (Hd0 : (0 < d)%R) by nra. right. split; [auto|]. right. right.
    destruct (Rlt_bool_spec e0 0) as [H0|H0]; [left; split; [auto|lra]|]. right.
    destruct (Rlt_bool_spec 0 e0) as [H1|H1]; [left|right]; (split; [auto|lra]).
Qed.

(** *** Entries, two dimensions *)
Section Entry2.
Context (A : Arith).
Local Notation D := (D A).
Context (inv2 : tri2 A -> option (D * D * D)) (lerp2 : tri2 A -> D * D * D -> D * D) (eig2 : tri2 A -> tri2 A -> D * D * D).
(** Where an entry comes from. *)
Lemma entry_site U V r1 r2 m e : extract2 A inv2 lerp2 eig2 U V r1 r2 = Some m -> In e (map snd m) ->
  exists i j up k, In (i, j, up) (sites2 r1 r2) /\ site2 A inv2 lerp2 eig2 U V r2 (i, j, up) = Some (k, Some e).
Proof.
  intros H He. apply in_map_iff in He. destruct He as ([k e'] & <- & Hk). cbn [snd].
  assert (HN := run0_NoDup _ _ _ H). apply mfind_In in Hk; auto. destruct (run_only _ _ _ _ _ _ H Hk) as [X|([[i j] up] & HI & Es)]; [rewrite mfind_nil in X; discriminate|].
  exists i, j, up, k. auto.
Qed.
Lemma check2_fields v X i j k e : check_simplex2 A inv2 lerp2 eig2 v X i j k = Some e -> exists mu dl e0 e1, inv2 v = Some mu /\ eig2 X v = (dl, e0, e1) /\
  e_pos e = (dadd A (dofZ A j) (fst (lerp2 X mu)), dadd A (dofZ A i) (snd (lerp2 X mu))) /\ e_type e = cp_type2 A dl e0 e1.
Proof.
  unfold check_simplex2. destruct (_ || _ || _); [discriminate|]. destruct (inv2 v) as [mu|]; [|discriminate]. destruct (eig2 X v) as [[dl e0] e1].
  intros H. injection H as <-. exists mu, dl, e0, e1. auto.
Qed.
End Entry2.

(** A point and its weights. *)
Definition zero_at (w : Z * Z -> R * R) (a b d : Z * Z) (p : XR * XR) : Prop :=
  exists l0 l1 l2, (0 <= l0 /\ 0 <= l1 /\ 0 <= l2 /\ l0 + l1 + l2 = 1 /\
    l0 * fst (w a) + l1 * fst (w b) + l2 * fst (w d) = 0 /\ l0 * snd (w a) + l1 * snd (w b) + l2 * snd (w d) = 0)%R /\
    p = (Fin (l0 * IZR (snd a) + l1 * IZR (snd b) + l2 * IZR (snd d)), Fin (l0 * IZR (fst a) + l1 * IZR (fst b) + l2 * IZR (fst d))).

Definition X2r (up : bool) : (R * R) * (R * R) * (R * R) := if up then ((0, 0), (1, 0), (1, 1))%R else ((0, 0), (0, 1), (1, 1))%R.
Lemma X2d_r up : X2d XA up = (xv2 (fst (fst (X2r up))), xv2 (snd (fst (X2r up))), xv2 (snd (X2r up))).
Proof. destruct up; reflexivity. Qed.

Lemma site2_fields inv2 lerp2 eig2 u v r2 i j up k e : site2 XA inv2 lerp2 eig2 (map Fin u) (map Fin v) r2 (i, j, up) = Some (k, Some e) ->
  let w x := xv2 (vecR r2 u v x) in let t := (w (i, j), w (mid (i, j, up)), w (i + 1, j + 1)) in
  exists mu dl e0 e1, inv2 t = Some mu /\ eig2 (X2d XA up) t = (dl, e0, e1) /\
    e_pos e = (dadd XA (dofZ XA j) (fst (lerp2 (X2d XA up) mu)), dadd XA (dofZ XA i) (snd (lerp2 (X2d XA up) mu))) /\ e_type e = cp_type2 XA dl e0 e1.
Proof.
  intros H. apply site2_inv in H. destruct H as (_ & _ & va & vb & vd & Ea & Eb & Ed & Hc). symmetry in Hc.
  apply dvec2_fin in Ea, Eb, Ed. fold (xv2 (vecR r2 u v (i, j))) in Ea. fold (xv2 (vecR r2 u v (mid (i, j, up)))) in Eb. fold (xv2 (vecR r2 u v (i + 1, j + 1))) in Ed.
  subst va vb vd. apply check2_fields in Hc. exact Hc.
Qed.
Lemma entry2_pos inv2 lerp2 eig2 u v r2 i j up k e : weights2 inv2 -> lerps2 lerp2 ->
  site2 XA inv2 lerp2 eig2 (map Fin u) (map Fin v) r2 (i, j, up) = Some (k, Some e) ->
  zero_at (vecR r2 u v) (i, j) (mid (i, j, up)) (i + 1, j + 1) (e_pos e).
Proof.
  intros HW HL H. apply site2_fields in H. cbn zeta in H. destruct H as (mu & dl & e0 & e1 & Hm & He & Hp & Ht).
  destruct (HW _ _ _ _ Hm) as (l0 & l1 & l2 & -> & P). exists l0, l1, l2. split; [exact P|]. rewrite Hp, X2d_r, HL. destruct P as (_ & _ & _ & P & _).
  cbn [dadd dofZ XA xadd fst snd]. destruct up; cbn [X2r mid fst snd]; f_equal; f_equal; rewrite ?plus_IZR; nra.
Qed.
Lemma entry2_type s inv2 lerp2 eig2 u v r2 i j up k e : eigen2 s eig2 ->
  site2 XA inv2 lerp2 eig2 (map Fin u) (map Fin v) r2 (i, j, up) = Some (k, Some e) ->
  forall J, linear_part (vecR r2 u v) [(i, j); mid (i, j, up); (i + 1, j + 1)] J -> jdet J <> 0%R -> has_type J (e_type e).
Proof.
  intros [Hs HE] H J (u0 & v0 & HJ) Hd. apply site2_fields in H. cbn zeta in H. destruct H as (mu & dl & e0 & e1 & Hm & He & Hp & ->). rewrite X2d_r in He.
  destruct (HE (fst (fst (X2r up))) (snd (fst (X2r up))) (snd (X2r up)) (vecR r2 u v (i, j)) (vecR r2 u v (mid (i, j, up))) (vecR r2 u v (i + 1, j + 1)) J) as (f0 & f1 & Hf & Q & Q').
  - destruct up; cbn [X2r fst snd]; lra.
  - destruct (HJ (i, j)) as [A1 A2]; [cbn; auto|]. destruct (HJ (mid (i, j, up))) as [B1 B2]; [cbn; auto|]. destruct (HJ (i + 1, j + 1)) as [C1 C2]; [cbn; auto|].
    cbn [fst snd] in A1, A2, C1, C2. rewrite !plus_IZR in C1, C2.
    intros p w [Hpw|[Hpw|[]]]; injection Hpw as <- <-; destruct up; cbn [X2r mid fst snd] in *; rewrite ?plus_IZR in *; split; lra.
  - pose proof (eq_trans (eq_sym He) Hf) as Hq. injection Hq as -> -> ->. exact (type_ok s J f0 f1 Hs Hd Q Q').
Qed.

(** What an entry of a list of critical points says. *)
Definition meaning2 (r1 r2 : Z) (u v : list R) (e : entry (D XA * D XA)) : Prop :=
  exists a b d, examined2 r1 r2 a b d (e_id e) /\ zero_at (vecR r2 u v) a b d (e_pos e) /\
    forall J, linear_part (vecR r2 u v) [a; b; d] J -> jdet J <> 0%R -> has_type J (e_type e).
Theorem tool2_entries s inv2 lerp2 eig2 u v u' v' r1 r2 r : weights2 inv2 -> lerps2 lerp2 -> eigen2 s eig2 ->
  tool2 XA inv2 lerp2 eig2 (map Fin u) (map Fin v) (map Fin u') (map Fin v') r1 r2 = Some r ->
  (forall e, In e (r_origin r) -> meaning2 r1 r2 u v e) /\ (forall e, In e (r_decompressed r) -> meaning2 r1 r2 u' v' e).
Proof.
  intros HW HL HE H. apply tool2_inv in H. destruct H as (m0 & m1 & H0 & H1 & ->). cbn [compare_cps r_origin r_decompressed].
  assert (G : forall u v m, extract2 XA inv2 lerp2 eig2 (map Fin u) (map Fin v) r1 r2 = Some m -> forall e, In e (map snd m) -> meaning2 r1 r2 u v e).
  { intros x y m Hm e He. destruct (entry_site _ _ _ _ _ _ _ _ _ _ Hm He) as (i & j & up & k & Hs & Es). exists (i, j), (mid (i, j, up)), (i + 1, j + 1).
    rewrite (site2_e_id _ _ _ _ _ _ _ _ _ _ _ Hs Es). split; [apply site_examined; auto|].
    split; [eapply entry2_pos; eauto|eapply entry2_type; eauto]. }
  split; eapply G; eauto.
Qed.

(** *** After the relative codec: no lost, no added point; the type only changes where the Jacobian is singular *)
Lemma allfin_mix p w' w : 0 <= p -> length w' = length w -> allfin w' -> allfin w -> allfin (mix p w' w).
Proof. intros Hp L F F' k x H. rewrite aget_mix in H by auto. destruct (k <? p); eauto. Qed.

Lemma rel_zeros max_eb r1 r2 u v u' v' c : (max_eb <= 1)%R -> 0 <= r1 -> 0 < r2 -> Z.of_nat (length u) = r1 * r2 -> Z.of_nat (length v) = r1 * r2 ->
  enc_online XA (Fin max_eb) r1 r2 (map Fin u) (map Fin v) = Some (map Fin u', map Fin v', c) ->
  forall i j, 0 <= i < r1 -> 0 <= j < r2 -> vecR r2 u v (i, j) = (0, 0)%R <-> vecR r2 u' v' (i, j) = (0, 0)%R.
Proof.
  intros HM H1 H2 Lu Lv H i j Hi Hj.
  assert (Mu : Z.of_nat (length (map Fin u)) = r1 * r2) by (rewrite map_length; exact Lu).
  assert (Mv : Z.of_nat (length (map Fin v)) = r1 * r2) by (rewrite map_length; exact Lv).
  destruct (field_trace XA _ _ _ _ _ _ _ _ _ H1 H2 Mu Mv H) as (L1 & L2 & HT).
  destruct (HT i j Hi Hj) as [cq HO]. clear HT. change (T XA) with XR in HO. set (p := i * r2 + j) in *. assert (Hp : 0 <= p) by (unfold p; nia).
  assert (FU : allfin (mix p (map Fin u') (map Fin u))) by (apply allfin_mix; auto using allfin_map).
  assert (FV : allfin (mix p (map Fin v') (map Fin v))) by (apply allfin_mix; auto using allfin_map).
  assert (AU : atR (mix p (map Fin u') (map Fin u)) p = nth (Z.to_nat p) u 0%R).
  { unfold atR. rewrite aget_mix by auto. replace (p <? p) with false by lia. apply (atR_map u p Hp). }
  assert (AV : atR (mix p (map Fin v') (map Fin v)) p = nth (Z.to_nat p) v 0%R).
  { unfold atR. rewrite aget_mix by auto. replace (p <? p) with false by lia. apply (atR_map v p Hp). }
  assert (AU' : atR (mix (p + 1) (map Fin u') (map Fin u)) p = nth (Z.to_nat p) u' 0%R).
  { unfold atR. rewrite aget_mix by (auto; lia). replace (p <? p + 1) with true by lia. apply (atR_map u' p Hp). }
  assert (AV' : atR (mix (p + 1) (map Fin v') (map Fin v)) p = nth (Z.to_nat p) v' 0%R).
  { unfold atR. rewrite aget_mix by (auto; lia). replace (p <? p + 1) with true by lia. apply (atR_map v' p Hp). }
  unfold vecR, lin. cbn [fst snd]. fold p. rewrite <- AU, <- AV, <- AU', <- AV'. clear AU AV AU' AV'.
  set (MU := mix p (map Fin u') (map Fin u)) in *. set (MV := mix p (map Fin v') (map Fin v)) in *.
  set (MU' := mix (p + 1) (map Fin u') (map Fin u)) in *. set (MV' := mix (p + 1) (map Fin v') (map Fin v)) in *. clearbody MU MV MU' MV'.
  destruct HO as [x y Eu Ev|x y eb id0 id1 q0 q1 x0 x1 U1 V1 Eu Ev Er Hpos C0 C1 EU EV]; [tauto|]. fold p in Eu, Ev, EU, EV.
  pose proof (atR_fin _ _ _ FU Eu) as Fu. pose proof (atR_fin _ _ _ FV Ev) as Fv. subst x y.
  destruct (coded_exact _ _ _ _ _ _ _ _ _ FU C0) as (d0 & e0 & -> & E0 & D0 & T0).
  destruct (coded_exact _ _ _ _ _ _ _ _ _ FV C1) as (d1 & e1 & -> & E1 & D1 & T1).
  assert (A0 : atR U1 p = d0) by (unfold atR; rewrite (proj2 (proj2 (aset_Some _ _ _ _ EU))), Z.eqb_refl; reflexivity).
  assert (A1 : atR V1 p = d1) by (unfold atR; rewrite (proj2 (proj2 (aset_Some _ _ _ _ EV))), Z.eqb_refl; reflexivity).
  rewrite A0, A1. set (a := atR MU p) in *. set (b := atR MV p) in *. cbn [dmul t2d tabs XA xabs] in E0, E1.
  assert (HE : exists r, eb = Fin r).
  { destruct eb; eauto; exfalso; cbn [xmul] in E0; unfold xinf in E0;
      repeat match type of E0 with context [if ?b then _ else _] => destruct b end; discriminate. }
  destruct HE as [r ->]. cbn [xmul] in E0, E1. injection E0 as E0. injection E1 as E1.
  assert (Nu : a <> 0%R) by (intros X; rewrite X, Rabs_R0 in E0; lra).
  assert (Nv : b <> 0%R) by (intros X; rewrite X, Rabs_R0 in E1; lra).
  pose proof (req_rel_le _ _ _ _ _ _ _ _ FU FV Nu Nv Er) as HR.
  assert (N0 : d0 <> 0%R).
  { intros X. rewrite X, Rminus_0_l, Rabs_Ropp in D0. fold p in D0. fold a in D0. pose proof (Rabs_pos a). nra. }
  split; intros X; exfalso; injection X; congruence.
Qed.

Lemma same_has_type J J' t t' : same_type J J' -> jdet J <> 0%R -> has_type J t -> has_type J' t' -> t = t'.
Proof.
  intros (SD & ST) Hd H H'. unfold same_sign in *. unfold has_type in *.
  destruct (Rlt_dec 0 (jdet J)) as [P|P].
  - destruct (ST P) as [[S1 S2] [S3 S4]]. assert (P' : (0 < jdet J')%R) by tauto.
    assert (N1 : ~ (jdet J < 0)%R) by lra. assert (N2 : ~ (jdet J' < 0)%R) by lra.
    assert (D1 : (0 <= jdisc J)%R <-> (0 <= jdisc J')%R) by (split; intros; apply Rnot_lt_le; intros X; apply S4 in X; lra).
    assert (D2 : (jtr J = 0)%R <-> (jtr J' = 0)%R).
    { split; intros X; (destruct (Rtotal_order (jtr J) 0) as [Y|[Y|Y]]; destruct (Rtotal_order (jtr J') 0) as [Y'|[Y'|Y']]; try lra; exfalso;
        try (apply S1 in Y; lra); try (apply S2 in Y; lra); try (apply S1 in Y'; lra); try (apply S2 in Y'; lra)). }
    destruct H as [[-> H]|[_ H]]; [tauto|]. destruct H' as [[-> H']|[_ H']]; [tauto|].
    destruct H as [[-> [Q Q']]|[[-> [Q Q']]|[[-> [Q Q']]|[[-> [Q Q']]|[-> [Q Q']]]]]];
    destruct H' as [[-> [K K']]|[[-> [K K']]|[[-> [K K']]|[[-> [K K']]|[-> [K K']]]]]]; auto; exfalso;
    try (apply S4 in Q; lra); try (apply D1 in Q; lra); try (apply S1 in Q'; lra); try (apply S2 in Q'; lra); try (apply D2 in Q'; lra).
  - assert (N : (jdet J < 0)%R) by lra. assert (N' : (jdet J' < 0)%R) by tauto.
    destruct H as [[-> H]|[H _]]; [|lra]. destruct H' as [[-> H']|[H' _]]; [auto|lra].
Qed.

(** The report, given what the codec keeps. *)
Lemma report_kept r1 r2 u v u' v' :
  (forall a b d, cell r1 r2 a b d -> type_rel (vecR r2 u v) (vecR r2 u' v') a b d) ->
  (forall i j, 0 <= i < r1 -> 0 <= j < r2 -> vecR r2 u v (i, j) = (0, 0)%R <-> vecR r2 u' v' (i, j) = (0, 0)%R) ->
  forall s inv2 lerp2 eig2 r, exact2 inv2 -> eigen2 s eig2 ->
  tool2 XA inv2 lerp2 eig2 (map Fin u) (map Fin v) (map Fin u') (map Fin v') r1 r2 = Some r ->
  r_fn r = [] /\ r_fp r = [] /\
  forall e, In e (r_ft r) -> exists a b d J, examined2 r1 r2 a b d (e_id e) /\ has_cp (vecR r2 u v a) (vecR r2 u v b) (vecR r2 u v d) /\
    linear_part (vecR r2 u v) [a; b; d] J /\ jdet J = 0%R.
Proof.
  intros HT HZ s inv2 lerp2 eig2 r HX HE H. apply tool2_inv in H. destruct H as (m0 & m1 & H0 & H1 & ->).
  set (U := map Fin u) in *. set (V := map Fin v) in *. set (U' := map Fin u') in *. set (V' := map Fin v') in *.
  destruct (report_sites _ _ _ _ _ H0 H1 (fun s k o k' o' => site2_key XA inv2 lerp2 eig2 U V U' V' r2 s k o k' o') (fun s s' k o o' => site2_inj XA inv2 lerp2 eig2 U V r1 r2 s s' k o o'))
    as (Hfn & Hfp & Hft). cbn zeta in *.
  assert (Z2 : forall p : R * R, zero2 XA (Fin (fst p), Fin (snd p)) = true <-> p = (0, 0)%R).
  { intros [x y]. unfold zero2. cbn [fst snd deq dofZ XA]. rewrite andb_true_iff. split.
    - intros [X Y]. apply xeq_fin in X, Y. congruence.
    - intros X. injection X as -> ->. split; apply xeq_fin; reflexivity. }
  assert (G : forall i j up k o k' o', In (i, j, up) (sites2 r1 r2) -> site2 XA inv2 lerp2 eig2 U V r2 (i, j, up) = Some (k, o) ->
      site2 XA inv2 lerp2 eig2 U' V' r2 (i, j, up) = Some (k', o') -> (o <> None <-> o' <> None)).
  { intros i j up k o k' o' Hs E E'. pose proof (examined2_cell _ _ _ _ _ _ (site_examined _ _ _ _ _ Hs)) as HC.
    apply in_sites2 in Hs. destruct Hs as [Hi Hj]. apply site2_inv in E, E'.
    destruct E as (_ & _ & va & vb & vd & Ea & Eb & Ed & ->), E' as (_ & _ & va' & vb' & vd' & Ea' & Eb' & Ed' & ->).
    apply dvec2_fin in Ea, Eb, Ed, Ea', Eb', Ed'. subst. rewrite !check2_detects. unfold exact2 in HX. rewrite !HX.
    destruct (HT _ _ _ HC) as [K _]. rewrite K. rewrite <- !not_true_iff_false, !Z2.
    assert (Zm : vecR r2 u v (mid (i, j, up)) = (0, 0)%R <-> vecR r2 u' v' (mid (i, j, up)) = (0, 0)%R) by (destruct up; apply HZ; lia).
    rewrite (HZ i j), (HZ (i + 1) (j + 1)), Zm by lia. tauto. }
  assert (N : forall l : list (entry (XR * XR)), (forall e, In e l -> False) -> l = []) by (intros [|e l] Hl; [auto|exfalso; apply (Hl e); left; auto]).
  split; [|split].
  - apply N. intros e He. destruct (Hfn e He) as ([[i j] up] & k & Hs & E & E'). destruct (G _ _ _ _ _ _ _ Hs E E') as [X _]. apply X; [discriminate|reflexivity].
  - apply N. intros e He. destruct (Hfp e He) as ([[i j] up] & k & Hs & E & E'). destruct (G _ _ _ _ _ _ _ Hs E' E) as [_ X]. apply X; [discriminate|reflexivity].
  - intros e He. destruct (Hft e He) as ([[i j] up] & k & e0 & Hs & E & E' & Hne).
    pose proof (site_examined _ _ _ _ _ Hs) as HS. pose proof (examined2_cell _ _ _ _ _ _ HS) as HC.
    destruct (cell_jac r1 r2 _ _ _ (vecR r2 u v) HC) as [J HJ]. destruct (cell_jac r1 r2 _ _ _ (vecR r2 u' v') HC) as [J' HJ'].
    exists (i, j), (mid (i, j, up)), (i + 1, j + 1), J. rewrite (site2_e_id _ _ _ _ _ _ _ _ _ _ _ Hs E'). split; [exact HS|].
    assert (HP : has_cp (vecR r2 u v (i, j)) (vecR r2 u v (mid (i, j, up))) (vecR r2 u v (i + 1, j + 1))).
    { apply HX. destruct (site2_fields _ _ _ _ _ _ _ _ _ _ _ E) as (mu & _ & _ & _ & Hm & _). intros X. pose proof (eq_trans (eq_sym Hm) X) as Q. cbv beta in Q. discriminate Q. }
    split; [exact HP|]. split; [exact HJ|].
    destruct (Req_dec (jdet J) 0) as [X|X]; [auto|exfalso]. apply Hne. destruct (HT _ _ _ HC) as [_ K]. pose proof (K HP J J' HJ HJ') as ST.
    assert (X' : jdet J' <> 0%R).
    { destruct ST as [[S1 S2] _]. intros Y. destruct (Rtotal_order (jdet J) 0) as [Q|[Q|Q]]; [apply S2 in Q|auto|apply S1 in Q]; lra. }
    eapply same_has_type; [exact ST|exact X|eapply entry2_type; eauto|eapply entry2_type; eauto].
Qed.

Theorem tool2_relative max_eb r1 r2 u v U' V' c : (max_eb <= 1)%R -> 0 <= r1 -> 0 < r2 -> Z.of_nat (length u) = r1 * r2 -> Z.of_nat (length v) = r1 * r2 ->
  enc_online XA (Fin max_eb) r1 r2 (map Fin u) (map Fin v) = Some (U', V', c) ->
  exists u' v', decode r1 r2 c = Some (map Fin u', map Fin v') /\ forall s inv2 lerp2 eig2 r, exact2 inv2 -> eigen2 s eig2 ->
    tool2 XA inv2 lerp2 eig2 (map Fin u) (map Fin v) (map Fin u') (map Fin v') r1 r2 = Some r ->
    r_fn r = [] /\ r_fp r = [] /\
    forall e, In e (r_ft r) -> exists a b d J, examined2 r1 r2 a b d (e_id e) /\ has_cp (vecR r2 u v a) (vecR r2 u v b) (vecR r2 u v d) /\
      linear_part (vecR r2 u v) [a; b; d] J /\ jdet J = 0%R.
Proof.
  intros HM H1 H2 Lu Lv H.
  destruct (field_types _ _ r1 r2 (fun U V U' V' i j c => type_step max_eb r1 r2 U V U' V' i j c)
              (map Fin u) (map Fin v) U' V' c H1 H2 ltac:(rewrite map_length; auto) ltac:(rewrite map_length; auto)
              (allfin_map u) (allfin_map v) H) as (F1 & F2 & _).
  destruct (rel_keeps_types _ _ _ _ _ _ _ _ H1 H2 Lu Lv H) as (u' & v' & E & K). exists u', v'. split; [exact E|].
  assert (E' : decode r1 r2 c = Some (U', V')) by (eapply decode_ok; eauto; rewrite map_length; auto).
  rewrite E in E'. injection E' as <- <-. eapply report_kept; [exact K|]. eapply rel_zeros; eauto.
Qed.

(** *** Entries, three dimensions *)
Definition weights3 (inv3 : tet3 XA -> option (XR * XR * XR * XR)) : Prop := forall (x y z t : V3) m, inv3 (xv3 x, xv3 y, xv3 z, xv3 t) = Some m ->
  exists l0 l1 l2 l3, m = (Fin l0, Fin l1, Fin l2, Fin l3) /\ (0 <= l0 /\ 0 <= l1 /\ 0 <= l2 /\ 0 <= l3 /\ l0 + l1 + l2 + l3 = 1 /\
    l0 * cx x + l1 * cx y + l2 * cx z + l3 * cx t = 0 /\ l0 * cy x + l1 * cy y + l2 * cy z + l3 * cy t = 0 /\
    l0 * cz x + l1 * cz y + l2 * cz z + l3 * cz t = 0)%R.
Definition lerps3 (lerp3 : tet3 XA -> XR * XR * XR * XR -> XR * XR * XR) : Prop := forall (p q s t : V3) l0 l1 l2 l3,
  lerp3 (xv3 p, xv3 q, xv3 s, xv3 t) (Fin l0, Fin l1, Fin l2, Fin l3) =
    (Fin (l0 * cx p + l1 * cx q + l2 * cx s + l3 * cx t), Fin (l0 * cy p + l1 * cy q + l2 * cy s + l3 * cy t),
     Fin (l0 * cz p + l1 * cz q + l2 * cz s + l3 * cz t)).
(** Matrices by rows; trace, sum of the principal minors, determinant. *)
Definition M3 : Type := V3 * V3 * V3.
Definition row (m : M3) (n : nat) : V3 := match n with 0 => fst (fst m) | 1 => snd (fst m) | _ => snd m end%nat.
Definition app3 (m : M3) (x : V3) : V3 :=
  let f r := (cx r * cx x + cy r * cy x + cz r * cz x)%R in (f (row m 0), f (row m 1), f (row m 2)).
Definition tr3 (m : M3) : R := (cx (row m 0) + cy (row m 1) + cz (row m 2))%R.
Definition min3 (m : M3) : R :=
  (cx (row m 0) * cy (row m 1) - cy (row m 0) * cx (row m 1) + (cx (row m 0) * cz (row m 2) - cz (row m 0) * cx (row m 2)) +
   (cy (row m 1) * cz (row m 2) - cz (row m 1) * cy (row m 2)))%R.
Definition det3 (m : M3) : R :=
  (cx (row m 0) * (cy (row m 1) * cz (row m 2) - cz (row m 1) * cy (row m 2)) - cy (row m 0) * (cx (row m 1) * cz (row m 2) - cz (row m 1) * cx (row m 2)) +
   cz (row m 0) * (cx (row m 1) * cy (row m 2) - cy (row m 1) * cx (row m 2)))%R.
(** [l]: the real parts of the roots of z^3 - t z^2 + m z - d; [sp]: two of the roots are not real. *)
Definition has_roots (t m d : R) (sp : bool) (l : list R) : Prop :=
  if sp then exists z x y, (y <> 0 /\ t = z + 2 * x /\ m = 2 * (z * x) + (x * x + y * y) /\ d = z * (x * x + y * y))%R /\ Permutation l [z; x; x]
  else exists x y z, (t = x + y + z /\ m = x * y + y * z + z * x /\ d = x * y * z)%R /\ Permutation l [x; y; z].
Definition vsub (x y : V3) : V3 := (cx x - cx y, cy x - cy y, cz x - cz y)%R.
(** The matrix with the columns x, y, z. *)
Definition cols (x y z : V3) : M3 := ((cx x, cx y, cx z), (cy x, cy y, cy z), (cz x, cz y, cz z)).
Definition mul3 (a b : M3) : M3 :=
  let col f := (f (row b 0), f (row b 1), f (row b 2)) in
  let c0 := app3 a (col cx) in let c1 := app3 a (col cy) in let c2 := app3 a (col cz) in cols c0 c1 c2.
(** matrix_inverse3x3, matrix3x3_matrix3x3_multiplication, characteristic_polynomial_3x3, solve_cubic on exact data: the roots of the characteristic
    polynomial of K = X_^-1 U_; [dsc]: the discriminant as a function of the coefficients. *)
Definition roots_ok (dsc : R -> R -> R -> R) (roots3 : tet3 XA -> tet3 XA -> XR * (XR * XR * XR)) : Prop := forall (p q s t a b c d : V3) K,
  det3 (cols (vsub p t) (vsub q t) (vsub s t)) <> 0%R ->
  mul3 (cols (vsub p t) (vsub q t) (vsub s t)) K = cols (vsub a d) (vsub b d) (vsub c d) ->
  exists x y z, roots3 (xv3 p, xv3 q, xv3 s, xv3 t) (xv3 a, xv3 b, xv3 c, xv3 d) = (Fin (dsc (tr3 K) (min3 K) (det3 K)), (Fin x, Fin y, Fin z)) /\
    has_roots (tr3 K) (min3 K) (det3 K) (Rlt_bool 0 (dsc (tr3 K) (min3 K) (det3 K))) [x; y; z].
(** [J]: the Jacobian, x the last grid coordinate, z the first. *)
Definition pos3 (x : pt) : V3 := (IZR (snd x), IZR (snd (fst x)), IZR (fst (fst x))).
Definition linear_part3 (w : pt -> V3) (l : list pt) (J : M3) : Prop := exists o, forall x, In x l -> w x = (cx o + cx (app3 J (pos3 x)), cy o + cy (app3 J (pos3 x)), cz o + cz (app3 J (pos3 x)))%R.
Definition zero_at3 (w : pt -> V3) (a b c d : pt) (p : XR * XR * XR) : Prop :=
  exists l0 l1 l2 l3, (0 <= l0 /\ 0 <= l1 /\ 0 <= l2 /\ 0 <= l3 /\ l0 + l1 + l2 + l3 = 1 /\
    l0 * cx (w a) + l1 * cx (w b) + l2 * cx (w c) + l3 * cx (w d) = 0 /\ l0 * cy (w a) + l1 * cy (w b) + l2 * cy (w c) + l3 * cy (w d) = 0 /\
    l0 * cz (w a) + l1 * cz (w b) + l2 * cz (w c) + l3 * cz (w d) = 0)%R /\
    p = (Fin (l0 * cx (pos3 a) + l1 * cx (pos3 b) + l2 * cx (pos3 c) + l3 * cx (pos3 d)), Fin (l0 * cy (pos3 a) + l1 * cy (pos3 b) + l2 * cy (pos3 c) + l3 * cy (pos3 d)),
         Fin (l0 * cz (pos3 a) + l1 * cz (pos3 b) + l2 * cz (pos3 c) + l3 * cz (pos3 d))).
Definition negatives (l : list R) : Z := Z.of_nat (length (filter (fun x => Rlt_bool x 0) l)).
(** The names of cp_extraction_3d.cpp:30-38: 0 singular; 1, 3, 5, 7: three real eigenvalues, 0, 1, 2, 3 of them negative; 2, 4, 6, 8: two complex eigenvalues. *)
Definition has_type3 (dsc : R -> R -> R -> R) (J : M3) (t : Z) : Prop :=
  let dl := dsc (tr3 J) (min3 J) (det3 J) in
  ((Rabs dl < / 4503599627370496)%R -> t = 0) /\
  ((/ 4503599627370496 <= Rabs dl)%R -> exists l, has_roots (tr3 J) (min3 J) (det3 J) (Rlt_bool 0 dl) l /\ t = 1 + 2 * negatives l + (if Rlt_bool 0 dl then 1 else 0)).

Definition TCr : list (V3 * V3 * V3 * V3) :=
  [ ((0, 0, 0), (0, 0, 1), (0, 1, 1), (1, 1, 1)); ((0, 0, 0), (0, 1, 0), (0, 1, 1), (1, 1, 1)); ((0, 0, 0), (0, 0, 1), (1, 0, 1), (1, 1, 1));
    ((0, 0, 0), (1, 0, 0), (1, 0, 1), (1, 1, 1)); ((0, 0, 0), (0, 1, 0), (1, 1, 0), (1, 1, 1)); ((0, 0, 0), (1, 0, 0), (1, 1, 0), (1, 1, 1)) ]%R.
Definition vadd (x y : V3) : V3 := (cx x + cx y, cy x + cy y, cz x + cz y)%R.
Lemma tet_geometry x n a b c d X : nth_error (cube_tets x) n = Some (a, b, c, d) -> nth_error (tet_coords XA) n = Some X ->
  exists p q s t, nth_error TCr n = Some (p, q, s, t) /\ X = (xv3 p, xv3 q, xv3 s, xv3 t) /\
    pos3 a = vadd (pos3 x) p /\ pos3 b = vadd (pos3 x) q /\ pos3 c = vadd (pos3 x) s /\ pos3 d = vadd (pos3 x) t.
Proof.
  destruct x as [[i j] k]. intros H HX.
  destruct n as [|[|[|[|[|[|n]]]]]]; [| | | | | |destruct n; discriminate]; cbn [cube_tets tet_coords nth_error] in H, HX;
    injection H as <- <- <- <-; injection HX as <-; do 4 eexists; (split; [reflexivity|]); (split; [reflexivity|]);
    unfold pos3, vadd, cx, cy, cz; cbn [fst snd]; rewrite ?plus_IZR; repeat split; f_equal; try f_equal; ring.
Qed.
Local Ltac solve_sim :=
  cbv beta iota zeta delta [mul3 app3 cols vsub row tr3 min3 det3 cx cy cz fst snd];
  split; [apply (f_equal2 pair); [apply (f_equal2 pair)|]; (apply (f_equal2 pair); [apply (f_equal2 pair)|]); ring|]; split; [ring|]; split; ring.
Lemma similar n p q s t J : nth_error TCr n = Some (p, q, s, t) -> let X := cols (vsub p t) (vsub q t) (vsub s t) in
  det3 X <> 0%R /\ exists K, mul3 X K = mul3 J X /\ tr3 K = tr3 J /\ min3 K = min3 J /\ det3 K = det3 J.
Proof.
  intros H. destruct J as [[[[j0 j1] j2] [[j3 j4] j5]] [[j6 j7] j8]].
  destruct n as [|[|[|[|[|[|n]]]]]]; [| | | | | |destruct n; discriminate]; cbn [TCr nth_error] in H; injection H as <- <- <- <-; cbn zeta;
  (split; [cbv beta iota zeta delta [cols vsub row det3 cx cy cz fst snd]; lra|]).
  - exists ((j6 + j7 + j8, j6 + j7, j6), (j3 + j4 + j5 - j6 - j7 - j8, j3 + j4 - j6 - j7, j3 - j6), (j0 + j1 + j2 - j3 - j4 - j5, j0 + j1 - j3 - j4, j0 - j3))%R. solve_sim.
  - exists ((j3 + j4 + j5, j3 + j5, j3), (-j3 - j4 - j5 + j6 + j7 + j8, -j3 - j5 + j6 + j8, -j3 + j6), (j0 + j1 + j2 - j6 - j7 - j8, j0 + j2 - j6 - j8, j0 - j6))%R. solve_sim.
  - exists ((j6 + j7 + j8, j6 + j7, j7), (j0 + j1 + j2 - j6 - j7 - j8, j0 + j1 - j6 - j7, j1 - j7), (-j0 - j1 - j2 + j3 + j4 + j5, -j0 - j1 + j3 + j4, -j1 + j4))%R. solve_sim.
  - exists ((j0 + j1 + j2, j1 + j2, j1), (-j0 - j1 - j2 + j6 + j7 + j8, -j1 - j2 + j7 + j8, -j1 + j7), (j3 + j4 + j5 - j6 - j7 - j8, j4 + j5 - j7 - j8, j4 - j7))%R. solve_sim.
  - exists ((j3 + j4 + j5, j3 + j5, j5), (j0 + j1 + j2 - j3 - j4 - j5, j0 + j2 - j3 - j5, j2 - j5), (-j0 - j1 - j2 + j6 + j7 + j8, -j0 - j2 + j6 + j8, -j2 + j8))%R. solve_sim.
  - exists ((j0 + j1 + j2, j1 + j2, j2), (-j0 - j1 - j2 + j3 + j4 + j5, -j1 - j2 + j4 + j5, -j2 + j5), (-j3 - j4 - j5 + j6 + j7 + j8, -j4 - j5 + j7 + j8, -j5 + j8))%R. solve_sim.
Qed.

Lemma check3_fields A inv3 lerp3 roots3 v X x k e : check_simplex3 A inv3 lerp3 roots3 v X x k = Some e -> exists mu, inv3 v = Some mu /\
  e_pos e = (dadd A (dofZ A (snd x)) (fst (fst (lerp3 X mu))), dadd A (dofZ A (snd (fst x))) (snd (fst (lerp3 X mu))), dadd A (dofZ A (fst (fst x))) (snd (lerp3 X mu))) /\
  e_type e = cp_type3 A roots3 X v.
Proof.
  destruct v as [[[v0 v1] v2] v3]. unfold check_simplex3. destruct (_ || _ || _ || _); [discriminate|]. destruct (inv3 (v0, v1, v2, v3)) as [mu|]; [|discriminate].
  destruct x as [[i j] k0]. intros H. injection H as <-. exists mu. auto.
Qed.
Lemma type3_ok dsc roots3 X v J x y z : let dl := dsc (tr3 J) (min3 J) (det3 J) in roots3 X v = (Fin dl, (Fin x, Fin y, Fin z)) ->
  has_roots (tr3 J) (min3 J) (det3 J) (Rlt_bool 0 dl) [x; y; z] -> has_type3 dsc J (cp_type3 XA roots3 X v).
Proof.
  intros dl H HR. unfold has_type3. fold dl. unfold cp_type3. rewrite H. cbn [dlt dabs dofZ eps_double XA xlt xabs]. split.
  - intros L. rewrite Rlt_bool_true by auto. reflexivity.
  - intros L. rewrite (Rlt_bool_false (Rabs dl)) by exact L. exists [x; y; z]. split; [exact HR|]. unfold negatives. cbn [filter].
    change (IZR 0) with 0%R. destruct (Rlt_bool x 0), (Rlt_bool y 0), (Rlt_bool z 0), (Rlt_bool 0 dl); reflexivity.
Qed.

Definition meaning3 (dsc : R -> R -> R -> R) (r1 r2 r3 : Z) (u v w : list R) (e : entry (vecd3 XA)) : Prop :=
  exists a b c d, examined3 r1 r2 r3 a b c d (e_id e) /\ zero_at3 (vecR3 r2 r3 u v w) a b c d (e_pos e) /\
    forall J, linear_part3 (vecR3 r2 r3 u v w) [a; b; c; d] J -> has_type3 dsc J (e_type e).
Theorem tool3_entries dsc inv3 lerp3 roots3 u v w u' v' w' r1 r2 r3 r : weights3 inv3 -> lerps3 lerp3 -> roots_ok dsc roots3 -> 6 * (r1 * r2 * r3) <= 2 ^ 31 ->
  tool3 XA inv3 lerp3 roots3 (map Fin u) (map Fin v) (map Fin w) (map Fin u') (map Fin v') (map Fin w') r1 r2 r3 = Some r ->
  (forall e, In e (r_origin r) -> meaning3 dsc r1 r2 r3 u v w e) /\ (forall e, In e (r_decompressed r) -> meaning3 dsc r1 r2 r3 u' v' w' e).
Proof.
  intros HW HL HR HS H. apply tool3_inv in H. destruct H as (m0 & m1 & H0 & H1 & ->). cbn [compare_cps r_origin r_decompressed].
  assert (G : forall u v w m, run_sites (site3 XA inv3 lerp3 roots3 (map Fin u) (map Fin v) (map Fin w) r2 r3) (sites3 r1 r2 r3) [] = Some m ->
    forall e, In e (map snd m) -> meaning3 dsc r1 r2 r3 u v w e); [|split; eapply G; eauto].
  clear - HW HL HR HS. intros u v w m Hm e He.
  apply in_map_iff in He. destruct He as ([k e'] & <- & Hk). cbn [snd].
  assert (HN := run0_NoDup _ _ _ Hm). apply mfind_In in Hk; auto. destruct (run_only _ _ _ _ _ _ Hm Hk) as [X|([x n] & HI & Es)]; [rewrite mfind_nil in X; discriminate|].
  pose proof Es as Es'. apply site3_inv in Es'. destruct Es' as (_ & a & b & c & d & X & va & vb & vc & vd & Ht & HX & Ea & Eb & Ec & Ed & Hc). symmetry in Hc.
  exists a, b, c, d. split; [exact (site3_e_id XA inv3 lerp3 roots3 _ _ _ _ _ _ _ _ _ _ _ _ _ _ HS HI Es Ht)|].
  destruct (tet_geometry _ _ _ _ _ _ _ Ht HX) as (p & q & s & t & HT & -> & Pa & Pb & Pc & Pd).
  apply dvec3_fin in Ea, Eb, Ec, Ed. subst va vb vc vd. apply check3_fields in Hc. destruct Hc as (mu & Hi & Hp & Hty). split.
  - destruct (HW _ _ _ _ _ Hi) as (l0 & l1 & l2 & l3 & -> & P). exists l0, l1, l2, l3. split; [exact P|]. rewrite Hp, HL, Pa, Pb, Pc, Pd. destruct P as (_ & _ & _ & _ & P & _).
    assert (P' : l3 = (1 - l0 - l1 - l2)%R) by lra. subst l3. destruct x as [[i j] k0]. unfold vadd, pos3, cx, cy, cz. cbn [dadd dofZ XA xadd fst snd].
    f_equal; [f_equal|]; f_equal; ring.
  - intros J (o & HJ). destruct (similar n p q s t J HT) as (HD & K & HK & K1 & K2 & K3). rewrite Hty.
    destruct (HR p q s t (vecR3 r2 r3 u v w a) (vecR3 r2 r3 u v w b) (vecR3 r2 r3 u v w c) (vecR3 r2 r3 u v w d) K HD) as (y0 & y1 & y2 & Hy & HRt).
    + rewrite HK, (HJ a), (HJ b), (HJ c), (HJ d) by (cbn; auto). rewrite Pa, Pb, Pc, Pd.
      cbv beta iota zeta delta [mul3 cols vsub app3 vadd row cx cy cz fst snd].
      apply (f_equal2 pair); [apply (f_equal2 pair)|]; (apply (f_equal2 pair); [apply (f_equal2 pair)|]); ring.
    + rewrite K1, K2, K3 in Hy, HRt. exact (type3_ok dsc roots3 _ _ J y0 y1 y2 Hy HRt).
Qed.

(** *** Kept and changed types *)
Lemma types_split {P S} (f0 f1 : S -> option (Z * option (entry P))) l m0 m1 : run_sites f0 l [] = Some m0 -> run_sites f1 l [] = Some m1 ->
  (forall s k e, In s l -> f0 s = Some (k, Some e) -> e_id e = k mod 2 ^ 64) -> (forall s k e, In s l -> f1 s = Some (k, Some e) -> e_id e = k mod 2 ^ 64) ->
  let r := compare_cps m0 m1 in
  (forall e, In e (r_tp r) -> In e (r_decompressed r) /\ exists e0, In e0 (r_origin r) /\ e_id e0 = e_id e /\ e_type e0 = e_type e) /\
  (forall e, In e (r_ft r) -> In e (r_decompressed r) /\ exists e0, In e0 (r_origin r) /\ e_id e0 = e_id e /\ e_type e0 <> e_type e).
Proof.
  intros H0 H1 I0 I1. pose proof (run0_NoDup _ _ _ H0) as N0. pose proof (run0_NoDup _ _ _ H1) as N1.
  assert (G : forall k e0 c, In (k, e0) m0 -> mfind k m1 = Some c -> In c (map snd m1) /\ In e0 (map snd m0) /\ e_id e0 = e_id c).
  { intros k e0 c Hk Hc. pose proof Hc as Hc'. apply mfind_In in Hc'; auto. split; [apply in_map_iff; exists (k, c); auto|]. split; [apply in_map_iff; exists (k, e0); auto|].
    apply mfind_In in Hk; auto. destruct (run_only _ _ _ _ _ _ H0 Hk) as [X|(s & Hs & Es)]; [rewrite mfind_nil in X; discriminate|].
    destruct (run_only _ _ _ _ _ _ H1 Hc) as [X|(s' & Hs' & Es')]; [rewrite mfind_nil in X; discriminate|]. rewrite (I0 _ _ _ Hs Es), (I1 _ _ _ Hs' Es'). reflexivity. }
  cbn zeta. cbn [compare_cps r_tp r_ft r_origin r_decompressed]. split; intros e He; apply in_flat_map in He; destruct He as ([k e0] & Hk & He); cbn [fst snd] in He;
    destruct (mfind k m1) as [c|] eqn:Ec; try contradiction; destruct (Z.eqb_spec (e_type e0) (e_type c)) as [Et|Et]; try contradiction; destruct He as [<-|[]];
    destruct (G _ _ _ Hk Ec) as (G1 & G2 & G3); split; auto; exists e0; auto.
Qed.
Theorem tool2_types A inv2 lerp2 eig2 U V U' V' r1 r2 r : tool2 A inv2 lerp2 eig2 U V U' V' r1 r2 = Some r ->
  (forall e, In e (r_tp r) -> In e (r_decompressed r) /\ exists e0, In e0 (r_origin r) /\ e_id e0 = e_id e /\ e_type e0 = e_type e) /\
  (forall e, In e (r_ft r) -> In e (r_decompressed r) /\ exists e0, In e0 (r_origin r) /\ e_id e0 = e_id e /\ e_type e0 <> e_type e).
Proof.
  intros H. apply tool2_inv in H. destruct H as (m0 & m1 & H0 & H1 & ->). eapply types_split; eauto;
    (intros [[i j] up] k e _ Es; apply site2_inv in Es; destruct Es as (_ & _ & va & vb & vd & _ & _ & _ & Es); symmetry in Es; eapply check2_id; eauto).
Qed.
Theorem tool3_types A inv3 lerp3 roots3 U V W U' V' W' r1 r2 r3 r : tool3 A inv3 lerp3 roots3 U V W U' V' W' r1 r2 r3 = Some r ->
  (forall e, In e (r_tp r) -> In e (r_decompressed r) /\ exists e0, In e0 (r_origin r) /\ e_id e0 = e_id e /\ e_type e0 = e_type e) /\
  (forall e, In e (r_ft r) -> In e (r_decompressed r) /\ exists e0, In e0 (r_origin r) /\ e_id e0 = e_id e /\ e_type e0 <> e_type e).
Proof.
  intros H. apply tool3_inv in H. destruct H as (m0 & m1 & H0 & H1 & ->). eapply types_split; eauto;
    (intros [x n] k e _ Es; apply site3_inv in Es; destruct Es as (_ & a & b & c & d & X & va & vb & vc & vd & _ & _ & _ & _ & _ & _ & Es); symmetry in Es; eapply check3_id; eauto).
Qed.
