(** The offline bounds of a whole field: every change below them keeps critical points and, inside cells, their types. *)
From Coq Require Import Reals Lra Lia ZArith List Bool.
From Coq Require Import ZifyBool ZifyNat.
From Flocq Require Import Core.Raux.
From Verif Require Import Base Arith Mesh2D Derive2D Codec2D Sync2D Trace2D Scan Exact Cells2D Geo2D Preserve2D Type2D Offline2D OfflineSound2D.
Import ListNotations.
Local Open Scope R_scope.

(** [eb] has finite entries, none above the corresponding entry of [eb0]. *)
Definition lowered (eb0 eb : list XR) : Prop :=
  length eb = length eb0 /\ forall p x, aget eb0 p = Some (Fin x) -> exists y, aget eb p = Some (Fin y) /\ y <= x.

Lemma lowered_refl eb : lowered eb eb.
Proof. split; auto. intros p x H. exists x. split; [auto|lra]. Qed.
Lemma lowered_trans a b c : lowered a b -> lowered b c -> lowered a c.
Proof.
  intros [L1 H1] [L2 H2]. split; [congruence|]. intros p x H. destruct (H1 _ _ H) as (y & Hy & Ly). destruct (H2 _ _ Hy) as (z & Hz & Lz).
  exists z. split; [auto|lra].
Qed.

Lemma lower_ok eb p b : allfin eb -> (0 <= p < Z.of_nat (length eb))%Z ->
  exists eb', lower_eb XA eb p (Fin b) = Some eb' /\ allfin eb' /\ lowered eb eb' /\ exists y, aget eb' p = Some (Fin y) /\ y <= b.
Proof.
  intros F Hp. unfold lower_eb. change (D XA) with XR in *. destruct (aget_ok eb p Hp) as [x Ex]. rewrite Ex. cbn [bind].
  destruct (F _ _ Ex) as [r ->]. assert (HM : exists y, minf XA (Fin r) (Fin b) = Fin y /\ y <= r /\ y <= b).
  { unfold minf. cbn [dlt XA]. destruct (xlt (Fin r) (Fin b)) eqn:E; [apply xlt_fin in E; exists r|apply xlt_fin_false in E; exists b]; repeat split; lra. }
  destruct HM as (y & EM & Y1 & Y2). rewrite EM. destruct (aset_ok eb p (Fin y) Hp) as [eb' E']. exists eb'. split; [exact E'|].
  pose proof (aset_Some _ _ _ _ E') as (_ & EL & G).
  split; [eapply allfin_aset; eauto|]. split.
  - split; [auto|]. intros q z Hq. rewrite G. destruct (Z.eqb_spec q p) as [->|N]; [|exists z; split; [auto|lra]].
    exists y. split; [auto|]. rewrite Ex in Hq. injection Hq as <-. auto.
  - exists y. split; [rewrite G, Z.eqb_refl; auto|auto].
Qed.

Lemma lower_trace eb p b eb' : allfin eb -> lower_eb XA eb p (Fin b) = Some eb' ->
  allfin eb' /\ lowered eb eb' /\ exists y, aget eb' p = Some (Fin y) /\ y <= b.
Proof.
  intros F H. assert (Hp : (0 <= p < Z.of_nat (length eb))%Z).
  { unfold lower_eb in H. change (D XA) with XR in *. destruct (aget eb p) eqn:E; [|discriminate]. apply aget_Some in E. tauto. }
  destruct (lower_ok eb p b F Hp) as (eb2 & E & R). rewrite E in H. injection H as <-. exact R.
Qed.

Section Field.
Variable cbrt : XR -> XR.
Hypothesis HC : cube_root cbrt.
Variables (r1 r2 : Z) (u v : list R).

(** A triangle of the mesh. *)
Definition tri_in (t : Z * Z * nat) : Prop :=
  let '(i, j, k) := t in (0 <= i < r1 - 1)%Z /\ (0 <= j < r2 - 1)%Z /\ (k < 2)%nat.

Lemma zrange_in a b x : In x (zrange a b) <-> (a <= x < b)%Z.
Proof using Type.
  unfold zrange. split.
  - intros H. apply In_nth_error in H. destruct H as [n H]. rewrite nth_error_zseq in H.
    destruct (Nat.ltb_spec n (Z.to_nat (b - a))); [|discriminate]. injection H as <-. lia.
  - intros H. apply (nth_error_In _ (Z.to_nat (x - a))). rewrite nth_error_zseq.
    destruct (Nat.ltb_spec (Z.to_nat (x - a)) (Z.to_nat (b - a))); [f_equal; lia|lia].
Qed.
Lemma triangles_in t : In t (triangles r1 r2) <-> tri_in t.
Proof using Type.
  unfold triangles. rewrite in_flat_map. destruct t as [[i j] k]. unfold tri_in. split.
  - intros ([i' j'] & H & HI). unfold scan2 in H. apply in_flat_map in H. destruct H as (i'' & Hi & H). apply in_map_iff in H.
    destruct H as (j'' & E & Hj). injection E as <- <-. apply zrange_in in Hi. apply zrange_in in Hj.
    destruct HI as [E|[E|[]]]; injection E as <- <- <-; repeat split; lia.
  - intros (Hi & Hj & Hk). exists (i, j). split.
    + unfold scan2. apply in_flat_map. exists i. split; [apply zrange_in; lia|]. apply in_map_iff. exists j. split; [auto|apply zrange_in; lia].
    + destruct k as [|[|k]]; cbn; auto. lia.
Qed.

Definition at_ (w : list R) (p : Z) : R := nth (Z.to_nat p) w 0.
Lemma at_get w p : (0 <= p < Z.of_nat (length w))%Z -> aget (map Fin w) p = Some (Fin (at_ w p)).
Proof using Type.
  intros H. destruct (aget_ok (map Fin w) p) as [x E]; [rewrite map_length; auto|]. rewrite E.
  pose proof (atR_map w p ltac:(lia)) as G. unfold atR in G. rewrite E in G. unfold at_. rewrite <- G.
  destruct (allfin_map w _ _ E) as [r ->]. reflexivity.
Qed.

Lemma corner_bound i j k m : tri_in (i, j, k) -> (m < 3)%nat -> (0 <= corner_index r2 i j k m < r1 * r2)%Z.
Proof using Type.
  intros (Hi & Hj & Hk) Hm. unfold corner_index.
  assert (C : (0 <= fst (corner k m) <= 1)%Z /\ (0 <= snd (corner k m) <= 1)%Z).
  { destruct k as [|[|k]], m as [|[|[|m]]]; cbn; lia. }
  assert (0 <= i + fst (corner k m) <= r1 - 1)%Z by lia. assert (0 <= j + snd (corner k m) <= r2 - 1)%Z by lia. nia.
Qed.

(** The bound of a triangle. *)
Definition tri_eb (t : Z * Z * nat) : option XR :=
  let '(i, j, k) := t in let ix := corner_index r2 i j k in
  let x m := Fin (IZR (snd (corner k m))) in let y m := Fin (IZR (fst (corner k m))) in
  max_eb_to_keep_position_and_type XA cbrt (Fin (at_ u (ix 0%nat))) (Fin (at_ u (ix 1%nat))) (Fin (at_ u (ix 2%nat)))
    (Fin (at_ v (ix 0%nat))) (Fin (at_ v (ix 1%nat))) (Fin (at_ v (ix 2%nat))) (x 0%nat) (x 1%nat) (x 2%nat) (y 0%nat) (y 1%nat) (y 2%nat).

Lemma tri_nondeg k : (k < 2)%nat ->
  (IZR (snd (corner k 0)) - IZR (snd (corner k 2))) * (IZR (fst (corner k 1)) - IZR (fst (corner k 2))) -
  (IZR (snd (corner k 1)) - IZR (snd (corner k 2))) * (IZR (fst (corner k 0)) - IZR (fst (corner k 2))) <> 0.
Proof using Type. intros H. destruct k as [|[|k]]; cbn; [lra|lra|lia]. Qed.

Hypothesis (H1 : (0 <= r1)%Z) (H2 : (0 <= r2)%Z) (Lu : Z.of_nat (length u) = (r1 * r2)%Z) (Lv : Z.of_nat (length v) = (r1 * r2)%Z).
Lemma tri_eb_ok t : tri_in t -> exists b, tri_eb t = Some (Fin b) /\ 0 <= b <= 1.
Proof using HC.
  destruct t as [[i j] k]. intros (Hi & Hj & Hk). unfold tri_eb.
  destruct (triangle_kept cbrt HC (at_ u (corner_index r2 i j k 0)) (at_ u (corner_index r2 i j k 1)) (at_ u (corner_index r2 i j k 2))
     (at_ v (corner_index r2 i j k 0)) (at_ v (corner_index r2 i j k 1)) (at_ v (corner_index r2 i j k 2)) 0 0 0 0 0 0 0
     ltac:(lra) ltac:(rewrite Rabs_R0; lra) ltac:(rewrite Rabs_R0; lra) ltac:(rewrite Rabs_R0; lra) ltac:(rewrite Rabs_R0; lra)
     ltac:(rewrite Rabs_R0; lra) ltac:(rewrite Rabs_R0; lra) _ _ _ _ (IZR (snd (corner k 0))) (IZR (snd (corner k 1))) (IZR (snd (corner k 2)))
     (IZR (fst (corner k 0))) (IZR (fst (corner k 1))) (IZR (fst (corner k 2))) (tri_nondeg k Hk) eq_refl eq_refl eq_refl eq_refl) as (b & E & Rb & _).
  exists b. split; [exact E|exact Rb].
Qed.

Definition capped (eb : list XR) (t : Z * Z * nat) : Prop :=
  let '(i, j, k) := t in exists b, tri_eb t = Some (Fin b) /\
    forall m, (m < 3)%nat -> exists y, aget eb (corner_index r2 i j k m) = Some (Fin y) /\ y <= b.
Lemma capped_lowered eb eb' t : capped eb t -> lowered eb eb' -> capped eb' t.
Proof using Type.
  destruct t as [[i j] k]. intros (b & E & H) [_ L]. exists b. split; [exact E|]. intros m Hm. destruct (H m Hm) as (y & Hy & Ly).
  destruct (L _ _ Hy) as (z & Hz & Lz). exists z. split; [auto|lra].
Qed.

Lemma triangle_step eb t : allfin eb -> Z.of_nat (length eb) = (r1 * r2)%Z -> tri_in t ->
  exists eb', offline_triangle XA cbrt r2 (map Fin u) (map Fin v) eb t = Some eb' /\ allfin eb' /\ lowered eb eb' /\ capped eb' t.
Proof using HC Lu Lv.
  intros F L Ht. destruct (tri_eb_ok t Ht) as (b & E & Rb). destruct t as [[i j] k]. unfold offline_triangle.
  assert (G : forall w m, Z.of_nat (length w) = (r1 * r2)%Z -> (m < 3)%nat -> aget (map Fin w) (corner_index r2 i j k m) = Some (Fin (at_ w (corner_index r2 i j k m)))).
  { intros w m Lw Hm. apply at_get. rewrite Lw. apply corner_bound; auto. }
  change (T XA) with XR. rewrite !G by (auto; lia). cbn [bind].
  match goal with |- context [max_eb_to_keep_position_and_type ?q1 ?q2 ?q3 ?q4 ?q5 ?q6 ?q7 ?q8 ?x0 ?x1 ?x2 ?y0 ?y1 ?y2] =>
    replace (max_eb_to_keep_position_and_type q1 q2 q3 q4 q5 q6 q7 q8 x0 x1 x2 y0 y1 y2) with (Some (Fin b)) by (symmetry; exact E) end.
  cbn [bind]. pose proof (fun m => corner_bound i j k m Ht) as CB.
  destruct (lower_ok eb (corner_index r2 i j k 0) b F) as (e1 & E1 & F1 & L1 & y1 & Y1 & Z1); [rewrite L; apply CB; lia|].
  destruct (lower_ok e1 (corner_index r2 i j k 1) b F1) as (e2 & E2 & F2 & L2 & y2 & Y2 & Z2); [rewrite (proj1 L1), L; apply CB; lia|].
  destruct (lower_ok e2 (corner_index r2 i j k 2) b F2) as (e3 & E3 & F3 & L3 & y3 & Y3 & Z3); [rewrite (proj1 L2), (proj1 L1), L; apply CB; lia|].
  change (D XA) with XR in *. rewrite E1. cbn [bind]. rewrite E2. cbn [bind]. exists e3. split; [exact E3|]. split; [exact F3|].
  split; [eapply lowered_trans; [exact L1|eapply lowered_trans; eauto]|]. exists b. split; [exact E|].
  intros m Hm. destruct m as [|[|[|m]]]; [| | |lia].
  - destruct (proj2 L2 _ _ Y1) as (z & Hz & Lz). destruct (proj2 L3 _ _ Hz) as (z' & Hz' & Lz'). exists z'. split; [auto|lra].
  - destruct (proj2 L3 _ _ Y2) as (z & Hz & Lz). exists z. split; [auto|lra].
  - exists y3. auto.
Qed.

Lemma ebs_gen ts : (forall t, In t ts -> tri_in t) -> forall eb, allfin eb -> Z.of_nat (length eb) = (r1 * r2)%Z ->
  exists eb', fold_opt (offline_triangle XA cbrt r2 (map Fin u) (map Fin v)) ts eb = Some eb' /\ allfin eb' /\ lowered eb eb' /\
    forall t, In t ts -> capped eb' t.
Proof using HC Lu Lv.
  induction ts as [|t ts IH]; intros Hts eb F L; cbn [fold_opt].
  - exists eb. split; [auto|]. split; [auto|]. split; [apply lowered_refl|]. intros t [].
  - destruct (triangle_step eb t F L (Hts t (or_introl eq_refl))) as (e1 & E1 & F1 & L1 & C1).
    change (D XA) with XR in *. rewrite E1. cbn [bind].
    destruct (IH (fun x Hx => Hts x (or_intror Hx)) e1 F1) as (e2 & E2 & F2 & L2 & C2); [rewrite (proj1 L1); auto|].
    exists e2. split; [exact E2|]. split; [exact F2|]. split; [eapply lowered_trans; eauto|].
    intros x [<-|Hx]; [eapply capped_lowered; eauto|auto].
Qed.

Theorem ebs_ok max_eb : exists eb, offline_ebs XA cbrt (Fin max_eb) r1 r2 (map Fin u) (map Fin v) = Some eb /\ allfin eb /\
  Z.of_nat (length eb) = (r1 * r2)%Z /\ (forall p x, aget eb p = Some (Fin x) -> x <= max_eb) /\ forall t, tri_in t -> capped eb t.
Proof using All.
  unfold offline_ebs. set (eb0 := repeat (Fin max_eb) (Z.to_nat (r1 * r2))).
  assert (HG : forall p x, aget eb0 p = Some x -> x = Fin max_eb).
  { intros p x E. unfold aget in E. destruct (p <? 0)%Z; [discriminate|]. apply nth_error_In, repeat_spec in E. auto. }
  destruct (ebs_gen (triangles r1 r2) (fun t => proj1 (triangles_in t)) eb0) as (eb & E & F & L & C).
  - intros p x E. apply HG in E. eauto.
  - unfold eb0. rewrite repeat_length. nia.
  - exists eb. split; [exact E|]. split; [exact F|]. assert (Len : Z.of_nat (length eb) = (r1 * r2)%Z) by (transitivity (Z.of_nat (length eb0)); [f_equal; exact (proj1 L)|unfold eb0; rewrite repeat_length; nia]).
    split; [exact Len|]. split.
    + intros p x Hx. assert (HP := aget_Some _ _ _ Hx). destruct (aget_ok eb0 p) as [y Hy]; [replace (length eb0) with (length eb) by exact (proj1 L); exact HP|]. pose proof (HG _ _ Hy). subst y.
      destruct (proj2 L _ _ Hy) as (z & Hz & Lz). pose proof (eq_trans (eq_sym Hx) Hz) as Q. injection Q as ->. auto.
    + intros t Ht. apply C, triangles_in, Ht.
Qed.

(** ** Any change below the bounds *)
Variables (u' v' : list R) (eb : list XR).
Hypothesis (CAP : forall t, tri_in t -> capped eb t).
(** Each value is unchanged or changed by less than its relative bound. *)
Hypothesis (CU : forall p x, aget eb p = Some (Fin x) -> at_ u' p = at_ u p \/ Rabs (at_ u' p - at_ u p) < Rabs (at_ u p) * x).
Hypothesis (CV : forall p x, aget eb p = Some (Fin x) -> at_ v' p = at_ v p \/ Rabs (at_ v' p - at_ v p) < Rabs (at_ v p) * x).

Lemma change_factor x y b : y = x \/ Rabs (y - x) < Rabs x * b -> exists a, y = x * (1 + a) /\ (a = 0 \/ Rabs a < b).
Proof using Type.
  intros [->|H]; [exists 0; split; [ring|auto]|].
  assert (N : x <> 0). { intros ->. rewrite Rabs_R0, Rmult_0_l in H. pose proof (Rabs_pos (y - 0)). lra. }
  exists ((y - x) / x). split; [field; auto|]. right. unfold Rdiv. rewrite Rabs_mult, Rabs_inv.
  pose proof (Rabs_pos_lt x N). apply (Rmult_lt_reg_r (Rabs x)); auto. rewrite Rmult_assoc, Rinv_l by lra. lra.
Qed.

Theorem change_kept i j k : tri_in (i, j, k) ->
  let p m := (i + fst (corner k m), j + snd (corner k m))%Z in
  let w := vecR r2 u v in let w' := vecR r2 u' v' in
  (has_cp (w (p 0%nat)) (w (p 1%nat)) (w (p 2%nat)) <-> has_cp (w' (p 0%nat)) (w' (p 1%nat)) (w' (p 2%nat))) /\
  (inside_cp (w (p 0%nat)) (w (p 1%nat)) (w (p 2%nat)) -> forall J J',
     linear_part w [p 0%nat; p 1%nat; p 2%nat] J -> linear_part w' [p 0%nat; p 1%nat; p 2%nat] J' -> same_type J J').
Proof using All.
  intros Ht p w w'. destruct (CAP _ Ht) as (b & Eb & CB).
  assert (FU : forall m, (m < 3)%nat -> exists a, at_ u' (corner_index r2 i j k m) = at_ u (corner_index r2 i j k m) * (1 + a) /\ (a = 0 \/ Rabs a < b)).
  { intros m Hm. destruct (CB m Hm) as (y & Hy & Ly). apply change_factor. destruct (CU _ _ Hy) as [E|E]; [auto|].
    right. pose proof (Rabs_pos (at_ u (corner_index r2 i j k m))). nra. }
  assert (FV : forall m, (m < 3)%nat -> exists a, at_ v' (corner_index r2 i j k m) = at_ v (corner_index r2 i j k m) * (1 + a) /\ (a = 0 \/ Rabs a < b)).
  { intros m Hm. destruct (CB m Hm) as (y & Hy & Ly). apply change_factor. destruct (CV _ _ Hy) as [E|E]; [auto|].
    right. pose proof (Rabs_pos (at_ v (corner_index r2 i j k m))). nra. }
  destruct (FU 0%nat ltac:(lia)) as (a0 & U0 & Q0). destruct (FU 1%nat ltac:(lia)) as (a1 & U1 & Q1). destruct (FU 2%nat ltac:(lia)) as (a2 & U2 & Q2).
  destruct (FV 0%nat ltac:(lia)) as (b0 & V0 & S0). destruct (FV 1%nat ltac:(lia)) as (b1 & V1 & S1). destruct (FV 2%nat ltac:(lia)) as (b2 & V2 & S2).
  assert (WV : forall m, w (p m) = (at_ u (corner_index r2 i j k m), at_ v (corner_index r2 i j k m))) by reflexivity.
  assert (WV' : forall m, w' (p m) = (at_ u' (corner_index r2 i j k m), at_ v' (corner_index r2 i j k m))) by reflexivity.
  destruct (Rlt_le_dec 0 b) as [Pb|Nb].
  - assert (SM : forall a, a = 0 \/ Rabs a < b -> Rabs a < b) by (intros a [->|X]; [rewrite Rabs_R0|]; auto).
    set (e := Rmax (Rmax (Rmax (Rabs a0) (Rabs a1)) (Rmax (Rabs a2) (Rabs b0))) (Rmax (Rabs b1) (Rabs b2))).
    assert (LE : forall a c d f g h, a <= Rmax (Rmax (Rmax a c) (Rmax d f)) (Rmax g h) /\ c <= Rmax (Rmax (Rmax a c) (Rmax d f)) (Rmax g h) /\
      d <= Rmax (Rmax (Rmax a c) (Rmax d f)) (Rmax g h) /\ f <= Rmax (Rmax (Rmax a c) (Rmax d f)) (Rmax g h) /\
      g <= Rmax (Rmax (Rmax a c) (Rmax d f)) (Rmax g h) /\ h <= Rmax (Rmax (Rmax a c) (Rmax d f)) (Rmax g h)).
    { intros. repeat split; eauto using Rle_trans, Rmax_l, Rmax_r. }
    destruct (LE (Rabs a0) (Rabs a1) (Rabs a2) (Rabs b0) (Rabs b1) (Rabs b2)) as (X0 & X1 & X2 & X3 & X4 & X5). fold e in X0, X1, X2, X3, X4, X5.
    assert (Le : e < b) by (unfold e; repeat apply Rmax_lub_lt; auto).
    assert (He : 0 <= e) by (pose proof (Rabs_pos a0); lra).
    destruct Ht as (Hi & Hj & Hk).
    destruct (triangle_kept cbrt HC (at_ u (corner_index r2 i j k 0)) (at_ u (corner_index r2 i j k 1)) (at_ u (corner_index r2 i j k 2))
      (at_ v (corner_index r2 i j k 0)) (at_ v (corner_index r2 i j k 1)) (at_ v (corner_index r2 i j k 2)) e a0 a1 a2 b0 b1 b2 He X0 X1 X2 X3 X4 X5
      _ _ _ _ (IZR (snd (corner k 0))) (IZR (snd (corner k 1))) (IZR (snd (corner k 2)))
      (IZR (fst (corner k 0))) (IZR (fst (corner k 1))) (IZR (fst (corner k 2))) (tri_nondeg k Hk) eq_refl eq_refl eq_refl eq_refl) as (b' & E' & _ & G).
    unfold tri_eb in Eb. cbv zeta in Eb. assert (b' = b) by (rewrite E' in Eb; injection Eb; auto). subst b'. destruct (G Le) as [G1 G2].
    rewrite !WV, !WV'. rewrite U0, U1, U2, V0, V1, V2. split; [exact G1|]. intros I J J' LJ LJ'. apply (G2 I).
    + destruct LJ as (c & d & LJ). exists (c + ux J * IZR j + uy J * IZR i), (d + vx J * IZR j + vy J * IZR i).
      intros z x y Hz. assert (HM : exists m, (m < 3)%nat /\ z = w (p m) /\ x = IZR (snd (corner k m)) /\ y = IZR (fst (corner k m))).
      { destruct Hz as [Hz|[Hz|[Hz|[]]]]; injection Hz as <- <- <-; [exists 0%nat|exists 1%nat|exists 2%nat]; repeat split; auto. }
      destruct HM as (m & Hm & -> & -> & ->). destruct (LJ (p m)) as [Q Q'].
      { destruct m as [|[|[|m]]]; cbn; auto. lia. }
      rewrite Q, Q'. unfold p. cbn [fst snd]. rewrite !plus_IZR. split; ring.
    + destruct LJ' as (c & d & LJ'). exists (c + ux J' * IZR j + uy J' * IZR i), (d + vx J' * IZR j + vy J' * IZR i).
      rewrite <- U0, <- U1, <- U2, <- V0, <- V1, <- V2.
      intros z x y Hz. assert (HM : exists m, (m < 3)%nat /\ z = w' (p m) /\ x = IZR (snd (corner k m)) /\ y = IZR (fst (corner k m))).
      { destruct Hz as [Hz|[Hz|[Hz|[]]]]; injection Hz as <- <- <-; [exists 0%nat|exists 1%nat|exists 2%nat]; repeat split; auto. }
      destruct HM as (m & Hm & -> & -> & ->). destruct (LJ' (p m)) as [Q Q'].
      { destruct m as [|[|[|m]]]; cbn; auto. lia. }
      rewrite Q, Q'. unfold p. cbn [fst snd]. rewrite !plus_IZR. split; ring.
  - assert (ZA : forall a, a = 0 \/ Rabs a < b -> a = 0) by (intros a [->|X]; [auto|pose proof (Rabs_pos a); lra]).
    apply ZA in Q0, Q1, Q2, S0, S1, S2. subst a0 a1 a2 b0 b1 b2.
    assert (EQ : forall m, (m < 3)%nat -> w' (p m) = w (p m)).
    { intros m Hm. rewrite WV, WV'. destruct m as [|[|[|m]]]; [| | |lia]; f_equal; lra. }
    rewrite !EQ by lia. split; [tauto|]. intros _ J J' LJ LJ'.
    assert (HCell : exists a b c, cell r1 r2 a b c /\ [p 0%nat; p 1%nat; p 2%nat] = [a; b; c]).
    { destruct Ht as (Hi & Hj & Hk). unfold p. destruct k as [|[|k]]; [| |lia]; cbn [corner nth fst snd]; rewrite !Z.add_0_r;
        do 3 eexists; (split; [|reflexivity]); constructor; lia. }
    destruct HCell as (a & bb & c & HCell & EL). rewrite EL in *.
    apply (linear_part_ext _ w) in LJ'.
    + destruct (linear_part_eq _ _ _ _ _ _ _ _ HCell LJ LJ'). apply same_type_eq; auto.
    + rewrite <- EL. intros q [<-|[<-|[<-|[]]]]; symmetry; apply EQ; lia.
Qed.
End Field.

(** Unchanged, or changed by less than a relative bound. *)
Definition small_change (e x x' : R) : Prop := x' = x \/ Rabs (x' - x) < Rabs x * e.

Theorem offline_bounds_keep cbrt : cube_root cbrt -> forall max_eb r1 r2 u v,
  (0 <= r1)%Z -> (0 <= r2)%Z -> Z.of_nat (length u) = (r1 * r2)%Z -> Z.of_nat (length v) = (r1 * r2)%Z ->
  exists eb, offline_ebs XA cbrt (Fin max_eb) r1 r2 (map Fin u) (map Fin v) = Some (map Fin eb) /\
  Z.of_nat (length eb) = (r1 * r2)%Z /\ Forall (fun e => e <= max_eb) eb /\
  forall u' v', (forall k, small_change (nth k eb 0) (nth k u 0) (nth k u' 0)) ->
                (forall k, small_change (nth k eb 0) (nth k v 0) (nth k v' 0)) ->
  forall a b c, cell r1 r2 a b c ->
    (has_cp (vecR r2 u v a) (vecR r2 u v b) (vecR r2 u v c) <-> has_cp (vecR r2 u' v' a) (vecR r2 u' v' b) (vecR r2 u' v' c)) /\
    (inside_cp (vecR r2 u v a) (vecR r2 u v b) (vecR r2 u v c) -> forall J J',
       linear_part (vecR r2 u v) [a; b; c] J -> linear_part (vecR r2 u' v') [a; b; c] J' -> same_type J J').
Proof.
  intros HC max_eb r1 r2 u v H1 H2 Lu Lv.
  destruct (ebs_ok cbrt HC r1 r2 u v H1 H2 Lu Lv max_eb) as (eb0 & E & F & L & B & C).
  pose proof (allfin_inv _ F) as EI. set (eb := map toR eb0) in *. clearbody eb. subst eb0. rewrite map_length in L. exists eb. split; [exact E|]. split; [exact L|].
  assert (G : forall p x, aget (map Fin eb) p = Some (Fin x) -> nth (Z.to_nat p) eb 0 = x /\ (0 <= p)%Z).
  { intros p x Hx. pose proof (aget_Some _ _ _ Hx) as R. rewrite map_length in R. rewrite at_get in Hx by auto. injection Hx as <-. split; [reflexivity|lia]. }
  split.
  - apply Forall_forall. intros x Hx. apply In_nth with (d := 0) in Hx. destruct Hx as (n & Hn & <-).
    apply (B (Z.of_nat n)). rewrite at_get by lia. unfold at_. rewrite Nat2Z.id. reflexivity.
  - intros u' v' CU CV a b c HCell.
    assert (K := fun i j k => change_kept cbrt HC r1 r2 u v H1 H2 Lu Lv u' v' (map Fin eb) C
      ltac:(intros p x Hx; destruct (G _ _ Hx) as [<- _]; apply CU) ltac:(intros p x Hx; destruct (G _ _ Hx) as [<- _]; apply CV) i j k).
    inversion HCell; subst.
    + specialize (K i j 0%nat). cbn [corner nth fst snd] in K. rewrite ?Z.add_0_r in K. apply K. unfold tri_in. repeat split; lia.
    + specialize (K i j 1%nat). cbn [corner nth fst snd] in K. rewrite ?Z.add_0_r in K. apply K. unfold tri_in. repeat split; lia.
Qed.
