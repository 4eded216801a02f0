(** The 2D online compressors never leave their arrays: totality of the encoding loop for any arithmetic, given
    only that the conversions to int are defined.  Nothing of /repo is modelled here. *)
From Coq Require Import List ZArith Lia Bool.
From Coq Require Import ZifyBool ZifyNat.
From Verif Require Import Base Huffman Arith Mesh2D Derive2D Codec2D Sync2D Trace2D Cells2D.
Import ListNotations.
Local Open Scope Z_scope.

Section Any.
Context (A : Arith).

Lemma lorenzo_any w r2 i j : 0 <= i -> 0 <= j < r2 -> i * r2 + j < Z.of_nat (length w) ->
  exists p, lorenzo A w r2 i j = Some p.
Proof.
  intros Hi Hj HL. unfold lorenzo.
  assert (G : forall (t : bool) k, (t = true -> 0 <= k < Z.of_nat (length w)) ->
    exists x, (if t then aget w k else Some (t0 A)) = Some x).
  { intros [|] k Hk; [apply aget_ok; auto|eauto]. }
  destruct (G (negb (i =? 0) && negb (j =? 0))%bool (i * r2 + j - 1 - r2)) as [a ->]; [nia|].
  destruct (G (negb (i =? 0)) (i * r2 + j - r2)) as [b ->]; [nia|].
  destruct (G (negb (j =? 0)) (i * r2 + j - 1)) as [c ->]; [nia|]. cbn [bind]. eauto.
Qed.

Lemma tri_values_any U V r1 r2 i j k : 0 <= i < r1 -> 0 <= j < r2 -> (k < 6)%nat ->
  Z.of_nat (length U) = r1 * r2 -> Z.of_nat (length V) = r1 * r2 -> in_mesh r1 r2 i j k = true ->
  exists v, tri_values A U V r2 (i * r2 + j) k = Some v.
Proof.
  intros Hi Hj Hk LU LV HM. unfold tri_values. destruct (offset_lin r2 i j k Hk) as [E0 E1]. rewrite E0, E1.
  rewrite in_mesh_nbr in HM. unfold in_range in HM.
  assert (G : forall (W : list (T A)) a, Z.of_nat (length W) = r1 * r2 -> 0 <= fst a < r1 -> 0 <= snd a < r2 ->
    exists x, aget W (lin r2 a) = Some x).
  { intros W a LW H1 H2. apply aget_ok. rewrite LW. unfold lin. nia. }
  change (i * r2 + j) with (lin r2 (i, j)).
  destruct (G U (nbr i j k 0) LU) as [x0 ->]; [lia|lia|]. destruct (G U (nbr i j k 1) LU) as [x1 ->]; [lia|lia|].
  destruct (G U (i, j) LU) as [x2 ->]; [cbn; lia|cbn; lia|].
  destruct (G V (nbr i j k 0) LV) as [y0 ->]; [lia|lia|]. destruct (G V (nbr i j k 1) LV) as [y1 ->]; [lia|lia|].
  destruct (G V (i, j) LV) as [y2 ->]; [cbn; lia|cbn; lia|]. cbn [bind]. eauto.
Qed.

Lemma req_loop_any f U V r1 r2 i j : 0 <= i < r1 -> 0 <= j < r2 ->
  Z.of_nat (length U) = r1 * r2 -> Z.of_nat (length V) = r1 * r2 -> forall ks eb,
  (forall k, In k ks -> (k < 6)%nat) -> exists r, req_loop A f U V r1 r2 i j ks eb = Some r.
Proof.
  intros Hi Hj LU LV. induction ks as [|k ks IH]; intros eb HK; cbn [req_loop]; [eauto|].
  destruct (in_mesh r1 r2 i j k) eqn:EM.
  - destruct (tri_values_any U V r1 r2 i j k) as [w Ew]; auto; [apply HK; left; auto|]. rewrite Ew. cbn [bind].
    apply IH. intros k' Hk'. apply HK. right; auto.
  - apply IH. intros k' Hk'. apply HK. right; auto.
Qed.

Lemma req_rel_any max_eb U V r1 r2 i j : 0 <= i < r1 -> 0 <= j < r2 ->
  Z.of_nat (length U) = r1 * r2 -> Z.of_nat (length V) = r1 * r2 -> exists r, required_eb_rel A max_eb U V r1 r2 i j = Some r.
Proof. intros. apply req_loop_any; auto. cbn [six In]. intros k Hk. lia. Qed.

Lemma req_abs_any max_eb U V r1 r2 i j : 0 <= i < r1 -> 0 <= j < r2 ->
  Z.of_nat (length U) = r1 * r2 -> Z.of_nat (length V) = r1 * r2 -> exists r, required_eb_abs A max_eb U V r1 r2 i j = Some r.
Proof.
  intros Hi Hj LU LV. unfold required_eb_abs.
  destruct (aget_ok U (i * r2 + j)) as [x ->]; [rewrite LU; nia|].
  destruct (aget_ok V (i * r2 + j)) as [y ->]; [rewrite LV; nia|]. cbn [bind].
  destruct (_ || _)%bool; [eauto|]. apply req_loop_any; auto. cbn [six In]. intros k Hk. lia.
Qed.

(** One point never fails when its conversions are defined. *)
Lemma point_any req abs_eb r1 r2 U V i j :
  0 <= i < r1 -> 0 <= j < r2 -> Z.of_nat (length U) = r1 * r2 -> Z.of_nat (length V) = r1 * r2 ->
  (exists r, req U V r1 r2 i j = Some r /\
     (dlt A (dofZ A 0) r = true -> forall u v, aget U (i * r2 + j) = Some u -> aget V (i * r2 + j) = Some v ->
        (exists t, try_component A 4 (eps_double A) U r2 i j u (abs_eb u r) = Some t) /\
        (exists t, try_component A 4 (eps_double A) V r2 i j v (abs_eb v r) = Some t))) ->
  exists r, enc_point A req abs_eb 4 (eps_double A) r1 r2 U V (i, j) = Some r.
Proof.
  intros Hi Hj LU LV (eb & Er & HT). unfold enc_point.
  destruct (aget_ok U (i * r2 + j)) as [u Eu]; [rewrite LU; nia|].
  destruct (aget_ok V (i * r2 + j)) as [v Ev]; [rewrite LV; nia|].
  rewrite Eu, Ev. cbn [bind]. rewrite Er. cbn [bind].
  destruct (dlt A (dofZ A 0) eb) eqn:EP; [|eauto].
  destruct (HT eq_refl u v Eu Ev) as [[[id0 a0] E0] [[id1 a1] E1]].
  rewrite E0. cbn [bind]. destruct a0 as [[|q0 x0]|]; [eauto| |]; rewrite E1; cbn [bind]; [|eauto].
  destruct a1 as [[|q1 x1]|]; [eauto| |eauto].
  destruct (aset_ok U (i * r2 + j) x0) as [U' ->]; [rewrite LU; nia|].
  destruct (aset_ok V (i * r2 + j) x1) as [V' ->]; [rewrite LV; nia|]. cbn [bind]. eauto.
Qed.

(** Loop: [inv p U V] holds before point p. *)
Lemma loop_any step (inv : Z -> list (T A) -> list (T A) -> Prop) r2 : forall n p U V,
  (forall q U V, p <= q < p + Z.of_nat n -> inv q U V ->
     exists U' V' c, step U V (q / r2, q mod r2) = Some (U', V', c) /\ inv (q + 1) U' V') ->
  inv p U V -> exists r, enc_loop A step (map (fun p => (p / r2, p mod r2)) (zseq p n)) U V = Some r.
Proof.
  induction n as [|n IH]; intros p U V HS HI; cbn [zseq map enc_loop]; [eauto|].
  destruct (HS p U V) as (U' & V' & c & -> & HI'); [lia|auto|]. cbn [bind].
  destruct (IH (p + 1) U' V') as [[[U2 V2] c2] ->]; auto.
  { intros q U0 V0 Hq. apply HS. lia. }
  cbn [bind]. eauto.
Qed.

(** Whole field.  [inv] is any property of the working copies kept by every point. *)
Lemma field_any req abs_eb (inv : list (T A) -> list (T A) -> Prop) r1 r2 U V :
  0 <= r1 -> 0 < r2 -> Z.of_nat (length U) = r1 * r2 -> Z.of_nat (length V) = r1 * r2 -> inv U V ->
  (forall U0 V0 i j, 0 <= i < r1 -> 0 <= j < r2 -> Z.of_nat (length U0) = r1 * r2 -> Z.of_nat (length V0) = r1 * r2 -> inv U0 V0 ->
     (forall k, i * r2 + j <= k -> aget U0 k = aget U k /\ aget V0 k = aget V k) ->
     (exists r, req U0 V0 r1 r2 i j = Some r /\
     (dlt A (dofZ A 0) r = true -> forall u v, aget U0 (i * r2 + j) = Some u -> aget V0 (i * r2 + j) = Some v ->
        (exists t, try_component A 4 (eps_double A) U0 r2 i j u (abs_eb u r) = Some t) /\
        (exists t, try_component A 4 (eps_double A) V0 r2 i j v (abs_eb v r) = Some t))) /\
     forall U1 V1 c, outcome A req abs_eb r1 r2 U0 V0 i j U1 V1 c -> inv U1 V1) ->
  exists r, enc_field A req abs_eb r1 r2 U V = Some r.
Proof.
  intros H1 H2 LU LV HI HS. unfold enc_field. rewrite scan2_map by auto. unfold zrange. rewrite Z.sub_0_r.
  apply loop_any with (inv := fun p U0 V0 => inv U0 V0 /\ Z.of_nat (length U0) = r1 * r2 /\ Z.of_nat (length V0) = r1 * r2 /\
    forall k, p <= k -> aget U0 k = aget U k /\ aget V0 k = aget V k); [|auto].
  intros q U0 V0 Hq (HI0 & LU0 & LV0 & HK).
  assert (Hj : 0 <= q mod r2 < r2) by (apply Z.mod_pos_bound; auto).
  assert (Hi : 0 <= q / r2 < r1).
  { split; [apply Z.div_pos; lia|]. apply Z.div_lt_upper_bound; lia. }
  assert (Ep : q / r2 * r2 + q mod r2 = q) by (pose proof (Z.div_mod q r2); lia).
  destruct (HS U0 V0 (q / r2) (q mod r2) Hi Hj LU0 LV0 HI0 ltac:(rewrite Ep; auto)) as [HP HO].
  destruct (point_any req abs_eb r1 r2 U0 V0 (q / r2) (q mod r2) Hi Hj LU0 LV0 HP) as [[[U1 V1] c] E].
  exists U1, V1, c. split; auto. apply enc_point_outcome in E.
  destruct (outcome_local _ _ _ _ _ _ _ _ _ _ _ _ E) as (L1 & L2 & G1 & G2).
  split; [eapply HO; eauto|]. split; [lia|]. split; [lia|]. intros k Hk. rewrite Ep in *.
  rewrite G1, G2 by lia. apply HK. lia.
Qed.

(** With every conversion to int defined (the machine's behaviour), compression never fails. *)
Section Machine.
Hypothesis conv : forall x, exists z, dtoint A x = Some z.

Lemma try_any w r2 i j cur eb : 0 <= i -> 0 <= j < r2 -> i * r2 + j < Z.of_nat (length w) ->
  exists t, try_component A 4 (eps_double A) w r2 i j cur eb = Some t.
Proof.
  intros Hi Hj HL. unfold try_component, eb_exponential_quantize.
  destruct (dle A eb (eps_double A)); cbn [bind]; [rewrite Z.ltb_irrefl; eauto|].
  match goal with |- context [dtoint A ?x] => destruct (conv x) as [id ->] end. cbn [bind].
  destruct (0 <? id); [|eauto].
  destruct (lorenzo_any w r2 i j Hi Hj HL) as [p ->]. cbn [bind]. unfold quantise.
  destruct (dlt A _ _); cbn [bind]; [|eauto].
  match goal with |- context [dtoint A ?x] => destruct (conv x) as [h ->] end. cbn [bind].
  destruct (dle A _ _); cbn [bind]; eauto.
Qed.

Lemma field_machine req abs_eb r1 r2 U V :
  (forall U0 V0 i j, 0 <= i < r1 -> 0 <= j < r2 -> Z.of_nat (length U0) = r1 * r2 -> Z.of_nat (length V0) = r1 * r2 ->
     exists r, req U0 V0 r1 r2 i j = Some r) ->
  0 <= r1 -> 0 < r2 -> Z.of_nat (length U) = r1 * r2 -> Z.of_nat (length V) = r1 * r2 ->
  exists r, enc_field A req abs_eb r1 r2 U V = Some r.
Proof.
  intros HR H1 H2 LU LV. apply (field_any req abs_eb (fun _ _ => True)); auto.
  intros U0 V0 i j Hi Hj LU0 LV0 _ _. split; [|auto].
  destruct (HR U0 V0 i j) as [r Er]; auto. exists r. split; auto. intros _ u v _ _.
  split; apply try_any; try lia; [rewrite LU0|rewrite LV0]; nia.
Qed.

Theorem rel_machine_total max_eb r1 r2 U V :
  0 <= r1 -> 0 < r2 -> Z.of_nat (length U) = r1 * r2 -> Z.of_nat (length V) = r1 * r2 ->
  exists r, enc_online A max_eb r1 r2 U V = Some r.
Proof. intros. apply field_machine; auto. intros. apply req_rel_any; auto. Qed.

Theorem abs_machine_total max_eb r1 r2 U V :
  0 <= r1 -> 0 < r2 -> Z.of_nat (length U) = r1 * r2 -> Z.of_nat (length V) = r1 * r2 ->
  exists r, enc_online_abs A max_eb r1 r2 U V = Some r.
Proof. intros. apply field_machine; auto. intros. apply req_abs_any; auto. Qed.
End Machine.
End Any.
