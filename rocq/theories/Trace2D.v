(** What the 2D online compressors do to their working copies, point by point, for every arithmetic. *)
From Coq Require Import List ZArith Lia Bool Arith.
From Coq Require Import ZifyBool ZifyNat.
From Verif Require Import Base Huffman Arith Mesh2D Derive2D Codec2D Sync2D.
Import ListNotations.
Local Open Scope Z_scope.
Ltac Zify.zify_post_hook ::= Z.div_mod_to_equations.

(** Working array when point [p] is reached: final values before [p], original ones from [p] on. *)
Definition mix {X} (p : Z) (fin orig : list X) : list X :=
  firstn (Z.to_nat p) fin ++ skipn (Z.to_nat p) orig.

Lemma mix_length {X} p (f o : list X) : length f = length o -> length (mix p f o) = length o.
Proof. intros H. unfold mix. rewrite app_length, firstn_length, skipn_length. lia. Qed.

Lemma nth_error_mix {X} p (f o : list X) k : length f = length o ->
  nth_error (mix p f o) k = if (k <? Z.to_nat p)%nat then nth_error f k else nth_error o k.
Proof.
  intros H. unfold mix. destruct (Nat.ltb_spec k (Z.to_nat p)).
  - destruct (Nat.lt_ge_cases k (length f)).
    + rewrite nth_error_app1 by (rewrite firstn_length; lia).
      rewrite <- (firstn_skipn (Z.to_nat p) f) at 2. rewrite nth_error_app1 by (rewrite firstn_length; lia). auto.
    + assert (E : nth_error f k = None) by (apply nth_error_None; auto). rewrite E.
      apply nth_error_None. rewrite app_length, firstn_length, skipn_length. lia.
  - destruct (Nat.lt_ge_cases (length o) (Z.to_nat p)).
    + assert (E : nth_error o k = None) by (apply nth_error_None; lia). rewrite E.
      apply nth_error_None. rewrite app_length, firstn_length, skipn_length. lia.
    + rewrite nth_error_app2 by (rewrite firstn_length; lia). rewrite firstn_length.
      rewrite <- (firstn_skipn (Z.to_nat p) o) at 2.
      rewrite nth_error_app2 by (rewrite firstn_length; lia). rewrite firstn_length. f_equal. lia.
Qed.

Lemma aget_mix {X} p (f o : list X) k : 0 <= p -> length f = length o ->
  aget (mix p f o) k = if k <? p then aget f k else aget o k.
Proof.
  intros Hp H. unfold aget. destruct (k <? 0) eqn:E0; [destruct (k <? p); auto|].
  rewrite nth_error_mix by auto.
  destruct (Z.ltb_spec k p); destruct (Nat.ltb_spec (Z.to_nat k) (Z.to_nat p)); auto; lia.
Qed.

Lemma mix_0 {X} (f o : list X) : mix 0 f o = o.
Proof. reflexivity. Qed.

Lemma mix_all {X} p (f o : list X) : length f = length o -> Z.of_nat (length o) <= p -> mix p f o = f.
Proof.
  intros H Hp. unfold mix. rewrite firstn_all2 by lia. rewrite skipn_all2 by lia. apply app_nil_r.
Qed.

Lemma aget_len {X Y} (l : list X) (l' : list Y) q x : length l = length l' -> aget l q = Some x -> exists y, aget l' q = Some y.
Proof.
  intros Ll E. unfold aget in *. destruct (q <? 0); [discriminate|].
  destruct (nth_error l' (Z.to_nat q)) eqn:E'; eauto. apply nth_error_None in E'.
  assert (H : nth_error l (Z.to_nat q) <> None) by congruence. apply nth_error_Some in H. lia.
Qed.

Lemma aget_ext2 {X} (l l' : list X) : length l = length l' ->
  (forall k x y, aget l k = Some x -> aget l' k = Some y -> x = y) -> l = l'.
Proof.
  intros HL HE. apply nth_error_ext'. intros n. specialize (HE (Z.of_nat n)). unfold aget in HE.
  replace (Z.of_nat n <? 0) with false in HE by lia. rewrite Nat2Z.id in HE.
  destruct (nth_error l n) eqn:EX, (nth_error l' n) eqn:EY; auto.
  - f_equal. auto.
  - apply nth_error_None in EY. assert (H : nth_error l n <> None) by congruence. apply nth_error_Some in H. lia.
  - apply nth_error_None in EX. assert (H : nth_error l' n <> None) by congruence. apply nth_error_Some in H. lia.
Qed.

Section Trace.
Context (A : Arith).

(** The outcome of one component: predicted, in range, own check passed. *)
Definition coded (w : list (T A)) (r2 i j : Z) (cur : T A) (eb0 : D A) (id q : Z) (x : T A) : Prop :=
  exists abs_eb pred,
    eb_exponential_quantize A 4 (eps_double A) eb0 = Some (id, abs_eb) /\ 0 < id /\
    lorenzo A w r2 i j = Some pred /\ quantise A pred cur abs_eb = Some (Coded A q x).

(** Outcome of one point: stored verbatim, or both components coded. *)
Inductive outcome (req : list (T A) -> list (T A) -> Z -> Z -> Z -> Z -> option (D A)) (abs_eb : T A -> D A -> D A)
          (r1 r2 : Z) (U V : list (T A)) (i j : Z) : list (T A) -> list (T A) -> code (T A) -> Prop :=
| out_verbatim u v :
    aget U (i * r2 + j) = Some u -> aget V (i * r2 + j) = Some v ->
    outcome req abs_eb r1 r2 U V i j U V (verbatim A u v)
| out_coded u v eb id0 id1 q0 q1 x0 x1 U' V' :
    aget U (i * r2 + j) = Some u -> aget V (i * r2 + j) = Some v ->
    req U V r1 r2 i j = Some eb -> dlt A (dofZ A 0) eb = true ->
    coded U r2 i j u (abs_eb u eb) id0 q0 x0 -> coded V r2 i j v (abs_eb v eb) id1 q1 x1 ->
    aset U (i * r2 + j) x0 = Some U' -> aset V (i * r2 + j) x1 = Some V' ->
    outcome req abs_eb r1 r2 U V i j U' V' {| c_eb := [id0; id1]; c_q := [q0; q1]; c_unp := [] |}.

Lemma try_component_coded w r2 i j cur eb0 id q x :
  try_component A 4 (eps_double A) w r2 i j cur eb0 = Some (id, Some (Coded A q x)) ->
  coded w r2 i j cur eb0 id q x.
Proof.
  intros H. unfold try_component in H. bind_as H [id' eb] Hq. destruct (0 <? id') eqn:E.
  - bind_as H pr Hpr. bind_as H a Ha. apply Some_inj in H. inversion H; subst id' a.
    exists eb, pr. repeat split; auto. lia.
  - apply Some_inj in H. congruence.
Qed.

Lemma enc_point_outcome req abs_eb r1 r2 U V i j U' V' c :
  enc_point A req abs_eb 4 (eps_double A) r1 r2 U V (i, j) = Some (U', V', c) ->
  outcome req abs_eb r1 r2 U V i j U' V' c.
Proof.
  intros H. unfold enc_point in H.
  bind_as H u Hu. bind_as H v Hv. bind_as H eb Heb.
  assert (HV : Some (U, V, verbatim A u v) = Some (U', V', c) -> outcome req abs_eb r1 r2 U V i j U' V' c).
  { intros E. apply Some_inj in E. inversion E; subst. constructor; auto. }
  destruct (dlt A _ eb) eqn:Hpos; [|auto].
  bind_as H [id0 a0] H0. destruct a0 as [[|q0 x0]|]; [auto| |].
  2:{ bind_as H [id1 a1] H1. auto. }
  bind_as H [id1 a1] H1. destruct a1 as [[|q1 x1]|]; [auto| |auto].
  bind_as H U1 EU. bind_as H V1 EV. apply Some_inj in H. inversion H; subst U1 V1 c.
  eapply out_coded; eauto using try_component_coded.
Qed.

Lemma outcome_local req abs_eb r1 r2 U V i j U' V' c :
  outcome req abs_eb r1 r2 U V i j U' V' c ->
  length U' = length U /\ length V' = length V /\
  (forall k, k <> i * r2 + j -> aget U' k = aget U k) /\ (forall k, k <> i * r2 + j -> aget V' k = aget V k).
Proof.
  intros H. destruct H; [auto|]. 
  match goal with H1 : aset U _ _ = _, H2 : aset V _ _ = _ |- _ =>
    destruct (aset_Some _ _ _ _ H1) as (_ & L1 & G1); destruct (aset_Some _ _ _ _ H2) as (_ & L2 & G2) end.
  repeat split; auto; intros k Hk; [rewrite G1|rewrite G2]; replace (k =? i * r2 + j) with false by lia; auto.
Qed.

Lemma mix_step {X} p (f o w : list X) : 0 <= p -> length f = length o -> length w = length o ->
  (forall k, k <> p -> aget w k = aget (mix p f o) k) -> aget w p = aget f p -> w = mix (p + 1) f o.
Proof.
  intros Hp L1 L2 H1 H2. apply aget_ext. intros k. rewrite aget_mix by (auto; lia).
  destruct (Z.eq_dec k p) as [->|Hne].
  - replace (p <? p + 1) with true by lia. auto.
  - rewrite H1, aget_mix by auto. destruct (Z.ltb_spec k p); destruct (Z.ltb_spec k (p + 1)); auto; lia.
Qed.

Lemma loop_trace req abs_eb r1 r2 : 0 < r2 -> forall n p U V U' V' c,
  0 <= p ->
  enc_loop A (enc_point A req abs_eb 4 (eps_double A) r1 r2) (map (fun p => (p / r2, p mod r2)) (zseq p n)) U V
    = Some (U', V', c) ->
  length U' = length U /\ length V' = length V /\
  (forall k, k < p \/ p + Z.of_nat n <= k -> aget U' k = aget U k /\ aget V' k = aget V k) /\
  forall q, p <= q < p + Z.of_nat n ->
    exists cq, outcome req abs_eb r1 r2 (mix q U' U) (mix q V' V) (q / r2) (q mod r2)
                       (mix (q + 1) U' U) (mix (q + 1) V' V) cq.
Proof.
  intros Hr2. induction n as [|n IH]; intros p U V U' V' c Hp H.
  - cbn in H. apply Some_inj in H. inversion H; subst. repeat split; auto. intros; lia.
  - cbn [zseq map enc_loop] in H. bind_as H [[U1 V1] c1] E1. bind_as H [[U2 V2] c2] E2.
    apply Some_inj in H. inversion H; subst U2 V2 c. clear H.
    apply enc_point_outcome in E1.
    destruct (outcome_local _ _ _ _ _ _ _ _ _ _ _ E1) as (LU & LV & GU & GV).
    replace (p / r2 * r2 + p mod r2) with p in * by lia.
    destruct (IH (p + 1) U1 V1 U' V' c2 ltac:(lia) E2) as (LU' & LV' & Gk & Hq).
    split; [congruence|]. split; [congruence|]. split.
    + intros k Hk. destruct (Gk k ltac:(lia)) as [-> ->]. split; [apply GU|apply GV]; lia.
    + intros q Hqr.
      assert (EmU : forall q', p < q' -> mix q' U' U1 = mix q' U' U).
      { intros q' Hq'. apply aget_ext. intros k. rewrite !aget_mix by (try lia; congruence).
        destruct (Z.ltb_spec k q'); auto. apply GU. lia. }
      assert (EmV : forall q', p < q' -> mix q' V' V1 = mix q' V' V).
      { intros q' Hq'. apply aget_ext. intros k. rewrite !aget_mix by (try lia; congruence).
        destruct (Z.ltb_spec k q'); auto. apply GV. lia. }
      destruct (Z.eq_dec q p) as [->|Hne].
      * exists c1.
        assert (A1 : U = mix p U' U).
        { apply aget_ext. intros k. rewrite aget_mix by (try lia; congruence).
          destruct (Z.ltb_spec k p); auto. symmetry. destruct (Gk k ltac:(lia)) as [-> _]. apply GU. lia. }
        assert (A2 : V = mix p V' V).
        { apply aget_ext. intros k. rewrite aget_mix by (try lia; congruence).
          destruct (Z.ltb_spec k p); auto. symmetry. destruct (Gk k ltac:(lia)) as [_ ->]. apply GV. lia. }
        rewrite <- A1, <- A2.
        rewrite <- (mix_step p U' U U1), <- (mix_step p V' V V1); try congruence; auto.
        -- intros k Hk. rewrite <- A2. auto.
        -- symmetry. apply (Gk p). lia.
        -- intros k Hk. rewrite <- A1. auto.
        -- symmetry. apply (Gk p). lia.
      * destruct (Hq q ltac:(lia)) as [cq Hout]. exists cq.
        rewrite !EmU, !EmV in Hout by lia. exact Hout.
Qed.

(** Every point of the grid is processed once, from the working arrays described by [mix]. *)
Theorem field_trace req abs_eb r1 r2 U V U' V' c :
  0 <= r1 -> 0 < r2 -> Z.of_nat (length U) = r1 * r2 -> Z.of_nat (length V) = r1 * r2 ->
  enc_field A req abs_eb r1 r2 U V = Some (U', V', c) ->
  length U' = length U /\ length V' = length V /\
  forall i j, 0 <= i < r1 -> 0 <= j < r2 ->
    exists cq, outcome req abs_eb r1 r2 (mix (i * r2 + j) U' U) (mix (i * r2 + j) V' V) i j
                       (mix (i * r2 + j + 1) U' U) (mix (i * r2 + j + 1) V' V) cq.
Proof.
  intros H1 H2 LU LV H. unfold enc_field in H. rewrite scan2_map in H by auto. unfold zrange in H.
  destruct (loop_trace req abs_eb r1 r2 H2 _ 0 U V U' V' c ltac:(lia) H) as (L1 & L2 & _ & Hq).
  split; auto. split; auto. intros i j Hi Hj. destruct (Hq (i * r2 + j) ltac:(nia)) as [cq Ho].
  exists cq. rewrite Z.div_add_l, Z.div_small, Z.add_0_r in Ho by lia.
  rewrite Z.add_comm, Z.mod_add, Z.mod_small in Ho by lia.
  rewrite !(Z.add_comm j) in Ho. exact Ho.
Qed.
End Trace.
