(** Encoder/decoder agreement for the 2D online codecs, for every arithmetic. *)
From Coq Require Import List ZArith Lia Bool Arith.
From Coq Require Import ZifyBool ZifyNat.
From Verif Require Import Base Huffman HuffStream Arith Mesh2D Derive2D Codec2D.
Import ListNotations.
Local Open Scope Z_scope.
Ltac Zify.zify_post_hook ::= Z.div_mod_to_equations.

(** ** Scan order *)
Lemma zseq_app lo a b : zseq lo (a + b) = zseq lo a ++ zseq (lo + Z.of_nat a) b.
Proof.
  revert lo; induction a; intros lo; cbn [zseq Nat.add app].
  - f_equal. lia.
  - rewrite IHa. do 3 f_equal. lia.
Qed.

Lemma zseq_length lo n : length (zseq lo n) = n.
Proof. revert lo; induction n; intros; simpl; auto. Qed.

Lemma zseq_map_shift (f : Z -> Z) lo lo' n :
  (forall k, 0 <= k < Z.of_nat n -> f (lo + k) = lo' + k) -> map f (zseq lo n) = zseq lo' n.
Proof.
  revert lo lo'; induction n; intros lo lo' H; cbn [zseq map]; [reflexivity|].
  f_equal.
  - specialize (H 0 ltac:(lia)). rewrite !Z.add_0_r in H. auto.
  - apply IHn. intros k Hk. specialize (H (k + 1) ltac:(lia)).
    replace (lo + 1 + k) with (lo + (k + 1)) by lia. rewrite H. lia.
Qed.

(** Row-major order: point number p is (p / r2, p mod r2). *)
Lemma scan2_map r1 r2 : 0 <= r1 -> 0 < r2 ->
  scan2 r1 r2 = map (fun p => (p / r2, p mod r2)) (zrange 0 (r1 * r2)).
Proof.
  intros H1 H2. unfold scan2, zrange. rewrite !Z.sub_0_r.
  replace (Z.to_nat (r1 * r2)) with (Z.to_nat r1 * Z.to_nat r2)%nat by nia.
  assert (G : forall n lo, 0 <= lo ->
    flat_map (fun i => map (fun j => (i, j)) (zseq 0 (Z.to_nat r2))) (zseq lo n)
    = map (fun p => (p / r2, p mod r2)) (zseq (lo * r2) (n * Z.to_nat r2))).
  { induction n; intros lo Hlo; cbn [zseq flat_map Nat.mul]; [reflexivity|].
    rewrite zseq_app, map_app. rewrite IHn by lia. f_equal.
    - rewrite <- (zseq_map_shift (fun p => p mod r2) (lo * r2) 0).
      + rewrite map_map. apply map_ext_in. intros p Hp. apply in_zseq in Hp. f_equal.
        apply Z.div_unique with (r := p - lo * r2); lia.
      + intros k Hk. rewrite Z.add_comm, Z.mod_add, Z.mod_small by lia. lia.
    - do 2 f_equal. nia. }
  apply (G (Z.to_nat r1) 0). lia.
Qed.

(** ** Arrays *)
Lemma aget_Some {X} (l : list X) i x : aget l i = Some x -> 0 <= i < Z.of_nat (length l).
Proof.
  unfold aget. destruct (i <? 0) eqn:E; [discriminate|]. intros H.
  assert (Z.to_nat i < length l)%nat by (apply nth_error_Some; congruence). lia.
Qed.

Lemma aset_Some {X} (l : list X) i x l' : aset l i x = Some l' ->
  0 <= i < Z.of_nat (length l) /\ length l' = length l /\
  (forall k, aget l' k = if k =? i then Some x else aget l k).
Proof.
  unfold aset. destruct (i <? 0) eqn:E; [discriminate|]. intros H. apply upd_Some in H as [Hl ->].
  split; [lia|]. split; [apply setn_length|]. intros k. unfold aget.
  destruct (k <? 0) eqn:Ek; [replace (k =? i) with false by lia; auto|].
  destruct (Z.eqb_spec k i) as [->|Hne].
  - apply nth_error_setn_eq. lia.
  - apply nth_error_setn_ne. lia.
Qed.

Lemma aset_ok {X} (l : list X) i x : 0 <= i < Z.of_nat (length l) -> exists l', aset l i x = Some l'.
Proof.
  intros H. unfold aset. replace (i <? 0) with false by lia. rewrite upd_setn by lia. eauto.
Qed.

Lemma aget_ok {X} (l : list X) i : 0 <= i < Z.of_nat (length l) -> exists x, aget l i = Some x.
Proof.
  intros H. unfold aget. replace (i <? 0) with false by lia.
  destruct (nth_error l (Z.to_nat i)) eqn:E; eauto. apply nth_error_None in E. lia.
Qed.

Lemma aget_ext {X} (l l' : list X) : (forall k, aget l k = aget l' k) -> l = l'.
Proof.
  intros H. apply nth_error_ext'. intros i. specialize (H (Z.of_nat i)). unfold aget in H.
  replace (Z.of_nat i <? 0) with false in H by lia. rewrite Nat2Z.id in H. auto.
Qed.

(** Decoder array [d] agrees with the encoder's working array [w] on the first [p] cells. *)
Definition synced {X} (p : Z) (w : list X) (d : list (option X)) : Prop :=
  length d = length w /\ forall m, 0 <= m < p -> aget d m = option_map Some (aget w m).

Lemma synced_uget {X} p (w : list X) d m x :
  synced p w d -> 0 <= m < p -> aget w m = Some x -> uget d m = Some x.
Proof. intros [_ H] Hm E. unfold uget. rewrite H, E by auto. reflexivity. Qed.

Lemma synced_written {X} (w : list X) d : synced (Z.of_nat (length w)) w d -> written d = Some w.
Proof.
  revert d; induction w as [|x w IH]; intros d [Hl H].
  - destruct d; [reflexivity|discriminate].
  - destruct d as [|o d]; [discriminate|]. pose proof (H 0) as H0. simpl length in H0.
    specialize (H0 ltac:(lia)). cbn in H0. injection H0 as ->. cbn [written].
    rewrite IH; [reflexivity|]. split; [simpl in Hl; lia|]. intros m Hm.
    specialize (H (m + 1)). simpl length in H. specialize (H ltac:(lia)). unfold aget in *.
    replace (m + 1 <? 0) with false in H by lia. replace (m <? 0) with false by lia.
    replace (Z.to_nat (m + 1)) with (S (Z.to_nat m)) in H by lia. exact H.
Qed.

(** Writing the same value at position p on both sides (the encoder's array may also be left unchanged
    there if it already holds the value). *)
Lemma synced_step {X} p (w w' : list X) d x :
  synced p w d -> 0 <= p -> length w' = length w -> aget w' p = Some x ->
  (forall k, k < p -> aget w' k = aget w k) ->
  exists d', aset d p (Some x) = Some d' /\ synced (p + 1) w' d'.
Proof.
  intros [Hl H] Hp Hl' Hx Hk. pose proof (aget_Some _ _ _ Hx).
  destruct (aset_ok d p (Some x)) as [d' E]; [lia|]. exists d'. split; auto.
  destruct (aset_Some _ _ _ _ E) as (_ & Hd & Hg). split; [lia|].
  intros m Hm. rewrite Hg. destruct (Z.eqb_spec m p) as [->|Hne].
  - rewrite Hx. reflexivity.
  - rewrite Hk by lia. apply H. lia.
Qed.

Section Sync.
Context (A : Arith).

Lemma lorenzo_sync p w d r2 i j x :
  synced p w d -> p = i * r2 + j -> 0 <= i -> 0 <= j < r2 ->
  lorenzo A w r2 i j = Some x -> lorenzo_dec A d r2 i j = Some x.
Proof.
  intros HS Hp Hi Hj. unfold lorenzo, lorenzo_dec. intros H.
  inv_bind H. inv_bind H. inv_bind H.
  assert (G : forall (b : bool) m y,
            (if b then aget w m else Some (t0 A)) = Some y -> (b = true -> 0 <= m < p) ->
            (if b then uget d m else Some (t0 A)) = Some y).
  { intros [|] m y E Hm; auto. eapply synced_uget; eauto. }
  rewrite (G _ _ _ Ha) by nia. cbn [bind]. rewrite (G _ _ _ Ha0) by nia. cbn [bind].
  rewrite (G _ _ _ Ha1) by nia. cbn [bind]. exact H.
Qed.

Lemma try_component_dec base thr w d r2 i j cur eb0 id q x p :
  synced p w d -> p = i * r2 + j -> 0 <= i -> 0 <= j < r2 ->
  try_component A base thr w r2 i j cur eb0 = Some (id, Some (Coded A q x)) ->
  0 < id /\ exists pred, lorenzo_dec A d r2 i j = Some pred /\
    x = recon A pred intv_radius q (dmul A (dpow A base id) thr).
Proof.
  intros HS Hp Hi Hj H. unfold try_component in H. bind_as H [id' eb] Hq.
  unfold eb_exponential_quantize in Hq. destruct (dle A eb0 thr).
  - apply Some_inj in Hq. inversion Hq; subst. cbn in H. discriminate.
  - bind_as Hq id'' Hi'. apply Some_inj in Hq. inversion Hq; subst id'' eb. clear Hq.
    destruct (0 <? id') eqn:Eid.
    + bind_as H pr Hpr. bind_as H a Hat. apply Some_inj in H. inversion H; subst a id'. clear H.
      split; [lia|]. exists pr. split; [eapply lorenzo_sync; eauto|].
      unfold quantise in Hat. destruct (dlt _ _ _) in Hat; [|discriminate].
      bind_as Hat h Hh. destruct (dle _ _ _) in Hat; [discriminate|]. congruence.
    + apply Some_inj in H. congruence.
Qed.

(** One point. *)
Lemma point_sync req abs_eb base thr r1 r2 U V i j U' V' c p dU dV c' :
  p = i * r2 + j -> 0 <= i -> 0 <= j < r2 ->
  enc_point A req abs_eb base thr r1 r2 U V (i, j) = Some (U', V', c) ->
  synced p U dU -> synced p V dV ->
  exists dU' dV',
    dec_point A base thr intv_radius r2 dU dV (code_app c c') (i, j) = Some (dU', dV', c') /\
    synced (p + 1) U' dU' /\ synced (p + 1) V' dV' /\
    length U' = length U /\ length V' = length V /\
    (forall k, k <> p -> aget U' k = aget U k) /\ (forall k, k <> p -> aget V' k = aget V k) /\
    length (c_eb c) = 2%nat /\ length (c_q c) = 2%nat.
Proof.
  intros Hp Hi Hj H SU SV. unfold enc_point in H. rewrite <- Hp in H.
  inv_bind H. rename a into u, Ha into Hu. inv_bind H. rename a into v, Ha into Hv.
  inv_bind H. rename a into eb, Ha into Heb.
  assert (HV : Some (U, V, verbatim A u v) = Some (U', V', c) -> exists dU' dV',
    dec_point A base thr intv_radius r2 dU dV (code_app c c') (i, j) = Some (dU', dV', c') /\
    synced (p + 1) U' dU' /\ synced (p + 1) V' dV' /\
    length U' = length U /\ length V' = length V /\
    (forall k, k <> p -> aget U' k = aget U k) /\ (forall k, k <> p -> aget V' k = aget V k) /\
    length (c_eb c) = 2%nat /\ length (c_q c) = 2%nat).
  { intros E. apply Some_inj in E. inversion E; subst U' V' c. clear E.
    unfold dec_point, verbatim, code_app. cbn [c_eb c_q c_unp app]. rewrite <- Hp. cbn [Z.eqb].
    destruct (synced_step p U U dU u SU) as (dU' & EU & SU'); auto; [nia|].
    destruct (synced_step p V V dV v SV) as (dV' & EV & SV'); auto; [nia|].
    rewrite EU. cbn [bind]. rewrite EV. cbn [bind]. destruct c' as [e' q' n']. eexists _, _. repeat split; eauto; apply SU' || apply SV'. }
  destruct (dlt A _ eb); [|auto].
  inv_bind H. destruct a as [id0 a0]. rename Ha into H0.
  destruct a0 as [[|q0 x0]|]; [auto| |].
  2:{ inv_bind H. destruct a as [id1 a1]. auto. }
  inv_bind H. destruct a as [id1 a1]. rename Ha into H1.
  destruct a1 as [[|q1 x1]|]; [auto| |auto].
  inv_bind H. rename a into U1. inv_bind H. rename a into V1.
  apply Some_inj in H. inversion H; subst U1 V1 c. clear H HV.
  destruct (try_component_dec _ _ _ _ _ _ _ _ _ _ _ _ p SU Hp Hi Hj H0) as (Hid0 & pr0 & Hl0 & Hx0).
  destruct (try_component_dec _ _ _ _ _ _ _ _ _ _ _ _ p SV Hp Hi Hj H1) as (Hid1 & pr1 & Hl1 & Hx1).
  destruct (aset_Some _ _ _ _ Ha) as (_ & LU & GU). destruct (aset_Some _ _ _ _ Ha0) as (_ & LV & GV).
  destruct (synced_step p U U' dU x0 SU) as (dU' & EU & SU'); auto.
  { nia. } { rewrite GU, Z.eqb_refl. auto. } { intros k Hk. rewrite GU. replace (k =? p) with false by lia. auto. }
  destruct (synced_step p V V' dV x1 SV) as (dV' & EV & SV'); auto.
  { nia. } { rewrite GV, Z.eqb_refl. auto. } { intros k Hk. rewrite GV. replace (k =? p) with false by lia. auto. }
  exists dU', dV'. unfold dec_point, code_app. cbn [c_eb c_q c_unp app].
  replace (id0 =? 0) with false by lia. unfold dec_component.
  rewrite Hl0. cbn [bind]. rewrite <- Hx0, <- Hp, EU. cbn [bind].
  rewrite Hl1. cbn [bind]. rewrite <- Hx1, EV. cbn [bind]. destruct c' as [e' q' n']. cbn [c_eb c_q c_unp].
  split; [reflexivity|]. repeat split; auto; try apply SU'; try apply SV'.
  - intros k Hk. rewrite GU. replace (k =? p) with false by lia. auto.
  - intros k Hk. rewrite GV. replace (k =? p) with false by lia. auto.
Qed.

Lemma loop_sync req abs_eb base thr r1 r2 : 0 < r2 -> forall n p U V U' V' c dU dV,
  0 <= p ->
  enc_loop A (enc_point A req abs_eb base thr r1 r2) (map (fun p => (p / r2, p mod r2)) (zseq p n)) U V
    = Some (U', V', c) ->
  synced p U dU -> synced p V dV ->
  length U' = length U /\ length V' = length V /\
  length (c_eb c) = (2 * n)%nat /\ length (c_q c) = (2 * n)%nat /\
  forall c', exists dU' dV',
    dec_loop A (dec_point A base thr intv_radius r2) (map (fun p => (p / r2, p mod r2)) (zseq p n)) dU dV
             (code_app c c') = Some (dU', dV') /\
    synced (p + Z.of_nat n) U' dU' /\ synced (p + Z.of_nat n) V' dV'.
Proof.
  intros Hr2. induction n as [|n IH]; intros p U V U' V' c dU dV Hp H SU SV.
  - cbn in H. apply Some_inj in H. inversion H; subst. repeat split; auto. intros c'. exists dU, dV.
    cbn [zseq map dec_loop Z.of_nat]. rewrite Z.add_0_r. auto.
  - cbn [zseq map enc_loop] in H. inv_bind H. destruct a as [[U1 V1] c1]. inv_bind H. destruct a as [[U2 V2] c2].
    apply Some_inj in H. inversion H; subst U2 V2 c. clear H.
    assert (Hp' : p = p / r2 * r2 + p mod r2) by lia.
    pose proof (Z.mod_pos_bound p r2 Hr2) as Hj. pose proof (Z.div_pos p r2 Hp Hr2) as Hi.
    destruct (point_sync req abs_eb base thr r1 r2 U V (p / r2) (p mod r2) U1 V1 c1 p dU dV code_nil Hp' Hi Hj Ha SU SV)
      as (dU1 & dV1 & _ & SU1 & SV1 & LU & LV & _ & _ & L1 & L2).
    destruct (IH (p + 1) U1 V1 U' V' c2 dU1 dV1 ltac:(lia) Ha0 SU1 SV1) as (LU' & LV' & L3 & L4 & HD).
    split; [congruence|]. split; [congruence|]. cbn [code_app c_eb c_q].
    split; [rewrite app_length; lia|]. split; [rewrite app_length; lia|].
    intros c'.
    destruct (point_sync req abs_eb base thr r1 r2 U V (p / r2) (p mod r2) U1 V1 c1 p dU dV (code_app c2 c')
              Hp' Hi Hj Ha SU SV) as (dU1' & dV1' & E1 & SU1' & SV1' & _).
    destruct (IH (p + 1) U1 V1 U' V' c2 dU1' dV1' ltac:(lia) Ha0 SU1' SV1') as (_ & _ & _ & _ & HD').
    destruct (HD' c') as (dU2 & dV2 & E2 & S2 & S3).
    exists dU2, dV2. cbn [zseq map dec_loop].
    replace (code_app (code_app c1 c2) c') with (code_app c1 (code_app c2 c'))
      by (unfold code_app; cbn; rewrite !app_assoc; reflexivity).
    rewrite E1. cbn [bind]. split; [exact E2|].
    replace (p + Z.of_nat (S n)) with (p + 1 + Z.of_nat n) by lia. auto.
Qed.

(** The arrays handed to the entropy coder determine the field. *)
Theorem field_sync req abs_eb r1 r2 U V U' V' c :
  0 <= r1 -> 0 < r2 -> Z.of_nat (length U) = r1 * r2 -> Z.of_nat (length V) = r1 * r2 ->
  enc_field A req abs_eb r1 r2 U V = Some (U', V', c) ->
  length (c_eb c) = (2 * Z.to_nat (r1 * r2))%nat /\ length (c_q c) = (2 * Z.to_nat (r1 * r2))%nat /\
  length U' = length U /\ length V' = length V /\
  exists dU dV,
    dec_loop A (dec_point A 4 (eps_double A) intv_radius r2) (scan2 r1 r2)
             (repeat None (Z.to_nat (r1 * r2))) (repeat None (Z.to_nat (r1 * r2))) c = Some (dU, dV) /\
    written dU = Some U' /\ written dV = Some V'.
Proof.
  intros H1 H2 LU LV H. unfold enc_field in H. rewrite scan2_map in H by auto. unfold zrange in H.
  rewrite Z.sub_0_r in H.
  assert (S0 : forall W : list (T A), Z.of_nat (length W) = r1 * r2 ->
            synced 0 W (repeat None (Z.to_nat (r1 * r2)))).
  { intros W HW. split; [rewrite repeat_length; lia|]. intros; lia. }
  destruct (loop_sync req abs_eb 4 (eps_double A) r1 r2 H2 _ 0 U V U' V' c _ _ ltac:(lia) H (S0 U LU) (S0 V LV))
    as (LU' & LV' & L1 & L2 & HD).
  repeat split; auto. destruct (HD code_nil) as (dU & dV & E & SU & SV).
  exists dU, dV. rewrite scan2_map by auto. unfold zrange. rewrite Z.sub_0_r.
  replace (code_app c code_nil) with c in E
    by (unfold code_app, code_nil; destruct c; cbn; rewrite !app_nil_r; reflexivity).
  split; [exact E|]. split; apply synced_written.
  - replace (Z.of_nat (length U')) with (0 + Z.of_nat (Z.to_nat (r1 * r2))) by lia. auto.
  - replace (Z.of_nat (length V')) with (0 + Z.of_nat (Z.to_nat (r1 * r2))) by lia. auto.
Qed.
End Sync.
