(** Encoder/decoder agreement for the relaxed codec, for every arithmetic. *)
From Coq Require Import List ZArith Lia Bool Arith.
From Coq Require Import ZifyBool ZifyNat.
From Verif Require Import Base Huffman Arith Mesh2D Derive2D Codec2D Sync2D Scan Relax2D.
Import ListNotations.
Local Open Scope Z_scope.
Ltac Zify.zify_post_hook ::= Z.div_mod_to_equations.

Section Sync.
Context (A : Arith).

(** A component coded with index [q] under the bound of index [id]. *)
Definition relax_coded (w : list (T A)) r2 i j cur (eb0 : D A) (id q : Z) (x : T A) : Prop :=
  exists abs_eb, eb_exponential_quantize A 4 (eps_double A) eb0 = Some (id, abs_eb) /\
    relax_component A w r2 i j cur abs_eb = Some (Some (q, x)).

(** The bounds that are tried: max_eb, then half of its quantised value. *)
Inductive tried (max_eb : D A) : D A -> Prop :=
| tried_first : tried max_eb max_eb
| tried_half id a : eb_exponential_quantize A 4 (eps_double A) max_eb = Some (id, a) -> tried max_eb (ddiv A a (dofZ A 2)).

Inductive relax_outcome (cp : list bool) (max_eb : D A) r1 r2 U V i j : list (T A) -> list (T A) -> code (T A) -> Prop :=
| ro_verbatim u v : aget U (i * r2 + j) = Some u -> aget V (i * r2 + j) = Some v ->
    relax_outcome cp max_eb r1 r2 U V i j U V (verbatim A u v)
| ro_coded u v eb0 id q0 q1 x0 x1 U' V' : aget U (i * r2 + j) = Some u -> aget V (i * r2 + j) = Some v ->
    adj_cp cp r1 r2 i j six = Some false -> tried max_eb eb0 ->
    relax_coded U r2 i j u eb0 id q0 x0 -> relax_coded V r2 i j v eb0 id q1 x1 ->
    verify_cp A U V r1 r2 i j (x0, x1) six = Some true ->
    aset U (i * r2 + j) x0 = Some U' -> aset V (i * r2 + j) x1 = Some V' ->
    relax_outcome cp max_eb r1 r2 U V i j U' V' {| c_eb := [id; id]; c_q := [q0; q1]; c_unp := [] |}.

Lemma relax_iter_inv fuel U V r1 r2 i j u v eb0 n r n' :
  relax_loop A (S fuel) U V r1 r2 i j u v eb0 n = Some (r, n') -> 0 <= n ->
  n <= n' /\
  (r = None \/
   (exists id q0 q1 x0 x1, r = Some (id, q0, q1, x0, x1) /\ relax_coded U r2 i j u eb0 id q0 x0 /\
      relax_coded V r2 i j v eb0 id q1 x1 /\ verify_cp A U V r1 r2 i j (x0, x1) six = Some true) \/
   (exists id a, eb_exponential_quantize A 4 (eps_double A) eb0 = Some (id, a) /\ n + 1 <= 1 /\
      relax_loop A fuel U V r1 r2 i j u v (ddiv A a (dofZ A 2)) (n + 1) = Some (r, n'))).
Proof.
  intros H Hn. cbn [relax_loop] in H. bind_as H [id a] Eq. bind_as H c0 E0.
  destruct c0 as [[q0 x0]|]; [|apply Some_inj in H; injection H as E1 E2; subst; split; [lia|auto]].
  bind_as H c1 E1. destruct c1 as [[q1 x1]|]; [|apply Some_inj in H; injection H as E2 E3; subst; split; [lia|auto]].
  bind_as H ok Ev. destruct ok.
  - apply Some_inj in H. injection H as E2 E3. subst. split; [lia|]. right. left. exists id, q0, q1, x0, x1.
    split; auto. split; [exists a; auto|]. split; [exists a; auto|auto].
  - destruct (1 <? n + 1) eqn:E; [apply Some_inj in H; injection H as E2 E3; subst; split; [lia|auto]|].
    split; [|right; right; exists id, a; split; auto; split; [lia|auto]].
    clear -H Hn. destruct fuel as [|fuel]; [discriminate|]. remember (ddiv A a _) as b eqn:Eb; clear Eb.
    assert (G : forall fuel b n, relax_loop A fuel U V r1 r2 i j u v b n = Some (r, n') -> n <= n').
    { clear. induction fuel as [|fuel IH]; intros b n H; [discriminate|]. cbn [relax_loop] in H.
      bind_as H [id a] Eq. bind_as H c0 E0.
      destruct c0 as [[q0 x0]|]; [|apply Some_inj in H; injection H as E1 E2; subst; lia].
      bind_as H c1 E1. destruct c1 as [[q1 x1]|]; [|apply Some_inj in H; injection H as E2 E3; subst; lia].
      bind_as H ok Ev. destruct ok; [apply Some_inj in H; injection H as E2 E3; subst; lia|].
      destruct (1 <? n + 1); [apply Some_inj in H; injection H as E2 E3; subst; lia|].
      apply IH in H. lia. }
    apply G in H. lia.
Qed.

Lemma relax_point_inv cp max_eb r1 r2 U V n i j U' V' n' c : 0 <= n ->
  relax_point A cp max_eb r1 r2 (U, V, n) (i, j) = Some (U', V', n', c) ->
  0 <= n' /\ relax_outcome cp max_eb r1 r2 U V i j U' V' c.
Proof.
  intros Hn H. cbn [relax_point] in H. bind_as H u Eu. bind_as H v Ev. bind_as H blk Eb.
  destruct blk.
  { apply Some_inj in H. injection H as E1 E2 E3 E4. subst. split; auto. constructor; auto. }
  assert (Ea : adj_cp cp r1 r2 i j six = Some false) by (destruct (_ && _) in Eb; [discriminate|auto]).
  bind_as H [r m] Er. apply relax_iter_inv in Er; auto. destruct Er as [Hm Er].
  assert (K : r = None \/ exists eb0 id q0 q1 x0 x1, tried max_eb eb0 /\ r = Some (id, q0, q1, x0, x1) /\
     relax_coded U r2 i j u eb0 id q0 x0 /\
     relax_coded V r2 i j v eb0 id q1 x1 /\ verify_cp A U V r1 r2 i j (x0, x1) six = Some true).
  { destruct Er as [Er|[Er|(id & a & E1 & E2 & E3)]]; auto.
    - destruct Er as (id & q0 & q1 & x0 & x1 & Er). right. exists max_eb, id, q0, q1, x0, x1. split; [constructor|auto].
    - apply relax_iter_inv in E3; [|lia]. destruct E3 as [_ [Er|[Er|(id' & a' & E4 & E5 & E6)]]]; auto.
      + destruct Er as (id' & q0 & q1 & x0 & x1 & Er). right. exists (ddiv A a (dofZ A 2)), id', q0, q1, x0, x1. split; [exact (tried_half _ _ _ E1)|auto].
      + discriminate. }
  destruct K as [->|(eb0 & id & q0 & q1 & x0 & x1 & Ht & -> & C0 & C1 & Hv)].
  - apply Some_inj in H. injection H as E1 E2 E3 E4. subst. split; [lia|]. constructor; auto.
  - bind_as H U1 EU. bind_as H V1 EV. apply Some_inj in H. injection H as E1 E2 E3 E4. subst. split; [lia|].
    econstructor; eauto.
Qed.

(** One point and the decompressor. *)
Lemma relax_coded_dec w d r2 i j cur eb0 id q x p :
  synced p w d -> p = i * r2 + j -> 0 <= i -> 0 <= j < r2 -> id <> 0 ->
  relax_coded w r2 i j cur eb0 id q x ->
  exists pred, lorenzo_dec A d r2 i j = Some pred /\ x = recon A pred intv_radius q (dmul A (dpow A 4 id) (eps_double A)).
Proof.
  intros HS Hp Hi Hj Hid (a & Hq & H). unfold relax_component in H. bind_as H pr Hpr.
  exists pr. split; [eapply lorenzo_sync; eauto|].
  destruct (tlt A _ _) in H; [|discriminate]. bind_as H h Hh. apply Some_inj in H. injection H as E1 E2. subst q x.
  unfold eb_exponential_quantize in Hq. destruct (dle A _ _) in Hq.
  - apply Some_inj in Hq. injection Hq as E _. congruence.
  - bind_as Hq z Hz. apply Some_inj in Hq. injection Hq as E1 E2. subst. reflexivity.
Qed.

Lemma outcome_lens cp max_eb r1 r2 U V i j U' V' c : relax_outcome cp max_eb r1 r2 U V i j U' V' c ->
  length (c_eb c) = 2%nat /\ length (c_q c) = 2%nat /\ length U' = length U /\ length V' = length V /\
  (forall k, k <> i * r2 + j -> aget U' k = aget U k) /\ (forall k, k <> i * r2 + j -> aget V' k = aget V k).
Proof.
  intros H. destruct H as [u v|u v eb0 id q0 q1 x0 x1 U' V' _ _ _ _ _ _ _ EU EV].
  - repeat split; auto.
  - destruct (aset_Some _ _ _ _ EU) as (_ & LU & GU). destruct (aset_Some _ _ _ _ EV) as (_ & LV & GV).
    cbn [c_eb c_q length]. repeat split; auto.
    + intros k Hk. rewrite GU. replace (k =? i * r2 + j) with false by lia. auto.
    + intros k Hk. rewrite GV. replace (k =? i * r2 + j) with false by lia. auto.
Qed.

(** Coded points have nonzero indices. *)
Definition id_ok (c : code (T A)) : Prop := length (c_unp c) = length (filter (Z.eqb 0) (c_eb c)).

Lemma relax_point_sync cp max_eb r1 r2 U V i j U' V' c p dU dV c' :
  p = i * r2 + j -> 0 <= i -> 0 <= j < r2 ->
  relax_outcome cp max_eb r1 r2 U V i j U' V' c -> id_ok c ->
  synced p U dU -> synced p V dV ->
  exists dU' dV', dec_point A 4 (eps_double A) intv_radius r2 dU dV (code_app c c') (i, j) = Some (dU', dV', c') /\
    synced (p + 1) U' dU' /\ synced (p + 1) V' dV'.
Proof.
  intros Hp Hi Hj HO HI SU SV. destruct HO as [u v Eu Ev|u v eb0 id q0 q1 x0 x1 U' V' Eu Ev _ _ C0 C1 _ EU EV].
  - destruct (synced_step p U U dU u SU) as (dU' & XU & SU'); auto; [nia|congruence|].
    destruct (synced_step p V V dV v SV) as (dV' & XV & SV'); auto; [nia|congruence|].
    exists dU', dV'. unfold dec_point, verbatim, code_app. cbn [c_eb c_q c_unp app Z.eqb]. rewrite <- Hp, XU. cbn [bind].
    rewrite XV. cbn [bind]. destruct c'. auto.
  - assert (Hid : id <> 0).
    { intros ->. unfold id_ok in HI. cbn in HI. discriminate. }
    destruct (relax_coded_dec _ _ _ _ _ _ _ _ _ _ p SU Hp Hi Hj Hid C0) as (pr0 & L0 & X0).
    destruct (relax_coded_dec _ _ _ _ _ _ _ _ _ _ p SV Hp Hi Hj Hid C1) as (pr1 & L1 & X1).
    rewrite <- Hp in *. destruct (aset_Some _ _ _ _ EU) as (_ & LU & GU). destruct (aset_Some _ _ _ _ EV) as (_ & LV & GV).
    destruct (synced_step p U U' dU x0 SU) as (dU' & YU & SU'); auto.
    { nia. } { rewrite GU, Z.eqb_refl. auto. } { intros k Hk. rewrite GU. replace (k =? p) with false by lia. auto. }
    destruct (synced_step p V V' dV x1 SV) as (dV' & YV & SV'); auto.
    { nia. } { rewrite GV, Z.eqb_refl. auto. } { intros k Hk. rewrite GV. replace (k =? p) with false by lia. auto. }
    exists dU', dV'. unfold dec_point, code_app. cbn [c_eb c_q c_unp app].
    replace (id =? 0) with false by lia. unfold dec_component.
    rewrite L0. cbn [bind]. rewrite <- X0, <- Hp, YU. cbn [bind].
    rewrite L1. cbn [bind]. rewrite <- X1, YV. cbn [bind]. destruct c'. auto.
Qed.

(** Loop of the decompressor as a scan. *)
Lemma dec_loop_scan step pts : forall U V c,
  dec_loop A step pts U V c = option_map fst (scan_dec (fun s c p => step (fst s) (snd s) c p) pts (U, V) c).
Proof.
  induction pts as [|p pts IH]; intros U V c; cbn [dec_loop scan_dec]; [reflexivity|].
  cbn [fst snd]. destruct (step U V c p) as [[[U1 V1] c1]|]; cbn [bind option_map]; [apply IH|reflexivity].
Qed.


Definition id_le (c : code (T A)) : Prop := (length (c_unp c) <= length (filter (Z.eqb 0) (c_eb c)))%nat.
Lemma id_le_outcome cp max_eb r1 r2 U V i j U' V' c : relax_outcome cp max_eb r1 r2 U V i j U' V' c -> id_le c.
Proof. intros H. destruct H; unfold id_le; cbn [c_unp c_eb filter length verbatim]; [cbn; lia|apply Nat.le_0_l]. Qed.
Lemma filter_app_len c1 c2 : length (filter (Z.eqb 0) (c_eb (@code_app (T A) c1 c2))) =
  (length (filter (Z.eqb 0) (c_eb c1)) + length (filter (Z.eqb 0) (c_eb c2)))%nat.
Proof. cbn [code_app c_eb]. rewrite filter_app, app_length. reflexivity. Qed.

Lemma scan_id_le cp max_eb r1 r2 : forall pts s s' c, 0 <= snd s ->
  scan_enc (relax_point A cp max_eb r1 r2) pts s = Some (s', c) ->
  id_le c /\ 0 <= snd s'.
Proof.
  induction pts as [|[i j] pts IH]; intros s s' c Hs H; cbn [scan_enc] in H.
  - apply Some_inj in H. injection H as E1 E2. subst. split; auto. unfold id_le. cbn. lia.
  - bind_as H [s1 c1] E1. bind_as H [s2 c2] E2. apply Some_inj in H. injection H as E3 E4. subst.
    destruct s as [[U V] n], s1 as [[U1 V1] n1]. cbn [snd] in Hs. apply relax_point_inv in E1; auto. destruct E1 as [Hn1 O].
    apply IH in E2; auto. destruct E2 as [L2 H2]. split; auto. apply id_le_outcome in O. unfold id_le in *.
    rewrite filter_app_len. cbn [code_app c_unp]. rewrite app_length. lia.
Qed.

Theorem scan_relax_sync cp max_eb r1 r2 : 0 < r2 -> forall pts k s s' c dU dV,
  (forall m ij, nth_error pts m = Some ij -> 0 <= fst ij /\ 0 <= snd ij < r2 /\ fst ij * r2 + snd ij = k + Z.of_nat m) ->
  0 <= k -> 0 <= snd s ->
  scan_enc (relax_point A cp max_eb r1 r2) pts s = Some (s', c) -> id_ok c ->
  synced k (fst (fst s)) dU -> synced k (snd (fst s)) dV ->
  length (c_eb c) = (2 * length pts)%nat /\ length (c_q c) = (2 * length pts)%nat /\
  length (fst (fst s')) = length (fst (fst s)) /\ length (snd (fst s')) = length (snd (fst s)) /\
  forall rest, exists dU' dV',
    scan_dec (fun d c p => dec_point A 4 (eps_double A) intv_radius r2 (fst d) (snd d) c p) pts (dU, dV) (code_app c rest)
      = Some ((dU', dV'), rest) /\
    synced (k + Z.of_nat (length pts)) (fst (fst s')) dU' /\ synced (k + Z.of_nat (length pts)) (snd (fst s')) dV'.
Proof.
  intros Hr2. induction pts as [|[i j] pts IH]; intros k s s' c dU dV HP Hk Hs H HI SU SV; cbn [scan_enc] in H.
  - apply Some_inj in H. injection H as E1 E2. subst. repeat split; auto. intros rest. exists dU, dV.
    cbn [scan_dec length Z.of_nat]. rewrite Z.add_0_r. destruct rest. auto.
  - bind_as H [s1 c1] E1. bind_as H [s2 c2] E2. apply Some_inj in H. injection H as E3 E4. subst.
    destruct s as [[U V] n], s1 as [[U1 V1] n1]. cbn [snd fst] in *.
    apply relax_point_inv in E1; auto. destruct E1 as [Hn1 O].
    assert (HL2 := proj1 (scan_id_le _ _ _ _ _ (U1, V1, n1) _ _ Hn1 E2)).
    assert (HL1 := id_le_outcome _ _ _ _ _ _ _ _ _ _ _ O).
    assert (I1 : id_ok c1 /\ id_ok c2).
    { unfold id_ok, id_le in *. rewrite filter_app_len in HI. cbn [code_app c_unp] in HI. rewrite app_length in HI. lia. }
    destruct I1 as [I1 I2].
    destruct (HP 0%nat _ eq_refl) as (Pi & Pj & Pk). cbn [fst snd] in *.
    assert (Hp0 : k = i * r2 + j) by lia.
    destruct (outcome_lens _ _ _ _ _ _ _ _ _ _ _ O) as (L1 & L2 & LU & LV & _).
    destruct (relax_point_sync _ _ _ _ _ _ _ _ _ _ _ k dU dV code_nil Hp0 Pi Pj O I1 SU SV) as (dU1 & dV1 & _ & SU1 & SV1).
    assert (HP' : forall m ij, nth_error pts m = Some ij ->
              0 <= fst ij /\ 0 <= snd ij < r2 /\ fst ij * r2 + snd ij = k + 1 + Z.of_nat m).
    { intros m ij Hm. destruct (HP (S m) ij Hm) as (P1 & P2 & P3). repeat split; auto; lia. }
    destruct (IH (k + 1) (U1, V1, n1) _ _ dU1 dV1 HP' ltac:(lia) Hn1 E2 I2 SU1 SV1) as (L3 & L4 & L5 & L6 & _).
    cbn [code_app c_eb c_q length]. rewrite !app_length. cbn [fst snd] in *.
    split; [lia|]. split; [lia|]. split; [congruence|]. split; [congruence|].
    intros rest.
    destruct (relax_point_sync _ _ _ _ _ _ _ _ _ _ _ k dU dV (code_app c2 rest) Hp0 Pi Pj O I1 SU SV)
      as (dU2 & dV2 & D2 & SU2 & SV2).
    destruct (IH (k + 1) (U1, V1, n1) _ _ dU2 dV2 HP' ltac:(lia) Hn1 E2 I2 SU2 SV2) as (_ & _ & _ & _ & HD).
    destruct (HD rest) as (dU3 & dV3 & D3 & S3 & S4). exists dU3, dV3. rewrite code_app_assoc. cbn [scan_dec fst snd].
    rewrite D2. cbn [bind]. split; [exact D3|].
    replace (k + Z.of_nat (S (length pts))) with (k + 1 + Z.of_nat (length pts)) by lia. auto.
Qed.

(** The arrays handed to the entropy coder determine the field. *)
Theorem relax_field_sync max_eb r1 r2 U V U' V' c :
  0 <= r1 -> 0 < r2 -> Z.of_nat (length U) = r1 * r2 -> Z.of_nat (length V) = r1 * r2 ->
  enc_relax A max_eb r1 r2 U V = Some (U', V', c) -> id_ok c ->
  length (c_eb c) = (2 * Z.to_nat (r1 * r2))%nat /\ length (c_q c) = (2 * Z.to_nat (r1 * r2))%nat /\
  length U' = length U /\ length V' = length V /\
  exists dU dV,
    dec_loop A (dec_point A 4 (eps_double A) intv_radius r2) (scan2 r1 r2)
             (repeat None (Z.to_nat (r1 * r2))) (repeat None (Z.to_nat (r1 * r2))) c = Some (dU, dV) /\
    written dU = Some U' /\ written dV = Some V'.
Proof.
  intros H1 H2 LU LV H HI. unfold enc_relax in H. bind_as H cp Ecp. bind_as H [s cc] E. apply Some_inj in H.
  injection H as E1 E2 E3. subst U' V' cc.
  assert (S0 : forall W : list (T A), Z.of_nat (length W) = r1 * r2 ->
            synced 0 W (repeat None (Z.to_nat (r1 * r2)))).
  { intros W HW. split; [rewrite repeat_length; lia|]. intros; lia. }
  destruct (scan_relax_sync cp max_eb r1 r2 H2 (scan2 r1 r2) 0 (U, V, 0) s c (repeat None (Z.to_nat (r1 * r2)))
    (repeat None (Z.to_nat (r1 * r2)))) as (L1 & L2 & L3 & L4 & HD);
    [|lia|cbn [snd]; lia|exact E|exact HI|apply S0; auto|apply S0; auto|].
  - intros m ij Hm. destruct (scan2_nth r1 r2 m ij H1 H2 Hm) as (P1 & P2 & P3). repeat split; try lia.
  - rewrite scan2_length in * by auto. cbn [fst snd] in *. repeat split; auto.
    destruct (HD code_nil) as (dU & dV & D & SU & SV). exists dU, dV. rewrite dec_loop_scan.
    rewrite code_app_nil in D. rewrite D. cbn [option_map fst]. split; auto.
    split; apply synced_written.
    + replace (Z.of_nat (length (fst (fst s)))) with (0 + Z.of_nat (Z.to_nat (r1 * r2))) by lia. auto.
    + replace (Z.of_nat (length (snd (fst s)))) with (0 + Z.of_nat (Z.to_nat (r1 * r2))) by lia. auto.
Qed.

(** What the encoder did at each point. *)
Theorem relax_trace max_eb r1 r2 U V U' V' c :
  0 <= r1 -> 0 < r2 -> enc_relax A max_eb r1 r2 U V = Some (U', V', c) ->
  forall (Inv : nat -> list (T A) -> list (T A) -> Prop), Inv 0%nat U V ->
  (exists cp, compute_cp A U V r1 r2 = Some cp /\
   ((forall k i j W X W' X' c, 0 <= i < r1 -> 0 <= j < r2 -> i * r2 + j = Z.of_nat k ->
     Inv k W X -> relax_outcome cp max_eb r1 r2 W X i j W' X' c -> Inv (S k) W' X') ->
    Inv (Z.to_nat (r1 * r2)) U' V')).
Proof.
  intros H1 H2 H Inv I0. unfold enc_relax in H. bind_as H cp Ecp. bind_as H [s cc] E. apply Some_inj in H.
  injection H as E1 E2 E3. subst U' V' cc. exists cp. split; auto. intros HS.
  pose proof (scan_inv (relax_point A cp max_eb r1 r2) (fun k s => 0 <= snd s /\ Inv k (fst (fst s)) (snd (fst s)))
    (scan2 r1 r2) 0 (U, V, 0) s c) as G. rewrite scan2_length in G by auto.
  apply G; auto; [|cbn; split; [lia|auto]].
  intros m [i j] [[W X] n] [[W' X'] n'] c0 Hm [Hn HI] HP. cbn [fst snd] in *. apply relax_point_inv in HP; auto.
  destruct HP as [Hn' O]. split; auto. destruct (scan2_nth r1 r2 m _ H1 H2 Hm) as (P1 & P2 & P3). cbn [fst snd] in *.
  apply (HS m i j W X W' X' c0); auto.
Qed.
End Sync.
