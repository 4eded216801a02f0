(** Encoder/decoder agreement for the unstructured codec, for every arithmetic. *)
From Coq Require Import List ZArith Lia Bool Arith.
From Coq Require Import ZifyBool ZifyNat.
From Verif Require Import Base Huffman HuffStream HuffProps BitPack Stream Arith Derive3D Codec2D Sync2D Stream2D Scan
  Abs3D Sync3D Log2D LogSync2D Log3D LogSync3D Uns3D.
Import ListNotations.
Local Open Scope Z_scope.

(** ** Interleaved arrays *)
Lemma list3_ind {X} (P : list X -> Prop) : P [] -> (forall a, P [a]) -> (forall a b, P [a; b]) ->
  (forall a b c l, P l -> P (a :: b :: c :: l)) -> forall l, P l.
Proof.
  intros H0 H1 H2 H3. fix IH 1. intros [|a [|b [|c l]]]; [exact H0|apply H1|apply H2|apply H3, IH].
Qed.

Lemma split3_length {X} (l : list X) : forall n, length l = (3 * n)%nat ->
  let '(x, y, z) := split3 l in length x = n /\ length y = n /\ length z = n.
Proof.
  induction l as [|a|a b|a b c l IH] using list3_ind; cbn [length split3]; intros n H; [repeat split; lia|exfalso; lia|exfalso; lia|].
  specialize (IH (n - 1)%nat ltac:(lia)). destruct (split3 l) as [[x y] z]. cbn [length]. repeat split; lia.
Qed.

Lemma join3_split3 {X} (l : list X) : forall n, length l = (3 * n)%nat -> let '(x, y, z) := split3 l in join3 (zip3 x y z) = l.
Proof.
  induction l as [|a|a b|a b c l IH] using list3_ind; cbn [length split3]; intros n H; [reflexivity|exfalso; lia|exfalso; lia|].
  specialize (IH (n - 1)%nat ltac:(lia)). destruct (split3 l) as [[x y] z]. unfold zip3, join3 in *. cbn [combine map concat app].
  do 3 f_equal. exact IH.
Qed.

Lemma split3_join3 {X} (x : list X) : forall y z, length y = length x -> length z = length x -> split3 (join3 (zip3 x y z)) = (x, y, z).
Proof.
  induction x as [|a x IH]; intros [|b y] [|c z]; cbn [length]; intros; try discriminate; auto.
  unfold zip3, join3. cbn [combine map concat app split3]. specialize (IH y z ltac:(lia) ltac:(lia)). unfold zip3, join3 in IH. rewrite IH. reflexivity.
Qed.

Lemma split3_map {X Y} (f : X -> Y) (l : list X) : split3 (map f l) = let '(x, y, z) := split3 l in (map f x, map f y, map f z).
Proof.
  induction l as [|a|a b|a b c l IH] using list3_ind; cbn [map split3]; auto. rewrite IH. destruct (split3 l) as [[x y] z]. reflexivity.
Qed.

Lemma split3_In {X} (l : list X) (t : X) : let '(x, y, z) := split3 l in In t x \/ In t y \/ In t z -> In t l.
Proof.
  induction l as [|a|a b|a b c l IH] using list3_ind; cbn [split3]; try (intros [[]|[[]|[]]]).
  destruct (split3 l) as [[x y] z]. cbn [In]. tauto.
Qed.

Lemma join3_length {X} (l : list (X * X * X)) : length (join3 l) = (3 * length l)%nat.
Proof. unfold join3. induction l as [|[[a b] c] l IH]; cbn [map concat app length]; [reflexivity|]. rewrite IH. lia. Qed.

Lemma zip3_length {X} (a : list X) : forall b c, length b = length a -> length c = length a -> length (zip3 a b c) = length a.
Proof. intros b c H1 H2. unfold zip3. rewrite !combine_length. lia. Qed.

Lemma zrange_nth n m p : 0 <= n -> nth_error (zrange 0 n) m = Some p -> p = Z.of_nat m /\ 0 <= p < n.
Proof.
  intros Hn H. unfold zrange in H. rewrite nth_error_zseq in H. destruct (Nat.ltb_spec m (Z.to_nat (n - 0))); [|discriminate].
  apply Some_inj in H. lia.
Qed.
Lemma zrange_length n : length (zrange 0 n) = Z.to_nat n.
Proof. unfold zrange. rewrite zseq_length. f_equal. lia. Qed.

Section Sync.
Context (A : Arith).
Local Notation T := (T A).

Definition codedp (L : list T) (p : Z) (l : T) (ab : D A) (q : Z) (x : T) : Prop :=
  exists pr, prev_log A (aget L) p = Some pr /\ quantise A pr l ab = Some (Coded A q x).

Lemma tryp_inv w0 w1 w2 p u v w eb r :
  try_list A [(prev_log A (aget w0) p, u); (prev_log A (aget w1) p, v); (prev_log A (aget w2) p, w)] eb = Some (Some r) ->
  exists q0 x0 q1 x1 q2 x2, r = [(q0, x0); (q1, x1); (q2, x2)] /\ codedp w0 p u eb q0 x0 /\ codedp w1 p v eb q1 x1 /\ codedp w2 p w eb q2 x2.
Proof.
  intros H. apply try_list_inv in H.
  inversion H as [|a [q0 x0] l1 r1 H0 F1]; subst. inversion F1 as [|b [q1 x1] l2 r2' H1 F2]; subst.
  inversion F2 as [|c [q2 x2] l3 r3' H2 F3]; subst. inversion F3; subst. cbn [fst snd] in *.
  exists q0, x0, q1, x1, q2, x2. unfold codedp. auto.
Qed.

(** What one point does. *)
Inductive uns_outcome (max_eb : D A) (tets : list tetra) (U V W LU LV LW : list T) (p : Z)
  : list T -> list T -> list T -> list T -> list T -> list T -> code T -> Prop :=
| un_verbatim u v w : aget U p = Some u -> aget V p = Some v -> aget W p = Some w ->
    uns_outcome max_eb tets U V W LU LV LW p U V W LU LV LW (verbatim_as A 0 u v w)
| un_coded u v w lu lv lw eb id abs_eb q0 q1 q2 x0 x1 x2 U' V' W' LU' LV' LW' :
    aget U p = Some u -> aget V p = Some v -> aget W p = Some w ->
    aget LU p = Some lu -> aget LV p = Some lv -> aget LW p = Some lw ->
    required_eb_uns A max_eb tets U V W p = Some eb -> dlt A (dofZ A 0) eb = true ->
    eb_exponential_quantize A 2 (eps_float A) (log_eb A eb) = Some (id, abs_eb) -> 0 < id ->
    codedp LU p lu abs_eb q0 x0 -> codedp LV p lv abs_eb q1 x1 -> codedp LW p lw abs_eb q2 x2 ->
    aset LU p x0 = Some LU' -> aset LV p x1 = Some LV' -> aset LW p x2 = Some LW' ->
    aset U p (unlog A u x0) = Some U' -> aset V p (unlog A v x1) = Some V' -> aset W p (unlog A w x2) = Some W' ->
    uns_outcome max_eb tets U V W LU LV LW p U' V' W' LU' LV' LW' {| c_eb := [id]; c_q := [q0; q1; q2]; c_unp := [] |}.

Lemma uns_point_inv max_eb tets U V W LU LV LW p U' V' W' LU' LV' LW' c :
  uns_point A max_eb tets (U, V, W, (LU, LV, LW)) p = Some (U', V', W', (LU', LV', LW'), c) ->
  uns_outcome max_eb tets U V W LU LV LW p U' V' W' LU' LV' LW' c.
Proof.
  intros H. cbn [uns_point] in H. bind_as H [[u v] w] Ev. apply vec_at_inv in Ev. destruct Ev as (E1 & E2 & E3).
  bind_as H eb Er.
  assert (G : Some (U, V, W, (LU, LV, LW), verbatim_as A 0 u v w) = Some (U', V', W', (LU', LV', LW'), c) ->
              uns_outcome max_eb tets U V W LU LV LW p U' V' W' LU' LV' LW' c).
  { intros E. apply Some_inj in E. injection E as Ea Eb Ec Ed Ee Ef Eg. subst. constructor; auto. }
  destruct (dlt A (dofZ A 0) eb) eqn:Ep; [|eauto].
  bind_as H [id a] Eq. destruct (0 <? id) eqn:Ei; [|eauto].
  bind_as H [[lu lv] lw] El. apply vec_at_inv in El. destruct El as (F1 & F2 & F3).
  bind_as H r Et. destruct r as [r|]; [|eauto].
  apply tryp_inv in Et. destruct Et as (q0 & x0 & q1 & x1 & q2 & x2 & -> & C0 & C1 & C2).
  bind_as H a1 X1. bind_as H a2 X2. bind_as H a3 X3. bind_as H a4 X4. bind_as H a5 X5. bind_as H a6 X6.
  apply Some_inj in H. injection H as Ea Eb Ec Ed Ee Ef Eg. subst.
  eapply (un_coded max_eb tets U V W LU LV LW p u v w lu lv lw eb id a q0 q1 q2 x0 x1 x2); eauto. lia.
Qed.

(** ** Invariant of the compressor *)
Section Run.
Context (max_eb : D A) (tets : list tetra) (esc n : Z) (Hn : 0 <= n).

(** A property of the working arrays under which no predicted point gets a symbol that the decompressor takes for a verbatim point. *)
Context (Inv : nat -> log3_state A -> Prop).
Definition no_collision_uns : Prop := forall m p s s' c,
  nth_error (zrange 0 n) m = Some p -> Inv m s -> uns_point A max_eb tets s p = Some (s', c) ->
  Inv (S m) s' /\ (c_q c <> [] -> forall e, In e (c_eb c) -> e < esc).
Context (HC : no_collision_uns).

Definition uns_inv (U V W : list T) (k : nat) (s : log3_state A) (c : code T) : Prop :=
  let '(U', V', W', (LU, LV, LW)) := s in
  let fl := map (vflag esc) (c_eb c) in
  Inv k s /\ comp_inv A k fl U U' LU /\ comp_inv A k fl V V' LV /\ comp_inv A k fl W W' LW /\
  length (c_eb c) = k /\ (length (c_q c) <= 3 * k)%nat /\ c_unp c = stored3 A fl U V W.

Lemma uns_step_inv U V W m s c0 s' c p :
  nth_error (zrange 0 n) m = Some p -> uns_inv U V W m s c0 ->
  uns_point A max_eb tets s p = Some (s', c) -> uns_inv U V W (S m) s' (code_app c0 c).
Proof.
  intros Hm HI H. destruct (zrange_nth _ _ _ Hn Hm) as [Hp _].
  destruct s as [[[U1 V1] W1] [[LU LV] LW]]. destruct s' as [[[U2 V2] W2] [[LU2 LV2] LW2]].
  destruct HI as (HN & CU & CV & CW & Le & Lq & Es).
  destruct (HC _ _ _ _ _ Hm HN H) as [HN' HL].
  assert (HE : c_q c <> [] -> ~ In esc (c_eb c)) by (intros Hc Hes; specialize (HL Hc esc Hes); lia). clear HL.
  apply uns_point_inv in H.
  destruct (comp_cur _ _ _ _ _ _ CU) as [AU _]. destruct (comp_cur _ _ _ _ _ _ CV) as [AV _]. destruct (comp_cur _ _ _ _ _ _ CW) as [AW _].
  assert (Lf : length (map (vflag esc) (c_eb c0)) = m) by (rewrite map_length; auto).
  destruct H as [u v w Eu Ev Ew|u v w lu lv lw eb id abs_eb q0 q1 q2 x0 x1 x2 U2 V2 W2 LU2 LV2 LW2
                 Eu Ev Ew El Em En Er Ep Eq Hid C0 C1 C2 X1 X2 X3 X4 X5 X6]; rewrite Hp in *.
  - unfold uns_inv, code_app, verbatim_as. cbn [c_eb c_q c_unp]. rewrite map_app. cbn [map]. rewrite (vflag_verbatim esc 0) by auto.
    split; [exact HN'|]. split; [eapply comp_keep; eauto|]. split; [eapply comp_keep; eauto|]. split; [eapply comp_keep; eauto|].
    rewrite !app_length. cbn [length]. split; [lia|]. split; [lia|].
    rewrite (stored3_snoc A _ _ _ _ _ u v w), Es by (rewrite Lf; congruence). reflexivity.
  - unfold uns_inv, code_app. cbn [c_eb c_q c_unp] in *. rewrite map_app. cbn [map].
    assert (Hne : id <> esc) by (intros ->; apply HE; [discriminate|left; auto]).
    rewrite (vflag_coded esc id) by auto.
    split; [exact HN'|]. split; [eapply comp_set; eauto|]. split; [eapply comp_set; eauto|]. split; [eapply comp_set; eauto|].
    rewrite !app_length. cbn [length]. split; [lia|]. split; [lia|].
    rewrite (stored3_snoc A _ _ _ _ _ u v w), Es by (rewrite Lf; congruence). reflexivity.
Qed.

(** The loop of the compressor on the three components. *)
Definition scan_uns (U V W : list T) : option (log3_state A * code T) :=
  scan_enc (uns_point A max_eb tets) (zrange 0 n) (U, V, W, (map (log_value A) U, map (log_value A) V, map (log_value A) W)).

Theorem uns_inv_final U V W s c :
  Inv 0 (U, V, W, (map (log_value A) U, map (log_value A) V, map (log_value A) W)) ->
  scan_uns U V W = Some (s, c) -> uns_inv U V W (Z.to_nat n) s c.
Proof.
  intros H0 H. unfold scan_uns in H.
  pose proof (fun a b => scan_code (uns_point A max_eb tets) (uns_inv U V W) (zrange 0 n) 0%nat _ code_nil _ _ a b H) as G.
  rewrite zrange_length in G by auto. apply G.
  - intros m p s0 c0 s1 c1 Hm HI HT. exact (uns_step_inv _ _ _ _ _ _ _ _ _ Hm HI HT).
  - unfold uns_inv. cbn [c_eb c_q c_unp code_nil length stored3 map].
    split; [exact H0|]. repeat (split; [first [apply comp_nil|reflexivity]|]). reflexivity.
Qed.

(** ** First pass of the decompressor *)
Lemma prev_sync m (L : list T) dL pr : synced (Z.of_nat m) L dL -> prev_log A (aget L) (Z.of_nat m) = Some pr ->
  prev_log A (uget dL) (Z.of_nat m) = Some pr.
Proof.
  unfold prev_log. intros [_ HS] H. destruct (Z.eqb_spec (Z.of_nat m) 0); auto. unfold uget. rewrite HS by lia. rewrite H. reflexivity.
Qed.

Lemma codedp_dec w w' d cur abs_eb q x m id :
  synced (Z.of_nat m) w d -> codedp w (Z.of_nat m) cur abs_eb q x -> abs_eb = dmul A (dpow A 2 id) (eps_float A) ->
  aset w (Z.of_nat m) x = Some w' ->
  exists d', dec_prev A 2 (eps_float A) intv_radius d (Z.of_nat m) id q = Some d' /\ synced (Z.of_nat (S m)) w' d'.
Proof.
  intros HS (pred & EL & EQ) -> HX. apply quantise_recon in EQ.
  destruct (aset_Some _ _ _ _ HX) as (_ & L & G).
  destruct (synced_step (Z.of_nat m) w w' d x HS) as (d' & E & S').
  { lia. } { auto. } { rewrite G, Z.eqb_refl. auto. } { intros k Hk. rewrite G. replace (k =? Z.of_nat m) with false by lia. auto. }
  exists d'. unfold dec_prev. rewrite (prev_sync _ _ _ _ HS EL). cbn [bind].
  rewrite <- EQ. split; [exact E|]. replace (Z.of_nat (S m)) with (Z.of_nat m + 1) by lia. auto.
Qed.

Definition uns_rel (U V W : list T) (k : nat) (s : log3_state A) (d : ufield3 A * list Z) : Prop :=
  let '(U', V', W', (LU, LV, LW)) := s in
  Inv k s /\ untouched k U' U /\ untouched k V' V /\ untouched k W' W /\
  untouched k LU (map (log_value A) U) /\ untouched k LV (map (log_value A) V) /\ untouched k LW (map (log_value A) W) /\
  synced (Z.of_nat k) LU (fst (fst (fst d))) /\ synced (Z.of_nat k) LV (snd (fst (fst d))) /\ synced (Z.of_nat k) LW (snd (fst d)).

Lemma uns_step_sync U V W m s d c rest s' p :
  (forall x, In x U \/ In x V \/ In x W -> log_agree A x) ->
  nth_error (zrange 0 n) m = Some p -> uns_rel U V W m s d ->
  uns_point A max_eb tets s p = Some (s', c) ->
  exists d', uns_dec_point A 2 (eps_float A) intv_radius esc d (code_app c rest) p = Some (d', rest) /\
    uns_rel U V W (S m) s' d'.
Proof.
  intros HA Hm HR H. destruct (zrange_nth _ _ _ Hn Hm) as [Hp _].
  destruct s as [[[U1 V1] W1] [[LU LV] LW]]. destruct s' as [[[U2 V2] W2] [[LU2 LV2] LW2]].
  destruct d as [[[dU dV] dW] idx].
  destruct HR as (HN & TU & TV & TW & TLU & TLV & TLW & SU & SV & SW). cbn [fst snd] in SU, SV, SW.
  destruct (HC _ _ _ _ _ Hm HN H) as [HN' HL].
  assert (HE : c_q c <> [] -> ~ In esc (c_eb c)) by (intros Hc Hes; specialize (HL Hc esc Hes); lia). clear HL. apply uns_point_inv in H.
  assert (AU : aget U1 (Z.of_nat m) = aget U (Z.of_nat m)) by (apply TU; lia).
  assert (AV : aget V1 (Z.of_nat m) = aget V (Z.of_nat m)) by (apply TV; lia).
  assert (AW : aget W1 (Z.of_nat m) = aget W (Z.of_nat m)) by (apply TW; lia).
  assert (ALU : aget LU (Z.of_nat m) = aget (map (log_value A) U) (Z.of_nat m)) by (apply TLU; lia).
  assert (ALV : aget LV (Z.of_nat m) = aget (map (log_value A) V) (Z.of_nat m)) by (apply TLV; lia).
  assert (ALW : aget LW (Z.of_nat m) = aget (map (log_value A) W) (Z.of_nat m)) by (apply TLW; lia).
  assert (Hin : forall (l : list T) x, aget l (Z.of_nat m) = Some x -> In x l).
  { intros l x E. unfold aget in E. destruct (Z.of_nat m <? 0); [discriminate|]. eapply nth_error_In; eauto. }
  destruct H as [u v w Eu Ev Ew|u v w lu lv lw eb id abs_eb q0 q1 q2 x0 x1 x2 U2 V2 W2 LU2 LV2 LW2
                 Eu Ev Ew El Em En Er Ep Eq Hid C0 C1 C2 X1 X2 X3 X4 X5 X6]; rewrite Hp in *.
  - rewrite AU in Eu. rewrite AV in Ev. rewrite AW in Ew. rewrite aget_map, Eu in ALU. rewrite aget_map, Ev in ALV. rewrite aget_map, Ew in ALW.
    cbn [option_map] in ALU, ALV, ALW.
    destruct (synced_step (Z.of_nat m) LU LU dU (log_value A u) SU) as (dU' & XU & SU'); auto; [lia|].
    destruct (synced_step (Z.of_nat m) LV LV dV (log_value A v) SV) as (dV' & XV & SV'); auto; [lia|].
    destruct (synced_step (Z.of_nat m) LW LW dW (log_value A w) SW) as (dW' & XW & SW'); auto; [lia|].
    exists (dU', dV', dW', Z.of_nat m :: idx). unfold uns_dec_point, verbatim_as, code_app.
    cbn [c_eb c_q c_unp app]. rewrite <- vflag_0, (vflag_verbatim esc 0) by auto. cbn [Z.eqb].
    rewrite (HA u), (HA v), (HA w), XU by eauto. cbn [bind]. rewrite XV. cbn [bind]. rewrite XW. cbn [bind].
    split; [destruct rest; reflexivity|].
    cbn [uns_rel fst snd]. replace (Z.of_nat (S m)) with (Z.of_nat m + 1) by lia.
    repeat (split; [first [apply untouched_keep; assumption|assumption]|]); assumption.
  - pose proof (quantize_bound A _ _ _ _ _ Eq Hid) as Ea.
    destruct (codedp_dec _ _ _ _ _ _ _ m id SU C0 Ea X1) as (dU' & YU & SU').
    destruct (codedp_dec _ _ _ _ _ _ _ m id SV C1 Ea X2) as (dV' & YV & SV').
    destruct (codedp_dec _ _ _ _ _ _ _ m id SW C2 Ea X3) as (dW' & YW & SW').
    exists (dU', dV', dW', idx). unfold uns_dec_point, code_app. cbn [c_eb c_q c_unp app] in *.
    assert (Hne : id <> esc) by (intros ->; apply HE; [discriminate|left; auto]).
    rewrite <- vflag_0, (vflag_coded esc id) by auto. cbn [Z.eqb].
    rewrite YU. cbn [bind]. rewrite YV. cbn [bind]. rewrite YW. cbn [bind].
    split; [destruct rest; reflexivity|]. cbn [uns_rel fst snd].
    repeat (split; [first [eapply untouched_set; eassumption|assumption]|]); assumption.
Qed.

(** The index set holds the verbatim points. *)
Lemma uns_dec_idx base thr radius pts : forall k d c d' c',
  (forall m p, nth_error pts m = Some p -> p = Z.of_nat (k + m)) ->
  scan_dec (uns_dec_point A base thr radius esc) pts d c = Some (d', c') ->
  (forall m, Z.of_nat k <= m < Z.of_nat (k + length pts) ->
     existsb (Z.eqb m) (snd d) = false ->
     existsb (Z.eqb m) (snd d') = match aget (map (vflag esc) (c_eb c)) (m - Z.of_nat k) with Some e => e =? 0 | None => false end) /\
  (forall m, m < Z.of_nat k -> existsb (Z.eqb m) (snd d') = existsb (Z.eqb m) (snd d)).
Proof.
  induction pts as [|p pts IH]; intros k d c d' c' HP H; cbn [scan_dec] in H.
  - apply Some_inj in H. injection H as E1 E2. subst. split; auto. cbn [length]. intros. lia.
  - bind_as H [d1 c1] E1. pose proof (HP 0%nat p eq_refl) as Hp. rewrite Nat.add_0_r in Hp.
    specialize (IH (S k) d1 c1 d' c').
    assert (HP' : forall m q, nth_error pts m = Some q -> q = Z.of_nat (S k + m)).
    { intros m q Hm. rewrite (HP (S m) q Hm). f_equal. lia. }
    specialize (IH HP' H). destruct IH as [IH1 IH2].
    destruct d as [[[dU dV] dW] idx]. destruct d1 as [[[dU1 dV1] dW1] idx1]. destruct d' as [[[dU2 dV2] dW2] idx2]. cbn [snd] in *.
    unfold uns_dec_point in E1. destruct (c_eb c) as [|e ebs] eqn:Ee; [discriminate|]. rewrite Hp in E1.
    assert (HX : c_eb c1 = ebs /\ idx1 = if is_verbatim esc e then Z.of_nat k :: idx else idx).
    { destruct (is_verbatim esc e).
      - destruct (c_unp c) as [|u [|v [|w un]]]; try discriminate. bind_as E1 a1 Y1. bind_as E1 a2 Y2. bind_as E1 a3 Y3.
        apply Some_inj in E1. injection E1 as Z1 Z2 Z3 Z4 Z5. subst. auto.
      - destruct (c_q c) as [|q0 [|q1 [|q2 qs]]]; try discriminate. bind_as E1 a1 Y1. bind_as E1 a2 Y2. bind_as E1 a3 Y3.
        apply Some_inj in E1. injection E1 as Z1 Z2 Z3 Z4 Z5. subst. auto. }
    destruct HX as [Ex Ei]. rewrite Ex in IH1.
    assert (EI : forall m, existsb (Z.eqb m) idx1 = (is_verbatim esc e && (m =? Z.of_nat k)) || existsb (Z.eqb m) idx).
    { intros m. rewrite Ei. destruct (is_verbatim esc e); reflexivity. }
    split.
    + intros m Hm Hq. destruct (Z.eq_dec m (Z.of_nat k)) as [->|Hne].
      * rewrite IH2 by lia. rewrite EI, Hq, Z.eqb_refl, Z.sub_diag. unfold aget. cbn [Z.ltb Z.compare Z.to_nat nth_error map].
        rewrite vflag_0, andb_true_r, orb_false_r. reflexivity.
      * cbn [length] in Hm. rewrite IH1; [|lia|rewrite EI, Hq; replace (m =? Z.of_nat k) with false by lia; rewrite andb_false_r; auto].
        unfold aget. replace (m - Z.of_nat (S k) <? 0) with false by lia. replace (m - Z.of_nat k <? 0) with false by lia.
        replace (Z.to_nat (m - Z.of_nat k)) with (S (Z.to_nat (m - Z.of_nat (S k)))) by lia. reflexivity.
    + intros m Hm. rewrite IH2 by lia. rewrite EI. replace (m =? Z.of_nat k) with false by lia. rewrite andb_false_r. auto.
Qed.

(** ** Second pass: in step with the signs as long as no logarithm of a coded point looks like that of a zero *)
Definition unzero (fl : list Z) (L : list T) : Prop := forall m e l, nth_error fl m = Some e -> (e =? 0) = false -> nth_error L m = Some l ->
  tlt A l (tofZ A (-99)) = false.

Lemma restore_uns_ok idx : forall fl k U V W LU LV LW,
  length U = length fl -> length V = length fl -> length W = length fl ->
  length LU = length fl -> length LV = length fl -> length LW = length fl ->
  unzero fl LU -> unzero fl LV -> unzero fl LW ->
  (forall m, (m < length fl)%nat -> existsb (Z.eqb (k + Z.of_nat m)) idx = match nth_error fl m with Some e => e =? 0 | None => false end) ->
  restore_uns A idx k (zip3 LU LV LW) (map (log_sign A) (join3 (zip3 U V W))) (stored3 A fl U V W) =
  Some (zip3 (log_finals A fl U LU) (log_finals A fl V LV) (log_finals A fl W LW)).
Proof.
  induction fl as [|e fl IH]; intros k U V W LU LV LW K1 K2 K3 K4 K5 K6 Z1 Z2 Z3 HI;
    destruct U as [|u U], V as [|v V], W as [|w W], LU as [|lu LU], LV as [|lv LV], LW as [|lw LW]; try discriminate; [reflexivity|].
  cbn [length] in *. unfold zip3, join3. cbn [map combine restore_uns stored3 log_finals concat app].
  pose proof (HI 0%nat ltac:(lia)) as H0. cbn [nth_error] in H0. change (Z.of_nat 0) with 0 in H0. rewrite Z.add_0_r in H0. rewrite H0.
  assert (HI' : forall m, (m < length fl)%nat -> existsb (Z.eqb (k + 1 + Z.of_nat m)) idx = match nth_error fl m with Some e => e =? 0 | None => false end).
  { intros m Hm. specialize (HI (S m) ltac:(lia)). cbn [nth_error] in HI. rewrite <- HI.
    replace (k + 1 + Z.of_nat m) with (k + Z.of_nat (S m)) by lia. reflexivity. }
  assert (ZT : forall l L, unzero (e :: fl) (l :: L) -> unzero fl L) by (intros l L H m e' l' E1 E2 E3; exact (H (S m) e' l' E1 E2 E3)).
  specialize (IH (k + 1) U V W LU LV LW ltac:(lia) ltac:(lia) ltac:(lia) ltac:(lia) ltac:(lia) ltac:(lia) (ZT _ _ Z1) (ZT _ _ Z2) (ZT _ _ Z3) HI').
  unfold zip3, join3 in IH. unfold log_final.
  destruct (e =? 0) eqn:Ee.
  - cbn [app skipn]. rewrite IH. reflexivity.
  - cbn [app]. unfold restore_value, from_log.
    rewrite (Z1 0%nat e lu eq_refl Ee eq_refl), (Z2 0%nat e lv eq_refl Ee eq_refl), (Z3 0%nat e lw eq_refl Ee eq_refl). cbn [bind].
    rewrite IH. reflexivity.
Qed.

(** Both passes on the code of the compressor. *)
Theorem uns_field_sync U V W U' V' W' LU LV LW c :
  Z.of_nat (length U) = n -> Z.of_nat (length V) = n -> Z.of_nat (length W) = n ->
  Inv 0 (U, V, W, (map (log_value A) U, map (log_value A) V, map (log_value A) W)) -> escape A 2 = Some esc ->
  (forall x, In x U \/ In x V \/ In x W -> log_agree A x) ->
  scan_uns U V W = Some (U', V', W', (LU, LV, LW), c) ->
  let fl := map (vflag esc) (c_eb c) in
  unzero fl LU -> unzero fl LV -> unzero fl LW ->
  decode_uns A 2 intv_radius n (map (log_sign A) (join3 (zip3 U V W))) c =
    Some (join3 (zip3 (log_finals A fl U LU) (log_finals A fl V LV) (log_finals A fl W LW))).
Proof.
  intros LenU LenV LenW HI0 HS HA HE fl Z1 Z2 Z3. set (N := Z.to_nat n).
  pose proof (uns_inv_final _ _ _ _ _ HI0 HE) as HI.
  destruct HI as (_ & (TU & TLU & _) & (TV & TLV & _) & (TW & TLW & _) & Le & Lq & Es). fold N in Le. fold fl in Es.
  assert (LLU : length LU = N) by (rewrite (proj1 TLU), map_length; lia).
  assert (LLV : length LV = N) by (rewrite (proj1 TLV), map_length; lia).
  assert (LLW : length LW = N) by (rewrite (proj1 TLW), map_length; lia).
  assert (Lf : length fl = N) by (unfold fl; rewrite map_length; auto).
  unfold scan_uns in HE.
  pose proof (fun a b => scan_sync (uns_point A max_eb tets) (uns_dec_point A 2 (eps_float A) intv_radius esc) (uns_rel U V W)
                (zrange 0 n) 0%nat _ (repeat None N, repeat None N, repeat None N, []) _ _ a b HE code_nil) as G.
  destruct G as ([[[dU dV] dW] idx] & ED & HR).
  - intros m p s d s' c0 rest Hm HR HT.
    exact (uns_step_sync _ _ _ _ _ _ _ rest _ _ HA Hm HR HT).
  - cbn [uns_rel fst snd]. split; [exact HI0|]. repeat (split; [apply untouched_refl|]).
    split; [|split]; (split; [rewrite repeat_length, map_length; lia|intros; lia]).
  - rewrite code_app_nil in ED. unfold decode_uns. fold N. rewrite HS. cbn [bind]. rewrite ED. cbn [bind].
    rewrite zrange_length in HR. cbn [Nat.add] in HR.
    destruct HR as (_ & _ & _ & _ & _ & _ & _ & SU & SV & SW). cbn [fst snd] in SU, SV, SW.
    fold N in SU, SV, SW. rewrite <- LLU in SU at 1. rewrite <- LLV in SV at 1. rewrite <- LLW in SW at 1.
    rewrite (synced_written _ _ SU), (synced_written _ _ SV), (synced_written _ _ SW). cbn [bind].
    rewrite Es, restore_uns_ok; try lia; auto.
    intros m Hm.
    destruct (uns_dec_idx 2 (eps_float A) intv_radius _ 0%nat _ _ _ _ (fun m p Hm => proj1 (zrange_nth _ _ _ Hn Hm)) ED) as [G _].
    cbn [snd] in G. rewrite Z.add_0_l. rewrite G; [| |reflexivity].
    + rewrite Z.sub_0_r. unfold aget. replace (Z.of_nat m <? 0) with false by lia. rewrite Nat2Z.id. reflexivity.
    + rewrite zrange_length. fold N. lia.
Qed.

(** The symbols of the bounds. *)
Lemma uns_symbols U V W s c : 0 <= esc ->
  Inv 0 (U, V, W, (map (log_value A) U, map (log_value A) V, map (log_value A) W)) ->
  scan_uns U V W = Some (s, c) -> forall e, In e (c_eb c) -> 0 <= e <= esc.
Proof.
  intros Hesc H0 H. unfold scan_uns in H.
  pose proof (fun a b => scan_code (uns_point A max_eb tets) (fun k s c => Inv k s /\ forall e, In e (c_eb c) -> 0 <= e <= esc)
    (zrange 0 n) 0%nat _ code_nil _ _ a b H) as G.
  apply G; [|split; [exact H0|intros e []]].
  intros m p s0 c0 s1 c1 Hm [HI HE] HT. destruct (HC _ _ _ _ _ Hm HI HT) as [HI' HL]. split; [exact HI'|].
  intros e He. unfold code_app in He. cbn [c_eb] in He. apply in_app_or in He. destruct He as [He|He]; [auto|].
  destruct s0 as [[[U1 V1] W1] [[LU LV] LW]]. destruct s1 as [[[U2 V2] W2] [[LU2 LV2] LW2]]. apply uns_point_inv in HT.
  destruct HT as [u v w _ _ _|u v w lu lv lw eb id abs_eb q0 q1 q2 x0 x1 x2 U2 V2 W2 LU2 LV2 LW2
                 _ _ _ _ _ _ _ _ _ Hid _ _ _ _ _ _ _ _ _].
  - cbn [c_eb verbatim_as In] in He. destruct He as [<-|[]]. lia.
  - specialize (HL ltac:(discriminate) e He). cbn [c_eb In] in He. destruct He as [<-|[]]. lia.
Qed.

(** ** Bytes *)
Theorem uns_round_trip ord ub data U V W U' V' W' LU LV LW c junk buf size :
  ser_ok A -> 1 <= n -> 3 * n < 2 ^ 31 -> Z.of_nat (length data) = 3 * n -> split3 data = (U, V, W) ->
  Inv 0 (U, V, W, (map (log_value A) U, map (log_value A) V, map (log_value A) W)) -> escape A 2 = Some esc ->
  (forall x, In x data -> log_agree A x) ->
  scan_uns U V W = Some (U', V', W', (LU, LV, LW), c) ->
  max_code_64 ord 512 (c_eb c) -> max_code_64 ord 131072 (c_q c) -> Z.of_nat (length junk) < 2 ^ 64 ->
  write_pieces ord ub (uns_pieces A data c) junk 0 = Some (buf, size) ->
  let fl := map (vflag esc) (c_eb c) in
  unzero fl LU -> unzero fl LV -> unzero fl LW ->
  decompress_uns A n (firstn size buf) = Some (join3 (zip3 (log_finals A fl U LU) (log_finals A fl V LV) (log_finals A fl W LW))).
Proof.
  intros HZ Hn1 Hbig Len ES HI0 HS HA HE K1 K2 HJ HW fl Z1 Z2 Z3.
  pose proof (split3_length data (Z.to_nat n) ltac:(lia)) as SL. rewrite ES in SL. destruct SL as (LenU & LenV & LenW).
  pose proof (join3_split3 data (Z.to_nat n) ltac:(lia)) as SJ. rewrite ES in SJ.
  assert (HA' : forall x, In x U \/ In x V \/ In x W -> log_agree A x).
  { intros x Hx. apply HA. pose proof (split3_In data x) as Q. rewrite ES in Q. auto. }
  pose proof (uns_inv_final _ _ _ _ _ HI0 HE) as HI. destruct HI as (_ & _ & _ & _ & Le & Lq & _).
  pose proof (uns_field_sync U V W U' V' W' LU LV LW c ltac:(lia) ltac:(lia) ltac:(lia) HI0 HS HA' HE Z1 Z2 Z3) as HD. rewrite SJ in HD. clear SJ.
  assert (HF : Forall (piece_ok ord) (uns_pieces A data c)).
  { unfold uns_pieces, capacity. change (2 * 65536) with 131072. clear - K1 K2.
    repeat apply Forall_cons; try apply Forall_nil; cbn [piece_ok]; try exact Logic.I; (split; [lia|match goal with H : max_code_64 _ ?a _ |- max_code_64 _ ?a _ => exact H end]). }
  pose proof (write_pieces_spec ord ub _ junk 0 buf size HJ HF ltac:(lia) HW) as (_ & _ & cs0 & HC0 & _ & HP & HE0).
  destruct (write_pieces_bytes ord ub _ _ _ _ HJ HF HW) as (cs & HCs & EF).
  assert (Hcnt : Z.of_nat (length (c_unp c)) < 2 ^ 64).
  { assert (HL : (length (concat cs0) <= length junk)%nat) by lia. clear - HC0 HL HZ HJ.
    unfold uns_pieces in HC0. inv_forall2. cbn [concat] in HL. rewrite !app_length in HL.
    pose proof (tser_array_nil_inv A (c_unp c) HZ). lia. }
  assert (Hq : Z.of_nat (length (c_q c)) < 2 ^ 64) by lia.
  clear HC0 cs0 HP.
  rewrite EF. unfold uns_pieces in HCs. inv_forall2. cbn [concat]. unfold decompress_uns.
  replace ((1 <=? n) && (3 * n <? 2 ^ 31)) with true by lia.
  rewrite read_s32_app by lia. cbn [bind].
  rewrite read_s32_app by (unfold intv_radius; lia). cbn [bind].
  assert (FL : forall rest, unpack_flags (Z.to_nat (3 * n)) (sign_map_size (Z.to_nat (3 * n))) (pack_flags (map (log_sign A) data) ++ rest) =
            Some (map (log_sign A) data, rest)).
  { intros rest.
    assert (NX : length (map (log_sign A) data) = Z.to_nat (3 * n)) by (rewrite map_length; lia).
    assert (FX : Forall is_flag (map (log_sign A) data)) by (apply Forall_map, Forall_forall; intros; apply log_sign_flag).
    pose proof (proj1 (flags_round_trip (map (log_sign A) data) rest ltac:(lia) FX)) as R. rewrite NX in R. exact R. }
  rewrite FL. cbn [bind].
  rewrite read_le_app by (change (256 ^ Z.of_nat 8) with (2 ^ 64); lia). cbn [bind].
  rewrite Nat2Z.id. rewrite tread_array_app by auto. cbn [bind].
  rewrite read_le_app by (change (256 ^ Z.of_nat 8) with (2 ^ 64); lia). cbn [bind].
  rewrite Nat2Z.id.
  match goal with H : forall rest, huffman_decode_tree_and_data (length (c_eb c)) _ = _ |- _ => rewrite H end.
  cbn [bind].
  rewrite read_le_app by (change (256 ^ Z.of_nat 8) with (2 ^ 64); lia). cbn [bind].
  rewrite Nat2Z.id.
  match goal with H : forall rest, huffman_decode_tree_and_data (length (c_q c)) _ = _ |- _ => rewrite H end.
  cbn [bind].
  replace {| c_eb := c_eb c; c_q := c_q c; c_unp := c_unp c |} with c by (destruct c; reflexivity).
  exact HD.
Qed.
End Run.
End Sync.
