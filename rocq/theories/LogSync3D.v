(** Encoder/decoder agreement for the 3D log-domain codec, for every arithmetic. *)
From Coq Require Import List ZArith Lia Bool Arith.
From Coq Require Import ZifyBool ZifyNat.
From Verif Require Import Base Huffman HuffStream HuffProps BitPack Stream Arith Mesh2D Mesh3D Derive3D Codec2D Sync2D Stream2D Scan
  Abs3D Sync3D Log2D LogSync2D Log3D.
Import ListNotations.
Local Open Scope Z_scope.

Section Sync.
Context (A : Arith).
Local Notation T := (T A).

(** What one point does. *)
Inductive log3_outcome (req : bound_source A) (esc r1 r2 r3 : Z) (U V W LU LV LW : list T) (i j k : Z)
  : list T -> list T -> list T -> list T -> list T -> list T -> code T -> Prop :=
| l3_verbatim id u v w : id = 0 \/ id = esc ->
    aget U (lin3 r2 r3 (i, j, k)) = Some u -> aget V (lin3 r2 r3 (i, j, k)) = Some v -> aget W (lin3 r2 r3 (i, j, k)) = Some w ->
    log3_outcome req esc r1 r2 r3 U V W LU LV LW i j k U V W LU LV LW (verbatim_as A id u v w)
| l3_coded u v w lu lv lw eb id abs_eb q0 q1 q2 x0 x1 x2 U' V' W' LU' LV' LW' :
    aget U (lin3 r2 r3 (i, j, k)) = Some u -> aget V (lin3 r2 r3 (i, j, k)) = Some v -> aget W (lin3 r2 r3 (i, j, k)) = Some w ->
    aget LU (lin3 r2 r3 (i, j, k)) = Some lu -> aget LV (lin3 r2 r3 (i, j, k)) = Some lv -> aget LW (lin3 r2 r3 (i, j, k)) = Some lw ->
    req U V W i j k = Some eb -> dlt A (dofZ A 0) eb = true ->
    eb_exponential_quantize A 2 (eps_float A) (log_eb A eb) = Some (id, abs_eb) -> 0 < id ->
    coded3 A LU r2 r3 i j k lu abs_eb q0 x0 -> coded3 A LV r2 r3 i j k lv abs_eb q1 x1 -> coded3 A LW r2 r3 i j k lw abs_eb q2 x2 ->
    aset LU (lin3 r2 r3 (i, j, k)) x0 = Some LU' -> aset LV (lin3 r2 r3 (i, j, k)) x1 = Some LV' ->
    aset LW (lin3 r2 r3 (i, j, k)) x2 = Some LW' ->
    aset U (lin3 r2 r3 (i, j, k)) (unlog A u x0) = Some U' -> aset V (lin3 r2 r3 (i, j, k)) (unlog A v x1) = Some V' ->
    aset W (lin3 r2 r3 (i, j, k)) (unlog A w x2) = Some W' ->
    log3_outcome req esc r1 r2 r3 U V W LU LV LW i j k U' V' W' LU' LV' LW' {| c_eb := [id]; c_q := [q0; q1; q2]; c_unp := [] |}.

Lemma log3_point_inv req esc r1 r2 r3 U V W LU LV LW i j k U' V' W' LU' LV' LW' c :
  log3_point A req esc r1 r2 r3 (U, V, W, (LU, LV, LW)) (i, j, k) = Some (U', V', W', (LU', LV', LW'), c) ->
  log3_outcome req esc r1 r2 r3 U V W LU LV LW i j k U' V' W' LU' LV' LW' c.
Proof.
  intros H. cbn [log3_point] in H. bind_as H [[u v] w] Ev. apply vec_at_inv in Ev. destruct Ev as (E1 & E2 & E3).
  bind_as H eb Er.
  assert (G : forall id, id = 0 \/ id = esc ->
              Some (U, V, W, (LU, LV, LW), verbatim_as A id u v w) = Some (U', V', W', (LU', LV', LW'), c) ->
              log3_outcome req esc r1 r2 r3 U V W LU LV LW i j k U' V' W' LU' LV' LW' c).
  { intros id Hid E. apply Some_inj in E. injection E as Ea Eb Ec Ed Ee Ef Eg. subst. constructor; auto. }
  destruct (dlt A (dofZ A 0) eb) eqn:Ep; [|eauto].
  bind_as H [id a] Eq. destruct (0 <? id) eqn:Ei; [|eauto].
  bind_as H [[lu lv] lw] El. apply vec_at_inv in El. destruct El as (F1 & F2 & F3).
  bind_as H r Et. destruct r as [r|]; [|eauto].
  apply try3_inv in Et. destruct Et as (q0 & x0 & q1 & x1 & q2 & x2 & -> & C0 & C1 & C2).
  bind_as H a1 X1. bind_as H a2 X2. bind_as H a3 X3. bind_as H a4 X4. bind_as H a5 X5. bind_as H a6 X6.
  apply Some_inj in H. injection H as Ea Eb Ec Ed Ee Ef Eg. subst.
  eapply (l3_coded req esc r1 r2 r3 U V W LU LV LW i j k u v w lu lv lw eb id a q0 q1 q2 x0 x1 x2); eauto. lia.
Qed.

(** ** Flags: 0 for a point stored verbatim, 1 for a predicted one *)
Definition vflag (esc e : Z) : Z := if is_verbatim esc e then 0 else 1.
Lemma vflag_0 esc e : (vflag esc e =? 0) = is_verbatim esc e.
Proof. unfold vflag. destruct (is_verbatim esc e); reflexivity. Qed.
Lemma vflag_verbatim esc e : e = 0 \/ e = esc -> vflag esc e = 0.
Proof. intros H. unfold vflag, is_verbatim. replace ((e =? 0) || (e =? esc)) with true; auto. lia. Qed.
Lemma vflag_coded esc e : 0 < e -> e <> esc -> vflag esc e = 1.
Proof. intros H H'. unfold vflag, is_verbatim. replace ((e =? 0) || (e =? esc)) with false; auto. lia. Qed.

(** The verbatim values as a function of the flags. *)
Fixpoint stored3 (fl : list Z) (us vs ws : list T) : list T :=
  match fl, us, vs, ws with
  | e :: fl', u :: us', v :: vs', w :: ws' => (if e =? 0 then [u; v; w] else []) ++ stored3 fl' us' vs' ws'
  | _, _, _, _ => []
  end.

Lemma aget_cons {X} (x : X) l n : aget (x :: l) (Z.of_nat (S n)) = aget l (Z.of_nat n).
Proof.
  unfold aget. replace (Z.of_nat (S n) <? 0) with false by lia. replace (Z.of_nat n <? 0) with false by lia.
  rewrite !Nat2Z.id. reflexivity.
Qed.

Lemma aget_nil {X} k : @aget X [] k = None.
Proof. unfold aget. destruct (k <? 0); auto. destruct (Z.to_nat k); auto. Qed.

Lemma stored3_snoc fl : forall us vs ws e u v w,
  aget us (Z.of_nat (length fl)) = Some u -> aget vs (Z.of_nat (length fl)) = Some v -> aget ws (Z.of_nat (length fl)) = Some w ->
  stored3 (fl ++ [e]) us vs ws = stored3 fl us vs ws ++ (if e =? 0 then [u; v; w] else []).
Proof.
  induction fl as [|e0 fl IH]; intros us vs ws e u v w Hu Hv Hw.
  - unfold aget in *. destruct us, vs, ws; try discriminate. cbn in Hu, Hv, Hw.
    injection Hu as <-. injection Hv as <-. injection Hw as <-. cbn. rewrite !app_nil_r. auto.
  - cbn [length] in *. destruct us as [|u0 us]; [rewrite aget_nil in Hu; discriminate|].
    destruct vs as [|v0 vs]; [rewrite aget_nil in Hv; discriminate|].
    destruct ws as [|w0 ws]; [rewrite aget_nil in Hw; discriminate|].
    rewrite aget_cons in Hu, Hv, Hw. cbn [app stored3]. rewrite <- app_assoc. f_equal. auto.
Qed.

(** ** One component of the compressor's state *)
Definition comp_inv (k : nat) (fl : list Z) (X0 X L : list T) : Prop :=
  untouched k X X0 /\ untouched k L (map (log_value A) X0) /\
  forall m e x, aget fl m = Some e -> aget X0 m = Some x ->
    if e =? 0 then aget X m = Some x /\ aget L m = Some (log_value A x)
    else aget X m = option_map (unlog A x) (aget L m).

Lemma comp_nil X0 : comp_inv 0 [] X0 X0 (map (log_value A) X0).
Proof.
  split; [apply untouched_refl|]. split; [apply untouched_refl|].
  intros m e x E. unfold aget in E. destruct (m <? 0); [discriminate|]. destruct (Z.to_nat m); discriminate.
Qed.

Lemma comp_cur k fl X0 X L : comp_inv k fl X0 X L -> aget X (Z.of_nat k) = aget X0 (Z.of_nat k) /\
  aget L (Z.of_nat k) = option_map (log_value A) (aget X0 (Z.of_nat k)).
Proof. intros (TX & TL & _). split; [apply TX; lia|]. rewrite <- aget_map. apply TL. lia. Qed.

Lemma comp_keep k fl X0 X L x : comp_inv k fl X0 X L -> length fl = k -> aget X (Z.of_nat k) = Some x ->
  comp_inv (S k) (fl ++ [0]) X0 X L.
Proof.
  intros HI Hl Hx. destruct (comp_cur _ _ _ _ _ HI) as [EX EL]. destruct HI as (TX & TL & HF).
  split; [apply untouched_keep; auto|]. split; [apply untouched_keep; auto|].
  intros m e y Em Ey. apply aget_snoc in Em. destruct Em as [[Hm Em]|[Hm Em]]; [exact (HF m e y Em Ey)|].
  subst e. rewrite Hl in Hm. subst m. cbn [Z.eqb]. rewrite EX, Ey in *. rewrite EL. auto.
Qed.

Lemma comp_set k fl X0 X L x l X' L' : comp_inv k fl X0 X L -> length fl = k -> aget X (Z.of_nat k) = Some x ->
  aset X (Z.of_nat k) (unlog A x l) = Some X' -> aset L (Z.of_nat k) l = Some L' ->
  comp_inv (S k) (fl ++ [1]) X0 X' L'.
Proof.
  intros HI Hl Hx HX HL. destruct (comp_cur _ _ _ _ _ HI) as [EX _]. destruct HI as (TX & TL & HF).
  split; [eapply untouched_set; eauto|]. split; [eapply untouched_set; eauto|].
  intros m e y Em Ey. rewrite (aset_get _ _ _ _ HX), (aset_get _ _ _ _ HL).
  apply aget_snoc in Em. destruct Em as [[Hm Em]|[Hm Em]].
  - replace (m =? Z.of_nat k) with false by lia. exact (HF m e y Em Ey).
  - subst e. rewrite Hl in Hm. subst m. rewrite Z.eqb_refl. cbn [Z.eqb option_map]. congruence.
Qed.

(** ** Invariant of the compressor *)
Section Run.
Context (req : bound_source A) (esc r1 r2 r3 : Z) (H1 : 0 <= r1) (H2 : 0 < r2) (H3 : 0 < r3).

(** A property of the working arrays under which no predicted point gets the symbol of the unpredictable ones. *)
Context (Inv : nat -> log3_state A -> Prop).
Definition no_collision : Prop := forall m ijk s s' c,
  nth_error (scan3 r1 r2 r3) m = Some ijk -> Inv m s -> log3_point A req esc r1 r2 r3 s ijk = Some (s', c) ->
  Inv (S m) s' /\ (c_q c <> [] -> forall e, In e (c_eb c) -> e < esc).
Context (HC : no_collision).

Definition log3_inv (U V W : list T) (k : nat) (s : log3_state A) (c : code T) : Prop :=
  let '(U', V', W', (LU, LV, LW)) := s in
  let fl := map (vflag esc) (c_eb c) in
  Inv k s /\ comp_inv k fl U U' LU /\ comp_inv k fl V V' LV /\ comp_inv k fl W W' LW /\
  length (c_eb c) = k /\ (length (c_q c) <= 3 * k)%nat /\ c_unp c = stored3 fl U V W.

Lemma log3_step_inv U V W m s c0 s' c i j k :
  nth_error (scan3 r1 r2 r3) m = Some (i, j, k) -> log3_inv U V W m s c0 ->
  log3_point A req esc r1 r2 r3 s (i, j, k) = Some (s', c) -> log3_inv U V W (S m) s' (code_app c0 c).
Proof.
  intros Hm HI H. destruct (scan3_nth _ _ _ _ _ H1 H2 H3 Hm) as (_ & _ & _ & Hp).
  destruct s as [[[U1 V1] W1] [[LU LV] LW]]. destruct s' as [[[U2 V2] W2] [[LU2 LV2] LW2]].
  destruct HI as (HN & CU & CV & CW & Le & Lq & Es).
  destruct (HC _ _ _ _ _ Hm HN H) as [HN' HL].
  assert (HE : c_q c <> [] -> ~ In esc (c_eb c)) by (intros Hc Hes; specialize (HL Hc esc Hes); lia). clear HL.
  apply log3_point_inv in H.
  destruct (comp_cur _ _ _ _ _ CU) as [AU _]. destruct (comp_cur _ _ _ _ _ CV) as [AV _]. destruct (comp_cur _ _ _ _ _ CW) as [AW _].
  destruct H as [id u v w Hid Eu Ev Ew|u v w lu lv lw eb id abs_eb q0 q1 q2 x0 x1 x2 U2 V2 W2 LU2 LV2 LW2
                 Eu Ev Ew El Em En Er Ep Eq Hid C0 C1 C2 X1 X2 X3 X4 X5 X6]; rewrite Hp in *.
  - assert (Lf : length (map (vflag esc) (c_eb c0)) = m) by (rewrite map_length; auto).
    unfold log3_inv, code_app, verbatim_as. cbn [c_eb c_q c_unp]. rewrite map_app. cbn [map]. rewrite (vflag_verbatim _ _ Hid).
    split; [exact HN'|]. split; [eapply comp_keep; eauto|]. split; [eapply comp_keep; eauto|]. split; [eapply comp_keep; eauto|].
    rewrite !app_length. cbn [length]. split; [lia|]. split; [lia|].
    rewrite (stored3_snoc _ _ _ _ _ u v w), Es by (rewrite Lf; congruence). reflexivity.
  - assert (Lf : length (map (vflag esc) (c_eb c0)) = m) by (rewrite map_length; auto).
    unfold log3_inv, code_app. cbn [c_eb c_q c_unp] in *. rewrite map_app. cbn [map].
    assert (Hne : id <> esc) by (intros ->; apply HE; [discriminate|left; auto]).
    rewrite (vflag_coded esc id) by auto.
    split; [exact HN'|]. split; [eapply comp_set; eauto|]. split; [eapply comp_set; eauto|]. split; [eapply comp_set; eauto|].
    rewrite !app_length. cbn [length]. split; [lia|]. split; [lia|].
    rewrite (stored3_snoc _ _ _ _ _ u v w), Es by (rewrite Lf; congruence). reflexivity.
Qed.

Theorem log3_inv_final U V W s c :
  Inv 0 (U, V, W, (map (log_value A) U, map (log_value A) V, map (log_value A) W)) -> escape A 2 = Some esc ->
  enc_log3_with A req r1 r2 r3 U V W = Some (s, c) -> log3_inv U V W (Z.to_nat (r1 * r2 * r3)) s c.
Proof.
  intros H0 HS H. unfold enc_log3_with in H. rewrite HS in H. cbn [bind] in H.
  pose proof (fun a b => scan_code (log3_point A req esc r1 r2 r3) (log3_inv U V W) (scan3 r1 r2 r3) 0%nat _ code_nil _ _ a b H) as G.
  rewrite scan3_length in G by auto. apply G.
  - intros m [[i j] k] s0 c0 s1 c1 Hm HI HT. exact (log3_step_inv _ _ _ _ _ _ _ _ _ _ _ Hm HI HT).
  - unfold log3_inv. cbn [c_eb c_q c_unp code_nil length stored3 map].
    split; [exact H0|]. repeat (split; [first [apply comp_nil|reflexivity]|]). reflexivity.
Qed.

(** ** First pass of the decompressor *)
Definition log3_rel (U V W : list T) (k : nat) (s : log3_state A) (d : ufield3 A * list Z) : Prop :=
  let '(U', V', W', (LU, LV, LW)) := s in
  Inv k s /\ untouched k U' U /\ untouched k V' V /\ untouched k W' W /\
  untouched k LU (map (log_value A) U) /\ untouched k LV (map (log_value A) V) /\ untouched k LW (map (log_value A) W) /\
  synced (Z.of_nat k) LU (fst (fst (fst d))) /\ synced (Z.of_nat k) LV (snd (fst (fst d))) /\ synced (Z.of_nat k) LW (snd (fst d)).

Lemma log3_step_sync U V W m s d c rest s' i j k :
  (forall x, In x U \/ In x V \/ In x W -> log_agree A x) ->
  nth_error (scan3 r1 r2 r3) m = Some (i, j, k) -> log3_rel U V W m s d ->
  log3_point A req esc r1 r2 r3 s (i, j, k) = Some (s', c) ->
  exists d', log3_dec_point A 2 (eps_float A) intv_radius esc r2 r3 d (code_app c rest) (i, j, k) = Some (d', rest) /\
    log3_rel U V W (S m) s' d'.
Proof.
  intros HA Hm HR H. destruct (scan3_nth _ _ _ _ _ H1 H2 H3 Hm) as (Hi & Hj & Hk & Hp). cbn [fst snd] in Hi, Hj, Hk.
  destruct s as [[[U1 V1] W1] [[LU LV] LW]]. destruct s' as [[[U2 V2] W2] [[LU2 LV2] LW2]].
  destruct d as [[[dU dV] dW] idx].
  destruct HR as (HN & TU & TV & TW & TLU & TLV & TLW & SU & SV & SW). cbn [fst snd] in SU, SV, SW.
  destruct (HC _ _ _ _ _ Hm HN H) as [HN' HL].
  assert (HE : c_q c <> [] -> ~ In esc (c_eb c)) by (intros Hc Hes; specialize (HL Hc esc Hes); lia). clear HL. apply log3_point_inv in H.
  assert (AU : aget U1 (Z.of_nat m) = aget U (Z.of_nat m)) by (apply TU; lia).
  assert (AV : aget V1 (Z.of_nat m) = aget V (Z.of_nat m)) by (apply TV; lia).
  assert (AW : aget W1 (Z.of_nat m) = aget W (Z.of_nat m)) by (apply TW; lia).
  assert (ALU : aget LU (Z.of_nat m) = aget (map (log_value A) U) (Z.of_nat m)) by (apply TLU; lia).
  assert (ALV : aget LV (Z.of_nat m) = aget (map (log_value A) V) (Z.of_nat m)) by (apply TLV; lia).
  assert (ALW : aget LW (Z.of_nat m) = aget (map (log_value A) W) (Z.of_nat m)) by (apply TLW; lia).
  assert (Hin : forall (l : list T) x, aget l (Z.of_nat m) = Some x -> In x l).
  { intros l x E. unfold aget in E. destruct (Z.of_nat m <? 0); [discriminate|]. eapply nth_error_In; eauto. }
  destruct H as [id u v w Hid Eu Ev Ew|u v w lu lv lw eb id abs_eb q0 q1 q2 x0 x1 x2 U2 V2 W2 LU2 LV2 LW2
                 Eu Ev Ew El Em En Er Ep Eq Hid C0 C1 C2 X1 X2 X3 X4 X5 X6]; rewrite Hp in *.
  - rewrite AU in Eu. rewrite AV in Ev. rewrite AW in Ew. rewrite aget_map, Eu in ALU. rewrite aget_map, Ev in ALV. rewrite aget_map, Ew in ALW.
    cbn [option_map] in ALU, ALV, ALW.
    destruct (synced_step (Z.of_nat m) LU LU dU (log_value A u) SU) as (dU' & XU & SU'); auto; [lia|].
    destruct (synced_step (Z.of_nat m) LV LV dV (log_value A v) SV) as (dV' & XV & SV'); auto; [lia|].
    destruct (synced_step (Z.of_nat m) LW LW dW (log_value A w) SW) as (dW' & XW & SW'); auto; [lia|].
    exists (dU', dV', dW', Z.of_nat m :: idx). unfold log3_dec_point, verbatim_as, code_app.
    cbn [c_eb c_q c_unp app]. rewrite <- vflag_0, (vflag_verbatim _ _ Hid). cbn [Z.eqb].
    rewrite Hp, (HA u), (HA v), (HA w), XU by eauto. cbn [bind]. rewrite XV. cbn [bind]. rewrite XW. cbn [bind].
    split; [destruct rest; reflexivity|].
    cbn [log3_rel fst snd]. replace (Z.of_nat (S m)) with (Z.of_nat m + 1) by lia.
    repeat (split; [first [apply untouched_keep; assumption|assumption]|]); assumption.
  - pose proof (quantize_bound A _ _ _ _ _ Eq Hid) as Ea.
    destruct (coded3_dec A 2 (eps_float A) _ _ _ _ _ _ _ _ _ _ _ _ m id Hp (proj1 Hi) Hj Hk SU C0 Ea X1) as (dU' & YU & SU').
    destruct (coded3_dec A 2 (eps_float A) _ _ _ _ _ _ _ _ _ _ _ _ m id Hp (proj1 Hi) Hj Hk SV C1 Ea X2) as (dV' & YV & SV').
    destruct (coded3_dec A 2 (eps_float A) _ _ _ _ _ _ _ _ _ _ _ _ m id Hp (proj1 Hi) Hj Hk SW C2 Ea X3) as (dW' & YW & SW').
    exists (dU', dV', dW', idx). unfold log3_dec_point, code_app. cbn [c_eb c_q c_unp app] in *.
    assert (Hne : id <> esc) by (intros ->; apply HE; [discriminate|left; auto]).
    rewrite <- vflag_0, (vflag_coded esc id) by auto. cbn [Z.eqb].
    rewrite YU. cbn [bind]. rewrite YV. cbn [bind]. rewrite YW. cbn [bind].
    split; [destruct rest; reflexivity|]. cbn [log3_rel fst snd].
    repeat (split; [first [eapply untouched_set; eassumption|assumption]|]); assumption.
Qed.

(** The index set holds the verbatim points. *)
Lemma log3_dec_idx base thr radius pts : forall k d c d' c',
  (forall m ijk, nth_error pts m = Some ijk -> lin3 r2 r3 ijk = Z.of_nat (k + m)) ->
  scan_dec (log3_dec_point A base thr radius esc r2 r3) pts d c = Some (d', c') ->
  (forall m, Z.of_nat k <= m < Z.of_nat (k + length pts) ->
     existsb (Z.eqb m) (snd d) = false ->
     existsb (Z.eqb m) (snd d') = match aget (map (vflag esc) (c_eb c)) (m - Z.of_nat k) with Some e => e =? 0 | None => false end) /\
  (forall m, m < Z.of_nat k -> existsb (Z.eqb m) (snd d') = existsb (Z.eqb m) (snd d)).
Proof.
  induction pts as [|[[i j] l] pts IH]; intros k d c d' c' HP H; cbn [scan_dec] in H.
  - apply Some_inj in H. injection H as E1 E2. subst. split; auto. cbn [length]. intros. lia.
  - bind_as H [d1 c1] E1. pose proof (HP 0%nat (i, j, l) eq_refl) as Hp. rewrite Nat.add_0_r in Hp.
    specialize (IH (S k) d1 c1 d' c').
    assert (HP' : forall m ij, nth_error pts m = Some ij -> lin3 r2 r3 ij = Z.of_nat (S k + m)).
    { intros m ij Hm. rewrite (HP (S m) ij Hm). f_equal. lia. }
    specialize (IH HP' H). destruct IH as [IH1 IH2].
    destruct d as [[[dU dV] dW] idx]. destruct d1 as [[[dU1 dV1] dW1] idx1]. destruct d' as [[[dU2 dV2] dW2] idx2]. cbn [snd] in *.
    unfold log3_dec_point in E1. destruct (c_eb c) as [|e ebs] eqn:Ee; [discriminate|]. rewrite Hp in E1.
    assert (HX : c_eb c1 = ebs /\ idx1 = if is_verbatim esc e then Z.of_nat k :: idx else idx).
    { destruct (is_verbatim esc e).
      - destruct (c_unp c) as [|u [|v [|w un]]]; try discriminate. bind_as E1 a1 Y1. bind_as E1 a2 Y2. bind_as E1 a3 Y3.
        apply Some_inj in E1. injection E1 as Z1 Z2 Z3 Z4 Z5. subst. auto.
      - destruct (c_q c) as [|q0 [|q1 [|q2 qs]]]; try discriminate. bind_as E1 a1 Y1. bind_as E1 a2 Y2. bind_as E1 a3 Y3.
        apply Some_inj in E1. injection E1 as Z1 Z2 Z3 Z4 Z5. subst. auto. }
    destruct HX as [Ex Ei]. rewrite Ex in IH1.
    assert (EI : forall m, existsb (Z.eqb m) idx1 = (is_verbatim esc e && (m =? Z.of_nat k)) || existsb (Z.eqb m) idx).
    { intros m. rewrite Ei. destruct (is_verbatim esc e); reflexivity. }
    split.
    + intros m Hm Hn. destruct (Z.eq_dec m (Z.of_nat k)) as [->|Hne].
      * rewrite IH2 by lia. rewrite EI, Hn, Z.eqb_refl, Z.sub_diag. unfold aget. cbn [Z.ltb Z.compare Z.to_nat nth_error map].
        rewrite vflag_0, andb_true_r, orb_false_r. reflexivity.
      * cbn [length] in Hm. rewrite IH1; [|lia|rewrite EI, Hn; replace (m =? Z.of_nat k) with false by lia; rewrite andb_false_r; auto].
        unfold aget. replace (m - Z.of_nat (S k) <? 0) with false by lia. replace (m - Z.of_nat k <? 0) with false by lia.
        replace (Z.to_nat (m - Z.of_nat k)) with (S (Z.to_nat (m - Z.of_nat (S k)))) by lia. reflexivity.
    + intros m Hm. rewrite IH2 by lia. rewrite EI. replace (m =? Z.of_nat k) with false by lia. rewrite andb_false_r. auto.
Qed.

(** ** Second pass *)
Lemma restore3_ok idx : forall fl k U V W LU LV LW,
  length U = length fl -> length V = length fl -> length W = length fl ->
  length LU = length fl -> length LV = length fl -> length LW = length fl ->
  (forall m, (m < length fl)%nat -> existsb (Z.eqb (k + Z.of_nat m)) idx = match nth_error fl m with Some e => e =? 0 | None => false end) ->
  restore3 A idx k (zip3 LU LV LW) (zip3 (map (log_sign A) U) (map (log_sign A) V) (map (log_sign A) W)) (stored3 fl U V W) =
  Some (zip3 (log_finals A fl U LU) (log_finals A fl V LV) (log_finals A fl W LW)).
Proof.
  induction fl as [|e fl IH]; intros k U V W LU LV LW K1 K2 K3 K4 K5 K6 HI;
    destruct U as [|u U], V as [|v V], W as [|w W], LU as [|lu LU], LV as [|lv LV], LW as [|lw LW]; try discriminate; [reflexivity|].
  cbn [length] in *. unfold zip3. cbn [map combine restore3 stored3 log_finals].
  pose proof (HI 0%nat ltac:(lia)) as H0. cbn [nth_error] in H0. change (Z.of_nat 0) with 0 in H0. rewrite Z.add_0_r in H0. rewrite H0.
  assert (HI' : forall m, (m < length fl)%nat -> existsb (Z.eqb (k + 1 + Z.of_nat m)) idx = match nth_error fl m with Some e => e =? 0 | None => false end).
  { intros m Hm. specialize (HI (S m) ltac:(lia)). cbn [nth_error] in HI. rewrite <- HI.
    replace (k + 1 + Z.of_nat m) with (k + Z.of_nat (S m)) by lia. reflexivity. }
  specialize (IH (k + 1) U V W LU LV LW ltac:(lia) ltac:(lia) ltac:(lia) ltac:(lia) ltac:(lia) ltac:(lia) HI'). unfold zip3 in IH. unfold log_final.
  destruct (e =? 0); cbn [app]; rewrite IH; reflexivity.
Qed.

Lemma fst3_zip3 {X} (a : list X) : forall b c, length b = length a -> length c = length a -> fst3 (zip3 a b c) = a.
Proof. induction a as [|x a IH]; intros [|y b] [|z c]; cbn; intros; try discriminate; auto. f_equal. apply IH; lia. Qed.
Lemma snd3_zip3 {X} (a : list X) : forall b c, length b = length a -> length c = length a -> snd3 (zip3 a b c) = b.
Proof. induction a as [|x a IH]; intros [|y b] [|z c]; cbn; intros; try discriminate; auto. f_equal. apply IH; lia. Qed.
Lemma trd3_zip3 {X} (a : list X) : forall b c, length b = length a -> length c = length a -> trd3 (zip3 a b c) = c.
Proof. induction a as [|x a IH]; intros [|y b] [|z c]; cbn; intros; try discriminate; auto. f_equal. apply IH; lia. Qed.

(** Both passes on the code of the compressor. *)
Theorem log3_field_sync U V W U' V' W' LU LV LW c :
  Z.of_nat (length U) = r1 * r2 * r3 -> Z.of_nat (length V) = r1 * r2 * r3 -> Z.of_nat (length W) = r1 * r2 * r3 ->
  Inv 0 (U, V, W, (map (log_value A) U, map (log_value A) V, map (log_value A) W)) -> escape A 2 = Some esc ->
  (forall x, In x U \/ In x V \/ In x W -> log_agree A x) ->
  enc_log3_with A req r1 r2 r3 U V W = Some (U', V', W', (LU, LV, LW), c) ->
  let fl := map (vflag esc) (c_eb c) in
  decode_log3 A 2 intv_radius r1 r2 r3 (map (log_sign A) U) (map (log_sign A) V) (map (log_sign A) W) c =
    Some (log_finals A fl U LU, log_finals A fl V LV, log_finals A fl W LW).
Proof.
  intros LenU LenV LenW HI0 HS HA HE fl. set (n := Z.to_nat (r1 * r2 * r3)).
  pose proof (log3_inv_final _ _ _ _ _ HI0 HS HE) as HI.
  destruct HI as (_ & (TU & TLU & _) & (TV & TLV & _) & (TW & TLW & _) & Le & Lq & Es). fold n in Le. fold fl in Es.
  assert (LLU : length LU = n) by (rewrite (proj1 TLU), map_length; lia).
  assert (LLV : length LV = n) by (rewrite (proj1 TLV), map_length; lia).
  assert (LLW : length LW = n) by (rewrite (proj1 TLW), map_length; lia).
  assert (Lf : length fl = n) by (unfold fl; rewrite map_length; auto).
  unfold enc_log3_with in HE. rewrite HS in HE. cbn [bind] in HE.
  pose proof (fun a b => scan_sync (log3_point A req esc r1 r2 r3) (log3_dec_point A 2 (eps_float A) intv_radius esc r2 r3) (log3_rel U V W)
                (scan3 r1 r2 r3) 0%nat _ (repeat None n, repeat None n, repeat None n, []) _ _ a b HE code_nil) as G.
  destruct G as ([[[dU dV] dW] idx] & ED & HR).
  - intros m [[i j] k] s d s' c0 rest Hm HR HT.
    exact (log3_step_sync _ _ _ _ _ _ _ rest _ _ _ _ HA Hm HR HT).
  - cbn [log3_rel fst snd]. split; [exact HI0|]. repeat (split; [apply untouched_refl|]).
    split; [|split]; (split; [rewrite repeat_length, map_length; lia|intros; lia]).
  - rewrite code_app_nil in ED. unfold decode_log3. fold n. rewrite HS. cbn [bind]. rewrite ED. cbn [bind].
    rewrite scan3_length in HR by auto. cbn [Nat.add] in HR.
    destruct HR as (_ & _ & _ & _ & _ & _ & _ & SU & SV & SW). cbn [fst snd] in SU, SV, SW.
    fold n in SU, SV, SW. rewrite <- LLU in SU at 1. rewrite <- LLV in SV at 1. rewrite <- LLW in SW at 1.
    rewrite (synced_written _ _ SU), (synced_written _ _ SV), (synced_written _ _ SW). cbn [bind].
    rewrite Es, restore3_ok; try lia.
    + cbn [bind]. rewrite fst3_zip3, snd3_zip3, trd3_zip3; auto; rewrite !log_finals_length; auto; lia.
    + intros m Hm.
      destruct (log3_dec_idx 2 (eps_float A) intv_radius _ 0%nat _ _ _ _ (fun m ij Hm => proj2 (proj2 (proj2 (scan3_nth _ _ _ _ _ H1 H2 H3 Hm)))) ED) as [G _].
      cbn [snd] in G. rewrite Z.add_0_l. rewrite G; [| |reflexivity].
      * rewrite Z.sub_0_r. unfold aget. replace (Z.of_nat m <? 0) with false by lia. rewrite Nat2Z.id. reflexivity.
      * rewrite scan3_length by auto. fold n. lia.
Qed.

(** The symbols of the bounds. *)
Lemma log3_symbols U V W s c : 0 <= esc ->
  Inv 0 (U, V, W, (map (log_value A) U, map (log_value A) V, map (log_value A) W)) -> escape A 2 = Some esc ->
  enc_log3_with A req r1 r2 r3 U V W = Some (s, c) -> forall e, In e (c_eb c) -> 0 <= e <= esc.
Proof.
  intros Hesc H0 HS H. unfold enc_log3_with in H. rewrite HS in H. cbn [bind] in H.
  pose proof (fun a b => scan_code (log3_point A req esc r1 r2 r3) (fun k s c => Inv k s /\ forall e, In e (c_eb c) -> 0 <= e <= esc)
    (scan3 r1 r2 r3) 0%nat _ code_nil _ _ a b H) as G.
  apply G; [|split; [exact H0|intros e []]].
  intros m [[i j] k] s0 c0 s1 c1 Hm [HI HE] HT. destruct (HC _ _ _ _ _ Hm HI HT) as [HI' HL]. split; [exact HI'|].
  intros e He. unfold code_app in He. cbn [c_eb] in He. apply in_app_or in He. destruct He as [He|He]; [auto|].
  destruct s0 as [[[U1 V1] W1] [[LU LV] LW]]. destruct s1 as [[[U2 V2] W2] [[LU2 LV2] LW2]]. apply log3_point_inv in HT.
  destruct HT as [id u v w Hid _ _ _|u v w lu lv lw eb id abs_eb q0 q1 q2 x0 x1 x2 U2 V2 W2 LU2 LV2 LW2
                 _ _ _ _ _ _ _ _ _ Hid _ _ _ _ _ _ _ _ _].
  - cbn [c_eb verbatim_as In] in He. destruct He as [<-|[]]. lia.
  - specialize (HL ltac:(discriminate) e He). cbn [c_eb In] in He. destruct He as [<-|[]]. lia.
Qed.

(** ** Bytes *)
(** No code word longer than 64 bits in either stream. *)
Definition log3_words_64 (ord : queue -> bool) (c : code T) : Prop := max_code_64 ord 512 (c_eb c) /\ max_code_64 ord 131072 (c_q c).

Theorem log3_round_trip ord ub U V W U' V' W' LU LV LW c junk buf size :
  ser_ok A -> 1 <= r1 * r2 * r3 -> 3 * (r1 * r2 * r3) < 2 ^ 64 ->
  Z.of_nat (length U) = r1 * r2 * r3 -> Z.of_nat (length V) = r1 * r2 * r3 -> Z.of_nat (length W) = r1 * r2 * r3 ->
  Inv 0 (U, V, W, (map (log_value A) U, map (log_value A) V, map (log_value A) W)) -> escape A 2 = Some esc ->
  (forall x, In x U \/ In x V \/ In x W -> log_agree A x) ->
  enc_log3_with A req r1 r2 r3 U V W = Some (U', V', W', (LU, LV, LW), c) ->
  log3_words_64 ord c -> Z.of_nat (length junk) < 2 ^ 64 ->
  write_pieces ord ub (log3_pieces A U V W c) junk 0 = Some (buf, size) ->
  let fl := map (vflag esc) (c_eb c) in
  decompress_log3 A r1 r2 r3 (firstn size buf) = Some (log_finals A fl U LU, log_finals A fl V LV, log_finals A fl W LW).
Proof.
  intros HZ Hn Hbig LenU LenV LenW HI0 HS HA HE [K1 K2] HJ HW fl.
  pose proof (log3_inv_final _ _ _ _ _ HI0 HS HE) as HI. destruct HI as (_ & _ & _ & _ & Le & Lq & _).
  pose proof (log3_field_sync _ _ _ _ _ _ _ _ _ _ LenU LenV LenW HI0 HS HA HE) as HD.
  set (n := Z.to_nat (r1 * r2 * r3)) in *.
  assert (HF : Forall (piece_ok ord) (log3_pieces A U V W c)).
  { unfold log3_pieces, capacity. change (2 * 65536) with 131072. clear - K1 K2.
    repeat apply Forall_cons; try apply Forall_nil; cbn [piece_ok]; try exact Logic.I; (split; [lia|match goal with H : max_code_64 _ ?a _ |- max_code_64 _ ?a _ => exact H end]). }
  pose proof (write_pieces_spec ord ub _ junk 0 buf size HJ HF ltac:(lia) HW) as (_ & _ & cs0 & HC0 & _ & HP & HE0).
  destruct (write_pieces_bytes ord ub _ _ _ _ HJ HF HW) as (cs & HCs & EF).
  assert (Hcnt : Z.of_nat (length (c_unp c)) < 2 ^ 64).
  { assert (HL : (length (concat cs0) <= length junk)%nat) by lia. clear - HC0 HL HZ HJ.
    unfold log3_pieces in HC0. inv_forall2. cbn [concat] in HL. rewrite !app_length in HL.
    pose proof (tser_array_nil_inv A (c_unp c) HZ). lia. }
  assert (Hq : Z.of_nat (length (c_q c)) < 2 ^ 64) by lia.
  clear HC0 cs0 HP.
  rewrite EF. unfold log3_pieces in HCs. inv_forall2. cbn [concat]. unfold decompress_log3. fold n.
  replace (1 <=? n)%nat with true by lia.
  rewrite read_s32_app by lia. cbn [bind].
  rewrite read_s32_app by (unfold intv_radius; lia). cbn [bind].
  assert (FL : forall X : list T, Z.of_nat (length X) = r1 * r2 * r3 -> forall rest,
            unpack_flags n (sign_map_size n) (pack_flags (map (log_sign A) X) ++ rest) = Some (map (log_sign A) X, rest)).
  { intros X LX rest.
    assert (NX : length (map (log_sign A) X) = n) by (rewrite map_length; lia).
    assert (FX : Forall is_flag (map (log_sign A) X)) by (apply Forall_map, Forall_forall; intros; apply log_sign_flag).
    pose proof (proj1 (flags_round_trip (map (log_sign A) X) rest ltac:(lia) FX)) as R. rewrite NX in R. exact R. }
  rewrite (FL U LenU). cbn [bind]. rewrite (FL V LenV). cbn [bind]. rewrite (FL W LenW). cbn [bind].
  rewrite read_le_app by (change (256 ^ Z.of_nat 8) with (2 ^ 64); lia). cbn [bind].
  rewrite Nat2Z.id. rewrite tread_array_app by auto. cbn [bind].
  rewrite read_le_app by (change (256 ^ Z.of_nat 8) with (2 ^ 64); lia). cbn [bind].
  rewrite Nat2Z.id.
  match goal with H : forall rest, huffman_decode_tree_and_data (length (c_eb c)) _ = _ |- _ => rewrite H end.
  cbn [bind].
  rewrite read_le_app by (change (256 ^ Z.of_nat 8) with (2 ^ 64); lia). cbn [bind].
  rewrite Nat2Z.id.
  match goal with H : forall rest, huffman_decode_tree_and_data (length (c_q c)) _ = _ |- _ => rewrite H end.
  cbn [bind].
  replace {| c_eb := c_eb c; c_q := c_q c; c_unp := c_unp c |} with c by (destruct c; reflexivity).
  exact HD.
Qed.
End Run.
End Sync.
