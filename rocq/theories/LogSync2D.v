(** Encoder/decoder agreement for the 2D log-domain codec, for every arithmetic. *)
From Coq Require Import List ZArith Lia Bool Arith.
From Coq Require Import ZifyBool ZifyNat.
From Verif Require Import Base Huffman HuffStream HuffProps BitPack Stream Arith Mesh2D Derive2D Codec2D Sync2D Stream2D Scan Log2D.
Import ListNotations.
Local Open Scope Z_scope.

Section Sync.
Context (A : Arith).
Local Notation T := (T A).

(** The bound in the log domain. *)
Definition log_eb (e : D A) : D A := dlog2 A (dadd A (dofZ A 1) e).

(** What one point does, for any way [req] to obtain the bound (the bilinear codec of Bil2D has another one). *)
Inductive log_outcome (req : list T -> list T -> Z -> Z -> option (D A)) (r2 : Z) U V LU LV i j
  : list T -> list T -> list T -> list T -> code T -> Prop :=
| lo_verbatim u v : aget U (i * r2 + j) = Some u -> aget V (i * r2 + j) = Some v ->
    log_outcome req r2 U V LU LV i j U V LU LV (log_verbatim A u v)
| lo_coded u v lu lv eb id q0 q1 x0 x1 U' V' LU' LV' :
    aget U (i * r2 + j) = Some u -> aget V (i * r2 + j) = Some v ->
    aget LU (i * r2 + j) = Some lu -> aget LV (i * r2 + j) = Some lv ->
    req U V i j = Some eb -> dlt A (dofZ A 0) eb = true ->
    teq A u (t0 A) = false -> teq A v (t0 A) = false ->
    try_component A 2 (eps_float A) LU r2 i j lu (log_eb eb) = Some (id, Some (Coded A q0 x0)) ->
    try_component A 2 (eps_float A) LV r2 i j lv (log_eb eb) = Some (id, Some (Coded A q1 x1)) ->
    aset LU (i * r2 + j) x0 = Some LU' -> aset LV (i * r2 + j) x1 = Some LV' ->
    aset U (i * r2 + j) (unlog A u x0) = Some U' -> aset V (i * r2 + j) (unlog A v x1) = Some V' ->
    log_outcome req r2 U V LU LV i j U' V' LU' LV' {| c_eb := [id]; c_q := [q0; q1]; c_unp := [] |}.

Lemma log_point_inv max_eb r1 r2 U V LU LV i j U' V' LU' LV' c :
  log_point A max_eb r1 r2 (U, V, LU, LV) (i, j) = Some (U', V', LU', LV', c) ->
  log_outcome (fun U V i j => required_eb_rel A max_eb U V r1 r2 i j) r2 U V LU LV i j U' V' LU' LV' c.
Proof.
  intros H. cbn [log_point] in H. bind_as H u Eu. bind_as H v Ev. bind_as H eb Er.
  assert (G : Some (U, V, LU, LV, log_verbatim A u v) = Some (U', V', LU', LV', c) ->
              log_outcome (fun U V i j => required_eb_rel A max_eb U V r1 r2 i j) r2 U V LU LV i j U' V' LU' LV' c).
  { intros E. apply Some_inj in E. injection E as E1 E2 E3 E4 E5. subst. constructor; auto. }
  destruct (dlt A (dofZ A 0) eb) eqn:Ep; [|auto].
  destruct (teq A u (t0 A)) eqn:Zu; [auto|]. destruct (teq A v (t0 A)) eqn:Zv; [auto|].
  cbn [andb negb] in H. bind_as H [id a] Eq. destruct (0 <? id) eqn:Ei; [|auto].
  bind_as H lu El. bind_as H p0 E0. bind_as H a0 Ea0. destruct a0 as [|q0 x0]; auto.
  bind_as H lv Em. bind_as H p1 E1. bind_as H a1 Ea1. destruct a1 as [|q1 x1]; auto.
  bind_as H LU1 X1. bind_as H LV1 X2. bind_as H U1 X3. bind_as H V1 X4.
  apply Some_inj in H. injection H as Y1 Y2 Y3 Y4 Y5. subst.
  eapply (lo_coded _ r2 U V LU LV i j u v lu lv eb id q0 q1 x0 x1); eauto;
    unfold try_component, log_eb; rewrite Eq; cbn [bind]; rewrite Ei.
  - rewrite E0. cbn [bind]. rewrite Ea0. reflexivity.
  - rewrite E1. cbn [bind]. rewrite Ea1. reflexivity.
Qed.

(** ** The verbatim values as a function of the index array *)
Fixpoint stored (ebs : list Z) (us vs : list T) : list T :=
  match ebs, us, vs with
  | e :: ebs', u :: us', v :: vs' => (if e =? 0 then [u; v] else []) ++ stored ebs' us' vs'
  | _, _, _ => []
  end.

Lemma stored_snoc ebs : forall us vs e u v,
  aget us (Z.of_nat (length ebs)) = Some u -> aget vs (Z.of_nat (length ebs)) = Some v ->
  stored (ebs ++ [e]) us vs = stored ebs us vs ++ (if e =? 0 then [u; v] else []).
Proof.
  induction ebs as [|e0 ebs IH]; intros us vs e u v Hu Hv; unfold aget in *.
  - destruct us, vs; try discriminate. cbn in Hu, Hv. injection Hu as <-. injection Hv as <-. cbn. rewrite !app_nil_r. auto.
  - replace (Z.of_nat (length (e0 :: ebs)) <? 0) with false in Hu, Hv by lia. rewrite Nat2Z.id in Hu, Hv.
    destruct us, vs; try discriminate. cbn [length nth_error] in Hu, Hv. cbn [app stored]. rewrite <- app_assoc. f_equal.
    apply IH; unfold aget; replace (Z.of_nat (length ebs) <? 0) with false by lia; rewrite Nat2Z.id; auto.
Qed.

(** ** Invariant of the compressor *)
Definition log_inv (U V : list T) (k : nat) (s : log_state A) (c : code T) : Prop :=
  let '(U', V', LU, LV) := s in
  untouched k U' U /\ untouched k V' V /\
  untouched k LU (map (log_value A) U) /\ untouched k LV (map (log_value A) V) /\
  length (c_eb c) = k /\ length (c_q c) = (2 * k)%nat /\ c_unp c = stored (c_eb c) U V /\
  forall m e u v, aget (c_eb c) m = Some e -> aget U m = Some u -> aget V m = Some v ->
    if e =? 0 then aget U' m = Some u /\ aget V' m = Some v /\
                   aget LU m = Some (log_value A u) /\ aget LV m = Some (log_value A v)
    else teq A u (t0 A) = false /\ teq A v (t0 A) = false /\
         aget U' m = option_map (unlog A u) (aget LU m) /\ aget V' m = option_map (unlog A v) (aget LV m).

Lemma aget_snoc {X} (l : list X) x m y : aget (l ++ [x]) m = Some y ->
  (m < Z.of_nat (length l) /\ aget l m = Some y) \/ (m = Z.of_nat (length l) /\ y = x).
Proof.
  intros H. pose proof (aget_Some _ _ _ H) as Hm. rewrite app_length in Hm. cbn [length] in Hm.
  unfold aget in *. replace (m <? 0) with false in * by lia.
  destruct (Z.eq_dec m (Z.of_nat (length l))) as [->|Hn].
  - right. split; auto. rewrite Nat2Z.id, nth_error_app2, Nat.sub_diag in H by lia. cbn in H. congruence.
  - left. split; [lia|]. rewrite nth_error_app1 in H by lia. auto.
Qed.

Lemma aget_map {X Y} (f : X -> Y) l k : aget (map f l) k = option_map f (aget l k).
Proof. unfold aget. destruct (k <? 0); auto. apply nth_error_map. Qed.

Lemma aset_get {X} (l l' : list X) k x : aset l k x = Some l' -> forall m, aget l' m = if m =? k then Some x else aget l m.
Proof. intros H. exact (proj2 (proj2 (aset_Some _ _ _ _ H))). Qed.

(** The index set holds the points with index 0. *)
Lemma log_dec_idx base thr radius r2 pts : forall k d c d' c',
  (forall m ij, nth_error pts m = Some ij -> fst ij * r2 + snd ij = Z.of_nat (k + m)) ->
  scan_dec (log_dec_point A base thr radius r2) pts d c = Some (d', c') ->
  (forall m, Z.of_nat k <= m < Z.of_nat (k + length pts) ->
     existsb (Z.eqb m) (snd d) = false ->
     existsb (Z.eqb m) (snd d') = match aget (c_eb c) (m - Z.of_nat k) with Some e => e =? 0 | None => false end) /\
  (forall m, m < Z.of_nat k -> existsb (Z.eqb m) (snd d') = existsb (Z.eqb m) (snd d)).
Proof.
  induction pts as [|[i j] pts IH]; intros k d c d' c' HP H; cbn [scan_dec] in H.
  - apply Some_inj in H. injection H as E1 E2. subst. split; auto. cbn [length]. intros. lia.
  - bind_as H [d1 c1] E1. pose proof (HP 0%nat (i, j) eq_refl) as Hp. cbn [fst snd] in Hp. rewrite Nat.add_0_r in Hp.
    specialize (IH (S k) d1 c1 d' c').
    assert (HP' : forall m ij, nth_error pts m = Some ij -> fst ij * r2 + snd ij = Z.of_nat (S k + m)).
    { intros m ij Hm. rewrite (HP (S m) ij Hm). f_equal. lia. }
    specialize (IH HP' H). destruct IH as [IH1 IH2].
    destruct d as [[dU dV] idx]. destruct d1 as [[dU1 dV1] idx1]. destruct d' as [[dU2 dV2] idx2]. cbn [snd] in *.
    unfold log_dec_point in E1. destruct (c_eb c) as [|e ebs] eqn:Ee; [discriminate|].
    destruct (c_q c) as [|q0 [|q1 qs]]; try discriminate. rewrite Hp in E1.
    assert (HX : c_eb c1 = ebs /\ idx1 = if e =? 0 then Z.of_nat k :: idx else idx).
    { destruct (e =? 0).
      - destruct (c_unp c) as [|u [|v un]]; try discriminate. bind_as E1 a1 Y1. bind_as E1 a2 Y2.
        apply Some_inj in E1. injection E1 as Z1 Z2 Z3 Z4. subst. auto.
      - bind_as E1 a1 Y1. bind_as E1 a2 Y2. apply Some_inj in E1. injection E1 as Z1 Z2 Z3 Z4. subst. auto. }
    destruct HX as [Ex Ei]. rewrite Ex in IH1.
    assert (EI : forall m, existsb (Z.eqb m) idx1 = ((e =? 0) && (m =? Z.of_nat k)) || existsb (Z.eqb m) idx).
    { intros m. rewrite Ei. destruct (e =? 0); reflexivity. }
    split.
    + intros m Hm Hn. destruct (Z.eq_dec m (Z.of_nat k)) as [->|Hne].
      * rewrite IH2 by lia. rewrite EI, Hn, Z.eqb_refl, Z.sub_diag. unfold aget. cbn [Z.ltb Z.compare Z.to_nat nth_error].
        rewrite andb_true_r, orb_false_r. reflexivity.
      * cbn [length] in Hm. rewrite IH1; [|lia|rewrite EI, Hn; replace (m =? Z.of_nat k) with false by lia; rewrite andb_false_r; auto].
        unfold aget. replace (m - Z.of_nat (S k) <? 0) with false by lia. replace (m - Z.of_nat k <? 0) with false by lia.
        replace (Z.to_nat (m - Z.of_nat k)) with (S (Z.to_nat (m - Z.of_nat (S k)))) by lia. reflexivity.
    + intros m Hm. rewrite IH2 by lia. rewrite EI. replace (m =? Z.of_nat k) with false by lia. rewrite andb_false_r. auto.
Qed.

(** ** Second pass *)
(** What the decompressor returns for a point with index [e], original values and final logarithms. *)
Definition log_final (e : Z) (x l : T) : T := if e =? 0 then x else from_log A l (log_sign A x).

Fixpoint log_finals (ebs : list Z) (xs ls : list T) : list T :=
  match ebs, xs, ls with
  | e :: ebs', x :: xs', l :: ls' => log_final e x l :: log_finals ebs' xs' ls'
  | _, _, _ => []
  end.

Lemma restore_ok idx : forall ebs k U V LU LV,
  length U = length ebs -> length V = length ebs -> length LU = length ebs -> length LV = length ebs ->
  (forall m, (m < length ebs)%nat -> existsb (Z.eqb (k + Z.of_nat m)) idx = match nth_error ebs m with Some e => e =? 0 | None => false end) ->
  restore A idx k LU LV (map (log_sign A) U) (map (log_sign A) V) (stored ebs U V) =
  Some (log_finals ebs U LU, log_finals ebs V LV).
Proof.
  induction ebs as [|e ebs IH]; intros k U V LU LV H1 H2 H3 H4 HI;
    destruct U as [|u U], V as [|v V], LU as [|lu LU], LV as [|lv LV]; try discriminate; [reflexivity|].
  cbn [length] in *. cbn [map restore stored log_finals].
  pose proof (HI 0%nat ltac:(lia)) as H0. cbn [nth_error] in H0. change (Z.of_nat 0) with 0 in H0. rewrite Z.add_0_r in H0. rewrite H0.
  assert (HI' : forall m, (m < length ebs)%nat -> existsb (Z.eqb (k + 1 + Z.of_nat m)) idx = match nth_error ebs m with Some e => e =? 0 | None => false end).
  { intros m Hm. specialize (HI (S m) ltac:(lia)). cbn [nth_error] in HI. rewrite <- HI.
    replace (k + 1 + Z.of_nat m) with (k + Z.of_nat (S m)) by lia. reflexivity. }
  specialize (IH (k + 1) U V LU LV ltac:(lia) ltac:(lia) ltac:(lia) ltac:(lia) HI'). unfold log_final.
  destruct (e =? 0); cbn [app]; rewrite IH; reflexivity.
Qed.

Lemma log_finals_get ebs : forall xs ls m e x l,
  aget ebs m = Some e -> aget xs m = Some x -> aget ls m = Some l -> aget (log_finals ebs xs ls) m = Some (log_final e x l).
Proof.
  induction ebs as [|e0 ebs IH]; intros xs ls m e x l; unfold aget in *; destruct (m <? 0); try discriminate.
  - intros H. destruct (Z.to_nat m); discriminate.
  - destruct xs as [|x0 xs]; [intros _ H; destruct (Z.to_nat m); discriminate|].
    destruct ls as [|l0 ls]; [intros _ _ H; destruct (Z.to_nat m); discriminate|].
    cbn [log_finals]. destruct (Z.to_nat m) as [|n] eqn:En; cbn [nth_error]; [congruence|].
    intros H1 H2 H3. specialize (IH xs ls (Z.of_nat n) e x l). replace (Z.of_nat n <? 0) with false in IH by lia.
    rewrite Nat2Z.id in IH. auto.
Qed.

Lemma log_finals_length ebs : forall xs ls, length xs = length ebs -> length ls = length ebs -> length (log_finals ebs xs ls) = length ebs.
Proof.
  induction ebs as [|e ebs IH]; intros [|x xs] [|l ls]; cbn [length log_finals]; intros; try discriminate; auto.
Qed.

Lemma log_sign_flag x : is_flag (log_sign A x).
Proof. unfold log_sign, is_flag. destruct (teq A x (t0 A)); auto. destruct (tlt A (t0 A) x); auto. Qed.

(** Any encoder whose steps are outcomes. *)
Section Gen.
Context (req : list T -> list T -> Z -> Z -> option (D A)) (r2 : Z) (step : log_state A -> Z * Z -> option (log_state A * code T)).
Hypothesis Hstep : forall U V LU LV i j U' V' LU' LV' c,
  step (U, V, LU, LV) (i, j) = Some (U', V', LU', LV', c) -> log_outcome req r2 U V LU LV i j U' V' LU' LV' c.
Definition log_scan (r1 : Z) (U V : list T) : option (log_state A * code T) :=
  scan_enc step (scan2 r1 r2) (U, V, map (log_value A) U, map (log_value A) V).

Lemma gen_step_inv U V m s c0 s' c i j :
  i * r2 + j = Z.of_nat m -> log_inv U V m s c0 ->
  step s (i, j) = Some (s', c) -> log_inv U V (S m) s' (code_app c0 c).
Proof.
  intros Hp HI H. destruct s as [[[U1 V1] LU] LV]. destruct s' as [[[U2 V2] LU2] LV2].
  apply Hstep in H. destruct HI as (TU & TV & TLU & TLV & Le & Lq & Es & HF).
  assert (Gu : forall k x, aget U k = Some x -> aget (map (log_value A) U) k = Some (log_value A x)).
  { intros k x E. rewrite aget_map, E. reflexivity. }
  assert (Gv : forall k x, aget V k = Some x -> aget (map (log_value A) V) k = Some (log_value A x)).
  { intros k x E. rewrite aget_map, E. reflexivity. }
  assert (AU : aget U1 (Z.of_nat m) = aget U (Z.of_nat m)) by (apply TU; lia).
  assert (AV : aget V1 (Z.of_nat m) = aget V (Z.of_nat m)) by (apply TV; lia).
  assert (ALU : aget LU (Z.of_nat m) = aget (map (log_value A) U) (Z.of_nat m)) by (apply TLU; lia).
  assert (ALV : aget LV (Z.of_nat m) = aget (map (log_value A) V) (Z.of_nat m)) by (apply TLV; lia).
  destruct H as [u v Eu Ev|u v lu lv eb id q0 q1 x0 x1 U2 V2 LU2 LV2 Eu Ev El Em Er Ep Zu Zv C0 C1 X1 X2 X3 X4].
  - rewrite Hp in *. rewrite AU in Eu. rewrite AV in Ev.
    split; [apply untouched_keep; auto|]. split; [apply untouched_keep; auto|].
    split; [apply untouched_keep; auto|]. split; [apply untouched_keep; auto|].
    unfold code_app, log_verbatim. cbn [c_eb c_q c_unp]. rewrite !app_length. cbn [length].
    split; [lia|]. split; [lia|]. split.
    { rewrite (stored_snoc _ _ _ _ u v), Es by (rewrite Le; auto). reflexivity. }
    intros k e u' v' Ek Hu Hv. apply aget_snoc in Ek. destruct Ek as [[Hk Ek]|[Hk Ek]].
    + exact (HF k e u' v' Ek Hu Hv).
    + subst k e. cbn [Z.eqb]. rewrite Le in *. rewrite AU, AV, ALU, ALV. auto.
  - rewrite Hp in *. rewrite AU in Eu. rewrite AV in Ev.
    split; [eapply untouched_set; eauto|]. split; [eapply untouched_set; eauto|].
    split; [eapply untouched_set; eauto|]. split; [eapply untouched_set; eauto|].
    assert (Hid : 0 < id).
    { unfold try_component in C0. bind_as C0 [id' a] Eq. destruct (0 <? id') eqn:E; [|congruence].
      bind_as C0 z1 Z1. bind_as C0 z2 Z2. apply Some_inj in C0. injection C0 as D1 D2. lia. }
    unfold code_app. cbn [c_eb c_q c_unp]. rewrite !app_length. cbn [length].
    split; [lia|]. split; [lia|]. split.
    { rewrite (stored_snoc _ _ _ _ u v), Es by (rewrite Le; auto). replace (id =? 0) with false by lia. reflexivity. }
    intros k e u' v' Ek Hu Hv.
    rewrite (aset_get _ _ _ _ X1), (aset_get _ _ _ _ X2), (aset_get _ _ _ _ X3), (aset_get _ _ _ _ X4).
    apply aget_snoc in Ek. destruct Ek as [[Hk Ek]|[Hk Ek]].
    + replace (k =? Z.of_nat m) with false by lia. exact (HF k e u' v' Ek Hu Hv).
    + subst k e. rewrite Le, Z.eqb_refl. replace (id =? 0) with false by lia. rewrite Le in *.
      replace u' with u by congruence. replace v' with v by congruence. cbn [option_map]. auto.
Qed.

Theorem gen_inv_final r1 U V s c : 0 <= r1 -> 0 < r2 ->
  log_scan r1 U V = Some (s, c) -> log_inv U V (Z.to_nat (r1 * r2)) s c.
Proof.
  intros H1 H2 H. unfold log_scan in H.
  pose proof (fun a b => scan_code step (log_inv U V) (scan2 r1 r2) 0%nat _ code_nil _ _ a b H) as G.
  rewrite scan2_length in G by auto. apply G.
  - intros m [i j] s0 c0 s1 c1 Hm HI HS. destruct (scan2_nth _ _ _ _ H1 H2 Hm) as (_ & _ & Hp).
    exact (gen_step_inv _ _ _ _ _ _ _ _ _ Hp HI HS).
  - unfold log_inv. cbn [c_eb c_q c_unp code_nil length stored].
    repeat (split; [first [apply untouched_refl|reflexivity]|]).
    intros m e u v E. unfold aget in E. destruct (m <? 0); [discriminate|]. destruct (Z.to_nat m); discriminate.
Qed.

(** ** First pass of the decompressor *)
(** log2f of both ways to take the absolute value. *)
Definition log_agree (x : T) : Prop := log_of_stored A x = log_value A x.

Definition log_rel (U V : list T) (k : nat) (s : log_state A) (d : list (option T) * list (option T) * list Z) : Prop :=
  let '(U', V', LU, LV) := s in
  untouched k U' U /\ untouched k V' V /\
  untouched k LU (map (log_value A) U) /\ untouched k LV (map (log_value A) V) /\
  synced (Z.of_nat k) LU (fst (fst d)) /\ synced (Z.of_nat k) LV (snd (fst d)).

Lemma gen_step_sync U V m s d c rest s' i j :
  (forall x, In x U \/ In x V -> log_agree x) ->
  i * r2 + j = Z.of_nat m -> 0 <= i -> 0 <= j < r2 -> log_rel U V m s d ->
  step s (i, j) = Some (s', c) ->
  exists d', log_dec_point A 2 (eps_float A) intv_radius r2 d (code_app c rest) (i, j) = Some (d', rest) /\
    log_rel U V (S m) s' d'.
Proof.
  intros HA Hp Hi Hj HR H. destruct s as [[[U1 V1] LU] LV]. destruct s' as [[[U2 V2] LU2] LV2].
  destruct d as [[dU dV] idx].
  apply Hstep in H. destruct HR as (TU & TV & TLU & TLV & SU & SV). cbn [fst snd] in SU, SV.
  assert (AU : aget U1 (Z.of_nat m) = aget U (Z.of_nat m)) by (apply TU; lia).
  assert (AV : aget V1 (Z.of_nat m) = aget V (Z.of_nat m)) by (apply TV; lia).
  assert (ALU : aget LU (Z.of_nat m) = aget (map (log_value A) U) (Z.of_nat m)) by (apply TLU; lia).
  assert (ALV : aget LV (Z.of_nat m) = aget (map (log_value A) V) (Z.of_nat m)) by (apply TLV; lia).
  assert (Hin : forall (l : list T) x, aget l (Z.of_nat m) = Some x -> In x l).
  { intros l x E. unfold aget in E. destruct (Z.of_nat m <? 0); [discriminate|]. eapply nth_error_In; eauto. }
  destruct H as [u v Eu Ev|u v lu lv eb id q0 q1 x0 x1 U2 V2 LU2 LV2 Eu Ev El Em Er Ep Zu Zv C0 C1 X1 X2 X3 X4].
  - rewrite Hp in *. rewrite AU in Eu. rewrite AV in Ev. rewrite aget_map, Eu in ALU. rewrite aget_map, Ev in ALV.
    cbn [option_map] in ALU, ALV.
    destruct (synced_step (Z.of_nat m) LU LU dU (log_value A u) SU) as (dU' & XU & SU'); auto; [lia|].
    destruct (synced_step (Z.of_nat m) LV LV dV (log_value A v) SV) as (dV' & XV & SV'); auto; [lia|].
    exists (dU', dV', Z.of_nat m :: idx). unfold log_dec_point, log_verbatim, code_app.
    cbn [c_eb c_q c_unp app Z.eqb]. rewrite Hp, (HA u), (HA v), XU by eauto. cbn [bind]. rewrite XV. cbn [bind].
    split; [destruct rest; reflexivity|].
    cbn [log_rel fst snd]. replace (Z.of_nat (S m)) with (Z.of_nat m + 1) by lia.
    repeat (split; [first [apply untouched_keep; assumption|assumption]|]); assumption.
  - destruct (try_component_dec A 2 (eps_float A) LU dU r2 i j _ _ _ _ _ (Z.of_nat m) SU (eq_sym Hp) Hi Hj C0) as (Hid & p0 & L0 & E0).
    destruct (try_component_dec A 2 (eps_float A) LV dV r2 i j _ _ _ _ _ (Z.of_nat m) SV (eq_sym Hp) Hi Hj C1) as (_ & p1 & L1 & E1).
    rewrite Hp in *.
    pose proof (aset_get _ _ _ _ X1) as GU. pose proof (aset_get _ _ _ _ X2) as GV.
    destruct (synced_step (Z.of_nat m) LU LU2 dU x0 SU) as (dU' & YU & SU').
    { lia. } { exact (proj1 (proj2 (aset_Some _ _ _ _ X1))). } { rewrite GU, Z.eqb_refl. auto. }
    { intros k Hk. rewrite GU. replace (k =? Z.of_nat m) with false by lia. auto. }
    destruct (synced_step (Z.of_nat m) LV LV2 dV x1 SV) as (dV' & YV & SV').
    { lia. } { exact (proj1 (proj2 (aset_Some _ _ _ _ X2))). } { rewrite GV, Z.eqb_refl. auto. }
    { intros k Hk. rewrite GV. replace (k =? Z.of_nat m) with false by lia. auto. }
    exists (dU', dV', idx). unfold log_dec_point, code_app, dec_component. cbn [c_eb c_q c_unp app].
    replace (id =? 0) with false by lia. rewrite L0. cbn [bind]. rewrite Hp, <- E0, YU. cbn [bind].
    rewrite L1. cbn [bind]. rewrite <- E1, YV. cbn [bind]. split; [destruct rest; reflexivity|].
    cbn [log_rel fst snd]. replace (Z.of_nat (S m)) with (Z.of_nat m + 1) by lia.
    repeat (split; [first [eapply untouched_set; eassumption|assumption]|]); assumption.
Qed.

(** Both passes on the code of the compressor. *)
Theorem gen_field_sync r1 U V U' V' LU LV c :
  0 <= r1 -> 0 < r2 -> Z.of_nat (length U) = r1 * r2 -> Z.of_nat (length V) = r1 * r2 ->
  (forall x, In x U \/ In x V -> log_agree x) ->
  log_scan r1 U V = Some (U', V', LU, LV, c) ->
  decode_log A 2 intv_radius r1 r2 (map (log_sign A) U) (map (log_sign A) V) c =
    Some (log_finals (c_eb c) U LU, log_finals (c_eb c) V LV).
Proof.
  intros H1 H2 LenU LenV HA HE. set (n := Z.to_nat (r1 * r2)). pose proof (gen_inv_final _ _ _ _ _ H1 H2 HE) as HI.
  destruct HI as (TU & TV & TLU & TLV & Le & Lq & Es & HF). fold n in Le, Lq.
  assert (LLU : length LU = n) by (rewrite (proj1 TLU), map_length; lia).
  assert (LLV : length LV = n) by (rewrite (proj1 TLV), map_length; lia).
  unfold log_scan in HE.
  pose proof (fun a b => scan_sync step (log_dec_point A 2 (eps_float A) intv_radius r2) (log_rel U V)
                (scan2 r1 r2) 0%nat _ (repeat None n, repeat None n, []) _ _ a b HE code_nil) as G.
  destruct G as ([[dU dV] idx] & ED & HR).
  - intros m [i j] s d s' c0 rest Hm HR HS. destruct (scan2_nth _ _ _ _ H1 H2 Hm) as (Hi & Hj & Hp). cbn [fst snd] in *.
    exact (gen_step_sync _ _ _ _ _ _ rest _ _ _ HA Hp (proj1 Hi) Hj HR HS).
  - cbn [log_rel fst snd]. repeat (split; [apply untouched_refl|]).
    split; (split; [rewrite repeat_length, map_length; lia|intros; lia]).
  - rewrite code_app_nil in ED. unfold decode_log. fold n. rewrite ED. cbn [bind].
    rewrite scan2_length in HR by auto. cbn [Nat.add] in HR. destruct HR as (_ & _ & _ & _ & SU & SV). cbn [fst snd] in SU, SV.
    fold n in SU, SV. rewrite <- LLU in SU at 1. rewrite <- LLV in SV at 1.
    rewrite (synced_written _ _ SU), (synced_written _ _ SV). cbn [bind].
    rewrite Es. apply restore_ok; try lia.
    intros m Hm.
    destruct (log_dec_idx 2 (eps_float A) intv_radius r2 _ 0%nat _ _ _ _ (fun m ij Hm => proj2 (proj2 (scan2_nth _ _ _ _ H1 H2 Hm))) ED) as [G _].
    cbn [snd] in G. rewrite Z.add_0_l. rewrite G; [| |reflexivity].
    + rewrite Z.sub_0_r. unfold aget. replace (Z.of_nat m <? 0) with false by lia. rewrite Nat2Z.id. reflexivity.
    + rewrite scan2_length by auto. fold n. lia.
Qed.

(** ** Bytes *)
Theorem gen_round_trip ord ub r1 U V U' V' LU LV c junk buf size :
  ser_ok A -> 0 <= r1 -> 0 < r2 -> Z.of_nat (length U) = r1 * r2 -> Z.of_nat (length V) = r1 * r2 ->
  (forall x, In x U \/ In x V -> log_agree x) ->
  log_scan r1 U V = Some (U', V', LU, LV, c) ->
  code_words_64 ord c -> Z.of_nat (length junk) < 2 ^ 64 ->
  write_pieces ord ub (log_pieces A U V c) junk 0 = Some (buf, size) -> 1 <= r1 * r2 ->
  decompress_log A r1 r2 (firstn size buf) = Some (log_finals (c_eb c) U LU, log_finals (c_eb c) V LV).
Proof.
  intros HS H1 H2 LenU LenV HA HE [K1 K2] HJ HW Hn.
  pose proof (gen_inv_final _ _ _ _ _ H1 H2 HE) as (_ & _ & _ & _ & Le & Lq & _ & _).
  pose proof (gen_field_sync _ _ _ _ _ _ _ _ H1 H2 LenU LenV HA HE) as ER.
  set (n := Z.to_nat (r1 * r2)) in *.
  assert (HF : Forall (piece_ok ord) (log_pieces A U V c)).
  { unfold log_pieces, capacity. change (2 * 65536) with 131072. repeat apply Forall_cons; try apply Forall_nil; cbn [piece_ok]; auto; split; auto; lia. }
  pose proof (write_pieces_spec ord ub _ junk 0 buf size HJ HF ltac:(lia) HW) as (_ & _ & cs0 & HC0 & _ & HP & HE0).
  destruct (write_pieces_bytes ord ub _ _ _ _ HJ HF HW) as (cs & HC & EF).
  assert (Hcnt : Z.of_nat (length (c_unp c)) < 2 ^ 64).
  { assert (HL : (length (concat cs0) <= length junk)%nat) by lia. clear - HC0 HL HS HJ.
    unfold log_pieces in HC0. inv_forall2. cbn [concat] in HL. rewrite !app_length in HL.
    pose proof (tser_array_nil_inv A (c_unp c) HS). lia. }
  clear HC0 cs0 HP.
  rewrite EF. unfold log_pieces in HC. inv_forall2. cbn [concat]. unfold decompress_log. fold n.
  replace (1 <=? n)%nat with true by lia.
  rewrite read_s32_app by lia. cbn [bind].
  rewrite read_s32_app by (unfold intv_radius; lia). cbn [bind].
  assert (FU : Forall is_flag (map (log_sign A) U)) by (apply Forall_map, Forall_forall; intros; apply log_sign_flag).
  assert (FV : Forall is_flag (map (log_sign A) V)) by (apply Forall_map, Forall_forall; intros; apply log_sign_flag).
  assert (NU : length (map (log_sign A) U) = n) by (rewrite map_length; lia).
  assert (NV : length (map (log_sign A) V) = n) by (rewrite map_length; lia).
  pose proof (fun rest => proj1 (flags_round_trip (map (log_sign A) U) rest ltac:(lia) FU)) as RU. rewrite NU in RU.
  pose proof (fun rest => proj1 (flags_round_trip (map (log_sign A) V) rest ltac:(lia) FV)) as RV. rewrite NV in RV.
  rewrite RU. cbn [bind]. rewrite RV. cbn [bind].
  rewrite read_le_app by (change (256 ^ Z.of_nat 8) with (2 ^ 64); lia). cbn [bind].
  rewrite Nat2Z.id. rewrite tread_array_app by auto. cbn [bind].
  match goal with H : forall rest, huffman_decode_tree_and_data (length (c_eb c)) _ = _ |- _ => rewrite Le in H; rewrite H end.
  cbn [bind].
  match goal with H : forall rest, huffman_decode_tree_and_data (length (c_q c)) _ = _ |- _ => rewrite Lq in H; rewrite H end.
  cbn [bind].
  replace {| c_eb := c_eb c; c_q := c_q c; c_unp := c_unp c |} with c by (destruct c; reflexivity).
  exact ER.
Qed.
End Gen.

(** The log-domain codec. *)
Theorem log_inv_final max_eb r1 r2 U V s c : 0 <= r1 -> 0 < r2 ->
  enc_log A max_eb r1 r2 U V = Some (s, c) -> log_inv U V (Z.to_nat (r1 * r2)) s c.
Proof. exact (gen_inv_final _ r2 _ (log_point_inv max_eb r1 r2) r1 U V s c). Qed.

Theorem log_field_sync max_eb r1 r2 U V U' V' LU LV c :
  0 <= r1 -> 0 < r2 -> Z.of_nat (length U) = r1 * r2 -> Z.of_nat (length V) = r1 * r2 ->
  (forall x, In x U \/ In x V -> log_agree x) ->
  enc_log A max_eb r1 r2 U V = Some (U', V', LU, LV, c) ->
  decode_log A 2 intv_radius r1 r2 (map (log_sign A) U) (map (log_sign A) V) c =
    Some (log_finals (c_eb c) U LU, log_finals (c_eb c) V LV).
Proof. exact (gen_field_sync _ r2 _ (log_point_inv max_eb r1 r2) r1 U V U' V' LU LV c). Qed.

Theorem log_round_trip ord ub max_eb r1 r2 U V U' V' LU LV c junk buf size :
  ser_ok A -> 0 <= r1 -> 0 < r2 -> Z.of_nat (length U) = r1 * r2 -> Z.of_nat (length V) = r1 * r2 ->
  (forall x, In x U \/ In x V -> log_agree x) ->
  enc_log A max_eb r1 r2 U V = Some (U', V', LU, LV, c) ->
  code_words_64 ord c -> Z.of_nat (length junk) < 2 ^ 64 ->
  write_pieces ord ub (log_pieces A U V c) junk 0 = Some (buf, size) -> 1 <= r1 * r2 ->
  decompress_log A r1 r2 (firstn size buf) = Some (log_finals (c_eb c) U LU, log_finals (c_eb c) V LV).
Proof. exact (gen_round_trip _ r2 _ (log_point_inv max_eb r1 r2) ord ub r1 U V U' V' LU LV c junk buf size). Qed.
End Sync.
