(** Encoder/decoder agreement for the 3D absolute codec, for every arithmetic. *)
From Coq Require Import List ZArith Lia Bool Arith.
From Coq Require Import ZifyBool ZifyNat.
From Verif Require Import Base Huffman HuffStream HuffProps Stream Arith Mesh2D Mesh3D Derive3D Codec2D Sync2D Stream2D Scan Abs3D.
Import ListNotations.
Local Open Scope Z_scope.

(** ** Scan order *)
Lemma flat_map_map {X Y Z'} (f : X -> Y) (g : Y -> list Z') l : flat_map g (map f l) = flat_map (fun x => g (f x)) l.
Proof. induction l; cbn; auto. f_equal. auto. Qed.
Lemma map_flat_map {X Y Z'} (f : X -> list Y) (g : Y -> Z') l : map g (flat_map f l) = flat_map (fun x => map g (f x)) l.
Proof. induction l; cbn; auto. rewrite map_app. f_equal. auto. Qed.

Lemma scan3_scan2 r1 r2 r3 : 0 <= r2 -> 0 < r3 ->
  scan3 r1 r2 r3 = map (fun iq => (fst iq, snd iq / r3, snd iq mod r3)) (scan2 r1 (r2 * r3)).
Proof.
  intros H2 H3. unfold scan3, scan2 at 1. rewrite map_flat_map. apply flat_map_ext. intros i.
  rewrite map_map. cbn [fst snd].
  change (flat_map (fun j => map (fun k => (i, j, k)) (zrange 0 r3)) (zrange 0 r2) = map (fun x => (i, x / r3, x mod r3)) (zrange 0 (r2 * r3))).
  transitivity (map (fun jk => (i, fst jk, snd jk)) (scan2 r2 r3)).
  - unfold scan2. rewrite map_flat_map. apply flat_map_ext. intros j. rewrite map_map. reflexivity.
  - rewrite scan2_map by auto. rewrite map_map. reflexivity.
Qed.

Lemma scan3_length r1 r2 r3 : 0 <= r1 -> 0 < r2 -> 0 < r3 -> length (scan3 r1 r2 r3) = Z.to_nat (r1 * r2 * r3).
Proof. intros. rewrite scan3_scan2 by lia. rewrite map_length, scan2_length by nia. f_equal. lia. Qed.

Lemma scan3_nth r1 r2 r3 m ijk : 0 <= r1 -> 0 < r2 -> 0 < r3 -> nth_error (scan3 r1 r2 r3) m = Some ijk ->
  0 <= fst (fst ijk) < r1 /\ 0 <= snd (fst ijk) < r2 /\ 0 <= snd ijk < r3 /\ lin3 r2 r3 ijk = Z.of_nat m.
Proof.
  intros H1 H2 H3 H. rewrite scan3_scan2 in H by lia. rewrite nth_error_map in H.
  destruct (nth_error (scan2 r1 (r2 * r3)) m) as [[i q]|] eqn:E; [|discriminate]. cbn [option_map fst snd] in H. apply Some_inj in H.
  subst ijk. apply scan2_nth in E; [|lia|nia]. cbn [fst snd] in *. destruct E as (Hi & Hq & Hp).
  pose proof (Z.mod_pos_bound q r3 H3). pose proof (Z.div_mod q r3 ltac:(lia)).
  split; [auto|]. split; [split; [apply Z.div_pos; lia|apply Z.div_lt_upper_bound; lia]|]. split; [auto|].
  unfold lin3. cbn [fst snd]. lia.
Qed.

Lemma scan3_nth_ok r1 r2 r3 i j k : 0 <= i < r1 -> 0 <= j < r2 -> 0 <= k < r3 ->
  nth_error (scan3 r1 r2 r3) (Z.to_nat (lin3 r2 r3 (i, j, k))) = Some (i, j, k).
Proof.
  intros Hi Hj Hk. rewrite scan3_scan2 by lia. rewrite nth_error_map. unfold lin3. cbn [fst snd].
  replace (i * (r2 * r3) + j * r3 + k) with (i * (r2 * r3) + (j * r3 + k)) by lia.
  rewrite scan2_nth_ok by nia. cbn [option_map fst snd].
  rewrite Z.div_add_l, Z.div_small, Z.add_0_r by lia.
  replace ((j * r3 + k) mod r3) with k; auto. rewrite Z.add_comm, Z.mod_add, Z.mod_small by lia. auto.
Qed.

Section Sync.
Context (A : Arith).
Local Notation T := (T A).

Lemma vec_at_inv U V W p u v w : vec_at A U V W p = Some (u, v, w) ->
  aget U p = Some u /\ aget V p = Some v /\ aget W p = Some w.
Proof.
  unfold vec_at. intros H. bind_as H a Ea. bind_as H b Eb. bind_as H c Ec. apply Some_inj in H. injection H as -> -> ->. auto.
Qed.
Lemma vec_at_Some U V W p u v w : aget U p = Some u -> aget V p = Some v -> aget W p = Some w -> vec_at A U V W p = Some (u, v, w).
Proof. unfold vec_at. intros -> -> ->. reflexivity. Qed.

Lemma lorenzo3_sync p w d r2 r3 i j k x :
  synced p w d -> p = lin3 r2 r3 (i, j, k) -> 0 <= i -> 0 <= j < r2 -> 0 <= k < r3 ->
  lorenzo3 A (aget w) r2 r3 i j k = Some x -> lorenzo3 A (uget d) r2 r3 i j k = Some x.
Proof.
  intros HS Hp Hi Hj Hk. unfold lorenzo3. rewrite <- Hp. intros H.
  inv_bind H. inv_bind H. inv_bind H. inv_bind H. inv_bind H. inv_bind H. inv_bind H.
  assert (G : forall (b : bool) m y,
            (if b then aget w m else Some (t0 A)) = Some y -> (b = true -> 0 <= m < p) ->
            (if b then uget d m else Some (t0 A)) = Some y).
  { intros [|] m y E Hm; auto. eapply synced_uget; eauto. }
  unfold lin3 in Hp. cbn [fst snd] in Hp.
  assert (P0 : 0 < r2 * r3) by nia.
  assert (P1 : 0 <= i * (r2 * r3)) by (apply Z.mul_nonneg_nonneg; lia).
  assert (P2 : 0 <= j * r3) by (apply Z.mul_nonneg_nonneg; lia).
  assert (P3 : i <> 0 -> r2 * r3 <= i * (r2 * r3)) by (intros; nia).
  assert (P4 : j <> 0 -> r3 <= j * r3) by (intros; nia).
  rewrite (G _ _ _ Ha) by lia. cbn [bind]. rewrite (G _ _ _ Ha0) by lia. cbn [bind].
  rewrite (G _ _ _ Ha1) by lia. cbn [bind]. rewrite (G _ _ _ Ha2) by lia. cbn [bind].
  rewrite (G _ _ _ Ha3) by lia. cbn [bind]. rewrite (G _ _ _ Ha4) by lia. cbn [bind].
  rewrite (G _ _ _ Ha5) by lia. cbn [bind]. exact H.
Qed.

(** The outcome of one component. *)
Lemma try_list_inv l eb r : try_list A l eb = Some (Some r) ->
  Forall2 (fun oc qx => exists pred, fst oc = Some pred /\ quantise A pred (snd oc) eb = Some (Coded A (fst qx) (snd qx))) l r.
Proof.
  revert r. induction l as [|[o cur] l IH]; intros r H; cbn [try_list] in H.
  - apply Some_inj in H. apply Some_inj in H. subst. constructor.
  - bind_as H pred Ep. bind_as H a Ea. destruct a as [|q x]; [discriminate|]. bind_as H r' Er.
    destruct r' as [r'|]; [|discriminate]. apply Some_inj in H. apply Some_inj in H. subst r.
    constructor; [|auto]. exists pred. auto.
Qed.

Lemma quantise_recon pred cur eb q x : quantise A pred cur eb = Some (Coded A q x) -> x = recon A pred intv_radius q eb.
Proof.
  unfold quantise. intros H. destruct (dlt _ _ _) in H; [|discriminate].
  bind_as H h Hh. destruct (dle _ _ _) in H; [discriminate|]. congruence.
Qed.

(** A component that was predicted and coded. *)
Definition coded3 (w : list T) (r2 r3 i j k : Z) (cur : T) (abs_eb : D A) (q : Z) (x : T) : Prop :=
  exists pred, lorenzo3 A (aget w) r2 r3 i j k = Some pred /\ quantise A pred cur abs_eb = Some (Coded A q x).

Lemma try3_inv w0 w1 w2 r2 r3 i j k u v w eb r :
  try_list A [(lorenzo3 A (aget w0) r2 r3 i j k, u); (lorenzo3 A (aget w1) r2 r3 i j k, v);
              (lorenzo3 A (aget w2) r2 r3 i j k, w)] eb = Some (Some r) ->
  exists q0 x0 q1 x1 q2 x2, r = [(q0, x0); (q1, x1); (q2, x2)] /\
    coded3 w0 r2 r3 i j k u eb q0 x0 /\ coded3 w1 r2 r3 i j k v eb q1 x1 /\ coded3 w2 r2 r3 i j k w eb q2 x2.
Proof.
  intros H. apply try_list_inv in H.
  inversion H as [|a [q0 x0] l1 r1 H0 F1]; subst. inversion F1 as [|b [q1 x1] l2 r2' H1 F2]; subst.
  inversion F2 as [|c [q2 x2] l3 r3' H2 F3]; subst. inversion F3; subst. cbn [fst snd] in *.
  exists q0, x0, q1, x1, q2, x2. unfold coded3. auto.
Qed.

(** What one point does. *)
Inductive abs3_outcome (req : list T -> list T -> list T -> Z -> Z -> Z -> option (D A)) (r2 r3 : Z)
          (U V W : list T) (i j k : Z) : list T -> list T -> list T -> code T -> Prop :=
| a3_verbatim u v w : aget U (lin3 r2 r3 (i, j, k)) = Some u -> aget V (lin3 r2 r3 (i, j, k)) = Some v ->
    aget W (lin3 r2 r3 (i, j, k)) = Some w ->
    abs3_outcome req r2 r3 U V W i j k U V W (verbatim3 A u v w)
| a3_coded u v w eb id abs_eb q0 q1 q2 x0 x1 x2 U' V' W' :
    aget U (lin3 r2 r3 (i, j, k)) = Some u -> aget V (lin3 r2 r3 (i, j, k)) = Some v ->
    aget W (lin3 r2 r3 (i, j, k)) = Some w ->
    req U V W i j k = Some eb -> deq A eb (dofZ A 0) = false ->
    eb_exponential_quantize A 4 (eps_double A) eb = Some (id, abs_eb) -> 0 < id ->
    coded3 U r2 r3 i j k u abs_eb q0 x0 -> coded3 V r2 r3 i j k v abs_eb q1 x1 -> coded3 W r2 r3 i j k w abs_eb q2 x2 ->
    aset U (lin3 r2 r3 (i, j, k)) x0 = Some U' -> aset V (lin3 r2 r3 (i, j, k)) x1 = Some V' ->
    aset W (lin3 r2 r3 (i, j, k)) x2 = Some W' ->
    abs3_outcome req r2 r3 U V W i j k U' V' W' {| c_eb := [id]; c_q := [q0; q1; q2]; c_unp := [] |}.

Lemma abs3_point_inv req r2 r3 U V W i j k U' V' W' c :
  abs3_point A req r2 r3 (U, V, W) (i, j, k) = Some (U', V', W', c) ->
  abs3_outcome req r2 r3 U V W i j k U' V' W' c.
Proof.
  intros H. cbn [abs3_point] in H. bind_as H [[u v] w] Ev. apply vec_at_inv in Ev. destruct Ev as (E1 & E2 & E3).
  bind_as H eb Er.
  assert (G : Some (U, V, W, verbatim3 A u v w) = Some (U', V', W', c) -> abs3_outcome req r2 r3 U V W i j k U' V' W' c).
  { intros E. apply Some_inj in E. injection E as Ea Eb Ec Ed. subst. constructor; auto. }
  destruct (deq A eb (dofZ A 0)) eqn:Ez; [auto|].
  bind_as H [id a] Eq. destruct (0 <? id) eqn:Ei; [|auto].
  bind_as H r Et. destruct r as [r|]; [|auto].
  apply try3_inv in Et. destruct Et as (q0 & x0 & q1 & x1 & q2 & x2 & -> & C0 & C1 & C2).
  bind_as H U1 X1. bind_as H V1 X2. bind_as H W1 X3. apply Some_inj in H. injection H as Ea Eb Ec Ed. subst.
  eapply (a3_coded req r2 r3 U V W i j k u v w eb id a q0 q1 q2 x0 x1 x2); eauto. lia.
Qed.

Lemma quantize_bound base thr eb id a : eb_exponential_quantize A base thr eb = Some (id, a) -> 0 < id ->
  a = dmul A (dpow A base id) thr.
Proof.
  unfold eb_exponential_quantize. destruct (dle A eb thr); intros H.
  - apply Some_inj in H. injection H as E1 E2. lia.
  - bind_as H z E. apply Some_inj in H. injection H as E1 E2. subst. auto.
Qed.

(** ** Invariant and synchronisation *)
Definition abs3_rel (U V W : list T) (m : nat) (s : field3 A) (d : ufield3 A) : Prop :=
  let '(U', V', W') := s in
  let '(dU, dV, dW) := d in
  untouched m U' U /\ untouched m V' V /\ untouched m W' W /\
  synced (Z.of_nat m) U' dU /\ synced (Z.of_nat m) V' dV /\ synced (Z.of_nat m) W' dW.

Lemma coded3_dec base thr w w' d r2 r3 i j k cur abs_eb q x m id :
  lin3 r2 r3 (i, j, k) = Z.of_nat m -> 0 <= i -> 0 <= j < r2 -> 0 <= k < r3 ->
  synced (Z.of_nat m) w d -> coded3 w r2 r3 i j k cur abs_eb q x -> abs_eb = dmul A (dpow A base id) thr ->
  aset w (Z.of_nat m) x = Some w' ->
  exists d', dec_component3 A base thr intv_radius d r2 r3 i j k id q = Some d' /\ synced (Z.of_nat (S m)) w' d'.
Proof.
  intros Hp Hi Hj Hk HS (pred & EL & EQ) -> HX. apply quantise_recon in EQ.
  destruct (aset_Some _ _ _ _ HX) as (_ & L & G).
  destruct (synced_step (Z.of_nat m) w w' d x HS) as (d' & E & S').
  { lia. } { auto. } { rewrite G, Z.eqb_refl. auto. } { intros n Hn. rewrite G. replace (n =? Z.of_nat m) with false by lia. auto. }
  exists d'. unfold dec_component3. rewrite (lorenzo3_sync _ _ _ _ _ _ _ _ _ HS (eq_sym Hp) Hi Hj Hk EL). cbn [bind].
  rewrite <- EQ, Hp. split; [exact E|]. replace (Z.of_nat (S m)) with (Z.of_nat m + 1) by lia. auto.
Qed.

Lemma abs3_step_sync req r2 r3 U V W m s d c rest s' i j k :
  lin3 r2 r3 (i, j, k) = Z.of_nat m -> 0 <= i -> 0 <= j < r2 -> 0 <= k < r3 -> abs3_rel U V W m s d ->
  abs3_point A req r2 r3 s (i, j, k) = Some (s', c) ->
  exists d', abs3_dec_point A 4 (eps_double A) intv_radius r2 r3 d (code_app c rest) (i, j, k) = Some (d', rest) /\
    abs3_rel U V W (S m) s' d'.
Proof.
  intros Hp Hi Hj Hk HR H. destruct s as [[U1 V1] W1]. destruct s' as [[U2 V2] W2]. destruct d as [[dU dV] dW].
  apply abs3_point_inv in H. destruct HR as (TU & TV & TW & SU & SV & SW).
  destruct H as [u v w Eu Ev Ew|u v w eb id abs_eb q0 q1 q2 x0 x1 x2 U2 V2 W2 Eu Ev Ew Er Ez Eq Hid C0 C1 C2 X1 X2 X3].
  - rewrite Hp in *.
    destruct (synced_step (Z.of_nat m) U1 U1 dU u SU) as (dU' & XU & SU'); auto; [lia|].
    destruct (synced_step (Z.of_nat m) V1 V1 dV v SV) as (dV' & XV & SV'); auto; [lia|].
    destruct (synced_step (Z.of_nat m) W1 W1 dW w SW) as (dW' & XW & SW'); auto; [lia|].
    exists (dU', dV', dW'). cbn [abs3_dec_point]. unfold verbatim3, code_app. cbn [c_eb c_q c_unp app Z.eqb].
    rewrite Hp, XU. cbn [bind]. rewrite XV. cbn [bind]. rewrite XW. cbn [bind]. split; [destruct rest; reflexivity|].
    unfold abs3_rel. replace (Z.of_nat (S m)) with (Z.of_nat m + 1) by lia.
    repeat (split; [first [apply untouched_keep; assumption|assumption]|]); assumption.
  - rewrite Hp in *. pose proof (quantize_bound _ _ _ _ _ Eq Hid) as Ea.
    destruct (coded3_dec 4 (eps_double A) _ _ _ _ _ _ _ _ _ _ _ _ m id Hp Hi Hj Hk SU C0 Ea X1) as (dU' & YU & SU').
    destruct (coded3_dec 4 (eps_double A) _ _ _ _ _ _ _ _ _ _ _ _ m id Hp Hi Hj Hk SV C1 Ea X2) as (dV' & YV & SV').
    destruct (coded3_dec 4 (eps_double A) _ _ _ _ _ _ _ _ _ _ _ _ m id Hp Hi Hj Hk SW C2 Ea X3) as (dW' & YW & SW').
    exists (dU', dV', dW'). cbn [abs3_dec_point]. unfold code_app. cbn [c_eb c_q c_unp app].
    replace (id =? 0) with false by lia. rewrite YU. cbn [bind]. rewrite YV. cbn [bind]. rewrite YW. cbn [bind].
    split; [destruct rest; reflexivity|]. unfold abs3_rel.
    repeat (split; [first [eapply untouched_set; eassumption|assumption]|]); assumption.
Qed.

(** Lengths of the emitted arrays. *)
Definition abs3_lens (U V W : list T) (m : nat) (s : field3 A) (c : code T) : Prop :=
  length (c_eb c) = m /\ (length (c_q c) <= 3 * m)%nat /\ length (fst (fst s)) = length U /\ length (snd (fst s)) = length V /\ length (snd s) = length W.

Lemma abs3_outcome_local req r2 r3 U V W i j k U' V' W' c :
  abs3_outcome req r2 r3 U V W i j k U' V' W' c ->
  length (c_eb c) = 1%nat /\ (length (c_q c) <= 3)%nat /\ length U' = length U /\ length V' = length V /\ length W' = length W /\
  (forall m, m <> lin3 r2 r3 (i, j, k) -> aget U' m = aget U m /\ aget V' m = aget V m /\ aget W' m = aget W m).
Proof.
  intros H. destruct H; [cbn [c_eb c_q verbatim3 length]; repeat (split; [auto with arith|]); auto|].
  repeat match goal with H : aset _ _ _ = Some _ |- _ =>
    let L := fresh "L" in let G := fresh "G" in destruct (aset_Some _ _ _ _ H) as (_ & L & G); clear H end.
  split; [reflexivity|]. split; [cbn; lia|]. split; [auto|]. split; [auto|]. split; [auto|]. intros m Hm.
  rewrite G, G0, G1. replace (m =? lin3 r2 r3 (i, j, k)) with false by lia. auto.
Qed.

Context (ftk : D A * D A * D A -> D A * D A * D A -> D A * D A * D A -> D A * D A * D A -> bool).

Theorem abs3_lens_final max_eb r1 r2 r3 U V W s c : 0 <= r1 -> 0 < r2 -> 0 < r3 ->
  enc_abs3 A ftk max_eb r1 r2 r3 U V W = Some (s, c) -> abs3_lens U V W (Z.to_nat (r1 * r2 * r3)) s c.
Proof.
  intros H1 H2 H3 H. unfold enc_abs3 in H. bind_as H cp Ec.
  match type of H with scan_enc ?st _ _ = _ =>
    pose proof (fun a b => scan_code st (abs3_lens U V W) (scan3 r1 r2 r3) 0%nat _ code_nil _ _ a b H) as G end.
  rewrite scan3_length in G by auto. apply G.
  - intros m [[i j] k] [[Ua Va] Wa] c0 [[Ub Vb] Wb] c1 Hm (L1 & L0 & L2 & L3 & L4) HS. apply abs3_point_inv in HS.
    apply abs3_outcome_local in HS. destruct HS as (K1 & K0 & K2 & K3 & K4 & _). unfold abs3_lens, code_app. cbn [c_eb c_q fst snd] in *.
    rewrite !app_length. repeat split; try lia.
  - unfold abs3_lens. cbn. auto.
Qed.

(** The arrays handed to the entropy coder determine the field. *)
Theorem abs3_field_sync max_eb r1 r2 r3 U V W U' V' W' c :
  0 <= r1 -> 0 < r2 -> 0 < r3 ->
  Z.of_nat (length U) = r1 * r2 * r3 -> Z.of_nat (length V) = r1 * r2 * r3 -> Z.of_nat (length W) = r1 * r2 * r3 ->
  enc_abs3 A ftk max_eb r1 r2 r3 U V W = Some (U', V', W', c) ->
  exists dU dV dW,
    scan_dec (abs3_dec_point A 4 (eps_double A) intv_radius r2 r3) (scan3 r1 r2 r3)
             (repeat None (Z.to_nat (r1 * r2 * r3)), repeat None (Z.to_nat (r1 * r2 * r3)), repeat None (Z.to_nat (r1 * r2 * r3))) c
    = Some (dU, dV, dW, code_nil) /\
    written dU = Some U' /\ written dV = Some V' /\ written dW = Some W'.
Proof.
  intros H1 H2 H3 LU LV LW HE. set (n := Z.to_nat (r1 * r2 * r3)).
  destruct (abs3_lens_final _ _ _ _ _ _ _ _ _ H1 H2 H3 HE) as (_ & _ & L1 & L2 & L3). cbn [fst snd] in *.
  unfold enc_abs3 in HE. bind_as HE cp Ec.
  match type of HE with scan_enc ?st _ _ = _ =>
    pose proof (fun a b => scan_sync st (abs3_dec_point A 4 (eps_double A) intv_radius r2 r3) (abs3_rel U V W)
                (scan3 r1 r2 r3) 0%nat _ (repeat None n, repeat None n, repeat None n) _ _ a b HE code_nil) as G end.
  destruct G as ([[dU dV] dW] & ED & HR).
  - intros m [[i j] k] s d s' c0 rest Hm HR HS. destruct (scan3_nth _ _ _ _ _ H1 H2 H3 Hm) as (Hi & Hj & Hk & Hp). cbn [fst snd] in *.
    exact (abs3_step_sync _ _ _ _ _ _ _ _ _ _ rest _ _ _ _ Hp (proj1 Hi) Hj Hk HR HS).
  - unfold abs3_rel. repeat (split; [apply untouched_refl|]).
    repeat split; try (rewrite repeat_length; lia); intros; lia.
  - rewrite code_app_nil in ED. exists dU, dV, dW. split; [exact ED|].
    rewrite scan3_length in HR by auto. cbn [Nat.add] in HR. destruct HR as (_ & _ & _ & SU & SV & SW). fold n in SU, SV, SW.
    replace n with (length U') in SU by lia. replace n with (length V') in SV by lia. replace n with (length W') in SW by lia.
    auto using synced_written.
Qed.

(** ** Bytes *)
Theorem abs3_round_trip ord ub max_eb r1 r2 r3 U V W U' V' W' c junk buf size :
  ser_ok A -> 0 <= r1 -> 0 < r2 -> 0 < r3 ->
  Z.of_nat (length U) = r1 * r2 * r3 -> Z.of_nat (length V) = r1 * r2 * r3 -> Z.of_nat (length W) = r1 * r2 * r3 ->
  enc_abs3 A ftk max_eb r1 r2 r3 U V W = Some (U', V', W', c) ->
  code_words_64 ord c -> Z.of_nat (length junk) < 2 ^ 64 -> 3 * (r1 * r2 * r3) < 2 ^ 64 ->
  write_pieces ord ub (abs3_pieces A c) junk 0 = Some (buf, size) ->
  decompress_abs3 A r1 r2 r3 (firstn size buf) = Some (U', V', W').
Proof.
  intros HS H1 H2 H3 LU LV LW HE [K1 K2] HJ Hbig HW.
  destruct (abs3_lens_final _ _ _ _ _ _ _ _ _ H1 H2 H3 HE) as (Le & Lq & _).
  destruct (abs3_field_sync _ _ _ _ _ _ _ _ _ _ _ H1 H2 H3 LU LV LW HE) as (dU & dV & dW & ER & WU & WV & WW).
  set (n := Z.to_nat (r1 * r2 * r3)) in *.
  assert (HF : Forall (piece_ok ord) (abs3_pieces A c)).
  { unfold abs3_pieces, capacity. change (2 * 65536) with 131072. repeat apply Forall_cons; try apply Forall_nil; cbn [piece_ok]; auto; split; auto; lia. }
  pose proof (write_pieces_spec ord ub _ junk 0 buf size HJ HF ltac:(lia) HW) as (_ & _ & cs0 & HC0 & _ & HP & HE0).
  destruct (write_pieces_bytes ord ub _ _ _ _ HJ HF HW) as (cs & HC & EF).
  assert (Hcnt : Z.of_nat (length (c_unp c)) < 2 ^ 64).
  { assert (HL : (length (concat cs0) <= length junk)%nat) by lia. clear - HC0 HL HS HJ.
    unfold abs3_pieces in HC0. inv_forall2. cbn [concat] in HL. rewrite !app_length in HL.
    pose proof (tser_array_nil_inv A (c_unp c) HS). lia. }
  assert (Hq : Z.of_nat (length (c_q c)) < 2 ^ 64).
  { lia. }
  clear HC0 cs0 HP.
  rewrite EF. unfold abs3_pieces in HC. inv_forall2. cbn [concat]. unfold decompress_abs3. fold n.
  rewrite read_s32_app by lia. cbn [bind].
  rewrite take_bytes_app by (apply (dser_length _ HS)). cbn [bind]. rewrite (ddes_dser _ HS).
  rewrite read_s32_app by (unfold intv_radius; lia). cbn [bind].
  rewrite read_le_app by (change (256 ^ Z.of_nat 8) with (2 ^ 64); lia). cbn [bind].
  rewrite read_le_app by (change (256 ^ Z.of_nat 8) with (2 ^ 64); lia). cbn [bind].
  rewrite Nat2Z.id. rewrite tread_array_app by auto. cbn [bind].
  match goal with H : forall rest, huffman_decode_tree_and_data (length (c_eb c)) _ = _ |- _ => rewrite Le in H; rewrite H end.
  cbn [bind]. rewrite Nat2Z.id.
  match goal with H : forall rest, huffman_decode_tree_and_data (length (c_q c)) _ = _ |- _ => rewrite H end.
  cbn [bind].
  replace {| c_eb := c_eb c; c_q := c_q c; c_unp := c_unp c |} with c by (destruct c; reflexivity).
  rewrite ER. cbn [bind]. rewrite WU. cbn [bind]. rewrite WV. cbn [bind]. rewrite WW. reflexivity.
Qed.
End Sync.
