(** Error bound and totality of the unstructured codec in IEEE arithmetic.  Nothing of /repo is modelled here. *)
From Coq Require Import Reals Lra Lia ZArith List Bool.
From Coq Require Import ZifyBool ZifyNat.
From Flocq Require Import Core.Core IEEE754.BinarySingleNaN IEEE754.Binary IEEE754.Bits.
From Verif Require Import Base Huffman HuffStream HuffProps Stream Arith Mesh2D Mesh3D Derive3D Codec2D Sync2D Scan Stream2D Abs3D Sync3D Exact IEEE IEEELaws IEEEQuant
  IEEE2D IEEEAbs2D IEEETotal2D IEEERel2D Preserve3D Total3D IEEE3D RelaxErr2D Log2D LogSync2D LogCells2D LogErr2D Log3D LogSync3D LogErr3D Uns3D UnsSync.
Import ListNotations.
Local Open Scope Z_scope.

Lemma aget_tail {X} (x : X) l k : 1 <= k -> aget (x :: l) k = aget l (k - 1).
Proof.
  intros H. unfold aget. replace (k <? 0) with false by lia. replace (k - 1 <? 0) with false by lia.
  replace (Z.to_nat k) with (S (Z.to_nat (k - 1))) by lia. reflexivity.
Qed.

Lemma aget_join3 {X} : forall (x y z : list X) k, length y = length x -> length z = length x -> 0 <= k ->
  aget (join3 (zip3 x y z)) (3 * k) = aget x k /\ aget (join3 (zip3 x y z)) (3 * k + 1) = aget y k /\ aget (join3 (zip3 x y z)) (3 * k + 2) = aget z k.
Proof.
  induction x as [|a x IH]; intros [|b y] [|c z] k; cbn [length]; intros Hy Hz Hk; try discriminate.
  { change (join3 (zip3 [] [] [])) with (@nil X).
    assert (N : forall z, aget (@nil X) z = None) by (intros q; unfold aget; destruct (q <? 0); [reflexivity|destruct (Z.to_nat q); reflexivity]).
    rewrite !N. auto. }
  unfold zip3, join3. cbn [combine map concat app].
  destruct (Z.eq_dec k 0) as [->|Hne]; [repeat split; reflexivity|].
  specialize (IH y z (k - 1) ltac:(lia) ltac:(lia) ltac:(lia)). unfold zip3, join3 in IH.
  rewrite (aget_tail a x), (aget_tail b y), (aget_tail c z) by lia.
  replace (3 * k + 1) with (3 * (k - 1) + 1 + 3) by lia. replace (3 * k + 2) with (3 * (k - 1) + 2 + 3) by lia. replace (3 * k) with (3 * (k - 1) + 3) by lia.
  rewrite !(aget_tail a), !(aget_tail b), !(aget_tail c) by lia.
  replace (3 * (k - 1) + 3 - 1 - 1 - 1) with (3 * (k - 1)) by lia.
  replace (3 * (k - 1) + 1 + 3 - 1 - 1 - 1) with (3 * (k - 1) + 1) by lia.
  replace (3 * (k - 1) + 2 + 3 - 1 - 1 - 1) with (3 * (k - 1) + 2) by lia. exact IH.
Qed.

Lemma join3_forall {X} (R : X -> X -> Prop) x y z x' y' z' : length y = length x -> length z = length x ->
  length x' = length x -> length y' = length x -> length z' = length x ->
  (forall k a b, aget x k = Some a -> aget x' k = Some b -> R a b) -> (forall k a b, aget y k = Some a -> aget y' k = Some b -> R a b) ->
  (forall k a b, aget z k = Some a -> aget z' k = Some b -> R a b) ->
  forall k a b, aget (join3 (zip3 x y z)) k = Some a -> aget (join3 (zip3 x' y' z')) k = Some b -> R a b.
Proof.
  intros L1 L2 L3 L4 L5 Rx Ry Rz k a b Ea Eb. pose proof (aget_Some _ _ _ Ea) as Hk.
  set (q := k / 3). assert (Hq : 0 <= q) by (apply Z.div_pos; lia). pose proof (Z.div_mod k 3 ltac:(lia)) as D. pose proof (Z.mod_pos_bound k 3 ltac:(lia)) as M.
  fold q in D.
  destruct (aget_join3 x y z q ltac:(lia) ltac:(lia) Hq) as (A0 & A1 & A2). destruct (aget_join3 x' y' z' q ltac:(lia) ltac:(lia) Hq) as (B0 & B1 & B2).
  assert (C : k mod 3 = 0 \/ k mod 3 = 1 \/ k mod 3 = 2) by lia. destruct C as [C|[C|C]]; rewrite C in D.
  - replace k with (3 * q) in * by lia. rewrite A0 in Ea. rewrite B0 in Eb. eauto.
  - replace k with (3 * q + 1) in * by lia. rewrite A1 in Ea. rewrite B1 in Eb. eauto.
  - replace k with (3 * q + 2) in * by lia. rewrite A2 in Ea. rewrite B2 in Eb. eauto.
Qed.

Section Any.
Context (A : Arith) (n : Z) (Hn : 0 <= n).
Definition len_n (w : list (T A)) : Prop := Z.of_nat (length w) = n.

Definition quantise_okp (eb : D A) (LU LV LW : list (T A)) (p : Z) : Prop :=
  exists id ab, eb_exponential_quantize A 2 (eps_float A) (log_eb A eb) = Some (id, ab) /\
    (0 < id -> forall w c pr, In w [LU; LV; LW] -> aget w p = Some c -> prev_log A (aget w) p = Some pr ->
       exists a, quantise A pr c ab = Some a).

Lemma vec_at_any U V W p : len_n U -> len_n V -> len_n W -> 0 <= p < n -> exists x, vec_at A U V W p = Some x.
Proof.
  unfold len_n, vec_at. intros. destruct (aget_ok U p) as [u ->]; [lia|]. destruct (aget_ok V p) as [v ->]; [lia|].
  destruct (aget_ok W p) as [w ->]; [lia|]. cbn [bind]. eauto.
Qed.

Lemma adj_bound_any U V W p a b c eb : len_n U -> len_n V -> len_n W -> 0 <= p < n -> 0 <= a < n -> 0 <= b < n -> 0 <= c < n ->
  exists e, adj_bound A U V W p a b c eb = Some e.
Proof.
  intros. unfold adj_bound. destruct (vec_at_any U V W a) as [x0 ->]; auto. destruct (vec_at_any U V W b) as [x1 ->]; auto.
  destruct (vec_at_any U V W c) as [x2 ->]; auto. destruct (vec_at_any U V W p) as [x3 ->]; auto. cbn [bind]. eauto.
Qed.

Lemma in_range_inv v0 v1 v2 v3 : in_range n (v0, v1, v2, v3) = true -> 0 <= v0 < n /\ 0 <= v1 < n /\ 0 <= v2 < n /\ 0 <= v3 < n.
Proof. unfold in_range. lia. Qed.

Lemma uns_loop_any U V W p : len_n U -> len_n V -> len_n W -> 0 <= p < n -> forall tets eb, forallb (in_range n) tets = true ->
  exists e, uns_loop A U V W p tets eb = Some e.
Proof.
  intros SU SV SW Hp. induction tets as [|[[[v0 v1] v2] v3] tets IH]; intros eb H; cbn [uns_loop]; [eauto|].
  cbn [forallb] in H. apply andb_true_iff in H. destruct H as [H HT]. apply in_range_inv in H. destruct H as (R0 & R1 & R2 & R3).
  assert (G : forall v a b c e, 0 <= a < n -> 0 <= b < n -> 0 <= c < n -> exists e', (if v =? p then adj_bound A U V W p a b c e else Some e) = Some e').
  { intros v a b c e Ha Hb Hc. destruct (v =? p); [apply adj_bound_any; auto|eauto]. }
  destruct (G v0 v1 v2 v3 eb) as [e0 ->]; auto. cbn [bind]. destruct (G v1 v0 v2 v3 e0) as [e1 ->]; auto. cbn [bind].
  destruct (G v2 v0 v1 v3 e1) as [e2 ->]; auto. cbn [bind]. destruct (G v3 v0 v1 v2 e2) as [e3 ->]; auto. cbn [bind]. auto.
Qed.

Lemma prev_any w p : len_n w -> 0 <= p < n -> exists pr, prev_log A (aget w) p = Some pr.
Proof. unfold len_n, prev_log. intros. destruct (Z.eqb_spec p 0); [eauto|]. apply aget_ok. lia. Qed.

Definition len6 (s : log3_state A) : Prop :=
  let '(U, V, W, (LU, LV, LW)) := s in len_n U /\ len_n V /\ len_n W /\ len_n LU /\ len_n LV /\ len_n LW.

Lemma uns_point_any max_eb tets U V W LU LV LW p : forallb (in_range n) tets = true -> len6 (U, V, W, (LU, LV, LW)) -> 0 <= p < n ->
  (forall eb, required_eb_uns A max_eb tets U V W p = Some eb -> dlt A (dofZ A 0) eb = true -> quantise_okp eb LU LV LW p) ->
  exists s c, uns_point A max_eb tets (U, V, W, (LU, LV, LW)) p = Some (s, c).
Proof.
  intros HT (SU & SV & SW & TU & TV & TW) Hp HQ. cbn [uns_point].
  destruct (vec_at_any U V W p SU SV SW Hp) as [[[u v] w] ->]. cbn [bind].
  assert (HR : exists r, required_eb_uns A max_eb tets U V W p = Some r).
  { unfold required_eb_uns. destruct (uns_loop_any U V W p SU SV SW Hp tets max_eb HT) as [e ->]. cbn [bind]. eauto. }
  destruct HR as [eb Er]. rewrite Er. cbn [bind].
  destruct (dlt A (dofZ A 0) eb) eqn:Dp; [|eauto]. destruct (HQ eb Er Dp) as (id & ab & Eq & HQ'). unfold log_eb in Eq. rewrite Eq. cbn [bind].
  destruct (Z.ltb_spec 0 id) as [Hid|]; [|eauto]. specialize (HQ' Hid).
  destruct (vec_at_any LU LV LW p TU TV TW Hp) as [[[lu lv] lw] Ev]. rewrite Ev. apply vec_at_inv in Ev. destruct Ev as (Eu & Ev & Ew). cbn [bind].
  destruct (prev_any LU p TU Hp) as [p0 P0]. destruct (prev_any LV p TV Hp) as [p1 P1]. destruct (prev_any LW p TW Hp) as [p2 P2].
  destruct (HQ' LU lu p0 ltac:(cbn; auto) Eu P0) as [a0 Q0]. destruct (HQ' LV lv p1 ltac:(cbn; auto) Ev P1) as [a1 Q1].
  destruct (HQ' LW lw p2 ltac:(cbn; auto) Ew P2) as [a2 Q2].
  rewrite P0, P1, P2. cbn [try_list bind]. rewrite Q0. cbn [bind]. destruct a0 as [|q0 x0]; [cbn [bind]; eauto|].
  rewrite Q1. cbn [bind]. destruct a1 as [|q1 x1]; [cbn [bind option_map]; eauto|].
  rewrite Q2. cbn [bind]. destruct a2 as [|q2 x2]; [cbn [bind option_map]; eauto|].
  cbn [bind option_map]. unfold len_n in *.
  destruct (aset_ok LU p x0) as [? ->]; [lia|]. destruct (aset_ok LV p x1) as [? ->]; [lia|]. destruct (aset_ok LW p x2) as [? ->]; [lia|].
  destruct (aset_ok U p (unlog A u x0)) as [? ->]; [lia|]. destruct (aset_ok V p (unlog A v x1)) as [? ->]; [lia|].
  destruct (aset_ok W p (unlog A w x2)) as [? ->]; [lia|]. cbn [bind]. eauto.
Qed.

Lemma len6_step max_eb tets s p s' c : len6 s -> uns_point A max_eb tets s p = Some (s', c) -> len6 s'.
Proof.
  destruct s as [[[U V] W] [[LU LV] LW]]. destruct s' as [[[U' V'] W'] [[LU' LV'] LW']].
  intros (S1 & S2 & S3 & S4 & S5 & S6) H. apply uns_point_inv in H.
  destruct H as [|u v w lu lv lw eb id ab q0 q1 q2 x0 x1 x2 U2 V2 W2 LU2 LV2 LW2 ? ? ? ? ? ? ? ? ? ? ? ? ? X1 X2 X3 X4 X5 X6]; [repeat split; auto|].
  apply aset_Some in X1, X2, X3, X4, X5, X6. unfold len6, len_n in *. repeat split; lia.
Qed.

Lemma uns_field_any max_eb tets (inv : nat -> log3_state A -> Prop) U V W : forallb (in_range n) tets = true ->
  len_n U -> len_n V -> len_n W ->
  inv 0%nat (U, V, W, (map (log_value A) U, map (log_value A) V, map (log_value A) W)) ->
  (forall m p s s' c, nth_error (zrange 0 n) m = Some p -> inv m s -> uns_point A max_eb tets s p = Some (s', c) -> inv (S m) s') ->
  (forall m U0 V0 W0 LU LV LW p eb, len6 (U0, V0, W0, (LU, LV, LW)) -> 0 <= p < n -> inv m (U0, V0, W0, (LU, LV, LW)) ->
     required_eb_uns A max_eb tets U0 V0 W0 p = Some eb -> dlt A (dofZ A 0) eb = true -> quantise_okp eb LU LV LW p) ->
  exists s c, scan_uns A max_eb tets n U V W = Some (s, c).
Proof.
  intros HT SU SV SW HI HS HQ. unfold scan_uns.
  eapply (scan_total _ (fun m s => len6 s /\ inv m s) _ 0%nat).
  2:{ split; [|auto]. unfold len6, len_n in *. rewrite !map_length. tauto. }
  intros m p [[[U0 V0] W0] [[LU LV] LW]] Hm [S6 Hinv]. cbn [Nat.add].
  destruct (zrange_nth _ _ _ Hn Hm) as [Hp Hr].
  destruct (uns_point_any max_eb tets U0 V0 W0 LU LV LW p HT S6 Hr) as (s & c & E).
  { intros eb Er Dp. exact (HQ m U0 V0 W0 LU LV LW p eb S6 Hr Hinv Er Dp). }
  exists s, c. split; [exact E|]. split; [eapply len6_step; eauto|eapply HS; eauto].
Qed.

Lemma enc_uns_split max_eb tets data U V W : split3 data = (U, V, W) -> enc_uns A max_eb tets n data = scan_uns A max_eb tets n U V W.
Proof. intros E. unfold enc_uns, scan_uns. rewrite E. reflexivity. Qed.

Section Machine.
Hypothesis conv : forall x, exists z, dtoint A x = Some z.
Theorem uns_machine_total max_eb tets data : forallb (in_range n) tets = true -> Z.of_nat (length data) = 3 * n ->
  exists s c, enc_uns A max_eb tets n data = Some (s, c).
Proof.
  intros HT HL. destruct (split3 data) as [[U V] W] eqn:ES. rewrite (enc_uns_split _ _ _ U V W ES).
  pose proof (split3_length data (Z.to_nat n) ltac:(lia)) as SL. rewrite ES in SL. destruct SL as (L1 & L2 & L3).
  apply (uns_field_any max_eb tets (fun _ _ => True)); unfold len_n; try lia; auto.
  intros m U0 V0 W0 LU LV LW p eb _ _ _ _ _. unfold quantise_okp.
  assert (HX : exists id ab, eb_exponential_quantize A 2 (eps_float A) (log_eb A eb) = Some (id, ab)).
  { unfold eb_exponential_quantize. destruct (dle A _ _); [eauto|].
    match goal with |- context [dtoint A ?x] => destruct (conv x) as [z ->] end. cbn [bind]. eauto. }
  destruct HX as (id & ab & HX). exists id, ab. split; auto. intros _ w c pr _ _ _.
  unfold quantise. destruct (dlt A _ _); [|eauto]. match goal with |- context [dtoint A ?x] => destruct (conv x) as [z ->] end.
  cbn [bind]. destruct (dle A _ _); eauto.
Qed.
End Machine.
End Any.

Theorem uns_machine_double (lm : Libm _ _) max_eb n tets data : lm_x86 lm = true -> 0 <= n -> forallb (in_range n) tets = true ->
  Z.of_nat (length data) = 3 * n -> exists s c, enc_uns (DA lm) max_eb tets n data = Some (s, c).
Proof.
  intros HX Hn. apply uns_machine_total; auto. intros x. rewrite (v_dtoint (DA lm) (DA_ieee lm)). cbn [DA_ieee oob]. unfold lm_oob. rewrite HX. destruct (xtoint _); eauto.
Qed.
Theorem uns_machine_float (lm : Libm _ _) max_eb n tets data : lm_x86 lm = true -> 0 <= n -> forallb (in_range n) tets = true ->
  Z.of_nat (length data) = 3 * n -> exists s c, enc_uns (FA lm) max_eb tets n data = Some (s, c).
Proof.
  intros HX Hn. apply uns_machine_total; auto. intros x. rewrite (v_dtoint (FA lm) (FA_ieee lm)). cbn [FA_ieee oob]. unfold lm_oob. rewrite HX. destruct (xtoint _); eauto.
Qed.

Local Open Scope R_scope.
Section B.
Context (A : Arith) (I : ieee A) (L : libm_ok A I) (LL : log_libm_ok A I).
Context (Hp24 : (24 <= pT A I)%Z) (B : Z) (HB : (0 <= B <= 100)%Z) (HE : (3 * B + 11 < eT A I)%Z).
Context (max_eb : D A) (m : R) (Em : vD A I max_eb = Fin m) (Hm : 0 <= m <= 5 / 2).
Context (tets : list tetra) (n : Z) (Hn : (0 <= n)%Z).
Local Notation vT := (vT A I). Local Notation vD := (vD A I).

Lemma vec_at_bnd W U V X p x : all_bnd A I W U -> all_bnd A I W V -> all_bnd A I W X -> vec_at A U V X p = Some x -> bnd3 A I W x.
Proof.
  intros BU BV BX H. destruct x as [[u v] w]. apply vec_at_inv in H. destruct H as (E1 & E2 & E3).
  split; [eauto|]. split; eauto.
Qed.

Lemma adj_atmost W U V X p a b c eb r k : (0 <= W)%Z -> (3 * W + 9 < 1024)%Z -> (3 * W + 5 < eT A I)%Z ->
  all_bnd A I W U -> all_bnd A I W V -> all_bnd A I W X -> atmost k (vD eb) -> adj_bound A U V X p a b c eb = Some r -> atmost k (vD r).
Proof.
  intros HW H1 H2 BU BV BX G H. unfold adj_bound in H. bind_as H x0 E0. bind_as H x1 E1. bind_as H x2 E2. bind_as H x3 E3. apply Some_inj in H. subst r.
  apply minf_atmost; auto. apply (derive3_rel_notnan A I W); auto; eapply (vec_at_bnd W U V X); eassumption.
Qed.

Lemma uns_loop_atmost W U V X p k : (0 <= W)%Z -> (3 * W + 9 < 1024)%Z -> (3 * W + 5 < eT A I)%Z ->
  all_bnd A I W U -> all_bnd A I W V -> all_bnd A I W X -> forall ts eb r, atmost k (vD eb) ->
  uns_loop A U V X p ts eb = Some r -> atmost k (vD r).
Proof.
  intros HW H1 H2 BU BV BX. induction ts as [|[[[v0 v1] v2] v3] ts IH]; intros eb r G H; cbn [uns_loop] in H.
  { apply Some_inj in H. subst. auto. }
  bind_as H e0 E0. bind_as H e1 E1. bind_as H e2 E2. bind_as H e3 E3. eapply IH; [|exact H].
  assert (S : forall v a b c e e', atmost k (vD e) -> (if (v =? p)%Z then adj_bound A U V X p a b c e else Some e) = Some e' -> atmost k (vD e')).
  { intros v a b c e e' G' H'. destruct (v =? p)%Z; [exact (adj_atmost W U V X p a b c e e' k HW H1 H2 BU BV BX G' H')|]. apply Some_inj in H'. subst. auto. }
  eapply S; [|exact E3]. eapply S; [|exact E2]. eapply S; [|exact E1]. eapply S; [|exact E0]. exact G.
Qed.

Lemma required_uns_atmost W U V X p r : (0 <= W)%Z -> (3 * W + 9 < 1024)%Z -> (3 * W + 5 < eT A I)%Z ->
  all_bnd A I W U -> all_bnd A I W V -> all_bnd A I W X ->
  required_eb_uns A max_eb tets U V X p = Some r -> dlt A (dofZ A 0) r = true -> exists e, vD r = Fin e /\ 0 < e <= m.
Proof.
  intros HW H1 H2 BU BV BX H Hr. unfold required_eb_uns in H. bind_as H eb He. apply Some_inj in H.
  apply (uns_loop_atmost W U V X p m) in He; auto; [|right; exists m; split; [auto|lra]].
  rewrite (v_dlt A I), (vD_0 A I) in Hr. subst r. destruct (dlt A eb _); [|exact (atmost_pos _ _ He Hr)].
  rewrite (vD_0 A I) in Hr. apply xlt_fin in Hr. lra.
Qed.

Lemma uns_err_step U V W : all_usual A I B U -> all_usual A I B V -> all_usual A I B W ->
  no_collision_uns A max_eb tets 24 n (log3_err A I (fun _ => m) U V W).
Proof.
  intros MU MV MW k p s s' c Hk HI H. destruct (zrange_nth _ _ _ Hn Hk) as [Hp _].
  destruct s as [[[U1 V1] W1] [[LU LV] LW]]. destruct s' as [[[U2 V2] W2] [[LU2 LV2] LW2]].
  destruct HI as (CU & CV & CW). apply uns_point_inv in H.
  destruct H as [u v w Eu Ev Ew|u v w lu lv lw eb id abs_eb q0 q1 q2 x0 x1 x2 U2 V2 W2 LU2 LV2 LW2
                 Eu Ev Ew El Em' En Er Ep Eq Hid C0 C1 C2 X1 X2 X3 X4 X5 X6]; rewrite Hp in *.
  - split; [|cbn [c_q verbatim_as]; congruence]. split; [|split]; apply comp_err_keep; auto.
  - destruct (required_uns_atmost (B + 2) U1 V1 W1 (Z.of_nat k) eb) as (e & Ee & He); auto; try lia.
    { eapply (comp_err_bnd A I LL B HB (fun _ => m) (fun _ => Hm)); [..|exact CU]; eauto. } { eapply (comp_err_bnd A I LL B HB (fun _ => m) (fun _ => Hm)); [..|exact CV]; eauto. } { eapply (comp_err_bnd A I LL B HB (fun _ => m) (fun _ => Hm)); [..|exact CW]; eauto. }
    destruct C0 as (p0 & _ & C0). destruct C1 as (p1 & _ & C1). destruct C2 as (p2 & _ & C2).
    destruct (comp_err_code A I L LL Hp24 B HB (fun _ => m) (fun _ => Hm) _ _ _ _ _ _ _ _ _ _ _ _ _ _ _ MU CU Eu El Eq Hid C0 Ee He X1 X4) as [Hlt KU].
    destruct (comp_err_code A I L LL Hp24 B HB (fun _ => m) (fun _ => Hm) _ _ _ _ _ _ _ _ _ _ _ _ _ _ _ MV CV Ev Em' Eq Hid C1 Ee He X2 X5) as [_ KV].
    destruct (comp_err_code A I L LL Hp24 B HB (fun _ => m) (fun _ => Hm) _ _ _ _ _ _ _ _ _ _ _ _ _ _ _ MW CW Ew En Eq Hid C2 Ee He X3 X6) as [_ KW].
    split; [split; [|split]; assumption|]. cbn [c_q c_eb In]. intros _ a [X|[]]. lia.
Qed.

(** No component is zero. *)
Definition no_zero (X : list (T A)) : Prop := forall k x, aget X k = Some x -> vT x <> Fin 0.

Lemma comp_unzero k fl X0 X M : length fl = length X0 -> no_zero X0 -> comp_err A I (fun _ => m) k X0 X M -> unzero A fl M.
Proof.
  intros Lf HZ (TX & TM & HK & _) i e l Ee _ El.
  assert (Hi : (i < length fl)%nat) by (apply nth_error_Some; congruence).
  destruct (aget_ok X0 (Z.of_nat i)) as [x Ex]; [lia|].
  assert (El' : aget M (Z.of_nat i) = Some l) by (unfold aget; replace (Z.of_nat i <? 0)%Z with false by lia; rewrite Nat2Z.id; auto).
  destruct (HK _ _ _ Ex El') as (r & d & Er & Ed & _ & _ & HN).
  destruct (HN) as [Hd _]. { intros ->. exact (HZ _ _ Ex Er). }
  rewrite (v_tlt A I), Ed, (vT_int A I) by (auto; lia). apply xlt_fin_false. exact Hd.
Qed.

Theorem uns_bound U V W U' V' W' LU LV LW c :
  Z.of_nat (length U) = n -> Z.of_nat (length V) = n -> Z.of_nat (length W) = n ->
  all_usual A I B U -> all_usual A I B V -> all_usual A I B W -> no_zero U -> no_zero V -> no_zero W ->
  scan_uns A max_eb tets n U V W = Some (U', V', W', (LU, LV, LW), c) ->
  let fl := map (vflag 24) (c_eb c) in
  unzero A fl LU /\ unzero A fl LV /\ unzero A fl LW /\
  length fl = Z.to_nat n /\ length LU = length U /\ length LV = length V /\ length LW = length W /\
  (forall k x y, aget U k = Some x -> aget (log_finals A fl U LU) k = Some y -> y = x \/ rel_close A I m x y) /\
  (forall k x y, aget V k = Some x -> aget (log_finals A fl V LV) k = Some y -> y = x \/ rel_close A I m x y) /\
  (forall k x y, aget W k = Some x -> aget (log_finals A fl W LW) k = Some y -> y = x \/ rel_close A I m x y).
Proof.
  intros LenU LenV LenW MU MV MW ZU ZV ZW H fl.
  pose proof (uns_inv_final A max_eb tets 24 n Hn (log3_err A I (fun _ => m) U V W) (uns_err_step U V W MU MV MW) U V W _ _
    (conj (comp_err_init A I LL Hp24 B HB (fun _ => m) (fun _ => Hm) U MU) (conj (comp_err_init A I LL Hp24 B HB (fun _ => m) (fun _ => Hm) V MV) (comp_err_init A I LL Hp24 B HB (fun _ => m) (fun _ => Hm) W MW))) H) as HI.
  destruct HI as ((EU & EV & EW) & _ & _ & _ & Le & _ & _). fold fl in Le.
  assert (Lf : length fl = Z.to_nat n) by (unfold fl; rewrite map_length; auto).
  split; [apply (comp_unzero (Z.to_nat n) fl U U' LU); [lia|exact ZU|exact EU]|]. split; [apply (comp_unzero (Z.to_nat n) fl V V' LV); [lia|exact ZV|exact EV]|].
  split; [apply (comp_unzero (Z.to_nat n) fl W W' LW); [lia|exact ZW|exact EW]|].
  assert (G : forall X X' M, Z.of_nat (length X) = n -> no_zero X -> comp_err A I (fun _ => m) (Z.to_nat n) X X' M -> length M = length X /\
     forall k x y, aget X k = Some x -> aget (log_finals A fl X M) k = Some y -> y = x \/ rel_close A I m x y).
  { intros X X' M LX ZX (TX & TM & HK & _). assert (LM : length M = length X) by (rewrite (proj1 TM), map_length; auto). split; [exact LM|].
    intros k x y Ex Ey. pose proof (aget_Some _ _ _ Ex) as Hk.
    destruct (aget_ok fl k) as [e Ee]; [lia|]. destruct (aget_ok M k) as [l El]; [lia|].
    rewrite (log_finals_get A fl X M k e x l Ee Ex El) in Ey. apply Some_inj in Ey. subst y.
    unfold log_final. destruct (e =? 0)%Z; [left; auto|]. right.
    destruct (final_close A I Hp24 m x l (HK _ _ _ Ex El)) as (r & Er & _ & HN). apply HN. intros ->. exact (ZX _ _ Ex Er). }
  destruct (G _ _ _ LenU ZU EU) as [L1 G1]. destruct (G _ _ _ LenV ZV EV) as [L2 G2]. destruct (G _ _ _ LenW ZW EW) as [L3 G3].
  repeat (split; [assumption|]). assumption.
Qed.

Theorem uns_noub U V W : forallb (in_range n) tets = true -> len_n A n U -> len_n A n V -> len_n A n W ->
  all_usual A I B U -> all_usual A I B V -> all_usual A I B W ->
  exists s c, scan_uns A max_eb tets n U V W = Some (s, c).
Proof.
  intros HT SU SV SW MU MV MW. pose proof (eT_ok A I) as HeT.
  apply (uns_field_any A n Hn max_eb tets (log3_err A I (fun _ => m) U V W) U V W HT SU SV SW).
  - split; [|split]; eapply (comp_err_init A I LL Hp24 B HB (fun _ => m) (fun _ => Hm)); eauto.
  - intros k p s s' c Hk HI HS. exact (proj1 (uns_err_step U V W MU MV MW k p s s' c Hk HI HS)).
  - intros k U0 V0 W0 LU LV LW p eb S6 Hp (CU & CV & CW) Er Dp.
    destruct (required_uns_atmost (B + 2) U0 V0 W0 p eb) as (e & Ee & He); auto; try lia.
    { eapply (comp_err_bnd A I LL B HB (fun _ => m) (fun _ => Hm)); [..|exact CU]; eauto. } { eapply (comp_err_bnd A I LL B HB (fun _ => m) (fun _ => Hm)); [..|exact CV]; eauto. } { eapply (comp_err_bnd A I LL B HB (fun _ => m) (fun _ => Hm)); [..|exact CW]; eauto. }
    destruct (log_eb_val A I L _ _ m Ee He ltac:(lra)) as (g & Eg & Hg & Hg2).
    assert (Hx : g * bpow radix2 23 <= bpow radix2 1022).
    { apply Rle_trans with (bpow radix2 1 * bpow radix2 23); [apply Rmult_le_compat_r; [apply bpow_ge_0|exact Hg2]|].
      rewrite <- bpow_plus. apply bpow_le. lia. }
    destruct (quantize_noub A I L 1 23 (eps_float A) _ g ltac:(lia) ltac:(lia) (v_epsf A I) Eg Hx) as [[id ab] Eq].
    exists id, ab. split; [exact Eq|]. intros Hid w c pr Hw Ec Epr.
    destruct (quantize_ieee A I L 1 23 (eps_float A) _ g id ab ltac:(lia) ltac:(lia) (v_epsf A I) Eq ltac:(lia) Eg Hx) as (_ & _ & K3 & _).
    assert (Bw : all_bnd A I 7 w).
    { cbn in Hw. destruct Hw as [<-|[<-|[<-|[]]]]; eapply comp_err_logs; eauto. }
    assert (Hpr : exists q, vT pr = Fin q).
    { unfold prev_log in Epr. destruct (p =? 0)%Z.
      - apply Some_inj in Epr. subst pr. exists 0. apply vT_0.
      - destruct (Bw _ _ Epr) as (q & Eq' & _). eauto. }
    destruct Hpr as [q Hpr].
    destruct (Bw _ _ Ec) as (cr & Ecr & _). eapply quantise_noub; eauto. apply bpow_gt_0.
Qed.
End B.
