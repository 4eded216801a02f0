(** Critical point preservation of the 3D absolute codec in exact arithmetic. *)
From Coq Require Import Reals Lra Lia ZArith List Bool Permutation.
From Coq Require Import ZifyBool ZifyNat.
From Flocq Require Import Core.Raux.
From Verif Require Import Base Huffman Arith Mesh2D Mesh3D Derive3D Codec2D Scan Abs3D Sync2D Sync3D Exact Geo2D
  Preserve2D Cells3D Geo3D.
Import ListNotations.
Local Open Scope Z_scope.

(** ** Points and vectors *)
Lemma lin3_inj r1 r2 r3 a b : in_grid r1 r2 r3 a -> in_grid r1 r2 r3 b -> lin3 r2 r3 a = lin3 r2 r3 b -> a = b.
Proof.
  destruct a as [[a1 a2] a3], b as [[b1 b2] b3]. unfold in_grid, lin3. cbn [fst snd].
  intros (A1 & A2 & A3) (B1 & B2 & B3) H.
  assert (E : a1 * r2 + a2 = b1 * r2 + b2 /\ a3 = b3).
  { apply (Z.div_mod_unique r3); [lia|lia|]. replace (r3 * (a1 * r2 + a2) + a3) with (a1 * (r2 * r3) + a2 * r3 + a3) by ring.
    rewrite H. ring. }
  destruct E as [E ->].
  assert (E' : a1 = b1 /\ a2 = b2) by (apply (Z.div_mod_unique r2); lia).
  destruct E' as [-> ->]. reflexivity.
Qed.

Lemma lin3_nonneg r1 r2 r3 a : in_grid r1 r2 r3 a -> 0 <= lin3 r2 r3 a < r1 * r2 * r3.
Proof.
  destruct a as [[a1 a2] a3]. unfold in_grid, lin3. cbn [fst snd]. intros (A1 & A2 & A3).
  pose proof (Z.mul_nonneg_nonneg a1 (r2 * r3) ltac:(lia) ltac:(nia)). pose proof (Z.mul_nonneg_nonneg a2 r3 ltac:(lia) ltac:(lia)).
  split; [lia|].
  assert (a1 * (r2 * r3) <= (r1 - 1) * (r2 * r3)) by (apply Z.mul_le_mono_nonneg_r; nia).
  assert (a2 * r3 <= (r2 - 1) * r3) by (apply Z.mul_le_mono_nonneg_r; lia).
  nia.
Qed.

Definition nbr_apart : bool :=
  forallb (fun n => forallb (fun p => negb ((index_offset n p 2 =? 0) && (index_offset n p 1 =? 0) && (index_offset n p 0 =? 0)))
    [0; 1; 2]%nat) (seq 0 24).
Lemma nbr_apart_ok : nbr_apart = true.
Proof. vm_compute. reflexivity. Qed.
Lemma nbr3_apart x n p : (n < 24)%nat -> (p < 3)%nat -> nbr3 x n p <> x.
Proof.
  intros Hn Hp E. pose proof nbr_apart_ok as H. unfold nbr_apart in H. rewrite forallb_forall in H.
  specialize (H n ltac:(apply in_seq; lia)). rewrite forallb_forall in H.
  specialize (H p ltac:(destruct p as [|[|[|]]]; cbn; auto; lia)).
  destruct x as [[x1 x2] x3]. unfold nbr3 in E. cbn [fst snd] in E. injection E as E1 E2 E3. lia.
Qed.

Definition vec3R (r2 r3 : Z) (U V W : list XR) (a : pt) : V3 :=
  (atR U (lin3 r2 r3 a), atR V (lin3 r2 r3 a), atR W (lin3 r2 r3 a)).

Lemma vec_at_fin U V W r2 r3 a x : allfin U -> allfin V -> allfin W ->
  vec_at XA U V W (lin3 r2 r3 a) = Some x -> x = fin3 (vec3R r2 r3 U V W a).
Proof.
  intros FU FV FW H. destruct x as [[u v] w]. apply vec_at_inv in H. destruct H as (E1 & E2 & E3).
  unfold fin3, vec3R, cx, cy, cz. cbn [fst snd].
  rewrite <- (atR_fin _ _ _ FU E1), <- (atR_fin _ _ _ FV E2), <- (atR_fin _ _ _ FW E3). reflexivity.
Qed.

Lemma tet_values_fin U V W r2 r3 x n v : allfin U -> allfin V -> allfin W ->
  tet_values XA U V W r2 r3 (lin3 r2 r3 x) n = Some v ->
  v = (fin3 (vec3R r2 r3 U V W (nbr3 x n 0)), fin3 (vec3R r2 r3 U V W (nbr3 x n 1)),
       fin3 (vec3R r2 r3 U V W (nbr3 x n 2)), fin3 (vec3R r2 r3 U V W x)).
Proof.
  intros FU FV FW H. unfold tet_values in H. rewrite !offset3_lin in H.
  bind_as H x0 E0. bind_as H x1 E1. bind_as H x2 E2. bind_as H x3 E3. apply Some_inj in H. subst v.
  rewrite (vec_at_fin _ _ _ _ _ _ _ FU FV FW E0), (vec_at_fin _ _ _ _ _ _ _ FU FV FW E1),
    (vec_at_fin _ _ _ _ _ _ _ FU FV FW E2), (vec_at_fin _ _ _ _ _ _ _ FU FV FW E3). reflexivity.
Qed.

Local Open Scope R_scope.

(** ** Quantisation *)
Lemma quantize_fin base thr eb0 id a : (2 <= base)%Z -> 0 < thr ->
  eb_exponential_quantize XA base (Fin thr) eb0 = Some (id, a) -> (0 < id)%Z ->
  exists eb r, eb0 = Fin eb /\ a = Fin r /\ 0 < r <= eb.
Proof.
  intros Hb Ht Hq Hid.
  assert (HE : exists eb, eb0 = Fin eb).
  { destruct eb0 as [eb| | |]; eauto; exfalso; unfold eb_exponential_quantize in Hq;
      cbn [dle dlog2 ddiv dtoint dofZ eps_double XA xle xlt xeq orb] in Hq.
    - Local Transparent xdiv.
      bind_as Hq z Hz. cbn [xdiv] in Hz. rewrite Rlt_bool_false in Hz by lra. cbn [xlog2] in Hz.
      destruct (Rlt_bool 0 _) in Hz; [|destruct (Rlt_bool _ 0) in Hz; discriminate].
      cbn [xdiv] in Hz. destruct (Rlt_bool _ _) in Hz; discriminate.
    - cbn in Hq. apply Some_inj in Hq. inversion Hq. subst id. discriminate.
    - bind_as Hq z Hz. cbn [xdiv xlog2] in Hz. discriminate.
    Local Opaque xdiv. }
  destruct HE as [eb ->].
  apply quantize_exact in Hq; auto. destruct Hq as [(_ & E & _)|(_ & _ & r & -> & _ & Ha & Hle & _)]; [lia|].
  exists eb, r. auto.
Qed.

Lemma lorenzo3_fin w r2 r3 i j k p : allfin w -> lorenzo3 XA (aget w) r2 r3 i j k = Some p -> exists r, p = Fin r.
Proof.
  intros HF H. unfold lorenzo3 in H.
  bind_as H d0 H0. bind_as H d1 H1. bind_as H d2 H2. bind_as H d3 H3. bind_as H d4 H4. bind_as H d5 H5. bind_as H d6 H6.
  apply Some_inj in H. subst p.
  assert (G : forall (t : bool) m x, (if t then aget w m else Some (t0 XA)) = Some x -> exists r, x = Fin r).
  { intros [|] m x E; [eauto|]. apply Some_inj in E. subst x. cbn. eauto. }
  destruct (G _ _ _ H0) as [x0 ->]. destruct (G _ _ _ H1) as [x1 ->]. destruct (G _ _ _ H2) as [x2 ->].
  destruct (G _ _ _ H3) as [x3 ->]. destruct (G _ _ _ H4) as [x4 ->]. destruct (G _ _ _ H5) as [x5 ->].
  destruct (G _ _ _ H6) as [x6 ->]. cbn. eauto.
Qed.

Lemma coded3_exact w r2 r3 i j k cur r q x : allfin w -> 0 < r ->
  coded3 XA w r2 r3 i j k (Fin cur) (Fin r) q x -> exists d, x = Fin d /\ Rabs (d - cur) < r.
Proof.
  intros HF Hr (pred & Hl & Hc). destruct (lorenzo3_fin _ _ _ _ _ _ _ HF Hl) as [p ->].
  exact (quantise_fin _ _ _ _ _ Hr Hc).
Qed.

(** ** The 24 tetrahedra *)
Lemma req_abs3_below cp U V W r1 r2 r3 i j k e : allfin U -> allfin V -> allfin W -> 0 <= e ->
  forall ns eb r, notnan eb ->
  req_loop_abs XA cp U V W r1 r2 r3 i j k ns eb = Some r -> below e r ->
  below e eb /\ forall n, In n ns -> in_mesh3 r1 r2 r3 i j k n = true ->
    aget cp (simplex_offset r2 r3 n + 6 * (i * (r2 - 1) * (r3 - 1) + j * (r3 - 1) + k))%Z = Some false /\
    exists r', no_cp3_bound (vec3R r2 r3 U V W (nbr3 (i, j, k) n 0)) (vec3R r2 r3 U V W (nbr3 (i, j, k) n 1))
                 (vec3R r2 r3 U V W (nbr3 (i, j, k) n 2)) (vec3R r2 r3 U V W (i, j, k)) r' /\ below e r'.
Proof.
  intros FU FV FW He. induction ns as [|n ns IH]; intros eb r HN H HB; cbn [req_loop_abs] in H.
  - apply Some_inj in H. subst. split; auto. intros n [].
  - destruct (in_mesh3 r1 r2 r3 i j k n) eqn:EM.
    + bind_as H b Hb. destruct b.
      { apply Some_inj in H. subst r. exfalso. eapply below_zero; eauto. }
      bind_as H v Ev. apply tet_values_fin in Ev; auto. subst v.
      match type of H with req_loop_abs _ _ _ _ _ _ _ _ _ _ _ _ (minf XA eb (derive3_abs XA (fin3 ?x0) (fin3 ?x1) (fin3 ?x2) (fin3 ?x3))) = _ =>
        pose proof (derive3_abs_sound x0 x1 x2 x3) as S end.
      destruct (IH _ _ (notnan_minf eb _ (proj1 S)) H HB) as [B1 B2].
      apply below_minf in B1 as [B1 B3]; auto; [|apply S].
      split; auto. intros n' [<-|Hn] HM; [|eauto]. split; [exact Hb|eauto].
    + destruct (IH _ _ HN H HB) as [B1 B2]. split; auto. intros n' [<-|Hn] HM; [congruence|eauto].
Qed.

Lemma in_24 n : (n < 24)%nat -> In n twenty_four.
Proof. intros H. unfold twenty_four. apply in_seq. lia. Qed.

(** ** What a step guarantees on a tetrahedron *)
Definition tet_rel (keep : Prop) (l l' : list V3) : Prop :=
  (has_cp3 l <-> has_cp3 l') /\ (keep -> has_cp3 l -> l = l').
Lemma tet_rel_refl keep l : tet_rel keep l l.
Proof. split; tauto. Qed.
Lemma tet_rel_trans keep l1 l2 l3 : tet_rel keep l1 l2 -> tet_rel keep l2 l3 -> tet_rel keep l1 l3.
Proof.
  intros [H1 K1] [H2 K2]. split; [tauto|]. intros HK H. rewrite K1 by auto. apply K2; auto. tauto.
Qed.

Lemma tet_points r1 r2 r3 c x : tet r1 r2 r3 c -> In x c -> in_grid r1 r2 r3 x.
Proof. intros H Hx. exact (tet_in_grid _ _ _ _ _ H Hx). Qed.

Lemma step_tets (keep : Prop) r1 r2 r3 U V W U' V' W' i j k :
  in_grid r1 r2 r3 (i, j, k) ->
  (forall m, m <> lin3 r2 r3 (i, j, k) -> aget U' m = aget U m /\ aget V' m = aget V m /\ aget W' m = aget W m) ->
  (forall n, (n < 24)%nat -> in_mesh3 r1 r2 r3 i j k n = true ->
     let f := vec3R r2 r3 U V W in
     let l x := [f (nbr3 (i, j, k) n 0); f (nbr3 (i, j, k) n 1); f (nbr3 (i, j, k) n 2); x] in
     (has_cp3 (l (f (i, j, k))) <-> has_cp3 (l (vec3R r2 r3 U' V' W' (i, j, k)))) /\
     (keep -> has_cp3 (l (f (i, j, k))) -> vec3R r2 r3 U' V' W' (i, j, k) = f (i, j, k))) ->
  forall c, tet r1 r2 r3 c -> tet_rel keep (map (vec3R r2 r3 U V W) c) (map (vec3R r2 r3 U' V' W') c).
Proof.
  intros HG HO HS c HT.
  assert (HV : forall x, in_grid r1 r2 r3 x -> x <> (i, j, k) -> vec3R r2 r3 U' V' W' x = vec3R r2 r3 U V W x).
  { intros x Hx Hne. unfold vec3R, atR.
    destruct (HO (lin3 r2 r3 x)) as (-> & -> & ->); [|reflexivity].
    intros E. apply Hne. apply (lin3_inj r1 r2 r3); auto. }
  assert (HD : {In (i, j, k) c} + {~ In (i, j, k) c}) by (apply in_dec; repeat decide equality).
  destruct HD as [HI|HI].
  - destruct (table3_complete _ _ _ _ _ _ _ HT HI) as (n & Hn & HM & HP).
    specialize (HS n Hn HM). cbv zeta in HS.
    assert (HNb : forall p, (p < 3)%nat -> vec3R r2 r3 U' V' W' (nbr3 (i, j, k) n p) = vec3R r2 r3 U V W (nbr3 (i, j, k) n p)).
    { intros p Hp. apply HV; [|apply nbr3_apart; auto]. apply (tet_points _ _ _ _ _ HT).
      apply (Permutation_in _ (Permutation_sym HP)). unfold around. destruct p as [|[|[|]]]; cbn; auto; lia. }
    pose proof (Permutation_map (vec3R r2 r3 U V W) HP) as P1.
    pose proof (Permutation_map (vec3R r2 r3 U' V' W') HP) as P2.
    unfold around in P1, P2. cbn [map] in P1, P2. rewrite !HNb in P2 by lia.
    split.
    + split; intros H.
      * apply (has_cp3_perm _ _ (Permutation_sym P2)). apply HS. apply (has_cp3_perm _ _ P1 H).
      * apply (has_cp3_perm _ _ (Permutation_sym P1)). apply HS. apply (has_cp3_perm _ _ P2 H).
    + intros HK H. apply map_ext_in. intros x Hx.
      destruct (in_dec (ltac:(repeat decide equality) : forall a b : pt, {a = b} + {a <> b}) x [(i, j, k)]) as [[<-|[]]|Hne].
      * symmetry. apply HS; auto. apply (has_cp3_perm _ _ P1 H).
      * symmetry. apply HV; [apply (tet_points _ _ _ _ _ HT Hx)|]. intros ->. apply Hne. left; auto.
  - replace (map (vec3R r2 r3 U' V' W') c) with (map (vec3R r2 r3 U V W) c); [apply tet_rel_refl|].
    apply map_ext_in. intros x Hx. symmetry. apply HV; [apply (tet_points _ _ _ _ _ HT Hx)|].
    intros ->. contradiction.
Qed.

(** ** One step of the codec *)
Definition fin_field (s : field3 XA) : Prop := let '(U, V, W) := s in allfin U /\ allfin V /\ allfin W.
Definition vecs3 (r2 r3 : Z) (s : field3 XA) : pt -> V3 := let '(U, V, W) := s in vec3R r2 r3 U V W.

Lemma atR_aset w p r w' : aset w p (Fin r) = Some w' -> atR w' p = r.
Proof.
  intros E. destruct (aset_Some _ _ _ _ E) as (_ & _ & G). unfold atR. rewrite G, Z.eqb_refl. reflexivity.
Qed.

Lemma abs3_step max_eb cp r1 r2 r3 U V W U' V' W' i j k c :
  in_grid r1 r2 r3 (i, j, k) -> allfin U -> allfin V -> allfin W ->
  abs3_outcome XA (fun U V W i j k => required_eb3_abs XA (Fin max_eb) cp U V W r1 r2 r3 i j k) r2 r3
    U V W i j k U' V' W' c ->
  allfin U' /\ allfin V' /\ allfin W' /\
  forall t, tet r1 r2 r3 t -> tet_rel True (map (vec3R r2 r3 U V W) t) (map (vec3R r2 r3 U' V' W') t).
Proof.
  intros HG FU FV FW H. pose proof (abs3_outcome_local _ _ _ _ _ _ _ _ _ _ _ _ _ _ H) as (_ & _ & _ & _ & _ & HO).
  destruct H as [u v w E1 E2 E3|u v w eb id a q0 q1 q2 x0 x1 x2 U' V' W' E1 E2 E3 HR HZ HQ Hid C0 C1 C2 A0 A1 A2].
  { repeat split; auto. }
  change (Arith.T XA) with XR in *.
  pose proof (atR_fin _ _ _ FU E1). pose proof (atR_fin _ _ _ FV E2). pose proof (atR_fin _ _ _ FW E3). subst u v w.
  assert (Ht : 0 < / 4503599627370496) by lra.
  destruct (quantize_fin 4 _ _ _ _ ltac:(lia) Ht HQ Hid) as (ebr & r & -> & -> & Hr & Hle).
  destruct (coded3_exact _ _ _ _ _ _ _ _ _ _ FU Hr C0) as (d0 & -> & D0).
  destruct (coded3_exact _ _ _ _ _ _ _ _ _ _ FV Hr C1) as (d1 & -> & D1).
  destruct (coded3_exact _ _ _ _ _ _ _ _ _ _ FW Hr C2) as (d2 & -> & D2).
  split; [exact (allfin_aset _ _ _ _ FU A0)|]. split; [exact (allfin_aset _ _ _ _ FV A1)|].
  split; [exact (allfin_aset _ _ _ _ FW A2)|].
  apply (step_tets True r1 r2 r3 _ _ _ _ _ _ i j k HG HO).
  intros n Hn HM. cbv zeta.
  set (e := Rmax (Rabs (d0 - atR U (lin3 r2 r3 (i, j, k)))) (Rmax (Rabs (d1 - atR V (lin3 r2 r3 (i, j, k)))) (Rabs (d2 - atR W (lin3 r2 r3 (i, j, k)))))).
  assert (L0 : Rabs (d0 - atR U (lin3 r2 r3 (i, j, k))) <= e) by apply Rmax_l.
  assert (L1 : Rabs (d1 - atR V (lin3 r2 r3 (i, j, k))) <= e) by (eapply Rle_trans; [apply Rmax_l|apply Rmax_r]).
  assert (L2 : Rabs (d2 - atR W (lin3 r2 r3 (i, j, k))) <= e) by (eapply Rle_trans; [apply Rmax_r|apply Rmax_r]).
  assert (Le : e < ebr) by (unfold e; repeat apply Rmax_lub_lt; lra).
  assert (He : 0 <= e) by (eapply Rle_trans; [apply Rabs_pos|exact L0]).
  unfold required_eb3_abs in HR. bind_as HR [[u v] w] Ev.
  match type of HR with context [deq XA ?x ?y] => set (eb0 := x) in HR end.
  destruct (deq XA eb0 _) eqn:Ez.
  { clearbody eb0. apply Some_inj in HR. congruence. }
  assert (Hn0 : notnan eb0).
  { unfold eb0. match goal with |- notnan (if ?b then _ else _) => destruct b; discriminate end. }
  clearbody eb0.
  assert (HB : below e (Fin ebr)) by (apply below_fin; exact Le).
  destruct (req_abs3_below _ _ _ _ _ _ _ _ _ _ e FU FV FW He _ _ _ Hn0 HR HB) as [_ HL].
  destruct (HL n (in_24 n Hn) HM) as (_ & r' & [_ HS] & HB').
  destruct (HS e (vec3R r2 r3 U' V' W' (i, j, k)) He HB') as [N1 N2].
  - unfold vec3R, cx. cbn [fst snd]. rewrite (atR_aset _ _ _ _ A0). exact L0.
  - unfold vec3R, cy. cbn [fst snd]. rewrite (atR_aset _ _ _ _ A1). exact L1.
  - unfold vec3R, cz. cbn [fst snd]. rewrite (atR_aset _ _ _ _ A2). exact L2.
  - split; [tauto|]. intros _ HC. contradiction.
Qed.

(** ** The whole field *)
(** Decoding the arrays handed to the entropy coder (decompressor 246-274). *)
Definition decode3 (r1 r2 r3 : Z) (c : code XR) : option (field3 XA) :=
  let n := Z.to_nat (r1 * r2 * r3) in
  let* (s, _) := scan_dec (abs3_dec_point XA 4 (eps_double XA) intv_radius r2 r3) (scan3 r1 r2 r3)
     (repeat None n, repeat None n, repeat None n) c in
  let '(dU, dV, dW) := s in
  let* U := written dU in let* V := written dV in let* W := written dW in Some (U, V, W).

Definition vecR3 (r2 r3 : Z) (u v w : list R) (a : pt) : V3 :=
  let g l := nth (Z.to_nat (lin3 r2 r3 a)) l 0 in (g u, g v, g w).

Lemma vec3R_map r1 r2 r3 u v w a : in_grid r1 r2 r3 a ->
  vec3R r2 r3 (map Fin u) (map Fin v) (map Fin w) a = vecR3 r2 r3 u v w a.
Proof.
  intros H. apply lin3_nonneg in H. unfold vec3R, vecR3. rewrite !atR_map by lia. reflexivity.
Qed.

Theorem abs3_preserves ftk max_eb r1 r2 r3 u v w U' V' W' c :
  (0 <= r1)%Z -> (0 < r2)%Z -> (0 < r3)%Z -> Z.of_nat (length u) = (r1 * r2 * r3)%Z ->
  Z.of_nat (length v) = (r1 * r2 * r3)%Z -> Z.of_nat (length w) = (r1 * r2 * r3)%Z ->
  enc_abs3 XA ftk (Fin max_eb) r1 r2 r3 (map Fin u) (map Fin v) (map Fin w) = Some (U', V', W', c) ->
  exists u' v' w', decode3 r1 r2 r3 c = Some (map Fin u', map Fin v', map Fin w') /\
  forall t, tet r1 r2 r3 t ->
    (has_cp3 (map (vecR3 r2 r3 u v w) t) <-> has_cp3 (map (vecR3 r2 r3 u' v' w') t)) /\
    (has_cp3 (map (vecR3 r2 r3 u v w) t) -> forall x, In x t -> vecR3 r2 r3 u' v' w' x = vecR3 r2 r3 u v w x).
Proof.
  intros H1 H2 H3 Lu Lv Lw H.
  assert (LM : forall l : list R, Z.of_nat (length (map Fin l)) = Z.of_nat (length l)) by (intros; rewrite map_length; auto).
  destruct (abs3_field_sync XA ftk (Fin max_eb) r1 r2 r3 (map Fin u) (map Fin v) (map Fin w) U' V' W' c H1 H2 H3
    ltac:(rewrite <- Lu; apply LM) ltac:(rewrite <- Lv; apply LM) ltac:(rewrite <- Lw; apply LM) H)
    as (dU & dV & dW & ED & W1 & W2 & W3).
  exists (map toR U'), (map toR V'), (map toR W').
  unfold enc_abs3 in H. bind_as H cp Ec.
  match type of H with scan_enc ?st _ _ = _ =>
    pose proof (fun a b => scan_inv st (fun _ s => fin_field s /\ forall t, tet r1 r2 r3 t ->
       tet_rel True (map (vecs3 r2 r3 (map Fin u, map Fin v, map Fin w)) t) (map (vecs3 r2 r3 s) t))
       (scan3 r1 r2 r3) 0%nat _ _ _ a b H) as G end.
  destruct G as [(F1 & F2 & F3) HC].
  - intros m [[i j] k] [[Ua Va] Wa] [[Ub Vb] Wb] c0 Hm [(G1 & G2 & G3) HT] HS. apply abs3_point_inv in HS.
    destruct (scan3_nth _ _ _ _ _ H1 H2 H3 Hm) as (Hi & Hj & Hk & _). cbn [fst snd] in *.
    destruct (abs3_step _ _ r1 _ _ _ _ _ _ _ _ _ _ _ _ (conj Hi (conj Hj Hk)) G1 G2 G3 HS) as (K1 & K2 & K3 & KT).
    split; [cbn; auto|]. intros t Ht. eapply tet_rel_trans; [exact (HT t Ht)|]. exact (KT t Ht).
  - split; [repeat split; apply allfin_map|]. intros t Ht. apply tet_rel_refl.
  - rewrite <- (allfin_inv U' F1), <- (allfin_inv V' F2), <- (allfin_inv W' F3). split.
    + unfold decode3. rewrite ED. cbn [bind]. rewrite W1. cbn [bind]. rewrite W2. cbn [bind]. rewrite W3. reflexivity.
    + intros t Ht. specialize (HC t Ht). cbn [vecs3] in HC.
      rewrite (allfin_inv U' F1), (allfin_inv V' F2), (allfin_inv W' F3) in HC.
      assert (GM : forall a b d, map (vec3R r2 r3 (map Fin a) (map Fin b) (map Fin d)) t = map (vecR3 r2 r3 a b d) t).
      { intros a b d. apply map_ext_in. intros x Hx. apply (vec3R_map r1). exact (tet_points _ _ _ _ _ Ht Hx). }
      rewrite !GM in HC. destruct HC as [HC1 HC2]. split; [exact HC1|].
      intros Y x Hx. specialize (HC2 I Y).
      assert (EQ : forall (f g : pt -> V3) l, map f l = map g l -> In x l -> g x = f x).
      { intros f g l. induction l as [|y l IH]; intros E HI; [destruct HI|]. cbn [map] in E. injection E as Ea Eb.
        destruct HI as [<-|HI]; auto. }
      exact (EQ _ _ _ HC2 Hx).
Qed.
