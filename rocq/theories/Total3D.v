(** The 3D absolute encoder does not fail: on the machine for every input, in exact arithmetic for every finite field.
    Nothing of /repo is modelled here. *)
From Coq Require Import Reals Lra Lia ZArith List Bool Permutation.
From Coq Require Import ZifyBool ZifyNat.
From Flocq Require Import Core.Core.
From Verif Require Import Base Huffman Arith Mesh2D Mesh3D Derive3D Codec2D Scan Abs3D Sync2D Sync3D Exact Geo2D
  Preserve2D Total2D Cells3D Geo3D Preserve3D.
Import ListNotations.
Local Open Scope Z_scope.

Section Any.
Context (A : Arith).
Context (r1 r2 r3 : Z).

(** An array of the grid's size. *)
Definition sized {X} (w : list X) : Prop := Z.of_nat (length w) = r1 * r2 * r3.
Definition sized3 {X} (s : list X * list X * list X) : Prop := let '(U, V, W) := s in sized U /\ sized V /\ sized W.

Lemma get_any (w : list (T A)) x : sized w -> in_grid r1 r2 r3 x -> exists y, aget w (lin3 r2 r3 x) = Some y.
Proof. intros HL HG. apply aget_ok. rewrite HL. apply lin3_nonneg. auto. Qed.

Lemma vec_any U V W x : sized U -> sized V -> sized W -> in_grid r1 r2 r3 x ->
  exists u v w, vec_at A U V W (lin3 r2 r3 x) = Some (u, v, w).
Proof.
  intros LU LV LW HG. destruct (get_any U x LU HG) as [u Eu]. destruct (get_any V x LV HG) as [v Ev].
  destruct (get_any W x LW HG) as [w Ew]. exists u, v, w. apply vec_at_Some; auto.
Qed.

Lemma lorenzo3_any w i j k : sized w -> in_grid r1 r2 r3 (i, j, k) -> exists p, lorenzo3 A (aget w) r2 r3 i j k = Some p.
Proof.
  intros HL HG. pose proof HG as (Hi & Hj & Hk). cbn [fst snd] in *. unfold lorenzo3.
  assert (G : forall (b : bool) m x, (b = true -> in_grid r1 r2 r3 x /\ m = lin3 r2 r3 x) ->
            exists y, (if b then aget w m else Some (t0 A)) = Some y).
  { intros [|] m x Hm; [|eauto]. destruct (Hm eq_refl) as [H ->]. apply get_any; auto. }
  destruct (G (negb (i =? 0) && negb (j =? 0) && negb (k =? 0)) (lin3 r2 r3 (i, j, k) - r2 * r3 - r3 - 1) (i - 1, j - 1, k - 1)) as [d0 ->].
  { intros HB. unfold in_grid, lin3. cbn [fst snd]. split; [lia|]. ring. }
  destruct (G (negb (i =? 0) && negb (j =? 0)) (lin3 r2 r3 (i, j, k) - r2 * r3 - r3) (i - 1, j - 1, k)) as [d1 ->].
  { intros HB. unfold in_grid, lin3. cbn [fst snd]. split; [lia|]. ring. }
  destruct (G (negb (i =? 0) && negb (k =? 0)) (lin3 r2 r3 (i, j, k) - r2 * r3 - 1) (i - 1, j, k - 1)) as [d2 ->].
  { intros HB. unfold in_grid, lin3. cbn [fst snd]. split; [lia|]. ring. }
  destruct (G (negb (i =? 0)) (lin3 r2 r3 (i, j, k) - r2 * r3) (i - 1, j, k)) as [d3 ->].
  { intros HB. unfold in_grid, lin3. cbn [fst snd]. split; [lia|]. ring. }
  destruct (G (negb (j =? 0) && negb (k =? 0)) (lin3 r2 r3 (i, j, k) - r3 - 1) (i, j - 1, k - 1)) as [d4 ->].
  { intros HB. unfold in_grid, lin3. cbn [fst snd]. split; [lia|]. ring. }
  destruct (G (negb (j =? 0)) (lin3 r2 r3 (i, j, k) - r3) (i, j - 1, k)) as [d5 ->].
  { intros HB. unfold in_grid, lin3. cbn [fst snd]. split; [lia|]. ring. }
  destruct (G (negb (k =? 0)) (lin3 r2 r3 (i, j, k) - 1) (i, j, k - 1)) as [d6 ->].
  { intros HB. unfold in_grid, lin3. cbn [fst snd]. split; [lia|]. ring. }
  cbn [bind]. eauto.
Qed.

Lemma nbr_in_grid i j k n p : (n < 24)%nat -> in_grid r1 r2 r3 (i, j, k) -> in_mesh3 r1 r2 r3 i j k n = true -> (p < 3)%nat ->
  in_grid r1 r2 r3 (nbr3 (i, j, k) n p).
Proof.
  intros Hn HG HM Hp. destruct (table3_sound _ _ _ _ _ _ _ Hn HG HM) as (c & HT & HP).
  apply (tet_in_grid _ _ _ _ _ HT). apply (Permutation_in _ (Permutation_sym HP)). unfold around.
  destruct p as [|[|[|]]]; cbn; auto. lia.
Qed.

Lemma tet_values_any U V W i j k n : sized U -> sized V -> sized W -> (n < 24)%nat -> in_grid r1 r2 r3 (i, j, k) ->
  in_mesh3 r1 r2 r3 i j k n = true -> exists v, tet_values A U V W r2 r3 (lin3 r2 r3 (i, j, k)) n = Some v.
Proof.
  intros LU LV LW Hn HG HM. unfold tet_values. rewrite !offset3_lin.
  destruct (vec_any U V W (nbr3 (i, j, k) n 0) LU LV LW ltac:(apply nbr_in_grid; auto)) as (? & ? & ? & ->).
  destruct (vec_any U V W (nbr3 (i, j, k) n 1) LU LV LW ltac:(apply nbr_in_grid; auto)) as (? & ? & ? & ->).
  destruct (vec_any U V W (nbr3 (i, j, k) n 2) LU LV LW ltac:(apply nbr_in_grid; auto)) as (? & ? & ? & ->).
  destruct (vec_any U V W (i, j, k) LU LV LW HG) as (? & ? & ? & ->). cbn [bind]. eauto.
Qed.

Section Ftk.
Context (ftk : D A * D A * D A -> D A * D A * D A -> D A * D A * D A -> D A * D A * D A -> bool).

Lemma compute_cp3_any U V W : sized U -> sized V -> sized W -> 0 <= r1 -> 0 < r2 -> 0 < r3 ->
  exists cp, compute_cp3 A ftk U V W r1 r2 r3 = Some cp.
Proof.
  intros LU LV LW H1 H2 H3. unfold compute_cp3.
  assert (HA : forall t, In t (flat_map cube_tets (scan3 (r1 - 1) (r2 - 1) (r3 - 1))) ->
    let '(a, b, c, d) := t in in_grid r1 r2 r3 a /\ in_grid r1 r2 r3 b /\ in_grid r1 r2 r3 c /\ in_grid r1 r2 r3 d).
  { intros t Ht. apply in_flat_map in Ht. destruct Ht as ([[i j] k] & Hx & Ht).
    unfold scan3 in Hx. apply in_flat_map in Hx. destruct Hx as (i' & Hi & Hx). apply in_flat_map in Hx.
    destruct Hx as (j' & Hj & Hx). apply in_map_iff in Hx. destruct Hx as (k' & Ek & Hk). injection Ek as E1 E2 E3. subst i' j' k'.
    assert (Z : forall a n, In a (zrange 0 n) -> 0 <= a < n).
    { intros a n Ha. unfold zrange in Ha. apply In_nth_error in Ha. destruct Ha as [q Hq]. rewrite nth_error_zseq in Hq.
      destruct (Nat.ltb_spec q (Z.to_nat (n - 0))); [|discriminate]. injection Hq as Hq. lia. }
    apply Z in Hi, Hj, Hk. unfold in_grid.
    cbn [cube_tets In] in Ht. destruct Ht as [<-|[<-|[<-|[<-|[<-|[<-|[]]]]]]]; cbn [fst snd]; lia. }
  induction (flat_map cube_tets (scan3 (r1 - 1) (r2 - 1) (r3 - 1))) as [|[[[a b] c] d] l IH]; cbn [check_all]; [eauto|].
  destruct (HA _ (or_introl eq_refl)) as (Ga & Gb & Gc & Gd). unfold check_cp3.
  destruct (vec_any U V W a LU LV LW Ga) as (? & ? & ? & ->). destruct (vec_any U V W b LU LV LW Gb) as (? & ? & ? & ->).
  destruct (vec_any U V W c LU LV LW Gc) as (? & ? & ? & ->). destruct (vec_any U V W d LU LV LW Gd) as (? & ? & ? & ->).
  cbn [bind]. destruct IH as [r ->]; [|cbn [bind]; eauto]. intros t Ht. apply HA. right. auto.
Qed.

Lemma cp_any U V W cp i j k n : compute_cp3 A ftk U V W r1 r2 r3 = Some cp -> (n < 24)%nat -> in_grid r1 r2 r3 (i, j, k) ->
  in_mesh3 r1 r2 r3 i j k n = true ->
  exists b, aget cp (simplex_offset r2 r3 n + 6 * (i * (r2 - 1) * (r3 - 1) + j * (r3 - 1) + k)) = Some b.
Proof.
  intros HC Hn HG HM. destruct (table3_sound _ _ _ _ _ _ _ Hn HG HM) as (c & HT & HP).
  assert (HI : In (i, j, k) c).
  { apply (Permutation_in _ (Permutation_sym HP)). unfold around. cbn. auto. }
  destruct c as [|a [|b [|c [|d [|]]]]]; try (apply Permutation_length in HP; discriminate).
  destruct (cp_lookup A ftk _ _ _ _ _ _ _ _ _ _ _ _ _ _ HC HT HI) as (n' & x & Hn' & _ & HP' & _ & E).
  assert (n' = n). { apply (table3_unique (i, j, k)); auto. eapply Permutation_trans; [apply Permutation_sym; exact HP'|exact HP]. }
  subst n'. eauto.
Qed.
End Ftk.

Lemma req_abs3_any max_eb (cp : list bool) U V W i j k : sized U -> sized V -> sized W -> in_grid r1 r2 r3 (i, j, k) ->
  (forall n, (n < 24)%nat -> in_mesh3 r1 r2 r3 i j k n = true ->
     exists b, aget cp (simplex_offset r2 r3 n + 6 * (i * (r2 - 1) * (r3 - 1) + j * (r3 - 1) + k)) = Some b) ->
  exists r, required_eb3_abs A max_eb cp U V W r1 r2 r3 i j k = Some r.
Proof.
  intros LU LV LW HG HC. unfold required_eb3_abs. destruct (vec_any U V W _ LU LV LW HG) as (u & v & w & ->). cbn [bind].
  match goal with |- context [deq A ?x _] => generalize x end. intros eb. destruct (deq A eb _); [eauto|].
  assert (HN : forall n, In n twenty_four -> (n < 24)%nat) by (intros n Hn; apply in_seq in Hn; lia).
  revert eb HN. induction twenty_four as [|n ns IH]; intros eb HN; cbn [req_loop_abs]; [eauto|].
  assert (HN' : forall n, In n ns -> (n < 24)%nat) by (intros; apply HN; right; auto).
  specialize (HN n (or_introl eq_refl)). destruct (in_mesh3 r1 r2 r3 i j k n) eqn:EM; [|auto].
  destruct (HC n HN EM) as [b ->]. cbn [bind]. destruct b; [eauto|].
  destruct (tet_values_any U V W i j k n LU LV LW HN HG EM) as [[[[x0 x1] x2] x3] ->]. cbn [bind]. auto.
Qed.

(** One point, given that the quantisations do not fail. *)
Lemma abs3_point_any req U V W i j k : sized U -> sized V -> sized W -> in_grid r1 r2 r3 (i, j, k) ->
  (exists eb, req U V W i j k = Some eb /\
    (deq A eb (dofZ A 0) = false -> exists id ab, eb_exponential_quantize A 4 (eps_double A) eb = Some (id, ab) /\
       (0 < id -> forall w c p, In w [U; V; W] -> aget w (lin3 r2 r3 (i, j, k)) = Some c -> lorenzo3 A (aget w) r2 r3 i j k = Some p ->
          exists a, quantise A p c ab = Some a))) ->
  exists s c, abs3_point A req r2 r3 (U, V, W) (i, j, k) = Some (s, c).
Proof.
  intros LU LV LW HG (eb & Er & HQ). cbn [abs3_point]. destruct (vec_any U V W _ LU LV LW HG) as (u & v & w & Ev). rewrite Ev.
  apply vec_at_inv in Ev. destruct Ev as (Eu & Ev & Ew). cbn [bind]. rewrite Er. cbn [bind].
  destruct (deq A eb _); [eauto|]. destruct (HQ eq_refl) as (id & ab & -> & HQ'). cbn [bind].
  destruct (Z.ltb_spec 0 id) as [Hid|]; [|eauto]. specialize (HQ' Hid).
  destruct (lorenzo3_any U i j k LU HG) as [p0 P0]. destruct (lorenzo3_any V i j k LV HG) as [p1 P1].
  destruct (lorenzo3_any W i j k LW HG) as [p2 P2].
  destruct (HQ' U u p0 ltac:(cbn; auto) Eu P0) as [a0 Q0]. destruct (HQ' V v p1 ltac:(cbn; auto) Ev P1) as [a1 Q1].
  destruct (HQ' W w p2 ltac:(cbn; auto) Ew P2) as [a2 Q2].
  rewrite P0, P1, P2. cbn [try_list bind]. rewrite Q0. cbn [bind]. destruct a0 as [|q0 x0]; [cbn [bind]; eauto|].
  rewrite Q1. cbn [bind]. destruct a1 as [|q1 x1]; [cbn [bind option_map]; eauto|].
  rewrite Q2. cbn [bind]. destruct a2 as [|q2 x2]; [cbn [bind option_map]; eauto|].
  cbn [bind option_map].
  pose proof (lin3_nonneg _ _ _ _ HG) as HP.
  destruct (aset_ok U (lin3 r2 r3 (i, j, k)) x0) as [U' ->]; [rewrite LU; auto|].
  destruct (aset_ok V (lin3 r2 r3 (i, j, k)) x1) as [V' ->]; [rewrite LV; auto|].
  destruct (aset_ok W (lin3 r2 r3 (i, j, k)) x2) as [W' ->]; [rewrite LW; auto|]. cbn [bind]. eauto.
Qed.

(** The whole field, given an invariant that keeps the quantisations from failing. *)
Lemma abs3_field_any ftk max_eb (inv : nat -> field3 A -> Prop) U V W : 0 <= r1 -> 0 < r2 -> 0 < r3 -> sized U -> sized V -> sized W ->
  inv 0%nat (U, V, W) ->
  (forall cp m U0 V0 W0 i j k, sized U0 -> sized V0 -> sized W0 -> in_grid r1 r2 r3 (i, j, k) -> lin3 r2 r3 (i, j, k) = Z.of_nat m ->
     inv m (U0, V0, W0) ->
     (forall s c, abs3_point A (fun U V W i j k => required_eb3_abs A max_eb cp U V W r1 r2 r3 i j k) r2 r3 (U0, V0, W0) (i, j, k) = Some (s, c) ->
        inv (S m) s) /\
     (forall eb, required_eb3_abs A max_eb cp U0 V0 W0 r1 r2 r3 i j k = Some eb -> deq A eb (dofZ A 0) = false ->
        exists id ab, eb_exponential_quantize A 4 (eps_double A) eb = Some (id, ab) /\
         (0 < id -> forall w c p, In w [U0; V0; W0] -> aget w (lin3 r2 r3 (i, j, k)) = Some c ->
            lorenzo3 A (aget w) r2 r3 i j k = Some p -> exists a, quantise A p c ab = Some a))) ->
  exists s c, enc_abs3 A ftk max_eb r1 r2 r3 U V W = Some (s, c).
Proof.
  intros H1 H2 H3 LU LV LW HI HS. unfold enc_abs3. destruct (compute_cp3_any ftk U V W LU LV LW H1 H2 H3) as [cp Ec]. rewrite Ec. cbn [bind].
  eapply (scan_total _ (fun m s => sized3 s /\ inv m s) _ 0%nat); [|split; [cbn; auto|auto]].
  intros m [[i j] k] [[U0 V0] W0] Hm [(L0 & L1 & L2) Hinv]. cbn [Nat.add].
  destruct (scan3_nth _ _ _ _ _ H1 H2 H3 Hm) as (Hi & Hj & Hk & Hp). cbn [fst snd] in *.
  assert (HG : in_grid r1 r2 r3 (i, j, k)) by (unfold in_grid; cbn [fst snd]; auto).
  destruct (HS cp m U0 V0 W0 i j k L0 L1 L2 HG Hp Hinv) as [HK HQ].
  destruct (req_abs3_any max_eb cp U0 V0 W0 i j k L0 L1 L2 HG) as [eb Er].
  { intros n Hn HM. eapply cp_any; eauto. }
  destruct (abs3_point_any (fun U V W i j k => required_eb3_abs A max_eb cp U V W r1 r2 r3 i j k) U0 V0 W0 i j k L0 L1 L2 HG) as (s & c & E).
  { exists eb. split; auto. }
  exists s, c. split; [exact E|]. split; [|eauto].
  destruct s as [[U1 V1] W1]. apply abs3_point_inv in E. apply abs3_outcome_local in E. destruct E as (_ & _ & K1 & K2 & K3 & _).
  cbn. unfold sized in *. lia.
Qed.

Section Machine.
Hypothesis conv : forall x, exists z, dtoint A x = Some z.
Theorem abs3_machine_total ftk max_eb U V W : 0 <= r1 -> 0 < r2 -> 0 < r3 -> sized U -> sized V -> sized W ->
  exists s c, enc_abs3 A ftk max_eb r1 r2 r3 U V W = Some (s, c).
Proof.
  intros. apply (abs3_field_any ftk max_eb (fun _ _ => True)); auto.
  intros cp m U0 V0 W0 i j k _ _ _ _ _ _. split; [auto|]. intros eb _ _.
  assert (HE : exists id ab, eb_exponential_quantize A 4 (eps_double A) eb = Some (id, ab)).
  { unfold eb_exponential_quantize. destruct (dle A eb _); [eauto|].
    match goal with |- context [dtoint A ?x] => destruct (conv x) as [z ->] end. cbn [bind]. eauto. }
  destruct HE as (id & ab & HE). exists id, ab. split; auto. intros _ w c p _ _ _.
  unfold quantise. destruct (dlt A _ _); [|eauto]. match goal with |- context [dtoint A ?x] => destruct (conv x) as [z ->] end.
  cbn [bind]. destruct (dle A _ _); eauto.
Qed.
End Machine.
End Any.

Local Open Scope R_scope.

Lemma req_abs3_le max_eb cp U V W r1 r2 r3 i j k eb : allfin U -> allfin V -> allfin W ->
  required_eb3_abs XA (Fin max_eb) cp U V W r1 r2 r3 i j k = Some eb ->
  deq XA eb (dofZ XA 0) = false -> upto max_eb eb /\ notnan eb.
Proof.
  intros FU FV FW H HZ. unfold required_eb3_abs in H. bind_as H [[u v] w] Ev.
  destruct (_ || _)%bool.
  { cbn [deq dofZ XA] in H. rewrite (proj2 (xeq_fin 0 0)) in H by auto. apply Some_inj in H. subst eb.
    cbn [deq dofZ XA] in HZ. rewrite (proj2 (xeq_fin 0 0)) in HZ by auto. discriminate. }
  destruct (deq XA (Fin max_eb) _).
  { apply Some_inj in H. subst eb. split; [apply upto_fin; lra|discriminate]. }
  assert (HN : upto max_eb (Fin max_eb)) by (apply upto_fin; lra).
  assert (HM : notnan (Fin max_eb)) by discriminate.
  revert HN HM H. generalize (Fin max_eb) as e0. induction twenty_four as [|n ns IH]; intros e0 HN HM H; cbn [req_loop_abs] in H.
  { apply Some_inj in H. subst. auto. }
  destruct (in_mesh3 r1 r2 r3 i j k n); [|eauto]. bind_as H b Eb. destruct b.
  { apply Some_inj in H. subst eb. exfalso. cbn [deq dofZ XA] in HZ. rewrite (proj2 (xeq_fin 0 0)) in HZ by auto. discriminate. }
  bind_as H x Ex. apply tet_values_fin in Ex; auto. subst x.
  match type of H with context [derive3_abs XA (fin3 ?a) (fin3 ?b) (fin3 ?c) (fin3 ?d)] => pose proof (derive3_abs_sound a b c d) as [ND _] end.
  apply IH in H; auto; [apply upto_minf_l; auto|apply notnan_minf; auto].
Qed.

Theorem abs3_total ftk max_eb r1 r2 r3 u v w : max_eb <= big * big -> (0 <= r1)%Z -> (0 < r2)%Z -> (0 < r3)%Z ->
  sized r1 r2 r3 u -> sized r1 r2 r3 v -> sized r1 r2 r3 w ->
  exists s c, enc_abs3 XA ftk (Fin max_eb) r1 r2 r3 (map Fin u) (map Fin v) (map Fin w) = Some (s, c).
Proof.
  intros Hm H1 H2 H3 LU LV LW.
  apply (abs3_field_any XA r1 r2 r3 ftk (Fin max_eb) (fun _ s => fin_field s)); auto;
    try (unfold sized; rewrite map_length; auto; fail); [repeat split; apply allfin_map|].
  intros cp m U V W i j k SU SV SW HG _ (FU & FV & FW). split.
  - intros [[U' V'] W'] c HS. apply abs3_point_inv in HS.
    destruct (abs3_step _ _ _ _ _ _ _ _ _ _ _ _ _ _ _ HG FU FV FW HS) as (K1 & K2 & K3 & _). cbn. auto.
  - intros eb Er HZ. destruct (req_abs3_le _ _ _ _ _ _ _ _ _ _ _ _ FU FV FW Er HZ) as [HU HN].
    assert (HE : exists x, eb = NInf \/ (eb = Fin x /\ x <= max_eb)).
    { destruct eb as [x| | |].
      - exists x. right. split; auto. destruct (Rle_lt_dec x max_eb); auto. exfalso.
        assert (B : below ((x + max_eb) / 2) (Fin x)) by (apply below_fin; lra). apply HU in B. lra.
      - exfalso. assert (B : below (max_eb + 1) PInf) by reflexivity. apply HU in B. lra.
      - exists 0. auto.
      - contradiction HN; auto. }
    destruct HE as (x & [->|[-> Hx]]).
    { exists 0%Z, (Fin 0). split; [reflexivity|]. lia. }
    destruct (quantize_total x ltac:(lra)) as [[id ab] Eq]. exists id, ab. split; auto. intros Hid w0 c p Hw Ec Ep.
    assert (Ht : 0 < / 4503599627370496) by lra.
    destruct (quantize_fin 4 _ _ _ _ ltac:(lia) Ht Eq Hid) as (e & a & _ & -> & Ha & _).
    assert (Fw : allfin w0) by (cbn in Hw; destruct Hw as [<-|[<-|[<-|[]]]]; auto).
    destruct (lorenzo3_fin _ _ _ _ _ _ _ Fw Ep) as [pr ->]. rewrite (atR_fin _ _ _ Fw Ec).
    exact (quantise_total _ _ _ Ha).
Qed.
