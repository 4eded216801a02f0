(** The 2D online compressors never leave their arrays and never convert an unrepresentable value to int
    (exact arithmetic, values of the magnitude of double). *)
From Coq Require Import Reals Lra Lia ZArith List Bool.
From Coq Require Import ZifyBool ZifyNat.
From Flocq Require Import Core.Raux Core.Zaux.
From Verif Require Import Base Huffman Arith Mesh2D Derive2D Codec2D Sync2D Trace2D Exact Cells2D Geo2D Preserve2D.
Import ListNotations.
Local Open Scope R_scope.

(** Largest value of the double range. *)
Definition big : R := bpow radix2 1024.

Lemma big_ge_1 : 1 <= big.
Proof. unfold big. change 1 with (bpow radix2 0). apply bpow_le. lia. Qed.

Lemma ln_le x y : 0 < x -> x <= y -> ln x <= ln y.
Proof. intros H [L| ->]; [left; apply ln_increasing; auto|right; auto]. Qed.

Lemma quantize_total eb : eb <= big * big -> exists r, eb_exponential_quantize XA 4 (eps_double XA) (Fin eb) = Some r.
Proof.
  intros H. unfold eb_exponential_quantize. cbn [dle eps_double XA].
  destruct (xle _ _) eqn:E; [eauto|]. apply xle_fin_false in E.
  set (thr := / 4503599627370496) in *. assert (Ht : 0 < thr) by (unfold thr; lra).
  cbn [dtoint ddiv dlog2 dofZ XA]. rewrite xdiv_fin by lra. cbn [xlog2].
  assert (Hq : 1 < eb / thr).
  { apply (Rmult_lt_reg_r thr); auto. unfold Rdiv. rewrite Rmult_assoc, Rinv_l; lra. }
  rewrite !Rlt_bool_true by lra. pose proof ln2_pos.
  replace (IZR 4) with 4 by auto. rewrite ln4. rewrite xdiv_fin by (replace (2 * ln 2 / ln 2) with 2 by (field; lra); lra).
  cbn [xtoint].
  set (l := ln (eb / thr) / ln 2 / (2 * ln 2 / ln 2)).
  assert (El : l = ln (eb / thr) / (2 * ln 2)) by (unfold l; field; lra).
  assert (L0 : 0 <= ln (eb / thr)) by (rewrite <- ln_1; apply ln_le; lra).
  assert (L1 : ln (eb / thr) <= 2100 * ln 2).
  { replace (2100 * ln 2) with (ln (bpow radix2 2100)) by (rewrite bpow_exp, ln_exp; reflexivity).
    apply ln_le; [lra|]. replace (eb / thr) with (eb * 4503599627370496) by (unfold thr; field).
    apply Rle_trans with (big * big * bpow radix2 52).
    - replace (bpow radix2 52) with 4503599627370496 by (cbn; lra). apply Rmult_le_compat_r; [lra|]. auto.
    - unfold big. rewrite <- !bpow_plus. apply bpow_le. lia. }
  assert (B0 : 0 <= l) by (rewrite El; apply Rmult_le_pos; [lra|apply Rlt_le, Rinv_0_lt_compat; lra]).
  assert (B1 : l <= 1050).
  { rewrite El. apply (Rmult_le_reg_r (2 * ln 2)); [lra|]. unfold Rdiv. rewrite Rmult_assoc, Rinv_l by lra. lra. }
  rewrite Ztrunc_floor by auto.
  assert (0 <= Zfloor l)%Z by (apply Zfloor_lub; auto).
  assert (Zfloor l <= 1050)%Z by (apply le_IZR; eapply Rle_trans; [apply Zfloor_lb|]; auto).
  replace ((- 2 ^ 31 <=? Zfloor l)%Z && (Zfloor l <? 2 ^ 31)%Z)%bool with true by lia. cbn [bind]. eauto.
Qed.

Lemma quantise_total p cur a : 0 < a -> exists r, quantise XA (Fin p) (Fin cur) (Fin a) = Some r.
Proof.
  intros Ha. unfold quantise. cbn [t2d tsub dabs ddiv dadd dofZ XA xsub xabs dlt dneg dtoint].
  rewrite xdiv_fin by lra. cbn [xadd xneg]. set (x := Rabs (cur - p) / a + 1).
  assert (Hx : 0 <= x).
  { unfold x. pose proof (Rabs_pos (cur - p)). assert (0 <= Rabs (cur - p) / a); [|lra].
    apply Rmult_le_pos; auto. left. apply Rinv_0_lt_compat; auto. }
  destruct (xlt _ _) eqn:E; [|eauto]. apply xlt_fin in E. unfold capacity in E.
  assert (G : exists h, xtoint (xdiv (if xlt (Fin 0) (Fin (cur - p)) then Fin x else Fin (- x)) (Fin 2)) = Some h).
  { destruct (xlt (Fin 0) (Fin (cur - p))); rewrite xdiv_fin by lra; cbn [xtoint].
    - rewrite Ztrunc_floor by lra. assert (0 <= Zfloor (x / 2))%Z by (apply Zfloor_lub; lra).
      assert (Zfloor (x / 2) <= 65536)%Z by (apply le_IZR; eapply Rle_trans; [apply Zfloor_lb|lra]).
      replace (_ && _)%bool with true by lia. eauto.
    - rewrite Ztrunc_ceil by lra. assert (Zceil (- x / 2) <= 0)%Z by (apply Zceil_glb; lra).
      assert (-65536 <= Zceil (- x / 2))%Z.
      { apply le_IZR. eapply Rle_trans; [|apply Zceil_ub]. lra. }
      replace (_ && _)%bool with true by lia. eauto. }
  destruct G as [h Hh]. change (D XA) with XR. rewrite Hh. cbn [bind]. destruct (dle XA _ _); eauto.
Qed.

Lemma lorenzo_total w r2 i j : (0 <= i)%Z -> (0 <= j < r2)%Z -> (i * r2 + j < Z.of_nat (length w))%Z ->
  exists p, lorenzo XA w r2 i j = Some p.
Proof.
  intros Hi Hj HL. unfold lorenzo.
  assert (G : forall (t : bool) k, (t = true -> 0 <= k < Z.of_nat (length w))%Z ->
    exists x, (if t then aget w k else Some (t0 XA)) = Some x).
  { intros [|] k Hk; [apply aget_ok; auto|eauto]. }
  destruct (G (negb (i =? 0)%Z && negb (j =? 0)%Z)%bool (i * r2 + j - 1 - r2)%Z) as [a ->]; [nia|].
  destruct (G (negb (i =? 0)%Z) (i * r2 + j - r2)%Z) as [b ->]; [nia|].
  destruct (G (negb (j =? 0)%Z) (i * r2 + j - 1)%Z) as [c ->]; [nia|]. cbn [bind]. eauto.
Qed.

Lemma try_total w r2 i j cur eb : allfin w -> (0 <= i)%Z -> (0 <= j < r2)%Z -> (i * r2 + j < Z.of_nat (length w))%Z ->
  eb <= big * big -> exists r, try_component XA 4 (eps_double XA) w r2 i j (Fin cur) (Fin eb) = Some r.
Proof.
  intros HF Hi Hj HL He. unfold try_component. destruct (quantize_total eb He) as [[id ab] Eq]. rewrite Eq. cbn [bind].
  destruct (0 <? id)%Z eqn:Eid; [|eauto].
  destruct (lorenzo_total w r2 i j Hi Hj HL) as [p Ep]. rewrite Ep. cbn [bind].
  destruct (lorenzo_fin _ _ _ _ _ HF Ep) as [pr ->].
  apply quantize_exact in Eq; [|lia|lra]. destruct Eq as [(_ & E & _)|(_ & _ & a & -> & _ & Ha & _)]; [lia|].
  destruct (quantise_total pr cur a Ha) as [x Ex]. rewrite Ex. cbn [bind]. eauto.
Qed.

(** [upto b x]: x is NaN or at most b. *)
Definition upto (b : R) (x : XR) : Prop := forall e, below e x -> e < b.

Lemma upto_minf b x y : upto b x -> upto b y -> upto b (minf XA x y).
Proof. intros H1 H2. unfold minf. destruct (dlt XA x y); auto. Qed.
Lemma upto_dmax b x y : upto b x -> upto b y -> upto b (dmax XA x y).
Proof. intros H1 H2. unfold dmax. destruct (dlt XA y x); auto. Qed.
Lemma upto_minf_l b x y : notnan x -> upto b x -> upto b (minf XA x y).
Proof.
  intros N H e HB. unfold minf in HB. cbn [dlt XA] in HB. destruct (xlt x y) eqn:E; [auto|].
  apply H. eapply below_nlt; eauto.
Qed.
Lemma upto_fin b a : a <= b -> upto b (Fin a).
Proof. intros H e HB. apply below_fin in HB. lra. Qed.
Lemma upto_mono b b' x : b <= b' -> upto b x -> upto b' x.
Proof. intros H K e HB. specialize (K e HB). lra. Qed.

Lemma keep_rel_upto a b : upto 1 (max_eb_to_keep_sign_2d_online XA (Fin a) (Fin b) (Fin 0)).
Proof.
  unfold max_eb_to_keep_sign_2d_online. cbn [t2d ddiv tabs tadd XA xabs xadd deq dofZ].
  pose proof (Rabs_pos a). pose proof (Rabs_pos b).
  destruct (xeq _ _) eqn:E; [apply upto_fin; lra|]. apply xeq_fin_false in E.
  rewrite xdiv_fin by auto. apply upto_fin.
  apply (Rmult_le_reg_r (Rabs a + Rabs b)); [lra|]. unfold Rdiv. rewrite Rmult_assoc, Rinv_l by auto.
  rewrite Rplus_0_r, Rmult_1_r, Rmult_1_l. apply Rabs_triang.
Qed.

Lemma derive_rel_upto u0 u1 u2 v0 v1 v2 c :
  upto 1 (derive_cp_eb_for_positions_online XA (Fin u0) (Fin u1) (Fin u2) (Fin v0) (Fin v1) (Fin v2) c).
Proof.
  unfold derive_cp_eb_for_positions_online, max_eb_to_keep_position_online.
  set (typ := max_eb_to_keep_type_online _ _ _ _ _ _ _ _).
  cbn [t2d tsub tmul tadd tneg dadd dofZ XA xsub xmul xadd xneg t0 tofZ].
  assert (Z : upto 1 (Fin 0)) by (apply upto_fin; lra).
  destruct (deq XA _ _); [exact Z|].
  destruct (deq XA _ _ || _)%bool; destruct (deq XA _ _ || _)%bool; destruct (deq XA _ _ || _)%bool; cbn [andb];
    repeat apply upto_dmax; auto; try apply upto_minf_l; try apply keep_rel_notnan; try apply notnan_minf;
    try apply keep_rel_notnan; try apply upto_minf; apply keep_rel_upto.
Qed.

Lemma req_loop_total f U V r1 r2 i j b : forall ks eb,
  (forall k, In k ks -> in_mesh r1 r2 i j k = true ->
     exists v, tri_values XA U V r2 (i * r2 + j) k = Some v /\ upto b (f v k)) ->
  upto b eb -> exists r, req_loop XA f U V r1 r2 i j ks eb = Some r /\ upto b r.
Proof.
  induction ks as [|k ks IH]; intros eb HK Hb; cbn [req_loop]; [eauto|].
  destruct (in_mesh r1 r2 i j k) eqn:EM.
  - destruct (HK k) as (v & -> & Hf); [left; auto|auto|]. cbn [bind]. apply IH; [|apply upto_minf; auto].
    intros k' Hk'. apply HK. right; auto.
  - apply IH; auto. intros k' Hk'. apply HK. right; auto.
Qed.

Lemma tri_values_total U V r1 r2 i j k : (0 <= i < r1)%Z -> (0 <= j < r2)%Z -> (k < 6)%nat ->
  Z.of_nat (length U) = (r1 * r2)%Z -> Z.of_nat (length V) = (r1 * r2)%Z -> in_mesh r1 r2 i j k = true ->
  exists v, tri_values XA U V r2 (i * r2 + j) k = Some v.
Proof.
  intros Hi Hj Hk LU LV HM. unfold tri_values. destruct (offset_lin r2 i j k Hk) as [E0 E1]. rewrite E0, E1.
  rewrite in_mesh_nbr in HM. unfold in_range in HM.
  assert (G : forall (W : list XR) a, Z.of_nat (length W) = (r1 * r2)%Z -> (0 <= fst a < r1)%Z -> (0 <= snd a < r2)%Z ->
    exists x, aget W (lin r2 a) = Some x).
  { intros W a LW H1 H2. apply aget_ok. rewrite LW. unfold lin. nia. }
  change (i * r2 + j)%Z with (lin r2 (i, j)). change (T XA) with XR in *.
  destruct (G U (nbr i j k 0) LU) as [x0 ->]; [lia|lia|]. destruct (G U (nbr i j k 1) LU) as [x1 ->]; [lia|lia|].
  destruct (G U (i, j) LU) as [x2 ->]; [cbn; lia|cbn; lia|].
  destruct (G V (nbr i j k 0) LV) as [y0 ->]; [lia|lia|]. destruct (G V (nbr i j k 1) LV) as [y1 ->]; [lia|lia|].
  destruct (G V (i, j) LV) as [y2 ->]; [cbn; lia|cbn; lia|]. cbn [bind]. eauto.
Qed.

(** One point never fails. *)
Lemma point_total req abs_eb b r1 r2 U V i j :
  (0 <= i < r1)%Z -> (0 <= j < r2)%Z -> allfin U -> allfin V ->
  Z.of_nat (length U) = (r1 * r2)%Z -> Z.of_nat (length V) = (r1 * r2)%Z ->
  (exists r, req U V r1 r2 i j = Some r /\ (below 0 r -> exists x, r = Fin x /\ x <= b)) ->
  (forall x, 0 < x <= b -> exists e, abs_eb (Fin (atR U (i * r2 + j))) (Fin x) = Fin e /\ e <= big * big) ->
  (forall x, 0 < x <= b -> exists e, abs_eb (Fin (atR V (i * r2 + j))) (Fin x) = Fin e /\ e <= big * big) ->
  exists r, enc_point XA req abs_eb 4 (eps_double XA) r1 r2 U V (i, j) = Some r.
Proof.
  intros Hi Hj FU FV LU LV (eb & Er & Hb) HU HV. unfold enc_point.
  destruct (aget_ok U (i * r2 + j)) as [u Eu]; [rewrite LU; nia|].
  destruct (aget_ok V (i * r2 + j)) as [v Ev]; [rewrite LV; nia|].
  change (T XA) with XR in *. change (D XA) with XR in *.
  rewrite Eu, Ev. cbn [bind]. rewrite Er. cbn [bind].
  pose proof (atR_fin _ _ _ FU Eu) as ->. pose proof (atR_fin _ _ _ FV Ev) as ->.
  destruct (dlt XA (dofZ XA 0) eb) eqn:EP; [|eauto].
  destruct (Hb EP) as (x & -> & Hx). assert (Hx0 : 0 < x <= b) by (split; auto; apply below_fin; exact EP).
  destruct (HU x Hx0) as (e0 & -> & He0). destruct (HV x Hx0) as (e1 & -> & He1).
  destruct (try_total U r2 i j (atR U (i * r2 + j)) e0) as [[id0 a0] E0]; auto; try lia; [rewrite LU; nia|].
  destruct (try_total V r2 i j (atR V (i * r2 + j)) e1) as [[id1 a1] E1]; auto; try lia; [rewrite LV; nia|].
  rewrite E0. cbn [bind]. destruct a0 as [[|q0 x0]|]; [eauto| |]; rewrite E1; cbn [bind]; [|eauto].
  destruct a1 as [[|q1 x1]|]; [eauto| |eauto].
  destruct (aset_ok U (i * r2 + j) x0) as [U' EU]; [rewrite LU; nia|].
  destruct (aset_ok V (i * r2 + j) x1) as [V' EV]; [rewrite LV; nia|].
  change (T XA) with XR in *. rewrite EU. cbn [bind]. rewrite EV. cbn [bind]. eauto.
Qed.

(** Loop: [inv p U V] holds before point p. *)
Lemma loop_total step (inv : Z -> list XR -> list XR -> Prop) r2 : forall n p U V,
  (forall q U V, (p <= q < p + Z.of_nat n)%Z -> inv q U V ->
     exists U' V' c, step U V (q / r2, q mod r2)%Z = Some (U', V', c) /\ inv (q + 1)%Z U' V') ->
  inv p U V -> exists r, enc_loop XA step (map (fun p => (p / r2, p mod r2)%Z) (zseq p n)) U V = Some r.
Proof.
  induction n as [|n IH]; intros p U V HS HI; cbn [zseq map enc_loop]; [eauto|].
  destruct (HS p U V) as (U' & V' & c & -> & HI'); [lia|auto|]. cbn [bind].
  destruct (IH (p + 1)%Z U' V') as [[[U2 V2] c2] ->]; auto.
  { intros q U0 V0 Hq. apply HS. lia. }
  cbn [bind]. eauto.
Qed.

(** Points from p on still hold their original values. *)
Definition tail_inv (r1 r2 : Z) (U0 V0 : list XR) (p : Z) (U V : list XR) : Prop :=
  allfin U /\ allfin V /\ Z.of_nat (length U) = (r1 * r2)%Z /\ Z.of_nat (length V) = (r1 * r2)%Z /\
  forall k, (p <= k)%Z -> aget U k = aget U0 k /\ aget V k = aget V0 k.

Section Both.
Variables (req : list XR -> list XR -> Z -> Z -> Z -> Z -> option XR) (abs_eb : XR -> XR -> XR) (keep : Prop) (b : R) (r1 r2 : Z).
Hypothesis step : forall U V U' V' i j c, (0 <= i < r1)%Z -> (0 <= j < r2)%Z -> allfin U -> allfin V ->
  outcome XA req abs_eb r1 r2 U V i j U' V' c -> allfin U' /\ allfin V'.
Hypothesis req_ok : forall U V i j, (0 <= i < r1)%Z -> (0 <= j < r2)%Z -> allfin U -> allfin V ->
  Z.of_nat (length U) = (r1 * r2)%Z -> Z.of_nat (length V) = (r1 * r2)%Z ->
  exists r, req U V r1 r2 i j = Some r /\ (below 0 r -> exists x, r = Fin x /\ x <= b).
Hypothesis abs_ok : forall cur x, Rabs cur <= big -> 0 < x <= b -> exists e, abs_eb (Fin cur) (Fin x) = Fin e /\ e <= big * big.

Lemma field_total u v : (0 <= r1)%Z -> (0 < r2)%Z ->
  Z.of_nat (length u) = (r1 * r2)%Z -> Z.of_nat (length v) = (r1 * r2)%Z ->
  Forall (fun x => Rabs x <= big) u -> Forall (fun x => Rabs x <= big) v ->
  exists r, enc_field XA req abs_eb r1 r2 (map Fin u) (map Fin v) = Some r.
Proof.
  intros H1 H2 Lu Lv Bu Bv. unfold enc_field. rewrite scan2_map by auto. unfold zrange. rewrite Z.sub_0_r.
  apply loop_total with (inv := tail_inv r1 r2 (map Fin u) (map Fin v)).
  2:{ repeat split; try apply allfin_map; rewrite map_length; auto. }
  intros q U V Hq (FU & FV & LU & LV & Hk).
  assert (Hj : (0 <= q mod r2 < r2)%Z) by (apply Z.mod_pos_bound; auto).
  assert (Hi : (0 <= q / r2 < r1)%Z).
  { split; [apply Z.div_pos; lia|]. apply Z.div_lt_upper_bound; lia. }
  assert (Ep : (q / r2 * r2 + q mod r2 = q)%Z) by (pose proof (Z.div_mod q r2); lia).
  assert (G : forall w, Forall (fun x => Rabs x <= big) w -> Rabs (atR (map Fin w) q) <= big).
  { intros w Hw. rewrite atR_map by lia. destruct (nth_in_or_default (Z.to_nat q) w 0) as [HI| ->].
    - rewrite Forall_forall in Hw. auto.
    - rewrite Rabs_R0. pose proof big_ge_1. lra. }
  destruct (Hk q) as [EU EV]; [lia|].
  assert (AU : atR U q = atR (map Fin u) q) by (unfold atR; rewrite EU; auto).
  assert (AV : atR V q = atR (map Fin v) q) by (unfold atR; rewrite EV; auto).
  destruct (point_total req abs_eb b r1 r2 U V (q / r2) (q mod r2) Hi Hj FU FV LU LV) as [[[U' V'] c] E].
  - apply req_ok; auto.
  - rewrite Ep, AU. intros x Hx. apply abs_ok; auto.
  - rewrite Ep, AV. intros x Hx. apply abs_ok; auto.
  - exists U', V', c. split; auto. apply enc_point_outcome in E.
    destruct (outcome_local _ _ _ _ _ _ _ _ _ _ _ _ E) as (L1 & L2 & G1 & G2).
    destruct (step _ _ _ _ _ _ _ Hi Hj FU FV E) as [F1 F2].
    change (T XA) with XR in *. repeat split; auto; try congruence; rewrite Ep in *.
    + rewrite G1 by lia. apply Hk. lia.
    + rewrite G2 by lia. apply Hk. lia.
Qed.
End Both.

Lemma upto_below0 b r : notnan r \/ True -> upto b r -> below 0 r -> exists x, r = Fin x /\ x <= b.
Proof.
  intros _ H HB. destruct r as [x| | |]; try discriminate HB.
  - exists x. split; auto. destruct (Rle_lt_dec x b); auto. exfalso.
    assert (below b (Fin x)) by (apply below_fin; auto). apply H in H0. lra.
  - exfalso. assert (below b PInf) by reflexivity. apply H in H0. lra.
Qed.

Theorem rel_total max_eb r1 r2 u v : max_eb <= big -> (0 <= r1)%Z -> (0 < r2)%Z ->
  Z.of_nat (length u) = (r1 * r2)%Z -> Z.of_nat (length v) = (r1 * r2)%Z ->
  Forall (fun x => Rabs x <= big) u -> Forall (fun x => Rabs x <= big) v ->
  exists r, enc_online XA (Fin max_eb) r1 r2 (map Fin u) (map Fin v) = Some r.
Proof.
  intros Hm H1 H2 Lu Lv Bu Bv. pose proof big_ge_1 as B1. apply (field_total _ _ big); auto.
  - intros U V U' V' i j c Hi Hj FU FV HO.
    destruct (rel_step max_eb r1 r2 U V U' V' i j c Hi Hj FU FV HO) as (F1 & F2 & _). auto.
  - intros U V i j Hi Hj FU FV LU LV. unfold required_eb_rel.
    edestruct (req_loop_total (fun '(u0, u1, u2, v0, v1, v2) k =>
       derive_cp_eb_for_positions_online XA u0 u1 u2 v0 v1 v2 (inv_C XA k)) U V r1 r2 i j big six (Fin max_eb)) as (r & Er & Hr).
    + intros k Hk HM. apply in_six in Hk. destruct (tri_values_total U V r1 r2 i j k) as [w Ew]; auto.
      exists w. split; auto. apply (tri_values_vec _ _ _ _ _ _ _ Hk FU FV) in Ew. cbn zeta in Ew. rewrite Ew.
      apply (upto_mono 1); auto. apply derive_rel_upto.
    + apply upto_fin; auto.
    + exists r. split; auto. apply upto_below0; auto.
  - intros cur x Hc [Hx0 Hx]. cbn [dmul t2d tabs XA xabs xmul]. eexists. split; [reflexivity|].
    pose proof (Rabs_pos cur). apply Rmult_le_compat; lra.
Qed.

Theorem abs_total max_eb r1 r2 u v : max_eb <= big -> (0 <= r1)%Z -> (0 < r2)%Z ->
  Z.of_nat (length u) = (r1 * r2)%Z -> Z.of_nat (length v) = (r1 * r2)%Z ->
  Forall (fun x => Rabs x <= big) u -> Forall (fun x => Rabs x <= big) v ->
  exists r, enc_online_abs XA (Fin max_eb) r1 r2 (map Fin u) (map Fin v) = Some r.
Proof.
  intros Hm H1 H2 Lu Lv Bu Bv. pose proof big_ge_1 as B1. apply (field_total _ _ big); auto.
  - intros U V U' V' i j c Hi Hj FU FV HO.
    destruct (abs_step max_eb r1 r2 U V U' V' i j c Hi Hj FU FV HO) as (F1 & F2 & _). auto.
  - intros U V i j Hi Hj FU FV LU LV. unfold required_eb_abs.
    destruct (aget_ok U (i * r2 + j)) as [x Ex]; [rewrite LU; nia|].
    destruct (aget_ok V (i * r2 + j)) as [y Ey]; [rewrite LV; nia|].
    change (T XA) with XR. rewrite Ex, Ey. cbn [bind].
    destruct (_ || _)%bool.
    { exists (Fin 0). split; auto. intros HB. exists 0. split; auto. lra. }
    assert (HN : forall k w, In k six -> in_mesh r1 r2 i j k = true -> tri_values XA U V r2 (i * r2 + j) k = Some w ->
       notnan ((fun '(u0, u1, u2, v0, v1, v2) (_ : nat) => derive_cp_eb_for_positions_online_abs XA u0 u1 u2 v0 v1 v2) w k)).
    { intros k w Hk HM Ew. apply in_six in Hk. apply (tri_values_vec _ _ _ _ _ _ _ Hk FU FV) in Ew. cbn zeta in Ew.
      rewrite Ew. apply derive_abs_sound. }
    assert (HT : exists r, req_loop XA (fun '(u0, u1, u2, v0, v1, v2) (_ : nat) =>
        derive_cp_eb_for_positions_online_abs XA u0 u1 u2 v0 v1 v2) U V r1 r2 i j six (Fin max_eb) = Some r).
    { clear HN. generalize (Fin max_eb) as eb. assert (HI : forall k, In k six -> (k < 6)%nat) by (intros k Hk; apply in_six; auto).
      induction six as [|k ks IH]; intros eb; cbn [req_loop]; [eauto|].
      destruct (in_mesh r1 r2 i j k) eqn:EM.
      - destruct (tri_values_total U V r1 r2 i j k) as [w Ew]; auto; [apply HI; left; auto|]. rewrite Ew. cbn [bind].
        apply IH. intros k' Hk'. apply HI. right; auto.
      - apply IH. intros k' Hk'. apply HI. right; auto. }
    destruct HT as [r Er]. exists r. split; [exact Er|]. intros HB. apply upto_below0; auto.
    intros e He. apply (req_loop_below _ _ _ _ _ _ _ e) in Er; auto; [|discriminate].
    destruct Er as [Er _]. apply below_fin in Er. lra.
  - intros cur x Hc [Hx0 Hx]. exists x. split; auto. nra.
Qed.
