(** No undefined conversion to int in the 2D online compressors on finite fields of moderate size, in IEEE
    arithmetic.  Nothing of /repo is modelled here. *)
From Coq Require Import Reals Lra Lia ZArith List Bool.
From Coq Require Import ZifyBool ZifyNat.
From Flocq Require Import Core.Core IEEE754.BinarySingleNaN IEEE754.Binary IEEE754.Bits.
From Verif Require Import Base Huffman Arith Mesh2D Derive2D Codec2D Sync2D Trace2D Exact IEEE IEEELaws IEEEQuant IEEE2D IEEEAbs2D IEEERel2D TotalAny Total2D.
Import ListNotations.
Local Open Scope R_scope.

Local Transparent xdiv.
Section B.
Context (A : Arith) (I : ieee A) (L : libm_ok A I).
Local Notation vT := (vT A I). Local Notation vD := (vD A I).
Local Notation pT := (pT A I). Local Notation eT := (eT A I).
Local Notation HpT := (HpT A I).
Local Notation bnd := (bnd A I).

Lemma toint_small x r : vD x = Fin r -> Rabs r <= bpow radix2 30 -> exists z, dtoint A x = Some z.
Proof.
  intros E H. rewrite (v_dtoint A I), E. cbn [xtoint]. change (bpow radix2 30) with (IZR (2 ^ 30)) in H.
  assert (Z.abs (Ztrunc r) <= 2 ^ 30)%Z.
  { rewrite <- Ztrunc_abs. rewrite Ztrunc_floor by apply Rabs_pos. apply le_IZR. eapply Rle_trans; [apply Zfloor_lb|auto]. }
  replace (_ && _)%bool with true by lia. eauto.
Qed.

Lemma log2_small r : 1 <= r -> r <= bpow radix2 1022 -> 0 <= ln r / ln 2 <= 1022.
Proof.
  intros H1 H2. pose proof ln2_pos.
  assert (ln (bpow radix2 1022) = 1022 * ln 2).
  { rewrite bpow_exp, ln_exp. reflexivity. }
  assert (0 <= ln r) by (rewrite <- ln_1; apply ln_le; lra).
  assert (ln r <= 1022 * ln 2) by (rewrite <- H0; apply ln_le; lra).
  split.
  - apply Rmult_le_pos; auto. left. apply Rinv_0_lt_compat. auto.
  - apply (Rmult_le_reg_r (ln 2)); auto. unfold Rdiv. rewrite Rmult_assoc, Rinv_l by lra. lra.
Qed.

Lemma quantize_noub b t thr eb0 e : (1 <= b <= 2)%Z -> (0 <= t <= 52)%Z -> vD thr = Fin (bpow radix2 (- t)) ->
  vD eb0 = Fin e -> e * bpow radix2 t <= bpow radix2 1022 ->
  exists r, eb_exponential_quantize A (2 ^ b) thr eb0 = Some r.
Proof.
  intros Hb Ht Eth He Hmax. unfold eb_exponential_quantize.
  destruct (dle A eb0 thr) eqn:El; [eauto|].
  rewrite (v_dle A I), He, Eth in El. apply xle_fin_false in El. pose proof (bpow_gt_0 radix2 (- t)) as Pt.
  assert (Er : vD (ddiv A eb0 thr) = Fin (e * bpow radix2 t)).
  { rewrite v_ddiv by (rewrite Eth; intros X; inversion X; lra). rewrite He, Eth.
    rewrite xdiv_fin by lra. replace (e / bpow radix2 (- t)) with (e * bpow radix2 t).
    2:{ unfold Rdiv. rewrite <- bpow_opp. rewrite Z.opp_involutive. reflexivity. }
    apply rndx_fin.
    - apply fmt64_scale; [lia|]. apply (vD_fmt A I _ _ He).
    - rewrite Rabs_pos_eq by (apply Rmult_le_pos; [lra|apply bpow_ge_0]). eapply Rle_lt_trans; [exact Hmax|].
      apply bpow_lt. lia. }
  assert (Hr : 1 < e * bpow radix2 t).
  { replace 1 with (bpow radix2 (- t) * bpow radix2 t).
    - apply Rmult_lt_compat_r; [apply bpow_gt_0|auto].
    - rewrite <- bpow_plus. replace (- t + t)%Z with 0%Z by lia. reflexivity. }
  set (r := e * bpow radix2 t) in *.
  destruct (lo_log2 A I L _ _ Er) as (l & El2 & Hl); [lra|].
  assert (Elb : vD (dlog2 A (dofZ A (2 ^ b))) = Fin (IZR b)).
  { apply (lo_log2_exact A I L). rewrite (vD_const A I).
    - change (IZR (2 ^ b)) with (IZR (radix2 ^ b)). rewrite IZR_Zpower by lia. reflexivity.
    - assert (b = 1 \/ b = 2)%Z as [-> | ->] by lia; lia. }
  apply Rabs_le_inv in Hl. destruct (log2_small r) as [S1 S2]; try lra.
  assert (H40 : bpow radix2 (-40) <= 1) by (change 1 with (bpow radix2 0); apply bpow_le; lia).
  assert (B1 : Rabs (l / IZR b) <= bpow radix2 30).
  { assert (IZR b = 1 \/ IZR b = 2) as [-> | ->].
    { assert (b = 1 \/ b = 2)%Z as [-> | ->] by lia; auto. }
    all: apply Rabs_le; change (bpow radix2 30) with 1073741824; lra. }
  destruct (rndxD_bnd (l / IZR b) 30 ltac:(lia) B1) as (f & Ef & Bf & _).
  destruct (toint_small (ddiv A (dlog2 A (ddiv A eb0 thr)) (dlog2 A (dofZ A (2 ^ b)))) f) as [z ->]; auto.
  - rewrite v_ddiv by (rewrite Elb; intros X; inversion X as [X']; apply eq_IZR in X'; lia).
    rewrite El2, Elb, xdiv_fin by (apply IZR_neq; lia). exact Ef.
  - cbn [bind]. eauto.
Qed.

Lemma quantise_noub pred cur eb p c a : vT pred = Fin p -> vT cur = Fin c -> vD eb = Fin a -> 0 < a ->
  exists r, quantise A pred cur eb = Some r.
Proof.
  intros Ep Ec Ea Ha. unfold quantise. set (diff := t2d A (tsub A cur pred)).
  set (qd := dadd A (ddiv A (dabs A diff) eb) (dofZ A 1)).
  destruct (dlt A qd (dofZ A capacity)) eqn:E; [|eauto].
  rewrite (v_dlt A I), (vD_const A I capacity) in E by (unfold capacity; lia).
  assert (N : vD (dabs A diff) <> NInf /\ vD (dabs A diff) <> NaN /\ forall x, vD (dabs A diff) = Fin x -> 0 <= x).
  { rewrite v_dabs. assert (vD diff <> NaN).
    { unfold diff. rewrite v_t2d, v_tsub, Ep, Ec. apply rndx_notnan. discriminate. }
    destruct (vD diff); cbn [xabs]; repeat split; try discriminate; try congruence. intros x X. inversion X. apply Rabs_pos. }
  destruct N as (N1 & N2 & N3).
  assert (Q : exists q, vD qd = Fin q /\ 0 <= q <= bpow radix2 16).
  { unfold qd in *. rewrite v_dadd, (vD_const A I 1) in * by lia. rewrite v_ddiv in * by (rewrite Ea; intros X; inversion X; lra).
    destruct (vD (dabs A diff)) as [x| | |] eqn:Ed; try congruence.
    - specialize (N3 x eq_refl). rewrite Ea in *. rewrite xdiv_fin in * by lra. cbn [rndx] in *.
      assert (Hx : 0 <= x / a) by (apply Rmult_le_pos; auto; left; apply Rinv_0_lt_compat; auto).
      pose proof (rnd_le 53 1024 eq_refl 0 (x / a) Hx) as R0. rewrite (rnd_id 53 1024 0) in R0 by apply generic_format_0.
      destruct (sat_cases 1024 (round radix2 fexp64 ZnearestE (x / a))) as [[X _]|[[X Y]|[X Y]]]; rewrite X in *.
      + cbn [xadd rndx] in *. set (s := round radix2 fexp64 ZnearestE (x / a)) in *.
        pose proof (rnd_le 53 1024 eq_refl 0 (s + IZR 1) ltac:(cbn; lra)) as R1. rewrite (rnd_id 53 1024 0) in R1 by apply generic_format_0.
        destruct (sat_cases 1024 (round radix2 fexp64 ZnearestE (s + IZR 1))) as [[X' _]|[[X' _]|[X' Y']]]; rewrite X' in *.
        * apply xlt_fin in E. eexists. split; [reflexivity|]. change (bpow radix2 16) with 65536. unfold capacity in E. lra.
        * discriminate.
        * pose proof (bpow_gt_0 radix2 1024). lra.
      + discriminate.
      + pose proof (bpow_gt_0 radix2 1024). lra.
    - rewrite Ea in *. unfold xdiv in E. rewrite Rlt_bool_false in E by lra. discriminate. }
  destruct Q as (q & Eq & Hq).
  assert (G : exists h, dtoint A (ddiv A (if dlt A (dofZ A 0) diff then qd else dneg A qd) (dofZ A 2)) = Some h).
  { assert (S : exists s, vD (if dlt A (dofZ A 0) diff then qd else dneg A qd) = Fin s /\ Rabs s <= bpow radix2 16).
    { destruct (dlt A (dofZ A 0) diff); [exists q|exists (- q); rewrite v_dneg, Eq]; (split; [auto|]); [|rewrite Rabs_Ropp];
        rewrite Rabs_pos_eq; lra. }
    destruct S as (s & Es & Hs).
    assert (B : Rabs (s / IZR 2) <= bpow radix2 30).
    { apply Rle_trans with (bpow radix2 16); [|apply bpow_le; lia].
      apply Rabs_le_inv in Hs. apply Rabs_le. cbn [IZR IPR IPR_2]. lra. }
    destruct (rndxD_bnd (s / IZR 2) 30 ltac:(lia) B) as (f & Ef & Bf & _).
    apply (toint_small _ f); auto.
    rewrite v_ddiv by (rewrite (vD_const A I 2) by lia; intros X; inversion X; lra).
    rewrite Es, (vD_const A I 2), xdiv_fin by (lia || lra). exact Ef. }
  destruct G as [h ->]. cbn [bind]. destruct (dle A _ _); eauto.
Qed.

Lemma lorenzo_bnd k w r2 i j p : (0 <= k)%Z -> (k + 2 < eT)%Z -> all_bnd A I k w -> lorenzo A w r2 i j = Some p -> bnd (k + 2) p.
Proof.
  intros Hk He HW H. unfold lorenzo in H. bind_as H e0 E0. bind_as H e1 E1. bind_as H e2 E2.
  apply Some_inj in H. subst p.
  assert (Z0 : bnd k (t0 A)).
  { exists 0. split; [apply vT_0|]. rewrite Rabs_R0. apply bpow_ge_0. }
  assert (G : forall (b : bool) q e, (if b then aget w q else Some (t0 A)) = Some e -> bnd k e).
  { intros b q e Hb. destruct b; [eapply HW; eauto|]. apply Some_inj in Hb. subst. auto. }
  apply G in E0. apply G in E1. apply G in E2. replace (k + 2)%Z with (k + 1 + 1)%Z by lia.
  apply bnd_sub; try lia; [|apply (bnd_mono A I k); auto; lia]. apply bnd_add; auto; lia.
Qed.

Lemma try_noub k w r2 i j cur eb e : (0 <= k)%Z -> (k + 2 < eT)%Z -> all_bnd A I k w -> bnd k cur ->
  (0 <= i)%Z -> (0 <= j < r2)%Z -> (i * r2 + j < Z.of_nat (length w))%Z ->
  vD eb = Fin e -> e * bpow radix2 52 <= bpow radix2 1022 ->
  exists t, try_component A 4 (eps_double A) w r2 i j cur eb = Some t.
Proof.
  intros Hk He HW Bc Hi Hj HL Ee Hm. unfold try_component.
  destruct (quantize_noub 2 52 (eps_double A) eb e ltac:(lia) ltac:(lia) (v_eps A I) Ee Hm) as [[id ab] Eq].
  change (2 ^ 2)%Z with 4%Z in Eq. rewrite Eq. cbn [bind].
  destruct (0 <? id)%Z eqn:Hid; [|eauto].
  destruct (lorenzo_any A w r2 i j Hi Hj HL) as [p Ep]. rewrite Ep. cbn [bind].
  apply (lorenzo_bnd k) in Ep; auto. destruct Ep as (pr & Ep & _). destruct Bc as (c & Ec & _).
  destruct (quantize_ieee A I L 2 52 (eps_double A) eb e id ab ltac:(lia) ltac:(lia) (v_eps A I) Eq ltac:(lia) Ee Hm) as (_ & _ & K & _).
  destruct (quantise_noub p cur ab pr c _ Ep Ec K (bpow_gt_0 _ _)) as [x ->]. cbn [bind]. eauto.
Qed.

Lemma good_inv w r2 i j cur eb e id q x W (w' : list (T A)) : coded A w r2 i j cur eb id q x -> vD eb = Fin e ->
  e <= bpow radix2 W -> (0 <= W)%Z -> (W + 52 <= 1022)%Z -> bnd W cur -> bnd (W + 2) x.
Proof.
  intros HC Ee He HW HW2 (a & Ea & Ha).
  assert (Hx : e * bpow radix2 52 <= bpow radix2 1022).
  { apply Rle_trans with (bpow radix2 W * bpow radix2 52).
    - apply Rmult_le_compat_r; [apply bpow_ge_0|auto].
    - rewrite <- bpow_plus. apply bpow_le. lia. }
  destruct (coded_within A I L _ _ _ _ _ _ e _ _ _ HC Ee Hx) as (P & y & z & Y1 & Y2 & Y3).
  exists z. split; auto. rewrite Ea in Y1. inversion Y1; subst y.
  assert (H40 : 0 < bpow radix2 (-40) <= 1).
  { split; [apply bpow_gt_0|]. change 1 with (bpow radix2 0). apply bpow_le. lia. }
  replace (W + 2)%Z with (W + 1 + 1)%Z by lia. rewrite !(bpow_2). pose proof (bpow_gt_0 radix2 W).
  replace z with ((z - a) + a) by ring. eapply Rle_trans; [apply Rabs_triang|]. nra.
Qed.

Lemma all_bnd_set k w p x w' : all_bnd A I k w -> bnd k x -> aset w p x = Some w' -> all_bnd A I k w'.
Proof.
  intros HW HB HS q y Ey. apply aset_Some in HS. destruct HS as (_ & _ & G). rewrite G in Ey.
  destruct (q =? p)%Z; [apply Some_inj in Ey; subst; auto|eapply HW; eauto].
Qed.

Section Field.
Context (B : Z) (HB : (0 <= B)%Z) (HB2 : (2 * B + 8 < eT)%Z).
Context (req : list (T A) -> list (T A) -> Z -> Z -> Z -> Z -> option (D A)) (abs_eb : T A -> D A -> D A) (okp : T A -> Prop).
Context (r1 r2 : Z).
Hypothesis req_any : forall U V i j, (0 <= i < r1)%Z -> (0 <= j < r2)%Z ->
  Z.of_nat (length U) = (r1 * r2)%Z -> Z.of_nat (length V) = (r1 * r2)%Z -> exists r, req U V r1 r2 i j = Some r.
(** Every bound that is used is finite and at most 2^B. *)
Hypothesis req_bnd : forall U V i j eb u v, (0 <= i < r1)%Z -> (0 <= j < r2)%Z ->
  all_bnd A I (B + 2) U -> all_bnd A I (B + 2) V ->
  req U V r1 r2 i j = Some eb -> dlt A (dofZ A 0) eb = true ->
  aget U (i * r2 + j) = Some u -> aget V (i * r2 + j) = Some v -> okp u -> okp v -> bnd B u -> bnd B v ->
  exists a b, vD (abs_eb u eb) = Fin a /\ a <= bpow radix2 B /\ vD (abs_eb v eb) = Fin b /\ b <= bpow radix2 B.

Lemma field_noub U V : (0 <= r1)%Z -> (0 < r2)%Z -> Z.of_nat (length U) = (r1 * r2)%Z -> Z.of_nat (length V) = (r1 * r2)%Z ->
  moderate A I B U -> moderate A I B V -> (forall k x, aget U k = Some x -> okp x) -> (forall k x, aget V k = Some x -> okp x) ->
  exists r, enc_field A req abs_eb r1 r2 U V = Some r.
Proof.
  intros H1 H2 LU LV MU MV OU OV. pose proof (eT_ok A I) as HeT.
  assert (Up : forall w, moderate A I B w -> all_bnd A I (B + 2) w).
  { intros w M k x E. apply (bnd_mono A I B); [lia|]. eapply M; eauto. }
  assert (Mul : forall e, e <= bpow radix2 B -> e * bpow radix2 52 <= bpow radix2 1022).
  { intros e He. apply Rle_trans with (bpow radix2 B * bpow radix2 52).
    - apply Rmult_le_compat_r; [apply bpow_ge_0|auto].
    - rewrite <- bpow_plus. apply bpow_le. lia. }
  apply (field_any A req abs_eb (fun U0 V0 => all_bnd A I (B + 2) U0 /\ all_bnd A I (B + 2) V0)); auto.
  intros U0 V0 i j Hi Hj LU0 LV0 [BU BV] HK. split.
  - destruct (req_any U0 V0 i j Hi Hj LU0 LV0) as [eb Er]. exists eb. split; auto. intros Hp u v Eu Ev.
    destruct (HK (i * r2 + j)%Z ltac:(lia)) as [KU KV]. rewrite KU in Eu. rewrite KV in Ev.
    destruct (req_bnd U0 V0 i j eb u v Hi Hj BU BV Er Hp ltac:(congruence) ltac:(congruence) (OU _ _ Eu) (OV _ _ Ev) (MU _ _ Eu) (MV _ _ Ev))
      as (a & b & Ea & La & Eb & Lb).
    split.
    + apply (try_noub (B + 2) U0 r2 i j u _ a); auto; try lia; [|rewrite LU0; nia]. apply (bnd_mono A I B); [lia|eapply MU; eauto].
    + apply (try_noub (B + 2) V0 r2 i j v _ b); auto; try lia; [|rewrite LV0; nia]. apply (bnd_mono A I B); [lia|eapply MV; eauto].
  - intros U1 V1 c HO. inversion HO as [u1 v1 E1 E2 EU EV|u1 v1 eb id0 id1 q0 q1 x0 x1 U2 V2 E1 E2 E3 E4 C0 C1 S0 S1 EU EV]; subst; auto.
    destruct (HK (i * r2 + j)%Z ltac:(lia)) as [KU KV]. pose proof E1 as Eu. pose proof E2 as Ev. rewrite KU in Eu. rewrite KV in Ev.
    destruct (req_bnd U0 V0 i j eb u1 v1 Hi Hj BU BV E3 E4 E1 E2 (OU _ _ Eu) (OV _ _ Ev) (MU _ _ Eu) (MV _ _ Ev))
      as (a & b & Ea & La & Eb & Lb).
    split.
    + eapply all_bnd_set; [exact BU| |exact S0]. eapply (good_inv _ _ _ _ _ _ _ _ _ _ B U0 C0 Ea La); try lia. eapply MU; eauto.
    + eapply all_bnd_set; [exact BV| |exact S1]. eapply (good_inv _ _ _ _ _ _ _ _ _ _ B V0 C1 Eb Lb); try lia. eapply MV; eauto.
Qed.
End Field.

(** Absolute codec: no undefined behaviour on finite fields of moderate size. *)
Theorem abs_noub B max_eb m r1 r2 U V :
  (0 <= B)%Z -> (2 * B + 8 < eT)%Z -> vD max_eb = Fin m -> m <= bpow radix2 B ->
  (0 <= r1)%Z -> (0 < r2)%Z -> Z.of_nat (length U) = (r1 * r2)%Z -> Z.of_nat (length V) = (r1 * r2)%Z ->
  moderate A I B U -> moderate A I B V ->
  exists r, enc_online_abs A max_eb r1 r2 U V = Some r.
Proof.
  intros HB HB2 Em Hm H1 H2 LU LV MU MV. pose proof (eT_ok A I) as He.
  apply (field_noub B HB HB2 _ _ (fun _ => True)); auto.
  - intros. apply req_abs_any; auto.
  - intros U0 V0 i j eb u v Hi Hj BU BV Er Hp _ _ _ _ _ _. rewrite (v_dlt A I), vD_0 in Hp.
    destruct (required_abs_atmost A I (B + 2) max_eb m U0 V0 r1 r2 i j eb) as [At|Z]; auto; try lia.
    + destruct (atmost_pos _ _ At Hp) as (e & Ee & He0 & Hem). exists e, e. repeat split; auto; lra.
    + rewrite Z in Hp. apply xlt_fin in Hp. lra.
Qed.

(** ** Relative codec: a bound that is used never exceeds 1 *)
Definition upto1 (v : XR) : Prop := v = NaN \/ atmost 1 v.

Lemma keep_sign_le1 k a b : (0 <= k)%Z -> (k + 2 < eT)%Z -> bnd k a -> bnd k b ->
  atmost 1 (vD (max_eb_to_keep_sign_2d_online A a b (t0 A))).
Proof.
  intros H0 H Ba Bb.
  unfold max_eb_to_keep_sign_2d_online.
  destruct (bnd_add A I k (tabs A a) (tabs A b)) as (s & Es & _); auto using bnd_abs; try lia.
  destruct (bnd_add A I k a b) as (t & Et & _); try lia; auto.
  destruct (deq A _ _) eqn:E; [right; exists 0; rewrite vD_0; split; auto; lra|].
  rewrite (v_deq A I), v_t2d, Es, vD_0 in E. apply xeq_fin_false in E.
  rewrite v_ddiv by (rewrite v_t2d, Es; congruence).
  assert (En : vT (tadd A (tadd A a b) (t0 A)) = Fin t).
  { rewrite v_tadd, Et, vT_0. cbn [xadd]. rewrite Rplus_0_r. destruct (vT_fmt A I _ _ Et). apply rndx_fin; auto. }
  rewrite !v_t2d, v_tabs, En, Es. cbn [xabs]. rewrite xdiv_fin by auto.
  assert (Hs : Rabs t <= s).
  { destruct Ba as (x & Ex & _), Bb as (y & Ey & _).
    rewrite v_tadd, Ex, Ey in Et. cbn [xadd] in Et. rewrite v_tadd, !v_tabs, Ex, Ey in Es. cbn [xabs xadd] in Es.
    apply rndx_fin_inv in Et. destruct Et as (q & Eq & -> & _). inversion Eq; subst q. clear Eq.
    apply rndx_fin_inv in Es. destruct Es as (q & Eq & -> & _). inversion Eq; subst q. clear Eq.
    apply Rabs_le. pose proof (Rabs_triang x y) as HT. pose proof (Rle_abs (x + y)) as K1. pose proof (Rle_abs (- (x + y))) as K2. rewrite Rabs_Ropp in K2.
    split; [|apply (rnd_le pT eT HpT); lra].
    rewrite <- (rnd_opp pT eT). apply (rnd_le pT eT HpT). lra. }
  assert (Hs0 : 0 < s) by (pose proof (Rabs_pos t); lra).
  assert (R1 : Rabs t / s <= 1).
  { apply (Rmult_le_reg_r s); auto. unfold Rdiv. rewrite Rmult_assoc, Rinv_l by auto. lra. }
  assert (R0 : 0 <= Rabs t / s) by (apply Rmult_le_pos; [apply Rabs_pos|left; apply Rinv_0_lt_compat; auto]).
  destruct (rndxD_bnd (Rabs t / s) 0) as (z & Ez & Bz & _); [lia|rewrite Rabs_pos_eq; auto|].
  right. exists z. split; auto. change (bpow radix2 0) with 1 in Bz. apply Rabs_le_inv in Bz. lra.
Qed.

Lemma minf_upto1 x y : atmost 1 (vD x) -> upto1 (vD (minf A x y)).
Proof.
  intros Hx. unfold minf. destruct (dlt A x y) eqn:E; [right; auto|]. rewrite (v_dlt A I) in E.
  destruct Hx as [Hx|(r & Hx & Lr)]; rewrite Hx in E; destruct (vD y) as [b| | |]; cbn in E; try discriminate; unfold upto1, atmost; auto.
  apply xlt_fin_false in E. right. right. exists b. split; auto. lra.
Qed.
Lemma minf_upto1' x y : upto1 (vD x) -> upto1 (vD y) -> upto1 (vD (minf A x y)).
Proof. intros. unfold minf. destruct (dlt A x y); auto. Qed.
Lemma dmax_upto1 x y : upto1 (vD x) -> upto1 (vD y) -> upto1 (vD (dmax A x y)).
Proof. intros. unfold dmax. destruct (dlt A y x); auto. Qed.

Lemma derive_rel_upto1 W u0 u1 u2 v0 v1 v2 c : (0 <= W)%Z -> (2 * W + 4 < eT)%Z ->
  bnd W u0 -> bnd W u1 -> bnd W u2 -> bnd W v0 -> bnd W v1 -> bnd W v2 ->
  upto1 (vD (derive_cp_eb_for_positions_online A u0 u1 u2 v0 v1 v2 c)).
Proof.
  intros HW HE B0 B1 B2 C0 C1 C2.
  assert (Z0 : upto1 (vD (dofZ A 0))) by (rewrite vD_0; right; right; exists 0; split; auto; lra).
  assert (P : forall x y, bnd W x -> bnd W y -> bnd (2 * W) (tmul A x y)).
  { intros x y Bx By. replace (2 * W)%Z with (W + W)%Z by lia. apply bnd_mul; auto; lia. }
  assert (KS : forall a b, bnd (2 * W) a -> bnd (2 * W) b -> atmost 1 (vD (max_eb_to_keep_sign_2d_online A a b (t0 A)))).
  { intros. apply (keep_sign_le1 (2 * W)); auto; lia. }
  unfold derive_cp_eb_for_positions_online.
  destruct (deq A _ _); auto.
  destruct (_ && _)%bool.
  - assert (AP : atmost 1 (vD (max_eb_to_keep_position_online A (tmul A u0 v1) (tmul A u1 v0) (tmul A u1 v2) (tmul A u2 v1) (tmul A u2 v0) (tmul A u0 v2)))).
    { unfold max_eb_to_keep_position_online, minf. destruct (dlt A _ _); apply KS; auto using bnd_neg. }
    apply minf_upto1; auto.
  - assert (K3 : upto1 (vD (max_eb_to_keep_sign_2d_online A (tsub A (tmul A u2 v0) (tmul A u2 v1)) (tsub A (tmul A u1 v2) (tmul A u0 v2)) (t0 A)))).
    { right. apply (keep_sign_le1 (2 * W + 1)); auto; try lia; apply bnd_sub; auto; lia. }
    destruct (_ || _)%bool; destruct (_ || _)%bool; destruct (_ || _)%bool; auto;
      repeat apply dmax_upto1; auto; apply minf_upto1; apply KS; auto using bnd_neg.
Qed.

Lemma req_loop_upto1 f U V r1 r2 i j : forall ks eb r,
  (forall k w, In k ks -> tri_values A U V r2 (i * r2 + j) k = Some w -> upto1 (vD (f w k))) ->
  upto1 (vD eb) -> req_loop A f U V r1 r2 i j ks eb = Some r -> upto1 (vD r).
Proof.
  induction ks as [|k ks IH]; intros eb r HN Hb H; cbn [req_loop] in H.
  - apply Some_inj in H. subst. auto.
  - destruct (in_mesh r1 r2 i j k).
    + bind_as H w Ew. eapply IH in H; eauto. intros; eapply HN; eauto. right; auto.
      apply minf_upto1'; auto. eapply HN; eauto. left; auto.
    + eapply IH in H; eauto. intros; eapply HN; eauto. right; auto.
Qed.

(** Relative codec: no undefined behaviour on finite fields of moderate size. *)
Theorem rel_noub B max_eb m r1 r2 U V :
  (0 <= B)%Z -> (2 * B + 8 < eT)%Z -> vD max_eb = Fin m -> m <= 1 ->
  (0 <= r1)%Z -> (0 < r2)%Z -> Z.of_nat (length U) = (r1 * r2)%Z -> Z.of_nat (length V) = (r1 * r2)%Z ->
  moderate A I B U -> moderate A I B V ->
  exists r, enc_online A max_eb r1 r2 U V = Some r.
Proof.
  intros HB HB2 Em Hm H1 H2 LU LV MU MV. pose proof (eT_ok A I) as He.
  apply (field_noub B HB ltac:(lia) _ _ (fun _ => True)); auto.
  - intros. apply req_rel_any; auto.
  - intros U0 V0 i j eb u v Hi Hj BU BV Er Hp Gu Gv _ _ Bu Bv. rewrite (v_dlt A I), vD_0 in Hp.
    destruct Bu as (a & Ea & Ha). destruct Bv as (b & Eb & Hb).
    assert (Hu : upto1 (vD eb)).
    { unfold required_eb_rel in Er. eapply req_loop_upto1 in Er; eauto.
      - intros k w Hk Ew. apply (tri_bnd A I (B + 2)) in Ew; auto. destruct w as [[[[[u0 u1] u2] v0] v1] v2].
        destruct Ew as (?&?&?&?&?&?). apply (derive_rel_upto1 (B + 2)); auto; lia.
      - right. right. exists m. auto. }
    destruct Hu as [Hu|Hu]; [rewrite Hu in Hp; discriminate|].
    destruct (atmost_pos _ _ Hu Hp) as (e & Ee & He0 & Hem).
    assert (One : forall x d, vT x = Fin d -> Rabs d <= bpow radix2 B ->
       exists p, vD (dmul A (t2d A (tabs A x)) eb) = Fin p /\ p <= bpow radix2 B).
    { intros x d Ed Hd. rewrite v_dmul, v_t2d, v_tabs, Ed, Ee. cbn [xabs xmul].
      destruct (rndxD_bnd (Rabs d * e) B) as (p & Ep & Bp & _); [lia| |].
      - rewrite Rabs_mult, Rabs_Rabsolu, (Rabs_pos_eq e) by lra. pose proof (Rabs_pos d). nra.
      - exists p. split; auto. apply Rabs_le_inv in Bp. lra. }
    destruct (One u a Ea Ha) as (p & Ep & Lp). destruct (One v b Eb Hb) as (q & Eq & Lq). exists p, q. auto.
Qed.
End B.
