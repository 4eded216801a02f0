(** Error bound of the 3D log-domain codec in IEEE arithmetic.  Nothing of /repo is modelled here. *)
From Coq Require Import Reals Lra Lia ZArith List Bool.
From Coq Require Import ZifyBool ZifyNat.
From Flocq Require Import Core.Core IEEE754.BinarySingleNaN IEEE754.Binary IEEE754.Bits.
From Verif Require Import Base Huffman HuffStream HuffProps Stream Arith Mesh2D Mesh3D Derive3D Codec2D Sync2D Scan Stream2D Abs3D Sync3D Exact IEEE IEEELaws IEEEQuant
  IEEE2D IEEEAbs2D IEEETotal2D IEEERel2D Cells3D Preserve3D Total3D IEEE3D RelaxErr2D Log2D LogSync2D LogCells2D LogErr2D Log3D LogSync3D.
Import ListNotations.
Local Open Scope R_scope.
Local Instance p53f : Prec_gt_0 53 := eq_refl.

Lemma aget_len {X Y} (l : list X) (l' : list Y) n x : length l = length l' -> aget l n = Some x -> exists y, aget l' n = Some y.
Proof. intros H E. apply aget_Some in E. apply aget_ok. lia. Qed.

Section B.
Context (A : Arith) (I : ieee A).
Local Notation vT := (vT A I). Local Notation vD := (vD A I).
Local Notation pT := (pT A I). Local Notation eT := (eT A I).
Local Notation HpT := (HpT A I).
Local Notation bnd := (bnd A I).
Local Notation bndD := (bndD A I).
Local Notation all_bnd := (all_bnd A I).

(** ** The derived bound is never NaN *)
Lemma keep3_rel_notnan k a b c d : (0 <= k)%Z -> (k + 3 < 1024)%Z -> bndD k a -> bndD k b -> bndD k c -> bndD k d ->
  vD (max_eb_to_keep_sign_3d_online A a b c d) <> NaN.
Proof.
  intros H0 H Ba Bb Bc Bd. unfold max_eb_to_keep_sign_3d_online.
  destruct (deq A a _ && deq A b _ && deq A c _)%bool eqn:E; [rewrite vD_const by lia; discriminate|].
  destruct Ba as (ra & Ea & Ha). destruct Bb as (rb & Eb & Hb). destruct Bc as (rc & Ec & Hc).
  assert (Ba : bndD k a) by (exists ra; auto). assert (Bb : bndD k b) by (exists rb; auto). assert (Bc : bndD k c) by (exists rc; auto).
  assert (Bn : bndD (k + 1 + 1 + 1) (dadd A (dadd A (dadd A a b) c) d)).
  { apply bndD_add; try lia; [|apply (bndD_mono A I k); [lia|auto]].
    apply bndD_add; try lia; [|apply (bndD_mono A I k); [lia|auto]]. apply bndD_add; auto; lia. }
  destruct Bn as (n & En & _).
  assert (Bs : bndD (k + 1 + 1) (dadd A (dadd A (dabs A a) (dabs A b)) (dabs A c))).
  { apply bndD_add; try lia; [apply bndD_add; auto using IEEE3D.bndD_abs; lia|]. apply (bndD_mono A I k); [lia|auto using IEEE3D.bndD_abs]. }
  assert (Bt : bndD (k + 1) (dadd A (dabs A a) (dabs A b))) by (apply bndD_add; auto using IEEE3D.bndD_abs; lia).
  destruct Bs as (s & Es & _). destruct Bt as (t & Et & _).
  assert (Ft : t = round radix2 fexp64 ZnearestE (Rabs ra + Rabs rb)).
  { rewrite v_dadd, !v_dabs, Ea, Eb in Et. cbn [xabs xadd] in Et. apply rndx_fin_inv in Et. destruct Et as (q & Eq & -> & _). inversion Eq; subst. reflexivity. }
  assert (Fs : s = round radix2 fexp64 ZnearestE (t + Rabs rc)).
  { rewrite v_dadd, Et, v_dabs, Ec in Es. cbn [xabs xadd] in Es. apply rndx_fin_inv in Es. destruct Es as (q & Eq & -> & _). inversion Eq; subst. reflexivity. }
  pose proof (Rabs_pos ra) as Pa. pose proof (Rabs_pos rb) as Pb. pose proof (Rabs_pos rc) as Pc.
  assert (G : forall x z l, vD x = Fin z -> 0 <= l -> 0 <= z -> z <= round radix2 fexp64 ZnearestE (z + l)).
  { intros x z l Ex Hl Hz. rewrite <- (rnd_id 53 1024 z) at 1 by exact (proj1 (vD_fmt A I _ _ Ex)). apply (rnd_le 53 1024 eq_refl). lra. }
  assert (Gt : Rabs ra <= t /\ Rabs rb <= t /\ 0 <= t).
  { assert (Rabs ra <= t) by (rewrite Ft; apply (G (dabs A a)); auto; rewrite v_dabs, Ea; reflexivity).
    assert (Rabs rb <= t) by (rewrite Ft, Rplus_comm; apply (G (dabs A b)); auto; rewrite v_dabs, Eb; reflexivity). lra. }
  assert (Gs : t <= s /\ Rabs rc <= s).
  { split; [rewrite Fs; apply (G _ _ _ Et); lra|]. rewrite Fs, Rplus_comm. apply (G (dabs A c)); auto; [rewrite v_dabs, Ec; reflexivity|lra]. }
  assert (Hs : s <> 0).
  { intros Z. rewrite !(v_deq A I), Ea, Eb, Ec, (vD_0 A I) in E.
    assert (N : ra = 0 /\ rb = 0 /\ rc = 0).
    { assert (forall x, Rabs x = 0 -> x = 0) by (intros x Hx; destruct (Req_dec x 0); auto; apply Rabs_no_R0 in H1; contradiction).
      repeat split; apply H1; lra. }
    destruct N as (-> & -> & ->). rewrite (proj2 (xeq_fin 0 0)) in E by auto. discriminate. }
  rewrite v_ddiv by (rewrite Es; intros X; injection X as X; auto). apply rndx_notnan.
  rewrite v_dabs, En, Es. cbn [xabs]. rewrite xdiv_fin by auto. discriminate.
Qed.

Lemma derive3_rel_notnan W x0 x1 x2 x3 : (0 <= W)%Z -> (3 * W + 9 < 1024)%Z -> (3 * W + 5 < eT)%Z ->
  bnd3 A I W x0 -> bnd3 A I W x1 -> bnd3 A I W x2 -> bnd3 A I W x3 -> vD (derive3_rel A x0 x1 x2 x3) <> NaN.
Proof.
  destruct x0 as [[u0 v0] w0], x1 as [[u1 v1] w1], x2 as [[u2 v2] w2], x3 as [[u3 v3] w3].
  intros HW H1 H2 (U0 & V0 & W0) (U1 & V1 & W1) (U2 & V2 & W2) (U3 & V3 & W3).
  assert (P : forall x y, bnd W x -> bnd W y -> bnd (2 * W) (tmul A x y)).
  { intros x y Bx By. replace (2 * W)%Z with (W + W)%Z by lia. apply bnd_mul; auto; lia. }
  assert (Q : forall x y z, bnd W x -> bnd W y -> bnd W z -> bnd (3 * W) (tmul A (tmul A x y) z)).
  { intros x y z Bx By Bz. replace (3 * W)%Z with (2 * W + W)%Z by lia. apply bnd_mul; auto; lia. }
  assert (N : forall x, bnd W x -> bnd W (tneg A x)) by (intros; apply bnd_neg; auto).
  assert (PA : forall a b, bnd (3 * W) a -> bnd (3 * W) b -> bndD (3 * W + 1) (t2d A (tadd A a b))).
  { intros. apply bnd_t2d, bnd_add; auto; lia. }
  assert (PS : forall a b, bnd (3 * W) a -> bnd (3 * W) b -> bndD (3 * W + 1) (t2d A (tsub A a b))).
  { intros. apply bnd_t2d, bnd_sub; auto; lia. }
  unfold derive3_rel.
  match goal with |- context [same_direction A u0 u1 u2 u3] =>
    generalize (same_direction A u0 u1 u2 u3 || same_direction A v0 v1 v2 v3 || same_direction A w0 w1 w2 w3)%bool; intros sd end.
  set (u30 := t2d A (tadd A (tmul A (tmul A (tneg A u3) v1) w2) (tmul A (tmul A u3 v2) w1))). assert (Bu0 : bndD (3 * W + 1) u30) by (apply PA; auto).
  set (u31 := t2d A (tadd A (tmul A (tmul A (tneg A u3) v2) w0) (tmul A (tmul A u3 v0) w2))). assert (Bu1 : bndD (3 * W + 1) u31) by (apply PA; auto).
  set (u32 := t2d A (tadd A (tmul A (tmul A (tneg A u3) v0) w1) (tmul A (tmul A u3 v1) w0))). assert (Bu2 : bndD (3 * W + 1) u32) by (apply PA; auto).
  set (v30 := t2d A (tsub A (tmul A (tmul A u1 v3) w2) (tmul A (tmul A u2 v3) w1))). assert (Bv0 : bndD (3 * W + 1) v30) by (apply PS; auto).
  set (v31 := t2d A (tsub A (tmul A (tmul A u2 v3) w0) (tmul A (tmul A u0 v3) w2))). assert (Bv1 : bndD (3 * W + 1) v31) by (apply PS; auto).
  set (v32 := t2d A (tsub A (tmul A (tmul A u0 v3) w1) (tmul A (tmul A u1 v3) w0))). assert (Bv2 : bndD (3 * W + 1) v32) by (apply PS; auto).
  set (w30 := t2d A (tadd A (tmul A (tmul A (tneg A u1) v2) w3) (tmul A (tmul A u2 v1) w3))). assert (Bw0 : bndD (3 * W + 1) w30) by (apply PA; auto).
  set (w31 := t2d A (tsub A (tmul A (tmul A u0 v2) w3) (tmul A (tmul A u2 v0) w3))). assert (Bw1 : bndD (3 * W + 1) w31) by (apply PS; auto).
  set (w32 := t2d A (tadd A (tmul A (tmul A (tneg A u0) v1) w3) (tmul A (tmul A u1 v0) w3))). assert (Bw2 : bndD (3 * W + 1) w32) by (apply PA; auto).
  match goal with |- context [dadd A (dadd A (dadd A ?a ?b) ?c) (t2d A ?d)] =>
    set (M0 := a); set (M1 := b); set (M2 := c); set (M3 := t2d A d) end.
  assert (B3 : bndD (3 * W + 5) M3).
  { apply bnd_t2d.
    assert (M : forall k x, (0 <= k)%Z -> bnd (3 * W) x -> bnd (3 * W + k) x) by (intros; apply (bnd_mono A I (3 * W)); [lia|auto]).
    replace (3 * W + 5)%Z with (3 * W + 4 + 1)%Z by lia. apply bnd_sub; try lia; [|apply M; [lia|apply Q; auto]].
    replace (3 * W + 4)%Z with (3 * W + 3 + 1)%Z by lia. apply bnd_add; try lia; [|apply M; [lia|apply Q; auto]].
    replace (3 * W + 3)%Z with (3 * W + 2 + 1)%Z by lia. apply bnd_sub; try lia; [|apply M; [lia|apply Q; auto]].
    replace (3 * W + 2)%Z with (3 * W + 1 + 1)%Z by lia. apply bnd_add; try lia; [|apply M; [lia|apply Q; auto]].
    apply bnd_sub; try lia; apply Q; auto. }
  set (M := dadd A (dadd A (dadd A M0 M1) M2) M3). clearbody M0 M1 M2 M3.
  assert (Z : vD (dofZ A 0) <> NaN) by (rewrite (vD_0 A I); discriminate).
  destruct (deq A M _); [destruct sd; [rewrite vD_const by lia; discriminate|exact Z]|].
  assert (B0 : bndD (3 * W + 5) (dofZ A 0)).
  { exists 0. split; [apply vD_0|]. rewrite Rabs_R0. apply bpow_ge_0. }
  assert (K1 : forall x, bndD (3 * W + 1) x -> bndD (3 * W + 5) x) by (intros; eapply bndD_mono; [|eauto]; lia).
  assert (K2 : forall x y, bndD (3 * W + 1) x -> bndD (3 * W + 1) y -> bndD (3 * W + 5) (dadd A x y)).
  { intros x y Bx By. apply (bndD_mono A I (3 * W + 1 + 1)); [lia|]. apply bndD_add; auto; lia. }
  assert (K3 : forall x y z, bndD (3 * W + 1) x -> bndD (3 * W + 1) y -> bndD (3 * W + 1) z -> bndD (3 * W + 5) (dadd A (dadd A x y) z)).
  { intros x y z Bx By Bz. apply (bndD_mono A I (3 * W + 1 + 1 + 1)); [lia|]. apply bndD_add; try lia; [apply bndD_add; auto; lia|].
    apply (bndD_mono A I (3 * W + 1)); [lia|auto]. }
  destruct (inside_flag A M M0 && inside_flag A M M1 && inside_flag A M M2 && inside_flag A M M3)%bool; [exact Z|].
  assert (D2 : forall e (b : bool) x y, vD e <> NaN -> vD x <> NaN -> vD y <> NaN -> vD (if b then e else dmax A e (minf A x y)) <> NaN).
  { intros e [|] x y He Hx Hy; auto. apply dmax_notnan; auto. apply minf_notnan; auto. }
  assert (KP : forall a b c d, bndD (3 * W + 5) a -> bndD (3 * W + 5) b -> bndD (3 * W + 5) c -> bndD (3 * W + 5) d ->
     vD (max_eb_to_keep_sign_3d_online A a b c d) <> NaN).
  { intros. apply (keep3_rel_notnan (3 * W + 5)); auto; lia. }
  destruct (inside_flag A M M3); [|apply dmax_notnan; [|apply KP; auto]];
    repeat (apply D2; [|apply KP; auto|apply KP; auto]); exact Z.
Qed.

Lemma req_loop3_atmost W m U V X r1 r2 r3 i j k : (0 <= W)%Z -> (3 * W + 9 < 1024)%Z -> (3 * W + 5 < eT)%Z ->
  all_bnd W U -> all_bnd W V -> all_bnd W X -> forall ns eb r, atmost m (vD eb) ->
  req_loop3 A U V X r1 r2 r3 i j k ns eb = Some r -> atmost m (vD r).
Proof.
  intros HW H1 H2 BU BV BX. induction ns as [|n ns IH]; intros eb r G H; cbn [req_loop3] in H.
  { apply Some_inj in H. subst. auto. }
  destruct (in_mesh3 r1 r2 r3 i j k n); [|eauto].
  bind_as H x Ex. apply (tet_bnd A I W) in Ex; auto. destruct x as [[[x0 x1] x2] x3]. destruct Ex as (G0 & G1 & G2 & G3).
  apply IH in H; auto. apply minf_atmost; auto. apply (derive3_rel_notnan W); auto.
Qed.

Lemma required3_log_inv max_eb U V X r1 r2 r3 i j k r : required_eb3_log A max_eb U V X r1 r2 r3 i j k = Some r ->
  exists eb, req_loop3 A U V X r1 r2 r3 i j k twenty_four max_eb = Some eb /\ (r = dofZ A 0 \/ r = eb).
Proof.
  unfold required_eb3_log. generalize twenty_four. intros l H. bind_as H eb He. apply Some_inj in H. exists eb. split; [exact He|]. subst r.
  destruct (dlt A eb _); auto.
Qed.

Lemma required3_log_atmost W max_eb m U V X r1 r2 r3 i j k r : (0 <= W)%Z -> (3 * W + 9 < 1024)%Z -> (3 * W + 5 < eT)%Z ->
  all_bnd W U -> all_bnd W V -> all_bnd W X -> vD max_eb = Fin m ->
  required_eb3_log A max_eb U V X r1 r2 r3 i j k = Some r -> dlt A (dofZ A 0) r = true -> exists e, vD r = Fin e /\ 0 < e <= m.
Proof.
  intros HW H1 H2 BU BV BX Em H Hr. apply required3_log_inv in H. destruct H as (eb & He & Er).
  apply (req_loop3_atmost W m) in He; auto; [|right; exists m; split; [auto|lra]].
  rewrite (v_dlt A I), (vD_0 A I) in Hr. destruct Er as [-> | ->]; [|exact (atmost_pos _ _ He Hr)].
  rewrite (vD_0 A I) in Hr. apply xlt_fin in Hr. lra.
Qed.

Context (L : libm_ok A I) (LL : log_libm_ok A I).

(** eb_quant_index_max. *)
Lemma escape_ieee : escape A 2 = Some 24%Z.
Proof.
  assert (E1 : vD (ddiv A (dofZ A 1) (eps_float A)) = Fin (bpow radix2 23)).
  { pose proof (bpow_gt_0 radix2 (-23)).
    rewrite v_ddiv by (rewrite v_epsf; intros X; injection X as X; lra). rewrite v_epsf, vD_const by lia.
    rewrite xdiv_fin by lra. replace (1 / bpow radix2 (-23)) with (bpow radix2 23).
    - apply rndx_fin; [apply (fmt_bpow 53 1024 eq_refl); lia|]. rewrite Rabs_pos_eq by apply bpow_ge_0. apply bpow_lt. lia.
    - change (-23)%Z with (-(23))%Z. rewrite bpow_opp. field. apply Rgt_not_eq, bpow_gt_0. }
  assert (E2 : vD (dofZ A 2) = Fin (bpow radix2 1)) by (rewrite vD_const by lia; reflexivity).
  unfold escape. rewrite (v_dtoint A I), v_ddiv by (rewrite (lo_log2_exact A I L _ _ E2); intros X; injection X as X; lra).
  rewrite (lo_log2_exact A I L _ _ E1), (lo_log2_exact A I L _ _ E2), xdiv_fin by lra.
  replace (IZR 23 / IZR 1) with (IZR 23) by lra.
  assert (RF : rndx 53 1024 (Fin (IZR 23)) = Fin (IZR 23)); [|rewrite RF].
  - apply rndx_fin; [apply (fmt_IZR 53 1024 eq_refl); lia|]. rewrite <- abs_IZR.
    apply Rlt_le_trans with (bpow radix2 5); [apply IZR_lt; reflexivity|apply bpow_le; lia].
  - cbn [xtoint]. rewrite Ztrunc_IZR. reflexivity.
Qed.

(** One component in the log domain.  The symbol is below eb_quant_index_max, and the logarithm moves by less than 1. *)
Lemma log_component pr l eb e m id ab q x :
  eb_exponential_quantize A 2 (eps_float A) (log_eb A eb) = Some (id, ab) -> (0 < id)%Z ->
  quantise A pr l ab = Some (Coded A q x) ->
  vD eb = Fin e -> 0 < e <= m -> m <= 5 / 2 ->
  (id < 24)%Z /\ exists c d, vT l = Fin c /\ vT x = Fin d /\ Rabs (d - c) < 1 /\ Rabs (d - c) <= log2R (1 + m) + bpow radix2 (-16).
Proof.
  intros Hq Hid Ha Ee He Hm. destruct (log_eb_val A I L _ _ m Ee He Hm) as (g & Eg & Hg & Hg2).
  change 2%Z with (2 ^ 1)%Z in Hq.
  destruct (quantize_ieee A I L 1 23 (eps_float A) _ g id ab ltac:(lia) ltac:(lia) (v_epsf A I) Hq ltac:(lia) Eg) as (K1 & K2 & K3 & K4).
  { apply Rle_trans with (bpow radix2 1 * bpow radix2 23); [apply Rmult_le_compat_r; [apply bpow_ge_0|exact Hg2]|].
    rewrite <- bpow_plus. apply bpow_le. lia. }
  assert (P16 : bpow radix2 (-16) = / 65536) by reflexivity. assert (P39 : bpow radix2 (-39) = / 549755813888) by reflexivity.
  assert (P40 : bpow radix2 (-40) = / 1099511627776) by reflexivity. rewrite P39 in Hg. rewrite P40 in K4.
  pose proof (log2R_small m ltac:(lra)) as Lm.
  assert (Hlt : (id < 24)%Z).
  { destruct (Z_lt_le_dec id 24); auto. exfalso. assert (bpow radix2 1 <= bpow radix2 (1 * id - 23)) by (apply bpow_le; lia).
    change (bpow radix2 1) with 2 in *. lra. }
  split; [exact Hlt|].
  destruct (quantise_bound A I _ _ _ _ _ _ Ha K3 (bpow_gt_0 _ _)) as (c & d & Ec & Ed & Hb).
  { pose proof (pT_ok A I). pose proof (eT_ok A I). apply (fmt_bpow pT eT HpT). pose proof (HeT A I) as X. unfold Prec_lt_emax in X. lia. }
  exists c, d. split; auto. split; auto. split.
  - eapply Rlt_le_trans; [exact Hb|]. change 1 with (bpow radix2 0). apply bpow_le. lia.
  - rewrite P16. lra.
Qed.

(** A logarithm from which the decompressor gets the value back: below -99 for a zero. *)
Definition coded_ok (m : R) (x l : T A) : Prop := exists r d, vT x = Fin r /\ vT l = Fin d /\ -101 <= d <= 103 /\
  (r = 0 -> d < -99) /\ (r <> 0 -> -99 <= d /\ rel_close A I m x (unlog A x l)).

Lemma vT_int z : (24 <= pT)%Z -> (Z.abs z <= 128)%Z -> vT (tofZ A z) = Fin (IZR z).
Proof.
  intros Hp Hz. pose proof (eT_ok A I). rewrite v_tofZ. apply rndx_fin.
  - assert (2 ^ 24 <= 2 ^ pT)%Z by (apply Z.pow_le_mono_r; lia). apply (fmt_IZR pT eT HpT); lia.
  - rewrite <- abs_IZR. apply Rle_lt_trans with (bpow radix2 7); [change (bpow radix2 7) with (IZR 128); apply IZR_le; lia|]. apply bpow_lt. lia.
Qed.

Lemma coded_ok_gen B m x l c d : (24 <= pT)%Z -> usual A I B x -> (B <= 100)%Z -> 0 <= m <= 5 / 2 ->
  vT (log_value A x) = Fin c -> vT l = Fin d -> Rabs (d - c) < 1 -> Rabs (d - c) <= log2R (1 + m) + bpow radix2 (-16) ->
  coded_ok m x l.
Proof.
  intros Hp HU HB Hm Ec Ed H1 Hd. pose proof HU as (r & Er & Hr & Hb). exists r, d.
  assert (P15 : bpow radix2 (-15) = 2 * bpow radix2 (-16)) by (change (-15)%Z with (-16 + 1)%Z; apply bpow_2).
  assert (P16 : bpow radix2 (-16) = / 65536) by reflexivity.
  split; [auto|]. split; [auto|]. apply Rabs_def2 in H1.
  destruct (Req_dec r 0) as [Z|N].
  - assert (c = -100).
    { unfold log_value in Ec. rewrite (v_teq A I), vT_0, Er, (proj2 (xeq_fin r 0) Z) in Ec. rewrite vT_int in Ec by lia. congruence. }
    subst c. split; [lra|]. split; [intros _; lra|intros C; contradiction].
  - destruct Hr as [|Hr]; [contradiction|].
    destruct (log_value_ok A I LL B x r HU HB Er N) as (c' & Ec' & Hc). rewrite Ec in Ec'. injection Ec' as <-.
    assert (Hl : Rabs (d - log2R (Rabs r)) <= log2R (1 + m) + bpow radix2 (-15)).
    { replace (d - log2R (Rabs r)) with ((d - c) + (c - log2R (Rabs r))) by ring. eapply Rle_trans; [apply Rabs_triang|]. lra. }
    assert (Pr : 0 < Rabs r) by (apply Rabs_pos_lt; auto).
    assert (Ll : -97 <= log2R (Rabs r) <= 100).
    { split.
      - change (-97) with (IZR (-97)). rewrite <- (log2R_bpow (-97)). apply log2R_le; [apply bpow_gt_0|auto].
      - change 100 with (IZR 100). rewrite <- (log2R_bpow 100). apply log2R_le; auto. eapply Rle_trans; [exact Hb|]. apply bpow_le. lia. }
    assert (Dr : -99 <= d <= 102) by (rewrite P16 in Hc; apply Rabs_le_inv in Hc; lra).
    split; [lra|]. split; [intros C; contradiction|]. intros _. split; [lra|].
    destruct (ll_exp2 A I LL l d Ed) as (z & Ez & Hz); [lra|].
    destruct (unlog_error _ _ _ m Pr ltac:(lra) Hl Hz) as [Pz Kz].
    unfold rel_close, unlog. rewrite (v_tlt A I), vT_0, Er. exists r.
    destruct (xlt (Fin 0) (Fin r)) eqn:Lt.
    + apply xlt_fin in Lt. exists z. assert (Ar : Rabs r = r) by (apply Rabs_pos_eq; lra). rewrite Ar in Kz |- *. repeat split; auto. nra.
    + apply xlt_fin_false in Lt. exists (- z). rewrite v_tneg, Ez. assert (Ar : Rabs r = - r) by (apply Rabs_left1; lra). rewrite Ar in Kz |- *. repeat split; auto.
      * assert (r < 0) by lra. nra.
      * rewrite <- Rabs_Ropp. replace (- (- z - r)) with (z - - r) by ring. exact Kz.
Qed.

(** The logarithm of the value itself. *)
Lemma coded_ok_self B m x : (24 <= pT)%Z -> usual A I B x -> (B <= 100)%Z -> 0 <= m <= 5 / 2 -> coded_ok m x (log_value A x).
Proof.
  intros Hp HU HB Hm. pose proof HU as (r & Er & Hr & Hb).
  assert (E : exists c, vT (log_value A x) = Fin c).
  { destruct (Req_dec r 0) as [Z|N].
    - unfold log_value. rewrite (v_teq A I), vT_0, Er, (proj2 (xeq_fin r 0) Z). exists (-100). apply vT_int; lia.
    - destruct (log_value_ok A I LL B x r HU HB Er N) as (c & Ec & _). eauto. }
  destruct E as [c Ec]. eapply coded_ok_gen; eauto; rewrite Rminus_eq_0, Rabs_R0; [lra|].
  pose proof (bpow_gt_0 radix2 (-16)). assert (0 <= log2R (1 + m)); [|lra].
  rewrite <- (log2R_bpow 0). apply log2R_le; [apply bpow_gt_0|change (bpow radix2 0) with 1; lra].
Qed.

Lemma unlog_bnd B m x l : usual A I B x -> (0 <= B)%Z -> 0 <= m <= 5 / 2 -> coded_ok m x l -> bnd (B + 2) (unlog A x l).
Proof.
  intros (r & Er & _ & Hb) HB Hm (r' & d & Er' & Ed & Hd & HZ & HN). rewrite Er in Er'. injection Er' as <-.
  destruct (Req_dec r 0) as [Z|N].
  - specialize (HZ Z). destruct (ll_exp2 A I LL l d Ed) as (z & Ez & Hz); [lra|].
    assert (P20 : bpow radix2 (-20) = / 1048576) by reflexivity. rewrite P20 in Hz.
    assert (Rpower 2 d <= 1).
    { apply Rle_trans with (Rpower 2 0); [apply Rle_Rpower; lra|rewrite Rpower_O; lra]. }
    assert (0 < Rpower 2 d) by apply exp_pos. apply Rabs_le_inv in Hz.
    assert (Rabs z <= bpow radix2 1) by (apply Rabs_le; change (bpow radix2 1) with 2; lra).
    assert (bpow radix2 1 <= bpow radix2 (B + 2)) by (apply bpow_le; lia).
    unfold unlog. destruct (tlt A _ _).
    + exists z. split; auto. lra.
    + exists (- z). rewrite v_tneg, Ez. split; auto. rewrite Rabs_Ropp. lra.
  - destruct (HN N) as [_ (a & b & Ea & Eb & _ & H)]. rewrite Er in Ea. injection Ea as <-.
    exists b. split; auto. assert (P13 : bpow radix2 (-13) = / 8192) by reflexivity. rewrite P13 in H.
    replace (B + 2)%Z with (B + 1 + 1)%Z by lia. rewrite !bpow_2. pose proof (Rabs_pos r).
    replace b with (b - r + r) by ring. eapply Rle_trans; [apply Rabs_triang|]. nra.
Qed.

Section Field.
Context (Hp24 : (24 <= pT)%Z) (B : Z) (HB : (0 <= B <= 100)%Z).
Context (req : bound_source A) (m : Z -> R) (Hm : forall n, 0 <= m n <= 5 / 2).
Context (r1 r2 r3 : Z) (H1 : (0 <= r1)%Z) (H2 : (0 < r2)%Z) (H3 : (0 < r3)%Z).
(** The bound of point [n] is at most [m n], whatever moderate values the working arrays contain. *)
Definition source_atmost : Prop := forall U V W i j k eb, in_grid r1 r2 r3 (i, j, k) ->
  all_bnd (B + 2) U -> all_bnd (B + 2) V -> all_bnd (B + 2) W ->
  req U V W i j k = Some eb -> dlt A (dofZ A 0) eb = true -> exists e, vD eb = Fin e /\ 0 < e <= m (lin3 r2 r3 (i, j, k)).
Context (HQ : source_atmost).

(** Invariant, one component. *)
Definition comp_err (k : nat) (X0 X M : list (T A)) : Prop :=
  untouched k X X0 /\ untouched k M (map (log_value A) X0) /\
  (forall n x l, aget X0 n = Some x -> aget M n = Some l -> coded_ok (m n) x l) /\
  (forall n x y l, aget X0 n = Some x -> aget X n = Some y -> aget M n = Some l -> y = x \/ y = unlog A x l).

Definition log3_err (U V W : list (T A)) (k : nat) (s : log3_state A) : Prop :=
  let '(U', V', W', (LU, LV, LW)) := s in comp_err k U U' LU /\ comp_err k V V' LV /\ comp_err k W W' LW.

Definition all_usual (X : list (T A)) : Prop := forall n x, aget X n = Some x -> usual A I B x.

Lemma comp_err_init X : all_usual X -> comp_err 0 X X (map (log_value A) X).
Proof.
  intros HX. split; [apply untouched_refl|]. split; [apply untouched_refl|]. split.
  - intros n x l Ex El. rewrite aget_map, Ex in El. cbn [option_map] in El. apply Some_inj in El. subst l.
    eapply coded_ok_self; eauto. lia.
  - intros n x y l Ex Ey _. left. congruence.
Qed.

Lemma comp_err_bnd k X0 X M : all_usual X0 -> comp_err k X0 X M -> all_bnd (B + 2) X.
Proof.
  intros HX (TX & TM & HK & HF) n y Ey.
  destruct (aget_len X X0 n y (proj1 TX) Ey) as [x Ex].
  destruct (aget_len X0 M n x) as [l El]; auto. { rewrite (proj1 TM), map_length. auto. }
  destruct (HF n x y l Ex Ey El) as [-> | ->].
  - destruct (HX n x Ex) as (r & Er & _ & Hb). exists r. split; auto. eapply Rle_trans; [exact Hb|]. apply bpow_le. lia.
  - apply (unlog_bnd B (m n)); eauto. lia.
Qed.

Lemma comp_err_logs k X0 X M : comp_err k X0 X M -> all_bnd 7 M.
Proof.
  intros (TX & TM & HK & _) n l El.
  destruct (aget_len M X0 n l) as [x Ex]; auto. { rewrite (proj1 TM), map_length. auto. }
  destruct (HK n x l Ex El) as (r & d & _ & Ed & Hd & _). exists d. split; auto. change (bpow radix2 7) with 128. apply Rabs_le. lra.
Qed.

Lemma comp_err_keep k X0 X M : comp_err k X0 X M -> comp_err (S k) X0 X M.
Proof. intros (TX & TM & HK). split; [apply untouched_keep; auto|]. split; [apply untouched_keep; auto|auto]. Qed.

Lemma comp_err_code k X0 X M x l pr eb e id ab q y X' M' :
  all_usual X0 -> comp_err k X0 X M -> aget X (Z.of_nat k) = Some x -> aget M (Z.of_nat k) = Some l ->
  eb_exponential_quantize A 2 (eps_float A) (log_eb A eb) = Some (id, ab) -> (0 < id)%Z -> quantise A pr l ab = Some (Coded A q y) ->
  vD eb = Fin e -> 0 < e <= m (Z.of_nat k) -> aset M (Z.of_nat k) y = Some M' -> aset X (Z.of_nat k) (unlog A x y) = Some X' ->
  (id < 24)%Z /\ comp_err (S k) X0 X' M'.
Proof.
  intros HX (TX & TM & HK & HF) Ex El Hq Hid HC Ee He SM SX.
  assert (AX : aget X0 (Z.of_nat k) = Some x) by (rewrite <- (proj2 TX) by lia; auto).
  assert (Xl : l = log_value A x).
  { rewrite (proj2 TM) in El by lia. rewrite aget_map, AX in El. cbn [option_map] in El. congruence. }
  destruct (log_component _ _ _ _ (m (Z.of_nat k)) _ _ _ _ Hq Hid HC Ee He (proj2 (Hm _))) as (Hlt & c & d & Ec & Ed & D1 & D2).
  split; [exact Hlt|]. rewrite Xl in Ec.
  split; [eapply untouched_set; eauto|]. split; [eapply untouched_set; eauto|].
  pose proof (aset_get _ _ _ _ SM) as GM. pose proof (aset_get _ _ _ _ SX) as GX. split.
  - intros p x' l' Ex' El'. rewrite GM in El'. destruct (Z.eqb_spec p (Z.of_nat k)) as [->|Hne]; [|eauto].
    apply Some_inj in El'. subst l'. replace x' with x by congruence. eapply (coded_ok_gen B); eauto. lia.
  - intros p x' y' l' Ex' Ey' El'. rewrite GM in El'. rewrite GX in Ey'. destruct (Z.eqb_spec p (Z.of_nat k)) as [->|Hne]; [|eauto].
    right. congruence.
Qed.

Lemma comp_err_set k X0 X M x l i j n eb e id ab q y X' M' :
  all_usual X0 -> comp_err k X0 X M -> aget X (Z.of_nat k) = Some x -> aget M (Z.of_nat k) = Some l ->
  eb_exponential_quantize A 2 (eps_float A) (log_eb A eb) = Some (id, ab) -> (0 < id)%Z -> coded3 A M r2 r3 i j n l ab q y ->
  vD eb = Fin e -> 0 < e <= m (Z.of_nat k) -> aset M (Z.of_nat k) y = Some M' -> aset X (Z.of_nat k) (unlog A x y) = Some X' ->
  (id < 24)%Z /\ comp_err (S k) X0 X' M'.
Proof. intros HX HC Ex El Hq Hid (pr & _ & Ha). eapply comp_err_code; eauto. Qed.

Lemma log3_err_step U V W : all_usual U -> all_usual V -> all_usual W ->
  no_collision A req 24 r1 r2 r3 (log3_err U V W).
Proof.
  intros MU MV MW n [[i j] k] s s' c Hn HI H. destruct (scan3_nth _ _ _ _ _ H1 H2 H3 Hn) as (Gi & Gj & Gk & Hp).
  destruct s as [[[U1 V1] W1] [[LU LV] LW]]. destruct s' as [[[U2 V2] W2] [[LU2 LV2] LW2]].
  destruct HI as (CU & CV & CW). apply log3_point_inv in H.
  destruct H as [id u v w Hid Eu Ev Ew|u v w lu lv lw eb id abs_eb q0 q1 q2 x0 x1 x2 U2 V2 W2 LU2 LV2 LW2
                 Eu Ev Ew El Em' En Er Ep Eq Hid C0 C1 C2 X1 X2 X3 X4 X5 X6]; rewrite Hp in *.
  - split; [|cbn [c_q verbatim_as]; congruence]. split; [|split]; apply comp_err_keep; auto.
  - destruct (HQ U1 V1 W1 i j k eb) as (e & Ee & He); auto; [exact (conj Gi (conj Gj Gk))|..].
    { eapply comp_err_bnd; [|exact CU]; auto. } { eapply comp_err_bnd; [|exact CV]; auto. } { eapply comp_err_bnd; [|exact CW]; auto. }
    rewrite Hp in He.
    destruct (comp_err_set _ _ _ _ _ _ _ _ _ _ _ _ _ _ _ _ _ MU CU Eu El Eq Hid C0 Ee He X1 X4) as [Hlt KU].
    destruct (comp_err_set _ _ _ _ _ _ _ _ _ _ _ _ _ _ _ _ _ MV CV Ev Em' Eq Hid C1 Ee He X2 X5) as [_ KV].
    destruct (comp_err_set _ _ _ _ _ _ _ _ _ _ _ _ _ _ _ _ _ MW CW Ew En Eq Hid C2 Ee He X3 X6) as [_ KW].
    split; [split; [|split]; assumption|]. cbn [c_q c_eb In]. intros _ a [X|[]]. lia.
Qed.

(** The value the decompressor returns for a component. *)
Definition comp_close (b : R) (x y : T A) : Prop :=
  exists r, vT x = Fin r /\ (r = 0 -> y = t0 A) /\ (r <> 0 -> rel_close A I b x y).

Lemma final_close b x l : coded_ok b x l -> comp_close b x (from_log A l (log_sign A x)).
Proof using Hp24.
  intros (r & d & Er & Ed & _ & HZ & HN). exists r. split; auto. unfold from_log.
  assert (E99 : vT (tofZ A (-99)) = Fin (-99)) by (clear - Hp24; apply vT_int; lia).
  split; intros Hr.
  - specialize (HZ Hr). rewrite (v_tlt A I), Ed, E99, (proj2 (xlt_fin d (-99)) HZ). reflexivity.
  - destruct (HN Hr) as [Hd HC]. rewrite (v_tlt A I), Ed, E99, (proj2 (xlt_fin_false d (-99)) Hd).
    unfold unlog in HC. unfold log_sign. rewrite (v_teq A I), vT_0, Er, (proj2 (xeq_fin_false r 0) Hr).
    destruct (tlt A (t0 A) x); exact HC.
Qed.

(** A point that is coded has a positive bound. *)
Lemma coded_positive U V W s c : all_usual U -> all_usual V -> all_usual W ->
  enc_log3_with A req r1 r2 r3 U V W = Some (s, c) -> forall n e, aget (c_eb c) n = Some e -> vflag 24 e <> 0%Z -> 0 < m n.
Proof.
  intros MU MV MW H. unfold enc_log3_with in H. rewrite escape_ieee in H. cbn [bind] in H.
  pose proof (fun a b => scan_code (log3_point A req 24 r1 r2 r3)
    (fun k s (c : code (T A)) => log3_err U V W k s /\ length (c_eb c) = k /\ forall n e, aget (c_eb c) n = Some e -> vflag 24 e <> 0%Z -> 0 < m n)
    (scan3 r1 r2 r3) 0%nat _ code_nil _ _ a b H) as G.
  refine (proj2 (proj2 (G _ _))); clear G.
  - intros k ijk s0 c0 s1 c1 Hk (HI & HL & HP) HS. cbn [Nat.add] in *.
    split; [exact (proj1 (log3_err_step U V W MU MV MW k ijk s0 s1 c1 Hk HI HS))|].
    assert (HT : exists e, c_eb c1 = [e] /\ (vflag 24 e <> 0%Z -> 0 < m (Z.of_nat k))).
    { destruct ijk as [[i j] kk]. destruct (scan3_nth _ _ _ _ _ H1 H2 H3 Hk) as (Gi & Gj & Gk & Hp).
      destruct s0 as [[[U1 V1] W1] [[LU LV] LW]]. destruct s1 as [[[U2 V2] W2] [[LU2 LV2] LW2]].
      destruct HI as (CU & CV & CW). apply log3_point_inv in HS.
      destruct HS as [id u v w Hid Eu Ev Ew|u v w lu lv lw eb id abs_eb q0 q1 q2 x0 x1 x2 U2 V2 W2 LU2 LV2 LW2
                     Eu Ev Ew El Em' En Er Ep Eq Hid C0 C1 C2 X1 X2 X3 X4 X5 X6].
      - exists id. split; [reflexivity|]. intros X. exfalso. apply X. apply vflag_verbatim. exact Hid.
      - exists id. split; [reflexivity|]. intros _. rewrite <- Hp.
        destruct (HQ U1 V1 W1 i j kk eb) as (e & _ & He); auto; [exact (conj Gi (conj Gj Gk))|..|].
        { eapply comp_err_bnd; [|exact CU]; auto. } { eapply comp_err_bnd; [|exact CV]; auto. } { eapply comp_err_bnd; [|exact CW]; auto. }
        lra. }
    destruct HT as (e & Ee & He). unfold code_app. cbn [c_eb]. rewrite Ee, app_length, HL. cbn [length]. split; [lia|].
    intros n x Ex Hx. pose proof (aget_Some _ _ _ Ex) as Hn. rewrite app_length, HL in Hn. cbn [length] in Hn.
    destruct (Z_lt_le_dec n (Z.of_nat k)) as [Hlt|Hge].
    + apply (HP n x); [|exact Hx]. unfold aget in Ex |- *. destruct (n <? 0)%Z; [exact Ex|]. rewrite nth_error_app1 in Ex by lia. exact Ex.
    + assert (n = Z.of_nat k) by lia. subst n. unfold aget in Ex. replace (Z.of_nat k <? 0)%Z with false in Ex by lia.
      rewrite Nat2Z.id, nth_error_app2, HL, Nat.sub_diag in Ex by lia. cbn [nth_error] in Ex. apply Some_inj in Ex. subst x. auto.
  - split; [exact (conj (comp_err_init U MU) (conj (comp_err_init V MV) (comp_err_init W MW)))|]. split; [reflexivity|].
    intros n e Ex. apply aget_Some in Ex. cbn in Ex. lia.
Qed.

Theorem log3_bound U V W U' V' W' LU LV LW c :
  Z.of_nat (length U) = (r1 * r2 * r3)%Z -> Z.of_nat (length V) = (r1 * r2 * r3)%Z -> Z.of_nat (length W) = (r1 * r2 * r3)%Z ->
  all_usual U -> all_usual V -> all_usual W ->
  enc_log3_with A req r1 r2 r3 U V W = Some (U', V', W', (LU, LV, LW), c) ->
  let fl := map (vflag 24) (c_eb c) in
  length fl = Z.to_nat (r1 * r2 * r3) /\ length LU = length U /\ length LV = length V /\ length LW = length W /\
  forall n u v w u' v' w', aget U n = Some u -> aget V n = Some v -> aget W n = Some w ->
    aget (log_finals A fl U LU) n = Some u' -> aget (log_finals A fl V LV) n = Some v' -> aget (log_finals A fl W LW) n = Some w' ->
    (u' = u /\ v' = v /\ w' = w) \/ (0 < m n /\ comp_close (m n) u u' /\ comp_close (m n) v v' /\ comp_close (m n) w w').
Proof.
  intros LenU LenV LenW MU MV MW H fl.
  pose proof (log3_inv_final A req 24 r1 r2 r3 H1 H2 H3 (log3_err U V W) (log3_err_step U V W MU MV MW) U V W _ _
    (conj (comp_err_init U MU) (conj (comp_err_init V MV) (comp_err_init W MW))) escape_ieee H) as HI.
  destruct HI as ((EU & EV & EW) & _ & _ & _ & Le & _ & _). fold fl in Le.
  assert (Lf : length fl = Z.to_nat (r1 * r2 * r3)) by (unfold fl; rewrite map_length; auto).
  destruct EU as (TU & TLU & KU & _). destruct EV as (TV & TLV & KV & _). destruct EW as (TW & TLW & KW & _).
  assert (LLU : length LU = length U) by (rewrite (proj1 TLU), map_length; auto).
  assert (LLV : length LV = length V) by (rewrite (proj1 TLV), map_length; auto).
  assert (LLW : length LW = length W) by (rewrite (proj1 TLW), map_length; auto).
  repeat (split; [assumption|]).
  intros n u v w u' v' w' Eu Ev Ew Fu Fv Fw. pose proof (aget_Some _ _ _ Eu) as Hn.
  destruct (aget_ok fl n) as [e Ee]; [lia|]. destruct (aget_ok LU n) as [lu El]; [lia|].
  destruct (aget_ok LV n) as [lv Em']; [lia|]. destruct (aget_ok LW n) as [lw En]; [lia|].
  rewrite (log_finals_get A fl U LU n e u lu Ee Eu El) in Fu. rewrite (log_finals_get A fl V LV n e v lv Ee Ev Em') in Fv.
  rewrite (log_finals_get A fl W LW n e w lw Ee Ew En) in Fw. apply Some_inj in Fu, Fv, Fw. subst u' v' w'.
  unfold log_final. destruct (Z.eqb_spec e 0) as [|Hne]; [left; auto|]. right. split; [|split; [|split]; apply final_close; eauto].
  unfold fl in Ee. rewrite aget_map in Ee. destruct (aget (c_eb c) n) as [e0|] eqn:E0; [|discriminate Ee].
  cbn [option_map] in Ee. apply Some_inj in Ee. subst e. exact (coded_positive U V W _ c MU MV MW H n e0 E0 Hne).
Qed.
End Field.

(** The source of the online codec. *)
Lemma online_atmost B max_eb m r1 r2 r3 : (0 <= B <= 100)%Z -> (3 * B + 11 < eT)%Z -> vD max_eb = Fin m ->
  source_atmost B (fun U V W => required_eb3_log A max_eb U V W r1 r2 r3) (fun _ => m) r1 r2 r3.
Proof.
  intros HB HE Em U V W i j k eb _ BU BV BW H Hr.
  exact (required3_log_atmost (B + 2) max_eb m U V W r1 r2 r3 i j k eb ltac:(lia) ltac:(lia) ltac:(lia) BU BV BW Em H Hr).
Qed.
End B.
