(** The relaxed codec in IEEE arithmetic: error bound indices and the byte stream. *)
From Coq Require Import Reals Lra Lia ZArith List Bool.
From Coq Require Import ZifyBool ZifyNat.
From Flocq Require Import Core.Core IEEE754.BinarySingleNaN IEEE754.Binary IEEE754.Bits.
From Verif Require Import Base Huffman HuffStream HuffProps Stream Arith Mesh2D Derive2D Codec2D Sync2D Scan Stream2D Exact IEEE IEEELaws IEEEQuant
  IEEE2D Api2D Relax2D RelaxSync2D RelaxCells2D.
Import ListNotations.
Local Open Scope R_scope.
Local Instance p53 : Prec_gt_0 53 := eq_refl.

Section Ids.
Context (A : Arith).

(** Every coded point has a nonzero index. *)
Lemma relax_id_ok max_eb r1 r2 U V U' V' c :
  (forall W i j cur eb0 id q x, tried A max_eb eb0 -> relax_coded A W r2 i j cur eb0 id q x -> id <> 0%Z) ->
  enc_relax A max_eb r1 r2 U V = Some (U', V', c) -> id_ok A c.
Proof.
  intros HI H. unfold enc_relax in H. bind_as H cp Ecp. bind_as H [s cc] E. apply Some_inj in H. injection H as _ _ E3. subst cc.
  revert E. assert (G : forall pts s s' c, (0 <= snd s)%Z -> scan_enc (relax_point A cp max_eb r1 r2) pts s = Some (s', c) -> id_ok A c).
  { clear - HI. intros pts. induction pts as [|[i j] pts IH]; intros s s' c Hs H; cbn [scan_enc] in H.
    - apply Some_inj in H. injection H as _ E2. subst. reflexivity.
    - bind_as H [s1 c1] E1. bind_as H [s2 c2] E2. apply Some_inj in H. injection H as E3 E4. subst.
      destruct s as [[W X] n], s1 as [[W1 X1] n1]. cbn [snd] in Hs. apply relax_point_inv in E1; auto. destruct E1 as [Hn1 O].
      apply IH in E2; auto. unfold id_ok in *. rewrite filter_app_len. cbn [code_app c_unp]. rewrite app_length, E2. f_equal.
      destruct O as [u v|u v eb0 id q0 q1 x0 x1 W' X' _ _ _ HT C0 _ _ _ _]; [reflexivity|].
      cbn [c_unp c_eb length filter]. apply HI in C0; auto. replace (0 =? id)%Z with false by lia. reflexivity. }
  apply G. cbn. lia.
Qed.
End Ids.

(** Exact arithmetic. *)
Lemma relax_ids_exact max_eb r1 r2 u v U' V' c : 16 * / 4503599627370496 <= max_eb ->
  (0 <= r1)%Z -> (0 < r2)%Z ->
  enc_relax XA (Fin max_eb) r1 r2 u v = Some (U', V', c) -> id_ok XA c.
Proof.
  intros HM H1 H2. apply relax_id_ok. intros W i j cur eb0 id q x HT (a & Hq & _) ->.
  assert (QP : forall b i1 a1, eb_exponential_quantize XA 4 (eps_double XA) (Fin b) = Some (i1, a1) -> / 4503599627370496 < b ->
     exists y, a1 = Fin y /\ y <= b < 4 * y /\ (0 <= i1)%Z /\ y = powerRZ 4 i1 * / 4503599627370496).
  { intros b i1 a1 E Hb. apply quantize_exact in E; [|lia|lra].
    destruct E as [(E & _ & _)|(_ & E1 & y & -> & Ey & E2 & E3)]; [lra|]. exists y. auto. }
  destruct HT as [|id' a' E].
  - destruct (QP _ _ _ Hq) as (y & _ & Hy & _ & Ey); [lra|]. change (powerRZ 4 0) with 1 in Ey. lra.
  - destruct (QP _ _ _ E) as (y & -> & Hy & Hi & Ey); [lra|].
    assert (4 <= powerRZ 4 id' / 4).
    { assert (P0 : powerRZ 4 0 = 1) by reflexivity. assert (P1 : powerRZ 4 1 = 4) by apply powerRZ_1.
      assert (N : (2 <= id')%Z).
      { assert (~ (id' <= 1)%Z); [|lia]. intros L. assert (id' = 0 \/ id' = 1)%Z as [->| ->] by lia; rewrite ?P0, ?P1 in Ey; lra. }
      replace id' with (id' - 2 + 2)%Z by lia. rewrite powerRZ_add by lra. change (powerRZ 4 2) with (4 * (4 * 1)).
      assert (1 <= powerRZ 4 (id' - 2)); [|lra].
      assert (G : forall n : nat, 1 <= 4 ^ n) by (intros n; apply pow_R1_Rle; lra).
      rewrite <- (Z2Nat.id (id' - 2)) by lia. rewrite <- pow_powerRZ. apply G. }
    cbn [ddiv dofZ XA] in Hq. rewrite xdiv_fin in Hq by lra.
    destruct (QP _ _ _ Hq) as (z & _ & Hz & _ & Ez); [lra|]. change (powerRZ 4 0) with 1 in Ez. lra.
Qed.

Section IEEE.
Context (A : Arith) (I : ieee A) (L : libm_ok A I).
Local Notation vT := (vT A I). Local Notation vD := (vD A I).

Lemma quantize_ge eb0 e id ab m : (0 <= m <= 1000)%Z ->
  eb_exponential_quantize A 4 (eps_double A) eb0 = Some (id, ab) -> vD eb0 = Fin e ->
  bpow radix2 (2 * m + 1 - 52) <= e <= bpow radix2 900 -> (m <= id)%Z.
Proof.
  intros Hm H He [Hlo Hhi]. unfold eb_exponential_quantize in H. pose proof (v_eps A I) as Eth.
  assert (P52 : bpow radix2 (-52) < bpow radix2 (2 * m + 1 - 52)) by (apply bpow_lt; lia).
  destruct (dle A eb0 (eps_double A)) eqn:El.
  { rewrite (v_dle A I), He, Eth in El. apply xle_fin in El. lra. }
  bind_as H id' Ei. apply Some_inj in H. injection H as E1 E2. subst id' ab.
  pose proof (bpow_gt_0 radix2 (-52)) as Pt.
  assert (Er : vD (ddiv A eb0 (eps_double A)) = Fin (e * bpow radix2 52)).
  { rewrite v_ddiv by (rewrite Eth; intros X; injection X as X; lra). rewrite He, Eth.
    rewrite xdiv_fin by lra. replace (e / bpow radix2 (-52)) with (e * bpow radix2 52).
    2:{ unfold Rdiv. rewrite <- bpow_opp. reflexivity. }
    apply rndx_fin.
    - apply fmt64_scale; [lia|]. apply (vD_fmt A I _ _ He).
    - rewrite Rabs_pos_eq by (apply Rmult_le_pos; [lra|apply bpow_ge_0]).
      apply Rle_lt_trans with (bpow radix2 900 * bpow radix2 52); [apply Rmult_le_compat_r; [apply bpow_ge_0|auto]|].
      rewrite <- bpow_plus. apply bpow_lt. lia. }
  set (r := e * bpow radix2 52) in *.
  assert (Hr : bpow radix2 (2 * m + 1) <= r).
  { unfold r. replace (2 * m + 1)%Z with (2 * m + 1 - 52 + 52)%Z by lia. rewrite bpow_plus.
    apply Rmult_le_compat_r; [apply bpow_ge_0|auto]. }
  assert (Hr' : r <= bpow radix2 952).
  { unfold r. replace 952%Z with (900 + 52)%Z by lia. rewrite bpow_plus. apply Rmult_le_compat_r; [apply bpow_ge_0|auto]. }
  pose proof (bpow_gt_0 radix2 (2 * m + 1)) as Pr.
  destruct (lo_log2 A I L _ _ Er) as (l & El2 & Hl); [lra|].
  assert (Elb : vD (dlog2 A (dofZ A 4)) = Fin 2).
  { apply (lo_log2_exact A I L _ 2). rewrite vD_const by lia. reflexivity. }
  assert (LN : forall k, ln (bpow radix2 k) = IZR k * ln 2).
  { intros k. rewrite bpow_powerRZ. change (IZR radix2) with 2. rewrite powerRZ_Rpower by lra. unfold Rpower. rewrite ln_exp. auto. }
  pose proof ln2_pos as L2.
  assert (Hln : IZR (2 * m + 1) <= ln r / ln 2 <= 952).
  { assert (ln (bpow radix2 (2 * m + 1)) <= ln r).
    { destruct (Req_dec (bpow radix2 (2 * m + 1)) r) as [->|]; [lra|]. apply Rlt_le, ln_increasing; lra. }
    assert (ln r <= ln (bpow radix2 952)).
    { destruct (Req_dec (bpow radix2 952) r) as [->|]; [lra|]. apply Rlt_le, ln_increasing; lra. }
    rewrite LN in *. split; apply (Rmult_le_reg_r (ln 2)); auto; unfold Rdiv; rewrite Rmult_assoc, Rinv_l, Rmult_1_r; lra. }
  rewrite plus_IZR, mult_IZR in Hln. apply Rabs_le_inv in Hl.
  assert (P40 : bpow radix2 (-40) < / 2) by (change (/ 2) with (bpow radix2 (-1)); apply bpow_lt; lia).
  rewrite (v_dtoint A I), v_ddiv in Ei by (rewrite Elb; intros X; injection X as X; lra).
  rewrite El2, Elb in Ei. rewrite xdiv_fin in Ei by lra. cbn [rndx] in Ei.
  set (f := round radix2 fexp64 ZnearestE (l / 2)) in *.
  assert (Hf1 : IZR m <= f).
  { unfold f. rewrite <- (rnd_id 53 1024 (IZR m)) by (apply (fmt_IZR 53 1024 eq_refl); lia). apply (rnd_le 53 1024 eq_refl). lra. }
  assert (Hf2 : f <= 1024).
  { unfold f. rewrite <- (rnd_id 53 1024 1024) by (apply (fmt_IZR 53 1024 eq_refl); lia). apply (rnd_le 53 1024 eq_refl). lra. }
  assert (F0 : 0 <= f) by (apply Rle_trans with (IZR m); auto; apply IZR_le; lia).
  destruct (sat_cases 1024 f) as [[E K]|[[E K]|[E K]]].
  - rewrite E in Ei. cbn [xtoint] in Ei. rewrite Ztrunc_floor in Ei by auto.
    assert (m <= Zfloor f)%Z by (apply Zfloor_lub; auto).
    assert (Zfloor f <= 1024)%Z by (apply le_IZR; eapply Rle_trans; [apply Zfloor_lb|]; auto).
    replace ((- 2 ^ 31 <=? Zfloor f) && (Zfloor f <? 2 ^ 31))%Z%bool with true in Ei by lia. apply Some_inj in Ei. lia.
  - exfalso. assert (1024 < bpow radix2 1024) by (change 1024 with (bpow radix2 10); apply bpow_lt; lia). lra.
  - exfalso. pose proof (bpow_gt_0 radix2 1024). lra.
Qed.

Lemma relax_ids_ieee max_eb e r1 r2 U V U' V' c : vD max_eb = Fin e -> bpow radix2 (-47) <= e <= bpow radix2 500 ->
  enc_relax A max_eb r1 r2 U V = Some (U', V', c) -> id_ok A c.
Proof.
  intros He [H1 H2]. apply relax_id_ok. intros W i j cur eb0 id q x HT (a & Hq & _).
  assert (P9 : bpow radix2 500 <= bpow radix2 900) by (apply bpow_le; lia).
  destruct HT as [|id' a' E].
  - pose proof (quantize_ge _ _ _ _ 2 ltac:(lia) Hq He) as K. change (2 * 2 + 1 - 52)%Z with (-47)%Z in K. lapply K; [lia|lra].
  - pose proof (quantize_ge _ _ _ _ 2 ltac:(lia) E He) as K. change (2 * 2 + 1 - 52)%Z with (-47)%Z in K. lapply K; [clear K; intros K|lra].
    pose proof (quantize_ieee A I L 2 52 (eps_double A) max_eb e id' a' ltac:(lia) ltac:(lia) (v_eps A I) E ltac:(lia) He) as Q.
    destruct Q as (Q1 & _ & Q2 & Q3).
    { apply Rle_trans with (bpow radix2 500 * bpow radix2 52); [apply Rmult_le_compat_r; [apply bpow_ge_0|auto]|].
      rewrite <- bpow_plus. apply bpow_le. lia. }
    assert (Hh : vD (ddiv A a' (dofZ A 2)) = Fin (bpow radix2 (2 * id' - 52 - 1))).
    { rewrite v_ddiv by (rewrite vD_const by lia; intros X; injection X as X; lra). rewrite Q2, vD_const by lia.
      rewrite xdiv_fin by lra. replace (bpow radix2 (2 * id' - 52) / 2) with (bpow radix2 (2 * id' - 52 - 1)).
      2:{ unfold Zminus. rewrite (bpow_plus radix2 _ (- (1))). reflexivity. }
      apply rndx_fin; [apply (fmt_bpow 53 1024 eq_refl); lia|]. rewrite Rabs_pos_eq by apply bpow_ge_0. apply bpow_lt. lia. }
    pose proof (quantize_ge _ _ _ _ (id' - 1) ltac:(lia) Hq Hh) as K2. lapply K2; [lia|].
    split; [apply bpow_le; lia|].
    apply Rle_trans with (bpow radix2 (2 * id' - 52)); [apply bpow_le; lia|].
    apply Rle_trans with (bpow radix2 500 * bpow radix2 1).
    + eapply Rle_trans; [exact Q3|]. apply Rmult_le_compat; auto; try lra.
      * eapply Rle_trans; [apply bpow_ge_0|exact H1].
      * pose proof (bpow_gt_0 radix2 (-40)). lra.
      * change (bpow radix2 1) with 2. assert (bpow radix2 (-40) <= bpow radix2 0) by (apply bpow_le; lia). change (bpow radix2 0) with 1 in *. lra.
    + rewrite <- bpow_plus. apply bpow_le. lia.
Qed.
End IEEE.

(** ** Bytes *)
Theorem relax_round_trip A (HS : ser_ok A) max_eb ord ub r1 r2 U V junk buf size :
  (0 <= r1)%Z -> (0 < r2)%Z -> Z.of_nat (length U) = (r1 * r2)%Z -> Z.of_nat (length V) = (r1 * r2)%Z -> (Z.of_nat (length junk) < 2 ^ 64)%Z ->
  compress_relax A max_eb ord ub r1 r2 U V junk = Some (buf, size) ->
  exists U' V' c, enc_relax A max_eb r1 r2 U V = Some (U', V', c) /\
    (id_ok A c -> code_words_64 ord c -> decompress_online A r1 r2 (firstn size buf) = Some (U', V')).
Proof.
  intros H1 H2 LU LV LJ H. apply compress_inv in H. destruct H as (U' & V' & c & E & W). exists U', V', c. split; auto.
  intros HI HK. unfold write_stream in W. destruct (_ =? _)%Z in W; [|discriminate].
  destruct (relax_field_sync A _ _ _ _ _ _ _ _ H1 H2 LU LV E HI) as (Le & Lq & _ & _ & dU & dV & ED & WU & WV).
  exact (pieces_decode A ord ub r1 r2 U' V' c dU dV junk buf size HS Le Lq ED WU WV HK LJ W).
Qed.

Theorem relax_decode_exact max_eb r1 r2 u v U' V' c : 16 * / 4503599627370496 <= max_eb ->
  (0 <= r1)%Z -> (0 < r2)%Z -> Z.of_nat (length u) = (r1 * r2)%Z -> Z.of_nat (length v) = (r1 * r2)%Z ->
  enc_relax XA (Fin max_eb) r1 r2 u v = Some (U', V', c) -> Preserve2D.decode r1 r2 c = Some (U', V').
Proof.
  intros HM H1 H2 LU LV H. pose proof (relax_ids_exact _ _ _ _ _ _ _ _ HM H1 H2 H) as HI.
  destruct (relax_field_sync XA _ _ _ _ _ _ _ _ H1 H2 LU LV H HI) as (_ & _ & _ & _ & dU & dV & ED & WU & WV).
  unfold Preserve2D.decode. rewrite ED. cbn [bind]. rewrite WU. cbn [bind]. rewrite WV. reflexivity.
Qed.
