(** Sizes: the symbols the 2D online encoders emit always fit their alphabets, hence compression succeeds whenever
    the stream and the 8 spare bytes of the bit writer fit in the block; fields stored verbatim never fit.
    Nothing of /repo is modelled here. *)
From Coq Require Import Reals Lra Lia ZArith List Bool.
From Coq Require Import ZifyBool ZifyNat.
From Flocq Require Import Core.Core IEEE754.BinarySingleNaN IEEE754.Binary IEEE754.Bits.
From Verif Require Import Base Huffman HuffStream HuffProps Stream Arith Mesh2D Derive2D Codec2D Sync2D Trace2D Stream2D Exact IEEE IEEELaws IEEEQuant
  IEEE2D.
Import ListNotations.
Local Open Scope R_scope.
Local Instance p53' : Prec_gt_0 53 := eq_refl.

Section B.
Context (A : Arith) (I : ieee A) (L : libm_ok A I).
Local Notation vT := (vT A I). Local Notation vD := (vD A I).
Local Notation pT := (pT A I). Local Notation eT := (eT A I).

Lemma quantise_index pred cur eb q x : quantise A pred cur eb = Some (Coded A q x) -> xlt (Fin 0) (vD eb) = true ->
  (1 <= q <= 65535)%Z.
Proof.
  intros H Hpos. destruct (quantise_finite A I _ _ _ _ _ H Hpos) as (p & c & Ep & Ec).
  unfold quantise in H. set (diff := t2d A (tsub A cur pred)) in *.
  set (qd := dadd A (ddiv A (dabs A diff) eb) (dofZ A 1)) in *.
  destruct (dlt A qd (dofZ A capacity)) eqn:E; [|discriminate].
  rewrite (v_dlt A I), (vD_const A I capacity) in E by (unfold capacity; lia).
  assert (Nz : vD eb <> Fin 0) by (intros X; rewrite X in Hpos; apply xlt_fin in Hpos; lra).
  assert (N : vD (dabs A diff) <> NInf /\ vD (dabs A diff) <> NaN /\ forall x, vD (dabs A diff) = Fin x -> 0 <= x).
  { rewrite v_dabs. assert (vD diff <> NaN).
    { unfold diff. rewrite v_t2d, v_tsub, Ep, Ec. apply rndx_notnan. discriminate. }
    destruct (vD diff); cbn [xabs]; repeat split; try discriminate; try congruence. intros y X. inversion X. apply Rabs_pos. }
  destruct N as (N1 & N2 & N3).
  assert (D0 : forall a, vD (ddiv A (dabs A diff) eb) = Fin a -> 0 <= a).
  { intros a Ea. rewrite v_ddiv in Ea by auto. apply rndx_fin_inv in Ea. destruct Ea as (y & Ey & -> & _).
    rewrite <- (rnd_0 53 1024). apply (rnd_le 53 1024 eq_refl).
    destruct (vD (dabs A diff)) as [d| | |]; try congruence.
    - destruct (vD eb) as [b| | |]; try discriminate.
      + apply xlt_fin in Hpos. rewrite xdiv_fin in Ey by lra. injection Ey as <-. specialize (N3 d eq_refl).
        apply Rmult_le_pos; auto. left. apply Rinv_0_lt_compat. auto.
      + Local Transparent xdiv. cbn [xdiv] in Ey. injection Ey as <-. lra.
    - destruct (vD eb); cbn [xdiv] in Ey; try discriminate. destruct (Rlt_bool _ _); discriminate. }
  assert (Q : exists s, vD qd = Fin s /\ 1 <= s < 65536).
  { destruct (vD qd) as [s| | |] eqn:Es; try discriminate.
    - exists s. apply xlt_fin in E. split; auto. split; [|exact E].
      unfold qd in Es. rewrite v_dadd, (vD_const A I 1) in Es by lia. apply rndx_fin_inv in Es. destruct Es as (y & Ey & -> & _).
      destruct (vD (ddiv A (dabs A diff) eb)) as [a| | |]; try discriminate. injection Ey as <-. specialize (D0 a eq_refl).
      rewrite <- (rnd_id 53 1024 1) at 1 by (apply (fmt_bpow 53 1024 eq_refl 0); lia). apply (rnd_le 53 1024 eq_refl).
      cbn. lra.
    - exfalso. unfold qd in Es. rewrite v_dadd, (vD_const A I 1) in Es by lia.
      destruct (vD (ddiv A (dabs A diff) eb)) as [a| | |] eqn:Ea; cbn [xadd] in Es; try discriminate.
      + specialize (D0 a eq_refl). cbn [rndx] in Es.
        destruct (sat_cases 1024 (round radix2 fexp64 ZnearestE (a + IZR 1))) as [[X _]|[[X _]|[X Y]]]; rewrite X in Es; try discriminate.
        pose proof (bpow_gt_0 radix2 1024). pose proof (rnd_le 53 1024 eq_refl 0 (a + IZR 1) ltac:(cbn; lra)) as R0.
        rewrite (rnd_0 53 1024) in R0. lra.
      + rewrite v_ddiv in Ea by auto. destruct (vD (dabs A diff)) as [d| | |]; try congruence.
        * destruct (vD eb) as [b| | |]; try discriminate; cbn [rndx] in Ea.
          -- apply xlt_fin in Hpos. rewrite xdiv_fin in Ea by lra. cbn [rndx] in Ea.
             destruct (sat_cases 1024 (round radix2 fexp64 ZnearestE (d / b))) as [[X _]|[[X _]|[X Y]]]; rewrite X in Ea; try discriminate.
             pose proof (bpow_gt_0 radix2 1024). assert (Hdb : 0 <= d / b) by (apply Rmult_le_pos; [apply N3; auto|left; apply Rinv_0_lt_compat; auto]).
             pose proof (rnd_le 53 1024 eq_refl 0 (d / b) Hdb) as R0. rewrite (rnd_0 53 1024) in R0. lra.
          -- cbn [xdiv rndx] in Ea. rewrite (rnd_0 53 1024), sat_small in Ea; [discriminate|]. rewrite Rabs_R0. apply bpow_gt_0.
        * destruct (vD eb) as [b| | |]; try discriminate; cbn [xdiv] in Ea.
          apply xlt_fin in Hpos. rewrite Rlt_bool_false in Ea by lra. discriminate. }
  destruct Q as (s & Es & Hs).
  bind_as H h Eh. set (y := if dlt A (dofZ A 0) diff then qd else dneg A qd) in *.
  assert (Ey : exists t, vD y = Fin t /\ 1 <= Rabs t < 65536).
  { unfold y. destruct (dlt A (dofZ A 0) diff); [exists s|exists (- s); rewrite v_dneg, Es]; (split; [auto|]);
      rewrite ?Rabs_Ropp, Rabs_pos_eq; lra. }
  destruct Ey as (t & Et & Ht).
  assert (Eh2 : vD (ddiv A y (dofZ A 2)) = Fin (t / 2)).
  { rewrite v_ddiv by (rewrite (vD_const A I 2) by lia; intros X; inversion X; lra).
    rewrite Et, (vD_const A I 2), xdiv_fin by (lia || lra). apply rndx_fin.
    - apply fmt64_half; [lra|]. apply (vD_fmt A I _ _ Et).
    - unfold Rdiv. rewrite Rabs_mult, (Rabs_pos_eq (/ IZR 2)) by lra. apply Rlt_trans with (IZR (2 ^ 53)); [change (IZR (2 ^ 53)) with 9007199254740992; lra|apply bpow_1024_53]. }
  rewrite (v_dtoint A I), Eh2 in Eh. cbn [xtoint] in Eh.
  assert (Hz : (Z.abs (Ztrunc (t / 2)) <= 32767)%Z).
  { rewrite <- Ztrunc_abs. assert (0 <= Rabs (t / 2) < 32768).
    { split; [apply Rabs_pos|]. unfold Rdiv. rewrite Rabs_mult, (Rabs_pos_eq (/ 2)) by lra. lra. }
    rewrite Ztrunc_floor by lra. assert (Zfloor (Rabs (t / 2)) < 32768)%Z; [|lia]. apply lt_IZR.
    apply Rle_lt_trans with (Rabs (t / 2)); [apply Zfloor_lb|lra]. }
  destruct (_ && _)%bool eqn:Er; [|exfalso; lia]. apply Some_inj in Eh. subst h.
  destruct (dle A _ _); [discriminate|]. apply Some_inj in H. injection H as Hq Hx. unfold intv_radius in *. lia.
Qed.

Lemma quantize_id eb0 id ab : eb_exponential_quantize A 4 (eps_double A) eb0 = Some (id, ab) -> (id <= 1023)%Z.
Proof.
  unfold eb_exponential_quantize. destruct (dle A eb0 (eps_double A)) eqn:El.
  { intros H. apply Some_inj in H. inversion H. lia. }
  intros H. bind_as H z Ez. apply Some_inj in H. injection H as Hzi _. subst z.
  destruct (Z_le_gt_dec id 1023) as [|G]; auto. exfalso.
  assert (Ex : xtoint (vD (ddiv A (dlog2 A (ddiv A eb0 (eps_double A))) (dlog2 A (dofZ A 4)))) = Some id) by (apply toint_pos; auto; lia).
  clear Ez. destruct (xtoint_fin _ _ Ex) as [f Ef]. destruct (div_notfin A I _ _ _ Ef) as [l El2].
  assert (Elb : vD (dlog2 A (dofZ A 4)) = Fin 2).
  { apply (lo_log2_exact A I L _ 2). rewrite (vD_const A I) by lia. reflexivity. }
  assert (Hl : l <= 1025).
  { destruct (vD (ddiv A eb0 (eps_double A))) as [r| | |] eqn:Er.
    - destruct (Rlt_le_dec 0 r) as [Hr|Hr].
      + destruct (lo_log2 A I L _ _ Er Hr) as (l' & E' & Hl'). assert (l = l') by congruence. subst l'.
        destruct (vD_fmt A I _ _ Er) as [_ Br]. rewrite Rabs_pos_eq in Br by lra.
        assert (ln r / ln 2 <= 1024).
        { pose proof ln2_pos. apply Rmult_le_reg_r with (ln 2); auto. unfold Rdiv. rewrite Rmult_assoc, Rinv_l, Rmult_1_r by lra.
          assert (HL2 : ln (bpow radix2 1024) = 1024 * ln 2).
          { replace (bpow radix2 1024) with (Rpower 2 (IZR 1024)) by (rewrite <- powerRZ_Rpower by lra; symmetry; apply bpow_powerRZ).
            unfold Rpower. apply ln_exp. }
          rewrite <- HL2. left. apply ln_increasing; auto. }
        apply Rabs_le_inv in Hl'. assert (bpow radix2 (-40) <= 1) by (change 1 with (bpow radix2 0); apply bpow_le; lia). lra.
      + exfalso. rewrite (v_dle A I), (v_eps A I) in El. rewrite v_ddiv in Er by (rewrite (v_eps A I); intros X; inversion X; pose proof (bpow_gt_0 radix2 (-52)); lra).
        pose proof (bpow_gt_0 radix2 (-52)) as P52. rewrite (v_eps A I) in Er. destruct (vD eb0) as [e| | |] eqn:Ee; try discriminate.
        * apply xle_fin_false in El. rewrite xdiv_fin in Er by lra. apply rndx_fin_inv in Er. destruct Er as (y & Ey & -> & _).
          injection Ey as <-.           assert (H1e : 1 <= e / bpow radix2 (-52)).
          { apply Rmult_le_reg_r with (bpow radix2 (-52)); auto. unfold Rdiv. rewrite Rmult_assoc, Rinv_l by lra. lra. }
          pose proof (rnd_le 53 1024 eq_refl 1 _ H1e) as R1. rewrite (rnd_id 53 1024 1) in R1 by (apply (fmt_bpow 53 1024 eq_refl 0); lia). change (/ IZR (Z.pow_pos 2 52)) with (bpow radix2 (-52)) in Hr. lra.
        * cbn [xdiv] in Er. rewrite Rlt_bool_false in Er by lra. discriminate.
    - rewrite (lo_log2_inf A I L) in El2 by auto. discriminate.
    - exfalso. rewrite v_ddiv in Er by (rewrite (v_eps A I); intros X; inversion X; pose proof (bpow_gt_0 radix2 (-52)); lra).
      pose proof (bpow_gt_0 radix2 (-52)) as P52. rewrite (v_dle A I), (v_eps A I) in El. rewrite (v_eps A I) in Er.
      destruct (vD eb0) as [e| | |] eqn:Ee; try discriminate.
      + apply xle_fin_false in El. rewrite xdiv_fin in Er by lra. cbn [rndx] in Er.
        destruct (sat_cases 1024 (round radix2 fexp64 ZnearestE (e / bpow radix2 (-52)))) as [[X _]|[[X _]|[X Y]]]; rewrite X in Er; try discriminate.
        assert (H0e : 0 <= e / bpow radix2 (-52)) by (apply Rmult_le_pos; [lra|left; apply Rinv_0_lt_compat; auto]).
        pose proof (rnd_le 53 1024 eq_refl 0 _ H0e) as R1. rewrite (rnd_0 53 1024) in R1. pose proof (bpow_gt_0 radix2 1024). lra.
      + cbn [xdiv] in Er. rewrite Rlt_bool_false in Er by lra. discriminate.
    - rewrite (lo_log2_nan A I L) in El2 by auto. discriminate. }
  rewrite v_ddiv in Ef by (rewrite Elb; intros X; inversion X; lra). rewrite El2, Elb, xdiv_fin in Ef by lra.
  assert (Ex' : Ztrunc f = id).
  { rewrite v_ddiv in Ex by (rewrite Elb; intros X; inversion X; lra). rewrite El2, Elb, xdiv_fin, Ef in Ex by lra.
    cbn [xtoint] in Ex. destruct (_ && _)%bool; [|discriminate]. apply Some_inj in Ex. auto. }
  apply rndx_fin_inv in Ef. destruct Ef as (y & Ey & -> & _). injection Ey as <-.
  pose proof (rnd_le 53 1024 eq_refl (l / 2) 1023 ltac:(lra)) as R1.
  rewrite (rnd_id 53 1024 1023) in R1 by (apply (fmt_IZR 53 1024 eq_refl 1023); lia).
  assert (HT : (Ztrunc (round radix2 fexp64 ZnearestE (l / 2)) <= Ztrunc 1023)%Z) by (apply Ztrunc_le; auto).
  rewrite (Ztrunc_IZR 1023) in HT. lia.
Qed.

(** Every emitted symbol is in the declared alphabet. *)
Lemma outcome_alphabet req abs_eb r1 r2 U V i j U' V' c : outcome A req abs_eb r1 r2 U V i j U' V' c ->
  alphabet_ok 2048 (c_eb c) /\ alphabet_ok 131072 (c_q c).
Proof.
  intros H. inversion H as [u v|u v eb id0 id1 q0 q1 x0 x1 U1 V1 Eu Ev Er Hp C0 C1]; subst; cbn [c_eb c_q verbatim].
  - split; intros z [<-|[<-|[]]]; unfold intv_radius; lia.
  - assert (K : forall w cur e id q x, coded A w r2 i j cur e id q x -> (0 <= id < 2048 /\ 0 <= q < 131072)%Z).
    { intros w cur e id q x (ab & pr & E1 & Hid & _ & E2).
      pose proof (quantize_id _ _ _ E1). split; [lia|].
      assert (Hab : xlt (Fin 0) (vD ab) = true).
      { unfold eb_exponential_quantize in E1. destruct (dle A e (eps_double A)).
        - apply Some_inj in E1. injection E1 as Hz1 Hz2. lia.
        - bind_as E1 z Ez. apply Some_inj in E1. injection E1 as Hz1 Hz2. subst z ab. rewrite v_dmul, (v_eps A I).
          pose proof (lo_pow_ge A I L 2 id ltac:(lia) ltac:(lia)) as Hge. change (2 ^ 2)%Z with 4%Z in Hge.
          pose proof (bpow_gt_0 radix2 (-52)) as P52. destruct (vD (dpow A 4 id)) as [p| | |]; try discriminate.
          + apply xle_fin in Hge. cbn [xmul rndx]. set (y := p * bpow radix2 (-52)).
            assert (Hy : bpow radix2 (-52) <= y) by (unfold y; nra).
            pose proof (rnd_le 53 1024 eq_refl _ _ Hy) as R1. rewrite (rnd_id 53 1024 (bpow radix2 (-52))) in R1 by (apply (fmt_bpow 53 1024 eq_refl); lia).
            destruct (sat_cases 1024 (round radix2 fexp64 ZnearestE y)) as [[X _]|[[X _]|[X Y]]]; rewrite X.
            * apply xlt_fin. lra.
            * reflexivity.
            * pose proof (bpow_gt_0 radix2 1024). lra.
          + cbn [xmul]. unfold xinf. rewrite Rlt_bool_true by auto. reflexivity. }
      pose proof (quantise_index _ _ _ _ _ E2 Hab). lia. }
    split; intros z [<-|[<-|[]]]; [apply (K _ _ _ _ _ _ C0)|apply (K _ _ _ _ _ _ C1)|apply (K _ _ _ _ _ _ C0)|apply (K _ _ _ _ _ _ C1)].
Qed.

Lemma alphabet_app n a b : alphabet_ok n a -> alphabet_ok n b -> alphabet_ok n (a ++ b).
Proof. intros H1 H2 c Hc. apply in_app_or in Hc. destruct Hc; auto. Qed.

Lemma field_alphabet req abs_eb r1 r2 U V U' V' c :
  enc_field A req abs_eb r1 r2 U V = Some (U', V', c) -> alphabet_ok 2048 (c_eb c) /\ alphabet_ok 131072 (c_q c).
Proof.
  unfold enc_field. generalize (scan2 r1 r2) as pts. intros pts. revert U V U' V' c.
  induction pts as [|[i j] pts IH]; intros U V U' V' c H; cbn [enc_loop] in H.
  - apply Some_inj in H. injection H as _ _ Hc. subst c. split; intros z [].
  - bind_as H [[U1 V1] c1] E1. bind_as H [[U2 V2] c2] E2. apply Some_inj in H. injection H as _ _ Hc. subst c.
    apply enc_point_outcome in E1. apply outcome_alphabet in E1. apply IH in E2. cbn [code_app c_eb c_q].
    split; apply alphabet_app; tauto.
Qed.

(** With the arrays encoded and room for the stream plus 8 bytes, the stream is written. *)
Theorem fits req abs_eb ord ub r1 r2 U V U' V' c junk n1 n2 :
  (0 < r1)%Z -> (0 < r2)%Z -> Z.of_nat (length U) = (r1 * r2)%Z -> Z.of_nat (length V) = (r1 * r2)%Z ->
  enc_field A req abs_eb r1 r2 U V = Some (U', V', c) -> code_words_64 ord c ->
  ser_ok A -> Z.of_nat (length junk) = (2 * (r1 * r2) * Z.of_nat (tsize_of A))%Z -> (Z.of_nat (length junk) < 2 ^ 64)%Z ->
  piece_size_ok ord ub (Huff 2048 (c_eb c)) n1 -> piece_size_ok ord ub (Huff 131072 (c_q c)) n2 ->
  (24 + Z.of_nat (length (c_unp c) * tsize_of A) + n1 + n2 + 8 <= Z.of_nat (length junk))%Z ->
  exists buf, write_stream A ord ub (r1 * r2) c junk
    = Some (buf, Z.to_nat (24 + Z.of_nat (length (c_unp c) * tsize_of A) + n1 + n2)).
Proof.
  intros H1 H2 LU LV H [K1 K2] HS LJ LJ2 P1 P2 Hcap. unfold write_stream. rewrite LJ, Z.eqb_refl.
  destruct (field_alphabet _ _ _ _ _ _ _ _ _ H) as [A1 A2].
  destruct (field_sync A _ _ _ _ _ _ _ _ _ (Z.lt_le_incl _ _ H1) H2 LU LV H) as (Le & Lq & _).
  assert (Hn : (0 < Z.to_nat (r1 * r2))%nat) by nia.
  destruct (write_pieces_total ord ub (stream_pieces A c) [4; 8; 4; 8; Z.of_nat (length (c_unp c) * tsize_of A); n1; n2]%Z junk 0) as [buf Hb].
  - unfold stream_pieces. repeat (apply Forall_cons || apply Forall_nil); cbn [piece_good]; auto.
    + split; [lia|]. split; [|auto]. intros X. rewrite X in Le. cbn [length] in Le. lia.
    + unfold capacity. split; [lia|]. split; [|auto]. intros X. rewrite X in Lq. cbn [length] in Lq. lia.
  - unfold stream_pieces. repeat apply Forall2_cons; try apply Forall2_nil; auto; cbn [piece_size_ok].
    + rewrite le_bytes_length. auto.
    + rewrite (dser_length _ HS). auto.
    + rewrite le_bytes_length. auto.
    + rewrite le_bytes_length. auto.
    + rewrite tser_array_length by auto. lia.
  - auto.
  - cbn [fold_right]. lia.
  - exists buf. rewrite Hb. cbn [fold_right]. f_equal. f_equal. lia.
Qed.
End B.

(** A written stream is longer than the verbatim values. *)
Lemma stream_holds_verbatim (A : Arith) ord ub n c junk buf size : ser_ok A ->
  write_stream A ord ub n c junk = Some (buf, size) ->
  (Z.of_nat (length (c_unp c) * tsize_of A) + 24 <= 2 * n * Z.of_nat (tsize_of A))%Z.
Proof.
  intros HS H. unfold write_stream in H. destruct (_ =? _)%Z eqn:EJ; [|discriminate].
  unfold stream_pieces in H. cbn [write_pieces] in H.
  bind_as H b1 E1. bind_as H b2 E2. bind_as H b3 E3. bind_as H b4 E4. bind_as H b5 E5.
  pose proof (store_length_eq _ _ _ _ E1). pose proof (store_length_eq _ _ _ _ E2). pose proof (store_length_eq _ _ _ _ E3).
  pose proof (store_length_eq _ _ _ _ E4).
  assert (B4 : (0 + 4 + 8 + 4 + 8 <= length junk)%nat).
  { pose proof (store_bound _ _ _ _ E4). rewrite le_bytes_length, (dser_length _ HS), !le_bytes_length in *.
    assert (le_bytes 8 (Z.of_nat (length (c_unp c))) <> []) by (cbn [le_bytes]; discriminate). specialize (H4 H5). lia. }
  destruct (c_unp c) as [|x l] eqn:Ec.
  - cbn [length]. lia.
  - rewrite <- Ec in *. pose proof (store_bound _ _ _ _ E5) as B5.
    rewrite !le_bytes_length, (dser_length _ HS), !tser_array_length in B5 by auto.
    assert (tser_array A (c_unp c) <> []).
    { intros X. apply (f_equal (@length Z)) in X. rewrite tser_array_length in X by auto. rewrite Ec in X. cbn [length] in X.
      pose proof (tsize_pos _ HS). lia. }
    specialize (B5 H4). lia.
Qed.

(** Fields without a predictable point: every point is stored verbatim and the stream does not fit. *)
Section Overflow.
Context (A : Arith) (I : ieee A).
Local Notation vT := (vT A I). Local Notation vD := (vD A I).

Lemma all_verbatim req abs_eb r1 r2 U V : 
  (forall i j U' V' c, outcome A req abs_eb r1 r2 U V i j U' V' c -> exists u v, c = verbatim A u v /\ U' = U /\ V' = V) ->
  forall U' V' c, (0 <= r1)%Z -> (0 < r2)%Z -> enc_field A req abs_eb r1 r2 U V = Some (U', V', c) ->
  U' = U /\ V' = V /\ length (c_unp c) = (2 * Z.to_nat (r1 * r2))%nat.
Proof.
  intros HO U' V' c H1 H2 H. unfold enc_field in H. rewrite scan2_map in H by auto.
  assert (LP : length (map (fun p => (p / r2, p mod r2)%Z) (zrange 0 (r1 * r2))) = Z.to_nat (r1 * r2)).
  { rewrite map_length. unfold zrange. rewrite zseq_length. f_equal. lia. }
  rewrite <- LP. revert U' V' c H. generalize (map (fun p => (p / r2, p mod r2)%Z) (zrange 0 (r1 * r2))) as pts.
  induction pts as [|[i j] pts IH]; intros U' V' c H; cbn [enc_loop] in H.
  - apply Some_inj in H. injection H as E1 E2 E3. subst. auto.
  - bind_as H [[U1 V1] c1] E1. apply enc_point_outcome in E1. destruct (HO _ _ _ _ _ E1) as (u & v & -> & -> & ->).
    bind_as H [[U2 V2] c2] E2. apply Some_inj in H. injection H as X1 X2 X3. subst.
    destruct (IH _ _ _ E2) as (-> & -> & Hl). cbn [code_app c_unp verbatim app length]. repeat split; auto. lia.
Qed.

(** Every point has a zero component. *)
Definition zero_component (U V : list (T A)) : Prop :=
  forall p u v, aget U p = Some u -> aget V p = Some v -> vT u = Fin 0 \/ vT v = Fin 0.

Lemma abs_zero_component max_eb r1 r2 U V i j U' V' c : zero_component U V ->
  outcome A (required_eb_abs A max_eb) (fun _ eb => eb) r1 r2 U V i j U' V' c ->
  exists u v, c = verbatim A u v /\ U' = U /\ V' = V.
Proof.
  intros HZ H. inversion H as [u v|u v eb id0 id1 q0 q1 x0 x1 U1 V1 Eu Ev Er Hp C0 C1]; subst; eauto. exfalso.
  unfold required_eb_abs in Er. rewrite Eu, Ev in Er. cbn [bind] in Er.
  assert (E : teq A u (t0 A) || teq A v (t0 A) = true).
  { rewrite !(v_teq A I), (vT_0 A I). destruct (HZ _ _ _ Eu Ev) as [-> | ->].
    - replace (xeq (Fin 0) (Fin 0)) with true by (symmetry; apply xeq_fin; auto). reflexivity.
    - replace (xeq (Fin 0) (Fin 0)) with true by (symmetry; apply xeq_fin; auto). apply orb_true_r. }
  rewrite E in Er. apply Some_inj in Er. subst eb. rewrite (v_dlt A I), !(vD_0 A I) in Hp. apply xlt_fin in Hp. lra.
Qed.

Lemma quantize_no_id (L : libm_ok A I) e id ab : vD e = Fin 0 \/ vD e = NaN ->
  eb_exponential_quantize A 4 (eps_double A) e = Some (id, ab) -> (id <= 0)%Z.
Proof.
  intros He H. unfold eb_exponential_quantize in H. rewrite (v_dle A I), (v_eps A I) in H. pose proof (bpow_gt_0 radix2 (-52)) as P.
  destruct He as [He|He]; rewrite He in H.
  - replace (xle (Fin 0) (Fin (bpow radix2 (-52)))) with true in H by (symmetry; apply xle_fin; lra).
    apply Some_inj in H. injection H as <- _. lia.
  - cbn [xle] in H. bind_as H z Ez. apply Some_inj in H. injection H as Hz _. subst z.
    destruct (Z_le_gt_dec id 0) as [|G]; auto. exfalso. apply (toint_pos A I) in Ez; [|lia].
    destruct (xtoint_fin _ _ Ez) as [f Ef]. destruct (div_notfin A I _ _ _ Ef) as [l El].
    rewrite (lo_log2_nan A I L) in El; [discriminate|]. rewrite v_ddiv by (rewrite (v_eps A I); intros X; injection X; lra).
    rewrite He. reflexivity.
Qed.

Lemma rel_zero_component (L : libm_ok A I) max_eb r1 r2 U V i j U' V' c : zero_component U V ->
  outcome A (required_eb_rel A max_eb) (fun cur eb => dmul A (t2d A (tabs A cur)) eb) r1 r2 U V i j U' V' c ->
  exists u v, c = verbatim A u v /\ U' = U /\ V' = V.
Proof.
  intros HZ H. inversion H as [u v|u v eb id0 id1 q0 q1 x0 x1 U1 V1 Eu Ev Er Hp C0 C1]; subst; eauto. exfalso.
  assert (K : forall w x id q y, vT x = Fin 0 -> coded A w r2 i j x (dmul A (t2d A (tabs A x)) eb) id q y -> False).
  { intros w x id q y Ex (ab & pr & E1 & Hid & _). apply (quantize_no_id L) in E1; [lia|].
    rewrite v_dmul, v_t2d, v_tabs, Ex. cbn [xabs]. rewrite Rabs_R0. destruct (vD eb) as [e| | |]; cbn [xmul].
    - left. replace (0 * e) with 0 by ring. apply rndx_fin; [apply generic_format_0|]. rewrite Rabs_R0. apply bpow_gt_0.
    - right. unfold xinf. rewrite !Rlt_bool_false by lra. reflexivity.
    - right. unfold xinf. rewrite !Rlt_bool_false by lra. reflexivity.
    - right. reflexivity. }
  destruct (HZ _ _ _ Eu Ev); eapply K; eauto.
Qed.

Theorem abs_overflow max_eb ord ub r1 r2 U V junk : ser_ok A -> (0 <= r1)%Z -> (0 < r2)%Z ->
  zero_component U V -> compress_online_abs A max_eb ord ub r1 r2 U V junk = None.
Proof.
  intros HS H1 H2 HZ. unfold compress_online_abs, compress_with.
  destruct (enc_online_abs A max_eb r1 r2 U V) as [[[U' V'] c]|] eqn:E; [|reflexivity]. cbn [bind].
  destruct (write_stream A ord ub (r1 * r2) c junk) as [[buf size]|] eqn:W; [|reflexivity]. exfalso.
  apply stream_holds_verbatim in W; auto.
  destruct (all_verbatim _ _ _ _ _ _ (fun i j U' V' c => abs_zero_component max_eb r1 r2 U V i j U' V' c HZ) _ _ _ H1 H2 E) as (_ & _ & Hl).
  rewrite Hl in W. nia.
Qed.
Theorem rel_overflow (L : libm_ok A I) max_eb ord ub r1 r2 U V junk : ser_ok A -> (0 <= r1)%Z -> (0 < r2)%Z ->
  zero_component U V -> compress_online A max_eb ord ub r1 r2 U V junk = None.
Proof.
  intros HS H1 H2 HZ. unfold compress_online, compress_with.
  destruct (enc_online A max_eb r1 r2 U V) as [[[U' V'] c]|] eqn:E; [|reflexivity]. cbn [bind].
  destruct (write_stream A ord ub (r1 * r2) c junk) as [[buf size]|] eqn:W; [|reflexivity]. exfalso.
  apply stream_holds_verbatim in W; auto.
  destruct (all_verbatim _ _ _ _ _ _ (fun i j U' V' c => rel_zero_component L max_eb r1 r2 U V i j U' V' c HZ) _ _ _ H1 H2 E) as (_ & _ & Hl).
  rewrite Hl in W. nia.
Qed.
End Overflow.
