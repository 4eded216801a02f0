(** The block compressors never read or write out of bounds nor convert out of range, whatever blocks use regression. *)
From Coq Require Import Reals Lra Lia ZArith List Bool.
From Coq Require Import ZifyBool ZifyNat.
From Flocq Require Import Core.Core IEEE754.BinarySingleNaN IEEE754.Binary IEEE754.Bits.
From Verif Require Import Base Huffman HuffStream HuffProps BitPack Stream Arith Codec2D Sync2D Stream2D Exact IEEE IEEELaws IEEEQuant IEEE2D Api2D RelaxApi2D
  LinQuant Block BlockSync BlockTile BlockBytes BlockIEEE BlockApi.
Import ListNotations.
Local Open Scope Z_scope.

Section Total.
Context (A : Arith) (O : FOps A).
Notation T := (T A).
Notation D := (D A).
Context (g : cfg A) (prec : Z -> option D) (data : list T) (precs : list D) (L n k : nat).

Definition usable {X} (Q : qops A O X) (cap : Z) (p : D) : Prop :=
  forall pred cur rad, exists r, lin_quantize Q pred cur p cap rad = Some r.

(** What the quantiser needs of the bounds in use. *)
Hypothesis Hdata : forall i, 0 <= i < Z.of_nat n -> exists x, aget data i = Some x.
Hypothesis Hprec : forall i, 0 <= i < Z.of_nat n -> exists p, prec i = Some p /\
  (g_zero A g && deq A p (dofZ A 0) = true \/
   usable (qT A O) (g_capacity A g) p /\ usable (qT A O) (capacity_lorenzo A g) p).
Hypothesis Hprecs : Forall (usable (qF A O) 65536) precs.
Hypothesis Hk : length precs = k.
Hypothesis Hdim : (k = 3 \/ k = 4 \/ k = 0)%nat.

Definition plan_entry (e : option (list (F O))) : Prop :=
  match e with Some raw => length raw = k /\ (1 <= k)%nat | None => True end.

Definition site_fits (s : site) : Prop := site_ok A g L n s /\ ((1 <= k)%nat -> S (length (s_crd s)) = k).

Lemma regression_in coef crd : length coef = k -> (1 <= k)%nat -> S (length crd) = k -> exists l, regression_predict A O coef crd = Some l.
Proof using All.
  intros H1 H2 H3. clear Hk. destruct Hdim as [E|[E|E]]; [| |lia]; rewrite E in H1, H3.
  - destruct coef as [|a [|b [|c [|d coef]]]]; try discriminate H1. destruct crd as [|x [|y [|z crd]]]; try discriminate H3. cbn. eauto.
  - destruct coef as [|a [|b [|c [|d [|e coef]]]]]; try discriminate H1. destruct crd as [|x [|y [|z [|w crd]]]]; try discriminate H3. cbn. eauto.
Qed.

Lemma enc_site_total rg buf s : site_fits s -> length buf = L ->
  match rg with Some coef => length coef = k /\ (1 <= k)%nat | None => True end ->
  exists b q u, enc_site A O g prec data rg buf s = Some (b, q, u) /\ length b = L.
Proof using All.
  intros [(SL & SB & SA) SC] HL HR. unfold enc_site.
  destruct (Hdata _ SA) as [cur ->]. destruct (Hprec _ SA) as (p & -> & HP). cbn [bind].
  assert (SET : forall x, exists b, aset buf (s_buf s) x = Some b /\ length b = L).
  { intros x. destruct (aset_in A prec buf (s_buf s) x) as [b Hb]; [lia|]. exists b. split; [auto|]. rewrite (aset_len _ _ _ _ Hb). exact HL. }
  destruct (g_zero A g && deq A p (dofZ A 0)) eqn:EZ.
  - destruct (SET cur) as (b & -> & HB). cbn [bind]. eauto.
  - destruct HP as [HP|[P1 P2]]; [discriminate|]. destruct rg as [coef|].
    + destruct HR as [HR HR']. destruct (regression_in coef (s_crd s) HR HR' (SC HR')) as [l ->]. cbn [bind].
      destruct (P1 (t2f O l) cur (g_radius A g)) as [r ->]. cbn [bind]. destruct (quant_out cur r) as [[q x] u].
      destruct (g_wide A g); [|eauto 6]. destruct (SET x) as (b & -> & HB). cbn [bind]. eauto 6.
    + destruct (near_mean A g cur p) as [m|].
      * destruct (SET m) as (b & -> & HB). cbn [bind]. eauto 6.
      * destruct (SL buf HL) as [l ->]. cbn [bind]. destruct (P2 (t2f O l) cur (g_radius A g)) as [r ->]. cbn [bind].
        destruct (quant_out cur r) as [[q x] u]. destruct (SET x) as (b & -> & HB). cbn [bind]. eauto 6.
Qed.

Lemma enc_sites_total rg : match rg with Some coef => length coef = k /\ (1 <= k)%nat | None => True end ->
  forall ss buf, Forall site_fits ss -> length buf = L ->
  exists b qs us, enc_sites A O g prec data rg ss buf = Some (b, qs, us) /\ length b = L.
Proof using All.
  intros HR ss. induction ss as [|s ss IH]; intros buf HF HL; cbn [enc_sites]; [eauto 6|].
  apply Forall_cons_iff in HF. destruct HF as [HS HF].
  destruct (enc_site_total rg buf s HS HL HR) as (b & q & u & -> & HB). cbn [bind].
  destruct (IH b HF HB) as (b2 & qs & us & -> & HB2). cbn [bind]. eauto 6.
Qed.

Lemma enc_coefs_total : forall ps prev raw, Forall (usable (qF A O) 65536) ps -> length prev = length ps -> length raw = length ps ->
  exists xs qs us, enc_coefs A O ps prev raw = Some (xs, qs, us) /\ length xs = length ps.
Proof using All.
  induction ps as [|p ps IH]; intros prev raw HF H1 H2; destruct prev as [|a prev], raw as [|c raw]; try discriminate; cbn [enc_coefs].
  - do 3 eexists. split; reflexivity.
  - apply Forall_cons_iff in HF. destruct HF as [HP HF]. destruct (HP a c 32768) as [r ->]. cbn [bind].
    destruct (quant_out c r) as [[q x] u]. cbn [length] in H1, H2.
    destruct (IH prev raw HF) as (xs & qs & us & -> & HX); [lia|lia|]. cbn [bind]. do 3 eexists. split; [reflexivity|]. cbn [length]. lia.
Qed.

Definition act_fits (a : act) : Prop :=
  match a with
  | Block ss => Forall site_fits ss
  | Shift src len => 0 <= src /\ 0 <= len /\ src + len <= Z.of_nat L /\ len <= src
  end.

Lemma shift_total src len buf : act_fits (Shift src len) -> length buf = L -> exists b, shift_buf A src len buf = Some b /\ length b = L.
Proof using All.
  intros (H1 & H2 & H3 & H4) HL. unfold shift_buf.
  replace ((0 <=? src) && (0 <=? len) && (src + len <=? Z.of_nat (length buf)) && (len <=? src)) with true by lia.
  eexists. split; [reflexivity|]. rewrite app_length, firstn_length, !skipn_length. lia.
Qed.

Theorem enc_acts_total : forall acts plan buf prev, Forall act_fits acts -> Forall plan_entry plan ->
  (length (filter act_block acts) <= length plan)%nat -> length buf = L -> length prev = k ->
  exists c, enc_acts A O g prec precs data acts plan buf prev = Some c.
Proof using All.
  induction acts as [|a acts IH]; intros plan buf prev HF HP HN HL HV; cbn [enc_acts]; [eauto|].
  apply Forall_cons_iff in HF. destruct HF as [HA HF]. destruct a as [ss|src len].
  - cbn [filter act_block length] in HN. destruct plan as [|e plan]; [cbn in HN; lia|]. cbn [length] in HN.
    apply Forall_cons_iff in HP. destruct HP as [HE HP]. destruct e as [raw|].
    + destruct HE as [HE1 HE2]. destruct (enc_coefs_total precs prev raw) as (xs & qs & us & -> & HX); [auto|lia|lia|]. cbn [bind].
      destruct (enc_sites_total (Some xs) ltac:(split; lia) ss buf HA HL) as (b & q & u & -> & HB). cbn [bind].
      destruct (IH plan b xs HF HP) as [c ->]; [lia|auto|lia|]. cbn [bind]. eauto.
    + destruct (enc_sites_total None I ss buf HA HL) as (b & q & u & -> & HB). cbn [bind].
      destruct (IH plan b prev HF HP) as [c ->]; [lia|auto|auto|]. cbn [bind]. eauto.
  - destruct (shift_total src len buf HA HL) as (b & -> & HB). cbn [bind]. apply IH; auto.
Qed.
End Total.

Lemma acts_fits_of {A} (g : cfg A) L n k acts : (forall s, In s (flat_map act_sites acts) -> site_fits A g L n k s) ->
  (forall src len, In (Shift src len) acts -> act_fits A g L n k (Shift src len)) -> Forall (act_fits A g L n k) acts.
Proof.
  intros H HS. apply Forall_forall. intros a Ha. destruct a as [ss|src len]; [|apply HS; exact Ha].
  apply Forall_forall. intros s Hs. apply H. apply in_flat_map. exists (Block ss). auto.
Qed.

Lemma act_sites_in s ss acts : In (Block ss) acts -> In s ss -> In s (flat_map act_sites acts).
Proof. intros. apply in_flat_map. exists (Block ss). auto. Qed.

Section Fits.
Context (A : Arith).
Lemma acts2_fits r1 r2 bs cap rad zero mean k : 1 <= r1 -> 1 <= r2 -> 1 <= bs -> (k = 3 \/ k = 0)%nat ->
  Forall (act_fits A (cfg2 A r2 cap rad zero mean) (Z.to_nat ((bs + 1) * (r2 + 1))) (Z.to_nat (r1 * r2)) k) (acts2 r1 r2 bs).
Proof.
  intros H1 H2 H3 Hk. pose proof (acts2_ok A r1 r2 bs cap rad zero mean H1 H2 H3) as HO. rewrite Forall_forall in HO.
  apply acts_fits_of.
  - intros s Hs. apply in_flat_map in Hs. destruct Hs as (a & Ha & Hs). pose proof (HO a Ha) as HA.
    destruct a as [ss|]; [|destruct Hs]. cbn [act_ok] in HA. rewrite Forall_forall in HA. split; [apply HA; exact Hs|].
    intros Hk1. destruct (acts2_range r1 r2 bs H1 H2 H3 s) as (_ & _ & E); [apply (act_sites_in s ss); auto|]. lia.
  - intros src len HI. destruct (acts2_shifts r1 r2 bs H1 H2 H3 src len HI) as [-> ->]. cbn. nia.
Qed.

Lemma acts3_fits r1 r2 r3 bs indep cap rad mean : 1 <= r1 -> 1 <= r2 -> 1 <= r3 -> 1 <= bs ->
  Forall (act_fits A (cfg3 A indep r2 r3 bs cap rad mean) (length (buffer3 A indep r2 r3 bs)) (Z.to_nat (r1 * r2 * r3)) 4)
         (acts3 indep r1 r2 r3 bs).
Proof.
  intros H1 H2 H3 H4. pose proof (acts3_ok A r1 r2 r3 bs indep cap rad mean H1 H2 H3 H4) as HO. rewrite Forall_forall in HO.
  apply acts_fits_of.
  - intros s Hs. apply in_flat_map in Hs. destruct Hs as (a & Ha & Hs). pose proof (HO a Ha) as HA.
    destruct a as [ss|]; [|destruct Hs]. cbn [act_ok] in HA. rewrite Forall_forall in HA. split; [apply HA; exact Hs|].
    intros _. f_equal. pose proof (act_sites_in s ss _ Ha Hs) as HI. unfold acts3 in HI. destruct indep.
    + rewrite (acts3_indep_eq r1 r2 r3 bs H1 H2 H3 H4) in HI.
      pose proof (fun P => acts3_site r1 r2 r3 bs H1 H2 H3 H4 _ _ _ _ P s HI) as HS3. apply HS3. split; reflexivity.
    + rewrite (acts3_border_eq r1 r2 r3 bs H1 H2 H3 H4) in HI.
      pose proof (fun P => acts3_site r1 r2 r3 bs H1 H2 H3 H4 _ _ _ _ P s HI) as HS3. apply HS3. split; reflexivity.
  - intros src len HI. unfold acts3 in HI. destruct indep.
    + rewrite (acts3_indep_eq r1 r2 r3 bs H1 H2 H3 H4) in HI.
      pose proof (fun P => acts3_shifts r1 r2 r3 bs H1 H2 H3 H4 _ _ _ _ P _ HI eq_refl) as HS3. destruct HS3. split; reflexivity.
    + rewrite (acts3_border_eq r1 r2 r3 bs H1 H2 H3 H4) in HI.
      pose proof (fun P => acts3_shifts r1 r2 r3 bs H1 H2 H3 H4 _ _ _ _ P _ HI eq_refl) as HS3.
      destruct HS3 as [E|[]]; [split; reflexivity|]. injection E as <- <-. unfold buffer3. rewrite repeat_length. cbn.
      assert (1 <= (r2 + 1) * (r3 + 1)) by nia. nia.
Qed.
End Fits.

(** ** Bounds of the regression coefficients *)
Local Instance p53' : Prec_gt_0 53 := eq_refl.
Local Instance p24' : Prec_gt_0 24 := eq_refl.
Local Instance e1024' : Prec_lt_emax 53 1024 := eq_refl.
Local Instance e128' : Prec_lt_emax 24 128 := eq_refl.

Section Pos.
Local Open Scope R_scope.
(** At least 2^k: finite or plus infinity. *)
Definition xge (k : Z) (x : XR) : Prop := xle (Fin (bpow radix2 k)) x = true.

Lemma xge_cases k x : xge k x -> (exists r, x = Fin r /\ bpow radix2 k <= r) \/ x = PInf.
Proof. unfold xge. destruct x; cbn; intros H; try discriminate; auto. left. exists r. split; auto. destruct (Rle_bool_spec (bpow radix2 k) r); auto. discriminate. Qed.
Lemma xge_fin k r : bpow radix2 k <= r -> xge k (Fin r).
Proof. intros. apply xle_fin. auto. Qed.
Lemma xge_weaken k k' x : (k' <= k)%Z -> xge k x -> xge k' x.
Proof.
  intros H1 H. destruct (xge_cases _ _ H) as [(r & -> & Hr)| ->]; [|reflexivity]. apply xge_fin.
  eapply Rle_trans; [apply bpow_le; exact H1|exact Hr].
Qed.
Lemma xge_lt k x : xge k x -> xlt (Fin 0) x = true.
Proof.
  intros H. destruct (xge_cases _ _ H) as [(r & -> & Hr)| ->]; [|reflexivity]. apply xlt_fin. pose proof (bpow_gt_0 radix2 k). lra.
Qed.

Lemma xge_rnd prec emax (Hp : Prec_gt_0 prec) k x : (3 - emax - prec <= k)%Z -> xge k x -> xge k (rndx prec emax x).
Proof.
  intros Hk H. destruct (xge_cases _ _ H) as [(r & -> & Hr)| ->]; [|reflexivity]. cbn [rndx].
  assert (G := fmt_bpow prec emax Hp k Hk). pose proof (bpow_gt_0 radix2 k) as P.
  assert (B : bpow radix2 k <= round radix2 (SpecFloat.fexp prec emax) ZnearestE r).
  { rewrite <- (rnd_id prec emax (bpow radix2 k) G). apply rnd_le; auto. }
  destruct (sat_cases emax (round radix2 (SpecFloat.fexp prec emax) ZnearestE r)) as [[-> _]|[[-> _]|[_ K]]]; [apply xge_fin; auto|reflexivity|].
  pose proof (bpow_gt_0 radix2 emax). lra.
Qed.

Lemma xge_mul j k x y : xge j (Fin x) -> xge k (Fin y) -> xge (j + k) (Fin (x * y)).
Proof.
  unfold xge. rewrite !xle_fin. intros H1 H2. rewrite bpow_plus.
  pose proof (bpow_gt_0 radix2 j). pose proof (bpow_gt_0 radix2 k). apply Rmult_le_compat; lra.
Qed.

Lemma xge_div j k x c : xge j x -> 0 < c <= bpow radix2 k -> xge (j - k) (xdiv x (Fin c)).
Proof.
  Local Transparent xdiv.
  intros H Hc. destruct (xge_cases _ _ H) as [(r & -> & Hr)| ->]; cbn [xdiv].
  - rewrite Req_bool_false by lra. apply xge_fin. unfold Z.sub. rewrite bpow_plus, bpow_opp.
    pose proof (bpow_gt_0 radix2 j). apply Rmult_le_compat; [lra| |lra|].
    + apply Rlt_le, Rinv_0_lt_compat, bpow_gt_0.
    + apply Rinv_le_contravar; lra.
  - rewrite Rlt_bool_false by lra. reflexivity.
Qed.
Local Opaque xdiv.

Lemma tenth_val : exists t, val 53 1024 tenth64 = Fin t /\ bpow radix2 (-4) <= t.
Proof.
  assert (E : B2FF 53 1024 tenth64 = F754_finite false 7205759403792794 (-56)) by (vm_compute; reflexivity).
  destruct tenth64 as [s|s|s pl H|s m e H]; try discriminate E. injection E as -> -> ->. cbn [val].
  eexists. split; [reflexivity|]. unfold B2R, F2R. cbn [Fnum Fexp cond_Zopp].
  change (-4)%Z with (52 + -56)%Z. rewrite bpow_plus. apply Rmult_le_compat_r; [apply bpow_ge_0|].
  change (bpow radix2 52) with (IZR (2 ^ 52)). apply IZR_le. lia.
Qed.

Lemma ofZ32_pos bs : (1 <= bs < 2 ^ 31)%Z -> exists c, val 24 128 (b32_ofZ bs) = Fin c /\ 0 < c <= bpow radix2 31.
Proof.
  intros H. unfold b32_ofZ. rewrite val_ofZ. cbn [rndx].
  assert (G1 := fmt_bpow 24 128 eq_refl 0 ltac:(lia)). assert (G2 := fmt_bpow 24 128 eq_refl 31 ltac:(lia)).
  assert (L1 : 1 <= round radix2 (SpecFloat.fexp 24 128) ZnearestE (IZR bs)).
  { rewrite <- (rnd_id 24 128 1 G1). apply rnd_le; [reflexivity|]. apply (IZR_le 1). lia. }
  assert (L2 : round radix2 (SpecFloat.fexp 24 128) ZnearestE (IZR bs) <= bpow radix2 31).
  { rewrite <- (rnd_id 24 128 (bpow radix2 31) G2). apply rnd_le; [reflexivity|]. change (bpow radix2 31) with (IZR (2 ^ 31)). apply IZR_le. lia. }
  eexists. split; [|split; [|exact L2]; lra]. apply sat_fin. rewrite Rabs_pos_eq by lra.
  eapply Rle_lt_trans; [exact L2|]. apply bpow_lt. lia.
Qed.

(** 0.1 * precision / k as a float, and divided by the block size. *)
Lemma rel_pos (k : nat) (p : binary64) : (1 <= k <= 4)%nat -> is_finite 53 1024 p = true -> bpow radix2 (-60) <= B2R 53 1024 p ->
  xge (-66) (val 24 128 (b32_of_b64 (b64_div mode_NE (b64_mult mode_NE tenth64 p) (b64_ofZ (Z.of_nat k))))).
Proof.
  intros Hk HF HP. rewrite val_of_b64. apply xge_rnd; [reflexivity|lia|].
  assert (HZ : val 53 1024 (b64_ofZ (Z.of_nat k)) = Fin (IZR (Z.of_nat k))).
  { apply (vD_const (DA {| lm_log2 := fun x => x; lm_pow := fun _ _ => tenth64; lm_log2f := fun x => x; lm_exp2 := fun x => x; lm_x86 := true |}) (DA_ieee _)). lia. }
  assert (K0 : 0 < IZR (Z.of_nat k) <= bpow radix2 2).
  { split; [apply (IZR_lt 0); lia|]. change (bpow radix2 2) with (IZR 4). apply IZR_le. lia. }
  unfold b64_div, b64_mult. rewrite val_div by (rewrite HZ; intros K; injection K; lra).
  apply xge_rnd; [reflexivity|lia|]. rewrite HZ. apply (xge_div (-64) 2); [|exact K0].
  rewrite val_mult. apply xge_rnd; [reflexivity|lia|]. destruct tenth_val as (t & -> & Ht).
  rewrite (val_fin 53 1024 p HF). cbn [xmul]. apply (xge_mul (-4) (-60)); apply xge_fin; auto.
Qed.
End Pos.

Lemma coef_usable_double lm k bs p : (1 <= k <= 4)%nat -> 1 <= bs < 2 ^ 31 -> is_finite 53 1024 p = true -> at_least (-60) p ->
  Forall (usable (DA lm) (DO lm) (qF (DA lm) (DO lm)) 65536) (coef_precisions (DA lm) (DO lm) k bs p).
Proof.
  intros Hk Hb HF HP. pose proof (rel_pos k p Hk HF HP) as HR.
  assert (U : forall f, xge (-97) (val 24 128 f) -> usable (DA lm) (DO lm) (qF (DA lm) (DO lm)) 65536 (f2d (DO lm) f)).
  { intros f Hf pred cur rad. apply (lin_quantize_total (DA lm) (DA_ieee lm)); [lia|]. left.
    change (xlt (Fin 0) (val 53 1024 (b64_of_b32 f)) = true). rewrite val_of_b32. eapply xge_lt; eauto. }
  unfold coef_precisions. cbv zeta.
  change (d2f (DO lm) (ddiv (DA lm) (dmul (DA lm) (dtenth (DO lm)) p) (dofZ (DA lm) (Z.of_nat k))))
    with (b32_of_b64 (b64_div mode_NE (b64_mult mode_NE tenth64 p) (b64_ofZ (Z.of_nat k)))).
  apply Forall_app. split; [|constructor; [|constructor]].
  - apply Forall_forall. intros x Hx. apply repeat_spec in Hx. subst x. apply U.
    change (fdiv (DO lm)) with (b32_div mode_NE). change (fofZ (DO lm) bs) with (b32_ofZ bs).
    destruct (ofZ32_pos bs Hb) as (c & Hc & Bc).
    unfold b32_div. rewrite val_div by (rewrite Hc; intros K; injection K; lra).
    apply xge_rnd; [reflexivity|lia|]. rewrite Hc. apply (xge_div (-66) 31); auto.
  - apply U. eapply xge_weaken; [|exact HR]. lia.
Qed.

Lemma coef_usable_float lm k bs p : (1 <= k <= 4)%nat -> 1 <= bs < 2 ^ 31 -> is_finite 53 1024 p = true -> at_least (-60) p ->
  Forall (usable (FA lm) (FO lm) (qF (FA lm) (FO lm)) 65536) (coef_precisions (FA lm) (FO lm) k bs p).
Proof.
  intros Hk Hb HF HP. pose proof (rel_pos k p Hk HF HP) as HR.
  assert (U : forall f, xge (-97) (val 24 128 f) -> usable (FA lm) (FO lm) (qF (FA lm) (FO lm)) 65536 (f2d (FO lm) f)).
  { intros f Hf pred cur rad. apply (lin_quantize_total (FA lm) (FA_ieee lm)); [lia|]. left.
    change (xlt (Fin 0) (val 53 1024 (b64_of_b32 f)) = true). rewrite val_of_b32. eapply xge_lt; eauto. }
  unfold coef_precisions. cbv zeta.
  change (d2f (FO lm) (ddiv (FA lm) (dmul (FA lm) (dtenth (FO lm)) p) (dofZ (FA lm) (Z.of_nat k))))
    with (b32_of_b64 (b64_div mode_NE (b64_mult mode_NE tenth64 p) (b64_ofZ (Z.of_nat k)))).
  apply Forall_app. split; [|constructor; [|constructor]].
  - apply Forall_forall. intros x Hx. apply repeat_spec in Hx. subst x. apply U.
    change (fdiv (FO lm)) with (b32_div mode_NE). change (fofZ (FO lm) bs) with (b32_ofZ bs).
    destruct (ofZ32_pos bs Hb) as (c & Hc & Bc).
    unfold b32_div. rewrite val_div by (rewrite Hc; intros K; injection K; lra).
    apply xge_rnd; [reflexivity|lia|]. rewrite Hc. apply (xge_div (-66) 31); auto.
  - apply U. eapply xge_weaken; [|exact HR]. lia.
Qed.

Lemma usable_double lm cap p : 0 <= cap <= 2 ^ 31 -> is_finite 53 1024 p = true -> (0 < B2R 53 1024 p)%R ->
  usable (DA lm) (DO lm) (qT (DA lm) (DO lm)) cap p.
Proof.
  intros Hc HF HP pred cur rad. apply (lin_quantize_total (DA lm) (DA_ieee lm)); [lia|]. left.
  change (xlt (Fin 0) (val 53 1024 p) = true). rewrite (val_fin 53 1024 p HF). apply xlt_fin. exact HP.
Qed.
Lemma usable_float lm cap p : 0 <= cap <= 2 ^ 31 -> is_finite 53 1024 p = true -> (0 < B2R 53 1024 p)%R ->
  usable (FA lm) (FO lm) (qT (FA lm) (FO lm)) cap p.
Proof.
  intros Hc HF HP pred cur rad. apply (lin_quantize_total (FA lm) (FA_ieee lm)); [lia|]. left.
  change (xlt (Fin 0) (val 53 1024 p) = true). rewrite (val_fin 53 1024 p HF). apply xlt_fin. exact HP.
Qed.

(** Plans: one entry per block; regression blocks have [k] coefficients. *)
Definition good_plan {X} (k : nat) (nb : Z) (plan : list (option (list X))) : Prop :=
  Z.of_nat (length plan) = nb /\ forall raw, In (Some raw) plan -> length raw = k.

Lemma good_plan_entries {A} (O : FOps A) k nb plan : (1 <= k)%nat -> good_plan (X := F O) k nb plan -> Forall (plan_entry A O k) plan.
Proof. intros Hk [_ H]. apply Forall_forall. intros [raw|] HI; cbn; auto. Qed.

Lemma at_least_pos k (p : binary64) : at_least k p -> (0 < B2R 53 1024 p)%R.
Proof. unfold at_least. pose proof (bpow_gt_0 radix2 k). lra. Qed.

Lemma sized_data {X} (data : list X) n : Z.of_nat (length data) = n -> forall i, 0 <= i < Z.of_nat (Z.to_nat n) -> exists x, aget data i = Some x.
Proof. intros H i Hi. apply aget_in. lia. Qed.

Theorem block3_total_double lm r1 r2 r3 bs indep precision capacity mean plan (data : list binary64) :
  1 <= r1 -> 1 <= r2 -> 1 <= r3 -> 1 <= bs < 2 ^ 31 -> 2 <= capacity <= 2 ^ 31 ->
  is_finite 53 1024 precision = true -> at_least (-60) precision ->
  Z.of_nat (length data) = r1 * r2 * r3 -> good_plan 4 (num_blocks r1 bs * num_blocks r2 bs * num_blocks r3 bs) plan ->
  exists c, encode_3d (DA lm) (DO lm) r1 r2 r3 bs indep precision capacity mean plan data = Some c.
Proof.
  intros H1 H2 H3 Hb Hc HF HP HL HG. unfold encode_3d.
  destruct (acts3_all r1 r2 r3 bs indep H1 H2 H3 ltac:(lia)) as (_ & NB & _).
  apply (enc_acts_total (DA lm) (DO lm) _ _ _ _ (length (buffer3 (DA lm) indep r2 r3 bs)) (Z.to_nat (r1 * r2 * r3)) 4).
  - apply sized_data. exact HL.
  - intros i _. exists precision. split; [reflexivity|right].
    split; apply usable_double; eauto using at_least_pos; unfold capacity_lorenzo; cbn [cfg3 g_mean g_capacity]; [lia|]. destruct mean; lia.
  - apply coef_usable_double; auto; lia.
  - reflexivity.
  - auto.
  - apply acts3_fits; auto; lia.
  - eapply good_plan_entries; [|exact HG]; lia.
  - destruct HG as [HG _]. lia.
  - reflexivity.
  - reflexivity.
Qed.

Theorem block3_total_float lm r1 r2 r3 bs indep precision capacity mean plan (data : list binary32) :
  1 <= r1 -> 1 <= r2 -> 1 <= r3 -> 1 <= bs < 2 ^ 31 -> 2 <= capacity <= 2 ^ 31 ->
  is_finite 53 1024 precision = true -> at_least (-60) precision ->
  Z.of_nat (length data) = r1 * r2 * r3 -> good_plan 4 (num_blocks r1 bs * num_blocks r2 bs * num_blocks r3 bs) plan ->
  exists c, encode_3d (FA lm) (FO lm) r1 r2 r3 bs indep precision capacity mean plan data = Some c.
Proof.
  intros H1 H2 H3 Hb Hc HF HP HL HG. unfold encode_3d.
  destruct (acts3_all r1 r2 r3 bs indep H1 H2 H3 ltac:(lia)) as (_ & NB & _).
  apply (enc_acts_total (FA lm) (FO lm) _ _ _ _ (length (buffer3 (FA lm) indep r2 r3 bs)) (Z.to_nat (r1 * r2 * r3)) 4).
  - apply sized_data. exact HL.
  - intros i _. exists precision. split; [reflexivity|right].
    split; apply usable_float; eauto using at_least_pos; unfold capacity_lorenzo; cbn [cfg3 g_mean g_capacity]; [lia|]. destruct mean; lia.
  - apply coef_usable_float; auto; lia.
  - reflexivity.
  - auto.
  - apply acts3_fits; auto; lia.
  - eapply good_plan_entries; [|exact HG]; lia.
  - destruct HG as [HG _]. lia.
  - reflexivity.
  - reflexivity.
Qed.

Theorem block2_total_float lm r1 r2 bs precision plan (data : list binary32) :
  1 <= r1 -> 1 <= r2 -> 1 <= bs < 2 ^ 31 ->
  is_finite 53 1024 precision = true -> at_least (-60) precision ->
  Z.of_nat (length data) = r1 * r2 -> good_plan 3 (num_blocks r1 bs * num_blocks r2 bs) plan ->
  exists c, encode_2d (FA lm) (FO lm) r1 r2 bs precision plan data = Some c.
Proof.
  intros H1 H2 Hb HF HP HL HG. unfold encode_2d. rewrite acts2_enc_eq by lia.
  pose proof (acts2_blocks r1 r2 bs H1 H2 ltac:(lia)) as NB.
  apply (enc_acts_total (FA lm) (FO lm) _ _ _ _ (Z.to_nat ((bs + 1) * (r2 + 1))) (Z.to_nat (r1 * r2)) 3).
  - apply sized_data. exact HL.
  - intros i _. exists precision. split; [reflexivity|right].
    split; apply usable_float; eauto using at_least_pos; cbn; lia.
  - apply coef_usable_float; auto; lia.
  - reflexivity.
  - auto.
  - apply acts2_fits; auto; lia.
  - eapply good_plan_entries; [|exact HG]; lia.
  - destruct HG as [HG _]. lia.
  - apply repeat_length.
  - reflexivity.
Qed.

(** With one bound per value: finite and not negative. *)
Theorem block2_eb_total_double lm r1 r2 bs precisions (data : list binary64) :
  1 <= r1 -> 1 <= r2 -> 1 <= bs -> Z.of_nat (length data) = r1 * r2 -> Z.of_nat (length precisions) = r1 * r2 ->
  (forall b, In b precisions -> is_finite 53 1024 b = true /\ (0 <= B2R 53 1024 b)%R) ->
  exists c, encode_2d_eb (DA lm) (DO lm) r1 r2 bs precisions data = Some c.
Proof.
  intros H1 H2 Hb HL HL2 HP. unfold encode_2d_eb. rewrite acts2_enc_eq by lia.
  pose proof (acts2_blocks r1 r2 bs H1 H2 ltac:(lia)) as NB.
  apply (enc_acts_total (DA lm) (DO lm) _ _ _ _ (Z.to_nat ((bs + 1) * (r2 + 1))) (Z.to_nat (r1 * r2)) 0).
  - apply sized_data. exact HL.
  - intros i Hi. destruct (sized_data precisions (r1 * r2) HL2 i Hi) as [b Hb']. exists b. split; [auto|].
    destruct (HP b (aget_In _ _ _ Hb')) as [HF H0]. cbn [cfg2 g_zero andb].
    destruct (deq (DA lm) b (dofZ (DA lm) 0)) eqn:E; [left; reflexivity|right].
    assert (HN : (0 < B2R 53 1024 b)%R).
    { destruct (Req_dec (B2R 53 1024 b) 0) as [Z0|N0]; [|lra]. exfalso. rewrite (v_deq (DA lm) (DA_ieee lm)) in E.
      rewrite (vD_const (DA lm) (DA_ieee lm) 0) in E by lia.
      change (vD (DA lm) (DA_ieee lm) b) with (val 53 1024 b) in E. rewrite (val_fin 53 1024 b HF), Z0 in E. cbn [xeq] in E.
      rewrite Req_bool_true in E by reflexivity. discriminate. }
    split; apply usable_double; auto; cbn; lia.
  - constructor.
  - reflexivity.
  - auto.
  - apply acts2_fits; auto; lia.
  - apply Forall_forall. intros e He. apply repeat_spec in He. subst e. exact Logic.I.
  - rewrite repeat_length. lia.
  - apply repeat_length.
  - reflexivity.
Qed.

Theorem block2_eb_total_float lm r1 r2 bs precisions (data : list binary32) :
  1 <= r1 -> 1 <= r2 -> 1 <= bs -> Z.of_nat (length data) = r1 * r2 -> Z.of_nat (length precisions) = r1 * r2 ->
  (forall b, In b precisions -> is_finite 53 1024 b = true /\ (0 <= B2R 53 1024 b)%R) ->
  exists c, encode_2d_eb (FA lm) (FO lm) r1 r2 bs precisions data = Some c.
Proof.
  intros H1 H2 Hb HL HL2 HP. unfold encode_2d_eb. rewrite acts2_enc_eq by lia.
  pose proof (acts2_blocks r1 r2 bs H1 H2 ltac:(lia)) as NB.
  apply (enc_acts_total (FA lm) (FO lm) _ _ _ _ (Z.to_nat ((bs + 1) * (r2 + 1))) (Z.to_nat (r1 * r2)) 0).
  - apply sized_data. exact HL.
  - intros i Hi. destruct (sized_data precisions (r1 * r2) HL2 i Hi) as [b Hb']. exists b. split; [auto|].
    destruct (HP b (aget_In _ _ _ Hb')) as [HF H0]. cbn [cfg2 g_zero andb].
    destruct (deq (FA lm) b (dofZ (FA lm) 0)) eqn:E; [left; reflexivity|right].
    assert (HN : (0 < B2R 53 1024 b)%R).
    { destruct (Req_dec (B2R 53 1024 b) 0) as [Z0|N0]; [|lra]. exfalso. rewrite (v_deq (FA lm) (FA_ieee lm)) in E.
      rewrite (vD_const (FA lm) (FA_ieee lm) 0) in E by lia.
      change (vD (FA lm) (FA_ieee lm) b) with (val 53 1024 b) in E. rewrite (val_fin 53 1024 b HF), Z0 in E. cbn [xeq] in E.
      rewrite Req_bool_true in E by reflexivity. discriminate. }
    split; apply usable_float; auto; cbn; lia.
  - constructor.
  - reflexivity.
  - auto.
  - apply acts2_fits; auto; lia.
  - apply Forall_forall. intros e He. apply repeat_spec in He. subst e. exact Logic.I.
  - rewrite repeat_length. lia.
  - apply repeat_length.
  - reflexivity.
Qed.
