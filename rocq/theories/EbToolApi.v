(** The programs that compress with one bound per value: what a run returns, for float and double.  Nothing of /repo is modelled here. *)
From Coq Require Import Reals Lra Lia ZArith List Bool.
From Coq Require Import ZifyBool ZifyNat.
From Flocq Require Import Core.Core Relative IEEE754.BinarySingleNaN IEEE754.Binary IEEE754.Bits.
From Verif Require Import Base Huffman HuffStream HuffProps Stream Arith Codec2D Sync2D Stream2D Exact IEEE IEEELaws IEEEQuant IEEE2D Api2D RelaxApi2D
  LinQuant Block BlockSync BlockTile BlockBytes BlockIEEE BlockApi Lossless LosslessApi Verify EbTool.
Import ListNotations.
Local Open Scope Z_scope.

Lemma aget_nth {X} (l : list X) k : aget l (Z.of_nat k) = nth_error l k.
Proof. unfold aget. replace (Z.of_nat k <? 0) with false by lia. rewrite Nat2Z.id. reflexivity. Qed.

Section Run.
Context (A : Arith) (O : FOps A) (HS : ser_ok A) (HF : fser_ok O).

Lemma checked_run z heap ord ub r1 r2 bs pad data junk buf size :
  laws A O (cfg2 A r2 65536 32768 true None) ->
  zstd_ok compress_bound z -> sizes heap -> (size < 100)%nat \/ (320 <= size)%nat -> Z.of_nat (length junk) <= 2 ^ 52 ->
  length pad = (tsize_of A - 1)%nat -> Z.of_nat (length data) = r1 * r2 ->
  compress_2d_eb A O ord ub r1 r2 12 false bs pad data junk = Some (buf, size) ->
  short_blocks ord 65536 (encode_2d_eb A O r1 r2 12 bs data) ->
  exists out dec, pipeline z heap (compress_2d_eb A O ord ub r1 r2 12 false bs pad data junk) (decompress_2d_eb A O r1 r2 bs) = Some out /\
    written out = Some dec /\ length dec = length data /\ (1 <= length data)%nat /\
    forall k y, nth_error dec k = Some y -> acceptable A (cfg2 A r2 65536 32768 true None) (aget bs) data (Z.of_nat k) y.
Proof.
  intros HL HZ HH HG HJ HP LD HC HW.
  assert (HE : exists c, encode_2d_eb A O r1 r2 12 bs data = Some c /\ 1 <= r1 /\ 1 <= r2 /\
    write_pieces ord ub (block_pieces A O 12 None false (cfg2 A r2 65536 32768 true None) pad c) junk 0 = Some (buf, size)).
  { pose proof HC as HC'. unfold compress_2d_eb in HC'. destruct ((1 <=? r1) && (1 <=? r2) && (1 <=? 12)) eqn:EB in HC'; [|discriminate]. bind_as HC' c E.
    destruct (_ =? _) in HC'; [|discriminate]. exists c. split; [exact E|]. split; [lia|]. split; [lia|exact HC']. }
  destruct HE as (c & HE & R1 & R2 & HWP). specialize (HW c HE).
  destruct (round_trip_2d_eb A O HS HF ord ub r1 r2 12 false bs pad data junk buf size c HL ltac:(lia) HP ltac:(lia) HC HE HW) as (out & E & HD1 & HD2).
  assert (FIT : (size <= length buf)%nat /\ length buf = length junk).
  { refine (written_fits ord ub _ _ _ _ _ _ HWP); [lia|].
    rewrite block_pieces_split. apply Forall_app. split; [cbn [app]; repeat apply Forall_cons; try apply Forall_nil; exact Logic.I|].
    apply tail_ok; [cbn; lia|exact HW]. }
  destruct (written_ok out) as (dec & W1 & W2 & W3).
  { intros i Hi. destruct (HD2 i) as (x & Hx & _); [lia|]. eauto. }
  exists out, dec. split.
  { rewrite HC, pipeline_id; auto; try lia. specialize (E []). rewrite app_nil_r in E. exact E. }
  split; [exact W1|]. split; [nia|]. split; [nia|].
  intros k y Hy. pose proof (W3 _ _ Hy) as HA. destruct (HD2 (Z.of_nat k)) as (x & Hx & HQ).
  { rewrite <- HD1, <- W2. assert (k < length dec)%nat by (apply nth_error_Some; congruence). lia. }
  rewrite HA in Hx. apply Some_inj in Hx. apply Some_inj in Hx. subst x. exact HQ.
Qed.

Lemma main_never_stops (I : ieee A) z heap ord ub quantize r1 r2 eb bs pad data junk buf size :
  laws A O (cfg2 A r2 65536 32768 true None) ->
  zstd_ok compress_bound z -> sizes heap -> (size < 100)%nat \/ (320 <= size)%nat -> Z.of_nat (length junk) <= 2 ^ 52 ->
  length pad = (tsize_of A - 1)%nat -> Z.of_nat (length data) = r1 * r2 -> length data = length eb ->
  bounds_used A ord ub quantize eb = Some bs -> (forall b, In b bs -> xlt (vD A I b) (Fin 0) = false) ->
  compress_2d_eb A O ord ub r1 r2 12 false bs pad data junk = Some (buf, size) ->
  short_blocks ord 65536 (encode_2d_eb A O r1 r2 12 bs data) ->
  length bs = length data /\
  exists dec r, main_2d_with_eb A O z heap ord ub quantize r1 r2 eb pad data junk = Some (Finished r) /\
    verify A data dec (length data) = Some r /\ length dec = length data /\
    forall k y, nth_error dec k = Some y -> acceptable A (cfg2 A r2 65536 32768 true None) (aget bs) data (Z.of_nat k) y.
Proof.
  intros HL HZ HH HG HJ HP LD LE HB HN HC HW.
  assert (LB : length bs = length data).
  { unfold bounds_used, quantize_and_compress_eb in HB. destruct quantize as [[base_eb jq]|].
    - bind_as HB p1 E1. destruct p1 as [bs1 bytes]. apply Some_inj in HB. subst bs1. bind_as E1 p2 E2. destruct p2 as [ids bs2].
      destruct (_ =? _) in E1; [|discriminate]. bind_as E1 p3 E3. destruct p3 as [b3 s3]. apply Some_inj in E1. inversion E1; subst.
      apply each_bound_spec in E2. lia.
    - apply Some_inj in HB. subst. auto. }
  split; [exact LB|].
  destruct (checked_run z heap ord ub r1 r2 bs pad data junk buf size) as (out & dec & E1 & E2 & E3 & E4 & E5); auto.
  destruct (verify_total A data dec E4 E3) as [r Er]. exists dec, r. split; [|auto].
  unfold main_2d_with_eb. replace (length data =? length eb)%nat with true by lia. rewrite HB. cbn [bind]. rewrite E1. cbn [bind]. rewrite E2. cbn [bind].
  rewrite first_over_none; [cbn [bind]; rewrite Er; reflexivity|lia|lia|].
  intros k e x y H1 H2 H3. pose proof (E5 k y H3) as HA.
  apply (accepted_not_over A I r2 (aget bs) data (Z.of_nat k) x e y); [exact HA|rewrite aget_nth; auto|rewrite aget_nth; auto|].
  apply HN. eapply nth_error_In; eauto.
Qed.
Lemma main_test_run z heap ord ub inc r1 r2 r3 tmp bs pad data junk_ids junk buf size :
  laws A O (cfg2 A r3 65536 32768 true None) ->
  zstd_ok compress_bound z -> sizes heap -> (size < 100)%nat \/ (320 <= size)%nat -> Z.of_nat (length junk) <= 2 ^ 52 ->
  length pad = (tsize_of A - 1)%nat -> Z.of_nat (length data) = r1 * r2 * r3 ->
  relative_setup A ord ub inc tmp data junk_ids = Some bs ->
  compress_2d_eb A O ord ub (r1 * r2) r3 12 false bs pad data junk = Some (buf, size) ->
  short_blocks ord 65536 (encode_2d_eb A O (r1 * r2) r3 12 bs data) ->
  exists dec o, main_test_with_eb A O z heap ord ub inc r1 r2 r3 tmp pad data junk_ids junk = Some o /\
    match o with
    | Finished r => verify A data dec (length data) = Some r /\
        forall k p t x y, nth_error bs k = Some p -> nth_error tmp k = Some t -> nth_error data k = Some x -> nth_error dec k = Some y ->
          over_relative A (p, t) x y = false
    | Stopped i => exists k p t x y, i = Z.of_nat k /\ nth_error bs k = Some p /\ nth_error tmp k = Some t /\ nth_error data k = Some x /\
        nth_error dec k = Some y /\ over_relative A (p, t) x y = true
    end /\
    length dec = length data /\
    (forall k x t, nth_error data k = Some x -> nth_error tmp k = Some t -> exists id b,
       precision_quantize A inc (dmul A t (dabs A (t2d A x))) = Some (id, b) /\ nth_error bs k = Some b) /\
    forall k y, nth_error dec k = Some y -> acceptable A (cfg2 A r3 65536 32768 true None) (aget bs) data (Z.of_nat k) y.
Proof.
  intros HL HZ HH HG HJ HP LD HS' HC HW.
  pose proof HS' as HS0. unfold relative_setup in HS'. destruct (length data <=? length tmp)%nat eqn:EL in HS'; [|discriminate].
  bind_as HS' p E. destruct p as [ids bs0]. bind_as HS' bytes E0. apply Some_inj in HS'. subst bs0.
  apply each_bound_spec in E. destruct E as (_ & LB & EB).
  assert (LR : length (relative_bounds A tmp data) = length data) by (unfold relative_bounds; rewrite map_length, combine_length; lia).
  destruct (checked_run z heap ord ub (r1 * r2) r3 bs pad data junk buf size) as (out & dec & E1 & E2 & E3 & E4 & E5); auto.
  assert (NC : forall {X Y} (l : list X) (m : list Y) k a b, nth_error (combine l m) k = Some (a, b) <-> nth_error l k = Some a /\ nth_error m k = Some b).
  { clear. intros X Y. induction l as [|a0 l IH]; intros [|b0 m] [|k] a b; cbn [combine nth_error]; try (split; [intros H|intros [H1 H2]]; (discriminate || congruence || (split; discriminate))).
    - split; [intros H; inversion H; auto|intros [H1 H2]; congruence].
    - apply IH. }
  destruct (first_over_total A (over_relative A) 0 (combine bs tmp) data dec) as (bad & EF & HB).
  { rewrite combine_length. lia. }
  { lia. }
  destruct (verify_total A data dec E4 E3) as [r Er].
  exists dec, (match bad with Some i => Stopped i | None => Finished r end). split; [|split; [|split; [exact E3|split; [|exact E5]]]].
  - unfold main_test_with_eb. rewrite HS0. cbn [bind]. rewrite E1. cbn [bind]. rewrite E2. cbn [bind]. rewrite EF. cbn [bind]. destruct bad; [reflexivity|].
    rewrite Er. reflexivity.
  - destruct bad as [i|].
    + destruct HB as (k & [p t] & x & y & -> & K1 & K2 & K3 & K4). apply NC in K1. exists k, p, t, x, y. repeat split; auto; try apply K1. 
    + split; [exact Er|]. intros k p t x y K1 K2 K3 K4. apply (HB k (p, t) x y); auto. apply NC. auto.
  - intros k x t Kx Kt. destruct (EB k (dmul A t (dabs A (t2d A x)))) as (id & b & Q & _ & Kb); [|eauto].
    unfold relative_bounds. rewrite nth_error_map. replace (nth_error (combine tmp data) k) with (Some (t, x)); [reflexivity|]. symmetry. apply NC. auto.
Qed.
End Run.

(** ** test/sz_compress_2d_with_eb.cpp *)
Theorem program_2d_eb lm z heap ord ub quantize r1 r2 eb bs pad (data : list binary32) junk buf size :
  zstd_ok compress_bound z -> sizes heap -> (size < 100)%nat \/ (320 <= size)%nat -> Z.of_nat (length junk) <= 2 ^ 52 ->
  length pad = 3%nat -> Z.of_nat (length data) = r1 * r2 -> length data = length eb ->
  bounds_used (FA lm) ord ub quantize eb = Some bs -> (forall b, In b bs -> blt 53 1024 b (b64_ofZ 0) = false) ->
  compress_2d_eb (FA lm) (FO lm) ord ub r1 r2 12 false bs pad data junk = Some (buf, size) ->
  short_blocks ord 65536 (encode_2d_eb (FA lm) (FO lm) r1 r2 12 bs data) ->
  length bs = length data /\
  exists dec r, main_2d_with_eb (FA lm) (FO lm) z heap ord ub quantize r1 r2 eb pad data junk = Some (Finished r) /\
    verify (FA lm) data dec (length data) = Some r /\ length dec = length data /\
    forall k x y b, nth_error data k = Some x -> nth_error dec k = Some y -> nth_error bs k = Some b ->
      y = x \/ (is_finite 53 1024 b = true -> is_finite 24 128 x = true /\ differs_le (B2R 53 1024 b * (1 + bpow radix2 (-24))) x y).
Proof.
  intros HZ HH HG HJ HP LD LE HB HN HC HW.
  destruct (main_never_stops (FA lm) (FO lm) (FA_ser lm) (FO_ser lm) (FA_ieee lm) z heap ord ub quantize r1 r2 eb bs pad data junk buf size)
    as (LB & dec & r & E1 & E2 & E3 & E4); auto.
  - apply FA_laws. split; cbn; lia.
  - intros b Hb. specialize (HN b Hb). rewrite val_lt in HN. change (vD (FA lm) (FA_ieee lm) b) with (val 53 1024 b). rewrite <- HN.
    unfold b64_ofZ. rewrite val_ofZ. f_equal. symmetry. apply rndx_fin; [apply generic_format_0|]. rewrite Rabs_R0. apply bpow_gt_0.
  - split; [exact LB|]. exists dec, r. split; [exact E1|]. split; [exact E2|]. split; [exact E3|].
    intros k x y b H1 H2 H3. pose proof (E4 k y H2) as HA.
    destruct (is_finite 53 1024 b) eqn:FB; [|right; discriminate].
    destruct (acceptable_bound _ (FA_ieee lm) (FO lm) (FQT lm) _ _ _ _ _ b (B2R 53 1024 b) HA) as (x0 & Ex & HX).
    + rewrite aget_nth. exact H3.
    + apply (fin_val 53 1024). exact FB.
    + rewrite aget_nth in Ex. pose proof (eq_trans (eq_sym H1) Ex) as X0. apply Some_inj in X0. subst x0.
      destruct HX as [HX|(s & t & V1 & V2 & HX)]; [left; exact HX|right; intros _].
      change (val 24 128 y = Fin s) in V1. change (val 24 128 x = Fin t) in V2.
      apply (val_fin_iff 24 128) in V1, V2. destruct V1 as [F1 <-]. destruct V2 as [F2 <-]. split; [exact F2|]. split; [exact F1|exact HX].
Qed.

(** The quantised bounds. *)
Theorem quantised_bounds lm (L : libm_ok (FA lm) (FA_ieee lm)) ord ub base_eb eb junk bs bytes :
  is_finite 53 1024 base_eb = true -> (bpow radix2 (-900) <= B2R 53 1024 base_eb)%R ->
  (forall e, In e eb -> is_finite 53 1024 e = true /\ (B2R 53 1024 e <= bpow radix2 100)%R) ->
  quantize_and_compress_eb (FA lm) ord ub base_eb eb junk = Some (bs, bytes) ->
  length bs = length eb /\
  forall k e b, nth_error eb k = Some e -> nth_error bs k = Some b -> is_finite 53 1024 b = true /\
    (B2R 53 1024 b = 0 /\ B2R 53 1024 e <= B2R 53 1024 base_eb \/
     B2R 53 1024 base_eb <= B2R 53 1024 b <= B2R 53 1024 e * (1 + bpow radix2 (-39)))%R.
Proof.
  intros FB HB HE H. unfold quantize_and_compress_eb in H. bind_as H p E. destruct p as [ids bs0].
  destruct (_ =? _) in H; [|discriminate]. bind_as H p E2. destruct p as [buf size]. apply Some_inj in H. inversion H; subst bs0.
  apply each_bound_spec in E. destruct E as (_ & L2 & E). split; [exact L2|]. intros k e b Ke Kb.
  destruct (E k e Ke) as (id & b' & Q & _ & Kb'). assert (b' = b) by congruence. subst b'.
  destruct (HE e) as [Fe He]; [eapply nth_error_In; eauto|].
  destruct (quantize_any (FA lm) (FA_ieee lm) L base_eb (B2R 53 1024 base_eb) e (B2R 53 1024 e)) as (id' & ab & a & Q' & Hid & Va & HA).
  - apply (fin_val 53 1024). exact FB.
  - exact HB.
  - apply (fin_val 53 1024). exact Fe.
  - eapply Rle_trans; [exact He|]. apply Rle_trans with (bpow radix2 (-900) * bpow radix2 1000)%R; [rewrite <- bpow_plus; apply bpow_le; lia|].
    apply Rmult_le_compat_r; [apply bpow_ge_0|exact HB].
  - eapply Rle_trans; [exact He|]. apply bpow_le. lia.
  - rewrite Q in Q'. apply Some_inj in Q'. inversion Q'; subst id' ab. apply (val_fin_iff 53 1024) in Va. destruct Va as [Fb <-].
    split; [exact Fb|]. destruct HA as [HA|(K1 & K2 & K3)]; [left; exact HA|right]. split; [|exact K3].
    rewrite K2. pose proof (bpow_gt_0 radix2 (-900)). assert (1 <= bpow radix2 id)%R by (change 1%R with (bpow radix2 0); apply bpow_le; lia).
    rewrite <- (Rmult_1_l (B2R 53 1024 base_eb)) at 1. apply Rmult_le_compat_r; lra.
Qed.

(** The run with quantised bounds: every value within the bound given for it, up to the rounding of the logarithm and of the comparison. *)
Theorem program_2d_eb_quantised lm (L : libm_ok (FA lm) (FA_ieee lm)) z heap ord ub base_eb junk_ids r1 r2 eb bs pad (data : list binary32) junk buf size :
  zstd_ok compress_bound z -> sizes heap -> (size < 100)%nat \/ (320 <= size)%nat -> Z.of_nat (length junk) <= 2 ^ 52 ->
  length pad = 3%nat -> Z.of_nat (length data) = r1 * r2 -> length data = length eb ->
  is_finite 53 1024 base_eb = true -> (bpow radix2 (-900) <= B2R 53 1024 base_eb)%R ->
  (forall e, In e eb -> is_finite 53 1024 e = true /\ (B2R 53 1024 e <= bpow radix2 100)%R) ->
  bounds_used (FA lm) ord ub (Some (base_eb, junk_ids)) eb = Some bs ->
  compress_2d_eb (FA lm) (FO lm) ord ub r1 r2 12 false bs pad data junk = Some (buf, size) ->
  short_blocks ord 65536 (encode_2d_eb (FA lm) (FO lm) r1 r2 12 bs data) ->
  exists dec r, main_2d_with_eb (FA lm) (FO lm) z heap ord ub (Some (base_eb, junk_ids)) r1 r2 eb pad data junk = Some (Finished r) /\
    verify (FA lm) data dec (length data) = Some r /\ length dec = length data /\
    forall k x y e, nth_error data k = Some x -> nth_error dec k = Some y -> nth_error eb k = Some e ->
      y = x \/ is_finite 24 128 x = true /\
        ((B2R 53 1024 e <= B2R 53 1024 base_eb)%R /\ differs_le 0 x y \/
         (B2R 53 1024 base_eb <= B2R 53 1024 e * (1 + bpow radix2 (-39)))%R /\ differs_le (B2R 53 1024 e * (1 + bpow radix2 (-23))) x y).
Proof.
  intros HZ HH HG HJ HP LD LE FB HB HE HU HC HW.
  assert (Q : exists bytes, quantize_and_compress_eb (FA lm) ord ub base_eb eb junk_ids = Some (bs, bytes)).
  { unfold bounds_used in HU. bind_as HU p E. destruct p as [b0 bytes]. apply Some_inj in HU. subst b0. eauto. }
  destruct Q as [bytes Q]. destruct (quantised_bounds lm L ord ub base_eb eb junk_ids bs bytes FB HB HE Q) as [LB KB].
  assert (P900 : (0 < bpow radix2 (-900))%R) by apply bpow_gt_0.
  destruct (program_2d_eb lm z heap ord ub (Some (base_eb, junk_ids)) r1 r2 eb bs pad data junk buf size) as (_ & dec & r & E1 & E2 & E3 & E4); auto.
  - intros b Hb. apply In_nth_error in Hb. destruct Hb as [k Kb].
    assert (Ke : exists e, nth_error eb k = Some e).
    { destruct (nth_error eb k) eqn:X; [eauto|]. apply nth_error_None in X. assert (k < length bs)%nat by (apply nth_error_Some; congruence). lia. }
    destruct Ke as [e Ke]. destruct (KB k e b Ke Kb) as [Fb HQ]. rewrite val_lt, (fin_val 53 1024 b Fb).
    unfold b64_ofZ. rewrite val_ofZ. rewrite rndx_fin; [|apply generic_format_0|rewrite Rabs_R0; apply bpow_gt_0].
    apply Rlt_bool_false. destruct HQ as [[-> _]|[H _]]; lra.
  - exists dec, r. split; [exact E1|]. split; [exact E2|]. split; [exact E3|]. intros k x y e Kx Ky Ke.
    assert (Kb : exists b, nth_error bs k = Some b).
    { destruct (nth_error bs k) eqn:X; [eauto|]. apply nth_error_None in X. assert (k < length data)%nat by (apply nth_error_Some; congruence). lia. }
    destruct Kb as [b Kb]. destruct (KB k e b Ke Kb) as [Fb HQ].
    destruct (E4 k x y b Kx Ky Kb) as [->|H]; [left; reflexivity|right]. destruct (H Fb) as [Fx [Fy HD]]. split; [exact Fx|].
    destruct HQ as [[Z0 HQ]|[H1 H2]].
    + left. split; [exact HQ|]. split; [exact Fy|]. rewrite Z0, Rmult_0_l in HD. exact HD.
    + right. split.
      { lra. }
      split; [exact Fy|]. eapply Rle_trans; [exact HD|].
      assert (B0 : (0 < B2R 53 1024 b)%R) by lra.
      assert (P39 : (0 < bpow radix2 (-39) <= bpow radix2 (-24) * / 4)%R).
      { split; [apply bpow_gt_0|]. change (/ 4)%R with (bpow radix2 (-2)). rewrite <- bpow_plus. apply bpow_le. lia. }
      assert (P24 : (0 < bpow radix2 (-24) <= / 4)%R) by (split; [apply bpow_gt_0|change (/ 4)%R with (bpow radix2 (-2)); apply bpow_le; lia]).
      assert (E23 : bpow radix2 (-23) = (bpow radix2 (-24) * 2)%R) by (change 2%R with (bpow radix2 1); rewrite <- bpow_plus; reflexivity).
      rewrite E23. set (h := bpow radix2 (-39)) in *. set (u := bpow radix2 (-24)) in *. set (ee := B2R 53 1024 e) in *. set (bb := B2R 53 1024 b) in *.
      assert (E0 : (0 <= ee)%R) by (clear - B0 H2 P39; destruct (Rle_lt_dec 0 ee); [auto|nra]).
      apply Rle_trans with (ee * (1 + h) * (1 + u))%R; [apply Rmult_le_compat_r; lra|]. rewrite Rmult_assoc. apply Rmult_le_compat_l; [auto|]. clear - P39 P24. nra.
Qed.

(** ** test/sz_compress_test_with_eb.cpp *)
Lemma product_bound p t x : (0 <= t)%R -> (0 <= x)%R -> p = round radix2 fexp64 ZnearestE (t * x) -> (bpow radix2 (-23) <= p)%R ->
  (p <= t * x * (1 + bpow radix2 (-53)))%R.
Proof.
  intros Ht Hx -> HP.
  assert (HN : (bpow radix2 (-24) <= t * x)%R).
  { destruct (Rle_lt_dec (bpow radix2 (-24)) (t * x)) as [H|H]; [exact H|exfalso].
    assert (round radix2 fexp64 ZnearestE (t * x) <= bpow radix2 (-24))%R.
    { rewrite <- (rnd_id 53 1024 (bpow radix2 (-24))) by (apply (fmt_bpow 53 1024 eq_refl); lia). apply (rnd_le 53 1024 eq_refl). lra. }
    assert (bpow radix2 (-24) < bpow radix2 (-23))%R by (apply bpow_lt; lia). lra. }
  pose proof (bpow_gt_0 radix2 (-24)) as P24.
  pose proof (relative_error_N_FLT radix2 (-1074) 53 ltac:(lia) (fun z => negb (Z.even z)) (t * x)) as RE.
  rewrite (Rabs_pos_eq (t * x)) in RE by lra.
  assert (M : (bpow radix2 (-1074 + 53 - 1) <= t * x)%R) by (eapply Rle_trans; [apply bpow_le|exact HN]; lia). specialize (RE M).
  apply Rabs_le_inv in RE.
  assert (U : (/ 2 * bpow radix2 (- (53) + 1))%R = bpow radix2 (-53)) by (change (/ 2)%R with (bpow radix2 (-1)); rewrite <- bpow_plus; reflexivity).
  rewrite U in RE. change (FLT_exp (-1074) 53) with fexp64 in RE. lra.
Qed.

Theorem program_test_eb lm (L : libm_ok (DA lm) (DA_ieee lm)) z heap ord ub b r1 r2 r3 tmp bs pad (data : list binary64) junk_ids junk buf size :
  zstd_ok compress_bound z -> sizes heap -> (size < 100)%nat \/ (320 <= size)%nat -> Z.of_nat (length junk) <= 2 ^ 52 ->
  length pad = 7%nat -> Z.of_nat (length data) = r1 * r2 * r3 -> 1 <= b <= 2 ->
  (forall x, In x data -> finite_le 400 x) -> (forall t, In t tmp -> is_finite 53 1024 t = true /\ (0 <= B2R 53 1024 t <= bpow radix2 400)%R) ->
  relative_setup (DA lm) ord ub (2 ^ b) tmp data junk_ids = Some bs ->
  compress_2d_eb (DA lm) (DO lm) ord ub (r1 * r2) r3 12 false bs pad data junk = Some (buf, size) ->
  short_blocks ord 65536 (encode_2d_eb (DA lm) (DO lm) (r1 * r2) r3 12 bs data) ->
  exists dec o, main_test_with_eb (DA lm) (DO lm) z heap ord ub (2 ^ b) r1 r2 r3 tmp pad data junk_ids junk = Some o /\
    match o with
    | Finished r => verify (DA lm) data dec (length data) = Some r
    | Stopped i => exists k t x y, i = Z.of_nat k /\ nth_error tmp k = Some t /\ nth_error data k = Some x /\ nth_error dec k = Some y /\
        blt 53 1024 t (b64_abs (b64_div mode_NE (b64_minus mode_NE y x) x)) = true
    end /\
    length dec = length data /\
    forall k x y t, nth_error data k = Some x -> nth_error dec k = Some y -> nth_error tmp k = Some t ->
      differs_le (B2R 53 1024 t * Rabs (B2R 53 1024 x) * (1 + bpow radix2 (-38))) x y /\
      ((B2R 53 1024 t * Rabs (B2R 53 1024 x) < bpow radix2 (-24))%R -> B2R 53 1024 y = B2R 53 1024 x).
Proof.
  intros HZ HH HG HJ HP LD Hb HF HT HS HC HW.
  destruct (main_test_run (DA lm) (DO lm) (DA_ser lm) (DO_ser lm) z heap ord ub (2 ^ b) r1 r2 r3 tmp bs pad data junk_ids junk buf size)
    as (dec & o & E1 & E2 & E3 & E4 & E5); auto.
  { apply DA_laws. split; cbn; lia. }
  exists dec, o. split; [exact E1|]. split; [|split; [exact E3|]].
  - destruct o as [i|r]; [|apply E2]. destruct E2 as (k & p & t & x & y & Ei & _ & K1 & K2 & K3 & K4). exists k, t, x, y. do 4 (split; [assumption|]).
    unfold over_relative in K4. apply andb_prop in K4. exact (proj2 K4).
  - intros k x y t Kx Ky Kt.
    destruct (HF x) as [Fx Hx]; [eapply nth_error_In; eauto|]. destruct (HT t) as [Ft Ht]; [eapply nth_error_In; eauto|].
    destruct (E4 k x t Kx Kt) as (id & ab & Q & Kb).
    pose proof (Rabs_pos (B2R 53 1024 x)) as PX.
    assert (MB : (0 <= B2R 53 1024 t * Rabs (B2R 53 1024 x) <= bpow radix2 800)%R).
    { split; [apply Rmult_le_pos; lra|]. change 800%Z with (400 + 400)%Z. rewrite bpow_plus. apply Rmult_le_compat; lra. }
    set (m := (B2R 53 1024 t * Rabs (B2R 53 1024 x))%R) in *.
    assert (RB : (0 <= round radix2 fexp64 ZnearestE m <= bpow radix2 800)%R).
    { split.
      - rewrite <- (rnd_0 53 1024). apply (rnd_le 53 1024 eq_refl). lra.
      - rewrite <- (rnd_id 53 1024 (bpow radix2 800)) by (apply (fmt_bpow 53 1024 eq_refl); lia). apply (rnd_le 53 1024 eq_refl). lra. }
    set (p := dmul (DA lm) t (dabs (DA lm) (t2d (DA lm) x))) in *.
    assert (Vp : vD (DA lm) (DA_ieee lm) p = Fin (round radix2 fexp64 ZnearestE m)).
    { unfold p. rewrite (v_dmul (DA lm) (DA_ieee lm)), (v_dabs (DA lm) (DA_ieee lm)), (v_t2d (DA lm) (DA_ieee lm)).
      change (vD (DA lm) (DA_ieee lm) t) with (val 53 1024 t). change (vT (DA lm) (DA_ieee lm) x) with (val 53 1024 x).
      rewrite (fin_val 53 1024 t Ft), (fin_val 53 1024 x Fx). cbn [xabs xmul rndx]. fold m. apply sat_fin.
      rewrite Rabs_pos_eq by lra. eapply Rle_lt_trans; [apply RB|]. apply bpow_lt. lia. }
    destruct (precision_step (DA lm) (DA_ieee lm) L b p (round radix2 fexp64 ZnearestE m)) as (id' & ab' & a & Q' & _ & Va & HA); auto.
    { eapply Rle_trans; [apply RB|]. apply bpow_le. lia. }
    rewrite Q in Q'. apply Some_inj in Q'. inversion Q'; subst id' ab'.
    destruct (acceptable_bound _ (DA_ieee lm) (DO lm) (DQT lm) _ _ _ _ _ ab a (E5 k y Ky)) as (x0 & Ex & HX).
    { rewrite aget_nth. exact Kb. }
    { exact Va. }
    rewrite aget_nth in Ex. pose proof (eq_trans (eq_sym Kx) Ex) as X0. apply Some_inj in X0. subst x0.
    assert (MX : (0 <= m * (1 + bpow radix2 (-38)))%R) by (apply Rmult_le_pos; [lra|pose proof (bpow_gt_0 radix2 (-38)); lra]).
    destruct HX as [->|(s & s' & V1 & V2 & HX)].
    { split; [|reflexivity]. split; [exact Fx|]. unfold Rminus. rewrite Rplus_opp_r, Rabs_R0. exact MX. }
    change (val 53 1024 y = Fin s) in V1. change (val 53 1024 x = Fin s') in V2.
    apply (val_fin_iff 53 1024) in V1, V2. destruct V1 as [Fy <-]. destruct V2 as [_ <-]. change (pX _ _ _ _ _ (DQT lm)) with 53 in HX.
    destruct HA as [[-> HA]|(H1 & H2 & H3)].
    + rewrite Rmult_0_l in HX. split; [split; [exact Fy|lra]|]. intros _. pose proof (Rabs_pos (B2R 53 1024 y - B2R 53 1024 x)) as PA.
      assert (Z0 : Rabs (B2R 53 1024 y - B2R 53 1024 x) = 0%R) by lra. destruct (Req_dec (B2R 53 1024 y - B2R 53 1024 x) 0) as [K|K]; [lra|].
      apply Rabs_no_R0 in K. lra.
    + pose proof (product_bound _ (B2R 53 1024 t) (Rabs (B2R 53 1024 x)) ltac:(lra) PX eq_refl H1) as PB. fold m in PB.
      split.
      * split; [exact Fy|]. eapply Rle_trans; [exact HX|].
        assert (E38 : bpow radix2 (-38) = (bpow radix2 (-39) * 2)%R) by (change 2%R with (bpow radix2 1); rewrite <- bpow_plus; reflexivity).
        assert (P53 : (0 < bpow radix2 (-53) <= bpow radix2 (-39) * / 16)%R) by (split; [apply bpow_gt_0|change (/ 16)%R with (bpow radix2 (-4)); rewrite <- bpow_plus; apply bpow_le; lia]).
        assert (P39 : (0 < bpow radix2 (-39) <= / 16)%R) by (split; [apply bpow_gt_0|change (/ 16)%R with (bpow radix2 (-4)); apply bpow_le; lia]).
        rewrite E38. set (h := bpow radix2 (-39)) in *. set (u := bpow radix2 (-53)) in *. change (bpow radix2 (- (53))) with u in *.
        set (q := round radix2 fexp64 ZnearestE m) in *. clear - H3 PB P53 P39 MB RB.
        apply Rle_trans with (q * (1 + h) * (1 + u))%R; [apply Rmult_le_compat_r; lra|].
        apply Rle_trans with (m * (1 + u) * ((1 + h) * (1 + u)))%R; [rewrite Rmult_assoc; apply Rmult_le_compat_r; [nra|lra]|].
        rewrite Rmult_assoc. apply Rmult_le_compat_l; [lra|]. nra.
      * intros HM. exfalso. assert (round radix2 fexp64 ZnearestE m <= bpow radix2 (-24))%R.
        { rewrite <- (rnd_id 53 1024 (bpow radix2 (-24))) by (apply (fmt_bpow 53 1024 eq_refl); lia). apply (rnd_le 53 1024 eq_refl). lra. }
        assert (bpow radix2 (-24) < bpow radix2 (-23))%R by (apply bpow_lt; lia). lra.
Qed.
