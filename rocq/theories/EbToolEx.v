(** The programs that compress with one bound per value: concrete runs and refutations.  Nothing of /repo is modelled here. *)
From Coq Require Import Reals Lra Lia ZArith List Bool.
From Coq Require Import ZifyBool ZifyNat.
From Flocq Require Import Core.Core IEEE754.BinarySingleNaN IEEE754.Binary IEEE754.Bits.
From Verif Require Import Base Huffman HuffStream HuffProps Stream Arith Codec2D Sync2D Stream2D Exact IEEE IEEELaws IEEEQuant IEEE2D Api2D RelaxApi2D
  LinQuant Block BlockSync BlockTile BlockBytes BlockIEEE BlockApi Lossless LosslessApi Verify LibmModel Witness2D Examples2D BlockRefute EbTool EbToolApi.
Import ListNotations.
Local Open Scope Z_scope.

(** Where a run stopped. *)
Definition ends {R} (o : option (outcome R)) : option (option Z) :=
  match o with Some (Stopped i) => Some (Some i) | Some (Finished _) => Some None | None => None end.
Lemma ends_stopped {R} (o : option (outcome R)) i : ends o = Some (Some i) -> o = Some (Stopped i).
Proof. destruct o as [[j|r]|]; cbn; intros H; try discriminate. apply Some_inj in H. apply Some_inj in H. subst. reflexivity. Qed.

Definition wide32 : list binary32 := map (fun t => b32_ofZ (t / 16 + 2 * (t mod 16))) (zrange 0 256).
Definition wide_ebs : list binary64 := repeat (dy 1 (-1)) 176 ++ repeat (dy 0 0) 80.
Definition neg_ebs : list binary64 := repeat (dy (-1) 0) 256.
Local Notation FL := (FA (lm32 false)).
Local Notation FLO := (FO (lm32 false)).

Lemma wide_ebs_in e : In e wide_ebs -> e = dy 1 (-1) \/ e = dy 0 0.
Proof. intros H. apply in_app_or in H. destruct H as [H|H]; apply repeat_spec in H; auto. Qed.
Lemma half_R : B2R 53 1024 (dy 1 (-1)) = bpow radix2 (-1).
Proof. pose proof (two_pow64_val (-1) ltac:(lia)) as K. apply (val_fin_iff 53 1024) in K. apply K. Qed.
Lemma tenth_R : is_finite 53 1024 (dy 1 (-10)) = true /\ B2R 53 1024 (dy 1 (-10)) = bpow radix2 (-10).
Proof. pose proof (two_pow64_val (-10) ltac:(lia)) as K. apply (val_fin_iff 53 1024) in K. exact K. Qed.

(** A field of 256 floats, bounds 1/2 and 0, as given and quantised from the base bound 2^-10. *)
Lemma wide_runs : exists buf size,
  compress_2d_eb FL FLO ord0 ub0 16 16 12 false wide_ebs [0; 0; 0] wide32 (repeat 0 1228) = Some (buf, size) /\ (320 <= size)%nat /\
  short_blocks ord0 65536 (encode_2d_eb FL FLO 16 16 12 wide_ebs wide32) /\
  (forall b, In b wide_ebs -> blt 53 1024 b (b64_ofZ 0) = false) /\ length wide32 = length wide_ebs /\ Z.of_nat (length wide32) = 16 * 16 /\
  bounds_used FL ord0 ub0 None wide_ebs = Some wide_ebs.
Proof.
  assert (W : out_size (compress_2d_eb FL FLO ord0 ub0 16 16 12 false wide_ebs [0; 0; 0] wide32 (repeat 0 1228)) = Some 473%nat) by (vm_compute; reflexivity).
  set (o := compress_2d_eb _ _ _ _ _ _ _ _ _ _ _ _) in *. destruct o as [[buf size]|] eqn:E; [|discriminate W]. exists buf, size.
  cbn [out_size] in W. apply Some_inj in W. split; [reflexivity|]. split; [lia|]. split; [apply few_short; vm_compute; reflexivity|].
  split; [|split; [reflexivity|split; reflexivity]]. intros b Hb. destruct (wide_ebs_in b Hb); subst; vm_compute; reflexivity.
Qed.

Definition same_bits (o : option (list binary64)) (l : list binary64) : bool :=
  match o with Some m => if list_eq_dec Z.eq_dec (map bits_of_b64 m) (map bits_of_b64 l) then true else false | None => false end.
Lemma bits_inj l m : map bits_of_b64 m = map bits_of_b64 l -> m = l.
Proof.
  revert l. induction m as [|x m IH]; intros [|y l] H; try discriminate H; [reflexivity|]. cbn [map] in H. injection H as H1 H2.
  apply IH in H2. subst l. f_equal. apply (f_equal b64_of_bits) in H1. unfold b64_of_bits, bits_of_b64 in H1.
  rewrite !binary_float_of_bits_of_binary_float in H1. exact H1.
Qed.
Lemma same_bits_eq o l : same_bits o l = true -> o = Some l.
Proof. destruct o as [m|]; [|discriminate]. cbn [same_bits]. destruct (list_eq_dec _ _ _) as [E|]; [|discriminate]. intros _. apply bits_inj in E. subst. reflexivity. Qed.

Lemma wide_quantised : bounds_used FL ord0 ub0 (Some (dy 1 (-10), repeat 0 1024)) wide_ebs = Some wide_ebs /\
  is_finite 53 1024 (dy 1 (-10)) = true /\ (bpow radix2 (-900) <= B2R 53 1024 (dy 1 (-10)))%R /\
  (forall e, In e wide_ebs -> is_finite 53 1024 e = true /\ (B2R 53 1024 e <= bpow radix2 100)%R).
Proof.
  split; [apply same_bits_eq; vm_compute; reflexivity|]. destruct tenth_R as [F E]. split; [exact F|]. split; [rewrite E; apply bpow_le; lia|].
  intros e He. destruct (wide_ebs_in e He); subst e.
  - split; [reflexivity|]. rewrite half_R. apply bpow_le. lia.
  - split; [reflexivity|]. change (B2R 53 1024 (dy 0 0)) with 0%R. apply bpow_ge_0.
Qed.

(** A negative bound makes the program stop at the first value. *)
Theorem negative_bound_stops : exists eb (data : list binary32) junk buf size,
  length data = length eb /\ Z.of_nat (length data) = 16 * 16 /\ (forall x, In x data -> is_finite 24 128 x = true) /\
  compress_2d_eb FL FLO ord0 ub0 16 16 12 false eb [0; 0; 0] data junk = Some (buf, size) /\ (320 <= size)%nat /\
  main_2d_with_eb FL FLO store0 heap0 ord0 ub0 None 16 16 eb [0; 0; 0] data junk = Some (Stopped 0).
Proof.
  assert (W : match out_size (compress_2d_eb FL FLO ord0 ub0 16 16 12 false neg_ebs [0; 0; 0] wide32 (repeat 0 1228)) with Some s => (320 <=? s)%nat | None => false end = true)
    by (vm_compute; reflexivity).
  assert (S : ends (main_2d_with_eb FL FLO store0 heap0 ord0 ub0 None 16 16 neg_ebs [0; 0; 0] wide32 (repeat 0 1228)) = Some (Some 0)) by (vm_compute; reflexivity).
  apply ends_stopped in S.
  destruct (compress_2d_eb FL FLO ord0 ub0 16 16 12 false neg_ebs [0; 0; 0] wide32 (repeat 0 1228)) as [[buf size]|] eqn:E; [|discriminate W].
  exists neg_ebs, wide32, (repeat 0 1228), buf, size. split; [reflexivity|]. split; [reflexivity|]. split; [|split; [exact E|split; [cbn [out_size] in W; lia|exact S]]].
  assert (FF : forallb (fun x => is_finite 24 128 x) wide32 = true) by (vm_compute; reflexivity). rewrite forallb_forall in FF. exact FF.
Qed.

(** ** The indices do not determine the bounds *)
Lemma each_bound_repeat A q (e : D A) id b n : q e = Some (id, b) -> each_bound A q (repeat e n) = Some (repeat id n, repeat b n).
Proof. intros H. induction n as [|n IH]; cbn [each_bound repeat]; [reflexivity|]. rewrite H. cbn [bind]. rewrite IH. reflexivity. Qed.

Lemma constant_bounds A ord ub base_eb (e : D A) id b n junk buf size : eb_exponential_quantize A 2 base_eb e = Some (id, b) ->
  Z.of_nat (length junk) = 4 * Z.of_nat n -> write_pieces ord ub [Huff (2 * 1024) (repeat id n)] junk 0 = Some (buf, size) ->
  quantize_and_compress_eb A ord ub base_eb (repeat e n) junk = Some (repeat b n, firstn size buf).
Proof.
  intros Q HL HW. unfold quantize_and_compress_eb. rewrite (each_bound_repeat _ _ _ _ _ n Q). cbn [bind]. rewrite repeat_length.
  replace (Z.of_nat (length junk) =? 4 * Z.of_nat n) with true by lia. rewrite HW. reflexivity.
Qed.

(** Index 0 stands for the bound 0 and for the base bound. *)
Lemma index_zero_twice lm (L : libm_ok (FA lm) (FA_ieee lm)) :
  eb_exponential_quantize (FA lm) 2 (dy 1 0) (dy 1 0) = Some (0, b64_ofZ 0) /\
  exists b, eb_exponential_quantize (FA lm) 2 (dy 1 0) (dy 3 (-1)) = Some (0, b) /\ is_finite 53 1024 b = true /\ B2R 53 1024 b = 1%R.
Proof.
  assert (V1 : val 53 1024 (dy 1 0) = Fin 1) by (apply (two_pow64_val 0); lia).
  assert (V3 : val 53 1024 (dy 3 (-1)) = Fin (3 * / 2)).
  { rewrite val_dy. unfold F2R. cbn [Fnum Fexp]. change (bpow radix2 (-1)) with (/ 2)%R. apply rndx_fin.
    - replace (3 * / 2)%R with (F2R (Float radix2 3 (-1))) by reflexivity. apply (generic_format_FLT radix2 (-1074) 53).
      exists (Float radix2 3 (-1)); cbn; [reflexivity|lia|lia].
    - rewrite Rabs_pos_eq by lra. apply Rlt_trans with (bpow radix2 2); [change (bpow radix2 2) with 4%R; lra|apply bpow_lt; lia]. }
  split.
  - unfold eb_exponential_quantize. rewrite (v_dle (FA lm) (FA_ieee lm)). change (vD (FA lm) (FA_ieee lm) (dy 1 0)) with (val 53 1024 (dy 1 0)). rewrite V1.
    cbn [xle]. rewrite Rle_bool_true by lra. reflexivity.
  - destruct (quantize_any (FA lm) (FA_ieee lm) L (dy 1 0) 1 (dy 3 (-1)) (3 * / 2)) as (id & b & a & Q & H1 & H2 & H3).
    + exact V1.
    + change 1%R with (bpow radix2 0). apply bpow_le. lia.
    + exact V3.
    + rewrite Rmult_1_l. apply Rle_trans with (bpow radix2 2); [change (bpow radix2 2) with 4%R; lra|apply bpow_le; lia].
    + apply Rle_trans with (bpow radix2 2); [change (bpow radix2 2) with 4%R; lra|apply bpow_le; lia].
    + destruct H3 as [[_ H3]|(_ & Ha & H3)]; [lra|]. rewrite Rmult_1_r in Ha.
      assert (id = 0).
      { assert (bpow radix2 id < bpow radix2 1)%R.
        { rewrite <- Ha. change (bpow radix2 1) with 2%R. eapply Rle_lt_trans; [exact H3|].
          assert (bpow radix2 (-39) <= bpow radix2 (-2))%R by (apply bpow_le; lia). change (bpow radix2 (-2)) with (/ 4)%R in H. lra. }
        apply lt_bpow in H. lia. }
      subst id. change (bpow radix2 0) with 1%R in Ha. subst a. apply (val_fin_iff 53 1024) in H2. exists b. split; [exact Q|exact H2].
Qed.

Theorem indices_ambiguous lm (L : libm_ok (FA lm) (FA_ieee lm)) : exists base_eb eb1 eb2 junk bs1 bs2 bytes,
  is_finite 53 1024 base_eb = true /\ (0 < B2R 53 1024 base_eb)%R /\
  quantize_and_compress_eb (FA lm) ord0 ub0 base_eb eb1 junk = Some (bs1, bytes) /\
  quantize_and_compress_eb (FA lm) ord0 ub0 base_eb eb2 junk = Some (bs2, bytes) /\
  length bs1 = length bs2 /\ (forall b, In b bs1 -> B2R 53 1024 b = 0%R) /\ (forall b, In b bs2 -> B2R 53 1024 b = 1%R) /\ bs1 <> [].
Proof.
  destruct (index_zero_twice lm L) as (Q1 & b & Q2 & Fb & Rb).
  assert (W : if write_pieces ord0 ub0 [Huff (2 * 1024) (repeat 0 64)] (repeat 0 256) 0 then true = true else False) by (vm_compute; reflexivity).
  destruct (write_pieces ord0 ub0 [Huff (2 * 1024) (repeat 0 64)] (repeat 0 256) 0) as [[buf size]|] eqn:E; [|contradiction].
  exists (dy 1 0), (repeat (dy 1 0) 64), (repeat (dy 3 (-1)) 64), (repeat 0 256), (repeat (b64_ofZ 0) 64), (repeat b 64), (firstn size buf).
  assert (V1 : val 53 1024 (dy 1 0) = Fin 1) by (apply (two_pow64_val 0); lia). apply (val_fin_iff 53 1024) in V1. destruct V1 as [F1 V1].
  split; [exact F1|]. split; [rewrite V1; lra|].
  split; [exact (constant_bounds (FA lm) ord0 ub0 _ _ _ _ 64 (repeat 0 256) buf size Q1 eq_refl E)|].
  split; [exact (constant_bounds (FA lm) ord0 ub0 _ _ _ _ 64 (repeat 0 256) buf size Q2 eq_refl E)|].
  split; [rewrite !repeat_length; reflexivity|].
  split; [intros x Hx; apply repeat_spec in Hx; subst x; reflexivity|]. split; [intros x Hx; apply repeat_spec in Hx; subst x; exact Rb|discriminate].
Qed.

(** ** The index buffer is too small *)
Definition steep_ebs : list binary64 := map (fun k => dy 1 k) (zrange 1 65).
Theorem index_buffer_overrun : exists base_eb eb,
  is_finite 53 1024 base_eb = true /\ length eb = 64%nat /\ (forall e, In e eb -> is_finite 53 1024 e = true) /\
  (exists ids bs buf size, each_bound FL (eb_exponential_quantize FL 2 base_eb) eb = Some (ids, bs) /\
     write_pieces ord0 ub0 [Huff (2 * 1024) ids] (repeat 0 2000) 0 = Some (buf, size) /\ size = 959%nat) /\
  quantize_and_compress_eb FL ord0 ub0 base_eb eb (repeat 0 256) = None /\
  (exists eb2 r, length eb2 = 64%nat /\ quantize_and_compress_eb FL ord0 ub0 base_eb eb2 (repeat 0 256) = Some r).
Proof.
  exists (dy 1 0), steep_ebs. split; [reflexivity|]. split; [reflexivity|]. split.
  { assert (FF : forallb (fun x => is_finite 53 1024 x) steep_ebs = true) by (vm_compute; reflexivity). rewrite forallb_forall in FF. exact FF. }
  assert (W : match each_bound FL (eb_exponential_quantize FL 2 (dy 1 0)) steep_ebs with Some (ids, _) => out_size (write_pieces ord0 ub0 [Huff (2 * 1024) ids] (repeat 0 2000) 0) | None => None end = Some 959%nat)
    by (vm_compute; reflexivity).
  split.
  - destruct (each_bound FL (eb_exponential_quantize FL 2 (dy 1 0)) steep_ebs) as [[ids bs]|] eqn:E; [|discriminate W].
    destruct (write_pieces ord0 ub0 [Huff (2 * 1024) ids] (repeat 0 2000) 0) as [[buf size]|] eqn:E2; [|discriminate W]. cbn [out_size] in W. apply Some_inj in W.
    exists ids, bs, buf, size. auto.
  - split; [|exists (repeat (dy 1 1) 64)].
    2:{ assert (K : match quantize_and_compress_eb FL ord0 ub0 (dy 1 0) (repeat (dy 1 1) 64) (repeat 0 256) with Some _ => true | None => false end = true) by (vm_compute; reflexivity).
        destruct (quantize_and_compress_eb FL ord0 ub0 (dy 1 0) (repeat (dy 1 1) 64) (repeat 0 256)) as [r|]; [|discriminate K]. exists r. split; reflexivity. }
    assert (K : match quantize_and_compress_eb FL ord0 ub0 (dy 1 0) steep_ebs (repeat 0 256) with Some _ => false | None => true end = true) by (vm_compute; reflexivity).
    destruct (quantize_and_compress_eb _ _ _ _ _ _); [discriminate K|reflexivity].
Qed.

(** ** test/sz_compress_test_with_eb.cpp stops at the first value *)
Local Notation DL := (DA lm_strict).
Local Notation DLO := (DO lm_strict).
Definition even_data : list binary64 := repeat (dy 1 29) 128.
Definition even_tmp : list binary64 := repeat (dy (2 ^ 49 - 1) (-49)) 80 ++ repeat (dy 0 0) 48.

Lemma almost_one : is_finite 53 1024 (dy (2 ^ 49 - 1) (-49)) = true /\ B2R 53 1024 (dy (2 ^ 49 - 1) (-49)) = (1 - bpow radix2 (-49))%R.
Proof.
  apply (val_fin_iff 53 1024). rewrite val_dy.
  assert (E : F2R (Float radix2 (2 ^ 49 - 1) (-49)) = (1 - bpow radix2 (-49))%R).
  { unfold F2R. cbn [Fnum Fexp]. rewrite minus_IZR. change (IZR (2 ^ 49)) with (bpow radix2 49). rewrite Rmult_minus_distr_r, <- bpow_plus, Rmult_1_l. reflexivity. }
  rewrite <- E. apply rndx_fin.
  - apply (generic_format_FLT radix2 (-1074) 53). exists (Float radix2 (2 ^ 49 - 1) (-49)); cbn; [reflexivity|lia|lia].
  - rewrite E. pose proof (bpow_gt_0 radix2 (-49)). assert (bpow radix2 (-49) < 1)%R by (change 1%R with (bpow radix2 0); apply bpow_lt; lia).
    rewrite Rabs_pos_eq by lra. apply Rlt_trans with 1%R; [lra|]. change 1%R with (bpow radix2 0). apply bpow_lt. lia.
Qed.

Lemma even_hyps : (forall x, In x even_data -> finite_le 400 x) /\
  (forall t, In t even_tmp -> is_finite 53 1024 t = true /\ (0 <= B2R 53 1024 t <= bpow radix2 400)%R) /\
  Z.of_nat (length even_data) = 4 * 4 * 8 /\
  exists bs buf size, relative_setup DL ord0 ub0 (2 ^ 1) even_tmp even_data (repeat 0 512) = Some bs /\
    compress_2d_eb DL DLO ord0 ub0 (4 * 4) 8 12 false bs (repeat 0 7) even_data (repeat 0 1228) = Some (buf, size) /\ (320 <= size)%nat /\
    short_blocks ord0 65536 (encode_2d_eb DL DLO (4 * 4) 8 12 bs even_data).
Proof.
  split; [|split; [|split; [reflexivity|]]].
  - intros x Hx. apply repeat_spec in Hx. subst x. pose proof (two_pow64_val 29 ltac:(lia)) as K. apply (val_fin_iff 53 1024) in K. destruct K as [F K].
    split; [exact F|]. change (dy 1 29) with (two_pow64 29). rewrite K. rewrite Rabs_pos_eq by apply bpow_ge_0. apply bpow_le. lia.
  - intros t Ht. apply in_app_or in Ht. destruct Ht as [Ht|Ht]; apply repeat_spec in Ht; subst t.
    + destruct almost_one as [F E]. split; [exact F|]. rewrite E. pose proof (bpow_gt_0 radix2 (-49)).
      assert (bpow radix2 (-49) < 1)%R by (change 1%R with (bpow radix2 0); apply bpow_lt; lia).
      assert (1 <= bpow radix2 400)%R by (change 1%R with (bpow radix2 0); apply bpow_le; lia). lra.
    + split; [reflexivity|]. change (B2R 53 1024 (dy 0 0)) with 0%R. split; [lra|apply bpow_ge_0].
  - assert (W : match relative_setup DL ord0 ub0 (2 ^ 1) even_tmp even_data (repeat 0 512) with
      | Some bs => match out_size (compress_2d_eb DL DLO ord0 ub0 (4 * 4) 8 12 false bs (repeat 0 7) even_data (repeat 0 1228)) with
                   | Some s => (320 <=? s)%nat && few_blocks (encode_2d_eb DL DLO (4 * 4) 8 12 bs even_data) | None => false end
      | None => false end = true) by (vm_compute; reflexivity).
    destruct (relative_setup DL ord0 ub0 (2 ^ 1) even_tmp even_data (repeat 0 512)) as [bs|]; [|discriminate W].
    destruct (compress_2d_eb DL DLO ord0 ub0 (4 * 4) 8 12 false bs (repeat 0 7) even_data (repeat 0 1228)) as [[buf size]|] eqn:E; [|discriminate W].
    cbn [out_size] in W. apply andb_true_iff in W. destruct W as [W1 W2]. exists bs, buf, size. split; [reflexivity|]. split; [exact E|]. split; [apply Nat.leb_le; exact W1|].
    apply few_short. exact W2.
Qed.

Theorem relative_test_stops : exists lm tmp (data : list binary64) junk_ids junk,
  libm_ok (DA lm) (DA_ieee lm) /\ (forall x, In x data -> finite_le 400 x) /\
  (forall t, In t tmp -> is_finite 53 1024 t = true /\ (0 <= B2R 53 1024 t <= bpow radix2 400)%R) /\ Z.of_nat (length data) = 4 * 4 * 8 /\
  (exists bs buf size, relative_setup (DA lm) ord0 ub0 (2 ^ 1) tmp data junk_ids = Some bs /\
    compress_2d_eb (DA lm) (DO lm) ord0 ub0 (4 * 4) 8 12 false bs (repeat 0 7) data junk = Some (buf, size) /\ (320 <= size)%nat /\
    short_blocks ord0 65536 (encode_2d_eb (DA lm) (DO lm) (4 * 4) 8 12 bs data)) /\
  main_test_with_eb (DA lm) (DO lm) store0 heap0 ord0 ub0 (2 ^ 1) 4 4 8 tmp (repeat 0 7) data junk_ids junk = Some (Stopped 0).
Proof.
  exists lm_strict, even_tmp, even_data, (repeat 0 512), (repeat 0 1228). split; [exact lm_strict_ok|].
  destruct even_hyps as (H1 & H2 & H3 & H4). split; [exact H1|]. split; [exact H2|]. split; [exact H3|]. split; [exact H4|].
  apply ends_stopped. vm_compute. reflexivity.
Qed.

Lemma wide_indices : exists bs bytes, quantize_and_compress_eb FL ord0 ub0 (dy 1 (-10)) wide_ebs (repeat 0 1024) = Some (bs, bytes).
Proof.
  destruct wide_quantised as [H _]. unfold bounds_used in H.
  destruct (quantize_and_compress_eb FL ord0 ub0 (dy 1 (-10)) wide_ebs (repeat 0 1024)) as [[bs bytes]|]; [eauto|discriminate H].
Qed.
