(** Exact arithmetic of the linear quantiser; index range of the quantiser inside the critical-point codecs; what fails
    in the block codecs; fields that go through. *)
From Coq Require Import Reals Lra Lia ZArith List Bool.
From Coq Require Import ZifyBool ZifyNat.
From Flocq Require Import Core.Core IEEE754.BinarySingleNaN IEEE754.Binary IEEE754.Bits.
From Verif Require Import Base Huffman HuffStream HuffProps BitPack Stream Arith Codec2D Sync2D Stream2D Exact IEEE IEEELaws IEEEQuant IEEE2D Api2D RelaxApi2D
  LibmModel Witness2D Examples2D LinQuant Block BlockSync BlockTile BlockBytes BlockIEEE BlockApi BlockTotal.
Import ListNotations.
Local Open Scope Z_scope.

(** ** Exact arithmetic *)
Definition XO : FOps XA := {|
  F := XR; fadd := xadd; fmul := xmul; fdiv := xdiv; fofZ := fun z => Fin (IZR z);
  f2d := ((fun x => x) : XR -> D XA); d2f := ((fun x => x) : D XA -> XR); f2t := ((fun x => x) : XR -> T XA); t2f := ((fun x => x) : T XA -> XR);
  fsub := xsub; fabsf := xabs; fsize_of := 0; fser := fun _ => []; fdes := fun _ => NaN; dtenth := (Fin (/ 10) : D XA)
|}.

Section ExactQ.
Local Open Scope R_scope.
Local Transparent xdiv.
(** Nearest even multiple of the precision. *)
Lemma bin_half x k : 0 <= x -> k = Zfloor ((x + 1) / 2) -> Rabs (x - 2 * IZR k) <= 1.
Proof.
  intros Hx ->. pose proof (Zfloor_lb ((x + 1) / 2)). pose proof (Zfloor_ub ((x + 1) / 2)).
  apply Rabs_le. split; lra.
Qed.

Theorem lin_quantize_exact pred cur p cap rad : 0 < p -> (0 <= cap <= 2 ^ 31)%Z ->
  (Rabs (cur - pred) < (IZR cap - 1) * p ->
   exists q x, lin_quantize (qT XA XO) (Fin pred) (Fin cur) (Fin p) cap rad = Some (Predicted q (Fin x)) /\
     (- cap < 2 * (q - rad) < cap)%Z /\ Rabs (x - cur) <= p) /\
  ((IZR cap - 1) * p <= Rabs (cur - pred) ->
   lin_quantize (qT XA XO) (Fin pred) (Fin cur) (Fin p) cap rad = Some Unpredictable).
Proof.
  intros Hp Hc. set (d := cur - pred). set (x := Rabs d / p).
  assert (Hx : 0 <= x) by (apply Rmult_le_pos; [apply Rabs_pos|apply Rlt_le, Rinv_0_lt_compat; auto]).
  assert (Exp : x * p = Rabs d) by (unfold x; field; lra).
  assert (E : xadd (xdiv (xabs (xsub (Fin cur) (Fin pred))) (Fin p)) (Fin 1) = Fin (x + 1)).
  { cbn [xsub xabs xdiv]. rewrite Req_bool_false by lra. reflexivity. }
  unfold lin_quantize. change (q_diff (qT XA XO) (Fin cur) (Fin pred)) with (xsub (Fin cur) (Fin pred)).
  change (dadd XA) with xadd. change (ddiv XA) with xdiv. change (dabs XA) with xabs. change (dofZ XA) with (fun z => Fin (IZR z)). cbv beta.
  change (dlt XA) with xlt. change (dneg XA) with xneg. change (dtoint XA) with xtoint. change (dle XA) with xle.
  rewrite E. split; intros H.
  - assert (L : x + 1 < IZR cap).
    { apply Rmult_lt_reg_r with p; [auto|]. unfold d in *. nra. }
    replace (xlt (Fin (x + 1)) (Fin (IZR cap))) with true by (symmetry; apply xlt_fin; auto).
    set (k := Zfloor ((x + 1) / 2)).
    pose proof (bin_half x k Hx eq_refl) as HB. pose proof (Zfloor_lb ((x + 1) / 2)) as F1. fold k in F1.
    assert (K0 : (0 <= k)%Z) by (apply Zfloor_lub; change (IZR 0) with 0; lra).
    assert (K1 : (2 * k < cap)%Z) by (apply lt_IZR; rewrite mult_IZR; lra).
    cbn [xsub]. fold d.
    assert (TR : exists s, (s = k \/ s = - k)%Z /\
       xtoint (xdiv (if xlt (Fin 0) (Fin d) then Fin (x + 1) else xneg (Fin (x + 1))) (Fin 2)) = Some s /\ Rabs (d - 2 * IZR s * p) <= p).
    { assert (AB : Rabs (Rabs d - 2 * IZR k * p) <= p).
      { replace (Rabs d - 2 * IZR k * p) with ((x - 2 * IZR k) * p) by lra. rewrite Rabs_mult, (Rabs_pos_eq p) by lra. nra. }
      destruct (xlt (Fin 0) (Fin d)) eqn:ED.
      - apply xlt_fin in ED. exists k. split; [auto|]. cbn [xdiv]. rewrite Req_bool_false by lra. cbn [xtoint].
        rewrite Ztrunc_floor by lra. fold k. replace ((- 2 ^ 31 <=? k)%Z && (k <? 2 ^ 31)%Z)%bool with true by lia. split; [reflexivity|].
        rewrite (Rabs_pos_eq d) in AB by lra. exact AB.
      - apply xlt_fin_false in ED. exists (- k)%Z. split; [auto|]. cbn [xneg xdiv]. rewrite Req_bool_false by lra. cbn [xtoint].
        rewrite Ztrunc_ceil by lra. unfold Zceil. replace (- (- (x + 1) / 2)) with ((x + 1) / 2) by lra. fold k.
        replace ((- 2 ^ 31 <=? - k)%Z && (- k <? 2 ^ 31)%Z)%bool with true by lia. split; [reflexivity|].
        rewrite (Rabs_left1 d) in AB by lra. rewrite opp_IZR. rewrite <- Rabs_Ropp. replace (- (d - 2 * - IZR k * p)) with (- d - 2 * IZR k * p) by lra. exact AB. }
    destruct TR as (s & Hs & TR & HE).
    match goal with |- context [xtoint ?e] => replace (xtoint e) with (Some s) by (symmetry; exact TR) end. cbn [bind].
    exists (s + rad)%Z, (pred + IZR (2 * (s + rad - rad)) * p).
    change (dequantise (qT XA XO) (Fin pred) (Fin p) (s + rad) rad) with (Fin (pred + IZR (2 * (s + rad - rad)) * p)).
    change (q_err (qT XA XO) ?a ?b) with (xabs (xsub a b)). cbn [xsub xabs].
    replace (s + rad - rad)%Z with s by lia.
    assert (HE' : Rabs (pred + IZR (2 * s) * p - cur) <= p).
    { rewrite mult_IZR. rewrite <- Rabs_Ropp. replace (- (pred + 2 * IZR s * p - cur)) with (d - 2 * IZR s * p) by (unfold d; lra). exact HE. }
    replace (xle (Fin (Rabs (pred + IZR (2 * s) * p - cur))) (Fin p)) with true by (symmetry; apply xle_fin; exact HE').
    split; [reflexivity|]. split; [lia|exact HE'].
  - assert (L : IZR cap <= x + 1).
    { apply Rmult_le_reg_r with p; [auto|]. unfold d in *. nra. }
    replace (xlt (Fin (x + 1)) (Fin (IZR cap))) with false by (symmetry; apply xlt_fin_false; auto). reflexivity.
Qed.
Local Opaque xdiv.
End ExactQ.

(** ** The quantiser of the critical-point codecs *)
Theorem quantise_range (A : Arith) (I : ieee A) pred cur eb q x : xlt (Fin 0) (vD A I eb) = true ->
  quantise A pred cur eb = Some (Coded A q x) -> 0 < q < capacity.
Proof.
  intros Hp H. unfold quantise in H. set (d := t2d A (tsub A cur pred)) in H.
  destruct (dlt A (dadd A (ddiv A (dabs A d) eb) (dofZ A 1)) (dofZ A capacity)) eqn:EL; [|discriminate].
  destruct (qd_range A I d eb capacity Hp ltac:(unfold capacity; lia) EL) as (v & Hv & Gv & Bv & _).
  destruct (half_index A I _ d v capacity ltac:(unfold capacity; lia) Hv Gv Bv) as (k & Ek & Bk).
  rewrite Ek in H. cbn [bind] in H. destruct (dle A eb _); [discriminate|]. apply Some_inj in H. injection H as E1 E2.
  unfold capacity, intv_radius in *. lia.
Qed.

Theorem quantise_range_double lm pred cur (eb : binary64) q x : is_finite 53 1024 eb = true -> (0 < B2R 53 1024 eb)%R ->
  quantise (DA lm) pred cur eb = Some (Coded (DA lm) q x) -> 0 < q < capacity.
Proof.
  intros HF HP. apply (quantise_range (DA lm) (DA_ieee lm)).
  change (xlt (Fin 0) (val 53 1024 eb) = true). rewrite (val_fin 53 1024 eb HF). apply xlt_fin. exact HP.
Qed.
Theorem quantise_range_float lm pred cur (eb : binary64) q x : is_finite 53 1024 eb = true -> (0 < B2R 53 1024 eb)%R ->
  quantise (FA lm) pred cur eb = Some (Coded (FA lm) q x) -> 0 < q < capacity.
Proof.
  intros HF HP. apply (quantise_range (FA lm) (FA_ieee lm)).
  change (xlt (Fin 0) (val 53 1024 eb) = true). rewrite (val_fin 53 1024 eb HF). apply xlt_fin. exact HP.
Qed.

(** The linear quantiser on doubles and floats, for whatever precision. *)
Theorem lin_range_double lm pred cur p rad lo q x : 0 <= 2 * (rad - lo) <= 2 ^ 31 ->
  lin_quantize (qT (DA lm) (DO lm)) pred cur p (2 * (rad - lo)) rad = Some (Predicted q x) -> lo < q < 2 * rad - lo.
Proof. intros H. apply (lin_quantize_range _ _ _ _ _ (DQT lm)); lia. Qed.
Theorem lin_range_float lm pred cur p rad lo q x : 0 <= 2 * (rad - lo) <= 2 ^ 31 ->
  lin_quantize (qT (FA lm) (FO lm)) pred cur p (2 * (rad - lo)) rad = Some (Predicted q x) -> lo < q < 2 * rad - lo.
Proof. intros H. apply (lin_quantize_range _ _ _ _ _ (FQT lm)); lia. Qed.

Theorem lin_bound_double lm pred (cur : binary64) p cap rad q x : is_finite 53 1024 p = true ->
  lin_quantize (qT (DA lm) (DO lm)) pred cur p cap rad = Some (Predicted q x) ->
  is_finite 53 1024 cur = true /\ differs_le (B2R 53 1024 p * (1 + bpow radix2 (- 53))) cur x.
Proof.
  intros HF H. destruct (lin_quantize_bound _ (DA_ieee lm) _ _ _ (DQT lm) pred cur p cap rad q x (B2R 53 1024 p)) as (r & s & E1 & E2 & E3); auto.
  - exact (val_fin 53 1024 p HF).
  - change (val 53 1024 x = Fin r) in E1. change (val 53 1024 cur = Fin s) in E2.
    apply (val_fin_iff 53 1024) in E1, E2. destruct E1 as [F1 <-]. destruct E2 as [F2 <-]. split; [exact F2|]. split; [exact F1|exact E3].
Qed.
Theorem lin_bound_float lm pred (cur : binary32) p cap rad q x : is_finite 53 1024 p = true ->
  lin_quantize (qT (FA lm) (FO lm)) pred cur p cap rad = Some (Predicted q x) ->
  is_finite 24 128 cur = true /\ differs_le (B2R 53 1024 p * (1 + bpow radix2 (- 24))) cur x.
Proof.
  intros HF H. destruct (lin_quantize_bound _ (FA_ieee lm) _ _ _ (FQT lm) pred cur p cap rad q x (B2R 53 1024 p)) as (r & s & E1 & E2 & E3); auto.
  - exact (val_fin 53 1024 p HF).
  - change (val 24 128 x = Fin r) in E1. change (val 24 128 cur = Fin s) in E2.
    apply (val_fin_iff 24 128) in E1, E2. destruct E1 as [F1 <-]. destruct E2 as [F2 <-]. split; [exact F2|]. split; [exact F1|exact E3].
Qed.

(** ** Doubles: the decompressor skips four bytes per verbatim value *)
Section Skip.
Context (A : Arith) (O : FOps A).

Lemma read_array_short w n s : (1 <= w)%nat -> (length s < n)%nat -> read_array w n s = None.
Proof.
  intros Hw. revert s. induction n as [|n IH]; intros s H; [lia|]. cbn [read_array]. unfold read_le, take_bytes.
  destruct (w <=? length s)%nat eqn:E; [|reflexivity]. cbn [bind]. rewrite IH; [reflexivity|]. rewrite skipn_length. lia.
Qed.

Lemma idx_width_pos z : (1 <= idx_width z)%nat.
Proof. unfold idx_width. destruct (z <=? 256); [lia|]. destruct (z <=? 65536); lia. Qed.

Lemma read_le_shorter k s v r : read_le k s = Some (v, r) -> (length r <= length s)%nat.
Proof.
  unfold read_le, take_bytes. destruct (k <=? length s)%nat; [|discriminate]. cbn [bind]. intros H. apply Some_inj in H.
  injection H as _ ->. rewrite skipn_length. lia.
Qed.

(** A node count larger than the rest of the stream. *)
Lemma huffman_short num s nc s1 : read_le 8 s = Some (nc, s1) -> Z.of_nat (length s) < nc -> huffman_decode_tree_and_data num s = None.
Proof.
  intros H HL. unfold huffman_decode_tree_and_data. rewrite H. cbn [bind].
  pose proof (read_le_shorter _ _ _ _ H) as L1.
  destruct (read_le 4 s1) as [[ts s2]|] eqn:E2; [|reflexivity]. cbn [bind]. pose proof (read_le_shorter _ _ _ _ E2) as L2.
  unfold reconstruct_tree. destruct (take_bytes 1 s2) as [[a s3]|] eqn:E3; [|reflexivity]. cbn [bind].
  assert (L3 : (length s3 <= length s2)%nat).
  { unfold take_bytes in E3. destruct (1 <=? length s2)%nat; [|discriminate]. apply Some_inj in E3. apply (f_equal snd) in E3. cbn [snd] in E3.
    rewrite E3, skipn_length. lia. }
  rewrite read_array_short; [reflexivity|apply idx_width_pos|lia].
Qed.

(** What the decompressor has left when it reaches the symbols, if no block uses regression. *)
Definition left_3d (r1 r2 r3 : Z) (s : list Z) : option (list Z) :=
  let* (bs, s1) := read_s32 s in
  check* (1 <=? r1) && (1 <=? r2) && (1 <=? r3) && (1 <=? bs) in
  let* (pb, s2) := take_bytes 8 s1 in
  let* (ib, s3) := take_bytes 1 s2 in
  let* (radius, s4) := read_s32 s3 in
  let* (mean, s5) := read_mean A s4 in
  let nb := Z.to_nat (num_blocks r1 bs * num_blocks r2 bs * num_blocks r3 bs) in
  let* (rcount, s6) := read_le 8 s5 in
  let* (cnt, s7) := read_le 8 s6 in
  let* (unp, _) := tread_array A (Z.to_nat cnt) s7 in
  let* (_, s8) := take_bytes (Z.to_nat cnt * fsize_of O) s7 in
  check* (1 <=? nb)%nat in
  let* (ind, s9) := unpack_flags nb (sign_map_size nb) s8 in
  check* (rcount =? 0) in
  Some s9.

Lemma left_3d_none r1 r2 r3 s s9 nc rest : left_3d r1 r2 r3 s = Some s9 ->
  read_le 8 s9 = Some (nc, rest) -> Z.of_nat (length s9) < nc -> decompress_3d A O r1 r2 r3 s = None.
Proof.
  unfold left_3d, decompress_3d. intros H HN HL.
  destruct (read_s32 s) as [[bs s1]|]; [|discriminate]. cbn [bind] in *.
  destruct (_ && _) in *; [|discriminate].
  destruct (take_bytes 8 s1) as [[pb s2]|]; [|discriminate]. cbn [bind] in *.
  destruct (take_bytes 1 s2) as [[ib s3]|]; [|discriminate]. cbn [bind] in *.
  destruct (read_s32 s3) as [[radius s4]|]; [|discriminate]. cbn [bind] in *.
  destruct (read_mean A s4) as [[mean s5]|]; [|discriminate]. cbn [bind] in *.
  unfold read_blocks. destruct (read_le 8 s5) as [[rcount s6]|]; [|discriminate]. cbn [bind] in *.
  destruct (read_le 8 s6) as [[cnt s7]|]; [|discriminate]. cbn [bind] in *.
  destruct (tread_array A (Z.to_nat cnt) s7) as [[unp s7']|]; [|discriminate]. cbn [bind] in *.
  destruct (take_bytes (Z.to_nat cnt * fsize_of O) s7) as [[x s8]|]; [|discriminate]. cbn [bind] in *.
  destruct (1 <=? _)%nat in *; [|discriminate].
  destruct (unpack_flags _ _ s8) as [[ind s9']|]; [|discriminate]. cbn [bind] in *.
  destruct (rcount =? 0) eqn:E0; [|discriminate]. apply Some_inj in H. subst s9'. cbn [bind].
  rewrite (huffman_short _ _ _ _ HN HL). reflexivity.
Qed.
End Skip.

Definition half64 : binary64 := two_pow64 (-1).
(** A constant field whose last value is far away: one verbatim value. *)
Definition spike64 : list binary64 := repeat (b64_ofZ 1) 63 ++ [b64_ofZ (2 ^ 30)].
Local Notation spike_out := (compress_3d (DA (lm64 false)) (DO (lm64 false)) ord0 ub0 4 4 4 4 false half64 65536 None [None] (repeat 0 7) spike64 (repeat 0 614)).

Definition runs_off (out : option (list Z * nat)) : bool :=
  match out with
  | Some (buf, size) =>
      match left_3d (DA (lm64 false)) (DO (lm64 false)) 4 4 4 (firstn size buf) with
      | Some s9 => match read_le 8 s9 with Some (nc, _) => Z.of_nat (length s9) <? nc | None => false end
      | None => false
      end
  | None => false
  end.
Lemma runs_off_none out : runs_off out = true ->
  exists buf size, out = Some (buf, size) /\ decompress_3d (DA (lm64 false)) (DO (lm64 false)) 4 4 4 (firstn size buf) = None.
Proof.
  unfold runs_off. intros H. destruct out as [[buf size]|]; [|discriminate]. exists buf, size. split; [reflexivity|].
  destruct (left_3d _ _ 4 4 4 (firstn size buf)) as [s9|] eqn:E1; [|discriminate].
  destruct (read_le 8 s9) as [[nc rest]|] eqn:E2; [|discriminate].
  eapply left_3d_none; [exact E1|exact E2|lia].
Qed.
Lemma spike_checked : runs_off spike_out = true.
Proof. vm_compute. reflexivity. Qed.

Theorem skip_refuted : exists (data : list binary64) precision capacity plan pad junk buf size,
  Z.even capacity = true /\ 32 <= capacity <= 131072 /\ Z.of_nat (length data) = 4 * 4 * 4 /\
  is_finite 53 1024 precision = true /\ at_least (-60) precision /\ (forall x, In x data -> finite_le 30 x) /\
  good_plan 4 (num_blocks 4 4 * num_blocks 4 4 * num_blocks 4 4) plan /\ length pad = 7%nat /\
  compress_3d (DA (lm64 false)) (DO (lm64 false)) ord0 ub0 4 4 4 4 false precision capacity None plan pad data junk = Some (buf, size) /\
  decompress_3d (DA (lm64 false)) (DO (lm64 false)) 4 4 4 (firstn size buf) = None.
Proof.
  destruct (runs_off_none _ spike_checked) as (buf & size & E & EN).
  exists spike64, half64, 65536, [None], (repeat 0 7), (repeat 0 614), buf, size.
  split; [reflexivity|]. split; [lia|]. split; [reflexivity|]. split; [reflexivity|].
  assert (V : B2R 53 1024 half64 = bpow radix2 (-1)).
  { pose proof (two_pow64_val (-1) ltac:(lia)) as K. apply (val_fin_iff 53 1024) in K. apply K. }
  split; [unfold at_least; rewrite V; apply bpow_le; lia|].
  split.
  { assert (HI : forall z, (0 <= z <= 2 ^ 30) -> finite_le 30 (b64_ofZ z)).
    { intros z Hz. pose proof (vD_const (DA (lm64 false)) (DA_ieee (lm64 false)) z ltac:(lia)) as K.
      change (val 53 1024 (b64_ofZ z) = Fin (IZR z)) in K. apply (val_fin_iff 53 1024) in K. destruct K as [K1 K2]. split; [exact K1|].
      rewrite K2, Rabs_pos_eq by (apply (IZR_le 0); lia). change (bpow radix2 30) with (IZR (2 ^ 30)). apply IZR_le. lia. }
    intros x Hx. unfold spike64 in Hx. apply in_app_or in Hx. destruct Hx as [Hx|[Hx|[]]].
    - apply repeat_spec in Hx. subst x. apply HI. lia.
    - subst x. apply HI. lia. }
  split; [split; [reflexivity|intros raw [K|[]]; discriminate]|]. split; [reflexivity|]. split; [exact E|exact EN].
Qed.

(** ** The verbatim array holds a twentieth of the values *)
Definition alt32 : list binary32 := flat_map (fun _ => [b32_ofZ 0; b32_ofZ (2 ^ 30)]) (repeat tt 10).
Lemma alt_encodes : match encode_3d (FA (lm32 false)) (FO (lm32 false)) 1 1 20 4 false half64 65536 None (repeat None 5) alt32 with
  | Some c => (Z.of_nat (length (b_unp _ _ c)) =? 19) | None => false end = true.
Proof. vm_compute. reflexivity. Qed.

Theorem verbatim_room_refuted : exists (data : list binary32) precision plan,
  Z.of_nat (length data) = 1 * 1 * 20 /\ (forall x, In x data -> x = b32_ofZ 0 \/ x = b32_ofZ (2 ^ 30)) /\
  (exists c, encode_3d (FA (lm32 false)) (FO (lm32 false)) 1 1 20 4 false precision 65536 None plan data = Some c) /\
  forall ord ub pad junk, compress_3d (FA (lm32 false)) (FO (lm32 false)) ord ub 1 1 20 4 false precision 65536 None plan pad data junk = None.
Proof.
  exists alt32, half64, (repeat None 5). split; [reflexivity|]. split.
  { intros x Hx. unfold alt32 in Hx. apply in_flat_map in Hx. destruct Hx as (u & _ & [Hx|[Hx|[]]]); auto. }
  pose proof alt_encodes as H. destruct (encode_3d _ _ _ _ _ _ _ _ _ _ _ _) as [c|] eqn:E; [|discriminate].
  split; [eauto|]. intros. unfold compress_3d. change ((1 <=? 1) && (1 <=? 1) && (1 <=? 20) && (1 <=? 4)) with true. cbn [andb].
  rewrite E. cbn [bind].
  replace (Z.of_nat (length (b_unp _ _ c)) * Z.of_nat (tsize_of (FA (lm32 false))) <=? unp_room (FA (lm32 false)) (1 * 1 * 20)) with false;
    [reflexivity|]. change (Z.of_nat (tsize_of (FA (lm32 false)))) with 4. change (unp_room (FA (lm32 false)) (1 * 1 * 20)) with 4. lia.
Qed.

(** ** Grids so small that the header does not fit *)
Lemma raw_prefix ord ub raws rest : forall buf pos r, write_pieces ord ub (map Raw raws ++ rest) buf pos = Some r ->
  Forall (fun bs => bs <> []) raws -> (pos <= length buf)%nat -> (pos + length (concat raws) <= length buf)%nat.
Proof.
  induction raws as [|bs raws IH]; intros buf pos r H HF Hp; cbn [map app concat] in *; [cbn; lia|].
  apply Forall_cons_iff in HF. destruct HF as [HN HF]. cbn [write_pieces] in H. bind_as H b Eb.
  pose proof (store_length_eq _ _ _ _ Eb) as L. pose proof (store_bound _ _ _ _ Eb HN) as B.
  specialize (IH b (pos + length bs)%nat r H HF ltac:(lia)). rewrite app_length. lia.
Qed.

Theorem tiny_grid_overflow_3d lm ord ub r1 r2 r3 bs indep precision capacity mean plan pad (data : list binary32) junk :
  r1 * r2 * r3 <= 8 -> length pad = 3%nat ->
  compress_3d (FA lm) (FO lm) ord ub r1 r2 r3 bs indep precision capacity mean plan pad data junk = None.
Proof.
  intros HN HP. destruct (compress_3d _ _ _ _ _ _ _ _ _ _ _ _ _ _ _ _) as [r|] eqn:E; [exfalso|reflexivity].
  unfold compress_3d in E. destruct (_ && _) in E; [|discriminate]. bind_as E c Ec.
  destruct (_ <=? unp_room _ _) in E; [|discriminate]. destruct (_ =? est_size _ _) eqn:EJ in E; [|discriminate].
  assert (HJ : Z.of_nat (length junk) <= 38).
  { apply Z.eqb_eq in EJ. rewrite EJ. unfold est_size. change (Z.of_nat (tsize_of (FA lm))) with 4. lia. }
  set (g := cfg3 _ _ _ _ _ _ _ _) in E.
  set (raws := [le_bytes 4 bs; dser (FA lm) precision; [if indep then 1 else 0]; le_bytes 4 (g_radius (FA lm) g); mean_bytes (FA lm) (g_mean (FA lm) g) pad;
      le_bytes 8 (Z.of_nat (reg_count _ _ c)); le_bytes 8 (Z.of_nat (length (b_unp _ _ c)))]).
  assert (EP : exists rest, block_pieces (FA lm) (FO lm) bs (Some precision) indep g pad c = map Raw raws ++ rest).
  { unfold block_pieces, raws. cbn [app map]. eexists. reflexivity. }
  destruct EP as [rest EP]. rewrite EP in E.
  assert (LM : length (mean_bytes (FA lm) (g_mean (FA lm) g) pad) = 8%nat).
  { unfold mean_bytes. destruct (g_mean (FA lm) g); cbn [length]; rewrite app_length, (tser_length _ (FA_ser lm)), HP; reflexivity. }
  assert (LT : length (concat raws) = 41%nat).
  { unfold raws. cbn [concat]. rewrite !app_length, !le_bytes_length, (dser_length _ (FA_ser lm)), LM. reflexivity. }
  apply raw_prefix in E; [lia| |lia].
  unfold raws. repeat (apply Forall_cons; [first [intros K; apply (f_equal (@length Z)) in K; rewrite ?le_bytes_length, ?(dser_length _ (FA_ser lm)), ?LM in K; discriminate K]|]).
  apply Forall_nil.
Qed.

(** ** Fields that go through *)
(** One regression block (the plane x + 2y + 3z with its coefficients) and one Lorenzo block; an outlier goes verbatim. *)
Definition ramp32 : list binary32 :=
  map (fun t => let '(x, y, z) := (t / 32, (t / 8) mod 4, t mod 8) in if t =? 127 then b32_ofZ (2 ^ 30) else b32_ofZ (x + 2 * y + 3 * z))
      (zrange 0 128).
Definition ramp_plan : list (option (list binary32)) := [Some [b32_ofZ 1; b32_ofZ 2; b32_ofZ 3; b32_ofZ 0]; None].

(** At most 65 different symbols in each symbol array. *)
Definition few_blocks {A O} (enc : option (bcode A O)) : bool :=
  match enc with
  | Some c => (length (nodup Z.eq_dec (b_type _ _ c)) <=? 65)%nat && (length (nodup Z.eq_dec (b_rtype _ _ c)) <=? 65)%nat
  | None => false
  end.
Lemma few_short {A O} ord cap (enc : option (bcode A O)) : few_blocks enc = true -> short_blocks ord cap enc.
Proof.
  intros H c Hc. rewrite Hc in H. cbn [few_blocks] in H. apply andb_true_iff in H. destruct H as [H1 H2].
  apply Nat.leb_le in H1, H2. split; [|intros _]; apply few_symbols_max_code; assumption.
Qed.
Definition no_verbatim {A O} (enc : option (bcode A O)) : bool := match enc with Some c => match b_unp _ _ c with [] => true | _ => false end | None => false end.
Lemma no_verbatim_spec {A O} (enc : option (bcode A O)) : no_verbatim enc = true -> forall c, enc = Some c -> b_unp _ _ c = [].
Proof. intros H c ->. cbn in H. destruct (b_unp _ _ c); [reflexivity|discriminate]. Qed.
Definition some_regression {A O} (enc : option (bcode A O)) : bool :=
  match enc with Some c => (1 <=? reg_count _ _ c)%nat && (1 <=? length (b_unp _ _ c))%nat | None => false end.

Lemma runs_ex {r : option (list Z * nat)} : (if out_size r then true else false) = true -> exists buf size, r = Some (buf, size).
Proof. destruct r as [[b n]|]; [eauto|discriminate]. Qed.

Lemma ramp_ok : exists c buf size,
  encode_3d (FA (lm32 false)) (FO (lm32 false)) 4 4 8 4 false half64 1024 (Some (b32_ofZ 3)) ramp_plan ramp32 = Some c /\
  (1 <= reg_count _ _ c)%nat /\ (1 <= length (b_unp _ _ c))%nat /\
  compress_3d (FA (lm32 false)) (FO (lm32 false)) ord0 ub0 4 4 8 4 false half64 1024 (Some (b32_ofZ 3)) ramp_plan [0; 0; 0] ramp32 (repeat 0 614) = Some (buf, size) /\
  short_blocks ord0 1024 (encode_3d (FA (lm32 false)) (FO (lm32 false)) 4 4 8 4 false half64 1024 (Some (b32_ofZ 3)) ramp_plan ramp32).
Proof.
  assert (H1 : some_regression (encode_3d (FA (lm32 false)) (FO (lm32 false)) 4 4 8 4 false half64 1024 (Some (b32_ofZ 3)) ramp_plan ramp32) = true) by (vm_compute; reflexivity).
  assert (H2 : few_blocks (encode_3d (FA (lm32 false)) (FO (lm32 false)) 4 4 8 4 false half64 1024 (Some (b32_ofZ 3)) ramp_plan ramp32) = true) by (vm_compute; reflexivity).
  destruct (@runs_ex (compress_3d (FA (lm32 false)) (FO (lm32 false)) ord0 ub0 4 4 8 4 false half64 1024 (Some (b32_ofZ 3)) ramp_plan [0; 0; 0] ramp32 (repeat 0 614)))
    as (buf & size & E); [vm_compute; reflexivity|].
  apply (few_short ord0 1024) in H2. set (enc := encode_3d _ _ _ _ _ _ _ _ _ _ _ _) in *. destruct enc as [c|]; [|discriminate H1].
  cbn [some_regression] in H1. apply andb_true_iff in H1. destruct H1 as [K1 K2]. apply Nat.leb_le in K1, K2.
  exists c, buf, size. auto.
Qed.

(** A smooth field of doubles, all of it predicted. *)
Definition smooth64 : list binary64 := map (fun t => b64_ofZ (t / 16 + (t / 4) mod 4 + t mod 4)) (zrange 0 64).
Lemma smooth_ok : exists buf size,
  compress_3d (DA (lm64 false)) (DO (lm64 false)) ord0 ub0 4 4 4 4 true half64 1024 None [None] (repeat 0 7) smooth64 (repeat 0 614) = Some (buf, size) /\
  short_blocks ord0 1024 (encode_3d (DA (lm64 false)) (DO (lm64 false)) 4 4 4 4 true half64 1024 None [None] smooth64) /\
  (forall c, encode_3d (DA (lm64 false)) (DO (lm64 false)) 4 4 4 4 true half64 1024 None [None] smooth64 = Some c -> b_unp _ _ c = []).
Proof.
  destruct (@runs_ex (compress_3d (DA (lm64 false)) (DO (lm64 false)) ord0 ub0 4 4 4 4 true half64 1024 None [None] (repeat 0 7) smooth64 (repeat 0 614)))
    as (buf & size & E); [vm_compute; reflexivity|].
  exists buf, size. split; [exact E|].
  split; [apply few_short|apply no_verbatim_spec]; vm_compute; reflexivity.
Qed.

(** 2D: sz_compress_2d on floats, sz_compress_2d_with_eb with a zero bound at one point. *)
Definition flat32 : list binary32 := map (fun t => b32_ofZ (t / 8 + 2 * (t mod 8))) (zrange 0 64).
Definition flat_plan : list (option (list binary32)) := [Some [b32_ofZ 1; b32_ofZ 2; b32_ofZ 0]; None; None; None].
Lemma flat_ok : exists buf size,
  compress_2d (FA (lm32 false)) (FO (lm32 false)) ord0 ub0 8 8 4 false half64 flat_plan [0; 0; 0] flat32 (repeat 0 307) = Some (buf, size) /\
  short_blocks ord0 32768 (encode_2d (FA (lm32 false)) (FO (lm32 false)) 8 8 4 half64 flat_plan flat32).
Proof.
  destruct (@runs_ex (compress_2d (FA (lm32 false)) (FO (lm32 false)) ord0 ub0 8 8 4 false half64 flat_plan [0; 0; 0] flat32 (repeat 0 307)))
    as (buf & size & E); [vm_compute; reflexivity|].
  exists buf, size. split; [exact E|apply few_short; vm_compute; reflexivity].
Qed.

Definition flat64 : list binary64 := map (fun t => b64_ofZ (t / 8 + 2 * (t mod 8))) (zrange 0 64).
Definition flat_ebs : list binary64 := repeat half64 30 ++ [b64_ofZ 0] ++ repeat half64 33.
Lemma flat_eb_ok_double : exists buf size,
  compress_2d_eb (DA (lm64 false)) (DO (lm64 false)) ord0 ub0 8 8 4 false flat_ebs (repeat 0 7) flat64 (repeat 0 614) = Some (buf, size) /\
  short_blocks ord0 65536 (encode_2d_eb (DA (lm64 false)) (DO (lm64 false)) 8 8 4 flat_ebs flat64).
Proof.
  destruct (@runs_ex (compress_2d_eb (DA (lm64 false)) (DO (lm64 false)) ord0 ub0 8 8 4 false flat_ebs (repeat 0 7) flat64 (repeat 0 614)))
    as (buf & size & E); [vm_compute; reflexivity|].
  exists buf, size. split; [exact E|apply few_short; vm_compute; reflexivity].
Qed.
Lemma flat_eb_ok_float : exists buf size,
  compress_2d_eb (FA (lm32 false)) (FO (lm32 false)) ord0 ub0 8 8 4 false flat_ebs [0; 0; 0] flat32 (repeat 0 307) = Some (buf, size) /\
  short_blocks ord0 65536 (encode_2d_eb (FA (lm32 false)) (FO (lm32 false)) 8 8 4 flat_ebs flat32).
Proof.
  destruct (@runs_ex (compress_2d_eb (FA (lm32 false)) (FO (lm32 false)) ord0 ub0 8 8 4 false flat_ebs [0; 0; 0] flat32 (repeat 0 307)))
    as (buf & size & E); [vm_compute; reflexivity|].
  exists buf, size. split; [exact E|apply few_short; vm_compute; reflexivity].
Qed.

Lemma ramp_plan_ok : good_plan 4 (num_blocks 4 4 * num_blocks 4 4 * num_blocks 8 4) ramp_plan /\ Z.of_nat (length ramp32) = 4 * 4 * 8 /\
  is_finite 53 1024 half64 = true /\ at_least (-60) half64.
Proof.
  split; [split; [reflexivity|]|split; [reflexivity|split; [reflexivity|]]].
  - intros raw [H|[H|[]]]; [|discriminate]. apply Some_inj in H. subst raw. reflexivity.
  - unfold at_least. pose proof (two_pow64_val (-1) ltac:(lia)) as K. apply (val_fin_iff 53 1024) in K. destruct K as [_ K].
    unfold half64. rewrite K. apply bpow_le. lia.
Qed.

(** 7 = 2 + 5: within reach of capacity 16 and precision 1, out of reach at precision 1/4. *)
Lemma exact_case : (0 < 1)%R /\ (0 <= 16 <= 2 ^ 31) /\ (Rabs (7 - 2) < (IZR 16 - 1) * 1)%R /\ ((IZR 16 - 1) * / 4 <= Rabs (7 - 2))%R.
Proof. rewrite Rabs_pos_eq by lra. repeat split; try lra; lia. Qed.

Definition lin_index {X} (r : option (quantised X)) : option Z := match r with Some (Predicted q _) => Some q | _ => None end.
Lemma machine_case :
  lin_index (lin_quantize (qT (DA (lm64 false)) (DO (lm64 false))) (b32_ofZ 2) (b64_ofZ 7) half64 32 16) = Some 21 /\
  lin_index (lin_quantize (qT (FA (lm32 false)) (FO (lm32 false))) (b32_ofZ 7) (b32_ofZ 2) half64 32 16) = Some 11 /\
  is_finite 53 1024 half64 = true.
Proof. vm_compute. auto. Qed.
Definition cp_index {A} (r : option (attempt A)) : option Z := match r with Some (Coded _ q _) => Some q | _ => None end.
Lemma cp_case :
  cp_index (quantise (DA (lm64 false)) (b64_ofZ 2) (b64_ofZ 7) half64) = Some 32773 /\
  cp_index (quantise (FA (lm32 false)) (b32_ofZ 7) (b32_ofZ 2) half64) = Some 32763.
Proof. vm_compute. auto. Qed.
