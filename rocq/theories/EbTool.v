(** test/sz_compress_2d_with_eb.cpp and test/sz_compress_test_with_eb.cpp: the programs that compress with one bound per value.  Modelled: the
    quantisation of the bounds, the code of their indices, the pipeline, the test of every value, the report.  Not modelled: reading and writing
    files, the clock, the printed text; "int i" counts to the number of elements, which is taken to be below 2^31. *)
From Coq Require Import Reals Lra Lia ZArith List Bool.
From Coq Require Import ZifyBool ZifyNat.
From Flocq Require Import Core.Core Relative IEEE754.BinarySingleNaN IEEE754.Binary IEEE754.Bits.
From Verif Require Import Base Huffman HuffStream HuffProps Stream Arith Codec2D Stream2D Exact IEEE IEEELaws IEEEQuant
  LinQuant Block BlockSync BlockTile BlockBytes Lossless LosslessApi Verify.
Import ListNotations.
Local Open Scope Z_scope.

(** How a run ends: exit(0) at an element (test/sz_compress_2d_with_eb.cpp:72, test/sz_compress_test_with_eb.cpp:94), or the report. *)
Inductive outcome (R : Type) := Stopped (i : Z) | Finished (r : R).
Arguments Stopped {R} i. Arguments Finished {R} r.

Section Model.
Context (A : Arith) (O : FOps A).
Notation T := (T A).
Notation D := (D A).

(** A loop over all elements that yields an index and a new bound for each: test/sz_compress_2d_with_eb.cpp:15-17, test/sz_compress_test_with_eb.cpp:47-58. *)
Fixpoint each_bound (q : D -> option (Z * D)) (l : list D) : option (list Z * list D) :=
  match l with
  | [] => Some ([], [])
  | e :: l' => let* (id, b) := q e in let* (ids, bs) := each_bound q l' in Some (id :: ids, b :: bs)
  end.

(** The first element for which the test fires: test/sz_compress_2d_with_eb.cpp:69-74, test/sz_compress_test_with_eb.cpp:89-97; [None]: an array is too short. *)
Fixpoint first_over {E} (over : E -> T -> T -> bool) (i : Z) (es : list E) (data dec : list T) {struct data} : option (option Z) :=
  match data, es, dec with
  | [], _, _ => Some None
  | x :: data', e :: es', y :: dec' => if over e x y then Some (Some i) else first_over over (i + 1) es' data' dec'
  | _, _, _ => None
  end.

(** ** test/sz_compress_2d_with_eb.cpp *)
(** Lines 11-28 quantize_and_compress_eb: the new bounds and the bytes of the indices; [junk]: what malloc(num_elements*sizeof(int)) returned. *)
Definition quantize_and_compress_eb ord ub (base_eb : D) (eb : list D) (junk : list Z) : option (list D * list Z) :=
  let* (ids, bs) := each_bound (eb_exponential_quantize A 2 base_eb) eb in
  check* (Z.of_nat (length junk) =? 4 * Z.of_nat (length eb)) in
  let* (buf, size) := write_pieces ord ub [Huff (2 * 1024) ids] junk 0 in
  Some (bs, firstn size buf).

(** Lines 23, 27: its result, the size after the lossless stage. *)
Definition compressed_eb_size z heap (bytes : list Z) : Z := snd (lossless_compress z heap 1 3 bytes).

(** Line 70: fabs(data[i] - dec_data[i]) > eb[i]. *)
Definition over_bound (e : D) (x y : T) : bool := dlt A e (t2d A (tabs A (tsub A x y))).

(** Lines 42-46 (and 35, 38-40): the bounds used from there on; [quantize]: base_eb if the fifth argument is not 0, and the contents of the index buffer. *)
Definition bounds_used ord ub (quantize : option (D * list Z)) (eb : list D) : option (list D) :=
  match quantize with
  | Some (base_eb, junk) => let* (bs, _) := quantize_and_compress_eb ord ub base_eb eb junk in Some bs
  | None => Some eb
  end.

(** Lines 30-79. *)
Definition main_2d_with_eb z heap ord ub (quantize : option (D * list Z)) (r1 r2 : Z) (eb : list D) (pad : list Z) (data : list T) (junk : list Z)
  : option (outcome (report A)) :=
  check* (length data =? length eb)%nat in
  let* bs := bounds_used ord ub quantize eb in
  let* out := pipeline z heap (compress_2d_eb A O ord ub r1 r2 12 false bs pad data junk) (decompress_2d_eb A O r1 r2 bs) in
  let* dec := written out in
  let* bad := first_over over_bound 0 bs data dec in
  match bad with
  | Some i => Some (Stopped i)
  | None => let* r := verify A data dec (length data) in Some (Finished r)
  end.

(** ** test/sz_compress_test_with_eb.cpp *)
(** Lines 38-40: precisions[i] = tmp[i] * fabs(data[i]). *)
Definition relative_bounds (tmp : list D) (data : list T) : list D := map (fun tx => dmul A (fst tx) (dabs A (t2d A (snd tx)))) (combine tmp data).

(** Lines 48-57 (and 44-45): one round of the quantisation. *)
Definition precision_quantize (inc : Z) (p : D) : option (Z * D) :=
  let threshold := eps_float A in
  if dlt A p threshold then Some (0, dofZ A 0)
  else
    let* id := dtoint A (ddiv A (dlog2 A (ddiv A p threshold)) (dlog2 A (dofZ A inc))) in
    let id := if 255 <? id then 255 else id in
    Some (id, dmul A (dpow A inc id) threshold).

(** Lines 59-61: the code of the indices. *)
Definition index_bytes ord ub (ids : list Z) (junk : list Z) : option (list Z) :=
  check* (Z.of_nat (length junk) =? 4 * Z.of_nat (length ids)) in
  let* (buf, size) := write_pieces ord ub [Huff (2 * 256) ids] junk 0 in Some (firstn size buf).

(** Lines 90-91: precisions[i] > 0 and fabs((dec_data[i] - data[i]) / data[i]) > tmp[i]. *)
Definition over_relative (e : D * D) (x y : T) : bool :=
  let (p, t) := e in dlt A (dofZ A 0) p && dlt A t (t2d A (tabs A (tdiv A (tsub A y x) x))).

(** Lines 37-68: the bounds and the bytes of the indices; tmp must have an entry for every element. *)
Definition relative_setup ord ub (inc : Z) (tmp : list D) (data : list T) (junk_ids : list Z) : option (list D) :=
  check* (length data <=? length tmp)%nat in
  let* (ids, bs) := each_bound (precision_quantize inc) (relative_bounds tmp data) in
  let* _ := index_bytes ord ub ids junk_ids in Some bs.

(** Lines 11-116; the field is read as (r1*r2) x r3. *)
Definition main_test_with_eb z heap ord ub (inc r1 r2 r3 : Z) (tmp : list D) (pad : list Z) (data : list T) (junk_ids junk : list Z)
  : option (outcome (report A)) :=
  let* bs := relative_setup ord ub inc tmp data junk_ids in
  let* out := pipeline z heap (compress_2d_eb A O ord ub (r1 * r2) r3 12 false bs pad data junk) (decompress_2d_eb A O (r1 * r2) r3 bs) in
  let* dec := written out in
  let* bad := first_over over_relative 0 (combine bs tmp) data dec in
  match bad with
  | Some i => Some (Stopped i)
  | None => let* r := verify A data dec (length data) in Some (Finished r)
  end.
End Model.

(** ** Lists *)
Lemma each_bound_spec A q l ids bs : each_bound A q l = Some (ids, bs) ->
  length ids = length l /\ length bs = length l /\
  forall i e, nth_error l i = Some e -> exists id b, q e = Some (id, b) /\ nth_error ids i = Some id /\ nth_error bs i = Some b.
Proof.
  revert ids bs. induction l as [|e l IH]; intros ids bs H; cbn [each_bound] in H.
  - apply Some_inj in H. inversion H. subst. split; [reflexivity|]. split; [reflexivity|]. intros [|i] e X; discriminate X.
  - bind_as H p E1. destruct p as [id b]. bind_as H p E2. destruct p as [ids' bs']. apply Some_inj in H. inversion H; subst ids bs.
    destruct (IH _ _ E2) as (L1 & L2 & K). cbn [length]. split; [lia|]. split; [lia|].
    intros [|i] e' X; cbn [nth_error] in *; [|apply K; exact X]. apply Some_inj in X. subst e'. exists id, b. auto.
Qed.
Lemma each_bound_total A q l : (forall e, In e l -> exists r, q e = Some r) -> exists ids bs, each_bound A q l = Some (ids, bs).
Proof.
  induction l as [|e l IH]; intros H; cbn [each_bound]; [eauto|].
  destruct (H e) as [[id b] E]; [left; reflexivity|]. rewrite E. cbn [bind]. destruct IH as (ids & bs & E2); [intros; apply H; right; auto|].
  rewrite E2. cbn [bind]. eauto.
Qed.

Lemma first_over_none A {E} over i (es : list E) data dec : (length data <= length es)%nat -> (length data <= length dec)%nat ->
  (forall k e x y, nth_error es k = Some e -> nth_error data k = Some x -> nth_error dec k = Some y -> over e x y = false) ->
  first_over A over i es data dec = Some None.
Proof.
  revert i es dec. induction data as [|x data IH]; intros i es dec L1 L2 H; cbn [first_over]; [reflexivity|].
  destruct es as [|e es], dec as [|y dec]; cbn [length] in L1, L2; try lia.
  rewrite (H 0%nat e x y eq_refl eq_refl eq_refl). apply IH; [lia|lia|]. intros k. apply (H (S k)).
Qed.
Lemma first_over_total A {E} over i (es : list E) data dec : (length data <= length es)%nat -> (length data <= length dec)%nat ->
  exists b, first_over A over i es data dec = Some b /\
    match b with
    | Some j => exists k e x y, j = i + Z.of_nat k /\ nth_error es k = Some e /\ nth_error data k = Some x /\ nth_error dec k = Some y /\ over e x y = true
    | None => forall k e x y, nth_error es k = Some e -> nth_error data k = Some x -> nth_error dec k = Some y -> over e x y = false
    end.
Proof.
  revert i es dec. induction data as [|x data IH]; intros i es dec L1 L2; cbn [first_over].
  - exists None. split; [reflexivity|]. intros [|k] e x y _ X; discriminate X.
  - destruct es as [|e es], dec as [|y dec]; cbn [length] in L1, L2; try lia.
    destruct (over e x y) eqn:EO.
    + exists (Some i). split; [reflexivity|]. exists 0%nat, e, x, y. repeat split; auto. lia.
    + destruct (IH (i + 1) es dec) as (b & E1 & E2); [lia|lia|]. exists b. split; [exact E1|]. destruct b as [j|].
      * destruct E2 as (k & e' & x' & y' & Ej & K). exists (S k), e', x', y'. split; [lia|exact K].
      * intros [|k] e' x' y' H1 H2 H3; cbn [nth_error] in *; [|eapply E2; eauto].
        apply Some_inj in H1, H2, H3. subst. exact EO.
Qed.

Lemma written_ok {X} (l : list (option X)) : (forall i, 0 <= i < Z.of_nat (length l) -> exists x, aget l i = Some (Some x)) ->
  exists r, written l = Some r /\ length r = length l /\ forall i x, nth_error r i = Some x -> aget l (Z.of_nat i) = Some (Some x).
Proof.
  assert (AG : forall (l : list (option X)) k, aget l (Z.of_nat k) = nth_error l k).
  { intros l0 k. unfold aget. replace (Z.of_nat k <? 0) with false by lia. rewrite Nat2Z.id. reflexivity. }
  induction l as [|o l IH]; intros H; cbn [written].
  - exists []. split; [reflexivity|]. split; [reflexivity|]. intros [|i] x E; discriminate E.
  - destruct (H 0) as [x E]; [cbn [length]; lia|]. change 0 with (Z.of_nat 0) in E. rewrite AG in E. cbn [nth_error] in E. apply Some_inj in E. subst o.
    destruct IH as (r & E1 & E2 & E3).
    { intros i Hi. destruct (H (i + 1)) as [y Hy]; [cbn [length]; lia|]. exists y.
      replace (i + 1) with (Z.of_nat (S (Z.to_nat i))) in Hy by lia. replace i with (Z.of_nat (Z.to_nat i)) by lia.
      rewrite AG in *. exact Hy. }
    rewrite E1. cbn [bind]. exists (x :: r). split; [reflexivity|]. split; [cbn [length]; lia|].
    intros [|i] y Hy; rewrite AG; cbn [nth_error] in *; [congruence|]. rewrite <- AG. apply E3. exact Hy.
Qed.

Lemma verify_total A ori dec : (1 <= length ori)%nat -> length dec = length ori -> exists r, verify A ori dec (length ori) = Some r.
Proof.
  intros H1 H2. unfold verify. destruct ori as [|x ori]; [cbn in H1; lia|]. destruct dec as [|y dec]; [discriminate H2|].
  replace ((length (x :: ori) <=? length (x :: ori))%nat && (length (x :: ori) <=? length (y :: dec))%nat) with true by (cbn [length] in *; lia). eauto.
Qed.

(** ** The program never objects to its own codec *)
Section Check.
Context (A : Arith) (I : ieee A) (O : FOps A).
Notation vT := (vT A I).
Notation vD := (vD A I).
Notation pT := (pT A I).
Notation eT := (eT A I).
Local Instance pT_gt : Prec_gt_0 pT := HpT A I.

Lemma diff_sym x y : vD (t2d A (tabs A (tsub A x y))) = vD (t2d A (tabs A (tsub A y x))).
Proof.
  rewrite !v_t2d, !v_tabs, !v_tsub. destruct (vT x) as [a| | |], (vT y) as [b| | |]; try reflexivity.
  cbn [xsub xneg xadd rndx].
  replace (b - a)%R with (- (a - b))%R by ring. rewrite round_NE_opp.
  set (r := round _ _ _ _). unfold sat. rewrite Rabs_Ropp.
  destruct (Rlt_bool (Rabs r) (bpow radix2 eT)) eqn:E; [cbn [xabs]; rewrite Rabs_Ropp; reflexivity|].
  repeat (destruct (Rlt_bool _ _)); reflexivity.
Qed.

Lemma accepted_not_over r2 (prec : Z -> option (D A)) data i x e y : acceptable A (cfg2 A r2 65536 32768 true None) prec data i y ->
  aget data i = Some x -> prec i = Some e -> xlt (vD e) (Fin 0) = false -> over_bound A e x y = false.
Proof.
  intros (cur & p & E1 & E2 & H) Ex Ee Hn. rewrite Ex in E1. apply Some_inj in E1. subst cur. rewrite Ee in E2. apply Some_inj in E2. subst p.
  unfold over_bound. rewrite (v_dlt A I). destruct H as [->|[H|[H _]]]; [| |discriminate H].
  - rewrite v_t2d, v_tabs, v_tsub. destruct (vT x) as [a| | |].
    + cbn [xsub xneg xadd]. replace (a - a)%R with 0%R by ring. rewrite rndx_fin.
      * cbn [xabs]. rewrite Rabs_R0. exact Hn.
      * apply generic_format_0.
      * rewrite Rabs_R0. apply bpow_gt_0.
    + destruct (vD e); reflexivity.
    + destruct (vD e); reflexivity.
    + destruct (vD e); reflexivity.
  - rewrite (v_dle A I) in H. rewrite diff_sym. unfold xle in H.
    destruct (vD (t2d A (tabs A (tsub A y x)))) as [u| | |], (vD e) as [v| | |]; cbn in *; try discriminate; auto.
    destruct (Rle_bool_spec u v); [|discriminate]. apply Rlt_bool_false. lra.
Qed.
End Check.

(** ** The quantised bounds *)
Section Bounds.
Context (A : Arith) (I : ieee A) (L : libm_ok A I).
Notation vD := (vD A I).
Local Open Scope R_scope.
Local Notation rnd64 := (round radix2 fexp64 ZnearestE).

(** The index of a bound at least as large as the threshold, and the bound an index not above it stands for. *)
Lemma log_step b thr t p e : (1 <= b <= 2)%Z -> vD thr = Fin t -> bpow radix2 (-900) <= t -> vD p = Fin e -> t <= e ->
  e <= t * bpow radix2 1000 -> e <= bpow radix2 1000 ->
  exists id, dtoint A (ddiv A (dlog2 A (ddiv A p thr)) (dlog2 A (dofZ A (2 ^ b)))) = Some id /\ (0 <= id <= 1000)%Z /\
    forall k, (0 <= k <= id)%Z -> vD (dmul A (dpow A (2 ^ b) k) thr) = Fin (bpow radix2 (b * k) * t) /\
      bpow radix2 (b * k) * t <= e * (1 + bpow radix2 (-39)).
Proof.
  intros Hb Eth Ht He Hte Hmax Hmax2. pose proof (bpow_gt_0 radix2 (-900)) as P900. assert (Pt : 0 < t) by lra.
  set (q := e / t).
  assert (Q1 : 1 <= q <= bpow radix2 1000).
  { unfold q. split; apply Rmult_le_reg_r with t; auto; unfold Rdiv; rewrite Rmult_assoc, Rinv_l by lra; lra. }
  set (r := rnd64 q).
  assert (R1 : 1 <= r <= bpow radix2 1000).
  { unfold r. split.
    - rewrite <- (rnd_id 53 1024 1) by (change 1 with (bpow radix2 0); apply (fmt_bpow 53 1024 eq_refl); lia). apply (rnd_le 53 1024 eq_refl). apply Q1.
    - rewrite <- (rnd_id 53 1024 (bpow radix2 1000)) by (apply (fmt_bpow 53 1024 eq_refl); lia). apply (rnd_le 53 1024 eq_refl). apply Q1. }
  assert (R2 : r <= q * (1 + bpow radix2 (-53))).
  { pose proof (relative_error_N_FLT radix2 (-1074) 53 ltac:(lia) (fun z => negb (Z.even z)) q) as RE.
    rewrite (Rabs_pos_eq q) in RE by lra.
    assert (M : bpow radix2 (-1074 + 53 - 1) <= q) by (apply Rle_trans with (bpow radix2 0); [apply bpow_le; lia|apply Q1]). specialize (RE M).
    apply Rabs_le_inv in RE.
    assert (U : / 2 * bpow radix2 (- (53) + 1) = bpow radix2 (-53)) by (change (/ 2) with (bpow radix2 (-1)); rewrite <- bpow_plus; reflexivity).
    change (round radix2 (FLT_exp (-1074) 53) (Znearest (fun z : Z => negb (Z.even z))) q) with r in RE. rewrite U in RE. lra. }
  assert (Er : vD (ddiv A p thr) = Fin r).
  { rewrite v_ddiv by (rewrite Eth; intros X; inversion X; lra). rewrite He, Eth, xdiv_fin by lra. cbn [rndx]. fold q. fold r. apply sat_fin.
    rewrite Rabs_pos_eq by lra. apply Rle_lt_trans with (bpow radix2 1000); [apply R1|apply bpow_lt; lia]. }
  destruct (lo_log2 A I L _ _ Er) as (l & El2 & Hl); [lra|].
  assert (Elb : vD (dlog2 A (dofZ A (2 ^ b))) = Fin (IZR b)).
  { apply (lo_log2_exact A I L). rewrite vD_const.
    - change (IZR (2 ^ b)) with (IZR (radix2 ^ b)). rewrite IZR_Zpower by lia. reflexivity.
    - assert (b = 1 \/ b = 2)%Z as [-> | ->] by lia; lia. }
  assert (H40 : 0 <= bpow radix2 (-40) <= 1).
  { split; [apply bpow_ge_0|]. change 1 with (bpow radix2 0). apply bpow_le. lia. }
  pose proof ln2_pos as L2.
  assert (HL : 0 <= ln r / ln 2 <= 1000).
  { split.
    - apply Rmult_le_pos; [|left; apply Rinv_0_lt_compat; auto]. rewrite <- ln_1. destruct (Req_dec r 1) as [->|N]; [lra|]. left. apply ln_increasing; lra.
    - apply Rmult_le_reg_r with (ln 2); auto. unfold Rdiv. rewrite Rmult_assoc, Rinv_l, Rmult_1_r by lra.
      assert (E : ln (bpow radix2 1000) = 1000 * ln 2).
      { rewrite bpow_powerRZ. rewrite powerRZ_Rpower by (change (IZR radix2) with 2; lra). unfold Rpower. rewrite ln_exp. reflexivity. }
      rewrite <- E. destruct (Req_dec r (bpow radix2 1000)) as [->|N]; [lra|]. left. apply ln_increasing; lra. }
  apply Rabs_le_inv in Hl.
  set (f := rnd64 (l / IZR b)).
  assert (B1 : 1 <= IZR b <= 2) by (split; apply IZR_le; lia).
  assert (Lb : Rabs (l / IZR b) <= 1024).
  { unfold Rdiv. rewrite Rabs_mult. rewrite (Rabs_pos_eq (/ IZR b)) by (left; apply Rinv_0_lt_compat; lra).
    assert (Rabs l <= 1024) by (apply Rabs_le; lra).
    assert (/ IZR b <= 1) by (rewrite <- Rinv_1; apply Rinv_le; lra). pose proof (Rabs_pos l). assert (0 < / IZR b) by (apply Rinv_0_lt_compat; lra). nra. }
  assert (F1 : Rabs f <= 1024).
  { unfold f. apply (rnd_bound 53 1024 eq_refl); [change 1024 with (bpow radix2 10); apply (fmt_bpow 53 1024 eq_refl); lia|exact Lb]. }
  assert (Ef : vD (ddiv A (dlog2 A (ddiv A p thr)) (dlog2 A (dofZ A (2 ^ b)))) = Fin f).
  { rewrite v_ddiv by (rewrite Elb; intros X; inversion X as [X']; apply eq_IZR in X'; lia). rewrite El2, Elb, xdiv_fin by (apply IZR_neq; lia).
    cbn [rndx]. fold f. apply sat_fin. eapply Rle_lt_trans; [exact F1|]. change 1024 with (bpow radix2 10). apply bpow_lt. lia. }
  apply Rabs_le_inv in F1.
  assert (T0 : (-1024 <= Ztrunc f <= 1024)%Z).
  { split.
    - rewrite <- (Ztrunc_IZR (-1024)). apply Ztrunc_le. lra.
    - rewrite <- (Ztrunc_IZR 1024). apply Ztrunc_le. lra. }
  assert (T1 : (0 <= Ztrunc f)%Z).
  { assert (G : - / 2 <= f).
    { unfold f. rewrite <- (rnd_id 53 1024 (- / 2)) by (apply generic_format_opp; change (/ 2) with (bpow radix2 (-1)); apply (fmt_bpow 53 1024 eq_refl); lia).
      apply (rnd_le 53 1024 eq_refl).
      assert (bpow radix2 (-40) <= / 2) by (change (/ 2) with (bpow radix2 (-1)); apply bpow_le; lia).
      apply Rmult_le_reg_r with (IZR b); [lra|]. unfold Rdiv. rewrite Rmult_assoc, Rinv_l by lra. lra. }
    destruct (Rle_lt_dec 0 f) as [F0|F0]; [rewrite Ztrunc_floor by auto; apply Zfloor_lub; auto|].
    rewrite Ztrunc_ceil by lra. rewrite (Zceil_imp 0); [lia|]. change (IZR (0 - 1)) with (-1). lra. }
  exists (Ztrunc f). split.
  { rewrite (v_dtoint A I), Ef. cbn [xtoint]. replace ((- 2 ^ 31 <=? Ztrunc f)%Z && (Ztrunc f <? 2 ^ 31)%Z)%bool with true by lia. reflexivity. }
  set (id := Ztrunc f) in *.
  assert (Hmain : bpow radix2 (b * id) <= r * (1 + bpow radix2 (-40))).
  { destruct (Z.eq_dec id 0) as [->|N0].
    { rewrite Z.mul_0_r. change (bpow radix2 0) with 1. clear - R1 H40. set (h := bpow radix2 (-40)) in *. nra. }
    apply log2_mono_pow; [lra|auto|]. rewrite mult_IZR.
    assert (Hf : IZR id <= f).
    { destruct (Rle_lt_dec 0 f) as [F0|F0].
      - unfold id. rewrite Ztrunc_floor by auto. apply Zfloor_lb.
      - exfalso. unfold id in N0, T1. rewrite Ztrunc_ceil in N0, T1 by lra. assert (Zceil f <= 0)%Z by (apply Zceil_glb; lra). lia. }
    assert (Hid1 : 1 <= IZR id) by (apply IZR_le; lia).
    assert (Hlb : IZR b * IZR id <= l); [|lra].
    assert (b = 1 \/ b = 2)%Z as [-> | ->] by lia.
    - assert (Efl : f = l).
      { unfold f. replace (l / 1) with l by field. apply rnd_id. apply (vD_fmt A I _ _ El2). }
      lra.
    - assert (L1 : 1 <= l).
      { destruct (Rle_lt_dec 1 l); auto. exfalso. assert (f <= / 2); [|lra].
        unfold f. rewrite <- (rnd_id 53 1024 (/ 2)) by (change (/ 2) with (bpow radix2 (-1)); apply (fmt_bpow 53 1024 eq_refl); lia).
        apply (rnd_le 53 1024 eq_refl). lra. }
      assert (Efl : f = l / 2).
      { unfold f. apply rnd_id. apply fmt64_half; [rewrite Rabs_pos_eq; lra|]. apply (vD_fmt A I _ _ El2). }
      lra. }
  assert (Hrange : (b * id <= 1000)%Z).
  { assert (bpow radix2 (b * id) < bpow radix2 1001); [|apply lt_bpow in H; lia].
    eapply Rle_lt_trans; [exact Hmain|].
    assert (bpow radix2 (-40) <= / 2) by (change (/ 2) with (bpow radix2 (-1)); apply bpow_le; lia).
    assert (E : bpow radix2 1001 = bpow radix2 1000 * 2) by (change 2 with (bpow radix2 1); rewrite <- bpow_plus; reflexivity). rewrite E.
    pose proof (bpow_gt_0 radix2 1000). nra. }
  split; [nia|]. intros k Hk.
  assert (Hkb : (0 <= b * k <= b * id)%Z) by nia.
  assert (HB : bpow radix2 (b * k) * t <= e * (1 + bpow radix2 (-39))).
  { assert (B0 : bpow radix2 (b * k) <= r * (1 + bpow radix2 (-40))) by (eapply Rle_trans; [apply bpow_le; apply Hkb|exact Hmain]).
    assert (E39 : bpow radix2 (-39) = bpow radix2 (-40) * 2) by (change 2 with (bpow radix2 1); rewrite <- bpow_plus; reflexivity).
    assert (E53 : bpow radix2 (-53) <= bpow radix2 (-40) * / 4) by (change (/ 4) with (bpow radix2 (-2)); rewrite <- bpow_plus; apply bpow_le; lia).
    pose proof (bpow_gt_0 radix2 (-53)) as P53. rewrite E39. set (h := bpow radix2 (-40)) in *. set (u := bpow radix2 (-53)) in *.
    assert (B2 : bpow radix2 (b * k) <= q * (1 + h * 2)).
    { eapply Rle_trans; [exact B0|]. apply Rle_trans with (q * (1 + u) * (1 + h)); [apply Rmult_le_compat_r; lra|]. rewrite Rmult_assoc. apply Rmult_le_compat_l; [lra|]. nra. }
    apply Rle_trans with (q * (1 + h * 2) * t); [apply Rmult_le_compat_r; lra|]. right. unfold q. field. lra. }
  split; [|exact HB].
  rewrite v_dmul, (lo_pow A I L b k Hb) by lia. rewrite Eth. cbn [xmul]. apply rndx_fin.
  - rewrite Rmult_comm. apply fmt64_scale; [lia|]. apply (vD_fmt A I _ _ Eth).
  - rewrite Rabs_pos_eq by (apply Rmult_le_pos; [apply bpow_ge_0|lra]). eapply Rle_lt_trans; [exact HB|].
    assert (bpow radix2 (-39) <= 1) by (change 1 with (bpow radix2 0); apply bpow_le; lia). pose proof (bpow_gt_0 radix2 (-39)).
    apply Rle_lt_trans with (bpow radix2 1000 * 2); [|change 2 with (bpow radix2 1); rewrite <- bpow_plus; apply bpow_lt; lia].
    pose proof (bpow_gt_0 radix2 1000). nra.
Qed.

(** sz_compress_2d_with_eb.cpp: any base bound. *)
Lemma quantize_any thr t p e : vD thr = Fin t -> bpow radix2 (-900) <= t -> vD p = Fin e -> e <= t * bpow radix2 1000 -> e <= bpow radix2 1000 ->
  exists id ab a, eb_exponential_quantize A 2 thr p = Some (id, ab) /\ (0 <= id <= 1000)%Z /\ vD ab = Fin a /\
    (a = 0 /\ e <= t \/ t < e /\ a = bpow radix2 id * t /\ a <= e * (1 + bpow radix2 (-39))).
Proof.
  intros Eth Ht He H1 H2. unfold eb_exponential_quantize. rewrite (v_dle A I), He, Eth.
  destruct (xle (Fin e) (Fin t)) eqn:E.
  - exists 0%Z, (d0 A), 0. split; [reflexivity|]. split; [lia|]. split; [unfold d0; rewrite vD_const by lia; reflexivity|]. left. split; [reflexivity|].
    cbn in E. destruct (Rle_bool_spec e t); [auto|discriminate].
  - apply xle_fin_false in E. destruct (log_step 1 thr t p e) as (id & E1 & E2 & E3); auto; try lia; [lra|].
    change (2 ^ 1)%Z with 2%Z in *. rewrite E1. cbn [bind]. destruct (E3 id) as [E4 E5]; [lia|]. rewrite Z.mul_1_l in E4, E5.
    exists id, (dmul A (dpow A 2 id) thr), (bpow radix2 id * t). split; [reflexivity|]. split; [exact E2|]. split; [exact E4|]. right. auto.
Qed.

(** sz_compress_test_with_eb.cpp: threshold 2^-23, base 2 or 4, indices up to 255. *)
Lemma precision_step b p e : (1 <= b <= 2)%Z -> vD p = Fin e -> e <= bpow radix2 900 ->
  exists id ab a, precision_quantize A (2 ^ b) p = Some (id, ab) /\ (0 <= id <= 255)%Z /\ vD ab = Fin a /\
    (a = 0 /\ e < bpow radix2 (-23) \/ bpow radix2 (-23) <= e /\ a = bpow radix2 (b * id - 23) /\ a <= e * (1 + bpow radix2 (-39))).
Proof.
  intros Hb He H1. unfold precision_quantize. rewrite (v_dlt A I), He, (v_epsf A I).
  destruct (xlt (Fin e) (Fin (bpow radix2 (-23)))) eqn:E.
  - exists 0%Z, (dofZ A 0), 0. split; [reflexivity|]. split; [lia|]. split; [rewrite vD_const by lia; reflexivity|]. left. split; [reflexivity|].
    apply xlt_fin in E. exact E.
  - apply xlt_fin_false in E. destruct (log_step b (eps_float A) (bpow radix2 (-23)) p e) as (id & E1 & E2 & E3); auto.
    + apply (v_epsf A I).
    + apply bpow_le. lia.
    + rewrite <- bpow_plus. eapply Rle_trans; [exact H1|]. apply bpow_le. lia.
    + eapply Rle_trans; [exact H1|]. apply bpow_le. lia.
    + rewrite E1. cbn [bind]. set (k := if (255 <? id)%Z then 255%Z else id). assert (K : (0 <= k <= 255 /\ k <= id)%Z) by (unfold k; destruct (255 <? id)%Z eqn:EK; lia).
      destruct (E3 k) as [E4 E5]; [lia|]. exists k, (dmul A (dpow A (2 ^ b) k) (eps_float A)), (bpow radix2 (b * k) * bpow radix2 (-23)).
      split; [reflexivity|]. split; [lia|]. split; [exact E4|]. right. split; [exact E|]. split; [|exact E5]. rewrite <- bpow_plus. f_equal; lia.
Qed.
End Bounds.
