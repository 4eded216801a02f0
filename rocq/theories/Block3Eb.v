(** sz_compress_3d_with_eb: one bound per value in 3D.  /repo has no decompressor for its streams; [read_3d_eb] below is
    the one that sz_decompress_2d_with_eb suggests, and the theorems about it say that the stream, with the bounds,
    determines the field. *)
From Coq Require Import Reals Lra Lia ZArith List Bool Permutation.
From Coq Require Import ZifyBool ZifyNat.
From Flocq Require Import Core.Core IEEE754.BinarySingleNaN IEEE754.Binary IEEE754.Bits.
From Verif Require Import Base Huffman HuffStream HuffProps BitPack Stream Arith Codec2D Sync2D Stream2D Exact IEEE IEEELaws IEEEQuant IEEE2D Api2D RelaxApi2D
  LibmModel Witness2D Examples2D LinQuant Block BlockSync BlockTile BlockBytes BlockIEEE BlockApi BlockTotal BlockRefute.
Import ListNotations.
Local Open Scope Z_scope.

Section Model.
Context (A : Arith) (O : FOps A).
Notation T := (T A).
Notation D := (D A).

(** src/sz_compress_3d.cpp:465-466,531-534: strides of the buffer, capacity 32768, no mean (include/sz_def.hpp:140);
    include/sz_compress_block_processing.hpp:252 a bound of 0 means verbatim. *)
Definition cfg3_eb (d2 d3 : Z) : cfg A :=
  {| g_lor := lorenzo_predict3 A ((d2 + 1) * (d3 + 1)) (d3 + 1); g_wide := true; g_capacity := 32768; g_radius := 16384;
     g_mean := None; g_zero := true |}.

(** src/sz_compress_3d.cpp:446-521 prediction_and_quantization_3d_with_border_prediction_with_eb: every block uses
    Lorenzo (line 491), the traversal is that of the border variant. *)
Definition encode_3d_eb (r1 r2 r3 bs : Z) (precisions : list D) (data : list T) : option (bcode A O) :=
  enc_acts A O (cfg3_eb r2 r3) (aget precisions) [] data (acts3_border r1 r2 r3 bs)
           (repeat None (Z.to_nat (num_blocks r1 bs * num_blocks r2 bs * num_blocks r3 bs)))
           (buffer3 A false r2 r3 bs) [].

(** src/sz_compress_3d.cpp:524-567 sz_compress_3d_with_eb; line 536: the verbatim array has 0.05*num_elements entries. *)
Definition compress_3d_eb ord ub (r1 r2 r3 bs : Z) (indep : bool) (precisions : list D)
           (pad : list Z) (data : list T) (junk : list Z) : option (list Z * nat) :=
  check* (1 <=? r1) && (1 <=? r2) && (1 <=? r3) && (1 <=? bs) in
  let* c := encode_3d_eb r1 r2 r3 bs precisions data in
  check* (Z.of_nat (length (b_unp _ _ c)) * Z.of_nat (tsize_of A) <=? unp_room A (r1 * r2 * r3)) in
  check* (Z.of_nat (length junk) =? est_size A (r1 * r2 * r3)) in
  write_pieces ord ub (block_pieces A O bs None indep (cfg3_eb r2 r3) pad c) junk 0.

(** Not in /repo: src/sz_decompress_3d.cpp:124-155 (sz_decompress_2d_with_eb) with the traversal of
    src/sz_decompress_3d.cpp:219-249. *)
Definition read_3d_eb (r1 r2 r3 : Z) (precisions : list D) (s : list Z) : option (list (option T)) :=
  let* (bs, s1) := read_s32 s in
  check* (1 <=? r1) && (1 <=? r2) && (1 <=? r3) && (1 <=? bs) in
  let* (_, s3) := take_bytes 1 s1 in
  let* (radius, s4) := read_s32 s3 in
  let* (mean, s5) := read_mean A s4 in
  let* (ind, ts, unp, coefs) :=
    read_blocks A O (tsize_of A) 4 (Z.to_nat (num_blocks r1 bs * num_blocks r2 bs * num_blocks r3 bs))
                (Z.to_nat (r1 * r2 * r3)) (coef_precisions A O 4 bs (dtenth O)) s5 in
  dec_acts A O (cfg3_eb r2 r3) (aget precisions) (acts3_border r1 r2 r3 bs) ind coefs
           (buffer3 A false r2 r3 bs) (repeat None (Z.to_nat (r1 * r2 * r3))) ts unp.
End Model.

Section Sync.
Context (A : Arith) (O : FOps A) (HS : ser_ok A) (HF : fser_ok O).

(** No block uses regression. *)
Lemma no_regression g prec precs data : forall acts plan buf prev c, Forall (eq None) plan ->
  enc_acts A O g prec precs data acts plan buf prev = Some c -> reg_count _ _ c = 0%nat.
Proof using.
  induction acts as [|a l IH]; intros pl b pv c0 HP H; cbn [enc_acts] in H.
  - apply Some_inj in H. subst. reflexivity.
  - destruct a as [ss|src len].
    + destruct pl as [|[x|] pl]; [discriminate|inversion HP; discriminate|].
      apply Forall_cons_iff in HP. destruct HP as [_ HP].
      bind_as H [[b1 qs] u1] E1. bind_as H c' E2. apply Some_inj in H. subst c0. specialize (IH _ _ _ _ HP E2).
      unfold reg_count in *. cbn. exact IH.
    + bind_as H b1 E1. eauto.
Qed.

Lemma all_lorenzo {X} n : Forall (eq None) (repeat (@None X) n).
Proof using. apply Forall_forall. intros x Hx. apply repeat_spec in Hx. auto. Qed.

Lemma acts3_eb_ok r1 r2 r3 bs : 1 <= r1 -> 1 <= r2 -> 1 <= r3 -> 1 <= bs ->
  Forall (act_ok A (cfg3_eb A r2 r3) (length (buffer3 A false r2 r3 bs)) (Z.to_nat (r1 * r2 * r3))) (acts3_border r1 r2 r3 bs).
Proof using. intros. exact (acts3_ok A r1 r2 r3 bs false 32768 16384 None H H0 H1 H2). Qed.

Theorem round_trip_3d_eb ord ub r1 r2 r3 bs indep precisions pad data junk buf size c :
  laws A O (cfg3_eb A r2 r3) ->
  bs < 2 ^ 31 -> length pad = (tsize_of A - 1)%nat -> Z.of_nat (length junk) < 2 ^ 64 ->
  compress_3d_eb A O ord ub r1 r2 r3 bs indep precisions pad data junk = Some (buf, size) ->
  encode_3d_eb A O r1 r2 r3 bs precisions data = Some c ->
  short_words A O ord (cfg3_eb A r2 r3) c ->
  exists out, (forall rest, read_3d_eb A O r1 r2 r3 precisions (firstn size buf ++ rest) = Some out) /\
    delivered A (cfg3_eb A r2 r3) (aget precisions) data (Z.to_nat (r1 * r2 * r3)) out.
Proof.
  intros HL Hbs HP HJ HC HE HW. unfold compress_3d_eb in HC.
  destruct ((1 <=? r1) && (1 <=? r2) && (1 <=? r3) && (1 <=? bs)) eqn:EB; [|discriminate].
  assert (H1 : 1 <= r1) by lia. assert (H2 : 1 <= r2) by lia. assert (H3 : 1 <= r3) by lia. assert (H4 : 1 <= bs) by lia.
  rewrite HE in HC. cbn [bind] in HC.
  destruct (_ <=? unp_room A (r1 * r2 * r3)); [|discriminate]. destruct (_ =? est_size A (r1 * r2 * r3)) eqn:EJ; [|discriminate].
  set (g := cfg3_eb A r2 r3) in *.
  assert (HPO : Forall (piece_ok ord) (block_pieces A O bs None indep g pad c)).
  { rewrite block_pieces_split. apply Forall_app. split; [cbn [app]; repeat apply Forall_cons; try apply Forall_nil; exact I|].
    apply tail_ok; [cbn; lia|exact HW]. }
  destruct (write_pieces_bytes ord ub _ _ _ _ HJ HPO HC) as (cs & HCS & EF).
  pose proof (write_pieces_spec ord ub _ junk 0 buf size HJ HPO ltac:(lia) HC) as (_ & _ & _ & _ & _ & _ & HB).
  assert (HLC : Z.of_nat (length (concat cs)) < 2 ^ 64).
  { rewrite <- EF. rewrite firstn_length. lia. }
  assert (P12 : 1 <= r1 * r2) by nia.
  unfold encode_3d_eb in HE. fold g in HE. set (bf := buffer3 A false r2 r3 bs) in *.
  set (plan := repeat None _) in HE.
  assert (HPL : Forall (eq None) plan) by apply all_lorenzo.
  assert (HA : Forall (act_ok A g (length bf) (Z.to_nat (r1 * r2 * r3))) (acts3_border r1 r2 r3 bs)) by (apply acts3_eb_ok; auto).
  destruct (acts3_all r1 r2 r3 bs false H1 H2 H3 H4) as (NC & NB & CV). cbn [acts3] in NC, NB, CV.
  assert (HCV : forall i, 0 <= i < Z.of_nat (Z.to_nat (r1 * r2 * r3)) -> exists s, In s (flat_map act_sites (acts3_border r1 r2 r3 bs)) /\ s_at s = i)
    by (intros; apply CV; nia).
  destruct (acts_sync A O g _ data _ _ _ HL _ _ _ _ _ HA eq_refl (fun _ => HPL) HE) as (I1 & I2 & I3 & _ & I5 & _).
  destruct (field_sync A O g _ _ data _ _ bf _ c _ HL HA (fun _ => HPL) HCV HE) as (coefs & out & F1 & F2 & F3).
  exists out. split; [intros rest|exact F3].
  pose proof (num_blocks_pos r1 bs H1 H4). pose proof (num_blocks_pos r2 bs H2 H4). pose proof (num_blocks_pos r3 bs H3 H4).
  pose proof (num_blocks_le r1 bs H1 H4). pose proof (num_blocks_le r2 bs H2 H4). pose proof (num_blocks_le r3 bs H3 H4).
  pose proof (est_size_ge A HS (r1 * r2 * r3) ltac:(nia)).
  assert (NBP : 1 <= num_blocks r1 bs * num_blocks r2 bs * num_blocks r3 bs <= r1 * r2 * r3).
  { assert (1 <= num_blocks r1 bs * num_blocks r2 bs <= r1 * r2) by nia. nia. }
  assert (R0 : reg_count _ _ c = 0%nat) by (eapply no_regression; [exact HPL|exact HE]).
  assert (R1 : b_rtype _ _ c = []) by (cbn [length Nat.mul] in I5; apply length_zero_iff_nil; exact I5).
  assert (R2 : coefs = []).
  { specialize (F1 [] []). rewrite R0 in F1. cbn in F1. apply Some_inj in F1. auto. }
  subst coefs.
  rewrite EF. rewrite block_pieces_split in HCS. cbn [app] in HCS.
  apply Forall2_cons_ex in HCS. destruct HCS as (c1 & cs1 & E1 & X1 & HCS). apply chunk_raw_inv in X1. subst c1.
  apply Forall2_cons_ex in HCS. destruct HCS as (c1 & cs3 & E3 & X1 & HCS). apply chunk_raw_inv in X1. subst c1.
  apply Forall2_cons_ex in HCS. destruct HCS as (c1 & cs4 & E4 & X1 & HCS). apply chunk_raw_inv in X1. subst c1.
  apply Forall2_cons_ex in HCS. destruct HCS as (c1 & cs5 & E5 & X1 & HCS). apply chunk_raw_inv in X1. subst c1.
  subst cs cs1 cs3 cs4. rewrite !concat_cons in *. rewrite <- !app_assoc. unfold read_3d_eb.
  rewrite read_s32_app by lia. cbn [bind]. rewrite EB.
  rewrite take_bytes_app by reflexivity. cbn [bind].
  rewrite read_s32_app by (cbn; lia). cbn [bind].
  rewrite (read_mean_ok A HS) by exact HP. cbn [bind].
  rewrite (read_blocks_ok A O HS HF g c cs5 (tsize_of A) 4 _ _ (coef_precisions A O 4 bs (dtenth O)) [] rest HCS I1).
  - cbn [bind]. fold g bf. exact F2.
  - rewrite I2. lia.
  - lia.
  - rewrite Z2Nat.id by nia. lia.
  - rewrite I3. lia.
  - rewrite R0, R1. reflexivity.
  - rewrite !app_length in HLC. lia.
  - left. reflexivity.
  - rewrite R0. reflexivity.
Qed.

(** ** Values with bound 0 *)
Definition is_zero (precisions : list (D A)) (i : Z) : bool :=
  match aget precisions i with Some p => deq A p (dofZ A 0) | None => false end.

Lemma zero_sites precisions data : forall ss buf g b qs us, g_zero A g = true ->
  enc_sites A O g (aget precisions) data None ss buf = Some (b, qs, us) ->
  (length (filter (fun s => is_zero precisions (s_at s)) ss) <= length us)%nat.
Proof using.
  induction ss as [|s ss IH]; intros buf g b qs us HZ H; cbn [enc_sites] in H.
  - apply Some_inj in H. injection H as _ _ ->. cbn. lia.
  - bind_as H [[b1 q] u] E1. bind_as H [[b2 qs'] us'] E2. apply Some_inj in H. injection H as E3 E4 E5. subst us.
    specialize (IH _ _ _ _ _ HZ E2). rewrite app_length. cbn [filter]. destruct (is_zero precisions (s_at s)) eqn:EZ; [|lia].
    cbn [length]. enough (1 <= length u)%nat by lia. unfold is_zero in EZ. unfold enc_site in E1.
    bind_as E1 cur X1. destruct (aget precisions (s_at s)) as [p|]; [|discriminate]. cbn [bind] in E1.
    rewrite HZ, EZ in E1. cbn [andb] in E1. bind_as E1 bf X2. apply Some_inj in E1. injection E1 as _ _ ->. cbn. lia.
Qed.

Lemma zero_acts precisions data g : g_zero A g = true -> forall acts plan buf prev c, Forall (eq None) plan ->
  enc_acts A O g (aget precisions) [] data acts plan buf prev = Some c ->
  (length (filter (fun s => is_zero precisions (s_at s)) (flat_map act_sites acts)) <= length (b_unp _ _ c))%nat.
Proof using.
  intros HZ. induction acts as [|a l IH]; intros pl b pv c0 HP H; cbn [enc_acts] in H.
  - apply Some_inj in H. subst. cbn. lia.
  - destruct a as [ss|src len].
    + destruct pl as [|[x|] pl]; [discriminate|inversion HP; discriminate|].
      apply Forall_cons_iff in HP. destruct HP as [_ HP].
      bind_as H [[b1 qs] u1] E1. bind_as H c' E2. apply Some_inj in H. subst c0. specialize (IH _ _ _ _ HP E2).
      cbn [flat_map act_sites]. rewrite filter_app, app_length. cbn [bcode_app b_unp]. rewrite app_length.
      pose proof (zero_sites _ _ _ _ _ _ _ _ HZ E1). lia.
    + bind_as H b1 E1. cbn [flat_map act_sites app]. eauto.
Qed.

(** The traversal visits every position once. *)
Lemma visits_perm r1 r2 r3 bs : 1 <= r1 -> 1 <= r2 -> 1 <= r3 -> 1 <= bs ->
  Permutation (zrange 0 (r1 * r2 * r3)) (map s_at (flat_map act_sites (acts3_border r1 r2 r3 bs))).
Proof using.
  intros H1 H2 H3 H4. destruct (acts3_all r1 r2 r3 bs false H1 H2 H3 H4) as (NC & _ & CV). cbn [acts3] in NC, CV.
  apply NoDup_Permutation_bis.
  - apply NoDup_zseq.
  - rewrite map_length. pose proof (zrange_len 0 (r1 * r2 * r3)). assert (0 <= r1 * r2 * r3) by nia. lia.
  - intros i Hi. assert (0 <= i < r1 * r2 * r3).
    { apply in_zrange. exact Hi. }
    destruct (CV i) as (s & Hs & <-); [auto|]. apply in_map. exact Hs.
Qed.

Lemma filter_map_len {X Y} (f : X -> Y) p l : length (filter p (map f l)) = length (filter (fun x => p (f x)) l).
Proof using. induction l as [|a l IH]; [reflexivity|]. cbn [map filter]. destruct (p (f a)); cbn [length]; lia. Qed.
Lemma filter_perm_len {X} (p : X -> bool) l l' : Permutation l l' -> length (filter p l) = length (filter p l').
Proof using.
  intros H. induction H; cbn [filter]; auto.
  - destruct (p x); cbn [length]; lia.
  - destruct (p x), (p y); cbn [length]; lia.
  - lia.
Qed.
Lemma zrange_filter_len {X} (l : list X) (p : X -> bool) :
  length (filter (fun i => match aget l i with Some x => p x | None => false end) (zrange 0 (Z.of_nat (length l)))) = length (filter p l).
Proof using.
  unfold zrange. replace (Z.to_nat (Z.of_nat (length l) - 0)) with (length l) by lia.
  enough (H : forall l0, length (filter (fun i => match aget (l0 ++ l) i with Some x => p x | None => false end)
    (zseq (Z.of_nat (length l0)) (length l))) = length (filter p l)) by exact (H []).
  induction l as [|a l IH]; intros l0; [reflexivity|]. cbn [length zseq filter].
  assert (E : aget (l0 ++ a :: l) (Z.of_nat (length l0)) = Some a).
  { unfold aget. destruct (Z.of_nat (length l0) <? 0) eqn:E; [lia|]. rewrite Nat2Z.id, nth_error_app2, Nat.sub_diag by lia. reflexivity. }
  rewrite E. specialize (IH (l0 ++ [a])). rewrite <- app_assoc, app_length in IH. cbn [length app] in IH.
  replace (Z.of_nat (length l0 + 1)) with (Z.of_nat (length l0) + 1) in IH by lia.
  destruct (p a); cbn [length]; rewrite IH; reflexivity.
Qed.

(** More than a twentieth of the bounds are zero: the array of verbatim values overflows. *)
Theorem zero_bounds_overflow ord ub r1 r2 r3 bs indep precisions pad data junk :
  Z.of_nat (length precisions) = r1 * r2 * r3 ->
  r1 * r2 * r3 < 20 * Z.of_nat (length (filter (fun p => deq A p (dofZ A 0)) precisions)) ->
  compress_3d_eb A O ord ub r1 r2 r3 bs indep precisions pad data junk = None.
Proof using HS.
  intros LP HZ. unfold compress_3d_eb.
  destruct ((1 <=? r1) && (1 <=? r2) && (1 <=? r3) && (1 <=? bs)) eqn:EB; [|reflexivity].
  destruct (encode_3d_eb A O r1 r2 r3 bs precisions data) as [c|] eqn:EE; [|reflexivity]. cbn [bind].
  destruct (_ <=? unp_room A (r1 * r2 * r3)) eqn:EU; [exfalso|reflexivity].
  assert (H1 : 1 <= r1) by lia. assert (H2 : 1 <= r2) by lia. assert (H3 : 1 <= r3) by lia. assert (H4 : 1 <= bs) by lia.
  unfold encode_3d_eb in EE. apply (zero_acts precisions data (cfg3_eb A r2 r3) eq_refl) in EE; [|apply all_lorenzo].
  rewrite <- (filter_map_len s_at (is_zero precisions)) in EE.
  rewrite <- (filter_perm_len _ _ _ (visits_perm r1 r2 r3 bs H1 H2 H3 H4)), <- LP in EE.
  unfold is_zero in EE. rewrite (zrange_filter_len precisions (fun p => deq A p (dofZ A 0))) in EE.
  pose proof (tsize_pos A HS) as TP. unfold unp_room in EU.
  set (k := Z.of_nat (length (filter _ precisions))) in *. set (u := Z.of_nat (length (b_unp A O c))) in *.
  set (w := Z.of_nat (tsize_of A)) in *. set (n := r1 * r2 * r3) in *.
  assert (UK : k <= u) by lia. assert (W : 1 <= w) by lia.
  assert (n * w < 20 * (u * w)) by nia.
  assert (n * w / 20 < u * w) by (apply Z.div_lt_upper_bound; lia). lia.
Qed.
End Sync.

(** ** Doubles and floats *)
Theorem block3_eb_api_double lm ord ub r1 r2 r3 bs indep precisions pad (data : list binary64) junk buf size :
  bs < 2 ^ 31 -> length pad = 7%nat -> Z.of_nat (length junk) < 2 ^ 64 ->
  Z.of_nat (length precisions) = r1 * r2 * r3 -> (forall b, In b precisions -> is_finite 53 1024 b = true) ->
  compress_3d_eb (DA lm) (DO lm) ord ub r1 r2 r3 bs indep precisions pad data junk = Some (buf, size) ->
  short_blocks ord 32768 (encode_3d_eb (DA lm) (DO lm) r1 r2 r3 bs precisions data) ->
  exists out, (forall rest, read_3d_eb (DA lm) (DO lm) r1 r2 r3 precisions (firstn size buf ++ rest) = Some out) /\
    recovered (aget precisions) data (Z.to_nat (r1 * r2 * r3)) out.
Proof.
  intros H1 H2 H3 LP HP HC HS.
  assert (HE : exists c, encode_3d_eb (DA lm) (DO lm) r1 r2 r3 bs precisions data = Some c).
  { unfold compress_3d_eb in HC. destruct (_ && _) in HC; [|discriminate]. bind_as HC c E. eauto. }
  destruct HE as [c HE].
  destruct (round_trip_3d_eb (DA lm) (DO lm) (DA_ser lm) (DO_ser lm) ord ub r1 r2 r3 bs indep precisions pad data junk buf size c) as (out & E & HD); auto.
  - apply DA_laws. split; cbn; lia.
  - apply (HS c HE).
  - exists out. split; [exact E|]. eapply delivered_double; [|exact HD]. intros i Hi.
    destruct (aget_in precisions i) as [b Hb]; [lia|]. exists b. split; [auto|]. apply HP. eapply aget_In; eauto.
Qed.

Theorem block3_eb_api_float lm ord ub r1 r2 r3 bs indep precisions pad (data : list binary32) junk buf size :
  bs < 2 ^ 31 -> length pad = 3%nat -> Z.of_nat (length junk) < 2 ^ 64 ->
  Z.of_nat (length precisions) = r1 * r2 * r3 -> (forall b, In b precisions -> is_finite 53 1024 b = true) ->
  compress_3d_eb (FA lm) (FO lm) ord ub r1 r2 r3 bs indep precisions pad data junk = Some (buf, size) ->
  short_blocks ord 32768 (encode_3d_eb (FA lm) (FO lm) r1 r2 r3 bs precisions data) ->
  exists out, (forall rest, read_3d_eb (FA lm) (FO lm) r1 r2 r3 precisions (firstn size buf ++ rest) = Some out) /\
    recovered (aget precisions) data (Z.to_nat (r1 * r2 * r3)) out.
Proof.
  intros H1 H2 H3 LP HP HC HS.
  assert (HE : exists c, encode_3d_eb (FA lm) (FO lm) r1 r2 r3 bs precisions data = Some c).
  { unfold compress_3d_eb in HC. destruct (_ && _) in HC; [|discriminate]. bind_as HC c E. eauto. }
  destruct HE as [c HE].
  destruct (round_trip_3d_eb (FA lm) (FO lm) (FA_ser lm) (FO_ser lm) ord ub r1 r2 r3 bs indep precisions pad data junk buf size c) as (out & E & HD); auto.
  - apply FA_laws. split; cbn; lia.
  - apply (HS c HE).
  - exists out. split; [exact E|]. eapply delivered_float; [|exact HD]. intros i Hi.
    destruct (aget_in precisions i) as [b Hb]; [lia|]. exists b. split; [auto|]. apply HP. eapply aget_In; eauto.
Qed.

(** The bounds zero as doubles. *)
Definition zero64 (p : binary64) : bool := match p with B754_zero _ _ _ => true | _ => false end.
Lemma zero64_deq lm p : is_finite 53 1024 p = true -> deq (DA lm) p (dofZ (DA lm) 0) = zero64 p.
Proof.
  intros HF. rewrite (v_deq (DA lm) (DA_ieee lm)). rewrite (vD_const (DA lm) (DA_ieee lm) 0) by lia.
  change (vD (DA lm) (DA_ieee lm) p) with (val 53 1024 p). rewrite (val_fin 53 1024 p HF). cbn [xeq].
  destruct p as [s|s|s pl H|s m e H]; try discriminate HF; cbn [zero64].
  - apply Req_bool_true. reflexivity.
  - apply Req_bool_false. apply F2R_neq_0. destruct s; discriminate.
Qed.

Theorem block3_eb_zero_double lm ord ub r1 r2 r3 bs indep precisions pad (data : list binary64) junk :
  Z.of_nat (length precisions) = r1 * r2 * r3 -> (forall b, In b precisions -> is_finite 53 1024 b = true) ->
  r1 * r2 * r3 < 20 * Z.of_nat (length (filter zero64 precisions)) ->
  compress_3d_eb (DA lm) (DO lm) ord ub r1 r2 r3 bs indep precisions pad data junk = None.
Proof.
  intros LP HP HZ. apply zero_bounds_overflow; auto using DA_ser.
  rewrite (filter_ext_in _ zero64); [exact HZ|]. intros b Hb. apply zero64_deq. auto.
Qed.
Theorem block3_eb_zero_float lm ord ub r1 r2 r3 bs indep precisions pad (data : list binary32) junk :
  Z.of_nat (length precisions) = r1 * r2 * r3 -> (forall b, In b precisions -> is_finite 53 1024 b = true) ->
  r1 * r2 * r3 < 20 * Z.of_nat (length (filter zero64 precisions)) ->
  compress_3d_eb (FA lm) (FO lm) ord ub r1 r2 r3 bs indep precisions pad data junk = None.
Proof.
  intros LP HP HZ. apply zero_bounds_overflow; auto using FA_ser.
  rewrite (filter_ext_in _ zero64); [exact HZ|]. intros b Hb. exact (zero64_deq (lm64 false) b (HP b Hb)).
Qed.

(** Quantising never converts out of range nor leaves the buffers. *)
Lemma acts3_eb_fits (A : Arith) r1 r2 r3 bs : 1 <= r1 -> 1 <= r2 -> 1 <= r3 -> 1 <= bs ->
  Forall (act_fits A (cfg3_eb A r2 r3) (length (buffer3 A false r2 r3 bs)) (Z.to_nat (r1 * r2 * r3)) 0) (acts3_border r1 r2 r3 bs).
Proof.
  intros H1 H2 H3 H4. pose proof (acts3_fits A r1 r2 r3 bs false 32768 16384 None H1 H2 H3 H4) as HF. cbn [acts3] in HF.
  eapply Forall_impl; [|exact HF]. intros [ss|src len] H; cbn [act_fits] in *; [|exact H].
  eapply Forall_impl; [|exact H]. intros s [HS _]. split; [exact HS|lia].
Qed.

Lemma positive_bound (b : binary64) : is_finite 53 1024 b = true -> (0 <= B2R 53 1024 b)%R ->
  zero64 b = true \/ (0 < B2R 53 1024 b)%R.
Proof.
  intros HF H0. destruct b as [s|s|s pl H|s m e H]; try discriminate HF; [left; reflexivity|right].
  assert (B2R 53 1024 (B754_finite 53 1024 s m e H) <> 0%R) by (apply F2R_neq_0; destruct s; discriminate). lra.
Qed.

Theorem block3_eb_total_double lm r1 r2 r3 bs precisions (data : list binary64) :
  1 <= r1 -> 1 <= r2 -> 1 <= r3 -> 1 <= bs -> Z.of_nat (length data) = r1 * r2 * r3 -> Z.of_nat (length precisions) = r1 * r2 * r3 ->
  (forall b, In b precisions -> is_finite 53 1024 b = true /\ (0 <= B2R 53 1024 b)%R) ->
  exists c, encode_3d_eb (DA lm) (DO lm) r1 r2 r3 bs precisions data = Some c.
Proof.
  intros H1 H2 H3 Hb HL HL2 HP. unfold encode_3d_eb.
  destruct (acts3_all r1 r2 r3 bs false H1 H2 H3 Hb) as (_ & NB & _). cbn [acts3] in NB.
  apply (enc_acts_total (DA lm) (DO lm) _ _ _ _ (length (buffer3 (DA lm) false r2 r3 bs)) (Z.to_nat (r1 * r2 * r3)) 0).
  - apply sized_data. exact HL.
  - intros i Hi. destruct (sized_data precisions _ HL2 i Hi) as [b Hb']. exists b. split; [auto|].
    destruct (HP b (aget_In _ _ _ Hb')) as [HF H0]. cbn [cfg3_eb g_zero andb]. rewrite (zero64_deq lm b HF).
    destruct (positive_bound b HF H0) as [E|HN]; [left; exact E|right]. split; apply usable_double; auto; cbn; lia.
  - constructor.
  - reflexivity.
  - auto.
  - apply acts3_eb_fits; auto.
  - apply Forall_forall. intros e He. apply repeat_spec in He. subst e. exact Logic.I.
  - rewrite repeat_length. lia.
  - reflexivity.
  - reflexivity.
Qed.
Theorem block3_eb_total_float lm r1 r2 r3 bs precisions (data : list binary32) :
  1 <= r1 -> 1 <= r2 -> 1 <= r3 -> 1 <= bs -> Z.of_nat (length data) = r1 * r2 * r3 -> Z.of_nat (length precisions) = r1 * r2 * r3 ->
  (forall b, In b precisions -> is_finite 53 1024 b = true /\ (0 <= B2R 53 1024 b)%R) ->
  exists c, encode_3d_eb (FA lm) (FO lm) r1 r2 r3 bs precisions data = Some c.
Proof.
  intros H1 H2 H3 Hb HL HL2 HP. unfold encode_3d_eb.
  destruct (acts3_all r1 r2 r3 bs false H1 H2 H3 Hb) as (_ & NB & _). cbn [acts3] in NB.
  apply (enc_acts_total (FA lm) (FO lm) _ _ _ _ (length (buffer3 (FA lm) false r2 r3 bs)) (Z.to_nat (r1 * r2 * r3)) 0).
  - apply sized_data. exact HL.
  - intros i Hi. destruct (sized_data precisions _ HL2 i Hi) as [b Hb']. exists b. split; [auto|].
    destruct (HP b (aget_In _ _ _ Hb')) as [HF H0]. cbn [cfg3_eb g_zero andb].
    change (deq (FA lm) b (dofZ (FA lm) 0)) with (deq (DA (lm64 false)) b (dofZ (DA (lm64 false)) 0)). rewrite (zero64_deq _ b HF).
    destruct (positive_bound b HF H0) as [E|HN]; [left; exact E|right]. split; apply usable_float; auto; cbn; lia.
  - constructor.
  - reflexivity.
  - auto.
  - apply acts3_eb_fits; auto.
  - apply Forall_forall. intros e He. apply repeat_spec in He. subst e. exact Logic.I.
  - rewrite repeat_length. lia.
  - reflexivity.
  - reflexivity.
Qed.
