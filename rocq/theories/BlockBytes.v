(** Round trip of the block codecs through their byte streams, for every arithmetic whose values survive memcpy. *)
From Coq Require Import List ZArith Lia Bool Arith.
From Coq Require Import ZifyBool ZifyNat.
From Verif Require Import Base Huffman HuffQueue HuffStream HuffProps BitPack Stream Arith Codec2D Sync2D Stream2D LinQuant Block BlockSync BlockTile.
Import ListNotations.
Local Open Scope Z_scope.

(** What memcpy of a float needs. *)
Record fser_ok {A} (O : FOps A) : Prop := {
  fser_length : forall x, length (fser O x) = fsize_of O;
  fdes_fser : forall x, fdes O (fser O x) = x;
  fsize_pos : (1 <= fsize_of O)%nat;
}.

Lemma fread_array_app {A} (O : FOps A) l rest : fser_ok O -> fread_array A O (length l) (fser_array A O l ++ rest) = Some (l, rest).
Proof.
  intros HS. induction l as [|x l IH]; cbn [fread_array length fser_array flat_map app]; [reflexivity|].
  rewrite <- app_assoc. rewrite take_bytes_app by apply (fser_length _ HS). cbn [bind].
  fold (fser_array A O l). rewrite IH. cbn [bind]. rewrite (fdes_fser _ HS). reflexivity.
Qed.

Lemma fser_array_len {A} (O : FOps A) l : fser_ok O -> (length l <= length (fser_array A O l))%nat.
Proof.
  intros HS. induction l as [|x l IH]; cbn [length fser_array flat_map]; [lia|]. rewrite app_length, (fser_length _ HS).
  fold (fser_array A O l). pose proof (fsize_pos _ HS). lia.
Qed.

Section Bytes.
Context (A : Arith) (O : FOps A) (HS : ser_ok A) (HF : fser_ok O).
Notation T := (T A).
Notation D := (D A).

(** The decompressor's result: every value present and acceptable. *)
Definition delivered (g : cfg A) (prec : Z -> option D) (data : list T) (n : nat) (out : list (option T)) : Prop :=
  length out = n /\
  forall i, 0 <= i < Z.of_nat n -> exists x, aget out i = Some (Some x) /\ acceptable A g prec data i x.

(** The symbol arrays of a code have no code word longer than 64 bits. *)
Definition short_words ord (g : cfg A) (c : bcode A O) : Prop :=
  max_code_64 ord (2 * g_capacity A g) (b_type _ _ c) /\
  ((1 <= reg_count _ _ c)%nat -> max_code_64 ord 131072 (b_rtype _ _ c)).

Lemma read_mean_ok m pad rest : length pad = (tsize_of A - 1)%nat ->
  read_mean A (mean_bytes A m pad ++ rest) = Some (m, rest).
Proof.
  intros HP. unfold read_mean, mean_bytes. destruct m as [m|]; cbn [app].
  - change (1 :: (pad ++ tser A m) ++ rest) with ([1] ++ (pad ++ tser A m) ++ rest).
    rewrite take_bytes_app by reflexivity. cbn [bind]. rewrite <- app_assoc. rewrite take_bytes_app by exact HP. cbn [bind].
    rewrite take_bytes_app by apply (tser_length _ HS). cbn [bind]. rewrite (tdes_tser _ HS). reflexivity.
  - change (0 :: (pad ++ tser A (tofZ A 0)) ++ rest) with ([0] ++ (pad ++ tser A (tofZ A 0)) ++ rest).
    rewrite take_bytes_app by reflexivity. cbn [bind]. rewrite <- app_assoc. rewrite take_bytes_app by exact HP. cbn [bind].
    rewrite take_bytes_app by apply (tser_length _ HS). cbn [bind]. reflexivity.
Qed.

(** The pieces after the mean. *)
Definition tail_pieces (g : cfg A) (c : bcode A O) : list piece :=
  [ Raw (le_bytes 8 (Z.of_nat (reg_count _ _ c)));
    Raw (le_bytes 8 (Z.of_nat (length (b_unp _ _ c))));
    Raw (tser_array A (b_unp _ _ c));
    Raw (pack_flags (b_ind _ _ c)) ] ++
  (if (reg_count _ _ c =? 0)%nat then []
   else [ Raw (le_bytes 8 (Z.of_nat (length (b_runp _ _ c)))); Raw (fser_array A O (b_runp _ _ c)); Huff 131072 (b_rtype _ _ c) ]) ++
  [ Huff (2 * g_capacity A g) (b_type _ _ c) ].

Lemma block_pieces_split bs prec indep g pad c : block_pieces A O bs prec indep g pad c =
  ([ Raw (le_bytes 4 bs) ] ++ match prec with Some p => [ Raw (dser A p) ] | None => [] end ++
   [ Raw [if indep then 1 else 0]; Raw (le_bytes 4 (g_radius A g)); Raw (mean_bytes A (g_mean A g) pad) ])
  ++ tail_pieces g c.
Proof. unfold block_pieces, tail_pieces. rewrite <- !app_assoc. reflexivity. Qed.

Lemma concat_cons {X} (l : list X) ls : concat (l :: ls) = l ++ concat ls.
Proof. reflexivity. Qed.

Lemma read_blocks_ok g c cs usize k nb n precs coefs rest :
  Forall2 chunk_of (tail_pieces g c) cs ->
  Forall is_flag (b_ind _ _ c) -> length (b_ind _ _ c) = nb -> (1 <= nb)%nat -> Z.of_nat nb < 2 ^ 64 ->
  length (b_type _ _ c) = n -> length (b_rtype _ _ c) = (k * reg_count _ _ c)%nat ->
  Z.of_nat (length (concat cs)) < 2 ^ 64 -> usize = tsize_of A \/ b_unp _ _ c = [] ->
  (forall ts us, dec_coef_array A O precs (reg_count _ _ c) (repeat (fofZ O 0) k) (b_rtype _ _ c ++ ts) (b_runp _ _ c ++ us) = Some coefs) ->
  read_blocks A O usize k nb n precs (concat cs ++ rest) = Some (b_ind _ _ c, b_type _ _ c, b_unp _ _ c, coefs).
Proof.
  intros HC HI Hnb Hnb1 Hnb2 HT HR HL HU HD. unfold tail_pieces in HC.
  assert (RC : (reg_count _ _ c <= nb)%nat) by (rewrite <- Hnb; apply count_occ_bound).
  cbn [app] in HC. unfold read_blocks.
  apply Forall2_cons_ex in HC. destruct HC as (c1 & cs1 & -> & X1 & HC). apply chunk_raw_inv in X1. subst c1.
  apply Forall2_cons_ex in HC. destruct HC as (c1 & cs2 & -> & X1 & HC). apply chunk_raw_inv in X1. subst c1.
  apply Forall2_cons_ex in HC. destruct HC as (c1 & cs3 & -> & X1 & HC). apply chunk_raw_inv in X1. subst c1.
  apply Forall2_cons_ex in HC. destruct HC as (c1 & cs4 & -> & X1 & HC). apply chunk_raw_inv in X1. subst c1.
  rewrite !concat_cons in *. rewrite !app_length in HL. rewrite <- !app_assoc.
  pose proof (tser_array_nil_inv A (b_unp _ _ c) HS) as HU1.
  rewrite read_le_app by (change (256 ^ Z.of_nat 8) with (2 ^ 64); lia). cbn [bind].
  rewrite read_le_app by (change (256 ^ Z.of_nat 8) with (2 ^ 64); lia). cbn [bind].
  rewrite !Nat2Z.id. rewrite tread_array_app by auto. cbn [bind].
  assert (HTK : forall rest', take_bytes (length (b_unp _ _ c) * usize) (tser_array A (b_unp _ _ c) ++ rest') =
                             Some (tser_array A (b_unp _ _ c), rest')).
  { intros rest'. destruct HU as [->|HU].
    - apply take_bytes_app. rewrite tser_array_length by auto. reflexivity.
    - rewrite HU. reflexivity. }
  rewrite HTK. cbn [bind]. replace (1 <=? nb)%nat with true by lia.
  pose proof (fun rest => proj1 (flags_round_trip (b_ind _ _ c) rest ltac:(lia) HI)) as RF. rewrite Hnb in RF.
  rewrite RF. cbn [bind].
  destruct (reg_count _ _ c =? 0)%nat eqn:ER.
  - assert (RZ : reg_count _ _ c = 0%nat) by lia. rewrite RZ. cbn [Z.of_nat Z.eqb bind].
    cbn [app] in HC. apply Forall2_cons_ex in HC. destruct HC as (c5 & cs5 & -> & X1 & HC). apply Forall2_nil_ex in HC. subst cs5.
    pose proof (chunk_huff_inv _ _ _ X1) as YX1. clear X1. rename YX1 into X1. rewrite HT in X1. rewrite concat_cons, <- app_assoc. rewrite X1. cbn [bind].
    specialize (HD [] []). rewrite RZ in HD. cbn [dec_coef_array] in HD. apply Some_inj in HD. subst coefs. reflexivity.
  - replace (Z.of_nat (reg_count _ _ c) =? 0) with false by lia.
    cbn [app] in HC. apply Forall2_cons_ex in HC. destruct HC as (c5 & cs5 & -> & X1 & HC). apply chunk_raw_inv in X1. subst c5.
    apply Forall2_cons_ex in HC. destruct HC as (c6 & cs6 & -> & X1 & HC). apply chunk_raw_inv in X1. subst c6.
    apply Forall2_cons_ex in HC. destruct HC as (c7 & cs7 & -> & X7 & HC). pose proof (chunk_huff_inv _ _ _ X7) as YX7. clear X7. rename YX7 into X7.
    apply Forall2_cons_ex in HC. destruct HC as (c8 & cs8 & -> & X8 & HC). pose proof (chunk_huff_inv _ _ _ X8) as YX8. clear X8. rename YX8 into X8.
    apply Forall2_nil_ex in HC. subst cs8.
    rewrite !concat_cons in *. rewrite !app_length in HL. rewrite <- !app_assoc. pose proof (fser_array_len O (b_runp _ _ c) HF) as HU2.
    rewrite read_le_app by (change (256 ^ Z.of_nat 8) with (2 ^ 64); lia). cbn [bind].
    rewrite !Nat2Z.id. rewrite fread_array_app by auto. cbn [bind].
    rewrite HR in X7. rewrite X7. cbn [bind].
    specialize (HD [] []). rewrite !app_nil_r in HD. rewrite HD. cbn [bind].
    rewrite HT in X8. rewrite X8. reflexivity.
Qed.

Lemma tail_ok ord g c : 1 <= 2 * g_capacity A g <= 2 ^ 26 -> short_words ord g c -> Forall (piece_ok ord) (tail_pieces g c).
Proof.
  intros HC [W1 W2]. unfold tail_pieces. destruct (reg_count _ _ c =? 0)%nat eqn:E; cbn [app].
  - repeat apply Forall_cons; try apply Forall_nil; cbn [piece_ok]; auto.
  - repeat apply Forall_cons; try apply Forall_nil; cbn [piece_ok]; auto. split; [lia|]. apply W2. lia.
Qed.

(** ** Fields *)
Lemma field_sync g prec precs data acts plan buf prev c n :
  laws A O g -> Forall (act_ok A g (length buf) n) acts -> (g_zero A g = true -> Forall (eq None) plan) ->
  (forall i, 0 <= i < Z.of_nat n -> exists s, In s (flat_map act_sites acts) /\ s_at s = i) ->
  enc_acts A O g prec precs data acts plan buf prev = Some c ->
  exists coefs out,
    (forall ts us, dec_coef_array A O precs (reg_count _ _ c) prev (b_rtype _ _ c ++ ts) (b_runp _ _ c ++ us) = Some coefs) /\
    dec_acts A O g prec acts (b_ind _ _ c) coefs buf (repeat None n) (b_type _ _ c) (b_unp _ _ c) = Some out /\
    delivered g prec data n out.
Proof.
  intros HL HA HZ HC HE.
  destruct (acts_sync A O g prec data (length buf) n precs HL acts plan buf prev c HA eq_refl HZ HE)
    as (_ & _ & _ & _ & _ & coefs & H1 & H2).
  destruct (H2 (repeat None n) [] [] [] []) as (out & O1 & O2 & _ & O4).
  - split; [apply repeat_length|]. intros i x Hx. unfold aget in Hx. destruct (i <? 0); [discriminate|].
    apply nth_error_In, repeat_spec in Hx. discriminate.
  - rewrite !app_nil_r in O4. exists coefs, out. split; [exact H1|]. split; [exact O4|]. split; [apply O1|].
    intros i Hi. destruct (HC i Hi) as (s & Hs & <-). destruct (O2 s Hs) as [x Hx]. exists x. split; [exact Hx|].
    apply O1. exact Hx.
Qed.

Lemma aget_in {X} (l : list X) i : 0 <= i < Z.of_nat (length l) -> exists x, aget l i = Some x.
Proof.
  intros H. unfold aget. replace (i <? 0) with false by lia. destruct (nth_error l (Z.to_nat i)) eqn:E; [eauto|].
  apply nth_error_None in E. lia.
Qed.

Lemma lor2_in off buf p : 0 <= off -> off + 1 <= p < Z.of_nat (length buf) -> exists l, lorenzo_predict2 A off buf p = Some l.
Proof.
  intros H0 H. unfold lorenzo_predict2.
  destruct (aget_in buf (p - 1)) as [a ->]; [lia|]. destruct (aget_in buf (p - off)) as [b ->]; [lia|].
  destruct (aget_in buf (p - off - 1)) as [c ->]; [lia|]. cbn [bind]. eauto.
Qed.

Lemma lor3_in off0 off1 buf p : 0 <= off0 -> 0 <= off1 -> off0 + off1 + 1 <= p < Z.of_nat (length buf) ->
  exists l, lorenzo_predict3 A off0 off1 buf p = Some l.
Proof.
  intros H0 H1 H. unfold lorenzo_predict3.
  destruct (aget_in buf (p - 1)) as [? ->]; [lia|]. destruct (aget_in buf (p - off1)) as [? ->]; [lia|].
  destruct (aget_in buf (p - off0)) as [? ->]; [lia|]. destruct (aget_in buf (p - off1 - 1)) as [? ->]; [lia|].
  destruct (aget_in buf (p - off0 - 1)) as [? ->]; [lia|]. destruct (aget_in buf (p - off0 - off1)) as [? ->]; [lia|].
  destruct (aget_in buf (p - off0 - off1 - 1)) as [? ->]; [lia|]. cbn [bind]. eauto.
Qed.

Lemma acts_ok_of (g : cfg A) L n acts : (forall s, In s (flat_map act_sites acts) -> site_ok A g L n s) -> Forall (act_ok A g L n) acts.
Proof.
  intros H. apply Forall_forall. intros a Ha. destruct a as [ss|]; cbn [act_ok]; [|exact I].
  apply Forall_forall. intros s Hs. apply H. apply in_flat_map. exists (Block ss). auto.
Qed.

Lemma acts2_ok r1 r2 bs cap rad zero mean : 1 <= r1 -> 1 <= r2 -> 1 <= bs ->
  Forall (act_ok A (cfg2 A r2 cap rad zero mean) (Z.to_nat ((bs + 1) * (r2 + 1))) (Z.to_nat (r1 * r2))) (acts2 r1 r2 bs).
Proof.
  intros H1 H2 Hb. apply acts_ok_of. intros s Hs. destruct (acts2_range r1 r2 bs H1 H2 Hb s Hs) as (S1 & S2 & _).
  split; [|split; [|lia]].
  - intros buf HL. cbn [cfg2 g_lor]. apply lor2_in; lia.
  - lia.
Qed.

Lemma acts3_ok r1 r2 r3 bs indep cap rad mean : 1 <= r1 -> 1 <= r2 -> 1 <= r3 -> 1 <= bs ->
  Forall (act_ok A (cfg3 A indep r2 r3 bs cap rad mean) (length (buffer3 A indep r2 r3 bs)) (Z.to_nat (r1 * r2 * r3)))
         (acts3 indep r1 r2 r3 bs).
Proof.
  intros H1 H2 H3 Hb. apply acts_ok_of. intros s Hs. unfold acts3, buffer3, cfg3 in *. rewrite repeat_length.
  destruct indep.
  - rewrite (acts3_indep_eq r1 r2 r3 bs H1 H2 H3 Hb) in Hs.
    pose proof (fun P => acts3_site r1 r2 r3 bs H1 H2 H3 Hb _ _ _ _ P s Hs) as HS3.
    destruct (HS3 ltac:(split; reflexivity))
      as (S1 & _ & j & k & x & y & z & _ & _ & Hx & Hy & Hz & _ & _ & ES).
    pose proof (indep_range bs x y z Hb Hx Hy Hz) as HR. cbv zeta in HR. rewrite <- ES in HR.
    assert (0 <= (bs + 1) * (bs + 1)) by nia.
    split; [|split; [|lia]]; [|lia]. intros buf HL. cbn [g_lor]. apply lor3_in; lia.
  - rewrite (acts3_border_eq r1 r2 r3 bs H1 H2 H3 Hb) in Hs.
    pose proof (fun P => acts3_site r1 r2 r3 bs H1 H2 H3 Hb _ _ _ _ P s Hs) as HS3.
    destruct (HS3 ltac:(split; reflexivity))
      as (S1 & _ & j & k & x & y & z & _ & _ & Hx & Hy & Hz & Hj & Hk & ES).
    pose proof (border_range r2 r3 bs j k x y z H2 H3 Hx Hj Hk) as HR. cbv zeta in HR. rewrite <- ES in HR.
    assert (0 <= (r2 + 1) * (r3 + 1)) by nia.
    split; [|split; [|lia]]; [|lia]. intros buf HL. cbn [g_lor]. apply lor3_in; lia.
Qed.

Lemma acts3_all r1 r2 r3 bs indep : 1 <= r1 -> 1 <= r2 -> 1 <= r3 -> 1 <= bs ->
  let acts := acts3 indep r1 r2 r3 bs in
  Z.of_nat (length (flat_map act_sites acts)) = r1 * r2 * r3 /\
  Z.of_nat (length (filter act_block acts)) = num_blocks r1 bs * num_blocks r2 bs * num_blocks r3 bs /\
  forall i, 0 <= i < r1 * r2 * r3 -> exists s, In s (flat_map act_sites acts) /\ s_at s = i.
Proof.
  intros H1 H2 H3 Hb acts. unfold acts, acts3. destruct indep.
  - rewrite (acts3_indep_eq r1 r2 r3 bs H1 H2 H3 Hb).
    split; [|split]; [apply acts3_count|apply acts3_blocks|intros; apply acts3_cover]; auto; split; reflexivity.
  - rewrite (acts3_border_eq r1 r2 r3 bs H1 H2 H3 Hb).
    split; [|split]; [apply acts3_count|apply acts3_blocks|intros; apply acts3_cover]; auto; split; reflexivity.
Qed.

Lemma num_blocks_le d bs : 1 <= d -> 1 <= bs -> num_blocks d bs <= d.
Proof. intros. unfold num_blocks. assert ((d - 1) / bs <= d - 1) by (apply Z.div_le_upper_bound; nia). lia. Qed.

Lemma est_size_ge n : 0 <= n -> n <= est_size A n.
Proof. intros H. unfold est_size. pose proof (tsize_pos A HS). apply Z.div_le_lower_bound; nia. Qed.

(** ** sz_compress_2d / sz_decompress_2d *)
Theorem round_trip_2d ord ub r1 r2 bs indep precision plan pad data junk buf size c :
  laws A O (cfg2 A r2 32768 16384 false None) ->
  bs < 2 ^ 31 -> length pad = (tsize_of A - 1)%nat -> Z.of_nat (length junk) < 2 ^ 64 ->
  compress_2d A O ord ub r1 r2 bs indep precision plan pad data junk = Some (buf, size) ->
  encode_2d A O r1 r2 bs precision plan data = Some c ->
  short_words ord (cfg2 A r2 32768 16384 false None) c ->
  fsize_of O = tsize_of A \/ b_unp _ _ c = [] ->
  exists out, (forall rest, decompress_2d A O r1 r2 (firstn size buf ++ rest) = Some out) /\
    delivered (cfg2 A r2 32768 16384 false None) (fun _ => Some precision) data (Z.to_nat (r1 * r2)) out.
Proof.
  intros HL Hbs HP HJ HC HE HW HU. unfold compress_2d in HC.
  destruct ((1 <=? r1) && (1 <=? r2) && (1 <=? bs)) eqn:EB; [|discriminate].
  assert (H1 : 1 <= r1) by lia. assert (H2 : 1 <= r2) by lia. assert (H3 : 1 <= bs) by lia. rewrite HE in HC. cbn [bind] in HC.
  destruct (_ <=? unp_room A (r1 * r2)); [|discriminate]. destruct (_ =? est_size A (r1 * r2)) eqn:EJ; [|discriminate].
  set (g := cfg2 A r2 32768 16384 false None) in *.
  assert (HPO : Forall (piece_ok ord) (block_pieces A O bs (Some precision) indep g pad c)).
  { rewrite block_pieces_split. apply Forall_app. split; [cbn [app]; repeat apply Forall_cons; try apply Forall_nil; exact I|].
    apply tail_ok; [cbn; lia|exact HW]. }
  pose proof (write_pieces_spec ord ub _ junk 0 buf size HJ HPO ltac:(lia) HC) as (_ & _ & _ & _ & _ & _ & HB).
  destruct (write_pieces_bytes ord ub _ _ _ _ HJ HPO HC) as (cs & HCS & EF).
  assert (HLC : Z.of_nat (length (concat cs)) < 2 ^ 64).
  { rewrite <- EF. rewrite firstn_length. lia. }
  unfold encode_2d in HE. fold g in HE. rewrite (acts2_enc_eq r1 r2 bs H1 H2 H3) in HE.
  set (bf := repeat (t0 A) (Z.to_nat ((bs + 1) * (r2 + 1)))) in *.
  assert (LB : length bf = Z.to_nat ((bs + 1) * (r2 + 1))) by apply repeat_length.
  assert (HA : Forall (act_ok A g (length bf) (Z.to_nat (r1 * r2))) (acts2 r1 r2 bs)) by (rewrite LB; apply acts2_ok; auto).
  assert (HCV : forall i, 0 <= i < Z.of_nat (Z.to_nat (r1 * r2)) -> exists s, In s (flat_map act_sites (acts2 r1 r2 bs)) /\ s_at s = i)
    by (intros; apply acts2_cover; auto; nia).
  destruct (acts_sync A O g _ data _ _ _ HL _ _ _ _ _ HA eq_refl ltac:(discriminate) HE) as (I1 & I2 & I3 & _ & I5 & _).
  destruct (field_sync g _ _ data _ _ bf _ c _ HL HA ltac:(discriminate) HCV HE) as (coefs & out & F1 & F2 & F3).
  exists out. split; [intros rest|exact F3].
  pose proof (acts2_blocks r1 r2 bs H1 H2 H3) as NB. pose proof (acts2_count r1 r2 bs H1 H2 H3) as NC.
  pose proof (num_blocks_pos r1 bs H1 H3). pose proof (num_blocks_pos r2 bs H2 H3).
  pose proof (num_blocks_le r1 bs H1 H3). pose proof (num_blocks_le r2 bs H2 H3). pose proof (est_size_ge (r1 * r2) ltac:(nia)).
  rewrite EF. rewrite block_pieces_split in HCS. cbn [app] in HCS.
  apply Forall2_cons_ex in HCS. destruct HCS as (c1 & cs1 & E1 & X1 & HCS). apply chunk_raw_inv in X1. subst c1.
  apply Forall2_cons_ex in HCS. destruct HCS as (c1 & cs2 & E2 & X1 & HCS). apply chunk_raw_inv in X1. subst c1.
  apply Forall2_cons_ex in HCS. destruct HCS as (c1 & cs3 & E3 & X1 & HCS). apply chunk_raw_inv in X1. subst c1.
  apply Forall2_cons_ex in HCS. destruct HCS as (c1 & cs4 & E4 & X1 & HCS). apply chunk_raw_inv in X1. subst c1.
  apply Forall2_cons_ex in HCS. destruct HCS as (c1 & cs5 & E5 & X1 & HCS). apply chunk_raw_inv in X1. subst c1.
  subst cs cs1 cs2 cs3 cs4. rewrite !concat_cons in *. rewrite <- !app_assoc. unfold decompress_2d.
  rewrite read_s32_app by lia. cbn [bind]. rewrite EB.
  rewrite take_bytes_app by apply (dser_length _ HS). cbn [bind]. rewrite (ddes_dser _ HS).
  rewrite take_bytes_app by reflexivity. cbn [bind].
  rewrite read_s32_app by (cbn; lia). cbn [bind].
  rewrite read_mean_ok by exact HP. cbn [bind].
  rewrite (read_blocks_ok g c cs5 (fsize_of O) 3 _ _ (coef_precisions A O 3 bs precision) coefs rest HCS I1).
  - cbn [bind]. change (g_mean A g) with (@None T). change (g_radius A g) with 16384. change (2 * 16384) with 32768. fold g.
    rewrite (acts2_dec_eq r1 r2 bs H1 H2 H3). exact F2.
  - rewrite I2. lia.
  - nia.
  - rewrite Z2Nat.id by nia. nia.
  - rewrite I3. lia.
  - rewrite I5. unfold coef_precisions. rewrite app_length, repeat_length. reflexivity.
  - rewrite !app_length in HLC. lia.
  - exact HU.
  - exact F1.
Qed.

(** ** sz_compress_2d_with_eb / sz_decompress_2d_with_eb *)
Theorem round_trip_2d_eb ord ub r1 r2 bs indep precisions pad data junk buf size c :
  laws A O (cfg2 A r2 65536 32768 true None) ->
  bs < 2 ^ 31 -> length pad = (tsize_of A - 1)%nat -> Z.of_nat (length junk) < 2 ^ 64 ->
  compress_2d_eb A O ord ub r1 r2 bs indep precisions pad data junk = Some (buf, size) ->
  encode_2d_eb A O r1 r2 bs precisions data = Some c ->
  short_words ord (cfg2 A r2 65536 32768 true None) c ->
  exists out, (forall rest, decompress_2d_eb A O r1 r2 precisions (firstn size buf ++ rest) = Some out) /\
    delivered (cfg2 A r2 65536 32768 true None) (aget precisions) data (Z.to_nat (r1 * r2)) out.
Proof.
  intros HL Hbs HP HJ HC HE HW. unfold compress_2d_eb in HC.
  destruct ((1 <=? r1) && (1 <=? r2) && (1 <=? bs)) eqn:EB; [|discriminate].
  assert (H1 : 1 <= r1) by lia. assert (H2 : 1 <= r2) by lia. assert (H3 : 1 <= bs) by lia. rewrite HE in HC. cbn [bind] in HC.
  destruct (_ =? est_size A (r1 * r2)) eqn:EJ; [|discriminate].
  set (g := cfg2 A r2 65536 32768 true None) in *.
  assert (HPO : Forall (piece_ok ord) (block_pieces A O bs None indep g pad c)).
  { rewrite block_pieces_split. apply Forall_app. split; [cbn [app]; repeat apply Forall_cons; try apply Forall_nil; exact I|].
    apply tail_ok; [cbn; lia|exact HW]. }
  destruct (write_pieces_bytes ord ub _ _ _ _ HJ HPO HC) as (cs & HCS & EF).
  pose proof (write_pieces_spec ord ub _ junk 0 buf size HJ HPO ltac:(lia) HC) as (_ & _ & _ & _ & _ & _ & HB).
  assert (HLC : Z.of_nat (length (concat cs)) < 2 ^ 64).
  { rewrite <- EF. rewrite firstn_length. lia. }
  unfold encode_2d_eb in HE. fold g in HE. rewrite (acts2_enc_eq r1 r2 bs H1 H2 H3) in HE.
  set (bf := repeat (t0 A) (Z.to_nat ((bs + 1) * (r2 + 1)))) in *.
  set (plan := repeat None _) in HE.
  assert (HPL : Forall (eq None) plan) by (apply Forall_forall; intros x Hx; apply repeat_spec in Hx; auto).
  assert (LB : length bf = Z.to_nat ((bs + 1) * (r2 + 1))) by apply repeat_length.
  assert (HA : Forall (act_ok A g (length bf) (Z.to_nat (r1 * r2))) (acts2 r1 r2 bs)) by (rewrite LB; apply acts2_ok; auto).
  assert (HCV : forall i, 0 <= i < Z.of_nat (Z.to_nat (r1 * r2)) -> exists s, In s (flat_map act_sites (acts2 r1 r2 bs)) /\ s_at s = i)
    by (intros; apply acts2_cover; auto; nia).
  destruct (acts_sync A O g _ data _ _ _ HL _ _ _ _ _ HA eq_refl (fun _ => HPL) HE) as (I1 & I2 & I3 & _ & I5 & _).
  destruct (field_sync g _ _ data _ _ bf _ c _ HL HA (fun _ => HPL) HCV HE) as (coefs & out & F1 & F2 & F3).
  exists out. split; [intros rest|exact F3].
  pose proof (acts2_blocks r1 r2 bs H1 H2 H3) as NB. pose proof (acts2_count r1 r2 bs H1 H2 H3) as NC.
  pose proof (num_blocks_pos r1 bs H1 H3). pose proof (num_blocks_pos r2 bs H2 H3).
  pose proof (num_blocks_le r1 bs H1 H3). pose proof (num_blocks_le r2 bs H2 H3). pose proof (est_size_ge (r1 * r2) ltac:(nia)).
  assert (R0 : reg_count _ _ c = 0%nat /\ b_rtype _ _ c = [] /\ coefs = []).
  { clear - HPL HE F1 I5. cbn [length Nat.mul] in I5. apply length_zero_iff_nil in I5.
    assert (RR : reg_count _ _ c = 0%nat).
    { clear - HPL HE. revert HPL HE. generalize (acts2 r1 r2 bs) plan bf (@nil (F O)) c.
      induction l as [|a l IH]; intros pl b pv c0 HP H; cbn [enc_acts] in H.
      - apply Some_inj in H. subst. reflexivity.
      - destruct a as [ss|src len].
        + destruct pl as [|[x|] pl]; [discriminate|inversion HP; discriminate|].
          apply Forall_cons_iff in HP. destruct HP as [_ HP].
          bind_as H [[b1 qs] u1] E1. bind_as H c' E2. apply Some_inj in H. subst c0. specialize (IH _ _ _ _ HP E2).
          unfold reg_count in *. cbn. exact IH.
        + bind_as H b1 E1. eauto. }
    split; [auto|]. split; [auto|]. specialize (F1 [] []). rewrite RR in F1. cbn in F1. apply Some_inj in F1. auto. }
  destruct R0 as (R0 & R1 & ->).
  rewrite EF. rewrite block_pieces_split in HCS. cbn [app] in HCS.
  apply Forall2_cons_ex in HCS. destruct HCS as (c1 & cs1 & E1 & X1 & HCS). apply chunk_raw_inv in X1. subst c1.
  apply Forall2_cons_ex in HCS. destruct HCS as (c1 & cs3 & E3 & X1 & HCS). apply chunk_raw_inv in X1. subst c1.
  apply Forall2_cons_ex in HCS. destruct HCS as (c1 & cs4 & E4 & X1 & HCS). apply chunk_raw_inv in X1. subst c1.
  apply Forall2_cons_ex in HCS. destruct HCS as (c1 & cs5 & E5 & X1 & HCS). apply chunk_raw_inv in X1. subst c1.
  subst cs cs1 cs3 cs4. rewrite !concat_cons in *. rewrite <- !app_assoc. unfold decompress_2d_eb.
  rewrite read_s32_app by lia. cbn [bind]. rewrite EB.
  rewrite take_bytes_app by reflexivity. cbn [bind].
  rewrite read_s32_app by (cbn; lia). cbn [bind].
  rewrite read_mean_ok by exact HP. cbn [bind].
  rewrite (read_blocks_ok g c cs5 (tsize_of A) 3 _ _ (coef_precisions A O 3 bs (dtenth O)) [] rest HCS I1).
  - cbn [bind]. change (g_mean A g) with (@None T). change (g_radius A g) with 32768. change (2 * 32768) with 65536. fold g.
    rewrite (acts2_dec_eq r1 r2 bs H1 H2 H3). exact F2.
  - rewrite I2. lia.
  - nia.
  - rewrite Z2Nat.id by nia. nia.
  - rewrite I3. lia.
  - rewrite R0, R1. reflexivity.
  - rewrite !app_length in HLC. lia.
  - left. reflexivity.
  - rewrite R0. reflexivity.
Qed.

(** ** sz_compress_3d / sz_decompress_3d *)
Theorem round_trip_3d ord ub r1 r2 r3 bs indep precision capacity mean plan pad data junk buf size c :
  let g := cfg3 A indep r2 r3 bs capacity (Z.shiftr capacity 1) mean in
  laws A O g -> Z.even capacity = true -> 1 <= capacity <= 2 ^ 25 ->
  bs < 2 ^ 31 -> length pad = (tsize_of A - 1)%nat -> Z.of_nat (length junk) < 2 ^ 64 ->
  compress_3d A O ord ub r1 r2 r3 bs indep precision capacity mean plan pad data junk = Some (buf, size) ->
  encode_3d A O r1 r2 r3 bs indep precision capacity mean plan data = Some c ->
  short_words ord g c ->
  fsize_of O = tsize_of A \/ b_unp _ _ c = [] ->
  exists out, (forall rest, decompress_3d A O r1 r2 r3 (firstn size buf ++ rest) = Some out) /\
    delivered g (fun _ => Some precision) data (Z.to_nat (r1 * r2 * r3)) out.
Proof.
  intros g HL Hev Hcap Hbs HP HJ HC HE HW HU. unfold compress_3d in HC. fold g in HC.
  destruct ((1 <=? r1) && (1 <=? r2) && (1 <=? r3) && (1 <=? bs)) eqn:EB; [|discriminate].
  assert (H1 : 1 <= r1) by lia. assert (H2 : 1 <= r2) by lia. assert (H3 : 1 <= r3) by lia. assert (H4 : 1 <= bs) by lia.
  rewrite HE in HC. cbn [bind] in HC.
  destruct (_ <=? unp_room A (r1 * r2 * r3)); [|discriminate]. destruct (_ =? est_size A (r1 * r2 * r3)) eqn:EJ; [|discriminate].
  assert (HPO : Forall (piece_ok ord) (block_pieces A O bs (Some precision) indep g pad c)).
  { rewrite block_pieces_split. apply Forall_app. split; [cbn [app]; repeat apply Forall_cons; try apply Forall_nil; exact I|].
    apply tail_ok; [cbn [g cfg3 g_capacity]; lia|exact HW]. }
  pose proof (write_pieces_spec ord ub _ junk 0 buf size HJ HPO ltac:(lia) HC) as (_ & _ & _ & _ & _ & _ & HB).
  destruct (write_pieces_bytes ord ub _ _ _ _ HJ HPO HC) as (cs & HCS & EF).
  assert (HLC : Z.of_nat (length (concat cs)) < 2 ^ 64).
  { rewrite <- EF. rewrite firstn_length. lia. }
  assert (P12 : 1 <= r1 * r2) by nia.
  unfold encode_3d in HE. fold g in HE. set (bf := buffer3 A indep r2 r3 bs) in *.
  assert (HA : Forall (act_ok A g (length bf) (Z.to_nat (r1 * r2 * r3))) (acts3 indep r1 r2 r3 bs)) by (apply acts3_ok; auto).
  destruct (acts3_all r1 r2 r3 bs indep H1 H2 H3 H4) as (NC & NB & CV).
  assert (HCV : forall i, 0 <= i < Z.of_nat (Z.to_nat (r1 * r2 * r3)) -> exists s, In s (flat_map act_sites (acts3 indep r1 r2 r3 bs)) /\ s_at s = i)
    by (intros; apply CV; nia).
  assert (GZ : g_zero A g = false) by reflexivity.
  destruct (acts_sync A O g _ data _ _ _ HL _ _ _ _ _ HA eq_refl ltac:(intros; congruence) HE) as (I1 & I2 & I3 & _ & I5 & _).
  destruct (field_sync g _ _ data _ _ bf _ c _ HL HA ltac:(intros; congruence) HCV HE) as (coefs & out & F1 & F2 & F3).
  exists out. split; [intros rest|exact F3].
  pose proof (num_blocks_pos r1 bs H1 H4). pose proof (num_blocks_pos r2 bs H2 H4). pose proof (num_blocks_pos r3 bs H3 H4).
  pose proof (num_blocks_le r1 bs H1 H4). pose proof (num_blocks_le r2 bs H2 H4). pose proof (num_blocks_le r3 bs H3 H4).
  pose proof (est_size_ge (r1 * r2 * r3) ltac:(nia)).
  assert (NBP : 1 <= num_blocks r1 bs * num_blocks r2 bs * num_blocks r3 bs <= r1 * r2 * r3).
  { assert (1 <= num_blocks r1 bs * num_blocks r2 bs <= r1 * r2) by nia. nia. }
  rewrite EF. rewrite block_pieces_split in HCS. cbn [app] in HCS.
  apply Forall2_cons_ex in HCS. destruct HCS as (c1 & cs1 & E1 & X1 & HCS). apply chunk_raw_inv in X1. subst c1.
  apply Forall2_cons_ex in HCS. destruct HCS as (c1 & cs2 & E2 & X1 & HCS). apply chunk_raw_inv in X1. subst c1.
  apply Forall2_cons_ex in HCS. destruct HCS as (c1 & cs3 & E3 & X1 & HCS). apply chunk_raw_inv in X1. subst c1.
  apply Forall2_cons_ex in HCS. destruct HCS as (c1 & cs4 & E4 & X1 & HCS). apply chunk_raw_inv in X1. subst c1.
  apply Forall2_cons_ex in HCS. destruct HCS as (c1 & cs5 & E5 & X1 & HCS). apply chunk_raw_inv in X1. subst c1.
  subst cs cs1 cs2 cs3 cs4. rewrite !concat_cons in *. rewrite <- !app_assoc. unfold decompress_3d.
  assert (HRD : 2 * Z.shiftr capacity 1 = capacity).
  { apply Z.even_spec in Hev. destruct Hev as [h ->]. rewrite Z.shiftr_div_pow2 by lia. change (2 ^ 1) with 2. rewrite (Z.mul_comm 2 h), Z.div_mul by lia. lia. }
  rewrite read_s32_app by lia. cbn [bind]. rewrite EB.
  rewrite take_bytes_app by apply (dser_length _ HS). cbn [bind]. rewrite (ddes_dser _ HS).
  rewrite take_bytes_app by reflexivity. cbn [bind].
  assert (EI : negb match [if indep then 1 else 0] with [0] => true | _ => false end = indep) by (destruct indep; reflexivity).
  rewrite EI.
  rewrite read_s32_app by (cbn [g cfg3 g_radius]; lia). cbn [bind].
  rewrite read_mean_ok by exact HP. cbn [bind].
  rewrite (read_blocks_ok g c cs5 (fsize_of O) 4 _ _ (coef_precisions A O 4 bs precision) coefs rest HCS I1).
  - cbn [bind]. change (g_mean A g) with mean. change (g_radius A g) with (Z.shiftr capacity 1). rewrite HRD. exact F2.
  - rewrite I2. lia.
  - lia.
  - rewrite Z2Nat.id by nia. lia.
  - rewrite I3. lia.
  - rewrite I5. unfold coef_precisions. rewrite app_length, repeat_length. reflexivity.
  - rewrite !app_length in HLC. lia.
  - exact HU.
  - exact F1.
Qed.
End Bytes.
