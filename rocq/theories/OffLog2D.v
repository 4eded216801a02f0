(** The offline 2D codec in the log domain: src/sz_compress_cp_preserve_2d.cpp:273-367 sz_compress_cp_preserve_2d_offline_log and
    src/sz_decompress_cp_preserve_2d.cpp:54-99 sz_decompress_cp_preserve_2d_offline_log, for any arithmetic. *)
From Coq Require Import List ZArith Lia Bool Arith.
From Coq Require Import ZifyBool ZifyNat.
From Verif Require Import Base Huffman HuffQueue HuffCode HuffRound HuffStream HuffProps BitPack Stream Arith Mesh2D Derive2D Codec2D Sync2D Stream2D LinQuant Block
  BlockSync BlockTile BlockBytes Offline2D OfflineCodec2D Log2D LogSync2D.
Import ListNotations.
Local Open Scope Z_scope.

Section OffLog.
Context (A : Arith) (O : FOps A).
Local Notation T := (T A). Local Notation D := (D A).

(** sz_compress_cp_preserve_2d.cpp:330-331: symbol and bound of a vertex with relative bound [e]; base 2, threshold DBL_EPSILON. *)
Definition offlog_quantize (e : D) : option (Z * D) :=
  eb_exponential_quantize A 2 (eps_double A) (dlog2 A (dadd A (dofZ A 1) e)).

(** 329-333: the loop. *)
Fixpoint quantize_logs (es : list D) : option (list Z * list D) :=
  match es with
  | e :: es' =>
      let* (id, b) := offlog_quantize e in
      let* (ids, bs) := quantize_logs es' in Some (id :: ids, b :: bs)
  | [] => Some ([], [])
  end.

(** ** Quantised bounds *)
Lemma quantize_logs_spec : forall es ids bs, quantize_logs es = Some (ids, bs) ->
  length ids = length es /\ length bs = length es /\
  forall i e, aget es i = Some e -> exists id b, aget bs i = Some b /\ offlog_quantize e = Some (id, b).
Proof.
  induction es as [|e es IH]; intros ids bs H; cbn [quantize_logs length] in *.
  - apply Some_inj in H. inversion H; subst. repeat split; auto. intros i e He. unfold aget in He. destruct (i <? 0); [discriminate|]. destruct (Z.to_nat i); discriminate.
  - bind_as H [id b] E. bind_as H [ids' bs'] E'. apply Some_inj in H. inversion H; subst.
    destruct (IH ids' bs' E') as (L1 & L2 & G). cbn [length]. split; [lia|]. split; [lia|].
    intros i f Hf. pose proof (aget_Some _ _ _ Hf) as R. destruct (Z.eq_dec i 0) as [->|N].
    + cbn in Hf. apply Some_inj in Hf. subst. exists id, b. split; auto.
    + assert (EX : exists j, i = j + 1) by (exists (i - 1); lia). destruct EX as [j Ej]. subst i. rewrite aget_cons in Hf by lia.
      destruct (G _ _ Hf) as (id1 & b1 & G1 & G2). exists id1, b1. split; [rewrite aget_cons by lia|]; auto.
Qed.

(** Encoder and decoder use the same bounds. *)
Definition logs_agree (es : list D) : Prop :=
  forall e id b, In e es -> offlog_quantize e = Some (id, b) -> offline_bound A 2 (eps_double A) id = b.

Lemma quantize_logs_agree : forall es ids bs, quantize_logs es = Some (ids, bs) -> logs_agree es ->
  map (offline_bound A 2 (eps_double A)) ids = bs.
Proof.
  induction es as [|e es IH]; intros ids bs H HA; cbn [quantize_logs] in H; [apply Some_inj in H; inversion H; reflexivity|].
  bind_as H [id b] E. bind_as H [ids' bs'] E'. apply Some_inj in H. inversion H; subst. cbn [map].
  rewrite (HA e id b (or_introl eq_refl) E). f_equal. eapply IH; eauto. intros e' i' b' Hi. apply HA. right. exact Hi.
Qed.

Context (cbrt : D -> D).

(** 277-344: the four parts of the stream.  [je] is malloc(num_elements*sizeof(int)); [ju], [jv] are the blocks of sz_compress_2d_with_eb.
    With no points sign_map_size wraps around (line 315): [None]. *)
Definition offlog_parts ord ub (max_eb : D) (r1 r2 : Z) (U V : list T) (pu pv je ju jv : list Z) : option (list Z * list Z * list Z * list Z) :=
  check* (1 <=? r1 * r2) in
  let* eb := offline_ebs A cbrt max_eb r1 r2 U V in
  let signs := pack_flags (map (log_sign A) U) ++ pack_flags (map (log_sign A) V) in
  let* (ids, bs) := quantize_logs eb in
  check* (Z.of_nat (length je) =? (r1 * r2) * 4) in
  let* (be, se) := huffman_encode_tree_and_data ord ub 2048 ids je 0 in
  let* (bu, su) := compress_2d_eb A O ord ub r1 r2 12 false bs pu (map (log_value A) U) ju in
  let* (bv, sv) := compress_2d_eb A O ord ub r1 r2 12 false bs pv (map (log_value A) V) jv in
  Some (firstn se be, signs, firstn su bu, firstn sv bv).

(** 347: the reported size. *)
Definition offlog_size (p : list Z * list Z * list Z * list Z) : nat :=
  let '(ce, sm, cu, cv) := p in (4 + length sm + 8 + 8 + length ce + 8 + length cu + 8 + length cv)%nat.

(** 350-359: what is written. *)
Definition offlog_chunks (p : list Z * list Z * list Z * list Z) : list (list Z) :=
  let '(ce, sm, cu, cv) := p in
  [le_bytes 4 2; dser A (eps_double A); le_bytes 8 (Z.of_nat (length ce)); le_bytes 8 (Z.of_nat (length cu));
   le_bytes 8 (Z.of_nat (length cv)); ce; sm; cu; cv].

(** 273-367; [junk] is the block malloc(compressed_size) returned. *)
Definition compress_offlog ord ub (max_eb : D) (r1 r2 : Z) (U V : list T) (pu pv je ju jv junk : list Z) : option (list Z * nat) :=
  let* p := offlog_parts ord ub max_eb r1 r2 U V pu pv je ju jv in
  check* (length junk =? offlog_size p)%nat in
  let* (buf, _) := write_pieces ord ub (map Raw (offlog_chunks p)) junk 0 in
  Some (buf, offlog_size p).

(** sz_decompress_cp_preserve_2d.cpp:85-88 (= 91-94); an unwritten value stays unwritten. *)
Definition unlogs (L : list (option T)) (S : list Z) : list (option T) :=
  map (fun ls => option_map (fun l => from_log A l (snd ls)) (fst ls)) (combine L S).

(** 54-99. *)
Definition decompress_offlog (r1 r2 : Z) (s : list Z) : option (list (option T) * list (option T)) :=
  let n := Z.to_nat (r1 * r2) in
  check* (1 <=? n)%nat in
  let* (base, s1) := read_s32 s in
  let* (tb, s2) := take_bytes 8 s1 in
  let threshold := ddes A tb in
  let* (_, s3) := read_le 8 s2 in
  let* (su, s4) := read_le 8 s3 in
  let* (_, s5) := read_le 8 s4 in
  let* (ty, s6) := huffman_decode_tree_and_data n s5 in
  let eb := map (offline_bound A base threshold) ty in
  let* (gu, s7) := unpack_flags n (sign_map_size n) s6 in
  let* (gv, s8) := unpack_flags n (sign_map_size n) s7 in
  let* U := decompress_2d_eb A O r1 r2 eb s8 in
  let* (_, s9) := take_bytes (Z.to_nat su) s8 in
  let* V := decompress_2d_eb A O r1 r2 eb s9 in
  Some (unlogs U gu, unlogs V gv).

(** ** The reported size is the size written *)
Lemma offlog_chunks_len p : length (dser A (eps_double A)) = 8%nat -> length (concat (offlog_chunks p)) = offlog_size p.
Proof.
  intros HD. destruct p as [[[ce sm] cu] cv]. unfold offlog_chunks, offlog_size. cbn [concat]. rewrite !app_length, HD, !le_bytes_length. cbn [length]. lia.
Qed.

(** ** Round trip *)
Definition short_offlog ord (max_eb : D) (r1 r2 : Z) (U V : list T) : Prop :=
  forall eb ids bs, offline_ebs A cbrt max_eb r1 r2 U V = Some eb -> quantize_logs eb = Some (ids, bs) ->
  max_code_64 ord 2048 ids /\
  (forall X c, X = U \/ X = V -> encode_2d_eb A O r1 r2 12 bs (map (log_value A) X) = Some c ->
     short_words A O ord (cfg2 A r2 65536 32768 true None) c).

Lemma raw_chunks_ok ord ub junk : Z.of_nat (length junk) < 2 ^ 64 -> forall cs buf q, length (concat cs) = length junk ->
  write_pieces ord ub (map Raw cs) junk 0 = Some (buf, q) -> firstn (length junk) buf = concat cs.
Proof.
  intros LJ cs buf q HL EW.
  assert (PO : Forall (piece_ok ord) (map Raw cs)).
  { apply Forall_forall. intros x Hx. apply in_map_iff in Hx. destruct Hx as (y & <- & _). exact I. }
  pose proof (write_pieces_spec ord ub _ junk 0 buf q LJ PO ltac:(lia) EW) as (_ & _ & cs' & HCS & HHo & Hq & _).
  assert (CE : cs' = cs).
  { clear - HCS. revert cs' HCS. induction cs as [|c l IH]; intros cs' H; cbn [map] in H.
    - apply Forall2_nil_ex in H. auto.
    - apply Forall2_cons_ex in H. destruct H as (y & m & -> & H1 & H2). apply chunk_raw_inv in H1. subst. f_equal. auto. }
  subst cs'. apply holds_firstn in HHo. cbn [skipn] in HHo. rewrite HL in HHo. exact HHo.
Qed.

Theorem offlog_round_trip (HS : ser_ok A) (HF : fser_ok O) ord ub max_eb r1 r2 U V pu pv je ju jv junk buf size eb :
  laws A O (cfg2 A r2 65536 32768 true None) ->
  length pu = (tsize_of A - 1)%nat -> length pv = (tsize_of A - 1)%nat ->
  Z.of_nat (length je) < 2 ^ 64 -> Z.of_nat (length ju) < 2 ^ 64 -> Z.of_nat (length jv) < 2 ^ 64 -> Z.of_nat (length junk) < 2 ^ 64 ->
  Z.of_nat (length U) = r1 * r2 -> Z.of_nat (length V) = r1 * r2 ->
  offline_ebs A cbrt max_eb r1 r2 U V = Some eb -> logs_agree eb ->
  short_offlog ord max_eb r1 r2 U V ->
  compress_offlog ord ub max_eb r1 r2 U V pu pv je ju jv junk = Some (buf, size) ->
  exists bs LU LV, (forall rest, decompress_offlog r1 r2 (firstn size buf ++ rest) = Some (unlogs LU (map (log_sign A) U), unlogs LV (map (log_sign A) V))) /\
    (exists ids, quantize_logs eb = Some (ids, bs)) /\
    delivered A (cfg2 A r2 65536 32768 true None) (aget bs) (map (log_value A) U) (Z.to_nat (r1 * r2)) LU /\
    delivered A (cfg2 A r2 65536 32768 true None) (aget bs) (map (log_value A) V) (Z.to_nat (r1 * r2)) LV.
Proof.
  intros HL HPU HPV LE LU LV LJ NU NV HE AG HSH HC. unfold compress_offlog in HC. bind_as HC p EP.
  destruct (length junk =? offlog_size p)%nat eqn:EJ; [|discriminate].
  bind_as HC [b q] EW. apply Some_inj in HC. inversion HC; subst b size. clear HC.
  unfold offlog_parts in EP. destruct (1 <=? r1 * r2) eqn:EN; [|discriminate]. rewrite HE in EP. cbn [bind] in EP. bind_as EP [ids bs] EQ.
  destruct (Z.of_nat (length je) =? _); [|discriminate]. bind_as EP [be se] EH. bind_as EP [bu su] CU. bind_as EP [bv sv] CV.
  apply Some_inj in EP. subst p. destruct (HSH _ _ _ HE EQ) as (W1 & W2).
  pose proof (offline_ebs_len A cbrt _ _ _ _ _ _ HE) as LB.
  destruct (quantize_logs_spec eb _ _ EQ) as (L1 & L2 & _).
  assert (KU : exists c, encode_2d_eb A O r1 r2 12 bs (map (log_value A) U) = Some c).
  { unfold compress_2d_eb in CU. destruct (_ && _) in CU; [|discriminate]. bind_as CU c E. eauto. }
  assert (KV : exists c, encode_2d_eb A O r1 r2 12 bs (map (log_value A) V) = Some c).
  { unfold compress_2d_eb in CV. destruct (_ && _) in CV; [|discriminate]. bind_as CV c E. eauto. }
  destruct KU as [c1 KU]. destruct KV as [c2 KV].
  destruct (round_trip_2d_eb A O HS HF ord ub r1 r2 12 false bs pu _ ju bu su c1 HL ltac:(lia) HPU LU CU KU (W2 _ _ (or_introl eq_refl) KU)) as (U' & DU & QU).
  destruct (round_trip_2d_eb A O HS HF ord ub r1 r2 12 false bs pv _ jv bv sv c2 HL ltac:(lia) HPV LV CV KV (W2 _ _ (or_intror eq_refl) KV)) as (V' & DV & QV).
  destruct (huffman_stream_round_trip ord ub 2048 ids je 0 be se ltac:(lia) LE W1 EH) as (_ & _ & _ & _ & ch & HH & HSe & HD).
  apply holds_firstn in HH. cbn [skipn Nat.add] in HH, HSe. subst se. rewrite HH in EW, EJ |- *.
  exists bs, U', V'. split; [|split; [eauto|split; [exact QU|exact QV]]]. intros rest.
  apply Nat.eqb_eq in EJ.
  set (p := (ch, pack_flags (map (log_sign A) U) ++ pack_flags (map (log_sign A) V), firstn su bu, firstn sv bv)) in *.
  pose proof (offlog_chunks_len p (dser_length A HS (eps_double A))) as LP.
  rewrite <- EJ, (raw_chunks_ok ord ub junk LJ _ buf q (eq_trans LP (eq_sym EJ)) EW). subst p.
  unfold offlog_chunks. cbn [concat]. rewrite app_nil_r, <- !app_assoc. unfold decompress_offlog. unfold offlog_size in EJ.
  replace (1 <=? Z.to_nat (r1 * r2))%nat with true by lia.
  rewrite read_s32_app by lia. cbn [bind]. rewrite take_bytes_app by (apply dser_length; auto). cbn [bind].
  rewrite read_le_app by (change (256 ^ Z.of_nat 8) with (2 ^ 64); lia). cbn [bind].
  rewrite read_le_app by (change (256 ^ Z.of_nat 8) with (2 ^ 64); lia). cbn [bind].
  rewrite read_le_app by (change (256 ^ Z.of_nat 8) with (2 ^ 64); lia). cbn [bind].
  replace (Z.to_nat (r1 * r2)) with (length ids) at 1 by lia. rewrite HD. cbn [bind].
  rewrite (ddes_dser A HS), (quantize_logs_agree _ _ _ EQ AG).
  assert (FL : forall X rest, Z.of_nat (length X) = r1 * r2 ->
     unpack_flags (Z.to_nat (r1 * r2)) (sign_map_size (Z.to_nat (r1 * r2))) (pack_flags (map (log_sign A) X) ++ rest) = Some (map (log_sign A) X, rest)).
  { intros X rest' HX. assert (NX : length (map (log_sign A) X) = Z.to_nat (r1 * r2)) by (rewrite map_length; lia).
    assert (FX : Forall is_flag (map (log_sign A) X)) by (apply Forall_map, Forall_forall; intros; apply log_sign_flag).
    pose proof (proj1 (flags_round_trip (map (log_sign A) X) rest' ltac:(lia) FX)) as R. rewrite NX in R. exact R. }
  rewrite FL by auto. cbn [bind]. rewrite FL by auto. cbn [bind].
  rewrite DU. cbn [bind]. rewrite Nat2Z.id, take_bytes_app by reflexivity. cbn [bind]. rewrite DV. reflexivity.
Qed.
End OffLog.
