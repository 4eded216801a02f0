(** The offline 2D codec: src/sz_compress_cp_preserve_2d.cpp:173-262 sz_compress_cp_preserve_2d_offline and
    src/sz_decompress_cp_preserve_2d.cpp:8-44 sz_decompress_cp_preserve_2d_offline. *)
From Coq Require Import List ZArith Lia Bool Arith.
From Coq Require Import ZifyBool ZifyNat.
From Verif Require Import Base Huffman HuffQueue HuffCode HuffRound HuffStream HuffProps Stream Arith Mesh2D Derive2D Codec2D Sync2D Stream2D LinQuant Block BlockSync BlockTile
  BlockBytes Offline2D.
Import ListNotations.
Local Open Scope Z_scope.

Section OfflineCodec.
Context (A : Arith) (O : FOps A).
Local Notation T := (T A). Local Notation D := (D A).

(** 217-220 (= 224-227): symbol and bound of a value [x] with relative bound [e]. *)
Definition offline_quantize (x : T) (e : D) : option (Z * D) :=
  let* (id, b) := eb_exponential_quantize A 4 (eps_double A) (dmul A (t2d A (tabs A x)) e) in
  Some (id, if dlt A b (eps_double A) then dofZ A 0 else b).

Fixpoint quantize_all (xs : list T) (es : list D) : option (list Z * list D) :=
  match xs, es with
  | x :: xs', e :: es' =>
      let* (id, b) := offline_quantize x e in
      let* (ids, bs) := quantize_all xs' es' in Some (id :: ids, b :: bs)
  | _, _ => Some ([], [])
  end.

Lemma aget_cons {X} (x : X) l i : 0 <= i -> aget (x :: l) (i + 1) = aget l i.
Proof. intros H. unfold aget. replace (i + 1 <? 0) with false by lia. replace (i <? 0) with false by lia. replace (Z.to_nat (i + 1)) with (S (Z.to_nat i)) by lia. reflexivity. Qed.

Lemma quantize_all_spec : forall xs es ids bs, length es = length xs -> quantize_all xs es = Some (ids, bs) ->
  length ids = length xs /\ length bs = length xs /\
  forall i x e, aget xs i = Some x -> aget es i = Some e -> exists id b, aget bs i = Some b /\ offline_quantize x e = Some (id, b).
Proof.
  induction xs as [|x xs IH]; intros [|e es] ids bs HL H; cbn [quantize_all length] in *; try lia.
  - apply Some_inj in H. inversion H; subst. repeat split; auto. intros i x e Hx. unfold aget in Hx. destruct (i <? 0); [discriminate|]. destruct (Z.to_nat i); discriminate.
  - bind_as H [id b] E. bind_as H [ids' bs'] E'. apply Some_inj in H. inversion H; subst.
    destruct (IH es ids' bs' ltac:(lia) E') as (L1 & L2 & G). cbn [length]. split; [lia|]. split; [lia|].
    intros i y f Hy Hf. pose proof (aget_Some _ _ _ Hy) as R. destruct (Z.eq_dec i 0) as [->|N].
    + cbn in Hy, Hf. apply Some_inj in Hy, Hf. subst. exists id, b. split; auto.
    + assert (EX : exists j, i = j + 1) by (exists (i - 1); lia). destruct EX as [j Ej]. subst i. rewrite aget_cons in Hy by lia. rewrite aget_cons in Hf by lia.
      destruct (G _ _ _ Hy Hf) as (id1 & b1 & G1 & G2). exists id1, b1. split; [rewrite aget_cons by lia|]; auto.
Qed.

Context (cbrt : D -> D).

(** 231-238: the three parts of the stream, each written into a block of its own; [je] is malloc(2*num_elements*sizeof(int)),
    [ju], [jv] are the blocks of sz_compress_2d_with_eb, called with its default block size 12, not block independent. *)
Definition offline_parts ord ub (max_eb : D) (r1 r2 : Z) (U V : list T) (pu pv je ju jv : list Z) : option (list Z * list Z * list Z) :=
  let* eb := offline_ebs A cbrt max_eb r1 r2 U V in
  let* (iu, eu) := quantize_all U eb in
  let* (iv, ev) := quantize_all V eb in
  check* (Z.of_nat (length je) =? 2 * (r1 * r2) * 4) in
  let* (be, se) := huffman_encode_tree_and_data ord ub 2048 (iu ++ iv) je 0 in
  let* (bu, su) := compress_2d_eb A O ord ub r1 r2 12 false eu pu U ju in
  let* (bv, sv) := compress_2d_eb A O ord ub r1 r2 12 false ev pv V jv in
  Some (firstn se be, firstn su bu, firstn sv bv).

(** 242: the reported size (threshold is not counted). *)
Definition offline_size (p : list Z * list Z * list Z) : nat :=
  let '(ce, cu, cv) := p in (4 + 8 + length ce + 8 + length cu + 8 + length cv)%nat.

(** 245-253: what is written. *)
Definition offline_pieces (p : list Z * list Z * list Z) : list piece :=
  let '(ce, cu, cv) := p in
  [Raw (le_bytes 4 4); Raw (dser A (eps_double A)); Raw (le_bytes 8 (Z.of_nat (length ce))); Raw (le_bytes 8 (Z.of_nat (length cu)));
   Raw (le_bytes 8 (Z.of_nat (length cv))); Raw ce; Raw cu; Raw cv].

(** 173-262; [junk] is the memory at the pointer malloc(compressed_size) returned, [slack] the number of writable bytes
    behind the requested ones.  malloc promises 0. *)
Definition compress_offline (slack : nat) ord ub (max_eb : D) (r1 r2 : Z) (U V : list T) (pu pv je ju jv junk : list Z)
  : option (list Z * nat) :=
  let* p := offline_parts ord ub max_eb r1 r2 U V pu pv je ju jv in
  check* (length junk =? offline_size p + slack)%nat in
  let* (buf, _) := write_pieces ord ub (offline_pieces p) junk 0 in
  Some (buf, offline_size p).

(** sz_decompress_cp_preserve_2d.cpp:28-31 (= 35-38): the bound of a symbol. *)
Definition offline_bound (base : Z) (threshold : D) (ty : Z) : D :=
  if ty =? 0 then dofZ A 0 else dmul A (dpow A base ty) threshold.

(** 8-44. *)
Definition decompress_offline (r1 r2 : Z) (s : list Z) : option (list (option T) * list (option T)) :=
  let* (base, s1) := read_s32 s in
  let* (tb, s2) := take_bytes 8 s1 in
  let threshold := ddes A tb in
  let* (_, s3) := read_le 8 s2 in
  let* (su, s4) := read_le 8 s3 in
  let* (_, s5) := read_le 8 s4 in
  let n := Z.to_nat (r1 * r2) in
  let* (ty, s6) := huffman_decode_tree_and_data (2 * n) s5 in
  let* U := decompress_2d_eb A O r1 r2 (map (offline_bound base threshold) (firstn n ty)) s6 in
  let* (_, s7) := take_bytes (Z.to_nat su) s6 in
  let* V := decompress_2d_eb A O r1 r2 (map (offline_bound base threshold) (skipn n ty)) s7 in
  Some (U, V).

(** ** The reported size is 8 bytes short *)
Lemma write_raw_bound ord ub : forall cs buf pos buf' pos', (pos <= length buf)%nat ->
  write_pieces ord ub (map Raw cs) buf pos = Some (buf', pos') -> (pos + length (concat cs) <= length buf)%nat.
Proof.
  induction cs as [|c cs IH]; intros buf pos buf' pos' HP H; cbn [map write_pieces concat] in H |- *.
  - cbn. lia.
  - bind_as H b Hs. rewrite app_length. pose proof (store_length_eq _ _ _ _ Hs) as L.
    assert (pos + length c <= length buf)%nat.
    { destruct c as [|x c]; [cbn; lia|]. eapply store_Some; eauto. discriminate. }
    pose proof (IH b (pos + length c)%nat _ _ ltac:(lia) H). lia.
Qed.
Lemma write_raw_ok ord ub : forall cs buf pos, (pos + length (concat cs) <= length buf)%nat ->
  exists buf', write_pieces ord ub (map Raw cs) buf pos = Some (buf', (pos + length (concat cs))%nat).
Proof.
  induction cs as [|c cs IH]; intros buf pos HP; cbn [map write_pieces concat] in HP |- *.
  - exists buf. rewrite Nat.add_0_r. reflexivity.
  - rewrite app_length in *. destruct (store_ok pos c buf) as (b & E & _); [lia|]. rewrite E. cbn [bind].
    pose proof (store_length_eq _ _ _ _ E) as L. destruct (IH b (pos + length c)%nat ltac:(lia)) as (buf' & E'). exists buf'. rewrite E'.
    f_equal. f_equal. lia.
Qed.

Definition raw_pieces (p : list Z * list Z * list Z) : list (list Z) :=
  let '(ce, cu, cv) := p in
  [le_bytes 4 4; dser A (eps_double A); le_bytes 8 (Z.of_nat (length ce)); le_bytes 8 (Z.of_nat (length cu));
   le_bytes 8 (Z.of_nat (length cv)); ce; cu; cv].
Lemma raw_pieces_eq p : offline_pieces p = map Raw (raw_pieces p).
Proof. destruct p as [[ce cu] cv]. reflexivity. Qed.
Lemma raw_pieces_len p : length (dser A (eps_double A)) = 8%nat -> length (concat (raw_pieces p)) = (offline_size p + 8)%nat.
Proof.
  intros HD. destruct p as [[ce cu] cv]. unfold raw_pieces, offline_size. cbn [concat]. rewrite !app_length, HD, !le_bytes_length. cbn [length]. lia.
Qed.

(** The compressor writes 8 bytes more than it requested and reported, on every input. *)
Theorem offline_overflows : ser_ok A -> forall slack ord ub max_eb r1 r2 U V pu pv je ju jv junk p,
  offline_parts ord ub max_eb r1 r2 U V pu pv je ju jv = Some p -> length junk = (offline_size p + slack)%nat ->
  (exists r, compress_offline slack ord ub max_eb r1 r2 U V pu pv je ju jv junk = Some r) <-> (8 <= slack)%nat.
Proof.
  intros HS slack ord ub max_eb r1 r2 U V pu pv je ju jv junk p HP HJ. unfold compress_offline. rewrite HP. cbn [bind].
  rewrite HJ, Nat.eqb_refl, raw_pieces_eq. pose proof (raw_pieces_len p (dser_length A HS _)) as L. split.
  - intros (r & H). bind_as H [b q] E. apply write_raw_bound in E; [|lia]. lia.
  - intros H. destruct (write_raw_ok ord ub (raw_pieces p) junk 0 ltac:(lia)) as (b & ->). cbn [bind]. eauto.
Qed.

(** ** Round trip *)
(** Encoder and decoder use the same bounds. *)
Definition bounds_agree (xs : list T) (es : list D) : Prop :=
  forall i x e id b, aget xs i = Some x -> aget es i = Some e -> offline_quantize x e = Some (id, b) -> offline_bound 4 (eps_double A) id = b.

Lemma bounds_agree_tail x xs e es : bounds_agree (x :: xs) (e :: es) -> bounds_agree xs es.
Proof.
  intros H i y f id b Hy Hf. pose proof (aget_Some _ _ _ Hy). apply (H (i + 1)); rewrite aget_cons; auto; lia.
Qed.

Lemma quantize_all_agree : forall xs es ids bs, quantize_all xs es = Some (ids, bs) -> bounds_agree xs es ->
  map (offline_bound 4 (eps_double A)) ids = bs.
Proof.
  induction xs as [|x xs IH]; intros [|e es] ids bs H HA; cbn [quantize_all] in H; try (apply Some_inj in H; inversion H; reflexivity).
  bind_as H [id b] E. bind_as H [ids' bs'] E'. apply Some_inj in H. inversion H; subst. cbn [map].
  rewrite (HA 0 x e id b eq_refl eq_refl E). f_equal. eapply IH; eauto. eapply bounds_agree_tail; eauto.
Qed.
Lemma fold_opt_inv {X Y} (P : Y -> Prop) (f : Y -> X -> option Y) : (forall y x y', P y -> f y x = Some y' -> P y') ->
  forall l y y', P y -> fold_opt f l y = Some y' -> P y'.
Proof.
  intros HP. induction l as [|x l IH]; intros y y' Hy H; cbn [fold_opt] in H; [apply Some_inj in H; subst; auto|].
  bind_as H y1 E. eauto.
Qed.
Lemma lower_len eb p c eb' : lower_eb A eb p c = Some eb' -> length eb' = length eb.
Proof. unfold lower_eb. intros H. bind_as H x E. apply (aset_Some _ _ _ _ H). Qed.
Lemma offline_ebs_len max_eb r1 r2 U V eb : offline_ebs A cbrt max_eb r1 r2 U V = Some eb -> length eb = Z.to_nat (r1 * r2).
Proof.
  unfold offline_ebs. intros H.
  apply (fold_opt_inv (fun y => length y = Z.to_nat (r1 * r2))) in H; [exact H| |apply repeat_length].
  intros y [[i j] k] y' Hy E. unfold offline_triangle in E.
  do 6 (match type of E with bind _ _ = _ => let a := fresh "a" in let Ha := fresh "Ha" in bind_as E a Ha end).
  bind_as E c E0. bind_as E e1 E1. bind_as E e2 E2. apply lower_len in E, E1, E2. congruence.
Qed.

Definition short_offline ord (max_eb : D) (r1 r2 : Z) (U V : list T) : Prop :=
  forall eb iu eu iv ev, offline_ebs A cbrt max_eb r1 r2 U V = Some eb -> quantize_all U eb = Some (iu, eu) -> quantize_all V eb = Some (iv, ev) ->
  max_code_64 ord 2048 (iu ++ iv) /\
  (forall c, encode_2d_eb A O r1 r2 12 eu U = Some c -> short_words A O ord (cfg2 A r2 65536 32768 true None) c) /\
  (forall c, encode_2d_eb A O r1 r2 12 ev V = Some c -> short_words A O ord (cfg2 A r2 65536 32768 true None) c).

Theorem offline_round_trip (HS : ser_ok A) (HF : fser_ok O) slack ord ub max_eb r1 r2 U V pu pv je ju jv junk buf size eb :
  laws A O (cfg2 A r2 65536 32768 true None) ->
  length pu = (tsize_of A - 1)%nat -> length pv = (tsize_of A - 1)%nat ->
  Z.of_nat (length je) < 2 ^ 64 -> Z.of_nat (length ju) < 2 ^ 64 -> Z.of_nat (length jv) < 2 ^ 64 -> Z.of_nat (length junk) < 2 ^ 64 ->
  Z.of_nat (length U) = r1 * r2 -> Z.of_nat (length V) = r1 * r2 ->
  offline_ebs A cbrt max_eb r1 r2 U V = Some eb -> bounds_agree U eb -> bounds_agree V eb ->
  short_offline ord max_eb r1 r2 U V ->
  compress_offline slack ord ub max_eb r1 r2 U V pu pv je ju jv junk = Some (buf, size) ->
  exists eu ev U' V', (forall rest, decompress_offline r1 r2 (firstn (size + 8) buf ++ rest) = Some (U', V')) /\
    (exists iu, quantize_all U eb = Some (iu, eu)) /\ (exists iv, quantize_all V eb = Some (iv, ev)) /\
    delivered A (cfg2 A r2 65536 32768 true None) (aget eu) U (Z.to_nat (r1 * r2)) U' /\
    delivered A (cfg2 A r2 65536 32768 true None) (aget ev) V (Z.to_nat (r1 * r2)) V'.
Proof.
  intros HL HPU HPV LE LU LV LJ NU NV HE AU AV HSH HC. unfold compress_offline in HC. bind_as HC p EP.
  destruct (length junk =? offline_size p + slack)%nat eqn:EJ; [|discriminate].
  bind_as HC [b q] EW. apply Some_inj in HC. inversion HC; subst b size. clear HC.
  unfold offline_parts in EP. rewrite HE in EP. cbn [bind] in EP. bind_as EP [iu eu] EU. bind_as EP [iv ev] EV.
  destruct (Z.of_nat (length je) =? _); [|discriminate]. bind_as EP [be se] EH. bind_as EP [bu su] CU. bind_as EP [bv sv] CV.
  apply Some_inj in EP. subst p. destruct (HSH _ _ _ _ _ HE EU EV) as (W1 & W2 & W3).
  pose proof (offline_ebs_len _ _ _ _ _ _ HE) as LB.
  destruct (quantize_all_spec U eb _ _ ltac:(lia) EU) as (L1 & L2 & _). destruct (quantize_all_spec V eb _ _ ltac:(lia) EV) as (L3 & L4 & _).
  assert (KU : exists c, encode_2d_eb A O r1 r2 12 eu U = Some c).
  { unfold compress_2d_eb in CU. destruct (_ && _) in CU; [|discriminate]. bind_as CU c E. eauto. }
  assert (KV : exists c, encode_2d_eb A O r1 r2 12 ev V = Some c).
  { unfold compress_2d_eb in CV. destruct (_ && _) in CV; [|discriminate]. bind_as CV c E. eauto. }
  destruct KU as [c1 KU]. destruct KV as [c2 KV].
  destruct (round_trip_2d_eb A O HS HF ord ub r1 r2 12 false eu pu U ju bu su c1 HL ltac:(lia) HPU LU CU KU (W2 _ KU)) as (U' & DU & QU).
  destruct (round_trip_2d_eb A O HS HF ord ub r1 r2 12 false ev pv V jv bv sv c2 HL ltac:(lia) HPV LV CV KV (W3 _ KV)) as (V' & DV & QV).
  destruct (huffman_stream_round_trip ord ub 2048 (iu ++ iv) je 0 be se ltac:(lia) LE W1 EH) as (_ & _ & _ & _ & ch & HH & HSe & HD).
  apply holds_firstn in HH. cbn [skipn Nat.add] in HH, HSe. subst se. rewrite HH in EW, EJ |- *.
  exists eu, ev, U', V'. split; [|split; [eauto|split; [eauto|split; [exact QU|exact QV]]]]. intros rest.
  rewrite raw_pieces_eq in EW. pose proof (raw_pieces_len (ch, firstn su bu, firstn sv bv) (dser_length A HS _)) as LP.
  assert (PO : Forall (piece_ok ord) (map Raw (raw_pieces (ch, firstn su bu, firstn sv bv)))).
  { apply Forall_forall. intros x Hx. apply in_map_iff in Hx. destruct Hx as (y & <- & _). exact I. }
  pose proof (write_raw_bound _ _ _ _ _ _ _ (Nat.le_0_l _) EW) as WB. rewrite LP in WB.
  pose proof (write_pieces_spec ord ub _ junk 0 buf q LJ PO ltac:(lia) EW) as (_ & _ & cs & HCS & HHo & Hq & _).
  assert (CE : cs = raw_pieces (ch, firstn su bu, firstn sv bv)).
  { clear - HCS. revert cs HCS. induction (raw_pieces _) as [|c l IH]; intros cs H; cbn [map] in H.
    - apply Forall2_nil_ex in H. auto.
    - apply Forall2_cons_ex in H. destruct H as (y & m & -> & H1 & H2). apply chunk_raw_inv in H1. subst. f_equal. auto. }
  subst cs. apply holds_firstn in HHo. cbn [skipn] in HHo. rewrite LP in HHo. rewrite HHo.
  unfold raw_pieces. cbn [concat]. rewrite app_nil_r, <- !app_assoc. unfold decompress_offline.
  unfold offline_size in WB. pose proof (firstn_length su bu). pose proof (firstn_length sv bv).
  rewrite read_s32_app by lia. cbn [bind]. rewrite take_bytes_app by (apply dser_length; auto). cbn [bind].
  rewrite read_le_app by (change (256 ^ Z.of_nat 8) with (2 ^ 64); lia). cbn [bind].
  rewrite read_le_app by (change (256 ^ Z.of_nat 8) with (2 ^ 64); lia). cbn [bind].
  rewrite read_le_app by (change (256 ^ Z.of_nat 8) with (2 ^ 64); lia). cbn [bind].
  replace (2 * Z.to_nat (r1 * r2))%nat with (length (iu ++ iv)) by (rewrite app_length; lia). rewrite HD. cbn [bind].
  rewrite (ddes_dser A HS). rewrite firstn_app, skipn_app.
  replace (Z.to_nat (r1 * r2) - length iu)%nat with 0%nat by lia. rewrite firstn_O, app_nil_r, firstn_all2 by lia.
  rewrite (skipn_all2 iu) by lia. cbn [app skipn]. rewrite (quantize_all_agree _ _ _ _ EU AU), (quantize_all_agree _ _ _ _ EV AV).
  rewrite DU. cbn [bind]. rewrite Nat2Z.id, take_bytes_app by reflexivity. cbn [bind]. rewrite DV. reflexivity.
Qed.
End OfflineCodec.
