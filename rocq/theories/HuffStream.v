(** Tree serialisation and self-describing symbol streams. *)
From Coq Require Import List ZArith Lia Bool Arith Permutation.
From Coq Require Import ZifyBool ZifyNat.
From Verif Require Import Base Huffman HuffQueue HuffCode HuffRound.
Import ListNotations.
Local Open Scope Z_scope.
Ltac Zify.zify_post_hook ::= Z.div_mod_to_equations.

Fixpoint tsize (t : tree) : nat :=
  match t with Leaf _ => 1%nat | Node l r => S (tsize l + tsize r) end.

Lemma tsize_leaves t : (tsize t + 1 = 2 * length (leaves t))%nat.
Proof. induction t; simpl; auto. rewrite app_length. lia. Qed.

Lemma tsize_pos t : (1 <= tsize t)%nat.
Proof. destruct t; simpl; lia. Qed.

Lemma height_lt_size t : (height t < tsize t)%nat.
Proof. induction t; simpl; lia. Qed.

Lemma height_leaves t : (height t < length (leaves t))%nat.
Proof. induction t; simpl; [lia|]. rewrite app_length. lia. Qed.

(** ** What the tables describe *)
Fixpoint repr (L R C T : list Z) (i k : nat) (t : tree) : Prop :=
  match t with
  | Leaf c => nth_error C i = Some c /\ nth_error T i = Some 1
  | Node l r =>
      nth_error C i = Some 0 /\ nth_error T i = Some 0 /\
      nth_error L i = Some (Z.of_nat (S k)) /\ repr L R C T (S k) (S k) l /\
      nth_error R i = Some (Z.of_nat (S k + tsize l)) /\
      repr L R C T (S k + tsize l) (S k + tsize l) r
  end.

Lemma repr_CT L R C T i k t : repr L R C T i k t ->
  exists c f, nth_error C i = Some c /\ nth_error T i = Some f /\
              (f = 0 -> c = 0 /\ exists l r, t = Node l r) /\ (f <> 0 -> t = Leaf c).
Proof.
  destruct t; simpl.
  - intros [H1 H2]. exists c, 1. repeat split; auto; lia.
  - intros (H1 & H2 & _). exists 0, 0. repeat split; eauto; lia.
Qed.

Lemma unpad_repr L R C T t : forall fuel i k c f,
  repr L R C T i k t -> nth_error C i = Some c -> nth_error T i = Some f -> (height t < fuel)%nat ->
  unpad_tree fuel L R C T i c f = Some t.
Proof.
  induction t as [x|l IHl r IHr]; intros fuel i k c f Hr Hc Hf Hh; destruct fuel as [|fuel];
    cbn [height] in Hh; try lia; cbn [unpad_tree repr] in *.
  - destruct Hr as [H1 H2]. rewrite H1 in Hc. rewrite H2 in Hf.
    injection Hc as <-. injection Hf as <-. reflexivity.
  - destruct Hr as (H1 & H2 & HL & Hl & HR & Hr). rewrite H2 in Hf. injection Hf as <-.
    cbn [Z.eqb]. rewrite HL. cbn [bind].
    replace (negb (Z.of_nat (S k) =? 0)) with true by lia. rewrite Nat2Z.id.
    destruct (repr_CT _ _ _ _ _ _ _ Hl) as (cl & fl & Hcl & Hfl & _).
    rewrite Hcl. cbn [bind]. rewrite Hfl. cbn [bind].
    rewrite (IHl fuel (S k) (S k) cl fl) by (auto; lia). cbn [bind].
    rewrite HR. cbn [bind].
    replace (negb (Z.of_nat (S k + tsize l) =? 0)) with true by lia. rewrite Nat2Z.id.
    destruct (repr_CT _ _ _ _ _ _ _ Hr) as (cr & fr & Hcr & Hfr & _).
    rewrite Hcr. cbn [bind]. rewrite Hfr. cbn [bind].
    rewrite (IHr fuel (S k + tsize l)%nat (S k + tsize l)%nat cr fr) by (auto; lia). reflexivity.
Qed.

Lemma repr_ext t : forall L R C T L' R' C' T' i k,
  (forall j, j = i \/ (k < j < k + tsize t)%nat ->
     nth_error L' j = nth_error L j /\ nth_error R' j = nth_error R j /\
     nth_error C' j = nth_error C j /\ nth_error T' j = nth_error T j) ->
  repr L R C T i k t -> repr L' R' C' T' i k t.
Proof.
  induction t as [x|l IHl r IHr]; intros L R C T L' R' C' T' i k HE; cbn [repr tsize] in *.
  - destruct (HE i) as (_ & _ & -> & ->); auto.
  - destruct (HE i) as (-> & -> & -> & ->); auto.
    intros (H1 & H2 & H3 & H4 & H5 & H6). repeat split; auto.
    + eapply IHl; [|exact H4]. intros j Hj. apply HE. right. pose proof (tsize_pos l); lia.
    + eapply IHr; [|exact H6]. intros j Hj. apply HE. right. pose proof (tsize_pos r); lia.
Qed.

Record tabs_len (N : nat) (tb : tabs) : Prop := {
  lenL : length (tL tb) = N; lenR : length (tR tb) = N;
  lenC : length (tC tb) = N; lenT : length (tT tb) = N }.

Definition same_at (tb tb' : tabs) (j : nat) : Prop :=
  nth_error (tL tb') j = nth_error (tL tb) j /\ nth_error (tR tb') j = nth_error (tR tb) j /\
  nth_error (tC tb') j = nth_error (tC tb) j /\ nth_error (tT tb') j = nth_error (tT tb) j.

Lemma pad_tree_spec m t : forall N tb i k,
  tabs_len N tb -> n_inode tb = Z.of_nat k -> (i <= k)%nat -> (k + tsize t <= N)%nat -> Z.of_nat N <= m ->
  (forall c, In c (leaves t) -> 0 <= c < 2 ^ 32) ->
  exists tb', pad_tree m tb i t = Some tb' /\ tabs_len N tb' /\
    n_inode tb' = Z.of_nat (k + tsize t - 1) /\
    repr (tL tb') (tR tb') (tC tb') (tT tb') i k t /\
    (forall j, j <> i -> ~ (k < j < k + tsize t)%nat -> same_at tb tb' j).
Proof.
  induction t as [c|l IHl r IHr]; intros N tb i k HL Hn Hik Hsz Hm Hc; cbn [pad_tree tsize] in *;
    destruct HL as [HlL HlR HlC HlT].
  - rewrite (upd_setn i _ (tC tb)) by lia. cbn [bind].
    rewrite (upd_setn i _ (tT tb)) by lia. cbn [bind].
    eexists; split; [reflexivity|]. specialize (Hc c (or_introl eq_refl)).
    repeat split; cbn [tL tR tC tT n_inode repr]; rewrite ?setn_length; auto.
    + rewrite Hn. lia.
    + rewrite nth_error_setn_eq by lia. f_equal. apply Z.mod_small. auto.
    + apply nth_error_setn_eq; lia.
    + apply nth_error_setn_ne; auto.
    + apply nth_error_setn_ne; auto.
  - rewrite (upd_setn i _ (tC tb)) by lia. cbn [bind].
    rewrite (upd_setn i _ (tT tb)) by lia. cbn [bind].
    rewrite (upd_setn i _ (tL tb)) by lia. cbn [bind].
    pose proof (tsize_pos l) as Hpl. pose proof (tsize_pos r) as Hpr.
    replace (n_inode tb + 1) with (Z.of_nat (S k)) by lia. rewrite Nat2Z.id.
    rewrite (Z.mod_small (Z.of_nat (S k))) by lia.
    set (tb0 := {| tL := setn i (Z.of_nat (S k)) (tL tb); tR := tR tb; tC := setn i 0 (tC tb);
                   tT := setn i 0 (tT tb); n_inode := Z.of_nat (S k) |}).
    destruct (IHl N tb0 (S k) (S k)) as (tb1 & E1 & HL1 & Hn1 & Hr1 & Hs1); auto.
    { constructor; cbn [tb0 tL tR tC tT]; rewrite ?setn_length; auto. }
    { lia. }
    { intros c Hin. apply Hc. cbn [leaves]. apply in_or_app; auto. }
    rewrite E1. cbn [bind]. destruct HL1 as [HlL1 HlR1 HlC1 HlT1].
    rewrite (upd_setn i _ (tR tb1)) by lia. cbn [bind].
    replace (n_inode tb1 + 1) with (Z.of_nat (S k + tsize l)) by lia. rewrite Nat2Z.id.
    rewrite (Z.mod_small (Z.of_nat (S k + tsize l))) by lia.
    set (tb2 := {| tL := tL tb1; tR := setn i (Z.of_nat (S k + tsize l)) (tR tb1); tC := tC tb1;
                   tT := tT tb1; n_inode := Z.of_nat (S k + tsize l) |}).
    destruct (IHr N tb2 (S k + tsize l)%nat (S k + tsize l)%nat) as (tb3 & E3 & HL3 & Hn3 & Hr3 & Hs3); auto.
    { constructor; cbn [tb2 tL tR tC tT]; rewrite ?setn_length; auto. }
    { lia. }
    { intros c Hin. apply Hc. cbn [leaves]. apply in_or_app; auto. }
    exists tb3. split; [exact E3|]. split; [auto|]. split; [lia|].
    assert (Hi1 : same_at tb0 tb1 i) by (apply Hs1; lia).
    assert (Hi3 : same_at tb2 tb3 i) by (apply Hs3; lia).
    unfold same_at in *. cbn [tb0 tb2 tL tR tC tT] in *.
    destruct Hi1 as (A1 & A2 & A3 & A4), Hi3 as (B1 & B2 & B3 & B4).
    split.
    + cbn [repr]. repeat split.
      * rewrite B3, A3. apply nth_error_setn_eq. lia.
      * rewrite B4, A4. apply nth_error_setn_eq. lia.
      * rewrite B1, A1. apply nth_error_setn_eq. lia.
      * eapply repr_ext; [|exact Hr1]. intros j Hj.
        destruct (Hs3 j) as (D1 & D2 & D3 & D4); [lia|lia|].
        rewrite D1, D2, D3, D4. repeat split; auto.
        apply nth_error_setn_ne. lia.
      * rewrite B2. apply nth_error_setn_eq. lia.
      * exact Hr3.
    + intros j Hj1 Hj2.
      destruct (Hs3 j) as (D1 & D2 & D3 & D4); [lia|lia|].
      destruct (Hs1 j) as (F1 & F2 & F3 & F4); [lia|lia|].
      rewrite D1, D2, D3, D4, ?nth_error_setn_ne, F1, F2, F3, F4 by lia.
      rewrite !nth_error_setn_ne by lia. auto.
Qed.

Lemma read_array_ser w l rest :
  Forall (fun v => 0 <= v < 256 ^ Z.of_nat w) l ->
  read_array w (length l) (ser_array w l ++ rest) = Some (l, rest).
Proof.
  induction 1 as [|v l Hv HF IH]; [reflexivity|].
  cbn [length read_array ser_array flat_map]. rewrite <- app_assoc.
  rewrite read_le_app by auto. cbn [bind]. fold (ser_array w l). rewrite IH. reflexivity.
Qed.

(** Entries of the tables stay in range, so that they survive their byte width. *)
Definition tabs_range (m : Z) (tb : tabs) : Prop :=
  Forall (fun v => 0 <= v < m) (tL tb) /\ Forall (fun v => 0 <= v < m) (tR tb) /\
  Forall (fun v => 0 <= v < 2 ^ 32) (tC tb) /\ Forall (fun v => 0 <= v < 256) (tT tb).

Lemma Forall_upd {A} (P : A -> Prop) i x l l' : upd i x l = Some l' -> P x -> Forall P l -> Forall P l'.
Proof.
  intros H Hx HF. apply upd_Some in H as [_ ->]. revert i; induction HF; intros [|i]; simpl; constructor; auto.
Qed.

Lemma pad_tree_range m t : 0 < m -> forall tb i tb',
  pad_tree m tb i t = Some tb' -> tabs_range m tb -> tabs_range m tb'.
Proof.
  intros Hm. induction t as [c|l IHl r IHr]; intros tb i tb' H (HL & HR & HC & HT); cbn [pad_tree] in H.
  - inv_bind H. inv_bind H. apply Some_inj in H. subst tb'. unfold tabs_range. cbn [tL tR tC tT].
    repeat split; auto.
    + eapply Forall_upd; eauto. apply Z.mod_pos_bound. reflexivity.
    + eapply Forall_upd; eauto. cbn beta. lia.
  - inv_bind H. inv_bind H. inv_bind H. inv_bind H. inv_bind H.
    assert (H1 : tabs_range m a2).
    { eapply IHl; [eassumption|]. unfold tabs_range. cbn [tL tR tC tT]. repeat split; auto.
      - eapply Forall_upd; eauto. apply Z.mod_pos_bound. auto.
      - eapply Forall_upd; eauto. cbn beta. lia.
      - eapply Forall_upd; eauto. cbn beta. lia. }
    destruct H1 as (HL1 & HR1 & HC1 & HT1).
    eapply IHr; [eassumption|]. unfold tabs_range. cbn [tL tR tC tT]. repeat split; auto.
    eapply Forall_upd; eauto. apply Z.mod_pos_bound. auto.
Qed.

Lemma ser_array_length w l : length (ser_array w l) = (w * length l)%nat.
Proof.
  unfold ser_array. induction l; cbn [flat_map length]; [lia|].
  rewrite app_length, le_bytes_length, IHl. lia.
Qed.

Lemma idx_width_range n : 0 <= n < 2 ^ 32 -> n <= 256 ^ Z.of_nat (idx_width n).
Proof.
  intros H. unfold idx_width. destruct (Z.leb_spec n 256); [simpl; lia|].
  destruct (Z.leb_spec n 65536); simpl; lia.
Qed.

(** Tree serialisation round trip (C02), followed by arbitrary bytes. *)
Theorem tree_round_trip t :
  Z.of_nat (tsize t) < 2 ^ 31 -> (forall c, In c (leaves t) -> 0 <= c < 2 ^ 32) ->
  exists bytes, convert_tree (Z.of_nat (tsize t)) t = Some bytes /\
    length bytes = (1 + tsize t * (2 * idx_width (Z.of_nat (tsize t)) + 5))%nat /\
    (forall rest, reconstruct_tree (Z.of_nat (tsize t)) (bytes ++ rest) = Some t).
Proof.
  intros Hsz Hc. unfold convert_tree. set (n := tsize t) in *. set (w := idx_width (Z.of_nat n)).
  rewrite Nat2Z.id.
  assert (Hm : Z.of_nat n <= 256 ^ Z.of_nat w) by (apply idx_width_range; lia).
  assert (Hw : 0 < 256 ^ Z.of_nat w) by (apply Z.pow_pos_nonneg; lia).
  set (tb0 := {| tL := repeat 0 n; tR := repeat 0 n; tC := repeat 0 n; tT := repeat 0 n; n_inode := 0 |}).
  destruct (pad_tree_spec (256 ^ Z.of_nat w) t n tb0 0 0) as (tb & E & HLn & Hn & Hrep & _); auto.
  { constructor; cbn [tb0 tL tR tC tT]; apply repeat_length. }
  rewrite E. cbn [bind]. destruct HLn as [HlL HlR HlC HlT].
  assert (HR : tabs_range (256 ^ Z.of_nat w) tb).
  { eapply pad_tree_range; [exact Hw|exact E|].
    unfold tabs_range. cbn [tb0 tL tR tC tT].
    repeat split; apply Forall_forall; intros x Hx; apply repeat_spec in Hx; subst; lia. }
  destruct HR as (HFL & HFR & HFC & HFT).
  eexists. split; [reflexivity|]. split.
  - rewrite !app_length, !ser_array_length, HlL, HlR, HlC, HlT. simpl length. lia.
  - intros rest. unfold reconstruct_tree. fold w. rewrite Nat2Z.id.
    rewrite <- !app_assoc. rewrite take_bytes_app by reflexivity. cbn [bind].
    rewrite <- HlL at 1. rewrite read_array_ser by auto. cbn [bind].
    rewrite <- HlR at 1. rewrite read_array_ser by auto. cbn [bind].
    rewrite <- HlC at 1. rewrite read_array_ser by auto. cbn [bind].
    rewrite <- HlT at 1. rewrite read_array_ser by auto. cbn [bind].
    pose proof (height_lt_size t) as Hh. fold n in Hh.
    destruct (repr_CT _ _ _ _ _ _ _ Hrep) as (c & f & H1 & H2 & H3 & H4).
    destruct (Z.leb_spec (Z.of_nat n) 256) as [Hle|Hgt].
    + rewrite H1. cbn [bind]. rewrite H2. cbn [bind]. eapply unpad_repr; eauto.
    + destruct t as [x|l r]; [simpl in n; unfold n in Hgt; lia|].
      cbn [repr] in Hrep. pose proof Hrep as (G1 & G2 & _).
      eapply unpad_repr; eauto.
Qed.

(** ** Number of codes *)
Lemma code_count_spec sn t tb :
  NoDup (leaves t) -> (forall c, In c (leaves t) -> 0 <= c < sn) ->
  (forall c, ~ In c (leaves t) -> lookup tb c = None) ->
  (forall c bs, path t bs c -> exists e, lookup tb c = Some e /\ entry_ok e bs) ->
  code_count sn tb = Z.of_nat (length (leaves t)).
Proof.
  intros Hnd Hr H1 H2. rewrite code_count_is_loop. unfold code_count_loop. f_equal.
  apply Permutation_length. apply NoDup_Permutation; auto.
  - apply NoDup_filter. apply NoDup_zseq.
  - intros c. rewrite filter_In, in_zrange. split.
    + intros [Hc Hl]. destruct (in_dec Z.eq_dec c (leaves t)) as [|Hn]; auto.
      rewrite H1 in Hl by auto. discriminate.
    + intros Hin. split; [auto|]. destruct (in_path _ _ Hin) as [bs Hbs].
      destruct (H2 _ _ Hbs) as (e & -> & _). reflexivity.
Qed.

(** ** Memory contents *)
Definition holds (buf : list Z) (p : nat) (bs : list Z) : Prop :=
  forall k, (k < length bs)%nat -> nth_error buf (p + k) = nth_error bs k.

Lemma holds_app buf p a b : holds buf p (a ++ b) <-> holds buf p a /\ holds buf (p + length a) b.
Proof.
  unfold holds. rewrite app_length. split.
  - intros H. split; intros k Hk.
    + rewrite H by lia. apply nth_error_app1. auto.
    + rewrite <- Nat.add_assoc, H by lia. rewrite nth_error_app2 by lia. f_equal. lia.
  - intros [H1 H2] k Hk. destruct (Nat.lt_ge_cases k (length a)) as [Hl|Hl].
    + rewrite nth_error_app1 by auto. auto.
    + rewrite nth_error_app2 by auto. rewrite <- H2 by lia. f_equal. lia.
Qed.

Lemma holds_firstn buf p bs : holds buf p bs -> firstn (length bs) (skipn p buf) = bs.
Proof.
  revert buf p. induction bs as [|b bs IH]; intros buf p H; [reflexivity|].
  pose proof (H 0%nat ltac:(simpl; lia)) as H0. rewrite Nat.add_0_r in H0. simpl in H0.
  apply nth_error_split in H0 as (l1 & l2 & -> & Hl).
  rewrite skipn_app, skipn_all2 by lia. rewrite Hl, Nat.sub_diag. cbn [app skipn length firstn].
  f_equal. replace l2 with (skipn (S p) (l1 ++ b :: l2)).
  2:{ rewrite skipn_app, skipn_all2 by lia. replace (S p - length l1)%nat with 1%nat by lia. reflexivity. }
  apply IH. intros k Hk. specialize (H (S k) ltac:(simpl; lia)). rewrite <- Nat.add_succ_comm in H. exact H.
Qed.

Lemma store_holds p bs m m' : store p bs m = Some m' -> holds m' p bs.
Proof.
  intros H k Hk. destruct (store_nth _ _ _ _ (p + k) H) as [_ ->].
  replace ((p <=? p + k) && (p + k <? p + length bs))%nat with true by lia. f_equal. lia.
Qed.

Lemma store_preserves p bs m m' q cs :
  store p bs m = Some m' -> (q + length cs <= p \/ p + length bs <= q)%nat -> holds m q cs -> holds m' q cs.
Proof.
  intros H Hd Hh k Hk. destruct (store_nth _ _ _ _ (q + k) H) as [_ ->].
  replace ((p <=? q + k) && (q + k <? p + length bs))%nat with false by lia. apply Hh. auto.
Qed.

Lemma holds_self buf p n : (p + n <= length buf)%nat -> holds buf p (firstn n (skipn p buf)).
Proof.
  intros Hl k Hk. rewrite firstn_length in Hk.
  rewrite <- nth_error_skipn'. rewrite <- (firstn_skipn n (skipn p buf)) at 1.
  rewrite nth_error_app1; auto. rewrite firstn_length. lia.
Qed.

Lemma holds_length buf p bs : holds buf p bs -> bs <> [] -> (p + length bs <= length buf)%nat.
Proof.
  intros H Hne. destruct bs as [|b bs]; [congruence|].
  specialize (H (length bs) ltac:(simpl; lia)).
  assert (nth_error buf (p + length bs) <> None).
  { rewrite H. apply nth_error_Some. simpl; lia. }
  apply nth_error_Some in H0. simpl. lia.
Qed.

(** ** Hypothesis on the data: no code word longer than 64 bits. *)
Definition max_code_64 (ord : queue -> bool) (sn : Z) (s : list Z) : Prop :=
  forall t, build_tree ord sn s = Some t -> (height t <= 64)%nat.

Lemma symbols_ok_of_build ord sn s t : build_tree ord sn s = Some t -> symbols_ok (2 * sn) s = true /\ s <> [].
Proof.
  rewrite build_tree_is_loop. unfold build_tree_loop. destruct (symbols_ok (2 * sn) s) eqn:E; [|discriminate]. split; auto.
  intros ->. inv_bind H. destruct (insert_leaves_spec [] (zrange 0 (2 * sn)) []) as (q & Eq & HP).
  rewrite Eq in Ha. apply Some_inj in Ha. subst a.
  assert (Hq : q = []).
  { apply Permutation_nil. rewrite HP, app_nil_r.
    replace (filter (fun c => 0 <? count [] c) (zrange 0 (2 * sn))) with (@nil Z); [reflexivity|].
    clear. induction (zrange 0 (2 * sn)); simpl; auto. }
  subst q. cbn in H. discriminate.
Qed.

(** At most 65 distinct symbols always satisfy it (unconditionally on their frequencies). *)
Lemma few_symbols_max_code ord sn s :
  (length (nodup Z.eq_dec s) <= 65)%nat -> max_code_64 ord sn s.
Proof.
  intros Hd t Ht. destruct (symbols_ok_of_build _ _ _ _ Ht) as [Hok Hne].
  destruct (build_tree_spec ord sn s Hne Hok) as (t' & Ht' & Hnd & Hin).
  rewrite Ht in Ht'. apply Some_inj in Ht'. subst t'.
  pose proof (height_leaves t).
  assert (length (leaves t) <= length (nodup Z.eq_dec s))%nat.
  { apply NoDup_incl_length; auto. intros c Hc. apply nodup_In. apply Hin. auto. }
  lia.
Qed.

Lemma build_code_range ub sn t : forall tb0 len o1 o2 tb c,
  build_code ub sn tb0 t len o1 o2 = Some tb -> In c (leaves t) -> 0 <= c < sn.
Proof.
  induction t as [x|l IHl r IHr]; intros tb0 len o1 o2 tb c HB Hc; cbn [build_code leaves] in *.
  - destruct ((0 <=? x) && (x <? sn)) eqn:E; [|discriminate]. destruct Hc as [<-|[]]. lia.
  - apply in_app_or in Hc.
    destruct (Z.shiftr len 6 =? 0); inv_bind HB; destruct Hc as [Hc|Hc]; eauto.
Qed.

(** Everything about one self-describing symbol array. *)
Theorem huffman_stream_round_trip ord ub sn s buf pos buf' pos' :
  1 <= sn <= 2 ^ 26 -> Z.of_nat (length buf) < 2 ^ 64 -> max_code_64 ord sn s ->
  huffman_encode_tree_and_data ord ub sn s buf pos = Some (buf', pos') ->
  length buf' = length buf /\ (pos <= pos' <= length buf)%nat /\
  (forall k, (k < pos)%nat -> nth_error buf' k = nth_error buf k) /\
  (forall k, (pos' + 8 <= k)%nat -> nth_error buf' k = nth_error buf k) /\
  exists chunk, holds buf' pos chunk /\ (pos' = pos + length chunk)%nat /\
    forall rest, huffman_decode_tree_and_data (length s) (chunk ++ rest) = Some (s, rest).
Proof.
  intros Hsn Hbuf H64 H. unfold huffman_encode_tree_and_data in H.
  inv_bind H. rename a into t, Ha into Ht.
  destruct (symbols_ok_of_build _ _ _ _ Ht) as [Hok Hne].
  destruct (build_tree_spec ord sn s Hne Hok) as (t' & Ht' & Hnd & Hin).
  rewrite Ht in Ht'. apply Some_inj in Ht'. subst t'.
  pose proof (H64 t Ht) as Hh.
  inv_bind H. rename a into tb, Ha into Htb.
  (* symbols are below stateNum because build_code succeeded *)
  assert (Hr : forall c, In c (leaves t) -> 0 <= c < sn).
  { intros c Hc. eapply build_code_range; eauto. }
  destruct (encode_decode_tree ub sn t s) with (buf := buf) (p := 0%nat) as (tb' & B & Htb' & _ & HP & _);
    auto. { intros; apply Hin; auto. }
  destruct (code_table_spec ub sn t Hh Hnd Hr) as (tb'' & Etb'' & HT1 & HT2).
  unfold code_table in *. rewrite Htb in Htb', Etb''.
  apply Some_inj in Htb'. apply Some_inj in Etb''. subst tb' tb''.
  rewrite (code_count_spec sn t tb Hnd Hr HT1 HT2) in H.
  pose proof (tsize_leaves t) as Hsz.
  replace (2 * Z.of_nat (length (leaves t)) - 1) with (Z.of_nat (tsize t)) in H by lia.
  assert (Hlv : (length (leaves t) <= Z.to_nat sn)%nat).
  { replace (Z.to_nat sn) with (length (zrange 0 sn)).
    - apply NoDup_incl_length; auto. intros c Hc. apply in_zrange. auto.
    - unfold zrange. replace (sn - 0) with sn by lia. generalize 0.
      induction (Z.to_nat sn); intros; simpl; auto. }
  assert (Htz : Z.of_nat (tsize t) < 2 ^ 27) by lia.
  destruct (tree_round_trip t) as (tbytes & Etr & Hlen & Hrec); [lia|intros c Hc; specialize (Hr c Hc); lia|].
  rewrite Etr in H. cbn [bind] in H.
  assert (Hw : (idx_width (Z.of_nat (tsize t)) <= 4)%nat).
  { unfold idx_width. destruct (_ <=? _); [lia|]. destruct (_ <=? _); lia. }
  assert (Hts : Z.of_nat (length tbytes) < 2 ^ 32).
  { rewrite Hlen. nia. }
  rewrite (Z.mod_small (Z.of_nat (length tbytes))) in H by lia.
  rewrite Nat2Z.id, firstn_all in H.
  inv_bind H. rename a into b1, Ha into S1. inv_bind H. rename a into b2, Ha into S2.
  inv_bind H. rename a into b3, Ha into S3. inv_bind H. destruct a as [b4 sz].
  rename Ha into S4. inv_bind H. rename a into b5, Ha into S5.
  apply Some_inj in H. assert (HE : buf' = b5 /\ pos' = (pos + 12 + length tbytes + 8 + Z.to_nat sz)%nat)
    by (split; congruence). destruct HE as [-> ->]. clear H.
  set (q := (pos + 12 + length tbytes)%nat) in *.
  destruct (encode_decode_tree ub sn t s b3 (q + 8)) as (tb' & B' & Htb' & _ & HP' & Henc & _);
    auto. { intros; apply Hin; auto. }
  unfold code_table in Htb'. rewrite Htb in Htb'. apply Some_inj in Htb'. subst tb'.
  destruct (Henc _ _ S4) as (Hsz4 & HL4 & Hbef4 & Haft4 & Hbits4). clear Henc.
  destruct (store_nth _ _ _ _ 0 S1) as [HL1 _]. destruct (store_nth _ _ _ _ 0 S2) as [HL2 _].
  destruct (store_nth _ _ _ _ 0 S3) as [HL3 _]. destruct (store_nth _ _ _ _ 0 S5) as [HL5 _].
  pose proof (fun k => proj2 (store_nth _ _ _ _ k S1)) as N1.
  pose proof (fun k => proj2 (store_nth _ _ _ _ k S2)) as N2.
  pose proof (fun k => proj2 (store_nth _ _ _ _ k S3)) as N3.
  pose proof (fun k => proj2 (store_nth _ _ _ _ k S5)) as N5.
  rewrite le_bytes_length in N1, N2, N5.
  assert (Hq8 : (q + 8 <= length b4)%nat).
  { apply (store_Some _ _ _ _ S5). intros Habs. pose proof (le_bytes_length 8 sz). rewrite Habs in *. discriminate. }
  pose proof (ceil8_spec (Z.of_nat (length B'))) as Hc8.
  assert (Hszl : (q + 8 + Z.to_nat sz <= length buf)%nat).
  { destruct (Nat.eq_dec (length B') 0) as [H0|H0].
    - rewrite H0 in *. lia.
    - specialize (Hbits4 (length B' - 1)%nat ltac:(lia)).
      destruct (nth_error B' (length B' - 1)) eqn:EB; [|apply nth_error_None in EB; lia].
      unfold bitat in Hbits4.
      destruct (nth_error b4 ((8 * (q + 8) + (length B' - 1)) / 8)) eqn:EN; [|discriminate].
      assert ((8 * (q + 8) + (length B' - 1)) / 8 < length b4)%nat by (apply nth_error_Some; congruence).
      lia. }
  split; [lia|]. split; [lia|]. split; [|split].
  - intros k Hk. rewrite N5. replace ((q <=? k)%nat) with false by lia. cbn [andb].
    rewrite Hbef4 by lia. rewrite N3. replace ((pos + 12 <=? k)%nat) with false by lia. cbn [andb].
    rewrite N2. replace ((pos + 8 <=? k)%nat) with false by lia. cbn [andb].
    rewrite N1. replace ((pos <=? k)%nat) with false by lia. reflexivity.
  - intros k Hk. rewrite N5. replace ((k <? q + 8)%nat) with false by lia. rewrite andb_false_r.
    rewrite Haft4 by lia. rewrite N3. replace ((k <? pos + 12 + length tbytes)%nat) with false by lia.
    rewrite andb_false_r. rewrite N2. replace ((k <? pos + 8 + 4)%nat) with false by lia. rewrite andb_false_r.
    rewrite N1. replace ((k <? pos + 8)%nat) with false by lia. rewrite andb_false_r. reflexivity.
  - set (cb := firstn (Z.to_nat sz) (skipn (q + 8) b5)).
    assert (Hcbl : length cb = Z.to_nat sz).
    { unfold cb. rewrite firstn_length, skipn_length. lia. }
    exists (le_bytes 8 (Z.of_nat (tsize t)) ++ le_bytes 4 (Z.of_nat (length tbytes)) ++ tbytes
            ++ le_bytes 8 sz ++ cb).
    split; [|split].
    + rewrite !holds_app, !le_bytes_length.
      replace (pos + 8 + 4)%nat with (pos + 12)%nat by lia. fold q.
      assert (P45 : forall p cs, holds b3 p cs -> (p + length cs <= q)%nat -> holds b5 p cs).
      { intros p cs Hh' Hl. eapply store_preserves; [exact S5|left; lia|].
        intros k Hk. rewrite Hbef4 by lia. apply Hh'. auto. }
      split; [|split; [|split; [|split]]].
      * apply P45; [|rewrite le_bytes_length; lia].
        eapply store_preserves; [exact S3|rewrite le_bytes_length; lia|].
        eapply store_preserves; [exact S2|rewrite !le_bytes_length; lia|].
        eapply store_holds; eauto.
      * apply P45; [|rewrite le_bytes_length; lia].
        eapply store_preserves; [exact S3|rewrite le_bytes_length; lia|].
        eapply store_holds; eauto.
      * apply P45; [|lia]. eapply store_holds; eauto.
      * eapply store_holds; eauto.
      * apply holds_self. lia.
    + rewrite !app_length, !le_bytes_length, Hcbl. lia.
    + intros rest. unfold huffman_decode_tree_and_data. rewrite <- !app_assoc.
      rewrite read_le_app by (change (256 ^ Z.of_nat 8) with (2 ^ 64); lia). cbn [bind].
      rewrite read_le_app by (change (256 ^ Z.of_nat 4) with (2 ^ 32); lia). cbn [bind].
      rewrite Hrec. cbn [bind]. rewrite Nat2Z.id. rewrite take_bytes_app by reflexivity. cbn [bind].
      rewrite read_le_app by (change (256 ^ Z.of_nat 8) with (2 ^ 64); lia). cbn [bind].
      assert (Hbits : exists r0, bits_of (cb ++ rest) = B' ++ r0).
      { apply (bits_prefix (cb ++ rest) 0). intros k Hk. cbn [Nat.mul Nat.add].
        rewrite <- Hbits4 by auto. unfold bitat.
        replace ((8 * (q + 8) + k) / 8)%nat with (q + 8 + k / 8)%nat by lia.
        replace ((8 * (q + 8) + k) mod 8)%nat with (k mod 8)%nat by lia.
        f_equal. rewrite nth_error_app1 by lia.
        assert (Hh2 : holds b5 (q + 8) cb) by (apply holds_self; lia).
        rewrite <- Hh2 by lia. rewrite N5.
        replace ((q + 8 + k / 8 <? q + 8)%nat) with false by lia. rewrite andb_false_r. reflexivity. }
      destruct Hbits as [r0 Hr0].
      rewrite (decode_paths t s B' _ r0 HP' Hr0). cbn [bind].
      rewrite take_bytes_app by lia. reflexivity.
Qed.
