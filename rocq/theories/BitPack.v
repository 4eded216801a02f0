(** One-bit flag arrays (sign maps) and integer helpers. *)
From Coq Require Import List ZArith Lia Bool Arith.
From Coq Require Import ZifyBool ZifyNat.
From Verif Require Import Base.
Import ListNotations.
Local Open Scope Z_scope.
Ltac Zify.zify_post_hook ::= Z.div_mod_to_equations.

(** src/sz_compression_utils.cpp:43-49, inner loop: [k] = 8 - j positions left in the byte. *)
Fixpoint pack_byte (k : nat) (l : list Z) (tmp : Z) : Z * list Z :=
  match k, l with
  | S k', type :: l' =>
      pack_byte k' l' (if type =? 1 then Z.lor tmp (Z.shiftl 1 (Z.of_nat k')) else tmp)
  | _, _ => (tmp, l)
  end.

(** src/sz_compression_utils.cpp:42-51, outer loop over the bytes. *)
Fixpoint pack_bytes (byteLength : nat) (l : list Z) : list Z :=
  match byteLength with
  | O => []
  | S n => let '(tmp, l') := pack_byte 8 l 0 in (tmp mod 256) :: pack_bytes n l'
  end.

(** src/sz_compression_utils.cpp:31-52 convertIntArray2ByteArray_fast_1b_to_result_sz: the bytes written. *)
Definition pack_flags (l : list Z) : list Z :=
  let n := length l in
  pack_bytes (if (n mod 8 =? 0)%nat then (n / 8)%nat else (n / 8 + 1)%nat) l.

(** src/sz_decompression_utils.cpp:74-82: one full byte. *)
Definition unpack_byte (tmp : Z) : list Z :=
  map (fun k => Z.shiftr (Z.land tmp (Z.shiftl 1 k)) k) [7; 6; 5; 4; 3; 2; 1; 0].

(** src/sz_decompression_utils.cpp:85-87: the remaining [m] flags from the last byte, position [i]; shifting
    beyond the byte (i > 7) cannot happen after the guard on line 64. *)
Fixpoint unpack_last (tmp : Z) (i : Z) (m : nat) : list Z :=
  match m with
  | O => []
  | S m' => Z.shiftr (Z.land tmp (Z.shiftl 1 (7 - i))) (7 - i) :: unpack_last tmp (i + 1) m'
  end.

(** src/sz_decompression_utils.cpp:72-83: the bytes that are used in full. *)
Fixpoint unpack_full (nb : nat) (s : list Z) : option (list Z * list Z) :=
  match nb with
  | O => Some ([], s)
  | S nb' =>
      match s with
      | [] => None
      | b :: s' => let* (fl, r) := unpack_full nb' s' in Some (unpack_byte b ++ fl, r)
      end
  end.

(** src/sz_decompression_utils.cpp:62-89 convertByteArray2IntArray_fast_1b_sz.  The guard exits the process;
    a byteArrayLength of 0 wraps around (size_t); 8*(byteArrayLength-1) > intArrayLength writes past the result
    array: all [None]. *)
Definition unpack_flags (intArrayLength byteArrayLength : nat) (s : list Z) : option (list Z * list Z) :=
  check* (intArrayLength <=? byteArrayLength * 8)%nat in
  match byteArrayLength with
  | O => None
  | S nb =>
      check* (8 * nb <=? intArrayLength)%nat in
      let* (fl, r) := unpack_full nb s in
      match r with
      | [] => None
      | tmp :: r' => Some (fl ++ unpack_last tmp 0 (intArrayLength - 8 * nb), r')
      end
  end.

(** Callers pass (n-1)/8+1 bytes (e.g. sz_compress_cp_preserve_2d.cpp:778, sz_decompress_cp_preserve_2d.cpp). *)
Definition sign_map_size (n : nat) : nat := ((n - 1) / 8 + 1)%nat.

Definition is_flag (x : Z) : Prop := x = 0 \/ x = 1.

Lemma sign_map_size_eq n : (1 <= n)%nat ->
  sign_map_size n = if (n mod 8 =? 0)%nat then (n / 8)%nat else (n / 8 + 1)%nat.
Proof. intros. unfold sign_map_size. destruct (Nat.eqb_spec (n mod 8) 0); lia. Qed.

Lemma pack_bytes_length nb l : length (pack_bytes nb l) = nb.
Proof.
  revert l; induction nb; intros l; [reflexivity|].
  cbn [pack_bytes]. destruct (pack_byte 8 l 0). simpl. auto.
Qed.

Fixpoint all_flags (n : nat) : list (list Z) :=
  match n with
  | O => [[]]
  | S n' => map (cons 0) (all_flags n') ++ map (cons 1) (all_flags n')
  end.

Lemma in_all_flags l : Forall is_flag l -> In l (all_flags (length l)).
Proof.
  induction 1 as [|x l Hx HF IH]; [left; reflexivity|].
  cbn [length all_flags]. apply in_or_app.
  destruct Hx as [->| ->]; [left|right]; apply in_map; auto.
Qed.

Lemma pack_byte_app k : forall fl l tmp, length fl = k ->
  pack_byte k (fl ++ l) tmp = (fst (pack_byte k fl tmp), l).
Proof.
  induction k; intros [|x fl] l tmp H; simpl in H; try lia; cbn [pack_byte app].
  - destruct l; reflexivity.
  - apply IHk. lia.
Qed.

Lemma pack_byte_all k : forall fl tmp, (length fl <= k)%nat -> snd (pack_byte k fl tmp) = [].
Proof.
  induction k; intros [|x fl] tmp H; simpl in H; try lia; auto.
  cbn [pack_byte]. apply IHk. lia.
Qed.

Definition zlist_eqb (a b : list Z) : bool := if list_eq_dec Z.eq_dec a b then true else false.

(** Finite sweep over all flag lists of length at most 8. *)
Lemma unpack_sweep :
  forallb (fun n => forallb (fun l => zlist_eqb (unpack_last (fst (pack_byte 8 l 0) mod 256) 0 n) l) (all_flags n))
          (seq 0 9)
  && forallb (fun l => zlist_eqb (unpack_byte (fst (pack_byte 8 l 0) mod 256)) l) (all_flags 8) = true.
Proof. vm_compute. reflexivity. Qed.

Lemma zlist_eqb_eq a b : zlist_eqb a b = true -> a = b.
Proof. unfold zlist_eqb. destruct (list_eq_dec Z.eq_dec a b); [auto|discriminate]. Qed.

Lemma pack_full fl l : length fl = 8%nat -> Forall is_flag fl ->
  exists t, pack_byte 8 (fl ++ l) 0 = (t, l) /\ unpack_byte (t mod 256) = fl.
Proof.
  intros Hl HF. rewrite pack_byte_app by auto. eexists; split; [reflexivity|].
  pose proof unpack_sweep as HS. apply andb_true_iff in HS as [_ HS].
  apply zlist_eqb_eq. rewrite forallb_forall in HS. apply HS. rewrite <- Hl. apply in_all_flags; auto.
Qed.

Lemma pack_last l : (length l <= 8)%nat -> Forall is_flag l ->
  exists t, pack_byte 8 l 0 = (t, []) /\ unpack_last (t mod 256) 0 (length l) = l.
Proof.
  intros Hl HF. exists (fst (pack_byte 8 l 0)). split.
  - rewrite <- (pack_byte_all 8 l 0) by auto. apply surjective_pairing.
  - pose proof unpack_sweep as HS. apply andb_true_iff in HS as [HS _].
    rewrite forallb_forall in HS. specialize (HS (length l)).
    rewrite forallb_forall in HS by (apply in_seq; lia).
    apply zlist_eqb_eq. apply HS; [apply in_seq; lia|apply in_all_flags; auto].
Qed.

Theorem flags_round_trip l rest :
  (1 <= length l)%nat -> Forall is_flag l ->
  unpack_flags (length l) (sign_map_size (length l)) (pack_flags l ++ rest) = Some (l, rest)
  /\ length (pack_flags l) = sign_map_size (length l).
Proof.
  intros Hl HF. unfold pack_flags. rewrite <- sign_map_size_eq by auto.
  split; [|apply pack_bytes_length].
  unfold unpack_flags, sign_map_size.
  replace (length l <=? ((length l - 1) / 8 + 1) * 8)%nat with true by lia.
  replace ((length l - 1) / 8 + 1)%nat with (S ((length l - 1) / 8)) by lia.
  replace (8 * ((length l - 1) / 8) <=? length l)%nat with true by lia.
  remember ((length l - 1) / 8)%nat as nb eqn:Enb.
  assert (Hnb : (8 * nb + 1 <= length l <= 8 * nb + 8)%nat) by lia. clear Enb Hl.
  revert l HF Hnb. induction nb as [|nb IH]; intros l HF Hnb.
  - destruct (pack_last l) as (t & E & Hu); [lia|auto|].
    cbn [pack_bytes]. rewrite E. cbn [unpack_full app bind]. rewrite Nat.sub_0_r, Hu. reflexivity.
  - set (fl := firstn 8 l) in *. set (l' := skipn 8 l) in *.
    assert (El : l = fl ++ l') by (symmetry; apply firstn_skipn).
    assert (Hfl : length fl = 8%nat) by (unfold fl; rewrite firstn_length; lia).
    assert (HFF : Forall is_flag fl /\ Forall is_flag l') by (apply Forall_app; rewrite <- El; auto).
    destruct HFF as [HF1 HF2].
    rewrite El in Hnb. rewrite app_length, Hfl in Hnb.
    destruct (pack_full fl l') as (t & E & Hu); auto.
    specialize (IH l' HF2 ltac:(lia)).
    rewrite El, app_length, Hfl. clearbody fl l'.
    remember (S nb) as m eqn:Em. cbn [pack_bytes]. rewrite E. subst m.
    cbn [app unpack_full]. rewrite Hu.
    inv_bind IH. destruct a as [fl' r]. rewrite Ha. cbn [bind].
    destruct r as [|tmp r']; [discriminate|].
    replace (8 + length l' - 8 * S nb)%nat with (length l' - 8 * nb)%nat by lia.
    apply Some_inj in IH. rewrite <- app_assoc. congruence.
Qed.

(** ** round_up_power_of_2 *)

(** src/sz_compression_utils.cpp:17-27 on 32-bit unsigned arithmetic. *)
Definition u32 (x : Z) : Z := x mod 2 ^ 32.
(** src/sz_compression_utils.cpp:17-27 round_up_power_of_2. *)
Definition round_up_power_of_2 (base : Z) : Z :=
  let b := u32 (base - 1) in
  let b := Z.lor b (Z.shiftr b 1) in
  let b := Z.lor b (Z.shiftr b 2) in
  let b := Z.lor b (Z.shiftr b 4) in
  let b := Z.lor b (Z.shiftr b 8) in
  let b := Z.lor b (Z.shiftr b 16) in
  u32 (b + 1).

(** Bit [i] of [smear b k]: some bit of [b] in i..i+k-1 is set. *)
Definition smeared (b c : Z) (k : Z) : Prop :=
  forall i, 0 <= i -> (Z.testbit c i = true <-> exists j, 0 <= j < k /\ Z.testbit b (i + j) = true).

Lemma smear_step b c k : 0 < k -> smeared b c k -> smeared b (Z.lor c (Z.shiftr c k)) (2 * k).
Proof.
  intros Hk H i Hi. rewrite Z.lor_spec, Z.shiftr_spec by lia. rewrite orb_true_iff.
  rewrite (H i) by lia. rewrite (H (i + k)) by lia. split.
  - intros [(j & Hj & Hb)|(j & Hj & Hb)].
    + exists j. split; auto. lia.
    + exists (k + j). split; [lia|]. rewrite Z.add_assoc. auto.
  - intros (j & Hj & Hb). destruct (Z.lt_ge_cases j k).
    + left. exists j. split; auto. lia.
    + right. exists (j - k). split; [lia|]. replace (i + k + (j - k)) with (i + j) by lia. auto.
Qed.

Theorem round_up_power_of_2_spec base :
  1 <= base <= 2 ^ 31 ->
  exists k, 0 <= k <= 31 /\ round_up_power_of_2 base = 2 ^ k /\ base <= 2 ^ k /\
            (forall m, 0 <= m -> base <= 2 ^ m -> 2 ^ k <= 2 ^ m).
Proof.
  intros Hb. unfold round_up_power_of_2. set (b := u32 (base - 1)).
  assert (Hbv : b = base - 1) by (unfold b, u32; apply Z.mod_small; lia).
  assert (H0 : smeared b b 1).
  { intros i Hi. split.
    - intros Ht. exists 0. rewrite Z.add_0_r. split; [lia|auto].
    - intros (j & Hj & Ht). replace (i + j) with i in Ht by lia. auto. }
  apply smear_step in H0; [|lia]. apply smear_step in H0; [|lia]. apply smear_step in H0; [|lia].
  apply smear_step in H0; [|lia]. apply smear_step in H0; [|lia].
  cbn [Z.mul Pos.mul] in H0.
  match goal with H : smeared b ?x _ |- _ => set (c := x) in * end.
  clearbody c.
  destruct (Z.eq_dec b 0) as [Hz|Hz].
  - (* base = 1 *)
    exists 0. assert (c = 0) as ->.
    { apply Z.bits_inj'. intros i Hi. rewrite Z.bits_0. destruct (Z.testbit c i) eqn:E; auto.
      apply H0 in E; auto. destruct E as (j & _ & Hj). rewrite Hz, Z.bits_0 in Hj. discriminate. }
    assert (base = 1) by lia. subst base.
    split; [lia|]. split; [reflexivity|]. split; [simpl; lia|].
    intros m Hm _. apply Z.pow_le_mono_r; lia.
  - pose proof (Z.log2_nonneg b) as Hlg. pose proof (Z.log2_spec b ltac:(lia)) as Hlog.
    assert (Hl31 : Z.log2 b < 31) by (apply Z.log2_lt_pow2; lia).
    set (L := Z.log2 b) in *.
    assert (Hc : c = Z.ones (L + 1)).
    { apply Z.bits_inj'. intros i Hi. rewrite Z.testbit_ones_nonneg by lia.
      apply eq_true_iff_eq. specialize (H0 i Hi). split; [intros E0; apply H0 in E0; revert E0|intros E0; apply H0; revert E0].
      - intros (j & Hj & Ht). destruct (Z.lt_ge_cases L (i + j)).
        + rewrite Z.bits_above_log2 in Ht; [discriminate|lia|auto].
        + lia.
      - intros Hlt. exists (L - i). split; [lia|]. replace (i + (L - i)) with L by lia.
        apply Z.bit_log2. lia. }
    exists (L + 1). rewrite Hc, Z.ones_equiv.
    assert (Hp : 2 ^ (L + 1) <= 2 ^ 31) by (apply Z.pow_le_mono_r; lia).
    replace (Z.pred (2 ^ (L + 1)) + 1) with (2 ^ (L + 1)) by lia.
    replace (Z.succ L) with (L + 1) in Hlog by lia.
    split; [lia|]. split; [unfold u32; apply Z.mod_small; split; [apply Z.pow_nonneg; lia|lia]|].
    split; [lia|].
    intros m Hm Hbm. apply Z.pow_le_mono_r; [lia|].
    destruct (Z.le_gt_cases (L + 1) m); auto. exfalso.
    assert (2 ^ m <= 2 ^ L) by (apply Z.pow_le_mono_r; lia). lia.
Qed.
