(** Correctness of code table construction, bit packing and decoding. *)
From Coq Require Import List ZArith Lia Bool Arith Permutation.
From Coq Require Import ZifyBool ZifyNat.
From Verif Require Import Base Huffman HuffQueue.
Import ListNotations.
Local Open Scope Z_scope.
Ltac Zify.zify_post_hook ::= Z.div_mod_to_equations.

(** ** Specification vocabulary: root-to-leaf paths *)
Inductive path : tree -> list bool -> Z -> Prop :=
| path_leaf c : path (Leaf c) [] c
| path_left l r bs c : path l bs c -> path (Node l r) (false :: bs) c
| path_right l r bs c : path r bs c -> path (Node l r) (true :: bs) c.

Fixpoint height (t : tree) : nat :=
  match t with Leaf _ => O | Node l r => S (Nat.max (height l) (height r)) end.

Lemma path_in t bs c : path t bs c -> In c (leaves t).
Proof. induction 1; simpl; auto; apply in_or_app; auto. Qed.

Lemma in_path t c : In c (leaves t) -> exists bs, path t bs c.
Proof.
  induction t; simpl; intros H.
  - destruct H as [->|[]]. eexists; constructor.
  - apply in_app_or in H as [H|H].
    + apply IHt1 in H as [bs H]. eexists; apply path_left; eauto.
    + apply IHt2 in H as [bs H]. eexists; apply path_right; eauto.
Qed.

Lemma path_height t bs c : path t bs c -> (length bs <= height t)%nat.
Proof. induction 1; simpl; lia. Qed.

Lemma NoDup_app_inv {A} (l1 l2 : list A) :
  NoDup (l1 ++ l2) -> NoDup l1 /\ NoDup l2 /\ (forall x, In x l1 -> ~ In x l2).
Proof.
  induction l1; simpl; intros H.
  - repeat split; auto. constructor.
  - inversion H; subst. destruct (IHl1 H3) as (? & ? & ?).
    repeat split; auto.
    + constructor; auto. intros Hin. apply H2. apply in_or_app; auto.
    + intros x [->|Hx] Hx2; [apply H2; apply in_or_app; auto|eapply H4; eauto].
Qed.

Lemma path_unique t : NoDup (leaves t) -> forall bs bs' c, path t bs c -> path t bs' c -> bs = bs'.
Proof.
  induction t; simpl; intros Hnd bs bs' x H H'.
  - inversion H; inversion H'; subst; auto.
  - apply NoDup_app_inv in Hnd as (Hn1 & Hn2 & Hd).
    inversion H; inversion H'; subst; f_equal; eauto;
      exfalso; eapply Hd; eapply path_in; eauto.
Qed.

(** ** Bit strings as numbers *)
Fixpoint bval_acc (acc : Z) (bs : list bool) : Z :=
  match bs with [] => acc | b :: t => bval_acc (2 * acc + Z.b2z b) t end.
Definition bval (bs : list bool) : Z := bval_acc 0 bs.

Lemma bval_acc_app a bs b : bval_acc a (bs ++ [b]) = 2 * bval_acc a bs + Z.b2z b.
Proof.
  revert a; induction bs as [|x bs IH]; intros a.
  - reflexivity.
  - cbn [app bval_acc]. apply IH.
Qed.

Lemma bval_snoc bs b : bval (bs ++ [b]) = 2 * bval bs + Z.b2z b.
Proof. apply bval_acc_app. Qed.

Lemma bval_range bs : 0 <= bval bs < 2 ^ Z.of_nat (length bs).
Proof.
  induction bs as [|b bs IH] using rev_ind.
  - unfold bval. simpl. lia.
  - rewrite bval_snoc, app_length. simpl length.
    replace (Z.of_nat (length bs + 1)) with (Z.succ (Z.of_nat (length bs))) by lia.
    rewrite Z.pow_succ_r by lia. destruct b; simpl Z.b2z; lia.
Qed.

Lemma bval_testbit bs t :
  (t < length bs)%nat -> Z.testbit (bval bs) (Z.of_nat (length bs) - 1 - Z.of_nat t) = nth t bs false.
Proof.
  revert t. induction bs as [|b bs IH] using rev_ind; intros t Ht; [simpl in Ht; lia|].
  rewrite bval_snoc. rewrite app_length in *. simpl length in *.
  destruct (Nat.eq_dec t (length bs)) as [->|Hne].
  - rewrite app_nth2, Nat.sub_diag by lia. simpl nth.
    replace (Z.of_nat (length bs + 1) - 1 - Z.of_nat (length bs)) with 0 by lia.
    apply Z.testbit_0_r.
  - rewrite app_nth1 by lia. rewrite <- IH by lia.
    replace (Z.of_nat (length bs + 1) - 1 - Z.of_nat t)
      with (Z.succ (Z.of_nat (length bs) - 1 - Z.of_nat t)) by lia.
    apply Z.testbit_succ_r. lia.
Qed.

(** ** Code table *)

(** A table entry represents the bit string [bs] (the entry of a lone root leaf has unspecified bits). *)
Definition entry_ok (e : entry) (bs : list bool) : Prop :=
  cout e = Z.of_nat (length bs) /\ (length bs <= 64)%nat /\ 0 <= code0 e < 2 ^ 64 /\
  (bs <> [] -> forall t, (t < 64)%nat -> Z.testbit (code0 e) (63 - Z.of_nat t) = nth t bs false).

Lemma lor_double_1 x : 0 <= x -> Z.lor (2 * x) 1 = 2 * x + 1.
Proof.
  intros H. destruct x as [|p|p]; try reflexivity. lia.
Qed.

Lemma shl64_double ub x : 0 <= x < 2 ^ 63 -> shl64 ub x 1 = 2 * x.
Proof.
  intros H. unfold shl64. change ((0 <=? 1) && (1 <? 64)) with true. cbv iota.
  unfold u64. rewrite Z.shiftl_mul_pow2 by lia. rewrite Z.mod_small; lia.
Qed.

Lemma leaf_entry_ok ub pre :
  (length pre <= 64)%nat ->
  entry_ok {| code0 := shl64 ub (bval pre) (64 - Z.of_nat (length pre)); code1 := 0;
              cout := Z.of_nat (length pre) mod 256 |} pre.
Proof.
  intros H. unfold entry_ok. cbn [code0 cout].
  split; [lia|]. split; [auto|].
  pose proof (bval_range pre) as Hr.
  destruct pre as [|b pre0] eqn:Epre.
  - split; [|congruence]. unfold shl64. destruct (_ && _); apply Z.mod_pos_bound; lia.
  - rewrite <- Epre in *. assert (Hl : (1 <= length pre)%nat) by (subst; simpl; lia).
    assert (Hsh : shl64 ub (bval pre) (64 - Z.of_nat (length pre))
                  = Z.shiftl (bval pre) (64 - Z.of_nat (length pre))).
    { unfold shl64. replace ((0 <=? 64 - Z.of_nat (length pre)) && (64 - Z.of_nat (length pre) <? 64))
        with true by lia.
      unfold u64. apply Z.mod_small. rewrite Z.shiftl_mul_pow2 by lia.
      assert (2 ^ 64 = 2 ^ Z.of_nat (length pre) * 2 ^ (64 - Z.of_nat (length pre))) as ->.
      { rewrite <- Z.pow_add_r by lia. f_equal. lia. }
      assert (0 < 2 ^ (64 - Z.of_nat (length pre))) by (apply Z.pow_pos_nonneg; lia).
      nia. }
    rewrite Hsh. split.
    + rewrite Z.shiftl_mul_pow2 by lia.
      assert (2 ^ 64 = 2 ^ Z.of_nat (length pre) * 2 ^ (64 - Z.of_nat (length pre))) as ->.
      { rewrite <- Z.pow_add_r by lia. f_equal. lia. }
      assert (0 < 2 ^ (64 - Z.of_nat (length pre))) by (apply Z.pow_pos_nonneg; lia).
      nia.
    + intros _ t Ht. rewrite Z.shiftl_spec by lia.
      destruct (Nat.lt_ge_cases t (length pre)) as [Hlt|Hge].
      * rewrite <- bval_testbit by auto. f_equal. lia.
      * rewrite nth_overflow by lia. apply Z.testbit_neg_r. lia.
Qed.

Lemma lookup_cons c' e tb c :
  lookup ((c', e) :: tb) c = if c =? c' then Some e else lookup tb c.
Proof. reflexivity. Qed.

Lemma build_code_spec ub sn n : forall pre tb,
  (length pre + height n <= 64)%nat -> NoDup (leaves n) ->
  (forall c, In c (leaves n) -> 0 <= c < sn) ->
  exists tb', build_code ub sn tb n (Z.of_nat (length pre)) (bval pre) 0 = Some tb'
    /\ (forall c, ~ In c (leaves n) -> lookup tb' c = lookup tb c)
    /\ (forall c bs, path n bs c -> exists e, lookup tb' c = Some e /\ entry_ok e (pre ++ bs)).
Proof.
  induction n as [x|l IHl r IHr]; intros pre tb Hh Hnd Hr; cbn [build_code].
  - specialize (Hr x (or_introl eq_refl)).
    replace ((0 <=? x) && (x <? sn)) with true by lia.
    replace (Z.of_nat (length pre) <=? 64) with true by (simpl in Hh; lia).
    eexists; split; [reflexivity|]. split.
    + intros c Hc. rewrite lookup_cons. destruct (Z.eqb_spec c x); auto.
      exfalso; apply Hc; left; auto.
    + intros c bs Hp. inversion Hp; subst. rewrite lookup_cons, Z.eqb_refl.
      eexists; split; [reflexivity|]. rewrite app_nil_r. apply leaf_entry_ok. simpl in Hh; lia.
  - simpl leaves in *. apply NoDup_app_inv in Hnd as (Hn1 & Hn2 & Hd).
    simpl height in Hh.
    assert (Hs0 : Z.shiftr (Z.of_nat (length pre)) 6 = 0).
    { rewrite Z.shiftr_div_pow2 by lia. apply Z.div_small. lia. }
    rewrite Hs0. cbn [Z.eqb].
    pose proof (bval_range pre) as Hrg.
    assert (Hpow : 2 ^ Z.of_nat (length pre) <= 2 ^ 63) by (apply Z.pow_le_mono_r; lia).
    rewrite shl64_double by lia. rewrite lor_double_1 by lia.
    replace (2 * bval pre) with (bval (pre ++ [false])) by (rewrite bval_snoc; simpl; lia).
    replace (Z.of_nat (length pre) + 1) with (Z.of_nat (length (pre ++ [false])))
      by (rewrite app_length; simpl; lia).
    destruct (IHl (pre ++ [false]) tb) as (tb1 & E1 & H1a & H1b); auto.
    { rewrite app_length; simpl; lia. }
    { intros; apply Hr; apply in_or_app; auto. }
    rewrite E1. cbn [bind].
    replace (bval (pre ++ [false]) + 1) with (bval (pre ++ [true])) by (rewrite !bval_snoc; simpl; lia).
    replace (Z.of_nat (length (pre ++ [false]))) with (Z.of_nat (length (pre ++ [true])))
      by (rewrite !app_length; simpl; lia).
    destruct (IHr (pre ++ [true]) tb1) as (tb2 & E2 & H2a & H2b); auto.
    { rewrite app_length; simpl; lia. }
    { intros; apply Hr; apply in_or_app; auto. }
    exists tb2. split; auto. split.
    + intros c Hc. rewrite H2a, H1a; auto; intros Hin; apply Hc; apply in_or_app; auto.
    + intros c bs Hp. inversion Hp; subst.
      * destruct (H1b _ _ H3) as (e & He & Hok). exists e. split.
        -- rewrite H2a; auto. apply Hd. eapply path_in; eauto.
        -- rewrite <- app_assoc in Hok. exact Hok.
      * destruct (H2b _ _ H3) as (e & He & Hok). exists e. split; auto.
        rewrite <- app_assoc in Hok. exact Hok.
Qed.

(** ** Memory seen as bits *)
Definition bitat (buf : list Z) (k : nat) : option bool :=
  option_map (fun b => Z.testbit b (7 - Z.of_nat (k mod 8))) (nth_error buf (k / 8)).

Lemma nth_error_bits_of buf : forall k, nth_error (bits_of buf) k = bitat buf k.
Proof.
  induction buf as [|b buf IH]; intros k; unfold bitat.
  - simpl. destruct k; simpl; [|rewrite (proj2 (nth_error_None [] _)) by (simpl; lia)]; reflexivity.
  - unfold bits_of in *. cbn [flat_map].
    destruct (Nat.lt_ge_cases k 8) as [Hk|Hk].
    + rewrite nth_error_app1 by (simpl; lia).
      rewrite Nat.div_small, Nat.mod_small by lia. cbn [nth_error option_map].
      do 8 (destruct k as [|k]; [reflexivity|]). lia.
    + rewrite nth_error_app2 by (simpl; lia). simpl length.
      rewrite IH. unfold bitat.
      replace (k / 8)%nat with (S ((k - 8) / 8)) by lia.
      replace (k mod 8)%nat with ((k - 8) mod 8)%nat by lia. reflexivity.
Qed.

Lemma be64_nth x i : (i < 8)%nat ->
  nth_error (be64 x) i = Some (Z.shiftr x (56 - 8 * Z.of_nat i) mod 256).
Proof. intros H. do 8 (destruct i as [|i]; [reflexivity|]). lia. Qed.

Lemma store_nth p bs m m' k :
  store p bs m = Some m' ->
  length m' = length m /\
  nth_error m' k = if ((p <=? k) && (k <? p + length bs))%nat then nth_error bs (k - p) else nth_error m k.
Proof.
  intros H. destruct bs as [|b bs].
  - simpl in H. inversion H; subst. split; auto.
    destruct (Nat.leb_spec p k); simpl; auto.
    destruct (Nat.ltb_spec k (p + 0)); auto; lia.
  - pose proof (store_Some _ _ _ _ H ltac:(discriminate)) as Hl.
    rewrite store_spec in H by auto.
    assert (Hm : m' = firstn p m ++ (b :: bs) ++ skipn (p + length (b :: bs)) m) by congruence.
    clear H. rewrite Hm. clear Hm. set (B := b :: bs) in *.
    assert (Hl1 : length (firstn p m) = p) by (rewrite firstn_length; lia).
    split.
    + rewrite !app_length, skipn_length, Hl1. lia.
    + destruct (Nat.leb_spec p k) as [Hk|Hk]; cbn [andb].
      * destruct (Nat.ltb_spec k (p + length B)) as [Hk2|Hk2].
        -- rewrite nth_error_app2 by lia. rewrite Hl1. rewrite nth_error_app1 by lia. reflexivity.
        -- rewrite nth_error_app2 by lia. rewrite Hl1. rewrite nth_error_app2 by lia.
           rewrite <- (firstn_skipn (p + length B) m) at 2.
           rewrite (nth_error_app2 (firstn _ _)) by (rewrite firstn_length; lia).
           f_equal. rewrite firstn_length. lia.
      * rewrite nth_error_app1 by lia.
        rewrite <- (firstn_skipn p m) at 2. rewrite nth_error_app1 by lia. reflexivity.
Qed.

Lemma testbit_mod256 x j : 0 <= j < 8 -> Z.testbit (x mod 256) j = Z.testbit x j.
Proof. intros H. change 256 with (2 ^ 8). apply Z.mod_pow2_bits_low. lia. Qed.

Lemma store_be64_bits p x m m' k :
  store p (be64 x) m = Some m' ->
  bitat m' k = if ((8 * p <=? k) && (k <? 8 * p + 64))%nat
               then Some (Z.testbit x (63 - Z.of_nat (k - 8 * p))) else bitat m k.
Proof.
  intros H. unfold bitat. destruct (store_nth _ _ _ _ (k / 8) H) as [_ ->].
  simpl length.
  replace ((p <=? k / 8) && (k / 8 <? p + 8))%nat with ((8 * p <=? k) && (k <? 8 * p + 64))%nat by lia.
  destruct ((8 * p <=? k) && (k <? 8 * p + 64))%nat eqn:E; auto.
  rewrite be64_nth by lia. cbn [option_map]. f_equal.
  rewrite testbit_mod256 by lia. rewrite Z.shiftr_spec by lia. f_equal. lia.
Qed.

Lemma or_byte_bits p v m m' k :
  or_byte m p v = Some m' ->
  length m' = length m /\ (p < length m)%nat /\
  (forall i, i <> p -> nth_error m' i = nth_error m i) /\
  bitat m' k = if (k / 8 =? p)%nat
               then option_map (fun b => b || Z.testbit v (7 - Z.of_nat (k mod 8)))%bool (bitat m k)
               else bitat m k.
Proof.
  intros H. unfold or_byte in H. inv_bind H. apply upd_Some in H as [Hl ->].
  split; [apply setn_length|]. split; [auto|]. split.
  - intros i Hi. apply nth_error_setn_ne; auto.
  - unfold bitat. destruct (Nat.eqb_spec (k / 8) p) as [->|Hne].
    + rewrite nth_error_setn_eq by auto. rewrite Ha. cbn [option_map]. f_equal.
      rewrite Z.lor_spec. f_equal. apply testbit_mod256. lia.
    + rewrite nth_error_setn_ne by auto. reflexivity.
Qed.

(** ** Encoder invariant *)
Record enc_inv (buf0 : list Z) (p0 : nat) (B : list bool) (st : est) : Prop := {
  inv_len : length (e_buf st) = length buf0;
  inv_p : e_p st = (p0 + length B / 8)%nat;
  inv_out : e_out st = ceil8 (Z.of_nat (length B));
  inv_lack : e_lack st = lack8 (Z.of_nat (length B));
  inv_before : forall k, (k < p0)%nat -> nth_error (e_buf st) k = nth_error buf0 k;
  inv_bits : forall k, (k < length B)%nat -> bitat (e_buf st) (8 * p0 + k) = nth_error B k;
  inv_pad : forall k, (length B <= k)%nat -> (Z.of_nat k < 8 * ceil8 (Z.of_nat (length B))) ->
            bitat (e_buf st) (8 * p0 + k) = Some false;
  inv_after : forall k, (Z.of_nat p0 + ceil8 (Z.of_nat (length B)) + 8 <= Z.of_nat k) ->
            nth_error (e_buf st) k = nth_error buf0 k
}.

Lemma nth_error_nth' {A} (l : list A) k d : (k < length l)%nat -> nth_error l k = Some (nth k l d).
Proof. intros. apply nth_error_nth'. auto. Qed.

Lemma ceil8_spec b : b <= 8 * ceil8 b < b + 8.
Proof. unfold ceil8. destruct (Z.eqb_spec (b mod 8) 0); lia. Qed.
Lemma lack8_spec b : lack8 b = 8 * ceil8 b - b.
Proof. unfold ceil8, lack8. destruct (Z.eqb_spec (b mod 8) 0); lia. Qed.

Lemma encode_step_inv ub tb buf0 p0 B st c e bs st' :
  enc_inv buf0 p0 B st -> lookup tb c = Some e -> entry_ok e bs ->
  (bs = [] -> B = []) ->
  encode_step ub tb st c = Some st' -> enc_inv buf0 p0 (B ++ bs) st'.
Proof.
  intros [Hlen Hp Hout Hlack Hbef Hbits Hpad Haft] Hlk (Hcout & Hl64 & Hrange & Hcode) Hnil H.
  unfold encode_step in H. rewrite Hlk in H. cbn [bind] in H. rewrite Hcout in H.
  set (b := length B) in *. set (n := length bs) in *.
  assert (HBn : length (B ++ bs) = (b + n)%nat) by (rewrite app_length; auto).
  assert (Hb8s : (b < 8 * (b / 8) + 8 /\ 8 * (b / 8) <= b)%nat) by (clear; lia).
  set (pb := (b / 8)%nat) in *. clearbody pb.
  rewrite lack8_spec in Hlack.
  pose proof (ceil8_spec (Z.of_nat b)) as Hcb.
  pose proof (ceil8_spec (Z.of_nat (b + n))) as Hcbn.
  set (cb := ceil8 (Z.of_nat b)) in *.
  set (cbn := ceil8 (Z.of_nat (b + n))) in *.
  destruct (Z.eqb_spec (e_lack st) 0) as [Hl0|Hl0].
  - (* aligned *)
    rewrite lack8_spec in H. pose proof (ceil8_spec (Z.of_nat n)) as Hcn.
    set (cn := ceil8 (Z.of_nat n)) in *. clearbody cb cbn cn.
    replace (cn <=? 8) with true in H by lia.
    inv_bind H. apply Some_inj in H; subst st'.
    pose proof (fun k => store_be64_bits _ _ _ _ k Ha) as HB1.
    pose proof (fun k => proj2 (store_nth _ _ _ _ k Ha)) as HN1.
    destruct (store_nth _ _ _ _ 0 Ha) as [HL1 _].
    constructor; cbn [e_buf e_p e_out e_lack]; rewrite ?HBn, ?lack8_spec.
    + lia.
    + rewrite Hp. lia.
    + pose proof (ceil8_spec (Z.of_nat (b + n))). lia.
    + pose proof (ceil8_spec (Z.of_nat (b + n))). lia.
    + intros k Hk. rewrite HN1, Hp.
      replace ((p0 + pb <=? k)%nat) with false by lia. cbn [andb]. auto.
    + intros k Hk. rewrite HB1, Hp. destruct (Nat.lt_ge_cases k b) as [Hkb|Hkb].
      * replace ((8 * (p0 + pb) <=? 8 * p0 + k)%nat) with false by lia. cbn [andb].
        rewrite nth_error_app1 by auto. auto.
      * replace (((8 * (p0 + pb) <=? 8 * p0 + k) && (8 * p0 + k <? 8 * (p0 + pb) + 64))%nat)
          with true by lia.
        rewrite nth_error_app2 by auto. fold b.
        rewrite (nth_error_nth' bs (k - b) false) by lia. f_equal.
        rewrite <- Hcode by (try lia; intros ->; unfold n in *; simpl in *; lia). f_equal. lia.
    + intros k Hk1 Hk2.
      pose proof (ceil8_spec (Z.of_nat (b + n))).
      destruct (Nat.eq_dec n 0) as [Hn0|Hn0]; [lia|].
      rewrite HB1, Hp.
      replace (((8 * (p0 + pb) <=? 8 * p0 + k) && (8 * p0 + k <? 8 * (p0 + pb) + 64))%nat)
          with true by lia.
      f_equal.
      replace (63 - Z.of_nat (8 * p0 + k - 8 * (p0 + pb))) with (63 - Z.of_nat (k - b)) by lia.
      rewrite Hcode.
      * apply nth_overflow. fold n. lia.
      * intros ->. unfold n in *; simpl in *; lia.
      * lia.
    + intros k Hk. pose proof (ceil8_spec (Z.of_nat (b + n))). rewrite HN1, Hp. simpl length.
      replace ((k <? p0 + pb + 8)%nat) with false by lia.
      rewrite andb_false_r. apply Haft. lia.
  - (* unaligned *)
    assert (Hn0 : (1 <= n)%nat).
    { destruct bs as [|b0 bs0]; [|unfold n; simpl; lia].
      assert (b = 0)%nat by (unfold b; rewrite (Hnil eq_refl); reflexivity). lia. }
    clearbody cb.
    assert (Hne : bs <> []) by (intros ->; unfold n in *; simpl in *; lia).
    specialize (Hcode Hne).
    inv_bind H.
    pose proof (fun k => proj2 (proj2 (proj2 (or_byte_bits _ _ _ _ k Ha)))) as HB1.
    destruct (or_byte_bits _ _ _ _ 0 Ha) as (HL1 & Hpl & HN1 & _). rewrite Hp in *.
    (* bits of byte p after the or *)
    assert (HB1' : forall k, (8 * (p0 + pb) <= k < 8 * (p0 + pb) + 8)%nat -> (8 * p0 + b <= k)%nat ->
              bitat a k = Some (nth (k - 8 * p0 - b) bs false)).
    { intros k Hk Hkb. rewrite HB1. assert (k / 8 = p0 + pb)%nat as -> by lia. rewrite Nat.eqb_refl.
      replace k with (8 * p0 + (k - 8 * p0))%nat at 1 by lia.
      rewrite Hpad; [|lia|lia].
      cbn [option_map orb]. f_equal.
      rewrite Z.shiftr_spec by lia. rewrite <- Hcode by lia. f_equal. lia. }
    assert (HB1'' : forall k, (k < b)%nat -> bitat a (8 * p0 + k) = nth_error B k).
    { intros k Hk. rewrite HB1. destruct (Nat.eqb_spec ((8 * p0 + k) / 8) (p0 + pb)).
      - rewrite Hbits by auto. rewrite (nth_error_nth' B k false) by auto.
        cbn [option_map]. f_equal.
        rewrite Z.shiftr_spec by lia.
        rewrite (Z.bits_above_log2 (code0 e)); [apply orb_false_r|lia|].
        destruct (Z.eq_dec (code0 e) 0) as [->|Hz]; [change (Z.log2 0) with 0; lia|].
        apply Z.lt_le_trans with 64; [|lia].
        apply Z.log2_lt_pow2; lia.
      - apply Hbits; auto. }
    destruct (Z.ltb_spec (e_lack st) (Z.of_nat n)) as [Hlt|Hge].
    + (* spills over *)
      inv_bind H. replace (Z.of_nat n <=? 64) with true in H by lia.
      rewrite lack8_spec in H. pose proof (ceil8_spec (Z.of_nat n - e_lack st)) as Hcn.
      set (cn := ceil8 (Z.of_nat n - e_lack st)) in *. clearbody cn.
      apply Some_inj in H; subst st'.
      pose proof (fun k => store_be64_bits _ _ _ _ k Ha0) as HB2.
      pose proof (fun k => proj2 (store_nth _ _ _ _ k Ha0)) as HN2.
      destruct (store_nth _ _ _ _ 0 Ha0) as [HL2 _].
      assert (Hsh : forall j, 0 <= j < 64 ->
                Z.testbit (shl64 ub (code0 e) (e_lack st)) j = Z.testbit (code0 e) (j - e_lack st)).
      { intros j Hj. unfold shl64.
        replace ((0 <=? e_lack st) && (e_lack st <? 64)) with true by lia.
        unfold u64. rewrite Z.mod_pow2_bits_low by lia. apply Z.shiftl_spec. lia. }
      constructor; cbn [e_buf e_p e_out e_lack]; rewrite ?HBn, ?lack8_spec; fold cbn; clearbody cbn.
      * lia.
      * clear - Hcb Hlack Hlt Hb8s Hl0. lia.
      * lia.
      * lia.
      * intros k Hk. rewrite HN2. replace ((S (p0 + pb) <=? k)%nat) with false by lia.
        cbn [andb]. rewrite HN1 by lia. auto.
      * intros k Hk. rewrite HB2.
        destruct (Nat.leb_spec (8 * S (p0 + pb)) (8 * p0 + k)) as [Hk1|Hk1]; cbn [andb].
        -- replace ((8 * p0 + k <? 8 * S (p0 + pb) + 64)%nat) with true by lia.
           rewrite Hsh by lia. rewrite nth_error_app2 by (fold b; lia). fold b.
           rewrite (nth_error_nth' bs (k - b) false) by lia. f_equal.
           rewrite <- Hcode by lia. f_equal. lia.
        -- destruct (Nat.lt_ge_cases k b) as [Hkb|Hkb].
           ++ rewrite nth_error_app1 by auto. apply HB1''; auto.
           ++ rewrite HB1' by lia. rewrite nth_error_app2 by auto. fold b.
              rewrite (nth_error_nth' bs (k - b) false) by lia. f_equal. f_equal. lia.
      * intros k Hk1 Hk2. rewrite HB2.
        replace (((8 * S (p0 + pb) <=? 8 * p0 + k) && (8 * p0 + k <? 8 * S (p0 + pb) + 64))%nat)
          with true by lia.
        f_equal. rewrite Hsh by lia.
        set (j := 63 - Z.of_nat (8 * p0 + k - 8 * S (p0 + pb)) - e_lack st) in *.
        destruct (Z.ltb_spec j 0) as [Hj|Hj].
        -- apply Z.testbit_neg_r. auto.
        -- replace j with (63 - Z.of_nat (k - b)) by lia.
           rewrite Hcode by lia. apply nth_overflow. fold n. lia.
      * intros k Hk. rewrite HN2. simpl length.
        replace ((k <? S (p0 + pb) + 8)%nat) with false by lia.
        rewrite andb_false_r.
        rewrite HN1 by lia. apply Haft. lia.
    + (* fits in the current byte *)
      apply Some_inj in H; subst st'.
      constructor; cbn [e_buf e_p e_out e_lack]; rewrite ?HBn, ?lack8_spec; fold cbn; clearbody cbn.
      * lia.
      * clear - Hcb Hlack Hge Hb8s Hl0. destruct (Z.eqb_spec (e_lack st - Z.of_nat n) 0); lia.
      * lia.
      * lia.
      * intros k Hk. rewrite HN1 by lia. auto.
      * intros k Hk. destruct (Nat.lt_ge_cases k b) as [Hkb|Hkb].
        -- rewrite nth_error_app1 by auto. apply HB1''; auto.
        -- rewrite HB1' by lia. rewrite nth_error_app2 by auto. fold b.
           rewrite (nth_error_nth' bs (k - b) false) by lia. f_equal. f_equal. lia.
      * intros k Hk1 Hk2.
        rewrite HB1' by lia.
        f_equal. apply nth_overflow. fold n. lia.
      * intros k Hk.
        rewrite HN1 by lia. apply Haft. lia.
Qed.
