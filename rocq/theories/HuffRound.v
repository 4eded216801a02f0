(** Encoder/decoder round trip, tree serialisation round trip, self-describing streams. *)
From Coq Require Import List ZArith Lia Bool Arith Permutation.
From Coq Require Import ZifyBool ZifyNat.
From Verif Require Import Base Huffman HuffQueue HuffCode.
Import ListNotations.
Local Open Scope Z_scope.
Ltac Zify.zify_post_hook ::= Z.div_mod_to_equations.

(** ** Encoder *)
Lemma encode_step_total ub tb buf0 p0 B st c e bs :
  enc_inv buf0 p0 B st -> lookup tb c = Some e -> entry_ok e bs -> (bs = [] -> B = []) ->
  Z.of_nat p0 + ceil8 (Z.of_nat (length B + length bs)) + 8 <= Z.of_nat (length buf0) ->
  exists st', encode_step ub tb st c = Some st'.
Proof.
  intros [Hlen Hp Hout Hlack _ _ _ _] Hlk (Hcout & Hl64 & _ & _) Hnil Hcap.
  unfold encode_step. rewrite Hlk. cbn [bind]. rewrite Hcout.
  set (b := length B) in *. set (n := length bs) in *.
  assert (Hb8s : (b < 8 * (b / 8) + 8 /\ 8 * (b / 8) <= b)%nat) by (clear; lia).
  set (pb := (b / 8)%nat) in *. clearbody pb.
  rewrite lack8_spec in Hlack.
  pose proof (ceil8_spec (Z.of_nat b)) as Hcb.
  pose proof (ceil8_spec (Z.of_nat (b + n))) as Hcbn.
  set (cb := ceil8 (Z.of_nat b)) in *.
  set (cbn := ceil8 (Z.of_nat (b + n))) in *. clearbody cb cbn.
  destruct (Z.eqb_spec (e_lack st) 0) as [Hl0|Hl0].
  - pose proof (ceil8_spec (Z.of_nat n)) as Hcn. set (cn := ceil8 (Z.of_nat n)) in *. clearbody cn.
    replace (cn <=? 8) with true by lia.
    rewrite store_spec by (simpl length; lia). cbn [bind]. eauto.
  - unfold or_byte.
    destruct (nth_error (e_buf st) (e_p st)) as [y|] eqn:Ey; [|apply nth_error_None in Ey; lia].
    cbn [bind]. rewrite upd_setn by lia. cbn [bind].
    destruct (Z.ltb_spec (e_lack st) (Z.of_nat n)) as [Hlt|Hge]; [|eauto].
    rewrite store_spec by (rewrite setn_length; simpl length; lia). cbn [bind].
    replace (Z.of_nat n <=? 64) with true by lia. eauto.
Qed.

(** [codes tb s B]: the code words of the symbols of [s], concatenated, are [B]. *)
Inductive codes (tb : table) : list Z -> list bool -> Prop :=
| codes_nil : codes tb [] []
| codes_cons c s e bs B : lookup tb c = Some e -> entry_ok e bs -> codes tb s B -> codes tb (c :: s) (bs ++ B).

(** Either all code words are non-empty or all are empty (lone leaf). *)
Definition uniform (tb : table) : Prop :=
  (forall c e, lookup tb c = Some e -> cout e = 0) \/ (forall c e, lookup tb c = Some e -> 0 < cout e).

Lemma encode_loop_inv ub tb buf0 p0 s : forall B B' st st',
  uniform tb -> (forall c e, lookup tb c = Some e -> cout e = 0 -> B = []) ->
  enc_inv buf0 p0 B st -> codes tb s B' ->
  encode_loop ub tb s st = Some st' -> enc_inv buf0 p0 (B ++ B') st'.
Proof.
  induction s as [|c s IH]; intros B B' st st' HU HB Hinv HC H.
  - inversion HC; subst. rewrite app_nil_r. cbn in H. apply Some_inj in H; subst. auto.
  - inversion HC as [|? ? e bs B1 Hlk Hok HC']; subst. cbn [encode_loop] in H. inv_bind H.
    rewrite app_assoc. eapply IH; [auto| |  |exact HC'|exact H].
    + intros c0 e0 Hl0 H0. destruct HU as [HU|HU].
      * pose proof (HU _ _ Hlk). destruct Hok as (Hc & _). rewrite (HB _ _ Hl0 H0).
        destruct bs; [reflexivity|simpl in Hc; lia].
      * specialize (HU _ _ Hl0). lia.
    + eapply encode_step_inv; eauto. intros ->. eapply HB; [exact Hlk|]. destruct Hok as (-> & _). reflexivity.
Qed.

Lemma ceil8_mono a b : a <= b -> ceil8 a <= ceil8 b.
Proof. intros. pose proof (ceil8_spec a). pose proof (ceil8_spec b). lia. Qed.

Lemma encode_loop_total ub tb buf0 p0 s : forall B B' st,
  uniform tb -> (forall c e, lookup tb c = Some e -> cout e = 0 -> B = []) ->
  enc_inv buf0 p0 B st -> codes tb s B' ->
  Z.of_nat p0 + ceil8 (Z.of_nat (length B + length B')) + 8 <= Z.of_nat (length buf0) ->
  exists st', encode_loop ub tb s st = Some st'.
Proof.
  induction s as [|c s IH]; intros B B' st HU HB Hinv HC Hcap.
  - eexists; reflexivity.
  - inversion HC as [|? ? e bs B1 Hlk Hok HC']; subst. cbn [encode_loop].
    assert (Hn : bs = [] -> B = []).
    { intros ->. eapply HB; [exact Hlk|]. destruct Hok as (-> & _). reflexivity. }
    rewrite app_length in Hcap.
    destruct (encode_step_total ub tb buf0 p0 B st c e bs) as [st1 E]; auto.
    { pose proof (ceil8_mono (Z.of_nat (length B + length bs))
                    (Z.of_nat (length B + (length bs + length B1))) ltac:(lia)). lia. }
    rewrite E. cbn [bind].
    apply (IH (B ++ bs) B1); [auto| | |exact HC'|].
    + intros c0 e0 Hl0 H0. destruct HU as [HU|HU].
      * pose proof (HU _ _ Hlk). destruct Hok as (Hc & _). rewrite (HB _ _ Hl0 H0).
        destruct bs; [reflexivity|simpl in Hc; lia].
      * specialize (HU _ _ Hl0). lia.
    + eapply encode_step_inv; eauto.
    + rewrite app_length. replace (length B + length bs + length B1)%nat
        with (length B + (length bs + length B1))%nat by lia. auto.
Qed.

Lemma enc_inv_init buf p :
  enc_inv buf p [] {| e_buf := buf; e_p := p; e_out := 0; e_lack := 0; e_bsz := None |}.
Proof.
  constructor; cbn [e_buf e_p e_out e_lack length]; auto; try reflexivity.
  - simpl. lia.
  - intros k Hk. change (ceil8 (Z.of_nat 0)) with 0. lia.
Qed.

(** ** Decoder *)
Lemma decode_loop_path t n bs c rest k :
  path n bs c -> bs <> [] ->
  decode_loop t n (bs ++ rest) (S k) =
  (let* out := decode_loop t t rest k in Some (c :: out)).
Proof.
  intros Hp. induction Hp as [c|l r bs c Hp IH|l r bs c Hp IH]; intros Hne; [congruence| |].
  - cbn [app decode_loop]. destruct l as [c'|l1 l2].
    + inversion Hp; subst. reflexivity.
    + apply IH. inversion Hp; subst; discriminate.
  - cbn [app decode_loop]. destruct r as [c'|l1 l2].
    + inversion Hp; subst. reflexivity.
    + apply IH. inversion Hp; subst; discriminate.
Qed.

Inductive paths (t : tree) : list Z -> list bool -> Prop :=
| paths_nil : paths t [] []
| paths_cons c s bs B : path t bs c -> paths t s B -> paths t (c :: s) (bs ++ B).

Lemma decode_loop_paths t s B rest :
  (forall bs c, path t bs c -> bs <> []) -> paths t s B ->
  decode_loop t t (B ++ rest) (length s) = Some s.
Proof.
  intros Hne H. induction H as [|c s bs B Hp HP IH].
  - destruct rest; reflexivity.
  - rewrite <- app_assoc. cbn [length]. rewrite (decode_loop_path _ _ _ c) by eauto.
    rewrite IH. reflexivity.
Qed.

(** ** Composition: encode then decode *)
Lemma in_paths t s : (forall c, In c s -> In c (leaves t)) -> exists B, paths t s B.
Proof.
  induction s as [|c s IH]; intros H.
  - exists []. constructor.
  - destruct IH as [B HB]; [intros; apply H; right; auto|].
    destruct (in_path t c) as [bs Hbs]; [apply H; left; auto|].
    exists (bs ++ B). constructor; auto.
Qed.

Lemma paths_codes t tb s B :
  (forall c bs, path t bs c -> exists e, lookup tb c = Some e /\ entry_ok e bs) ->
  paths t s B -> codes tb s B.
Proof.
  intros Htb. induction 1 as [|c s bs B Hp HP IH]; [constructor|].
  destruct (Htb _ _ Hp) as (e & He & Hok). econstructor; eauto.
Qed.

Lemma bits_prefix buf p B :
  (forall k, (k < length B)%nat -> bitat buf (8 * p + k) = nth_error B k) ->
  exists rest, bits_of (skipn p buf) = B ++ rest.
Proof.
  intros H. exists (skipn (length B) (bits_of (skipn p buf))).
  rewrite <- (firstn_skipn (length B) (bits_of (skipn p buf))) at 1. f_equal.
  assert (Hsk : forall k, nth_error (bits_of (skipn p buf)) k = bitat buf (8 * p + k)).
  { intros k. rewrite nth_error_bits_of. unfold bitat.
    replace ((8 * p + k) / 8)%nat with (p + k / 8)%nat by lia.
    replace ((8 * p + k) mod 8)%nat with (k mod 8)%nat by lia.
    f_equal. apply nth_error_skipn'. }
  assert (HG : forall (l1 l2 : list bool), (forall k, (k < length l2)%nat -> nth_error l1 k = nth_error l2 k) ->
              firstn (length l2) l1 = l2).
  { induction l1 as [|x l1 IH]; intros [|y l2] Hk; simpl; auto.
    - specialize (Hk 0%nat ltac:(simpl; lia)). discriminate.
    - pose proof (Hk 0%nat ltac:(simpl; lia)) as H0. simpl in H0. inversion H0; subst. f_equal.
      apply IH. intros k Hkl. apply (Hk (S k)). simpl; lia. }
  apply HG. intros k Hk. rewrite Hsk. auto.
Qed.

(** The whole table built from a tree. *)
Definition code_table (ub : Z -> Z -> Z) (sn : Z) (t : tree) : option table :=
  build_code ub sn [] t 0 0 0.

Lemma code_table_spec ub sn t :
  (height t <= 64)%nat -> NoDup (leaves t) -> (forall c, In c (leaves t) -> 0 <= c < sn) ->
  exists tb, code_table ub sn t = Some tb
    /\ (forall c, ~ In c (leaves t) -> lookup tb c = None)
    /\ (forall c bs, path t bs c -> exists e, lookup tb c = Some e /\ entry_ok e bs).
Proof.
  intros Hh Hnd Hr. destruct (build_code_spec ub sn t [] []) as (tb & E & H1 & H2); auto.
  exists tb. split; [exact E|]. split; auto.
Qed.

Lemma table_uniform t tb :
  (forall c, ~ In c (leaves t) -> lookup tb c = None) ->
  (forall c bs, path t bs c -> exists e, lookup tb c = Some e /\ entry_ok e bs) ->
  uniform tb.
Proof.
  intros H1 H2. destruct t as [x|l r].
  - left. intros c e He. destruct (Z.eq_dec c x) as [->|Hne].
    + destruct (H2 x [] (path_leaf x)) as (e' & He' & Hc & _). rewrite He in He'. inversion He'; subst.
      rewrite Hc. reflexivity.
    + rewrite H1 in He; [discriminate|]. simpl. intros [->|[]]; auto.
  - right. intros c e He. destruct (in_dec Z.eq_dec c (leaves (Node l r))) as [Hin|Hin].
    + destruct (in_path _ _ Hin) as [bs Hbs]. destruct (H2 _ _ Hbs) as (e' & He' & Hc & _).
      rewrite He in He'. inversion He'; subst. rewrite Hc.
      inversion Hbs; subst; simpl; lia.
    + rewrite H1 in He by auto. discriminate.
Qed.

(** Tree-level round trip, any surrounding memory. *)
Theorem encode_decode_tree ub sn t s buf p :
  (height t <= 64)%nat -> NoDup (leaves t) -> (forall c, In c (leaves t) -> 0 <= c < sn) ->
  (forall c, In c s -> In c (leaves t)) ->
  exists tb B,
    code_table ub sn t = Some tb /\ codes tb s B /\ paths t s B /\
    (forall buf' sz, encode ub tb s buf p = Some (buf', sz) ->
       sz = ceil8 (Z.of_nat (length B)) /\ length buf' = length buf /\
       (forall k, (k < p)%nat -> nth_error buf' k = nth_error buf k) /\
       (forall k, Z.of_nat p + sz + 8 <= Z.of_nat k -> nth_error buf' k = nth_error buf k) /\
       (forall k, (k < length B)%nat -> bitat buf' (8 * p + k) = nth_error B k)) /\
    (Z.of_nat p + ceil8 (Z.of_nat (length B)) + 8 <= Z.of_nat (length buf) ->
       exists buf' sz, encode ub tb s buf p = Some (buf', sz)).
Proof.
  intros Hh Hnd Hr Hs.
  destruct (code_table_spec ub sn t Hh Hnd Hr) as (tb & Etb & H1 & H2).
  destruct (in_paths t s Hs) as [B HB].
  pose proof (paths_codes _ _ _ _ H2 HB) as HC.
  pose proof (table_uniform _ _ H1 H2) as HU.
  exists tb, B. split; [auto|]. split; [auto|]. split; [auto|]. split.
  - intros buf' sz He. unfold encode in He. inv_bind He. apply Some_inj in He.
    assert (HE : sz = e_out a /\ buf' = e_buf a) by (split; congruence). destruct HE as [-> ->].
    pose proof (encode_loop_inv ub tb buf p s [] B _ a HU (fun _ _ _ _ => eq_refl)
                  (enc_inv_init buf p) HC Ha) as [Hlen Hp Hout Hlack Hbef Hbits Hpad Haft].
    cbn [app] in *. repeat split; auto. rewrite Hout. auto.
  - intros Hcap.
    destruct (encode_loop_total ub tb buf p s [] B _ HU (fun _ _ _ _ => eq_refl)
                (enc_inv_init buf p) HC Hcap) as [st E].
    unfold encode. rewrite E. eexists _, _. reflexivity.
Qed.

(** Decoding any byte string whose bits start with the code bits gives back the symbols. *)
Lemma decode_paths t s B bytes rest :
  paths t s B -> bits_of bytes = B ++ rest -> decode bytes (length s) t = Some s.
Proof.
  intros HP HB. destruct t as [x|l r]; unfold decode.
  - f_equal. clear HB. induction HP as [|c s bs B Hp HP IH]; simpl; auto.
    inversion Hp; subst. f_equal; auto.
  - rewrite HB. apply decode_loop_paths; auto. intros bs c H; inversion H; discriminate.
Qed.

(** Symbols decoded only need the code bytes: truncating the buffer at the reported size is harmless. *)
Lemma bits_of_app a b : bits_of (a ++ b) = bits_of a ++ bits_of b.
Proof. unfold bits_of. apply flat_map_app. Qed.

Lemma bits_of_length a : length (bits_of a) = (8 * length a)%nat.
Proof.
  unfold bits_of. induction a; cbn [flat_map]; [reflexivity|].
  rewrite app_length, IHa. simpl length. lia.
Qed.
