(** Encoder/decoder agreement for the multilevel codec, for every arithmetic. *)
From Coq Require Import List ZArith Lia Bool Arith.
From Coq Require Import ZifyBool ZifyNat.
From Verif Require Import Base Huffman HuffStream HuffProps Stream Arith Mesh2D Derive2D Codec2D Sync2D Stream2D Scan Sz3 Sz3Order.
Import ListNotations.
Local Open Scope Z_scope.

Definition zeros (l : list Z) : nat := count_occ Z.eq_dec l 0.
Lemma zeros_app a b : zeros (a ++ b) = (zeros a + zeros b)%nat.
Proof. apply count_occ_app. Qed.

Lemma int32_id wrap z : - 2 ^ 31 <= z < 2 ^ 31 -> int32 wrap z = Some z.
Proof. intros. unfold int32. replace ((- 2 ^ 31 <=? z) && (z <? 2 ^ 31)) with true by lia. reflexivity. Qed.
Lemma int32_range wrap z z' : int32 wrap z = Some z' -> - 2 ^ 31 <= z' < 2 ^ 31.
Proof.
  unfold int32. destruct ((- 2 ^ 31 <=? z) && (z <? 2 ^ 31)) eqn:E.
  - intros H. apply Some_inj in H. lia.
  - destruct wrap; [|discriminate]. intros H. apply Some_inj in H. pose proof (Z.mod_pos_bound (z + 2 ^ 31) (2 ^ 32) ltac:(lia)). lia.
Qed.

Section Sync.
Context (A : Arith).

(** What the quantiser does. *)
Inductive quantized (wrap : bool) (data pred eb : T A) : Z -> T A -> list (T A) -> Prop :=
| qz_stored : quantized wrap data pred eb 0 data [data]
| qz_coded c n qi q : teq A eb (t0 A) = false -> ttoint A (tdiv A (tabs A (tsub A data pred)) eb) = Some c ->
    int32 wrap (c + 1) = Some n -> n < 65536 ->
    (tlt A (tsub A data pred) (t0 A) = true /\ int32 wrap (- (2 * Z.shiftr n 1)) = Some qi /\ q = intv_radius - Z.shiftr n 1 \/
     tlt A (tsub A data pred) (t0 A) = false /\ qi = 2 * Z.shiftr n 1 /\ q = intv_radius + Z.shiftr n 1) ->
    tlt A eb (tabs A (tsub A (tadd A pred (tmul A (tofZ A qi) eb)) data)) = false ->
    quantized wrap data pred eb q (tadd A pred (tmul A (tofZ A qi) eb)) [].

Lemma quantized_inv wrap data pred eb q x un : quantize_and_overwrite A wrap data pred eb = Some (q, x, un) -> quantized wrap data pred eb q x un.
Proof.
  unfold quantize_and_overwrite. destruct (teq A eb (t0 A)) eqn:E0.
  { intros H. apply Some_inj in H. inversion H; subst. constructor. }
  intros H. bind_as H c Ec. bind_as H n En. destruct (Z.ltb_spec n (intv_radius * 2)) as [Ln|Ln].
  2: { apply Some_inj in H. inversion H; subst. constructor. }
  bind_as H [qi sh] Eq. destruct (tlt A eb _) eqn:El; [apply Some_inj in H; inversion H; subst; constructor|].
  apply Some_inj in H. apply pair_equal_spec in H as [H Hu]. apply pair_equal_spec in H as [Hq Hx]. subst q x un. apply (qz_coded _ _ _ _ c n); auto.
  destruct (tlt A (tsub A data pred) (t0 A)).
  - left. bind_as Eq n' En'. apply Some_inj in Eq. apply pair_equal_spec in Eq as [<- <-]. auto.
  - right. apply Some_inj in Eq. apply pair_equal_spec in Eq as [<- <-]. auto.
Qed.

Lemma shiftr1 n : Z.shiftr n 1 = n / 2.
Proof. rewrite Z.shiftr_div_pow2 by lia. reflexivity. Qed.

(** The decompressor computes the same value. *)
Lemma recover_coded wrap data pred eb q x un rest : quantized wrap data pred eb q x un -> zeros [q] = length un ->
  recover A wrap intv_radius pred q eb (un ++ rest) = Some (x, rest).
Proof.
  intros H HZ. destruct H as [|c n qi q E0 Ec En Ln Hd El]; [reflexivity|]. unfold recover.
  assert (N0 : q <> 0). { intros ->. cbn in HZ. discriminate. }
  replace (q =? 0) with false by lia. pose proof (int32_range _ _ _ En) as Rn. rewrite shiftr1 in *.
  assert (Rh : - 2 ^ 30 <= n / 2 <= 32767) by (change (2 ^ 31) with (2 ^ 30 * 2) in Rn; split; [apply Z.div_le_lower_bound; lia|]; assert (n / 2 < 32768) by (apply Z.div_lt_upper_bound; lia); lia).
  destruct Hd as [(_ & Eq & Ed)|(_ & Eq & Ed)]; rewrite Ed.
  - replace (intv_radius - n / 2 - intv_radius) with (- (n / 2)) by lia. rewrite int32_id by lia. cbn [bind].
    replace (2 * - (n / 2)) with (- (2 * (n / 2))) by lia. rewrite Eq. reflexivity.
  - replace (intv_radius + n / 2 - intv_radius) with (n / 2) by lia. rewrite int32_id by lia. cbn [bind].
    rewrite int32_id by lia. cbn [bind app]. subst qi. reflexivity.
Qed.

Lemma quantized_zeros wrap data pred eb q x un : quantized wrap data pred eb q x un -> (length un <= zeros [q])%nat.
Proof. intros [|]; cbn [length]; [reflexivity|lia]. Qed.

(** ** One point *)
Inductive step_facts wrap max_eb r1 r2 (U V U' V' : list (T A)) v : code (T A) -> Prop :=
| facts req id ab u w pu pw qu qw u' w' nu nw :
  derive_eb_abs A (level_eb A max_eb (v_half v)) U V r1 r2 (v_i v) (v_j v) = Some req ->
  eb_exponential_quantize A 4 (eps_double A) req = Some (id, ab) ->
  aget U (v_p v) = Some u -> aget V (v_p v) = Some w ->
  predict A (aget U) (v_p v) (v_s v) (v_kind v) = Some pu -> predict A (aget V) (v_p v) (v_s v) (v_kind v) = Some pw ->
  quantize_and_overwrite A wrap u pu (d2t A ab) = Some (qu, u', nu) -> quantize_and_overwrite A wrap w pw (d2t A ab) = Some (qw, w', nw) ->
  aset U (v_p v) u' = Some U' -> aset V (v_p v) w' = Some V' ->
  step_facts wrap max_eb r1 r2 U V U' V' v {| c_eb := [id]; c_q := [qu; qw]; c_unp := nu ++ nw |}.

Lemma sz3_point_inv wrap max_eb r1 r2 U V U' V' v c :
  sz3_point A wrap max_eb r1 r2 (U, V) v = Some ((U', V'), c) -> step_facts wrap max_eb r1 r2 U V U' V' v c.
Proof.
  unfold sz3_point. intros H. bind_as H req Er. bind_as H [id ab] Eq. bind_as H u Eu. bind_as H pu Epu. bind_as H [[qu u'] nu] Equ.
  bind_as H U1 EU. bind_as H w Ew. bind_as H pw Epw. bind_as H [[qw w'] nw] Eqw. bind_as H V1 EV.
  apply Some_inj in H. injection H as -> -> ->. econstructor; eassumption.
Qed.

Lemma step_zeros wrap max_eb r1 r2 s s' v c : sz3_point A wrap max_eb r1 r2 s v = Some (s', c) -> (length (c_unp c) <= zeros (c_q c))%nat.
Proof.
  destruct s as [U V], s' as [U' V']. intros H. apply sz3_point_inv in H.
  destruct H as [req id ab u w pu pw qu qw u' w' nu nw _ _ _ _ _ _ Equ Eqw _ _]. cbn [c_unp c_q]. rewrite app_length.
  change [qu; qw] with ([qu] ++ [qw]). rewrite zeros_app.
  apply quantized_inv, quantized_zeros in Equ. apply quantized_inv, quantized_zeros in Eqw. lia.
Qed.

Lemma run_zeros wrap max_eb r1 r2 : forall vs s s' c, scan_enc (sz3_point A wrap max_eb r1 r2) vs s = Some (s', c) ->
  (length (c_unp c) <= zeros (c_q c))%nat.
Proof.
  induction vs as [|v vs IH]; intros s s' c H; cbn [scan_enc] in H.
  - apply Some_inj in H. injection H as _ ->. cbn. lia.
  - bind_as H [s1 c1] E1. bind_as H [s2 c2] E2. apply Some_inj in H. injection H as _ ->.
    apply step_zeros in E1. apply IH in E2. cbn [code_app c_unp c_q]. rewrite app_length, zeros_app. lia.
Qed.

(** The decoder's array agrees with the encoder's on the points [P]. *)
Definition agree (P : Z -> Prop) (w : list (T A)) (d : list (option (T A))) : Prop :=
  length d = length w /\ forall q, P q -> aget d q = option_map Some (aget w q).

Lemma agree_get P w d q x : agree P w d -> P q -> aget w q = Some x -> uget d q = Some x.
Proof. intros [_ H] HP E. unfold uget. rewrite H, E by auto. reflexivity. Qed.

Lemma agree_set P w d q x w' : agree P w d -> aset w q x = Some w' ->
  exists d', aset d q (Some x) = Some d' /\ agree (fun p => P p \/ p = q) w' d'.
Proof.
  intros [HL H] E. destruct (aset_Some _ _ _ _ E) as (R & L & G). destruct (aset_ok d q (Some x)) as [d' E']; [lia|].
  exists d'. split; [auto|]. destruct (aset_Some _ _ _ _ E') as (_ & L' & G'). split; [lia|].
  intros p Hp. rewrite G, G'. destruct (Z.eqb_spec p q); [reflexivity|]. apply H. tauto.
Qed.

Lemma predict_agree P w d v x : agree P w d -> (forall q, In q (reads v) -> P q) ->
  predict A (aget w) (v_p v) (v_s v) (v_kind v) = Some x -> predict A (uget d) (v_p v) (v_s v) (v_kind v) = Some x.
Proof.
  intros HA HR. unfold reads in HR.
  assert (G : forall t y, In t (taps (v_kind v)) -> aget w (v_p v + t * v_s v) = Some y -> uget d (v_p v + t * v_s v) = Some y).
  { intros t y Ht E. eapply agree_get; eauto. apply HR. apply in_map_iff. eauto. }
  clear HR HA. destruct v as [vi vj p s k h]. cbn [v_p v_s v_kind] in *.
  assert (G1 : forall y, In (-1) (taps k) -> aget w (p - s) = Some y -> uget d (p - s) = Some y).
  { intros y Hy. replace (p - s) with (p + -1 * s) by ring. apply G. auto. }
  assert (G2 : forall y, In 1 (taps k) -> aget w (p + s) = Some y -> uget d (p + s) = Some y).
  { intros y Hy. replace (p + s) with (p + 1 * s) by ring. apply G. auto. }
  assert (G3 : forall y, In (-3) (taps k) -> aget w (p - 3 * s) = Some y -> uget d (p - 3 * s) = Some y).
  { intros y Hy. replace (p - 3 * s) with (p + -3 * s) by ring. apply G. auto. }
  assert (G4 : forall y, In 3 (taps k) -> aget w (p + 3 * s) = Some y -> uget d (p + 3 * s) = Some y).
  { intros y Hy. apply G. auto. }
  clear G. destruct k; unfold predict; cbn [taps In] in *; intros H.
  - exact H.
  - bind_as H a Ea. bind_as H b Eb. rewrite (G1 a), (G2 b) by auto. exact H.
  - bind_as H a Ea. bind_as H b Eb. bind_as H c Ec. rewrite (G1 a), (G2 b), (G4 c) by auto. exact H.
  - bind_as H a Ea. bind_as H b Eb. bind_as H c Ec. bind_as H e Ee. rewrite (G3 a), (G1 b), (G2 c), (G4 e) by auto. exact H.
  - bind_as H a Ea. bind_as H b Eb. bind_as H c Ec. rewrite (G3 a), (G1 b), (G2 c) by auto. exact H.
  - rewrite (G1 x) by auto. reflexivity.
Qed.

Lemma quant_pow r id ab x : eb_exponential_quantize A 4 (eps_double A) r = Some (id, ab) ->
  teq A (d2t A ab) (t0 A) = false -> teq A (d2t A (d0 A)) (t0 A) = true -> x = ab -> x = dmul A (dpow A 4 id) (eps_double A).
Proof.
  unfold eb_exponential_quantize. destruct (dle A r (eps_double A)).
  - intros H E1 E2. apply Some_inj in H. injection H as -> ->. congruence.
  - intros H _ _ ->. bind_as H i Ei. apply Some_inj in H. injection H as -> ->. reflexivity.
Qed.

(** The value handed to the quantiser, if it is used, is the decoder's. *)
Lemma dec_eb (H0 : teq A (d2t A (d0 A)) (t0 A) = true) wrap r id ab data pred q x un rest :
  eb_exponential_quantize A 4 (eps_double A) r = Some (id, ab) ->
  quantize_and_overwrite A wrap data pred (d2t A ab) = Some (q, x, un) -> zeros [q] = length un ->
  recover A wrap intv_radius pred q (d2t A (dmul A (dpow A 4 id) (eps_double A))) (un ++ rest) = Some (x, rest).
Proof.
  intros Eq H HZ. apply quantized_inv in H. destruct (teq A (d2t A ab) (t0 A)) eqn:E.
  - destruct H as [|c n qi q E0]; [reflexivity|congruence].
  - rewrite <- (quant_pow _ _ _ ab Eq E H0 eq_refl). eapply recover_coded; eauto.
Qed.

Lemma run_sync (H0 : teq A (d2t A (d0 A)) (t0 A) = true) wrap max_eb r1 r2 : forall vs P U V dU dV U' V' c rest,
  in_order P vs -> agree P U dU -> agree P V dV ->
  scan_enc (sz3_point A wrap max_eb r1 r2) vs (U, V) = Some ((U', V'), c) -> zeros (c_q c) = length (c_unp c) ->
  exists dU' dV', scan_dec (sz3_dec_point A wrap 4 (eps_double A) intv_radius) (map (fun v => (v_p v, v_s v, v_kind v)) vs) (dU, dV) (code_app c rest) =
     Some ((dU', dV'), rest) /\
   agree (fun q => P q \/ In q (map v_p vs)) U' dU' /\ agree (fun q => P q \/ In q (map v_p vs)) V' dV'.
Proof.
  induction vs as [|v vs IH]; intros P U V dU dV U' V' c rest HO AU AV H HZ; cbn [scan_enc] in H.
  - apply Some_inj in H. injection H as -> -> ->. exists dU, dV. cbn [map scan_dec In]. split; [destruct rest; reflexivity|].
    split; (split; [apply AU || apply AV|intros q [Hq|[]]; first [apply AU|apply AV]; auto]).
  - bind_as H [[U1 V1] c1] E1. bind_as H [[U2 V2] c2] E2. apply Some_inj in H. injection H as -> -> ->.
    cbn [code_app c_q c_unp] in HZ. rewrite zeros_app, app_length in HZ.
    pose proof (step_zeros _ _ _ _ _ _ _ _ E1) as Z1. pose proof (run_zeros _ _ _ _ _ _ _ _ E2) as Z2.
    destruct HO as (_ & HR & HO). apply sz3_point_inv in E1.
    destruct E1 as [req id ab u w pu pw qu qw u' w' nu nw _ Eq Eu Ew Epu Epw Equ Eqw SU SV].
    cbn [c_q c_unp] in HZ, Z1. rewrite app_length in HZ, Z1. change [qu; qw] with ([qu] ++ [qw]) in HZ, Z1. rewrite zeros_app in HZ, Z1.
    pose proof (quantized_zeros _ _ _ _ _ _ _ (quantized_inv _ _ _ _ _ _ _ Equ)) as Zu.
    pose proof (quantized_zeros _ _ _ _ _ _ _ (quantized_inv _ _ _ _ _ _ _ Eqw)) as Zw.
    destruct (agree_set _ _ _ _ _ _ AU SU) as (dU1 & DU & AU1). destruct (agree_set _ _ _ _ _ _ AV SV) as (dV1 & DV & AV1).
    destruct (IH _ U1 V1 dU1 dV1 U2 V2 c2 rest HO AU1 AV1 E2 ltac:(lia)) as (dU2 & dV2 & ED & A1 & A2).
    exists dU2, dV2. split.
    + rewrite code_app_assoc. cbn [map scan_dec]. unfold sz3_dec_point at 1. cbn [code_app c_eb c_q c_unp app].
      rewrite (predict_agree _ _ _ _ _ AU HR Epu). cbn [bind]. rewrite <- !app_assoc.
      rewrite (dec_eb H0 wrap _ _ _ _ _ _ _ _ _ Eq Equ) by lia. cbn [bind]. rewrite DU. cbn [bind].
      rewrite (predict_agree _ _ _ _ _ AV HR Epw). cbn [bind].
      rewrite (dec_eb H0 wrap _ _ _ _ _ _ _ _ _ Eq Eqw) by lia. cbn [bind]. rewrite DV. cbn [bind].
      exact ED.
    + destruct A1 as [L1 A1], A2 as [L2 A2]. split; (split; [assumption|intros q Hq; (apply A1 || apply A2); cbn [map In] in Hq; intuition congruence]).
Qed.

Lemma run_length wrap max_eb r1 r2 : forall vs U V U' V' c,
  scan_enc (sz3_point A wrap max_eb r1 r2) vs (U, V) = Some ((U', V'), c) ->
  length U' = length U /\ length V' = length V /\ length (c_eb c) = length vs /\ length (c_q c) = (2 * length vs)%nat.
Proof.
  induction vs as [|v vs IH]; intros U V U' V' c H; cbn [scan_enc] in H.
  - apply Some_inj in H. injection H as -> -> ->. cbn. auto.
  - bind_as H [[U1 V1] c1] E1. bind_as H [[U2 V2] c2] E2. apply Some_inj in H. injection H as -> -> ->.
    destruct (IH _ _ _ _ _ E2) as (L1 & L2 & L3 & L4). apply sz3_point_inv in E1. destruct E1.
    repeat match goal with E : aset _ _ _ = Some _ |- _ => destruct (aset_Some _ _ _ _ E) as (_ & ? & _); clear E end.
    cbn [code_app c_eb c_q app length]. lia.
Qed.

Theorem sz3_field_sync (H0 : teq A (d2t A (d0 A)) (t0 A) = true) wrap max_eb r1 r2 U V U' V' c :
  1 <= r1 -> 1 <= r2 -> Z.of_nat (length U) = r1 * r2 -> Z.of_nat (length V) = r1 * r2 ->
  enc_sz3 A wrap max_eb r1 r2 U V = Some ((U', V'), c) -> zeros (c_q c) = length (c_unp c) ->
  decode_sz3 A wrap 4 (eps_double A) intv_radius r1 r2 c = Some (U', V').
Proof.
  intros R1 R2 LU LV H HZ. unfold enc_sz3 in H. destruct (visits_order r1 r2 R1 R2) as [HO HP].
  destruct (run_length _ _ _ _ _ _ _ _ _ _ H) as (L1 & L2 & _).
  assert (AI : forall w : list (T A), Z.of_nat (length w) = r1 * r2 -> agree (fun _ => False) w (repeat None (Z.to_nat (r1 * r2)))).
  { intros w Hw. split; [rewrite repeat_length; lia|intros q []]. }
  destruct (run_sync H0 _ _ _ _ _ _ _ _ _ _ _ _ _ code_nil HO (AI _ LU) (AI _ LV) H HZ) as (dU & dV & ED & AU & AV).
  unfold decode_sz3. rewrite dec_visits_same. rewrite code_app_nil in ED. rewrite ED. cbn [bind fst snd].
  assert (W : forall (w : list (T A)) d, Z.of_nat (length w) = r1 * r2 -> agree (fun q => False \/ In q (map v_p (visits r1 r2))) w d -> written d = Some w).
  { intros w d Hw [Hl Ha]. apply synced_written. split; [auto|]. intros m Hm. apply Ha. right. apply HP. lia. }
  rewrite (W U' dU), (W V' dV) by (auto; lia). reflexivity.
Qed.

(** ** Bytes *)
Theorem sz3_round_trip (H0 : teq A (d2t A (d0 A)) (t0 A) = true) wrap max_eb ord ub r1 r2 U V U' V' c junk buf size :
  ser_ok A -> 1 <= r1 -> 1 <= r2 -> Z.of_nat (length U) = r1 * r2 -> Z.of_nat (length V) = r1 * r2 ->
  1 + Z.of_nat (tsize_of A) + 4 < r1 * r2 * Z.of_nat (tsize_of A) ->
  enc_sz3 A wrap max_eb r1 r2 U V = Some ((U', V'), c) -> zeros (c_q c) = length (c_unp c) ->
  max_code_64 ord 2048 (c_eb c) -> max_code_64 ord 131072 (c_q c) -> Z.of_nat (length junk) < 2 ^ 64 ->
  write_pieces ord ub (sz3_pieces A c) junk 0 = Some (buf, size) ->
  decompress_sz3 A wrap r1 r2 (firstn size buf) = Some (U', V').
Proof.
  intros HS R1 R2 LU LV Has HE HZ K1 K2 HJ HW.
  pose proof (sz3_field_sync H0 _ _ _ _ _ _ _ _ _ R1 R2 LU LV HE HZ) as HD.
  unfold enc_sz3 in HE. destruct (run_length _ _ _ _ _ _ _ _ _ _ HE) as (_ & _ & Le & Lq). rewrite visits_length in Le, Lq by auto.
  assert (HF : Forall (piece_ok ord) (sz3_pieces A c)).
  { unfold sz3_pieces, capacity. change (2 * 65536) with 131072. clear - K1 K2.
    repeat apply Forall_cons; try apply Forall_nil; cbn [piece_ok]; try exact Logic.I; (split; [lia|match goal with H : max_code_64 _ ?a _ |- max_code_64 _ ?a _ => exact H end]). }
  pose proof (write_pieces_spec ord ub _ junk 0 buf size HJ HF ltac:(lia) HW) as (_ & _ & cs0 & HC0 & _ & HP & HE0).
  destruct (write_pieces_bytes ord ub _ _ _ _ HJ HF HW) as (cs & HCs & EF).
  assert (Hcnt : Z.of_nat (length (c_unp c)) < 2 ^ 64).
  { assert (HL : (length (concat cs0) <= length junk)%nat) by lia. clear - HC0 HL HS HJ.
    unfold sz3_pieces in HC0. inv_forall2. cbn [concat] in HL. rewrite !app_length in HL.
    pose proof (tser_array_length A (c_unp c) HS). pose proof (tsize_pos A HS). nia. }
  clear HC0 cs0 HP. rewrite EF. unfold sz3_pieces in HCs. inv_forall2. cbn [concat]. unfold decompress_sz3.
  rewrite read_s32_app by lia. cbn [bind].
  rewrite take_bytes_app by (apply (dser_length A HS)). cbn [bind].
  rewrite read_s32_app by (unfold capacity; lia). cbn [bind].
  replace (1 + Z.of_nat (tsize_of A) + 4 <? r1 * r2 * Z.of_nat (tsize_of A)) with true by lia.
  rewrite take_bytes_app by reflexivity. cbn [bind].
  rewrite read_s32_app by (unfold intv_radius; lia). cbn [bind].
  rewrite read_le_app by (change (256 ^ Z.of_nat 8) with (2 ^ 64); lia). cbn [bind].
  rewrite Nat2Z.id. rewrite tread_array_app by auto. cbn [bind].
  rewrite <- Le in Lq. rewrite <- Le, <- Lq.
  match goal with H : forall rest, huffman_decode_tree_and_data (length (c_eb c)) _ = _ |- _ => rewrite H end. cbn [bind].
  match goal with H : forall rest, huffman_decode_tree_and_data (length (c_q c)) _ = _ |- _ => rewrite H end. cbn [bind].
  rewrite (ddes_dser A HS).
  replace {| c_eb := c_eb c; c_q := c_q c; c_unp := c_unp c |} with c by (destruct c; reflexivity).
  exact HD.
Qed.
End Sync.
