(** The offline 2D codec: fields that go through, a field that is destroyed, a stream cut at the reported size. *)
From Coq Require Import Reals Lra Lia ZArith List Bool.
From Coq Require Import ZifyBool ZifyNat.
From Flocq Require Import Core.Core IEEE754.BinarySingleNaN IEEE754.Binary IEEE754.Bits.
From Verif Require Import Base Huffman HuffStream HuffProps Stream Arith Mesh2D Derive2D Codec2D Sync2D Stream2D Exact IEEE IEEELaws IEEEQuant IEEE2D Api2D
  LibmModel Witness2D Refute2D Examples2D LinQuant Block BlockSync BlockTile BlockBytes BlockIEEE BlockApi BlockRefute Offline2D OfflineCodec2D OfflineRefute2D
  OfflineApi2D.
Import ListNotations.
Local Open Scope Z_scope.

(** A 4 x 4 field of values 2^-40 and 2^-39. *)
Definition offU : list binary64 := map (fun k => dy k (-40)) [1;2;1;2;1;2;1;2;1;2;1;2;1;2;1;2].
Definition offV : list binary64 := map (fun k => dy k (-40)) [1;1;2;2;2;2;1;1;1;1;2;2;2;2;1;1].
Definition cb0 (x : binary64) : binary64 := x.
Local Notation A := (DA (lm64 false)). Local Notation O := (DO (lm64 false)).
Local Notation offrun slack e junk := (compress_offline A O cb0 slack ord0 ub0 e 4 4 offU offV (repeat 0 7) (repeat 0 7) (repeat 0 128) (repeat 0 153) (repeat 0 153) junk).

Lemma ebs_bits e : match offline_ebs A cb0 e 4 4 offU offV with Some E => map bits_of_b64 E | None => [] end = map bits_of_b64 (repeat e 16) ->
  offline_ebs A cb0 e 4 4 offU offV = Some (repeat e 16).
Proof.
  intros H. destruct (offline_ebs _ _ _ _ _ _ _) as [E|]; [|discriminate H]. f_equal. apply bits_list. exact H.
Qed.
Lemma ebs_11 : offline_ebs A cb0 (dy 1 (-11)) 4 4 offU offV = Some (repeat (dy 1 (-11)) 16).
Proof. apply ebs_bits. vm_compute. reflexivity. Qed.
Lemma ebs_8 : offline_ebs A cb0 (dy 1 (-8)) 4 4 offU offV = Some (repeat (dy 1 (-8)) 16).
Proof. apply ebs_bits. vm_compute. reflexivity. Qed.

(** Run and decompression of the cut and the full stream. *)
Definition cut_check (run : option (list Z * nat)) (dec : list Z -> option (list (option binary64) * list (option binary64))) : bool :=
  match run with
  | Some (b, s) => match dec (firstn s b), dec (firstn (s + 8) b) with None, Some _ => true | _, _ => false end
  | None => false end.
Lemma cut_check_spec run dec : cut_check run dec = true -> exists buf size, run = Some (buf, size) /\ dec (firstn size buf) = None /\ dec (firstn (size + 8) buf) <> None.
Proof.
  unfold cut_check. destruct run as [[b s]|]; [|discriminate]. intros H. exists b, s. split; [reflexivity|].
  destruct (dec (firstn s b)); [discriminate H|]. destruct (dec (firstn (s + 8) b)); [|discriminate H]. split; [reflexivity|discriminate].
Qed.

Lemma exact_block_fails (A : Arith) O cbrt ord ub e r1 r2 U V pu pv je ju jv junk8 buf size junk : ser_ok A ->
  compress_offline A O cbrt 8 ord ub e r1 r2 U V pu pv je ju jv junk8 = Some (buf, size) -> length junk = size ->
  compress_offline A O cbrt 0 ord ub e r1 r2 U V pu pv je ju jv junk = None.
Proof.
  intros HS E HJ. destruct (offline_parts A O cbrt ord ub e r1 r2 U V pu pv je ju jv) as [p|] eqn:EP.
  - pose proof (offline_overflows A O cbrt HS 0 ord ub e r1 r2 U V pu pv je ju jv junk p EP) as OV.
    assert (SZ : size = offline_size p).
    { unfold compress_offline in E. rewrite EP in E. cbn [bind] in E. destruct (_ =? _)%nat in E; [|discriminate E]. bind_as E [b q] W. apply Some_inj in E.
      inversion E; auto. }
    specialize (OV ltac:(lia)). destruct (compress_offline A O cbrt 0 ord ub e r1 r2 U V pu pv je ju jv junk) as [r|]; [|reflexivity]. exfalso. destruct OV as [OV _].
    specialize (OV (ex_intro _ r eq_refl)). lia.
  - unfold compress_offline. rewrite EP. reflexivity.
Qed.

(** The stream cut at the reported size is rejected, with eight more bytes it is accepted; a block of the requested size is overrun. *)
Lemma cut_refuted : exists buf size,
  offrun 8 (dy 1 (-8)) (repeat 0 297) = Some (buf, size) /\
  decompress_offline A O 4 4 (firstn size buf) = None /\ decompress_offline A O 4 4 (firstn (size + 8) buf) <> None /\
  forall junk, length junk = size -> offrun 0 (dy 1 (-8)) junk = None.
Proof.
  destruct (cut_check_spec (offrun 8 (dy 1 (-8)) (repeat 0 297)) (decompress_offline A O 4 4)) as (buf & size & E1 & E2 & E3); [vm_compute; reflexivity|].
  exists buf, size. split; [exact E1|]. split; [exact E2|]. split; [exact E3|]. intros junk HJ.
  exact (exact_block_fails A O cb0 _ _ _ _ _ _ _ _ _ _ _ _ _ _ _ junk (DA_ser _) E1 HJ).
Qed.

Lemma dy_zero_bits x : bits_of_b64 x = 0 -> x = dy 0 0.
Proof. intros H. apply bits_inj. rewrite H. vm_compute. reflexivity. Qed.

Definition zero_check (run : option (list Z * nat)) (dec : list Z -> option (list (option binary64) * list (option binary64))) : bool :=
  match run with
  | Some (b, s) => match dec (firstn (s + 8) b) with Some (u, v) => match aget u 0 with Some (Some y) => bits_of_b64 y =? 0 | _ => false end | None => false end
  | None => false end.
Lemma zero_check_spec run dec : zero_check run dec = true -> exists buf size U' V', run = Some (buf, size) /\ dec (firstn (size + 8) buf) = Some (U', V') /\
  aget U' 0 = Some (Some (dy 0 0)).
Proof.
  unfold zero_check. destruct run as [[b s]|]; [|discriminate]. intros C. exists b, s. destruct (dec (firstn (s + 8) b)) as [[u v]|]; [|discriminate C].
  destruct (aget u 0) as [[y|]|] eqn:EY; try discriminate C. apply Z.eqb_eq in C. apply dy_zero_bits in C. subst y. exists u, v. auto.
Qed.

(** Bound 2^-11 at every vertex, and the 2^-40 of the first vertex comes back as 0. *)
Lemma zero_symbol_refuted : exists buf size U' V' x',
  offline_ebs A cb0 (dy 1 (-11)) 4 4 offU offV = Some (repeat (dy 1 (-11)) 16) /\
  offrun 8 (dy 1 (-11)) (repeat 0 342) = Some (buf, size) /\
  decompress_offline A O 4 4 (firstn (size + 8) buf) = Some (U', V') /\
  aget offU 0 = Some (dy 1 (-40)) /\ aget U' 0 = Some (Some x') /\ val64 x' = Fin 0 /\ val64 (dy 1 (-40)) = Fin (bpow radix2 (-40)).
Proof.
  destruct (zero_check_spec (offrun 8 (dy 1 (-11)) (repeat 0 342)) (decompress_offline A O 4 4)) as (buf & size & u & v & E & ED & EY); [vm_compute; reflexivity|].
  exists buf, size, u, v, (dy 0 0). split; [exact ebs_11|]. split; [exact E|]. split; [exact ED|]. split; [reflexivity|]. split; [exact EY|].
  split; [rewrite dy_val by lia; f_equal; cbn; lra|]. rewrite dy_val by lia. f_equal. ring.
Qed.

(** ** The hypotheses of the round-trip theorem hold for the field with bound 2^-8 *)
Lemma off_ex_bounds (W : list binary64) ks : W = map (fun k => dy k (-40)) ks -> length ks = 16%nat -> Forall (fun k => k = 1 \/ k = 2) ks -> off_bounds W (repeat (dy 1 (-8)) 16).
Proof.
  intros -> HL HF. split; [rewrite map_length, repeat_length; auto|]. intros i x b Hx Hb.
  assert (Eb : b = dy 1 (-8)) by (apply (repeat_spec 16); eapply aget_In; eauto). subst b.
  apply aget_In in Hx. apply in_map_iff in Hx. destruct Hx as (k & <- & Hk). rewrite Forall_forall in HF. specialize (HF k Hk).
  assert (V1 : val64 (dy 1 (-8)) = Fin (bpow radix2 (-8))) by (rewrite dy_val by lia; f_equal; ring).
  assert (V2 : val64 (dy k (-40)) = Fin (IZR k * bpow radix2 (-40))) by (apply dy_val; lia).
  apply (val_fin_iff 53 1024) in V1, V2. destruct V1 as [V1 W1]. destruct V2 as [V2 W2]. split; [exact V2|]. split; [exact V1|].
  rewrite W1, W2. pose proof (bpow_ge_0 radix2 (-8)). split; [auto|]. right.
  assert (B : (bpow radix2 (-40) * bpow radix2 (-8) = bpow radix2 (-48))%R) by (rewrite <- bpow_plus; reflexivity).
  pose proof (bpow_ge_0 radix2 (-40)) as P40.
  assert (1 <= IZR k <= 2)%R by (destruct HF; subst; lra).
  rewrite Rabs_pos_eq by (apply Rmult_le_pos; [lra|auto]). rewrite Rmult_assoc, B.
  assert (bpow radix2 (-49) <= bpow radix2 (-48))%R by (apply bpow_le; lia).
  assert (2 * bpow radix2 (-48) <= bpow radix2 960)%R by (change 2%R with (bpow radix2 1); rewrite <- bpow_plus; apply bpow_le; lia).
  pose proof (bpow_ge_0 radix2 (-48)). split; nra.
Qed.

Definition few_offline {A O} cbrt (e : D A) (r1 r2 : Z) (U V : list (T A)) : bool :=
  match offline_ebs A cbrt e r1 r2 U V with
  | Some eb => match quantize_all A U eb, quantize_all A V eb with
    | Some (iu, eu), Some (iv, ev) => (length (nodup Z.eq_dec (iu ++ iv)) <=? 65)%nat &&
        few_blocks (encode_2d_eb A O r1 r2 12 eu U) && few_blocks (encode_2d_eb A O r1 r2 12 ev V)
    | _, _ => false end
  | None => false end.
Lemma few_offline_short {A O} cbrt ord (e : D A) r1 r2 U V : @few_offline A O cbrt e r1 r2 U V = true -> short_offline A O cbrt ord e r1 r2 U V.
Proof.
  intros H eb iu eu iv ev E1 E2 E3. unfold few_offline in H. rewrite E1, E2, E3 in H. apply andb_true_iff in H. destruct H as [H H3].
  apply andb_true_iff in H. destruct H as [H1 H2]. split; [apply few_symbols_max_code; apply Nat.leb_le; exact H1|].
  split; intros c Hc; [apply (few_short ord 65536) in H2; specialize (H2 c Hc)|apply (few_short ord 65536) in H3; specialize (H3 c Hc)]; assumption.
Qed.

Lemma off_example : exists buf size,
  offrun 8 (dy 1 (-8)) (repeat 0 297) = Some (buf, size) /\
  offline_ebs A cb0 (dy 1 (-8)) 4 4 offU offV = Some (repeat (dy 1 (-8)) 16) /\
  off_bounds offU (repeat (dy 1 (-8)) 16) /\ off_bounds offV (repeat (dy 1 (-8)) 16) /\
  short_offline A O cb0 ord0 (dy 1 (-8)) 4 4 offU offV.
Proof.
  destruct (@runs_ex (offrun 8 (dy 1 (-8)) (repeat 0 297))) as (buf & size & E); [vm_compute; reflexivity|].
  exists buf, size. split; [exact E|]. split; [exact ebs_8|].
  split; [eapply off_ex_bounds; [reflexivity|reflexivity|repeat (apply Forall_cons; [lia|]); apply Forall_nil]|].
  split; [eapply off_ex_bounds; [reflexivity|reflexivity|repeat (apply Forall_cons; [lia|]); apply Forall_nil]|].
  apply few_offline_short. vm_compute. reflexivity.
Qed.

(** An 8 x 8 field of the same kind in single precision (the output block of a 4 x 4 field of floats is too small). *)
Definition ks8U : list Z := concat (repeat [1;2;1;2;1;2;1;2] 8).
Definition ks8V : list Z := concat (repeat ([1;1;2;2;1;1;2;2] ++ [2;2;1;1;2;2;1;1]) 4).
Definition offU32 : list binary32 := map b32_of_b64 (map (fun k => dy k (-40)) ks8U).
Definition offV32 : list binary32 := map b32_of_b64 (map (fun k => dy k (-40)) ks8V).
Local Notation FA0 := (FA (lm32 false)). Local Notation FO0 := (FO (lm32 false)).
Lemma ebs_8_float : offline_ebs FA0 cb0 (dy 1 (-8)) 8 8 offU32 offV32 = Some (repeat (dy 1 (-8)) 64).
Proof.
  assert (H : match offline_ebs FA0 cb0 (dy 1 (-8)) 8 8 offU32 offV32 with Some E => map bits_of_b64 E | None => [] end = map bits_of_b64 (repeat (dy 1 (-8)) 64))
    by (vm_compute; reflexivity).
  destruct (offline_ebs _ _ _ _ _ _ _) as [E|]; [|discriminate H]. f_equal. apply bits_list. exact H.
Qed.
Lemma b32_dy k e : Z.abs k <= 2 ^ 24 -> -126 <= e <= 100 -> val 24 128 (b32_of_b64 (dy k e)) = Fin (IZR k * bpow radix2 e).
Proof.
  intros Hk He. change (val32 (b32_of_b64 (dy k e)) = Fin (IZR k * bpow radix2 e)%R). rewrite val_of_b64.
  change (rndx 24 128 (val64 (dy k e)) = Fin (IZR k * bpow radix2 e)%R). rewrite dy_val by lia. apply rndx_fin.
  - apply (generic_format_FLT radix2 (-149) 24).
    destruct (Z.eq_dec (Z.abs k) (2 ^ 24)) as [Ek|Nk].
    + assert (K : k = 2 ^ 24 \/ k = - 2 ^ 24) by lia.
      exists (Float radix2 (k / 2 ^ 24) (e + 24)); cbn [Fnum Fexp]; [|destruct K; subst; reflexivity|lia].
      unfold F2R. cbn [Fnum Fexp]. rewrite bpow_plus. destruct K as [-> | ->]; [change (2 ^ 24 / 2 ^ 24) with 1|change (- 2 ^ 24 / 2 ^ 24) with (-1)];
        change (bpow radix2 24) with 16777216%R; [change (IZR (2 ^ 24)) with 16777216%R|change (IZR (- 2 ^ 24)) with (-16777216)%R]; ring.
    + exists (Float radix2 k e); [reflexivity| |cbn; lia]. cbn [Fnum]. change (Z.pow_pos 2 24) with (2 ^ 24). change (radix2 ^ 24) with (2 ^ 24). lia.
  - rewrite Rabs_mult, (Rabs_pos_eq (bpow _ _)) by apply bpow_ge_0. apply Rle_lt_trans with (bpow radix2 24 * bpow radix2 e)%R.
    + apply Rmult_le_compat_r; [apply bpow_ge_0|]. rewrite <- abs_IZR. change (bpow radix2 24) with (IZR (2 ^ 24)). apply IZR_le. lia.
    + rewrite <- bpow_plus. apply bpow_lt. lia.
Qed.
Lemma off_ex_bounds_float (W : list binary32) ks : W = map b32_of_b64 (map (fun k => dy k (-40)) ks) -> length ks = 64%nat -> Forall (fun k => k = 1 \/ k = 2) ks ->
  off_bounds W (repeat (dy 1 (-8)) 64).
Proof.
  intros -> HL HF. split; [rewrite !map_length, repeat_length; auto|]. intros i x b Hx Hb.
  assert (Eb : b = dy 1 (-8)) by (apply (repeat_spec 64); eapply aget_In; eauto). subst b.
  apply aget_In in Hx. rewrite map_map in Hx. apply in_map_iff in Hx. destruct Hx as (k & <- & Hk). rewrite Forall_forall in HF. specialize (HF k Hk).
  assert (V1 : val64 (dy 1 (-8)) = Fin (bpow radix2 (-8))) by (rewrite dy_val by lia; f_equal; ring).
  assert (V2 : val 24 128 (b32_of_b64 (dy k (-40))) = Fin (IZR k * bpow radix2 (-40))) by (apply b32_dy; lia).
  apply (val_fin_iff 53 1024) in V1. apply (val_fin_iff 24 128) in V2. destruct V1 as [V1 W1]. destruct V2 as [V2 W2]. split; [exact V2|]. split; [exact V1|].
  rewrite W1, W2. pose proof (bpow_ge_0 radix2 (-8)). split; [auto|]. right.
  assert (B : (bpow radix2 (-40) * bpow radix2 (-8) = bpow radix2 (-48))%R) by (rewrite <- bpow_plus; reflexivity).
  pose proof (bpow_ge_0 radix2 (-40)) as P40.
  assert (1 <= IZR k <= 2)%R by (destruct HF; subst; lra).
  rewrite Rabs_pos_eq by (apply Rmult_le_pos; [lra|auto]). rewrite Rmult_assoc, B.
  assert (bpow radix2 (-49) <= bpow radix2 (-48))%R by (apply bpow_le; lia).
  assert (2 * bpow radix2 (-48) <= bpow radix2 960)%R by (change 2%R with (bpow radix2 1); rewrite <- bpow_plus; apply bpow_le; lia).
  pose proof (bpow_ge_0 radix2 (-48)). split; nra.
Qed.
Local Notation offrun32 slack e junk := (compress_offline FA0 FO0 cb0 slack ord0 ub0 e 8 8 offU32 offV32 (repeat 0 3) (repeat 0 3) (repeat 0 512) (repeat 0 307) (repeat 0 307) junk).
Lemma off_example_float : exists buf size,
  offrun32 8 (dy 1 (-8)) (repeat 0 306) = Some (buf, size) /\
  offline_ebs FA0 cb0 (dy 1 (-8)) 8 8 offU32 offV32 = Some (repeat (dy 1 (-8)) 64) /\
  off_bounds offU32 (repeat (dy 1 (-8)) 64) /\ off_bounds offV32 (repeat (dy 1 (-8)) 64) /\
  short_offline FA0 FO0 cb0 ord0 (dy 1 (-8)) 8 8 offU32 offV32.
Proof.
  destruct (@runs_ex (offrun32 8 (dy 1 (-8)) (repeat 0 306))) as (buf & size & E); [vm_compute; reflexivity|].
  exists buf, size. split; [exact E|]. split; [exact ebs_8_float|].
  split; [eapply off_ex_bounds_float; [reflexivity|reflexivity|repeat (apply Forall_cons; [lia|]); apply Forall_nil]|].
  split; [eapply off_ex_bounds_float; [reflexivity|reflexivity|repeat (apply Forall_cons; [lia|]); apply Forall_nil]|].
  apply few_offline_short. vm_compute. reflexivity.
Qed.
