(** The offline 2D log codec: fields that go through, a critical point created at a vertex of bound 0, grids too small for its blocks.
    Nothing of /repo is modelled here. *)
From Coq Require Import Reals Lra Lia ZArith List Bool.
From Coq Require Import ZifyBool ZifyNat.
From Flocq Require Import Core.Core IEEE754.BinarySingleNaN IEEE754.Binary IEEE754.Bits.
From Verif Require Import Base Huffman HuffStream HuffProps Stream Arith Mesh2D Derive2D Codec2D Sync2D Stream2D Exact Geo2D Cells2D IEEE IEEELaws IEEEQuant IEEE2D Api2D
  LibmModel LogLibm Witness2D Refute2D Examples2D LinQuant Block BlockSync BlockTile BlockBytes BlockIEEE BlockApi BlockRefute Offline2D OfflineCodec2D OfflineRefute2D
  OfflineApi2D OfflineWitness2D Log2D LogErr2D LogApi2D LogRefute2D OffLog2D OffLogApi2D.
Import ListNotations.
Local Open Scope Z_scope.
Local Notation A := (DA (lmlog64 false)). Local Notation O := (DO (lmlog64 false)).

(** A 6 x 6 field: no zero in the triangle (0,0), (1,0), (1,1), but one at distance 2^-52. *)
Definition gcU : list binary64 := dy (2 ^ 52 + 1) (-52) :: map (fun k => dy k 0)
  [-1;0;-2;0;0; -1;1;-2;-2;0;1; 1;2;0;0;-1;1; -1;0;2;-2;-2;-1; 0;-1;2;0;0;-1; -1;1;-2;0;1;0].
Definition gcV : list binary64 := map (fun k => dy k 0)
  [1;0;-2;2;1;2; -1;0;1;-1;2;-2; 0;-1;2;1;1;0; 2;0;0;1;-1;0; 1;0;-2;1;2;2; 2;1;0;-2;-2;1].
Definition gcE : list binary64 := dy 0 0 :: repeat (dy 1 0) 5 ++ [dy 0 0; dy 0 0] ++ repeat (dy 1 0) 28.
Local Notation gcrun := (compress_offlog A O cb0 ord0 ub0 (dy 1 0) 6 6 gcU gcV (repeat 0 7) (repeat 0 7) (repeat 0 144) (repeat 0 345) (repeat 0 345) (repeat 0 664)).

Lemma gc_ebs : offline_ebs A cb0 (dy 1 0) 6 6 gcU gcV = Some gcE.
Proof.
  assert (H : match offline_ebs A cb0 (dy 1 0) 6 6 gcU gcV with Some E => map bits_of_b64 E | None => [] end = map bits_of_b64 gcE) by (vm_compute; reflexivity).
  destruct (offline_ebs _ _ _ _ _ _ _) as [E|]; [|discriminate H]. f_equal. apply bits_list. exact H.
Qed.

Definition is_val (l : list (option binary64)) (i : Z) (x : binary64) : bool :=
  match aget l i with Some (Some y) => bits_of_b64 y =? bits_of_b64 x | _ => false end.
Lemma is_val_spec l i x : is_val l i x = true -> aget l i = Some (Some x).
Proof.
  unfold is_val. destruct (aget l i) as [[y|]|]; try discriminate. intros H. apply Z.eqb_eq, bits_inj in H. subst. reflexivity.
Qed.
Definition gc_check (run : option (list Z * nat)) (dec : list Z -> option (list (option binary64) * list (option binary64))) : bool :=
  match run with
  | Some (b, s) => match dec (firstn s b) with
      | Some (u, v) => is_val u 0 (dy 1 0) && is_val u 6 (dy (-1) 0) && is_val u 7 (dy 1 0) &&
                       is_val v 0 (dy 1 0) && is_val v 6 (dy (-1) 0) && is_val v 7 (dy 0 0)
      | None => false end
  | None => false end.
Lemma gc_check_spec run dec : gc_check run dec = true -> exists buf size U' V', run = Some (buf, size) /\ dec (firstn size buf) = Some (U', V') /\
  aget U' 0 = Some (Some (dy 1 0)) /\ aget U' 6 = Some (Some (dy (-1) 0)) /\ aget U' 7 = Some (Some (dy 1 0)) /\
  aget V' 0 = Some (Some (dy 1 0)) /\ aget V' 6 = Some (Some (dy (-1) 0)) /\ aget V' 7 = Some (Some (dy 0 0)).
Proof.
  unfold gc_check. destruct run as [[b s]|]; [|discriminate]. intros C. exists b, s. destruct (dec (firstn s b)) as [[u v]|]; [|discriminate C].
  apply andb_true_iff in C. destruct C as [C H6]. apply andb_true_iff in C. destruct C as [C H5]. apply andb_true_iff in C. destruct C as [C H4].
  apply andb_true_iff in C. destruct C as [C H3]. apply andb_true_iff in C. destruct C as [H1 H2].
  exists u, v. repeat split; apply is_val_spec; assumption.
Qed.

(** The values at the vertices of a triangle. *)
Definition valuesat (r2 : Z) (U V : list (option binary64)) (p : Z * Z) (w : R * R) : Prop :=
  exists x y, aget U (fst p * r2 + snd p) = Some (Some x) /\ aget V (fst p * r2 + snd p) = Some (Some y) /\ val64 x = Fin (fst w) /\ val64 y = Fin (snd w).

Lemma valuesat_dy r2 U V p m e m' : Z.abs m < 2 ^ 53 -> Z.abs m' < 2 ^ 53 -> -97 <= e <= 900 ->
  aget U (fst p * r2 + snd p) = Some (Some (dy m e)) -> aget V (fst p * r2 + snd p) = Some (Some (dy m' 0)) ->
  valuesat r2 U V p (IZR m * bpow radix2 e, IZR m')%R.
Proof.
  intros H1 H2 H3 EU EV. eexists _, _. split; [exact EU|]. split; [exact EV|]. cbn [fst snd]. rewrite !dy_val by lia. split; [reflexivity|].
  f_equal. cbn [bpow]. ring.
Qed.

Lemma gc_refuted : exists eb buf size U' V' wa wb wc wa',
  libm_ok A (DA_ieee (lmlog64 false)) /\ log_libm_ok A (DA_ieee (lmlog64 false)) /\
  offline_ebs A cb0 (dy 1 0) 6 6 gcU gcV = Some eb /\ aget eb 0 = Some (dy 0 0) /\ aget eb 6 = Some (dy 0 0) /\ aget eb 7 = Some (dy 0 0) /\
  gcrun = Some (buf, size) /\ decompress_offlog A O 6 6 (firstn size buf) = Some (U', V') /\
  cell 6 6 (0, 0) (1, 0) (1, 1) /\
  valuesat 6 (map Some gcU) (map Some gcV) (0, 0) wa /\ valuesat 6 (map Some gcU) (map Some gcV) (1, 0) wb /\ valuesat 6 (map Some gcU) (map Some gcV) (1, 1) wc /\
  valuesat 6 U' V' (0, 0) wa' /\ valuesat 6 U' V' (1, 0) wb /\ valuesat 6 U' V' (1, 1) wc /\
  wa <> wa' /\ ~ has_cp wa wb wc /\ has_cp wa' wb wc.
Proof.
  destruct (gc_check_spec gcrun (decompress_offlog A O 6 6)) as (buf & size & u & v & E & ED & A1 & A2 & A3 & B1 & B2 & B3); [vm_compute; reflexivity|].
  exists gcE, buf, size, u, v.
  exists (IZR (2 ^ 52 + 1) * bpow radix2 (-52), 1)%R, (IZR (-1) * bpow radix2 0, IZR (-1))%R, (IZR 1 * bpow radix2 0, IZR 0)%R, (IZR 1 * bpow radix2 0, 1)%R.
  split; [apply lmlog64_ok|]. split; [apply lmlog64_log_ok|]. split; [exact gc_ebs|]. split; [reflexivity|]. split; [reflexivity|]. split; [reflexivity|].
  split; [exact E|]. split; [exact ED|]. split; [apply (cell_lower 6 6 0 0); lia|].
  split; [apply valuesat_dy; try lia; reflexivity|]. split; [apply valuesat_dy; try lia; reflexivity|]. split; [apply valuesat_dy; try lia; reflexivity|].
  split; [apply valuesat_dy; try lia; assumption|]. split; [apply valuesat_dy; try lia; assumption|]. split; [apply valuesat_dy; try lia; assumption|].
  assert (P : (IZR (2 ^ 52 + 1) * bpow radix2 (-52) = 1 + bpow radix2 (-52))%R).
  { change (bpow radix2 (-52)) with (/ 4503599627370496)%R. change (2 ^ 52 + 1)%Z with 4503599627370497%Z. field. }
  pose proof (bpow_gt_0 radix2 (-52)) as P52. split; [|split].
  - intros X. apply pair_equal_spec in X. destruct X as [X _]. change (bpow radix2 0) with 1%R in X. lra.
  - intros (l0 & l1 & l2 & H). cbn [fst snd] in H. rewrite P in H. change (bpow radix2 0) with 1%R in H.
    destruct H as (K0 & K1 & K2 & K3 & K4 & K5). assert (l0 = l1) by lra. subst l1.
    assert (l0 * bpow radix2 (-52) + l2 = 0)%R by lra. assert (0 <= l0 * bpow radix2 (-52))%R by (apply Rmult_le_pos; lra).
    assert (l2 = 0)%R by lra. subst l2. assert (l0 = / 2)%R by lra. subst l0. lra.
  - exists (/ 2)%R, (/ 2)%R, 0%R. cbn [fst snd]. change (bpow radix2 0) with 1%R. repeat split; lra.
Qed.

(** ** The hypotheses of the round-trip theorem hold *)
Definition few_offlog {A O} cbrt (e : D A) (r1 r2 : Z) (U V : list (T A)) : bool :=
  match offline_ebs A cbrt e r1 r2 U V with
  | Some eb => match quantize_logs A eb with
    | Some (ids, bs) => (length (nodup Z.eq_dec ids) <=? 65)%nat &&
        few_blocks (encode_2d_eb A O r1 r2 12 bs (map (log_value A) U)) && few_blocks (encode_2d_eb A O r1 r2 12 bs (map (log_value A) V))
    | _ => false end
  | None => false end.
Lemma few_offlog_short {A O} cbrt ord (e : D A) r1 r2 U V : @few_offlog A O cbrt e r1 r2 U V = true -> short_offlog A O cbrt ord e r1 r2 U V.
Proof.
  intros H eb ids bs E1 E2. unfold few_offlog in H. rewrite E1, E2 in H. apply andb_true_iff in H. destruct H as [H H3].
  apply andb_true_iff in H. destruct H as [H1 H2]. split; [apply few_symbols_max_code; apply Nat.leb_le; exact H1|].
  intros X c [-> | ->] Hc; [apply (few_short ord 65536) in H2; specialize (H2 c Hc)|apply (few_short ord 65536) in H3; specialize (H3 c Hc)]; assumption.
Qed.

Lemma zero_one_bounds es : Forall (fun b => b = dy 0 0 \/ b = dy 1 0) es -> log_bounds es.
Proof.
  intros H b Hb. rewrite Forall_forall in H. assert (V0 : val64 (dy 0 0) = Fin 0) by (rewrite dy_val by lia; f_equal; ring).
  assert (V1 : val64 (dy 1 0) = Fin 1) by (rewrite dy_val by lia; f_equal; cbn [bpow]; ring).
  apply (val_fin_iff 53 1024) in V0, V1. destruct V0 as [F0 V0]. destruct V1 as [F1 V1]. unfold log_gap. destruct (H b Hb) as [-> | ->].
  - split; [exact F0|]. rewrite V0. left. pose proof (bpow_ge_0 radix2 (-54)). lra.
  - split; [exact F1|]. rewrite V1. right. split; [|lra]. change 1%R with (bpow radix2 0). apply bpow_le. lia.
Qed.

Lemma gc_usual x : In x gcU \/ In x gcV -> zero_or_usual 100 x.
Proof.
  intros H. assert (G : Forall (zero_or_usual 100) (gcU ++ gcV)).
  { unfold gcU, gcV. cbn [map app]. repeat (apply Forall_cons; [apply dy_usual; lia|]). apply Forall_nil. }
  rewrite Forall_forall in G. apply G. apply in_or_app. auto.
Qed.

Lemma gc_example : exists buf size,
  gcrun = Some (buf, size) /\ libm_ok A (DA_ieee (lmlog64 false)) /\ log_libm_ok A (DA_ieee (lmlog64 false)) /\
  (forall x, In x gcU \/ In x gcV -> zero_or_usual 100 x) /\
  offline_ebs A cb0 (dy 1 0) 6 6 gcU gcV = Some gcE /\ log_bounds gcE /\
  short_offlog A O cb0 ord0 (dy 1 0) 6 6 gcU gcV.
Proof.
  destruct (@runs_ex gcrun) as (buf & size & E); [vm_compute; reflexivity|].
  exists buf, size. split; [exact E|]. split; [apply lmlog64_ok|]. split; [apply lmlog64_log_ok|]. split; [exact gc_usual|]. split; [exact gc_ebs|].
  split; [apply zero_one_bounds; unfold gcE; cbn [repeat app]; repeat (apply Forall_cons; [first [left; reflexivity|right; reflexivity]|]); apply Forall_nil|].
  apply few_offlog_short. vm_compute. reflexivity.
Qed.

(** A 10 x 10 field in single precision; every bound is 1. *)
Definition glU : list Z :=
  [0;1;-1;-1;-1;0;-1;1;1;0;
  0;1;0;0;0;1;1;-1;0;1;
  -1;1;0;1;1;-1;-1;-1;0;-1;
  0;0;1;0;0;0;0;1;-1;1;
  1;1;0;1;1;-1;-1;-1;1;0;
  1;0;1;1;0;0;0;0;-1;1;
  1;0;1;0;0;1;1;1;-1;0;
  1;0;1;-1;-1;1;0;0;0;-1;
  1;0;1;0;0;-1;0;1;-1;-1;
  1;0;1;0;1;1;0;-1;1;1].
Definition glV : list Z :=
  [1;-1;0;-1;1;0;1;1;-1;1;
  -1;1;-1;1;0;1;0;0;1;0;
  -1;0;1;-1;0;1;0;1;0;1;
  0;-1;-1;-1;0;1;0;1;0;1;
  1;-1;1;1;0;1;-1;1;0;1;
  -1;-1;1;-1;-1;0;1;0;0;1;
  1;0;0;-1;0;-1;1;0;1;0;
  -1;1;-1;-1;0;1;-1;0;1;-1;
  1;-1;1;0;-1;1;0;0;1;0;
  -1;0;-1;-1;-1;0;1;1;1;0].
Definition glU32 : list binary32 := map b32_of_b64 (map (fun k => dy k 0) glU).
Definition glV32 : list binary32 := map b32_of_b64 (map (fun k => dy k 0) glV).
Local Notation FA0 := (FA (lmlog32 false)). Local Notation FO0 := (FO (lmlog32 false)).
Lemma gl_ebs : offline_ebs FA0 cb0 (dy 1 0) 10 10 glU32 glV32 = Some (repeat (dy 1 0) 100).
Proof.
  assert (H : match offline_ebs FA0 cb0 (dy 1 0) 10 10 glU32 glV32 with Some E => map bits_of_b64 E | None => [] end = map bits_of_b64 (repeat (dy 1 0) 100))
    by (vm_compute; reflexivity).
  destruct (offline_ebs _ _ _ _ _ _ _) as [E|]; [|discriminate H]. f_equal. apply bits_list. exact H.
Qed.
Local Notation glrun := (compress_offlog FA0 FO0 cb0 ord0 ub0 (dy 1 0) 10 10 glU32 glV32 (repeat 0 3) (repeat 0 3) (repeat 0 400) (repeat 0 480) (repeat 0 480) (repeat 0 379)).

Lemma b32_usual k : Z.abs k <= 1 -> zero_or_usual 100 (b32_of_b64 (dy k 0)).
Proof.
  intros Hk. pose proof (b32_dy k 0 ltac:(lia) ltac:(lia)) as V. apply (val_fin_iff 24 128) in V. destruct V as [V1 V2]. split; [exact V1|].
  rewrite V2. change (bpow radix2 0) with 1%R. rewrite Rmult_1_r, <- abs_IZR.
  assert (K : Z.abs k = 0 \/ Z.abs k = 1) by lia. split.
  - destruct K as [K|K]; [left; f_equal; lia|right]. rewrite K. change (IZR 1) with (bpow radix2 0). apply bpow_le. lia.
  - apply Rle_trans with (IZR 1); [apply IZR_le; lia|]. change (IZR 1) with (bpow radix2 0). apply bpow_le. lia.
Qed.
Lemma gl_usual x : In x glU32 \/ In x glV32 -> zero_or_usual 100 x.
Proof.
  assert (G : Forall (fun k => Z.abs k <= 1) (glU ++ glV)).
  { unfold glU, glV. cbn [app]. repeat (apply Forall_cons; [lia|]). apply Forall_nil. }
  rewrite Forall_forall in G. intros [H|H]; unfold glU32, glV32 in H; rewrite map_map in H; apply in_map_iff in H; destruct H as (k & <- & Hk);
    apply b32_usual, G, in_or_app; auto.
Qed.

Lemma gl_example : exists buf size,
  glrun = Some (buf, size) /\ libm_ok FA0 (FA_ieee (lmlog32 false)) /\ log_libm_ok FA0 (FA_ieee (lmlog32 false)) /\
  (forall x, In x glU32 \/ In x glV32 -> zero_or_usual 100 x) /\
  offline_ebs FA0 cb0 (dy 1 0) 10 10 glU32 glV32 = Some (repeat (dy 1 0) 100) /\ log_bounds (repeat (dy 1 0) 100) /\
  short_offlog FA0 FO0 cb0 ord0 (dy 1 0) 10 10 glU32 glV32.
Proof.
  destruct (@runs_ex glrun) as (buf & size & E); [vm_compute; reflexivity|].
  exists buf, size. split; [exact E|]. split; [apply lmlog32_ok|]. split; [apply lmlog32_log_ok|]. split; [exact gl_usual|]. split; [exact gl_ebs|].
  split; [apply zero_one_bounds, Forall_forall; intros x Hx; right; eapply repeat_spec; exact Hx|].
  apply few_offlog_short. vm_compute. reflexivity.
Qed.

(** ** The block for the bounds is too small on a 2 x 2 grid, whatever the field *)
Lemma take_bytes_len n s b r : take_bytes n s = Some (b, r) -> (length s = n + length r)%nat.
Proof.
  unfold take_bytes. destruct (n <=? length s)%nat eqn:E; [|discriminate]. intros H. apply Some_inj in H. inversion H; subst. rewrite skipn_length. lia.
Qed.
Lemma read_le_len n s v r : read_le n s = Some (v, r) -> (length s = n + length r)%nat.
Proof.
  unfold read_le. intros H. bind_as H [b r'] E. apply Some_inj in H. inversion H; subst. apply take_bytes_len in E. exact E.
Qed.
Lemma huffman_header n s o r : huffman_decode_tree_and_data n s = Some (o, r) -> (20 <= length s)%nat.
Proof.
  intros H. unfold huffman_decode_tree_and_data in H. bind_as H [nc s1] E1. bind_as H [ts s2] E2. bind_as H t E3. bind_as H [x s3] E4. bind_as H [sz s4] E5.
  apply read_le_len in E1, E2, E5. apply take_bytes_len in E4. lia.
Qed.

Lemma small_grid_never (A : Arith) O cbrt ord ub max_eb r1 r2 U V pu pv je ju jv junk : r1 * r2 <= 4 ->
  compress_offlog A O cbrt ord ub max_eb r1 r2 U V pu pv je ju jv junk = None.
Proof.
  intros HN. destruct (compress_offlog A O cbrt ord ub max_eb r1 r2 U V pu pv je ju jv junk) as [[b s]|] eqn:E; [exfalso|reflexivity].
  unfold compress_offlog in E. bind_as E p EP. unfold offlog_parts in EP. destruct (1 <=? r1 * r2) eqn:E1; [|discriminate]. bind_as EP eb EE. bind_as EP [ids bs] EQ.
  destruct (Z.of_nat (length je) =? _) eqn:EL; [|discriminate]. bind_as EP [be se] EH.
  pose proof (offline_ebs_len A cbrt _ _ _ _ _ _ EE) as LB. destruct (quantize_logs_spec A eb _ _ EQ) as (L1 & _).
  assert (W : max_code_64 ord 2048 ids).
  { apply few_symbols_max_code. apply Nat.le_trans with (length ids); [apply NoDup_incl_length; [apply NoDup_nodup|intros x Hx; eapply nodup_In; exact Hx]|]. lia. }
  destruct (huffman_stream_round_trip ord ub 2048 ids je 0 be se ltac:(lia) ltac:(lia) W EH) as (_ & Q & _ & _ & ch & _ & HS & HD).
  specialize (HD []). apply huffman_header in HD. rewrite app_length in HD. cbn [length] in HD. lia.
Qed.
Lemma small_grid_ex : exists r1 r2, 2 <= r1 /\ 2 <= r2 /\
  forall (A : Arith) O cbrt ord ub max_eb U V pu pv je ju jv junk,
  compress_offlog A O cbrt ord ub max_eb r1 r2 U V pu pv je ju jv junk = None.
Proof. exists 2, 2. split; [lia|]. split; [lia|]. intros. apply small_grid_never. lia. Qed.
