(** The 3D log-domain codec at the level of the byte interface, double and float.  Nothing of /repo is modelled here. *)
From Coq Require Import Reals Lra Lia ZArith List Bool.
From Coq Require Import ZifyBool ZifyNat.
From Flocq Require Import Core.Core IEEE754.BinarySingleNaN IEEE754.Binary IEEE754.Bits.
From Verif Require Import Base Huffman HuffStream HuffProps Stream Arith Mesh2D Mesh3D Derive3D Codec2D Sync2D Scan Stream2D Abs3D Sync3D Exact IEEE IEEELaws IEEEQuant
  IEEE2D IEEEAbs2D Api2D RelaxApi2D Cells3D Preserve3D Total3D IEEE3D Log2D LogSync2D LogCells2D LogErr2D LogApi2D Log3D LogSync3D LogErr3D LogCells3D LogTotal3D.
Import ListNotations.
Local Open Scope Z_scope.

(** The Huffman code words of the residual indices are at most 64 bits long. *)
Definition log3_short_with A (req : bound_source A) ord r1 r2 r3 U V W : Prop :=
  forall s c, enc_log3_with A req r1 r2 r3 U V W = Some (s, c) -> max_code_64 ord 131072 (c_q c).
Definition log3_short A (max_eb : D A) ord r1 r2 r3 U V W : Prop :=
  forall s c, enc_log3 A max_eb r1 r2 r3 U V W = Some (s, c) -> max_code_64 ord 131072 (c_q c).

(** At most 65 different symbols between 0 and 64. *)
Lemma small_symbols ord sn s : (forall e, In e s -> 0 <= e <= 64) -> max_code_64 ord sn s.
Proof.
  intros H. apply few_symbols_max_code.
  apply Nat.le_trans with (length (map Z.of_nat (seq 0 65))); [|rewrite map_length, seq_length; lia].
  apply NoDup_incl_length; [apply NoDup_nodup|]. intros e He. apply nodup_In in He. specialize (H e He).
  apply in_map_iff. exists (Z.to_nat e). split; [lia|]. apply in_seq. lia.
Qed.

Section Gen.
Context (A : Arith) (I : ieee A) (HS : ser_ok A) (L : libm_ok A I) (LL : log_libm_ok A I).
Context (Hp24 : (24 <= pT A I)%Z) (B : Z) (HB : (0 <= B <= 100)%Z).

Theorem log3_api req m ord ub r1 r2 r3 U V W junk buf size : (forall n, 0 <= m n <= 5 / 2)%R ->
  0 <= r1 -> 0 < r2 -> 0 < r3 -> source_atmost A I B req m r1 r2 r3 -> sized r1 r2 r3 U -> sized r1 r2 r3 V -> sized r1 r2 r3 W -> Z.of_nat (length junk) < 2 ^ 64 ->
  all_usual A I B U -> all_usual A I B V -> all_usual A I B W -> (forall x, In x U \/ In x V \/ In x W -> log_agree A x) ->
  compress_log3_with A req ord ub r1 r2 r3 U V W junk = Some (buf, size) -> log3_short_with A req ord r1 r2 r3 U V W ->
  exists U' V' W', decompress_log3 A r1 r2 r3 (firstn size buf) = Some (U', V', W') /\
    length U' = length U /\ length V' = length V /\ length W' = length W /\
    forall k u v w u' v' w', aget U k = Some u -> aget V k = Some v -> aget W k = Some w ->
      aget U' k = Some u' -> aget V' k = Some v' -> aget W' k = Some w' ->
      (u' = u /\ v' = v /\ w' = w) \/ ((0 < m k)%R /\ comp_close A I (m k) u u' /\ comp_close A I (m k) v v' /\ comp_close A I (m k) w w').
Proof.
  intros Hm H1 H2 H3 HQ SU SV SW HJ MU MV MW HA H HK. unfold compress_log3_with in H. destruct (1 <=? r1 * r2 * r3) eqn:E1; [|discriminate].
  bind_as H [s c] HEn. destruct s as [[[Ua Va] Wa] [[LU LV] LW]].
  destruct (Z.of_nat (length junk) =? _) eqn:EJ in H; [|discriminate].
  assert (Hsz : 1 <= Z.of_nat (tsize_of A)).
  { pose proof (tsize_pos A HS). lia. }
  assert (Hbig : 3 * (r1 * r2 * r3) < 2 ^ 64) by nia.
  destruct (log3_bound A I L LL Hp24 B HB req m Hm r1 r2 r3 H1 H2 H3 HQ U V W Ua Va Wa LU LV LW c SU SV SW MU MV MW HEn)
    as (Lf & L1 & L2 & L3 & HP).
  assert (I0 : log3_err A I m U V W 0 (U, V, W, (map (log_value A) U, map (log_value A) V, map (log_value A) W))).
  { split; [|split]; eapply (comp_err_init A I LL Hp24 B); eauto. }
  pose proof (log3_err_step A I L LL Hp24 B HB req m Hm r1 r2 r3 H1 H2 H3 HQ U V W MU MV MW) as ST.
  assert (K1 : max_code_64 ord 512 (c_eb c)).
  { apply small_symbols. intros e He.
    pose proof (log3_symbols A req 24 r1 r2 r3 (log3_err A I m U V W) ST U V W _ _ ltac:(lia) I0 (escape_ieee A I L) HEn e He). lia. }
  eexists _, _, _. split.
  - exact (log3_round_trip A req 24 r1 r2 r3 H1 H2 H3 (log3_err A I m U V W) ST ord ub U V W Ua Va Wa LU LV LW c junk buf size HS ltac:(lia) Hbig SU SV SW I0
      (escape_ieee A I L) HA HEn (conj K1 (HK _ _ HEn)) HJ H).
  - unfold sized in SU, SV, SW.
    split; [rewrite log_finals_length; lia|]. split; [rewrite log_finals_length; lia|]. split; [rewrite log_finals_length; lia|]. exact HP.
Qed.
End Gen.

(** What comes back for a component of a point that is not stored verbatim: zero for zero, otherwise a value of the same sign with
    relative error at most b. *)
Definition comp_delivered {p e} (b : R) (x y : binary_float p e) : Prop :=
  if is_zero x then y = B754_zero p e false else rel_differs_le b x y.

Section Double.
Context (lm : Libm binary64 binary64) (L : libm_ok (DA lm) (DA_ieee lm)) (LL : log_libm_ok (DA lm) (DA_ieee lm)).

Lemma usual_double X : (forall x, In x X -> zero_or_usual 100 x) -> all_usual (DA lm) (DA_ieee lm) 100 X.
Proof.
  intros H n x Ex. apply aget_In in Ex. destruct (H x Ex) as (G1 & G2 & G3). exists (B2R 53 1024 x).
  split; [apply (fin_val 53 1024); auto|auto].
Qed.

Theorem log3_bound_double max_eb ord ub r1 r2 r3 U V W junk buf size :
  0 <= r1 -> 0 < r2 -> 0 < r3 -> sized r1 r2 r3 U -> sized r1 r2 r3 V -> sized r1 r2 r3 W -> Z.of_nat (length junk) < 2 ^ 64 ->
  is_finite 53 1024 max_eb = true -> (0 <= B2R 53 1024 max_eb <= 5 / 2)%R -> (forall x, In x U \/ In x V \/ In x W -> zero_or_usual 100 x) ->
  compress_log3 (DA lm) max_eb ord ub r1 r2 r3 U V W junk = Some (buf, size) -> log3_short (DA lm) max_eb ord r1 r2 r3 U V W ->
  exists U' V' W', decompress_log3 (DA lm) r1 r2 r3 (firstn size buf) = Some (U', V', W') /\
    length U' = length U /\ length V' = length V /\ length W' = length W /\
    forall k u v w u' v' w', aget U k = Some u -> aget V k = Some v -> aget W k = Some w ->
      aget U' k = Some u' -> aget V' k = Some v' -> aget W' k = Some w' ->
      let b := (B2R 53 1024 max_eb + bpow radix2 (-13))%R in
      (u' = u /\ v' = v /\ w' = w) \/ (comp_delivered b u u' /\ comp_delivered b v v' /\ comp_delivered b w w').
Proof.
  intros H1 H2 H3 SU SV SW HJ M1 M2 HU H HK.
  assert (HA : forall x, In x U \/ In x V \/ In x W -> log_agree (DA lm) x).
  { intros x Hx. apply agree_double. destruct (HU x Hx) as [F _]. unfold not_nan. destruct x; try discriminate; reflexivity. }
  destruct (log3_api (DA lm) (DA_ieee lm) (DA_ser lm) L LL ltac:(cbn; lia) 100 ltac:(lia) (fun U V W => required_eb3_log (DA lm) max_eb U V W r1 r2 r3)
     (fun _ => B2R 53 1024 max_eb) ord ub r1 r2 r3 U V W junk buf size (fun _ => M2) H1 H2 H3
     (online_atmost (DA lm) (DA_ieee lm) 100 max_eb _ r1 r2 r3 ltac:(lia) ltac:(cbn; lia) ltac:(apply (fin_val 53 1024); auto)) SU SV SW HJ
     (usual_double U ltac:(auto)) (usual_double V ltac:(auto)) (usual_double W ltac:(auto)) HA H HK) as (U' & V' & W' & E & L1 & L2 & L3 & HP).
  exists U', V', W'. do 4 (split; [auto|]). intros k u v w u' v' w' G1 G2 G3 G4 G5 G6 b.
  assert (C : forall x y, is_finite 53 1024 x = true -> comp_close (DA lm) (DA_ieee lm) (B2R 53 1024 max_eb) x y -> comp_delivered b x y).
  { intros x y Fx (r & Er & HZ & HN). apply (val_fin_iff 53 1024) in Er. destruct Er as [_ Er]. unfold comp_delivered. destruct (is_zero x) eqn:Ez.
    - assert (Z : r = 0%R) by (rewrite <- Er; destruct x; try discriminate; reflexivity). rewrite (HZ Z). reflexivity.
    - assert (N : r <> 0%R).
      { rewrite <- Er. destruct x as [|[|]| |s mm ee hb]; try discriminate. intros Z. apply (eq_0_F2R _ _ _) in Z; cbn in Z. destruct s; discriminate. }
      destruct (HN N) as (a & a' & Ea & Ea' & Hs & Hb). apply (val_fin_iff 53 1024) in Ea, Ea'. destruct Ea as [_ <-]. destruct Ea' as [F <-]. split; auto. }
  destruct (HP k u v w u' v' w' G1 G2 G3 G4 G5 G6) as [X|(_ & X & Y & Z)]; [left; auto|right].
  apply aget_In in G1, G2, G3.
  split; [apply C; [apply (proj1 (HU u ltac:(auto)))|auto]|]. split; [apply C; [apply (proj1 (HU v ltac:(auto)))|auto]|apply C; [apply (proj1 (HU w ltac:(auto)))|auto]].
Qed.

Theorem log3_noub_double max_eb r1 r2 r3 U V W : 0 <= r1 -> 0 < r2 -> 0 < r3 ->
  sized r1 r2 r3 U -> sized r1 r2 r3 V -> sized r1 r2 r3 W ->
  is_finite 53 1024 max_eb = true -> (0 <= B2R 53 1024 max_eb <= 5 / 2)%R -> (forall x, In x U \/ In x V \/ In x W -> zero_or_usual 100 x) ->
  exists s c, enc_log3 (DA lm) max_eb r1 r2 r3 U V W = Some (s, c).
Proof.
  intros H1 H2 H3 SU SV SW M1 M2 HU.
  exact (log3_noub (DA lm) (DA_ieee lm) L LL ltac:(cbn; lia) 100 ltac:(lia) (fun U V W => required_eb3_log (DA lm) max_eb U V W r1 r2 r3)
    (fun _ => B2R 53 1024 max_eb) (fun _ => M2) r1 r2 r3 H1 H2 H3
    (online_atmost (DA lm) (DA_ieee lm) 100 max_eb _ r1 r2 r3 ltac:(lia) ltac:(cbn; lia) ltac:(apply (fin_val 53 1024); auto))
    (fun U0 V0 W0 i j k => req_log3_any (DA lm) r1 r2 r3 max_eb U0 V0 W0 i j k) U V W SU SV SW (usual_double U ltac:(auto)) (usual_double V ltac:(auto)) (usual_double W ltac:(auto))).
Qed.
End Double.

Section Float.
Context (lm : Libm binary32 binary64) (L : libm_ok (FA lm) (FA_ieee lm)) (LL : log_libm_ok (FA lm) (FA_ieee lm)).

Lemma usual_float X : (forall x, In x X -> zero_or_usual 38 x) -> all_usual (FA lm) (FA_ieee lm) 38 X.
Proof.
  intros H n x Ex. apply aget_In in Ex. destruct (H x Ex) as (G1 & G2 & G3). exists (B2R 24 128 x).
  split; [apply (fin_val 24 128); auto|auto].
Qed.

Theorem log3_bound_float max_eb ord ub r1 r2 r3 U V W junk buf size :
  0 <= r1 -> 0 < r2 -> 0 < r3 -> sized r1 r2 r3 U -> sized r1 r2 r3 V -> sized r1 r2 r3 W -> Z.of_nat (length junk) < 2 ^ 64 ->
  is_finite 53 1024 max_eb = true -> (0 <= B2R 53 1024 max_eb <= 5 / 2)%R -> (forall x, In x U \/ In x V \/ In x W -> zero_or_usual 38 x) ->
  compress_log3 (FA lm) max_eb ord ub r1 r2 r3 U V W junk = Some (buf, size) -> log3_short (FA lm) max_eb ord r1 r2 r3 U V W ->
  exists U' V' W', decompress_log3 (FA lm) r1 r2 r3 (firstn size buf) = Some (U', V', W') /\
    length U' = length U /\ length V' = length V /\ length W' = length W /\
    forall k u v w u' v' w', aget U k = Some u -> aget V k = Some v -> aget W k = Some w ->
      aget U' k = Some u' -> aget V' k = Some v' -> aget W' k = Some w' ->
      let b := (B2R 53 1024 max_eb + bpow radix2 (-13))%R in
      (u' = u /\ v' = v /\ w' = w) \/ (comp_delivered b u u' /\ comp_delivered b v v' /\ comp_delivered b w w').
Proof.
  intros H1 H2 H3 SU SV SW HJ M1 M2 HU H HK.
  assert (HA : forall x, In x U \/ In x V \/ In x W -> log_agree (FA lm) x).
  { intros x Hx. apply agree_float. destruct (HU x Hx) as [F _]. unfold not_nan. destruct x; try discriminate; reflexivity. }
  destruct (log3_api (FA lm) (FA_ieee lm) (FA_ser lm) L LL ltac:(cbn; lia) 38 ltac:(lia) (fun U V W => required_eb3_log (FA lm) max_eb U V W r1 r2 r3)
     (fun _ => B2R 53 1024 max_eb) ord ub r1 r2 r3 U V W junk buf size (fun _ => M2) H1 H2 H3
     (online_atmost (FA lm) (FA_ieee lm) 38 max_eb _ r1 r2 r3 ltac:(lia) ltac:(cbn; lia) ltac:(apply (fin_val 53 1024); auto)) SU SV SW HJ
     (usual_float U ltac:(auto)) (usual_float V ltac:(auto)) (usual_float W ltac:(auto)) HA H HK) as (U' & V' & W' & E & L1 & L2 & L3 & HP).
  exists U', V', W'. do 4 (split; [auto|]). intros k u v w u' v' w' G1 G2 G3 G4 G5 G6 b.
  assert (C : forall x y, is_finite 24 128 x = true -> comp_close (FA lm) (FA_ieee lm) (B2R 53 1024 max_eb) x y -> comp_delivered b x y).
  { intros x y Fx (r & Er & HZ & HN). apply (val_fin_iff 24 128) in Er. destruct Er as [_ Er]. unfold comp_delivered. destruct (is_zero x) eqn:Ez.
    - assert (Z : r = 0%R) by (rewrite <- Er; destruct x; try discriminate; reflexivity). rewrite (HZ Z). reflexivity.
    - assert (N : r <> 0%R).
      { rewrite <- Er. destruct x as [|[|]| |s mm ee hb]; try discriminate. intros Z. apply (eq_0_F2R _ _ _) in Z; cbn in Z. destruct s; discriminate. }
      destruct (HN N) as (a & a' & Ea & Ea' & Hs & Hb). apply (val_fin_iff 24 128) in Ea, Ea'. destruct Ea as [_ <-]. destruct Ea' as [F <-]. split; auto. }
  destruct (HP k u v w u' v' w' G1 G2 G3 G4 G5 G6) as [X|(_ & X & Y & Z)]; [left; auto|right].
  apply aget_In in G1, G2, G3.
  split; [apply C; [apply (proj1 (HU u ltac:(auto)))|auto]|]. split; [apply C; [apply (proj1 (HU v ltac:(auto)))|auto]|apply C; [apply (proj1 (HU w ltac:(auto)))|auto]].
Qed.

Theorem log3_noub_float max_eb r1 r2 r3 U V W : 0 <= r1 -> 0 < r2 -> 0 < r3 ->
  sized r1 r2 r3 U -> sized r1 r2 r3 V -> sized r1 r2 r3 W ->
  is_finite 53 1024 max_eb = true -> (0 <= B2R 53 1024 max_eb <= 5 / 2)%R -> (forall x, In x U \/ In x V \/ In x W -> zero_or_usual 38 x) ->
  exists s c, enc_log3 (FA lm) max_eb r1 r2 r3 U V W = Some (s, c).
Proof.
  intros H1 H2 H3 SU SV SW M1 M2 HU.
  exact (log3_noub (FA lm) (FA_ieee lm) L LL ltac:(cbn; lia) 38 ltac:(lia) (fun U V W => required_eb3_log (FA lm) max_eb U V W r1 r2 r3)
    (fun _ => B2R 53 1024 max_eb) (fun _ => M2) r1 r2 r3 H1 H2 H3
    (online_atmost (FA lm) (FA_ieee lm) 38 max_eb _ r1 r2 r3 ltac:(lia) ltac:(cbn; lia) ltac:(apply (fin_val 53 1024); auto))
    (fun U0 V0 W0 i j k => req_log3_any (FA lm) r1 r2 r3 max_eb U0 V0 W0 i j k) U V W SU SV SW (usual_float U ltac:(auto)) (usual_float V ltac:(auto)) (usual_float W ltac:(auto))).
Qed.
End Float.
