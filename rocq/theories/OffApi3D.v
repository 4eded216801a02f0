(** The offline 3D codec at the level of the byte interface, double and float, with the repository's cube root.  Nothing of /repo is modelled here. *)
From Coq Require Import Reals Lra Lia ZArith List Bool.
From Coq Require Import ZifyBool ZifyNat.
From Flocq Require Import Core.Core IEEE754.BinarySingleNaN IEEE754.Binary IEEE754.Bits.
From Verif Require Import Base Huffman HuffStream HuffProps Stream Arith Mesh2D Mesh3D Derive3D Codec2D Sync2D Scan Stream2D Abs3D Sync3D Exact IEEE IEEELaws IEEEQuant
  IEEE2D IEEEAbs2D Api2D RelaxApi2D Cells3D Preserve3D Total3D IEEE3D Log2D LogSync2D LogCells2D LogErr2D LogApi2D Log3D LogSync3D LogErr3D LogCells3D LogTotal3D LogApi3D
  LinQuant BlockIEEE Offline2D OfflineField2D Off3D OffField3D Acbrt OffIEEE3D.
Import ListNotations.
Local Open Scope Z_scope.

Section Gen.
Context (A : Arith) (I : ieee A) (O : FOps A) (acbrt : F O -> F O) (J : off_ieee A I O acbrt).

(** The bound of vertex [n]; negative bounds count as 0. *)
Definition eb_m (eb : list (D A)) (n : Z) : R :=
  match aget eb n with Some x => match vD A I x with Fin r => Rmax 0 r | _ => 0%R end | None => 0%R end.
Lemma eb_m_range m n eb p : (0 <= m)%R -> low_ebs A I m n eb -> (0 <= eb_m eb p <= m)%R.
Proof.
  intros Hm [_ H]. unfold eb_m. destruct (aget eb p) as [x|] eqn:E; [|lra]. destruct (H p x E) as [->|(r & -> & Hr)]; [lra|].
  unfold Rmax. destruct (Rle_dec 0 r); lra.
Qed.
Lemma low_source m r1 r2 r3 eb : low_ebs A I m (r1 * r2 * r3) eb -> source_atmost A I 38 (stored_bound A eb r2 r3) (eb_m eb) r1 r2 r3.
Proof.
  intros [_ H] U V W i j k e HG BU BV BW E Hp.
  destruct (atmost_pos _ _ (H _ _ E) ltac:(rewrite (v_dlt A I), (vD_0 A I) in Hp; exact Hp)) as (r & Er & Hr).
  exists r. split; [exact Er|]. unfold stored_bound in E. unfold eb_m. rewrite E, Er, Rmax_right; lra.
Qed.
Lemma stored_total r1 r2 r3 (eb : list (D A)) i j k : Z.of_nat (length eb) = r1 * r2 * r3 -> in_grid r1 r2 r3 (i, j, k) ->
  forall U V W, exists e, stored_bound A eb r2 r3 U V W i j k = Some e.
Proof. intros L HG U V W. apply aget_ok. rewrite L. apply lin3_range. exact HG. Qed.
End Gen.

(** The bounds exist, whatever the arithmetic. *)
Lemma offline3_any A (O : FOps A) acbrt r1 r2 r3 U V W : sized r1 r2 r3 U -> sized r1 r2 r3 V -> sized r1 r2 r3 W ->
  forall ts, (forall t, In t ts -> cell_in r1 r2 r3 t) -> forall eb, Z.of_nat (length eb) = r1 * r2 * r3 ->
  exists eb', fold_opt (offline3_tet A O acbrt r2 r3 U V W) ts eb = Some eb' /\ Z.of_nat (length eb') = r1 * r2 * r3.
Proof.
  unfold sized. intros LU LV LW. induction ts as [|[b n] ts IH]; intros HT eb HL; cbn [fold_opt]; [eauto|].
  assert (HC : cell_in r1 r2 r3 (b, n)) by (apply HT; left; auto).
  assert (GI : forall p, (p <= 2)%nat -> 0 <= lin3 r2 r3 (nbr3 b n p) < r1 * r2 * r3).
  { intros p Hp. apply lin3_range. apply (cell_points r1 r2 r3 b n); auto. unfold around.
    destruct p as [|[|[|p]]]; cbn; auto 6. lia. }
  assert (GB : 0 <= lin3 r2 r3 b < r1 * r2 * r3).
  { apply lin3_range. destruct b as [[i j] k]. unfold cell_in, in_grid in *. cbn [fst snd] in *. lia. }
  assert (PT : forall i, 0 <= i < r1 * r2 * r3 -> exists x, (let* u := aget U i in let* v := aget V i in let* w := aget W i in Some (u, v, w)) = Some x).
  { intros i Hi. destruct (aget_ok U i ltac:(lia)) as [u Eu]. destruct (aget_ok V i ltac:(lia)) as [v Ev]. destruct (aget_ok W i ltac:(lia)) as [w Ew].
    rewrite Eu, Ev, Ew. cbn [bind]. eauto. }
  assert (LO : forall e p cur, Z.of_nat (length e) = r1 * r2 * r3 -> 0 <= p < r1 * r2 * r3 -> exists e', lower_eb A e p cur = Some e' /\ Z.of_nat (length e') = r1 * r2 * r3).
  { intros e p cur Le Hp. unfold lower_eb. destruct (aget_ok e p ltac:(lia)) as [x Ex]. rewrite Ex. cbn [bind].
    destruct (aset_ok e p (minf A x cur) ltac:(lia)) as [e' E']. exists e'. split; [exact E'|]. apply aset_Some in E'. destruct E' as (_ & EL & _). lia. }
  assert (ST : exists eb', offline3_tet A O acbrt r2 r3 U V W eb (b, n) = Some eb' /\ Z.of_nat (length eb') = r1 * r2 * r3).
  { unfold offline3_tet. rewrite !off_nbr.
    destruct (PT _ (GI 0%nat ltac:(lia))) as (x0 & E0). destruct (PT _ (GI 1%nat ltac:(lia))) as (x1 & E1).
    destruct (PT _ (GI 2%nat ltac:(lia))) as (x2 & E2). destruct (PT _ GB) as (x3 & E3).
    rewrite E0, E1, E2, E3. cbn [bind]. generalize (offline3_eb A O acbrt x0 x1 x2 x3). intros cur.
    destruct (LO eb _ cur HL GB) as (e1 & F1 & L1). rewrite F1. cbn [bind].
    destruct (LO e1 _ cur L1 (GI 0%nat ltac:(lia))) as (e2 & F2 & L2). rewrite F2. cbn [bind].
    destruct (LO e2 _ cur L2 (GI 1%nat ltac:(lia))) as (e3 & F3 & L3). rewrite F3. cbn [bind].
    exact (LO e3 _ cur L3 (GI 2%nat ltac:(lia))). }
  destruct ST as (e1 & E1 & L1). rewrite E1. cbn [bind]. apply IH; auto. intros. apply HT. right. auto.
Qed.
Lemma offline3_ebs_any A (O : FOps A) acbrt max_eb r1 r2 r3 U V W : 0 <= r1 -> 0 <= r2 -> 0 <= r3 -> sized r1 r2 r3 U -> sized r1 r2 r3 V -> sized r1 r2 r3 W ->
  exists eb, offline3_ebs A O acbrt max_eb r1 r2 r3 U V W = Some eb /\ Z.of_nat (length eb) = r1 * r2 * r3.
Proof.
  intros H1 H2 H3 SU SV SW. apply offline3_any; auto; [intros t; apply cell_tets_in|]. rewrite repeat_length. nia.
Qed.

Section Double.
Context (lm : Libm binary64 binary64) (L : libm_ok (DA lm) (DA_ieee lm)) (LL : log_libm_ok (DA lm) (DA_ieee lm)).

Lemma off_usual_double X : (forall x, In x X -> zero_or_usual 38 x) -> all_usual (DA lm) (DA_ieee lm) 38 X /\ all_bnd (DA lm) (DA_ieee lm) 38 X.
Proof.
  intros H. split; intros n x Ex; apply aget_In in Ex; destruct (H x Ex) as (G1 & G2 & G3); exists (B2R 53 1024 x);
  (split; [apply (fin_val 53 1024); auto|auto]).
Qed.

Lemma deliver_double m x y : is_finite 53 1024 x = true -> comp_close (DA lm) (DA_ieee lm) m x y -> comp_delivered (m + bpow radix2 (-13)) x y.
Proof.
  intros Fx (r & Er & HZ & HN). apply (val_fin_iff 53 1024) in Er. destruct Er as [_ Er]. unfold comp_delivered. destruct (is_zero x) eqn:Ez.
  - assert (Z : r = 0%R) by (rewrite <- Er; destruct x; try discriminate; reflexivity). rewrite (HZ Z). reflexivity.
  - assert (N : r <> 0%R).
    { rewrite <- Er. destruct x as [|[|]| |s mm ee hb]; try discriminate. intros Z. apply (eq_0_F2R _ _ _) in Z; cbn in Z. destruct s; discriminate. }
    destruct (HN N) as (a & a' & Ea & Ea' & Hs & Hb). apply (val_fin_iff 53 1024) in Ea, Ea'. destruct Ea as [_ <-]. destruct Ea' as [F <-]. split; auto.
Qed.

Local Notation ebs := (offline3_ebs (DA lm) (DO lm) acbrt1).

Lemma ebs_low_double max_eb r1 r2 r3 U V W : 0 <= r1 -> 0 < r2 -> 0 < r3 -> sized r1 r2 r3 U -> sized r1 r2 r3 V -> sized r1 r2 r3 W ->
  is_finite 53 1024 max_eb = true -> (forall x, In x U \/ In x V \/ In x W -> zero_or_usual 38 x) ->
  exists eb, ebs max_eb r1 r2 r3 U V W = Some eb /\ low_ebs (DA lm) (DA_ieee lm) (B2R 53 1024 max_eb) (r1 * r2 * r3) eb.
Proof.
  intros H1 H2 H3 SU SV SW M1 HU. apply (offline3_ebs_low (DA lm) (DA_ieee lm) (DO lm) acbrt1 (DO_off lm)); auto; try lia; [cbn; lia|..|apply (fin_val 53 1024); auto];
    apply off_usual_double; auto.
Qed.

Theorem off3_bound_double max_eb ord ub r1 r2 r3 U V W junk buf size :
  0 <= r1 -> 0 < r2 -> 0 < r3 -> sized r1 r2 r3 U -> sized r1 r2 r3 V -> sized r1 r2 r3 W -> Z.of_nat (length junk) < 2 ^ 64 ->
  is_finite 53 1024 max_eb = true -> (0 <= B2R 53 1024 max_eb <= 5 / 2)%R -> (forall x, In x U \/ In x V \/ In x W -> zero_or_usual 38 x) ->
  compress_off3 (DA lm) (DO lm) acbrt1 max_eb ord ub r1 r2 r3 U V W junk = Some (buf, size) ->
  (forall eb, ebs max_eb r1 r2 r3 U V W = Some eb -> log3_short_with (DA lm) (stored_bound (DA lm) eb r2 r3) ord r1 r2 r3 U V W) ->
  exists eb U' V' W', ebs max_eb r1 r2 r3 U V W = Some eb /\ Z.of_nat (length eb) = r1 * r2 * r3 /\
    decompress_log3 (DA lm) r1 r2 r3 (firstn size buf) = Some (U', V', W') /\
    length U' = length U /\ length V' = length V /\ length W' = length W /\
    forall k e u v w u' v' w', aget eb k = Some e -> aget U k = Some u -> aget V k = Some v -> aget W k = Some w ->
      aget U' k = Some u' -> aget V' k = Some v' -> aget W' k = Some w' ->
      let b := (B2R 53 1024 e + bpow radix2 (-13))%R in
      (B2R 53 1024 e <= B2R 53 1024 max_eb)%R /\
      ((u' = u /\ v' = v /\ w' = w) \/ ((0 < B2R 53 1024 e)%R /\ comp_delivered b u u' /\ comp_delivered b v v' /\ comp_delivered b w w')).
Proof.
  intros H1 H2 H3 SU SV SW HJ M1 M2 HU H HK.
  assert (HA : forall x, In x U \/ In x V \/ In x W -> log_agree (DA lm) x) by (intros x Hx; apply (agree_double lm); destruct (HU x Hx) as [F _]; unfold not_nan; destruct x; try discriminate; reflexivity).
  destruct (ebs_low_double max_eb r1 r2 r3 U V W H1 H2 H3 SU SV SW M1 HU) as (eb & Eb & LB).
  unfold compress_off3 in H. destruct (1 <=? r1 * r2 * r3); [|discriminate]. rewrite Eb in H. cbn [bind] in H.
  destruct (log3_api (DA lm) (DA_ieee lm) (DA_ser lm) L LL ltac:(cbn; lia) 38 ltac:(lia) (stored_bound (DA lm) eb r2 r3)
     (eb_m (DA lm) (DA_ieee lm) eb) ord ub r1 r2 r3 U V W junk buf size
     (fun n => conj (proj1 (eb_m_range _ _ _ _ eb n (proj1 M2) LB)) (Rle_trans _ _ _ (proj2 (eb_m_range _ _ _ _ eb n (proj1 M2) LB)) (proj2 M2))) H1 H2 H3
     (low_source _ _ _ r1 r2 r3 eb LB) SU SV SW HJ
     (proj1 (off_usual_double U ltac:(auto))) (proj1 (off_usual_double V ltac:(auto))) (proj1 (off_usual_double W ltac:(auto))) HA H (HK eb Eb))
    as (U' & V' & W' & E & L1 & L2 & L3 & HP).
  exists eb, U', V', W'. split; [exact Eb|]. split; [exact (proj1 LB)|]. do 4 (split; [auto|]). intros k e u v w u' v' w' G0 G1 G2 G3 G4 G5 G6 b.
  assert (EM : (B2R 53 1024 e <= B2R 53 1024 max_eb)%R /\ eb_m (DA lm) (DA_ieee lm) eb k = Rmax 0 (B2R 53 1024 e)).
  { unfold eb_m. change (D (DA lm)) with binary64 in *. rewrite G0. destruct (proj2 LB k e G0) as [X|(x & X & Hx)]; rewrite X.
    - change (vD (DA lm) (DA_ieee lm) e) with (val64 e) in X. destruct e as [|[|]| |]; try discriminate X. cbn [B2R]. rewrite Rmax_left by lra. lra.
    - apply (val_fin_iff 53 1024) in X. destruct X as [_ ->]. auto. }
  destruct EM as [Ee EM]. split; [exact Ee|]. destruct (HP k u v w u' v' w' G1 G2 G3 G4 G5 G6) as [X|(P & X & Y & Z)]; [left; auto|right].
  rewrite EM in P, X, Y, Z. assert (P' : (0 < B2R 53 1024 e)%R) by (unfold Rmax in P; destruct (Rle_dec 0 (B2R 53 1024 e)); lra).
  rewrite Rmax_right in X, Y, Z by lra. split; [exact P'|]. apply aget_In in G1, G2, G3.
  split; [apply deliver_double; [apply (proj1 (HU u ltac:(auto)))|auto]|].
  split; [apply deliver_double; [apply (proj1 (HU v ltac:(auto)))|auto]|apply deliver_double; [apply (proj1 (HU w ltac:(auto)))|auto]].
Qed.

Theorem off3_noub_double max_eb r1 r2 r3 U V W : 0 <= r1 -> 0 < r2 -> 0 < r3 ->
  sized r1 r2 r3 U -> sized r1 r2 r3 V -> sized r1 r2 r3 W ->
  is_finite 53 1024 max_eb = true -> (0 <= B2R 53 1024 max_eb <= 5 / 2)%R -> (forall x, In x U \/ In x V \/ In x W -> zero_or_usual 38 x) ->
  exists eb s c, ebs max_eb r1 r2 r3 U V W = Some eb /\ enc_log3_with (DA lm) (stored_bound (DA lm) eb r2 r3) r1 r2 r3 U V W = Some (s, c).
Proof.
  intros H1 H2 H3 SU SV SW M1 M2 HU.
  destruct (ebs_low_double max_eb r1 r2 r3 U V W H1 H2 H3 SU SV SW M1 HU) as (eb & Eb & LB). exists eb.
  destruct (log3_noub (DA lm) (DA_ieee lm) L LL ltac:(cbn; lia) 38 ltac:(lia) (stored_bound (DA lm) eb r2 r3)
    (eb_m (DA lm) (DA_ieee lm) eb)
    (fun n => conj (proj1 (eb_m_range _ _ _ _ eb n (proj1 M2) LB)) (Rle_trans _ _ _ (proj2 (eb_m_range _ _ _ _ eb n (proj1 M2) LB)) (proj2 M2))) r1 r2 r3 H1 H2 H3 (low_source _ _ _ r1 r2 r3 eb LB)
    (fun U0 V0 W0 i j k _ _ _ HG => stored_total (DA lm) r1 r2 r3 eb i j k (proj1 LB) HG U0 V0 W0) U V W SU SV SW
    (proj1 (off_usual_double U ltac:(auto))) (proj1 (off_usual_double V ltac:(auto))) (proj1 (off_usual_double W ltac:(auto)))) as (s & c & E).
  exists s, c. auto.
Qed.
End Double.

Theorem off3_machine_double (lm : Libm _ _) max_eb r1 r2 r3 U V W : lm_x86 lm = true -> 0 <= r1 -> 0 < r2 -> 0 < r3 ->
  sized r1 r2 r3 U -> sized r1 r2 r3 V -> sized r1 r2 r3 W ->
  exists eb s c, offline3_ebs (DA lm) (DO lm) acbrt1 max_eb r1 r2 r3 U V W = Some eb /\ enc_log3_with (DA lm) (stored_bound (DA lm) eb r2 r3) r1 r2 r3 U V W = Some (s, c).
Proof.
  intros HX H1 H2 H3 SU SV SW. destruct (offline3_ebs_any (DA lm) (DO lm) acbrt1 max_eb r1 r2 r3 U V W H1 ltac:(lia) ltac:(lia) SU SV SW) as (eb & Eb & LB).
  exists eb. assert (CV : forall x, exists z, dtoint (DA lm) x = Some z).
  { intros x. rewrite (v_dtoint (DA lm) (DA_ieee lm)). cbn [DA_ieee oob]. unfold lm_oob. rewrite HX. destruct (xtoint _); eauto. }
  destruct (log3_machine_total (DA lm) r1 r2 r3 CV (stored_bound (DA lm) eb r2 r3) U V W H1 H2 H3 SU SV SW) as (s & c & E); [|eauto].
  intros U0 V0 W0 i j k _ _ _ HG. exact (stored_total (DA lm) r1 r2 r3 eb i j k LB HG U0 V0 W0).
Qed.

Section Float.
Context (lm : Libm binary32 binary64) (L : libm_ok (FA lm) (FA_ieee lm)) (LL : log_libm_ok (FA lm) (FA_ieee lm)).

Lemma off_usual_float X : (forall x, In x X -> zero_or_usual 38 x) -> all_usual (FA lm) (FA_ieee lm) 38 X /\ all_bnd (FA lm) (FA_ieee lm) 38 X.
Proof.
  intros H. split; intros n x Ex; apply aget_In in Ex; destruct (H x Ex) as (G1 & G2 & G3); exists (B2R 24 128 x);
  (split; [apply (fin_val 24 128); auto|auto]).
Qed.

Lemma deliver_float m x y : is_finite 24 128 x = true -> comp_close (FA lm) (FA_ieee lm) m x y -> comp_delivered (m + bpow radix2 (-13)) x y.
Proof.
  intros Fx (r & Er & HZ & HN). apply (val_fin_iff 24 128) in Er. destruct Er as [_ Er]. unfold comp_delivered. destruct (is_zero x) eqn:Ez.
  - assert (Z : r = 0%R) by (rewrite <- Er; destruct x; try discriminate; reflexivity). rewrite (HZ Z). reflexivity.
  - assert (N : r <> 0%R).
    { rewrite <- Er. destruct x as [|[|]| |s mm ee hb]; try discriminate. intros Z. apply (eq_0_F2R _ _ _) in Z; cbn in Z. destruct s; discriminate. }
    destruct (HN N) as (a & a' & Ea & Ea' & Hs & Hb). apply (val_fin_iff 24 128) in Ea, Ea'. destruct Ea as [_ <-]. destruct Ea' as [F <-]. split; auto.
Qed.

Local Notation ebs := (offline3_ebs (FA lm) (FO lm) acbrt1).

Lemma ebs_low_float max_eb r1 r2 r3 U V W : 0 <= r1 -> 0 < r2 -> 0 < r3 -> sized r1 r2 r3 U -> sized r1 r2 r3 V -> sized r1 r2 r3 W ->
  is_finite 53 1024 max_eb = true -> (forall x, In x U \/ In x V \/ In x W -> zero_or_usual 38 x) ->
  exists eb, ebs max_eb r1 r2 r3 U V W = Some eb /\ low_ebs (FA lm) (FA_ieee lm) (B2R 53 1024 max_eb) (r1 * r2 * r3) eb.
Proof.
  intros H1 H2 H3 SU SV SW M1 HU. apply (offline3_ebs_low (FA lm) (FA_ieee lm) (FO lm) acbrt1 (FO_off lm)); auto; try lia; [cbn; lia|..|apply (fin_val 53 1024); auto];
    apply off_usual_float; auto.
Qed.

Theorem off3_bound_float max_eb ord ub r1 r2 r3 U V W junk buf size :
  0 <= r1 -> 0 < r2 -> 0 < r3 -> sized r1 r2 r3 U -> sized r1 r2 r3 V -> sized r1 r2 r3 W -> Z.of_nat (length junk) < 2 ^ 64 ->
  is_finite 53 1024 max_eb = true -> (0 <= B2R 53 1024 max_eb <= 5 / 2)%R -> (forall x, In x U \/ In x V \/ In x W -> zero_or_usual 38 x) ->
  compress_off3 (FA lm) (FO lm) acbrt1 max_eb ord ub r1 r2 r3 U V W junk = Some (buf, size) ->
  (forall eb, ebs max_eb r1 r2 r3 U V W = Some eb -> log3_short_with (FA lm) (stored_bound (FA lm) eb r2 r3) ord r1 r2 r3 U V W) ->
  exists eb U' V' W', ebs max_eb r1 r2 r3 U V W = Some eb /\ Z.of_nat (length eb) = r1 * r2 * r3 /\
    decompress_log3 (FA lm) r1 r2 r3 (firstn size buf) = Some (U', V', W') /\
    length U' = length U /\ length V' = length V /\ length W' = length W /\
    forall k e u v w u' v' w', aget eb k = Some e -> aget U k = Some u -> aget V k = Some v -> aget W k = Some w ->
      aget U' k = Some u' -> aget V' k = Some v' -> aget W' k = Some w' ->
      let b := (B2R 53 1024 e + bpow radix2 (-13))%R in
      (B2R 53 1024 e <= B2R 53 1024 max_eb)%R /\
      ((u' = u /\ v' = v /\ w' = w) \/ ((0 < B2R 53 1024 e)%R /\ comp_delivered b u u' /\ comp_delivered b v v' /\ comp_delivered b w w')).
Proof.
  intros H1 H2 H3 SU SV SW HJ M1 M2 HU H HK.
  assert (HA : forall x, In x U \/ In x V \/ In x W -> log_agree (FA lm) x) by (intros x Hx; apply (agree_float lm); destruct (HU x Hx) as [F _]; unfold not_nan; destruct x; try discriminate; reflexivity).
  destruct (ebs_low_float max_eb r1 r2 r3 U V W H1 H2 H3 SU SV SW M1 HU) as (eb & Eb & LB).
  unfold compress_off3 in H. destruct (1 <=? r1 * r2 * r3); [|discriminate]. rewrite Eb in H. cbn [bind] in H.
  destruct (log3_api (FA lm) (FA_ieee lm) (FA_ser lm) L LL ltac:(cbn; lia) 38 ltac:(lia) (stored_bound (FA lm) eb r2 r3)
     (eb_m (FA lm) (FA_ieee lm) eb) ord ub r1 r2 r3 U V W junk buf size
     (fun n => conj (proj1 (eb_m_range _ _ _ _ eb n (proj1 M2) LB)) (Rle_trans _ _ _ (proj2 (eb_m_range _ _ _ _ eb n (proj1 M2) LB)) (proj2 M2))) H1 H2 H3
     (low_source _ _ _ r1 r2 r3 eb LB) SU SV SW HJ
     (proj1 (off_usual_float U ltac:(auto))) (proj1 (off_usual_float V ltac:(auto))) (proj1 (off_usual_float W ltac:(auto))) HA H (HK eb Eb))
    as (U' & V' & W' & E & L1 & L2 & L3 & HP).
  exists eb, U', V', W'. split; [exact Eb|]. split; [exact (proj1 LB)|]. do 4 (split; [auto|]). intros k e u v w u' v' w' G0 G1 G2 G3 G4 G5 G6 b.
  assert (EM : (B2R 53 1024 e <= B2R 53 1024 max_eb)%R /\ eb_m (FA lm) (FA_ieee lm) eb k = Rmax 0 (B2R 53 1024 e)).
  { unfold eb_m. change (D (FA lm)) with binary64 in *. rewrite G0. destruct (proj2 LB k e G0) as [X|(x & X & Hx)]; rewrite X.
    - change (vD (FA lm) (FA_ieee lm) e) with (val64 e) in X. destruct e as [|[|]| |]; try discriminate X. cbn [B2R]. rewrite Rmax_left by lra. lra.
    - apply (val_fin_iff 53 1024) in X. destruct X as [_ ->]. auto. }
  destruct EM as [Ee EM]. split; [exact Ee|]. destruct (HP k u v w u' v' w' G1 G2 G3 G4 G5 G6) as [X|(P & X & Y & Z)]; [left; auto|right].
  rewrite EM in P, X, Y, Z. assert (P' : (0 < B2R 53 1024 e)%R) by (unfold Rmax in P; destruct (Rle_dec 0 (B2R 53 1024 e)); lra).
  rewrite Rmax_right in X, Y, Z by lra. split; [exact P'|]. apply aget_In in G1, G2, G3.
  split; [apply deliver_float; [apply (proj1 (HU u ltac:(auto)))|auto]|].
  split; [apply deliver_float; [apply (proj1 (HU v ltac:(auto)))|auto]|apply deliver_float; [apply (proj1 (HU w ltac:(auto)))|auto]].
Qed.

Theorem off3_noub_float max_eb r1 r2 r3 U V W : 0 <= r1 -> 0 < r2 -> 0 < r3 ->
  sized r1 r2 r3 U -> sized r1 r2 r3 V -> sized r1 r2 r3 W ->
  is_finite 53 1024 max_eb = true -> (0 <= B2R 53 1024 max_eb <= 5 / 2)%R -> (forall x, In x U \/ In x V \/ In x W -> zero_or_usual 38 x) ->
  exists eb s c, ebs max_eb r1 r2 r3 U V W = Some eb /\ enc_log3_with (FA lm) (stored_bound (FA lm) eb r2 r3) r1 r2 r3 U V W = Some (s, c).
Proof.
  intros H1 H2 H3 SU SV SW M1 M2 HU.
  destruct (ebs_low_float max_eb r1 r2 r3 U V W H1 H2 H3 SU SV SW M1 HU) as (eb & Eb & LB). exists eb.
  destruct (log3_noub (FA lm) (FA_ieee lm) L LL ltac:(cbn; lia) 38 ltac:(lia) (stored_bound (FA lm) eb r2 r3)
    (eb_m (FA lm) (FA_ieee lm) eb)
    (fun n => conj (proj1 (eb_m_range _ _ _ _ eb n (proj1 M2) LB)) (Rle_trans _ _ _ (proj2 (eb_m_range _ _ _ _ eb n (proj1 M2) LB)) (proj2 M2))) r1 r2 r3 H1 H2 H3 (low_source _ _ _ r1 r2 r3 eb LB)
    (fun U0 V0 W0 i j k _ _ _ HG => stored_total (FA lm) r1 r2 r3 eb i j k (proj1 LB) HG U0 V0 W0) U V W SU SV SW
    (proj1 (off_usual_float U ltac:(auto))) (proj1 (off_usual_float V ltac:(auto))) (proj1 (off_usual_float W ltac:(auto)))) as (s & c & E).
  exists s, c. auto.
Qed.
End Float.

Theorem off3_machine_float (lm : Libm _ _) max_eb r1 r2 r3 U V W : lm_x86 lm = true -> 0 <= r1 -> 0 < r2 -> 0 < r3 ->
  sized r1 r2 r3 U -> sized r1 r2 r3 V -> sized r1 r2 r3 W ->
  exists eb s c, offline3_ebs (FA lm) (FO lm) acbrt1 max_eb r1 r2 r3 U V W = Some eb /\ enc_log3_with (FA lm) (stored_bound (FA lm) eb r2 r3) r1 r2 r3 U V W = Some (s, c).
Proof.
  intros HX H1 H2 H3 SU SV SW. destruct (offline3_ebs_any (FA lm) (FO lm) acbrt1 max_eb r1 r2 r3 U V W H1 ltac:(lia) ltac:(lia) SU SV SW) as (eb & Eb & LB).
  exists eb. assert (CV : forall x, exists z, dtoint (FA lm) x = Some z).
  { intros x. rewrite (v_dtoint (FA lm) (FA_ieee lm)). cbn [FA_ieee oob]. unfold lm_oob. rewrite HX. destruct (xtoint _); eauto. }
  destruct (log3_machine_total (FA lm) r1 r2 r3 CV (stored_bound (FA lm) eb r2 r3) U V W H1 H2 H3 SU SV SW) as (s & c & E); [|eauto].
  intros U0 V0 W0 i j k _ _ _ HG. exact (stored_total (FA lm) r1 r2 r3 eb i j k LB HG U0 V0 W0).
Qed.
