(** The unstructured codec at the level of the byte interface, double and float.  Nothing of /repo is modelled here. *)
From Coq Require Import Reals Lra Lia ZArith List Bool.
From Coq Require Import ZifyBool ZifyNat.
From Flocq Require Import Core.Core IEEE754.BinarySingleNaN IEEE754.Binary IEEE754.Bits.
From Verif Require Import Base Huffman HuffStream HuffProps Stream Arith Mesh2D Mesh3D Derive3D Codec2D Sync2D Scan Stream2D Abs3D Sync3D Exact IEEE IEEELaws IEEEQuant
  IEEE2D IEEEAbs2D Api2D RelaxApi2D Cells3D Preserve3D Total3D IEEE3D Log2D LogSync2D LogCells2D LogErr2D LogApi2D Log3D LogSync3D LogErr3D LogApi3D Uns3D UnsSync UnsErr.
Import ListNotations.
Local Open Scope Z_scope.

(** The Huffman code words of the residual indices are at most 64 bits long. *)
Definition uns_short A (max_eb : D A) ord n tets data : Prop :=
  forall s c, enc_uns A max_eb tets n data = Some (s, c) -> max_code_64 ord 131072 (c_q c).

Section Gen.
Context (A : Arith) (I : ieee A) (HS : ser_ok A) (L : libm_ok A I) (LL : log_libm_ok A I).
Context (Hp24 : (24 <= pT A I)%Z) (B : Z) (HB : (0 <= B <= 100)%Z) (HE : (3 * B + 11 < eT A I)%Z).

Lemma split_all (P : T A -> Prop) data U V W : split3 data = (U, V, W) -> (forall x, In x data -> P x) ->
  (forall k x, aget U k = Some x -> P x) /\ (forall k x, aget V k = Some x -> P x) /\ (forall k x, aget W k = Some x -> P x).
Proof.
  intros ES H. pose proof (split3_In data) as Q. rewrite ES in Q.
  repeat split; intros k x E; apply aget_In in E; apply H, (Q x); auto.
Qed.

Theorem uns_api max_eb m ord ub n tets data junk buf size : vD A I max_eb = Fin m -> (0 <= m <= 5 / 2)%R ->
  Z.of_nat (length data) = 3 * n -> Z.of_nat (length junk) < 2 ^ 64 ->
  (forall x, In x data -> usual A I B x /\ vT A I x <> Fin 0) -> (forall x, In x data -> log_agree A x) ->
  compress_uns A max_eb ord ub n tets data junk = Some (buf, size) -> uns_short A max_eb ord n tets data ->
  exists data', decompress_uns A n (firstn size buf) = Some data' /\ length data' = length data /\
    forall k x x', aget data k = Some x -> aget data' k = Some x' -> x' = x \/ rel_close A I m x x'.
Proof.
  intros Em Hm HL HJ HU HA H HK. unfold compress_uns in H. destruct (_ && _)%bool eqn:E1 in H; [|discriminate].
  destruct (forallb (in_range n) tets) eqn:ER; [|discriminate].
  assert (Hn1 : 1 <= n) by lia. assert (Hbig : 3 * n < 2 ^ 31) by lia. assert (Hn : 0 <= n) by lia.
  bind_as H [s c] HEn. destruct s as [[[Ua Va] Wa] [[LU LV] LW]].
  destruct (Z.of_nat (length junk) =? _) eqn:EJ in H; [|discriminate].
  specialize (HK _ _ HEn).
  destruct (split3 data) as [[U V] W] eqn:ES. rewrite (enc_uns_split A n max_eb tets data U V W ES) in HEn.
  pose proof (split3_length data (Z.to_nat n) ltac:(lia)) as SL. rewrite ES in SL. destruct SL as (L1 & L2 & L3).
  pose proof (join3_split3 data (Z.to_nat n) ltac:(lia)) as SJ. rewrite ES in SJ.
  destruct (split_all (usual A I B) data U V W ES (fun x Hx => proj1 (HU x Hx))) as (MU & MV & MW).
  destruct (split_all (fun x => vT A I x <> Fin 0%R) data U V W ES (fun x Hx => proj2 (HU x Hx))) as (ZU & ZV & ZW).
  destruct (uns_bound A I L LL Hp24 B HB HE max_eb m Em Hm tets n Hn U V W Ua Va Wa LU LV LW c ltac:(lia) ltac:(lia) ltac:(lia) MU MV MW ZU ZV ZW HEn)
    as (X1 & X2 & X3 & Lf & M1 & M2 & M3 & P1 & P2 & P3).
  assert (I0 : log3_err A I (fun _ => m) U V W 0 (U, V, W, (map (log_value A) U, map (log_value A) V, map (log_value A) W))).
  { split; [|split]; eapply (comp_err_init A I LL Hp24 B HB (fun _ => m) (fun _ => Hm)); eauto. }
  pose proof (uns_err_step A I L LL Hp24 B HB HE max_eb m Em Hm tets n Hn U V W MU MV MW) as ST.
  assert (K1 : max_code_64 ord 512 (c_eb c)).
  { apply small_symbols. intros e He.
    pose proof (uns_symbols A max_eb tets 24 n (log3_err A I (fun _ => m) U V W) ST U V W _ _ ltac:(lia) I0 HEn e He). lia. }
  eexists. split.
  - exact (uns_round_trip A max_eb tets 24 n Hn (log3_err A I (fun _ => m) U V W) ST ord ub data U V W Ua Va Wa LU LV LW c junk buf size HS Hn1 Hbig HL ES I0
      (escape_ieee A I L) HA HEn K1 HK HJ H X1 X2 X3).
  - split.
    + rewrite join3_length, zip3_length; rewrite !log_finals_length; lia.
    + rewrite <- SJ. apply (join3_forall (fun x x' => x' = x \/ rel_close A I m x x')); rewrite ?log_finals_length; try lia; assumption.
Qed.

Theorem uns_noub_data max_eb m n tets data : vD A I max_eb = Fin m -> (0 <= m <= 5 / 2)%R -> 0 <= n -> forallb (in_range n) tets = true ->
  Z.of_nat (length data) = 3 * n -> (forall x, In x data -> usual A I B x) -> exists s c, enc_uns A max_eb tets n data = Some (s, c).
Proof.
  intros Em Hm Hn HT HL HU. destruct (split3 data) as [[U V] W] eqn:ES. rewrite (enc_uns_split A n max_eb tets data U V W ES).
  pose proof (split3_length data (Z.to_nat n) ltac:(lia)) as SL. rewrite ES in SL. destruct SL as (L1 & L2 & L3).
  destruct (split_all (usual A I B) data U V W ES HU) as (MU & MV & MW).
  apply (uns_noub A I L LL Hp24 B HB HE max_eb m Em Hm tets n Hn U V W HT); auto; unfold len_n; lia.
Qed.
End Gen.

(** Nonzero, of magnitude between 2^-97 and 2^k. *)
Definition nonzero_usual {p e} (k : Z) (x : binary_float p e) : Prop := zero_or_usual k x /\ is_zero x = false.

Section Double.
Context (lm : Libm binary64 binary64) (L : libm_ok (DA lm) (DA_ieee lm)) (LL : log_libm_ok (DA lm) (DA_ieee lm)).

Lemma usual_b64 x : zero_or_usual 100 x -> usual (DA lm) (DA_ieee lm) 100 x.
Proof. intros (G1 & G2 & G3). exists (B2R 53 1024 x). split; [apply (fin_val 53 1024); auto|auto]. Qed.

Theorem uns_bound_double max_eb ord ub n tets data junk buf size :
  Z.of_nat (length data) = 3 * n -> Z.of_nat (length junk) < 2 ^ 64 ->
  is_finite 53 1024 max_eb = true -> (0 <= B2R 53 1024 max_eb <= 5 / 2)%R -> (forall x, In x data -> nonzero_usual 100 x) ->
  compress_uns (DA lm) max_eb ord ub n tets data junk = Some (buf, size) -> uns_short (DA lm) max_eb ord n tets data ->
  exists data', decompress_uns (DA lm) n (firstn size buf) = Some data' /\ length data' = length data /\
    forall k x x', aget data k = Some x -> aget data' k = Some x' ->
      x' = x \/ rel_differs_le (B2R 53 1024 max_eb + bpow radix2 (-13)) x x'.
Proof.
  intros HL HJ M1 M2 HU H HK.
  assert (HA : forall x, In x data -> log_agree (DA lm) x).
  { intros x Hx. apply agree_double. destruct (HU x Hx) as [[F _] _]. unfold not_nan. destruct x; try discriminate; reflexivity. }
  assert (HN : forall x, In x data -> usual (DA lm) (DA_ieee lm) 100 x /\ vT (DA lm) (DA_ieee lm) x <> Fin 0%R).
  { intros x Hx. destruct (HU x Hx) as [G Ez]. split; [apply usual_b64; auto|]. intros Er. apply (val_fin_iff 53 1024) in Er. destruct Er as [_ Z].
    destruct G as [Fx _]. destruct x as [|[|]| |s mm ee hb]; try discriminate. apply (eq_0_F2R _ _ _) in Z; cbn in Z. destruct s; discriminate. }
  destruct (uns_api (DA lm) (DA_ieee lm) (DA_ser lm) L LL ltac:(cbn; lia) 100 ltac:(lia) ltac:(cbn; lia) max_eb (B2R 53 1024 max_eb) ord ub n tets data junk buf size
     ltac:(apply (fin_val 53 1024); auto) M2 HL HJ HN HA H HK) as (data' & E & LD & HP).
  exists data'. split; [exact E|]. split; [exact LD|]. intros k x x' Ex Ex'. destruct (HP k x x' Ex Ex') as [C|(a & a' & Ea & Ea' & Hs & Hb)]; [auto|right].
  apply (val_fin_iff 53 1024) in Ea, Ea'. destruct Ea as [_ <-]. destruct Ea' as [F <-]. split; auto.
Qed.

Theorem uns_noub_double max_eb n tets data : 0 <= n -> forallb (in_range n) tets = true -> Z.of_nat (length data) = 3 * n ->
  is_finite 53 1024 max_eb = true -> (0 <= B2R 53 1024 max_eb <= 5 / 2)%R -> (forall x, In x data -> zero_or_usual 100 x) ->
  exists s c, enc_uns (DA lm) max_eb tets n data = Some (s, c).
Proof.
  intros Hn HT HL M1 M2 HU.
  exact (uns_noub_data (DA lm) (DA_ieee lm) L LL ltac:(cbn; lia) 100 ltac:(lia) ltac:(cbn; lia) max_eb (B2R 53 1024 max_eb) n tets data
    ltac:(apply (fin_val 53 1024); auto) M2 Hn HT HL (fun x Hx => usual_b64 x (HU x Hx))).
Qed.
End Double.

Section Float.
Context (lm : Libm binary32 binary64) (L : libm_ok (FA lm) (FA_ieee lm)) (LL : log_libm_ok (FA lm) (FA_ieee lm)).

Lemma usual_b32 x : zero_or_usual 38 x -> usual (FA lm) (FA_ieee lm) 38 x.
Proof. intros (G1 & G2 & G3). exists (B2R 24 128 x). split; [apply (fin_val 24 128); auto|auto]. Qed.

Theorem uns_bound_float max_eb ord ub n tets data junk buf size :
  Z.of_nat (length data) = 3 * n -> Z.of_nat (length junk) < 2 ^ 64 ->
  is_finite 53 1024 max_eb = true -> (0 <= B2R 53 1024 max_eb <= 5 / 2)%R -> (forall x, In x data -> nonzero_usual 38 x) ->
  compress_uns (FA lm) max_eb ord ub n tets data junk = Some (buf, size) -> uns_short (FA lm) max_eb ord n tets data ->
  exists data', decompress_uns (FA lm) n (firstn size buf) = Some data' /\ length data' = length data /\
    forall k x x', aget data k = Some x -> aget data' k = Some x' ->
      x' = x \/ rel_differs_le (B2R 53 1024 max_eb + bpow radix2 (-13)) x x'.
Proof.
  intros HL HJ M1 M2 HU H HK.
  assert (HA : forall x, In x data -> log_agree (FA lm) x).
  { intros x Hx. apply agree_float. destruct (HU x Hx) as [[F _] _]. unfold not_nan. destruct x; try discriminate; reflexivity. }
  assert (HN : forall x, In x data -> usual (FA lm) (FA_ieee lm) 38 x /\ vT (FA lm) (FA_ieee lm) x <> Fin 0%R).
  { intros x Hx. destruct (HU x Hx) as [G Ez]. split; [apply usual_b32; auto|]. intros Er. apply (val_fin_iff 24 128) in Er. destruct Er as [_ Z].
    destruct G as [Fx _]. destruct x as [|[|]| |s mm ee hb]; try discriminate. apply (eq_0_F2R _ _ _) in Z; cbn in Z. destruct s; discriminate. }
  destruct (uns_api (FA lm) (FA_ieee lm) (FA_ser lm) L LL ltac:(cbn; lia) 38 ltac:(lia) ltac:(cbn; lia) max_eb (B2R 53 1024 max_eb) ord ub n tets data junk buf size
     ltac:(apply (fin_val 53 1024); auto) M2 HL HJ HN HA H HK) as (data' & E & LD & HP).
  exists data'. split; [exact E|]. split; [exact LD|]. intros k x x' Ex Ex'. destruct (HP k x x' Ex Ex') as [C|(a & a' & Ea & Ea' & Hs & Hb)]; [auto|right].
  apply (val_fin_iff 24 128) in Ea, Ea'. destruct Ea as [_ <-]. destruct Ea' as [F <-]. split; auto.
Qed.

Theorem uns_noub_float max_eb n tets data : 0 <= n -> forallb (in_range n) tets = true -> Z.of_nat (length data) = 3 * n ->
  is_finite 53 1024 max_eb = true -> (0 <= B2R 53 1024 max_eb <= 5 / 2)%R -> (forall x, In x data -> zero_or_usual 38 x) ->
  exists s c, enc_uns (FA lm) max_eb tets n data = Some (s, c).
Proof.
  intros Hn HT HL M1 M2 HU.
  exact (uns_noub_data (FA lm) (FA_ieee lm) L LL ltac:(cbn; lia) 38 ltac:(lia) ltac:(cbn; lia) max_eb (B2R 53 1024 max_eb) n tets data
    ltac:(apply (fin_val 53 1024); auto) M2 Hn HT HL (fun x Hx => usual_b32 x (HU x Hx))).
Qed.
End Float.
