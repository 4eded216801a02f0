(** What the report of the test programs says: theorems for float and double, refutations, and the report of the 2D program.  Nothing of /repo is
    modelled here. *)
From Coq Require Import Reals Lra Lia ZArith List Bool.
From Coq Require Import ZifyBool ZifyNat.
From Flocq Require Import Core.Core IEEE754.BinarySingleNaN IEEE754.Binary IEEE754.Bits.
From Verif Require Import Base Huffman HuffStream HuffProps Stream Arith Mesh2D Derive2D Codec2D Stream2D Exact Cells2D Geo2D Preserve2D
  IEEE IEEELaws IEEEQuant IEEE2D IEEEAbs2D Api2D RelaxApi2D Sz3 Sz3Cells Sz3Api KeepApi2D
  LibmModel Witness2D Examples2D Refute2D Sz3Refute Lossless LosslessApi Verify.
Import ListNotations.
Local Open Scope Z_scope.

Theorem verify_double (lm : Libm binary64 binary64) (ori dec : list binary64) n :
  (0 < n)%nat -> (n <= length ori)%nat -> (n <= length dec)%nat -> (forall x, In x ori \/ In x dec -> finite_le 1022 x) ->
  exists r, verify (DA lm) ori dec n = Some r /\ is_finite 53 1024 (r_diff r) = true /\ is_finite 53 1024 (r_pw r) = true /\
    (forall i x y, (i < n)%nat -> nth_error ori i = Some x -> nth_error dec i = Some y ->
      (Rabs (B2R 53 1024 y - B2R 53 1024 x) <= B2R 53 1024 (r_diff r) * (1 + bpow radix2 (-53)))%R /\
      (B2R 53 1024 (r_min r) <= B2R 53 1024 x <= B2R 53 1024 (r_max r))%R /\
      (1 < Rabs (B2R 53 1024 x) -> Rabs (B2R 53 1024 y - B2R 53 1024 x) / Rabs (B2R 53 1024 x) <=
         B2R 53 1024 (r_pw r) * (1 + bpow radix2 (-51)) + bpow radix2 (-1074))%R) /\
    (exists i x y, (i < n)%nat /\ nth_error ori i = Some x /\ nth_error dec i = Some y /\
      (B2R 53 1024 (r_diff r) <= Rabs (B2R 53 1024 y - B2R 53 1024 x) * (1 + bpow radix2 (-53)))%R) /\
    (exists i, (i < n)%nat /\ nth_error ori i = Some (r_min r)) /\ (exists i, (i < n)%nat /\ nth_error ori i = Some (r_max r)) /\
    (B2R 53 1024 (r_pw r) = 0%R \/ exists i x y, (i < n)%nat /\ nth_error ori i = Some x /\ nth_error dec i = Some y /\ (1 < Rabs (B2R 53 1024 x))%R /\
      (B2R 53 1024 (r_pw r) <= Rabs (B2R 53 1024 y - B2R 53 1024 x) / Rabs (B2R 53 1024 x) * (1 + bpow radix2 (-51)) + bpow radix2 (-1074))%R).
Proof.
  intros Hn L1 L2 HF. destruct (verify_report (DA lm) (DA_ieee lm) ori dec n 1022) as (r & d & pw & lo & hi & E & Vd & Vp & Vl & Vh & H1 & H2 & H3 & H4 & H5); auto.
  - cbn [DA_ieee eT]. lia.
  - cbn [DA_ieee eT pT]. lia.
  - intros x Hx. apply (finite_bnd 53 1024). apply HF. auto.
  - exists r. apply (val_fin_iff 53 1024) in Vd, Vl, Vh. apply (val_fin_iff 53 1024) in Vp. destruct Vd as [Fd <-], Vl as [_ <-], Vh as [_ <-], Vp as [Fp <-].
    split; [exact E|]. split; [exact Fd|]. split; [exact Fp|]. split; [|split; [|split; [exact H3|split; [exact H4|]]]].
    + intros i x y Hi Ex Ey. destruct (finite_bnd 53 1024 x 1022) as (a & Va & _); [apply HF; left; eapply nth_error_In; eauto|].
      destruct (finite_bnd 53 1024 y 1022) as (b & Vb & _); [apply HF; right; eapply nth_error_In; eauto|].
      pose proof (H1 i x y a b Hi Ex Ey Va Vb) as H. apply (val_fin_iff 53 1024) in Va, Vb. destruct Va as [_ <-], Vb as [_ <-]. exact H.
    + destruct H2 as (i & x & y & a & b & Hi & Ex & Ey & Va & Vb & H). exists i, x, y. apply (val_fin_iff 53 1024) in Va, Vb. destruct Va as [_ <-], Vb as [_ <-]. auto.
    + destruct H5 as [H5|(i & x & y & a & b & Hi & Ex & Ey & Va & Vb & HA & H)]; [left; exact H5|right]. exists i, x, y.
      apply (val_fin_iff 53 1024) in Va, Vb. destruct Va as [_ <-], Vb as [_ <-]. auto 10.
Qed.

Theorem verify_float (lm : Libm binary32 binary64) (ori dec : list binary32) n :
  (0 < n)%nat -> (n <= length ori)%nat -> (n <= length dec)%nat -> (forall x, In x ori \/ In x dec -> finite_le 126 x) ->
  exists r, verify (FA lm) ori dec n = Some r /\ is_finite 24 128 (r_diff r) = true /\ is_finite 53 1024 (r_pw r) = true /\
    (forall i x y, (i < n)%nat -> nth_error ori i = Some x -> nth_error dec i = Some y ->
      (Rabs (B2R 24 128 y - B2R 24 128 x) <= B2R 24 128 (r_diff r) * (1 + bpow radix2 (-24)))%R /\
      (B2R 24 128 (r_min r) <= B2R 24 128 x <= B2R 24 128 (r_max r))%R /\
      (1 < Rabs (B2R 24 128 x) -> Rabs (B2R 24 128 y - B2R 24 128 x) / Rabs (B2R 24 128 x) <=
         B2R 53 1024 (r_pw r) * (1 + bpow radix2 (-22)) + bpow radix2 (-1074))%R) /\
    (exists i x y, (i < n)%nat /\ nth_error ori i = Some x /\ nth_error dec i = Some y /\
      (B2R 24 128 (r_diff r) <= Rabs (B2R 24 128 y - B2R 24 128 x) * (1 + bpow radix2 (-24)))%R) /\
    (exists i, (i < n)%nat /\ nth_error ori i = Some (r_min r)) /\ (exists i, (i < n)%nat /\ nth_error ori i = Some (r_max r)) /\
    (B2R 53 1024 (r_pw r) = 0%R \/ exists i x y, (i < n)%nat /\ nth_error ori i = Some x /\ nth_error dec i = Some y /\ (1 < Rabs (B2R 24 128 x))%R /\
      (B2R 53 1024 (r_pw r) <= Rabs (B2R 24 128 y - B2R 24 128 x) / Rabs (B2R 24 128 x) * (1 + bpow radix2 (-22)) + bpow radix2 (-1074))%R).
Proof.
  intros Hn L1 L2 HF. destruct (verify_report (FA lm) (FA_ieee lm) ori dec n 126) as (r & d & pw & lo & hi & E & Vd & Vp & Vl & Vh & H1 & H2 & H3 & H4 & H5); auto.
  - cbn [FA_ieee eT]. lia.
  - cbn [FA_ieee eT pT]. lia.
  - intros x Hx. apply (finite_bnd 24 128). apply HF. auto.
  - exists r. apply (val_fin_iff 24 128) in Vd, Vl, Vh. apply (val_fin_iff 53 1024) in Vp. destruct Vd as [Fd <-], Vl as [_ <-], Vh as [_ <-], Vp as [Fp <-].
    split; [exact E|]. split; [exact Fd|]. split; [exact Fp|]. split; [|split; [|split; [exact H3|split; [exact H4|]]]].
    + intros i x y Hi Ex Ey. destruct (finite_bnd 24 128 x 126) as (a & Va & _); [apply HF; left; eapply nth_error_In; eauto|].
      destruct (finite_bnd 24 128 y 126) as (b & Vb & _); [apply HF; right; eapply nth_error_In; eauto|].
      pose proof (H1 i x y a b Hi Ex Ey Va Vb) as H. apply (val_fin_iff 24 128) in Va, Vb. destruct Va as [_ <-], Vb as [_ <-]. exact H.
    + destruct H2 as (i & x & y & a & b & Hi & Ex & Ey & Va & Vb & H). exists i, x, y. apply (val_fin_iff 24 128) in Va, Vb. destruct Va as [_ <-], Vb as [_ <-]. auto.
    + destruct H5 as [H5|(i & x & y & a & b & Hi & Ex & Ey & Va & Vb & HA & H)]; [left; exact H5|right]. exists i, x, y.
      apply (val_fin_iff 24 128) in Va, Vb. destruct Va as [_ <-], Vb as [_ <-]. auto 10.
Qed.

(** If every error is at most [b], so is the reported one, up to rounding. *)
Lemma verify_within_double (lm : Libm binary64 binary64) (ori dec : list binary64) n b0 :
  (0 < n)%nat -> (n <= length ori)%nat -> (n <= length dec)%nat -> (forall x, In x ori \/ In x dec -> finite_le 1022 x) ->
  (forall i x y, (i < n)%nat -> nth_error ori i = Some x -> nth_error dec i = Some y -> (Rabs (B2R 53 1024 y - B2R 53 1024 x) <= b0)%R) ->
  exists r, verify (DA lm) ori dec n = Some r /\ is_finite 53 1024 (r_diff r) = true /\ (B2R 53 1024 (r_diff r) <= b0 * (1 + bpow radix2 (-53)))%R.
Proof.
  intros Hn L1 L2 HF HB. destruct (verify_double lm ori dec n Hn L1 L2 HF) as (r & E & F & _ & _ & (i & x & y & Hi & Ex & Ey & H) & _).
  exists r. split; [exact E|]. split; [exact F|]. eapply Rle_trans; [exact H|]. apply Rmult_le_compat_r; [pose proof (bpow_gt_0 radix2 (-53)); lra|eauto].
Qed.

(** If every error is at most [b], so is the reported one, up to rounding. *)
Lemma verify_within_float (lm : Libm binary32 binary64) (ori dec : list binary32) n b0 :
  (0 < n)%nat -> (n <= length ori)%nat -> (n <= length dec)%nat -> (forall x, In x ori \/ In x dec -> finite_le 126 x) ->
  (forall i x y, (i < n)%nat -> nth_error ori i = Some x -> nth_error dec i = Some y -> (Rabs (B2R 24 128 y - B2R 24 128 x) <= b0)%R) ->
  exists r, verify (FA lm) ori dec n = Some r /\ is_finite 24 128 (r_diff r) = true /\ (B2R 24 128 (r_diff r) <= b0 * (1 + bpow radix2 (-24)))%R.
Proof.
  intros Hn L1 L2 HF HB. destruct (verify_float lm ori dec n Hn L1 L2 HF) as (r & E & F & _ & _ & (i & x & y & Hi & Ex & Ey & H) & _).
  exists r. split; [exact E|]. split; [exact F|]. eapply Rle_trans; [exact H|]. apply Rmult_le_compat_r; [pose proof (bpow_gt_0 radix2 (-24)); lra|eauto].
Qed.

(** test/sz_compress_cp_preserve_2d_test.cpp:26-49: what the 2D program prints as "Max absolute error". *)
Theorem program_2d_report_double (lm : Libm binary64 binary64) (L : libm_ok (DA lm) (DA_ieee lm)) z heap wrap max_eb ord ub r1 r2 U V junk buf size :
  zstd_ok compress_bound z -> sizes heap -> (size < 100)%nat \/ (320 <= size)%nat ->
  1 <= r1 -> 1 <= r2 -> Z.of_nat (length U) = r1 * r2 -> Z.of_nat (length V) = r1 * r2 -> Z.of_nat (length junk) <= 2 ^ 52 ->
  is_finite 53 1024 max_eb = true -> (B2R 53 1024 max_eb <= bpow radix2 500)%R -> (forall x, In x U \/ In x V -> finite_le 500 x) ->
  compress_sz3 (DA lm) wrap max_eb ord ub r1 r2 U V junk = Some (buf, size) -> sz3_short (DA lm) wrap max_eb ord r1 r2 U V ->
  exists U' V' rU rV, pipeline z heap (compress_sz3 (DA lm) wrap max_eb ord ub r1 r2 U V junk) (decompress_sz3 (DA lm) wrap r1 r2) = Some (U', V') /\
    verify (DA lm) U U' (length U) = Some rU /\ verify (DA lm) V V' (length V) = Some rV /\
    is_finite 53 1024 (r_diff rU) = true /\ is_finite 53 1024 (r_diff rV) = true /\
    (B2R 53 1024 (r_diff rU) <= Rmax 0 (B2R 53 1024 max_eb) * (1 + bpow radix2 (-37)))%R /\
    (B2R 53 1024 (r_diff rV) <= Rmax 0 (B2R 53 1024 max_eb) * (1 + bpow radix2 (-37)))%R.
Proof.
  intros HZ HH HG R1 R2 LU LV LJ Fm Hm Hx HC HK.
  destruct (program_2d_double lm L z heap wrap max_eb ord ub r1 r2 U V junk buf size) as (U' & V' & HP & L1 & L2 & HB & _); auto.
  exists U', V'. set (m := B2R 53 1024 max_eb) in *. set (b0 := (Rmax 0 m * (1 + bpow radix2 (-39)))%R).
  pose proof (bpow_gt_0 radix2 (-39)) as P. pose proof (Rmax_l 0 m) as M0. pose proof (Rmax_r 0 m) as M1.
  assert (HW : forall q x x', 0 <= q < r1 * r2 -> (aget U q = Some x /\ aget U' q = Some x') \/ (aget V q = Some x /\ aget V' q = Some x') ->
            is_finite 53 1024 x' = true /\ (Rabs (B2R 53 1024 x' - B2R 53 1024 x) <= b0)%R).
  { intros q x x' Hq E.
    assert (Fx : is_finite 53 1024 x = true) by (destruct E as [[E _]|[E _]]; apply aget_In in E; apply Hx; auto).
    destruct (HB (q / r2) (q mod r2)) with (x := x) (x' := x') as [->|[Pm [F D]]].
    - split; [apply Z.div_pos; lia|apply Z.div_lt_upper_bound; lia].
    - apply Z.mod_pos_bound. lia.
    - rewrite (Z.mul_comm (q / r2)), <- Z.div_mod by lia. exact E.
    - split; [exact Fx|]. replace (B2R 53 1024 x - B2R 53 1024 x)%R with 0%R by ring. rewrite Rabs_R0. apply Rmult_le_pos; lra.
    - split; [exact F|]. eapply Rle_trans; [exact D|]. unfold b0. apply Rmult_le_compat_r; [lra|]. unfold level_bound. destruct (_ && _)%bool; lra. }
  assert (B1 : (b0 <= bpow radix2 500 * 2)%R).
  { unfold b0. apply Rmult_le_compat; [lra|lra|apply Rmax_lub; [apply bpow_ge_0|exact Hm]|].
    assert (bpow radix2 (-39) <= bpow radix2 0)%R by (apply bpow_le; lia). change (bpow radix2 0) with 1%R in *. lra. }
  assert (G : forall (W W' : list binary64), Z.of_nat (length W) = r1 * r2 -> length W' = length W -> (forall x, In x W -> finite_le 500 x) ->
    (forall q x x', 0 <= q < r1 * r2 -> aget W q = Some x -> aget W' q = Some x' -> is_finite 53 1024 x' = true /\ (Rabs (B2R 53 1024 x' - B2R 53 1024 x) <= b0)%R) ->
    exists r, verify (DA lm) W W' (length W) = Some r /\ is_finite 53 1024 (r_diff r) = true /\
      (B2R 53 1024 (r_diff r) <= Rmax 0 m * (1 + bpow radix2 (-37)))%R).
  { intros W W' LW LW' FW HE.
    assert (NA : forall (l : list binary64) i x, nth_error l i = Some x -> aget l (Z.of_nat i) = Some x).
    { intros l i x E. unfold aget. replace (Z.of_nat i <? 0) with false by lia. rewrite Nat2Z.id. exact E. }
    assert (NB : forall i x x', (i < length W)%nat -> nth_error W i = Some x -> nth_error W' i = Some x' ->
              is_finite 53 1024 x' = true /\ (Rabs (B2R 53 1024 x' - B2R 53 1024 x) <= b0)%R).
    { intros i x x' Hi E E'. apply (HE (Z.of_nat i)); [lia|apply NA; auto|apply NA; auto]. }
    assert (W0 : (0 < length W)%nat) by nia.
    destruct (verify_within_double lm W W' (length W) b0) as (r & E & F & H); auto; [lia| |intros i x y Hi Ex Ey; apply (NB i x y); auto|].
    - intros x [HI|HI]; [destruct (FW x HI) as [F1 F2]; split; [exact F1|eapply Rle_trans; [exact F2|apply bpow_le; lia]]|].
      apply In_nth_error in HI. destruct HI as [i Ei]. assert (Hi : (i < length W)%nat) by (rewrite <- LW'; apply nth_error_Some; congruence).
      destruct (nth_error W i) as [x0|] eqn:E0; [|apply nth_error_None in E0; lia].
      destruct (NB i x0 x Hi E0 Ei) as [F1 F2]. split; [exact F1|].
      destruct (FW x0) as [_ F3]; [eapply nth_error_In; eauto|].
      apply Rle_trans with (bpow radix2 500 * 4)%R.
      + pose proof (bpow_gt_0 radix2 500). apply Rabs_le_inv in F2, F3. apply Rabs_le. lra.
      + change 4%R with (bpow radix2 2). rewrite <- bpow_plus. apply bpow_le. lia.
    - exists r. split; [exact E|]. split; [exact F|]. eapply Rle_trans; [exact H|]. unfold b0. rewrite Rmult_assoc. apply Rmult_le_compat_l; [lra|].
      assert (bpow radix2 (-53) <= bpow radix2 (-39))%R by (apply bpow_le; lia).
      assert (bpow radix2 (-39) <= / 2)%R by (change (/ 2)%R with (bpow radix2 (-1)); apply bpow_le; lia).
      assert (bpow radix2 (-37) = 4 * bpow radix2 (-39))%R by (change (-37) with (-39 + 2); rewrite bpow_plus; change (bpow radix2 2) with 4%R; ring).
      pose proof (bpow_gt_0 radix2 (-53)). set (u := bpow radix2 (-53)) in *. set (v := bpow radix2 (-39)) in *.
      assert (v * u <= v * / 2)%R by (apply Rmult_le_compat_l; lra). lra. }
  destruct (G U U') as (rU & EU & FU & DU); auto. { intros q x x' Hq E1 E2. apply (HW q); auto. }
  destruct (G V V') as (rV & EV & FV & DV); auto. { intros q x x' Hq E1 E2. apply (HW q); auto. }
  exists rU, rV. auto 10.
Qed.

(** test/sz_compress_cp_preserve_2d_test.cpp:26-49: what the 2D program prints as "Max absolute error". *)
Theorem program_2d_report_float (lm : Libm binary32 binary64) (L : libm_ok (FA lm) (FA_ieee lm)) z heap wrap max_eb ord ub r1 r2 U V junk buf size :
  zstd_ok compress_bound z -> sizes heap -> (size < 100)%nat \/ (320 <= size)%nat ->
  1 <= r1 -> 1 <= r2 -> Z.of_nat (length U) = r1 * r2 -> Z.of_nat (length V) = r1 * r2 -> Z.of_nat (length junk) <= 2 ^ 52 ->
  is_finite 53 1024 max_eb = true -> (B2R 53 1024 max_eb <= bpow radix2 56)%R -> (forall x, In x U \/ In x V -> finite_le 56 x) ->
  compress_sz3 (FA lm) wrap max_eb ord ub r1 r2 U V junk = Some (buf, size) -> sz3_short (FA lm) wrap max_eb ord r1 r2 U V ->
  exists U' V' rU rV, pipeline z heap (compress_sz3 (FA lm) wrap max_eb ord ub r1 r2 U V junk) (decompress_sz3 (FA lm) wrap r1 r2) = Some (U', V') /\
    verify (FA lm) U U' (length U) = Some rU /\ verify (FA lm) V V' (length V) = Some rV /\
    is_finite 24 128 (r_diff rU) = true /\ is_finite 24 128 (r_diff rV) = true /\
    (B2R 24 128 (r_diff rU) <= Rmax 0 (B2R 53 1024 max_eb) * (1 + bpow radix2 (-21)))%R /\
    (B2R 24 128 (r_diff rV) <= Rmax 0 (B2R 53 1024 max_eb) * (1 + bpow radix2 (-21)))%R.
Proof.
  intros HZ HH HG R1 R2 LU LV LJ Fm Hm Hx HC HK.
  destruct (program_2d_float lm L z heap wrap max_eb ord ub r1 r2 U V junk buf size) as (U' & V' & HP & L1 & L2 & HB & _); auto.
  exists U', V'. set (m := B2R 53 1024 max_eb) in *. set (b0 := (Rmax 0 m * (1 + bpow radix2 (-23)))%R).
  pose proof (bpow_gt_0 radix2 (-23)) as P. pose proof (Rmax_l 0 m) as M0. pose proof (Rmax_r 0 m) as M1.
  assert (HW : forall q x x', 0 <= q < r1 * r2 -> (aget U q = Some x /\ aget U' q = Some x') \/ (aget V q = Some x /\ aget V' q = Some x') ->
            is_finite 24 128 x' = true /\ (Rabs (B2R 24 128 x' - B2R 24 128 x) <= b0)%R).
  { intros q x x' Hq E.
    assert (Fx : is_finite 24 128 x = true) by (destruct E as [[E _]|[E _]]; apply aget_In in E; apply Hx; auto).
    destruct (HB (q / r2) (q mod r2)) with (x := x) (x' := x') as [->|[Pm [F D]]].
    - split; [apply Z.div_pos; lia|apply Z.div_lt_upper_bound; lia].
    - apply Z.mod_pos_bound. lia.
    - rewrite (Z.mul_comm (q / r2)), <- Z.div_mod by lia. exact E.
    - split; [exact Fx|]. replace (B2R 24 128 x - B2R 24 128 x)%R with 0%R by ring. rewrite Rabs_R0. apply Rmult_le_pos; lra.
    - split; [exact F|]. eapply Rle_trans; [exact D|]. unfold b0. apply Rmult_le_compat_r; [lra|]. unfold level_bound. destruct (_ && _)%bool; lra. }
  assert (B1 : (b0 <= bpow radix2 56 * 2)%R).
  { unfold b0. apply Rmult_le_compat; [lra|lra|apply Rmax_lub; [apply bpow_ge_0|exact Hm]|].
    assert (bpow radix2 (-23) <= bpow radix2 0)%R by (apply bpow_le; lia). change (bpow radix2 0) with 1%R in *. lra. }
  assert (G : forall (W W' : list binary32), Z.of_nat (length W) = r1 * r2 -> length W' = length W -> (forall x, In x W -> finite_le 56 x) ->
    (forall q x x', 0 <= q < r1 * r2 -> aget W q = Some x -> aget W' q = Some x' -> is_finite 24 128 x' = true /\ (Rabs (B2R 24 128 x' - B2R 24 128 x) <= b0)%R) ->
    exists r, verify (FA lm) W W' (length W) = Some r /\ is_finite 24 128 (r_diff r) = true /\
      (B2R 24 128 (r_diff r) <= Rmax 0 m * (1 + bpow radix2 (-21)))%R).
  { intros W W' LW LW' FW HE.
    assert (NA : forall (l : list binary32) i x, nth_error l i = Some x -> aget l (Z.of_nat i) = Some x).
    { intros l i x E. unfold aget. replace (Z.of_nat i <? 0) with false by lia. rewrite Nat2Z.id. exact E. }
    assert (NB : forall i x x', (i < length W)%nat -> nth_error W i = Some x -> nth_error W' i = Some x' ->
              is_finite 24 128 x' = true /\ (Rabs (B2R 24 128 x' - B2R 24 128 x) <= b0)%R).
    { intros i x x' Hi E E'. apply (HE (Z.of_nat i)); [lia|apply NA; auto|apply NA; auto]. }
    assert (W0 : (0 < length W)%nat) by nia.
    destruct (verify_within_float lm W W' (length W) b0) as (r & E & F & H); auto; [lia| |intros i x y Hi Ex Ey; apply (NB i x y); auto|].
    - intros x [HI|HI]; [destruct (FW x HI) as [F1 F2]; split; [exact F1|eapply Rle_trans; [exact F2|apply bpow_le; lia]]|].
      apply In_nth_error in HI. destruct HI as [i Ei]. assert (Hi : (i < length W)%nat) by (rewrite <- LW'; apply nth_error_Some; congruence).
      destruct (nth_error W i) as [x0|] eqn:E0; [|apply nth_error_None in E0; lia].
      destruct (NB i x0 x Hi E0 Ei) as [F1 F2]. split; [exact F1|].
      destruct (FW x0) as [_ F3]; [eapply nth_error_In; eauto|].
      apply Rle_trans with (bpow radix2 56 * 4)%R.
      + pose proof (bpow_gt_0 radix2 56). apply Rabs_le_inv in F2, F3. apply Rabs_le. lra.
      + change 4%R with (bpow radix2 2). rewrite <- bpow_plus. apply bpow_le. lia.
    - exists r. split; [exact E|]. split; [exact F|]. eapply Rle_trans; [exact H|]. unfold b0. rewrite Rmult_assoc. apply Rmult_le_compat_l; [lra|].
      assert (bpow radix2 (-24) <= bpow radix2 (-23))%R by (apply bpow_le; lia).
      assert (bpow radix2 (-23) <= / 2)%R by (change (/ 2)%R with (bpow radix2 (-1)); apply bpow_le; lia).
      assert (bpow radix2 (-21) = 4 * bpow radix2 (-23))%R by (change (-21) with (-23 + 2); rewrite bpow_plus; change (bpow radix2 2) with 4%R; ring).
      pose proof (bpow_gt_0 radix2 (-24)). set (u := bpow radix2 (-24)) in *. set (v := bpow radix2 (-23)) in *.
      assert (v * u <= v * / 2)%R by (apply Rmult_le_compat_l; lra). lra. }
  destruct (G U U') as (rU & EU & FU & DU); auto. { intros q x x' Hq E1 E2. apply (HW q); auto. }
  destruct (G V V') as (rV & EV & FV & DV); auto. { intros q x x' Hq E1 E2. apply (HW q); auto. }
  exists rU, rV. auto 10.
Qed.

(** ** What it does not say *)
Definition seen (lm : Libm binary64 binary64) (ori dec : list binary64) : option (Z * Z) :=
  option_map (fun r : report (DA lm) => (bits_of_b64 (r_diff r), bits_of_b64 (r_pw r))) (verify (DA lm) ori dec (length ori)).
Lemma seen_inv lm ori dec d p : seen lm ori dec = Some (bits_of_b64 d, bits_of_b64 p) -> exists r, verify (DA lm) ori dec (length ori) = Some r /\ r_diff r = d /\ r_pw r = p.
Proof.
  unfold seen. destruct (verify (DA lm) ori dec (length ori)) as [r|]; [|discriminate]. cbn [option_map]. intros H. injection H as H1 H2.
  exists r. split; [reflexivity|]. split; apply bits_inj; auto.
Qed.
Lemma zero_B2R : B2R 53 1024 (dy 0 0) = 0%R.
Proof. destruct (dy_B2R 0 0 ltac:(lia) ltac:(lia)) as [_ ->]. ring. Qed.

(** An empty array: element 0 is read. *)
Theorem verify_empty A dec : verify A [] dec 0 = None.
Proof. reflexivity. Qed.

(** A NaN after the first value leaves no trace. *)
Theorem verify_nan lm : exists (ori dec : list binary64) r, (forall x, In x ori -> finite_le 500 x) /\ verify (DA lm) ori dec (length ori) = Some r /\
  is_finite 53 1024 (r_diff r) = true /\ B2R 53 1024 (r_diff r) = 0%R /\ B2R 53 1024 (r_pw r) = 0%R /\ nth_error dec 1 = Some dnan.
Proof.
  assert (E : seen lm [dy 3 0; dy 5 0] [dy 3 0; dnan] = Some (bits_of_b64 (dy 0 0), bits_of_b64 (dy 0 0))) by (vm_compute; reflexivity).
  apply seen_inv in E. destruct E as (r & E & E1 & E2). exists [dy 3 0; dy 5 0], [dy 3 0; dnan], r. split.
  { intros x [<-|[<-|[]]]; apply dy_finite; lia. }
  split; [exact E|]. rewrite E1, E2, zero_B2R. auto.
Qed.

(** Relative errors of values of magnitude at most 1 are not reported. *)
Theorem verify_pw lm : exists (ori dec : list binary64) r x y, (forall v, In v ori \/ In v dec -> finite_le 500 v) /\ verify (DA lm) ori dec (length ori) = Some r /\
  B2R 53 1024 (r_pw r) = 0%R /\ nth_error ori 1 = Some x /\ nth_error dec 1 = Some y /\ (100 * Rabs (B2R 53 1024 x) < Rabs (B2R 53 1024 y - B2R 53 1024 x))%R.
Proof.
  assert (E : seen lm [dy 3 0; dy 1 (-1)] [dy 3 0; dy 100 0] = Some (bits_of_b64 (dy 199 (-1)), bits_of_b64 (dy 0 0))) by (vm_compute; reflexivity).
  apply seen_inv in E. destruct E as (r & E & E1 & E2). exists [dy 3 0; dy 1 (-1)], [dy 3 0; dy 100 0], r, (dy 1 (-1)), (dy 100 0). split.
  { intros x [[<-|[<-|[]]]|[<-|[<-|[]]]]; apply dy_finite; lia. }
  split; [exact E|]. rewrite E2, zero_B2R. split; [reflexivity|]. split; [reflexivity|]. split; [reflexivity|].
  destruct (dy_B2R 1 (-1) ltac:(lia) ltac:(lia)) as [_ ->]. destruct (dy_B2R 100 0 ltac:(lia) ltac:(lia)) as [_ ->].
  change (bpow radix2 (-1)) with (/ 2)%R. change (bpow radix2 0) with 1%R. rewrite !Rabs_pos_eq by lra. lra.
Qed.

(** A report on two values. *)
Lemma verify_example lm : (0 < 2)%nat /\ (forall x, In x [dy 3 0; dy 5 0] \/ In x [dy 3 0; dy 7 0] -> finite_le 500 x) /\
  exists r, verify (DA lm) [dy 3 0; dy 5 0] [dy 3 0; dy 7 0] 2 = Some r /\ r_diff r = dy 2 0.
Proof.
  split; [lia|]. split; [intros x [[<-|[<-|[]]]|[<-|[<-|[]]]]; apply dy_finite; lia|].
  assert (E : seen lm [dy 3 0; dy 5 0] [dy 3 0; dy 7 0] = Some (bits_of_b64 (dy 2 0), bits_of_b64 (b64_div mode_NE (dy 2 0) (dy 5 0)))) by (vm_compute; reflexivity).
  apply seen_inv in E. destruct E as (r & E & E1 & _). eauto.
Qed.
