(** What runs of the test programs leave behind: files, reports.  Nothing of /repo is modelled here. *)
From Coq Require Import Reals Lra Lia ZArith List Bool.
From Coq Require Import ZifyBool ZifyNat.
From Flocq Require Import Core.Core IEEE754.BinarySingleNaN IEEE754.Binary IEEE754.Bits.
From Verif Require Import Base Huffman HuffStream HuffProps Stream Arith Mesh2D Mesh3D Derive2D Derive3D Codec2D Stream2D Exact Cells2D Geo2D Preserve2D Cells3D Preserve3D
  IEEE IEEELaws IEEEQuant IEEE2D IEEEAbs2D Api2D RelaxApi2D Sz3 Sz3Cells Sz3Api KeepApi2D Abs3D Sync3D Api3D Log2D LogErr2D LogApi2D Log3D LogSync3D LogErr3D LogApi3D LinQuant Block BlockIEEE Plan EbTool
  Total3D IEEE3D Uns3D UnsSync UnsErr UnsApi Pwr2D PwrErr2D PwrApi2D Lossless LosslessApi Verify VerifyApi Programs.
Import ListNotations.
Local Open Scope Z_scope.

(** ** Files *)
Section Files.
Context (A : Arith) (HS : ser_ok A).
Lemma read_as_ser (l : list (T A)) tail num : (length tail < tsize_of A)%nat ->
  readfile A (Some (tser_array A l ++ tail)) num = (Some l, Z.of_nat (length l)).
Proof.
  intros HT. unfold readfile, read_as. rewrite app_length, (tser_array_length A l HS).
  replace ((length l * tsize_of A + length tail) / tsize_of A)%nat with (length l).
  - rewrite (tread_array_app A l tail HS). reflexivity.
  - rewrite Nat.add_comm, Nat.div_add by lia. rewrite Nat.div_small by exact HT. reflexivity.
Qed.
Lemma readfile_ser (l : list (T A)) num : readfile A (Some (tser_array A l)) num = (Some l, Z.of_nat (length l)).
Proof. pose proof (tsize_pos A HS). pose proof (read_as_ser l [] num ltac:(cbn [length]; lia)) as H0. rewrite app_nil_r in H0. exact H0. Qed.
Lemma tread_array_length n : forall s l s', tread_array A n s = Some (l, s') -> length l = n.
Proof.
  induction n as [|n IH]; intros s l s' H; cbn [tread_array] in H; [apply Some_inj in H; inversion H; reflexivity|].
  bind_as H [b s1] E1. bind_as H [l1 s2] E2. apply Some_inj in H. inversion H; subst. cbn [length]. f_equal. eapply IH. exact E2.
Qed.
Lemma read_as_length f num l n : readfile A (Some f) num = (Some l, n) -> Z.of_nat (length l) * Z.of_nat (tsize_of A) <= Z.of_nat (length f).
Proof.
  unfold readfile, read_as. intros H. destruct (tread_array A (length f / tsize_of A) f) as [[l' s']|] eqn:E; [|discriminate H].
  inversion H; subst l' n. rewrite (tread_array_length _ _ _ _ E).
  pose proof (tsize_pos A HS). pose proof (Nat.mul_div_le (length f) (tsize_of A) ltac:(lia)). rewrite <- Nat2Z.inj_mul. lia.
Qed.
Lemma values_all (l : list (T A)) n : Z.of_nat (length l) = n -> values A (Some l) n = Some l.
Proof.
  intros <-. unfold values. cbn [bind]. replace ((0 <=? Z.of_nat (length l)) && (Z.of_nat (length l) <=? Z.of_nat (length l))) with true by lia.
  rewrite Nat2Z.id, firstn_all. reflexivity.
Qed.
Lemma writefile_all (l : list (T A)) n : Z.of_nat (length l) = n -> writefile A l n = Some (tser_array A l).
Proof.
  intros <-. unfold writefile. replace ((0 <=? Z.of_nat (length l)) && (Z.of_nat (length l) <=? Z.of_nat (length l))) with true by lia.
  rewrite Nat2Z.id, firstn_all. reflexivity.
Qed.
(** A file that was written is read back. *)
Theorem write_read (l : list (T A)) n f num : 0 <= n -> writefile A l n = Some f ->
  readfile A (Some f) num = (Some (firstn (Z.to_nat n) l), n) /\ Z.of_nat (length f) = n * Z.of_nat (tsize_of A).
Proof.
  intros Hn H. unfold writefile in H. destruct (_ && _)%bool eqn:E in H; [|discriminate]. apply Some_inj in H. subst f.
  rewrite readfile_ser, (tser_array_length A _ HS), firstn_length. split; [f_equal; lia|]. rewrite Nat2Z.inj_mul. f_equal. lia.
Qed.
End Files.

Lemma read_ints_app : forall (l rest : list Z), Forall (fun v => - 2 ^ 31 <= v < 2 ^ 31) l ->
  read_ints (length l) (flat_map (le_bytes 4) l ++ rest) = Some (l, rest).
Proof.
  induction l as [|x l IH]; intros rest H; cbn [length read_ints flat_map app]; [reflexivity|]. inversion H; subst.
  rewrite <- app_assoc, read_s32_app by assumption. cbn [bind]. rewrite IH by assumption. reflexivity.
Qed.
Lemma ints_length (l : list Z) : length (flat_map (le_bytes 4) l) = (length l * 4)%nat.
Proof. induction l as [|x l IH]; cbn [flat_map length]; [reflexivity|]. rewrite app_length, IH, le_bytes_length. lia. Qed.
(** The bytes of a mesh. *)
Definition mesh_bytes (tets : list tetra) : list Z := flat_map (fun t : tetra => let '(a, b, c, d) := t in flat_map (le_bytes 4) [a; b; c; d]) tets.
Lemma mesh_ints tets : mesh_bytes tets = flat_map (le_bytes 4) (flat_map (fun t : tetra => let '(a, b, c, d) := t in [a; b; c; d]) tets).
Proof.
  induction tets as [|[[[a b] c] d] l IH]; [reflexivity|].
  transitivity (flat_map (le_bytes 4) [a; b; c; d] ++ mesh_bytes l); [reflexivity|]. rewrite IH, <- flat_map_app. reflexivity.
Qed.
Lemma quads_flat tets : quads (flat_map (fun t : tetra => let '(a, b, c, d) := t in [a; b; c; d]) tets) = tets.
Proof. induction tets as [|[[[a b] c] d] l IH]; cbn [flat_map app quads]; [reflexivity|]. rewrite IH. reflexivity. Qed.
Lemma flat_len tets : length (flat_map (fun t : tetra => let '(a, b, c, d) := t in [a; b; c; d]) tets) = (4 * length tets)%nat.
Proof. induction tets as [|[[[a b] c] d] l IH]; cbn [flat_map app length]; [reflexivity|]. lia. Qed.
Lemma readfile_mesh n tets num : 0 <= n < 2 ^ 31 -> forallb (in_range n) tets = true ->
  exists l, readfile_int (Some (mesh_bytes tets)) num = (Some l, 4 * Z.of_nat (length tets)) /\ quads l = tets.
Proof.
  intros Hn HT. set (l := flat_map (fun t : tetra => let '(a, b, c, d) := t in [a; b; c; d]) tets). exists l. split; [|apply quads_flat].
  unfold readfile_int, read_as. rewrite mesh_ints. fold l. rewrite ints_length, Nat.div_mul by lia.
  rewrite <- (app_nil_r (flat_map (le_bytes 4) l)), read_ints_app.
  - cbn [option_map fst]. f_equal. unfold l. rewrite flat_len. lia.
  - apply Forall_forall. intros v Hv. unfold l in Hv. apply in_flat_map in Hv. destruct Hv as ([[[a b] c] d] & HI & Hv).
    rewrite forallb_forall in HT. specialize (HT _ HI). unfold in_range in HT. destruct Hv as [<-|[<-|[<-|[<-|[]]]]]; lia.
Qed.

(** ** The size printed *)
Lemma outsize_range z heap buf size : zstd_ok compress_bound z -> sizes heap ->
  (size <= length buf)%nat -> Z.of_nat size <= 2 ^ 52 -> (size < 100)%nat \/ (320 <= size)%nat ->
  exists n, outsize z heap (Some (buf, size)) = Some n /\ 0 <= n <= room (Z.of_nat size).
Proof.
  intros HZ HH HL HM HG. assert (EL : length (firstn size buf) = size) by (rewrite firstn_length; lia).
  destruct (wrapper_round _ z HZ heap HH 3 (firstn size buf)) as (c & n & s & E1 & E2 & _).
  - rewrite EL. lia.
  - rewrite EL. apply room_bound; lia.
  - exists n. unfold outsize. cbn [option_map fst snd]. rewrite E1. cbn [snd]. rewrite EL in E2. auto.
Qed.

Lemma verify_short A (ori dec : list (T A)) n : (length dec < n)%nat -> verify A ori dec n = None.
Proof. intros H. unfold verify. destruct ori as [|x o]; [reflexivity|]. destruct dec as [|y d]; [reflexivity|]. replace (n <=? length (y :: d))%nat with false by lia. rewrite andb_false_r. reflexivity. Qed.

(** ** Reports *)
Section Reports.
Context (lm : Libm binary32 binary64).
Local Notation F := (FA lm).

Lemma report_abs (ori dec : list binary32) b0 : ori <> [] -> length dec = length ori -> (forall x, In x ori -> finite_le 56 x) -> (b0 <= bpow radix2 57)%R ->
  (forall i x y, nth_error ori i = Some x -> nth_error dec i = Some y -> is_finite 24 128 y = true /\ (Rabs (B2R 24 128 y - B2R 24 128 x) <= b0)%R) ->
  exists r, verify F ori dec (length ori) = Some r /\ is_finite 24 128 (r_diff r) = true /\ (B2R 24 128 (r_diff r) <= b0 * (1 + bpow radix2 (-24)))%R.
Proof.
  intros HN HL HO HB HE. assert (N0 : (0 < length ori)%nat) by (destruct ori; [congruence|cbn [length]; lia]).
  apply (verify_within_float lm); auto; try lia.
  - intros x [HI|HI]; [destruct (HO x HI) as [F1 F2]; split; [exact F1|eapply Rle_trans; [exact F2|apply bpow_le; lia]]|].
    apply In_nth_error in HI. destruct HI as [i Ei]. assert (Hi : (i < length ori)%nat) by (rewrite <- HL; apply nth_error_Some; congruence).
    destruct (nth_error ori i) as [x0|] eqn:E0; [|apply nth_error_None in E0; lia].
    destruct (HE i x0 x E0 Ei) as [F1 F2]. split; [exact F1|]. destruct (HO x0) as [_ F3]; [eapply nth_error_In; eauto|].
    apply Rle_trans with (bpow radix2 57 * 2)%R.
    + assert (bpow radix2 56 <= bpow radix2 57)%R by (apply bpow_le; lia). apply Rabs_le_inv in F2, F3. apply Rabs_le. lra.
    + change 2%R with (bpow radix2 1). rewrite <- bpow_plus. apply bpow_le. lia.
  - intros i x y Hi Ex Ey. apply (HE i x y); auto.
Qed.

Lemma report_rel (ori dec : list binary32) b0 : ori <> [] -> length dec = length ori -> (forall x, In x ori \/ In x dec -> finite_le 126 x) -> (0 <= b0)%R ->
  (forall i x y, nth_error ori i = Some x -> nth_error dec i = Some y -> (1 < Rabs (B2R 24 128 x))%R -> (Rabs (B2R 24 128 y - B2R 24 128 x) <= Rabs (B2R 24 128 x) * b0)%R) ->
  exists r, verify F ori dec (length ori) = Some r /\ is_finite 53 1024 (r_pw r) = true /\ (B2R 53 1024 (r_pw r) <= b0 * (1 + bpow radix2 (-22)) + bpow radix2 (-1074))%R.
Proof.
  intros HN HL HO HB HE. assert (N0 : (0 < length ori)%nat) by (destruct ori; [congruence|cbn [length]; lia]).
  destruct (verify_float lm ori dec (length ori) N0 ltac:(lia) ltac:(lia) HO) as (r & E & _ & Fp & _ & _ & _ & _ & HP).
  exists r. split; [exact E|]. split; [exact Fp|].
  pose proof (bpow_gt_0 radix2 (-22)) as P1. pose proof (bpow_gt_0 radix2 (-1074)) as P2.
  destruct HP as [->|(i & x & y & Hi & Ex & Ey & X1 & H)].
  - assert (0 <= b0 * (1 + bpow radix2 (-22)))%R by (apply Rmult_le_pos; lra). lra.
  - eapply Rle_trans; [exact H|]. apply Rplus_le_compat_r, Rmult_le_compat_r; [lra|].
    apply Rmult_le_reg_r with (Rabs (B2R 24 128 x)); [lra|]. unfold Rdiv. rewrite Rmult_assoc, Rinv_l by lra. rewrite Rmult_1_r, Rmult_comm with (r1 := b0).
    apply (HE i x y); auto.
Qed.
End Reports.

Lemma aget_nth {X} (l : list X) i x : nth_error l i = Some x -> aget l (Z.of_nat i) = Some x.
Proof. intros E. unfold aget. replace (Z.of_nat i <? 0) with false by lia. rewrite Nat2Z.id. exact E. Qed.

(** ** The runs, given what their parts do *)
Section Assemble.
Context (A : Arith) (HS : ser_ok A) (O : FOps A) (ftk : D A * D A * D A -> D A * D A * D A -> D A * D A * D A -> D A * D A * D A -> bool).
Context (z : zstd) (heap : Z -> list Z) (ord : queue -> bool) (ub : Z -> Z -> Z).
Local Notation file l := (Some (tser_array A l)).

Lemma values_app (W W1 : list (T A)) n : Z.of_nat (length W) = n -> values A (Some (W ++ W1)) n = Some W.
Proof.
  intros <-. unfold values. cbn [bind]. rewrite app_length. replace ((0 <=? Z.of_nat (length W)) && (Z.of_nat (length W) <=? Z.of_nat (length W + length W1))) with true by lia.
  f_equal. rewrite Nat2Z.id, firstn_app, Nat.sub_diag, firstn_all. cbn [firstn]. apply app_nil_r.
Qed.

Lemma main_2d_eq wrap max_eb r1 r2 U V junk n U' V' rU rV :
  Z.of_nat (length U) = r1 * r2 -> Z.of_nat (length V) = r1 * r2 -> length U' = length U -> length V' = length V ->
  outsize z heap (compress_sz3 A wrap max_eb ord ub r1 r2 U V junk) = Some n ->
  pipeline z heap (compress_sz3 A wrap max_eb ord ub r1 r2 U V junk) (decompress_sz3 A wrap r1 r2) = Some (U', V') ->
  verify A U U' (length U) = Some rU -> verify A V V' (length V) = Some rV ->
  main_2d A z heap ord ub wrap max_eb r1 r2 (file U) (file V) junk =
    Some {| o_size := n; o_reports := [rU; rV]; o_files := [tser_array A U'; tser_array A V'] |}.
Proof.
  intros LU LV L1 L2 EN HP EU EV. unfold main_2d. rewrite !(readfile_ser A HS), (values_all A U (r1 * r2)), (values_all A V (r1 * r2)) by assumption. cbn [bind].
  rewrite EN, HP. cbn [bind]. unfold check_values. cbn [bind]. rewrite Nat2Z.id. assert (EL : length V = length U) by lia.
  rewrite EV. rewrite EL. rewrite EU. cbn [bind]. rewrite (writefile_all A U'), (writefile_all A V') by lia. reflexivity.
Qed.
Lemma main_2d_none wrap max_eb r1 r2 U V U1 V1 junk U' V' : V1 <> [] ->
  Z.of_nat (length U) = r1 * r2 -> Z.of_nat (length V) = r1 * r2 -> length U' = length U ->
  pipeline z heap (compress_sz3 A wrap max_eb ord ub r1 r2 U V junk) (decompress_sz3 A wrap r1 r2) = Some (U', V') ->
  main_2d A z heap ord ub wrap max_eb r1 r2 (file (U ++ U1)) (file (V ++ V1)) junk = None.
Proof.
  intros HN LU LV L1 HP. unfold main_2d. rewrite !(readfile_ser A HS), (values_app U U1), (values_app V V1) by assumption. cbn [bind].
  destruct (outsize _ _ _) as [n|]; [|reflexivity]. cbn [bind]. rewrite HP. cbn [bind].
  unfold check_values. cbn [bind]. rewrite Nat2Z.id, (verify_short A (U ++ U1) U'); [reflexivity|].
  rewrite app_length. destruct V1 as [|v V1]; [congruence|]. cbn [length]. lia.
Qed.

(** A field file that cannot be opened or is too short for the grid. *)
Lemma main_2d_short wrap max_eb r1 r2 fU fV junk : (forall f, fU = Some f -> Z.of_nat (length f) < r1 * r2 * Z.of_nat (tsize_of A)) \/ (forall f, fV = Some f -> Z.of_nat (length f) < r1 * r2 * Z.of_nat (tsize_of A)) ->
  main_2d A z heap ord ub wrap max_eb r1 r2 fU fV junk = None.
Proof.
  assert (K : forall f num p n, (forall g, f = Some g -> Z.of_nat (length g) < r1 * r2 * Z.of_nat (tsize_of A)) -> readfile A f num = (p, n) -> values A p (r1 * r2) = None).
  { intros f num p n HF E. destruct (values A p (r1 * r2)) as [l|] eqn:EV; [exfalso|reflexivity]. unfold values in EV. destruct p as [l0|]; [|discriminate].
    cbn [bind] in EV. destruct (_ && _)%bool eqn:EB in EV; [|discriminate].
    destruct f as [g|]; [|discriminate E]. specialize (HF g eq_refl). pose proof (read_as_length A HS g num l0 n E) as KL.
    assert (r1 * r2 * Z.of_nat (tsize_of A) <= Z.of_nat (length l0) * Z.of_nat (tsize_of A)) by (apply Z.mul_le_mono_nonneg_r; lia). lia. }
  intros H. unfold main_2d. destruct (readfile A fU 0) as [U n1] eqn:E1. destruct (readfile A fV n1) as [V n] eqn:E2. destruct H as [H|H].
  - rewrite (K _ _ _ _ H E1). reflexivity.
  - destruct (values A U (r1 * r2)); [|reflexivity]. cbn [bind]. rewrite (K _ _ _ _ H E2). reflexivity.
Qed.

Lemma main_3d_eq max_eb r1 r2 r3 U V W junk n U' V' W' rU rV rW :
  Z.of_nat (length U) = r1 * r2 * r3 -> Z.of_nat (length V) = r1 * r2 * r3 -> Z.of_nat (length W) = r1 * r2 * r3 ->
  length U' = length U -> length V' = length V -> length W' = length W ->
  outsize z heap (compress_abs3 A ftk max_eb ord ub r1 r2 r3 U V W junk) = Some n ->
  pipeline z heap (compress_abs3 A ftk max_eb ord ub r1 r2 r3 U V W junk) (decompress_abs3 A r1 r2 r3) = Some (U', V', W') ->
  verify A U U' (length U) = Some rU -> verify A V V' (length V) = Some rV -> verify A W W' (length W) = Some rW ->
  main_3d A ftk z heap ord ub max_eb r1 r2 r3 (file U) (file V) (file W) junk =
    Some {| o_size := n; o_reports := [rU; rV; rW]; o_files := [tser_array A U'; tser_array A V'; tser_array A W'] |}.
Proof.
  intros LU LV LW L1 L2 L3 EN HP EU EV EW. unfold main_3d.
  rewrite !(readfile_ser A HS), (values_all A U (r1 * r2 * r3)), (values_all A V (r1 * r2 * r3)), (values_all A W (r1 * r2 * r3)) by assumption. cbn [bind].
  rewrite EN, HP. cbn [bind]. unfold check_values. cbn [bind]. rewrite Nat2Z.id.
  assert (EL1 : length V = length U) by lia. assert (EL2 : length W = length U) by lia.
  rewrite EW, EL2. rewrite EL1 in EV. rewrite EU, EV. cbn [bind]. rewrite (writefile_all A U'), (writefile_all A V'), (writefile_all A W') by lia. reflexivity.
Qed.
Lemma main_3d_none max_eb r1 r2 r3 U V W U1 V1 W1 junk U' V' W' : W1 <> [] ->
  Z.of_nat (length U) = r1 * r2 * r3 -> Z.of_nat (length V) = r1 * r2 * r3 -> Z.of_nat (length W) = r1 * r2 * r3 -> length U' = length U ->
  pipeline z heap (compress_abs3 A ftk max_eb ord ub r1 r2 r3 U V W junk) (decompress_abs3 A r1 r2 r3) = Some (U', V', W') ->
  main_3d A ftk z heap ord ub max_eb r1 r2 r3 (file (U ++ U1)) (file (V ++ V1)) (file (W ++ W1)) junk = None.
Proof.
  intros HN LU LV LW L1 HP. unfold main_3d. rewrite !(readfile_ser A HS), (values_app U U1), (values_app V V1), (values_app W W1) by assumption. cbn [bind].
  destruct (outsize _ _ _) as [n|]; [|reflexivity]. cbn [bind]. rewrite HP. cbn [bind].
  unfold check_values. cbn [bind]. rewrite Nat2Z.id, (verify_short A (U ++ U1) U'); [reflexivity|].
  rewrite app_length. destruct W1 as [|v W1]; [congruence|]. cbn [length]. lia.
Qed.

Lemma main_uns_eq max_eb n tets points data junk size data' r : 1 <= n < 2 ^ 31 -> forallb (in_range n) tets = true ->
  Z.of_nat (length points) = 3 * n -> Z.of_nat (length data) = 3 * n -> length data' = length data ->
  outsize z heap (compress_uns A max_eb ord ub n tets data junk) = Some size ->
  pipeline z heap (compress_uns A max_eb ord ub n tets data junk) (decompress_uns A n) = Some data' ->
  verify A data data' (length data) = Some r ->
  main_uns A z heap ord ub max_eb (file points) (file data) (Some (mesh_bytes tets)) junk =
    Some {| o_size := size; o_reports := [r]; o_files := [tser_array A data'] |}.
Proof.
  intros Hn HT LP LD L1 EN HP EV. unfold main_uns. destruct (readfile_mesh n tets 0 ltac:(lia) HT) as (l & -> & EQ).
  replace (4 * Z.of_nat (length tets) mod 4 =? 0) with true by (rewrite Z.mul_comm, Z.mod_mul by lia; reflexivity).
  rewrite !(readfile_ser A HS), LP. replace (3 * n mod 3 =? 0) with true by (rewrite Z.mul_comm, Z.mod_mul by lia; reflexivity).
  replace (3 * n / 3) with n by (rewrite Z.mul_comm, Z.div_mul by lia; reflexivity). cbv zeta. rewrite (values_all A data (3 * n)) by assumption. cbn [bind]. rewrite EQ, EN, HP. cbn [bind].
  unfold check_values. cbn [bind]. rewrite <- LD, Nat2Z.id, EV. cbn [bind]. rewrite (writefile_all A data') by lia. reflexivity.
Qed.

(** No mesh file: a run as with an empty mesh, so without any protection of critical points. *)
Lemma main_uns_no_mesh max_eb fpoints fdata junk : main_uns A z heap ord ub max_eb fpoints fdata None junk = main_uns A z heap ord ub max_eb fpoints fdata (Some (mesh_bytes [])) junk.
Proof. reflexivity. Qed.

Lemma main_test_eq eb r1 r2 r3 data pad jl junk mx mn size out dec r :
  Z.of_nat (length data) = r1 * r2 * r3 -> value_range A data = Some (mx, mn) ->
  outsize z heap (compress_pwr A O ord ub (r1 * r2) r3 12 true eb pad data jl junk) = Some size ->
  pipeline z heap (compress_pwr A O ord ub (r1 * r2) r3 12 true eb pad data jl junk) (decompress_pwr A O (r1 * r2) r3) = Some out -> written out = Some dec ->
  verify A data dec (length data) = Some r ->
  main_test A O z heap ord ub eb r1 r2 r3 (file data) pad jl junk = Some (tsub A mx mn, {| o_size := size; o_reports := [r]; o_files := [] |}).
Proof.
  intros LD ER EN HP EW EV. unfold main_test. rewrite !(readfile_ser A HS). cbn [bind]. rewrite ER. cbn [bind]. rewrite (values_all A data (r1 * r2 * r3)) by assumption. cbn [bind].
  rewrite EN, HP. cbn [bind]. rewrite EW. cbn [bind]. unfold check_values. cbn [bind]. rewrite Nat2Z.id, EV. reflexivity.
Qed.
End Assemble.

(** ** The value range *)
Section Range.
Context (A : Arith) (I : ieee A).
Local Notation vT := (vT A I).
Lemma range_fold l : forall x0 y0 a0 b0, vT x0 = Fin a0 -> vT y0 = Fin b0 -> (forall x, In x l -> exists a, vT x = Fin a) ->
  exists mx mn a b, fold_left (fun m x => (if tlt A (fst m) x then x else fst m, if tlt A x (snd m) then x else snd m)) l (x0, y0) = (mx, mn) /\
    vT mx = Fin a /\ vT mn = Fin b /\ (mx = x0 \/ In mx l) /\ (mn = y0 \/ In mn l) /\ (a0 <= a)%R /\ (b <= b0)%R /\
    forall x c, In x l -> vT x = Fin c -> (b <= c <= a)%R.
Proof.
  induction l as [|x l IH]; intros x0 y0 a0 b0 Ha Hb HF; cbn [fold_left].
  - exists x0, y0, a0, b0. repeat split; auto; try lra; contradiction.
  - destruct (HF x (or_introl eq_refl)) as [c Hc]. cbn [fst snd]. rewrite !(v_tlt A I), Ha, Hb, Hc.
    set (x1 := if xlt (Fin a0) (Fin c) then x else x0). set (y1 := if xlt (Fin c) (Fin b0) then x else y0).
    assert (X : exists a1, vT x1 = Fin a1 /\ (a0 <= a1)%R /\ (c <= a1)%R /\ (x1 = x0 \/ x1 = x)).
    { subst x1. destruct (xlt (Fin a0) (Fin c)) eqn:E; [apply xlt_fin in E; exists c|apply xlt_fin_false in E; exists a0]; repeat split; auto; lra. }
    assert (Y : exists b1, vT y1 = Fin b1 /\ (b1 <= b0)%R /\ (b1 <= c)%R /\ (y1 = y0 \/ y1 = x)).
    { subst y1. destruct (xlt (Fin c) (Fin b0)) eqn:E; [apply xlt_fin in E; exists c|apply xlt_fin_false in E; exists b0]; repeat split; auto; lra. }
    destruct X as (a1 & X1 & X2 & X3 & X4), Y as (b1 & Y1 & Y2 & Y3 & Y4).
    destruct (IH x1 y1 a1 b1 X1 Y1) as (mx & mn & a & b & E & V1 & V2 & I1 & I2 & L1 & L2 & H); [intros v Hv; apply HF; right; exact Hv|].
    exists mx, mn, a, b. split; [exact E|]. split; [exact V1|]. split; [exact V2|]. split; [|split; [|split; [lra|split; [lra|]]]].
    + destruct I1 as [->|I1]; [destruct X4 as [->| ->]|]; cbn [In]; auto.
    + destruct I2 as [->|I2]; [destruct Y4 as [->| ->]|]; cbn [In]; auto.
    + intros v d [<-|Hv] Hd; [assert (c = d) by congruence; subst d; lra|eauto].
Qed.
End Range.

Lemma value_range_float (lm : Libm binary32 binary64) (data : list binary32) : data <> [] -> (forall x, In x data -> finite_le 126 x) ->
  exists (mx mn : binary32), value_range (FA lm) data = Some (mx, mn) /\ In mx data /\ In mn data /\
    (forall x, In x data -> (B2R 24 128 mn <= B2R 24 128 x <= B2R 24 128 mx)%R) /\
    is_finite 24 128 (tsub (FA lm) mx mn) = true /\
    (Rabs (B2R 24 128 (tsub (FA lm) mx mn) - (B2R 24 128 mx - B2R 24 128 mn)) <= bpow radix2 (-24) * (B2R 24 128 mx - B2R 24 128 mn))%R.
Proof.
  intros HN HF. destruct data as [|x0 l]; [congruence|]. set (I := FA_ieee lm).
  assert (V : forall x, In x (x0 :: l) -> vT (FA lm) I x = Fin (B2R 24 128 x)) by (intros x Hx; apply (fin_val 24 128), HF; exact Hx).
  destruct (range_fold (FA lm) I l x0 x0 _ _ (V x0 (or_introl eq_refl)) (V x0 (or_introl eq_refl))) as (mx & mn & a & b & E & V1 & V2 & I1 & I2 & L1 & L2 & H).
  { intros x Hx. eexists. apply V. right. exact Hx. }
  exists mx, mn. split; [unfold value_range; f_equal; exact E|].
  assert (J1 : In mx (x0 :: l)) by (destruct I1 as [->|I1]; [left; reflexivity|right; exact I1]).
  assert (J2 : In mn (x0 :: l)) by (destruct I2 as [->|I2]; [left; reflexivity|right; exact I2]).
  assert (Ea : B2R 24 128 mx = a) by (pose proof (V _ J1) as K; congruence). assert (Eb : B2R 24 128 mn = b) by (pose proof (V _ J2) as K; congruence).
  split; [exact J1|]. split; [exact J2|].
  assert (HB : forall x, In x (x0 :: l) -> (b <= B2R 24 128 x <= a)%R) by (intros x [<-|Hx]; [lra|apply (H x); auto; apply V; right; exact Hx]).
  split; [rewrite Ea, Eb; exact HB|].
  destruct (HF _ J1) as [_ B1]. destruct (HF _ J2) as [_ B2]. rewrite Ea in B1. rewrite Eb in B2.
  assert (VS : vT (FA lm) I (tsub (FA lm) mx mn) = Fin (round radix2 (SpecFloat.fexp 24 128) ZnearestE (a - b))).
  { rewrite (v_tsub (FA lm) I), V1, V2. cbn [xsub rndx]. apply sat_fin.
    apply Rle_lt_trans with (bpow radix2 127); [|apply bpow_lt; reflexivity].
    apply (rnd_bound 24 128 eq_refl); [apply (fmt_bpow 24 128 eq_refl); lia|].
    change 127 with (126 + 1). rewrite bpow_plus. change (bpow radix2 1) with 2%R. apply Rabs_le. apply Rabs_le_inv in B1, B2. lra. }
  apply (val_fin_iff 24 128) in VS. destruct VS as [VS1 VS2]. split; [exact VS1|]. rewrite VS2, Ea, Eb.
  destruct (sub_err (FA lm) I a b) as [S _]; [apply (vT_fmt (FA lm) I _ _ V1)|apply (vT_fmt (FA lm) I _ _ V2)|].
  rewrite (Rabs_pos_eq (a - b)) in S by (destruct (HB x0 (or_introl eq_refl)); lra). exact S.
Qed.

Section Runs.
Context (lm : Libm binary32 binary64) (L : libm_ok (FA lm) (FA_ieee lm)).
Local Notation F := (FA lm).
Local Notation file l := (Some (tser_array F l)).
Context (z : zstd) (HZ : zstd_ok compress_bound z) (heap : Z -> list Z) (HH : sizes heap) (ord : queue -> bool) (ub : Z -> Z -> Z).

Theorem main_2d_run wrap max_eb r1 r2 U V junk buf size : (size < 100)%nat \/ (320 <= size)%nat ->
  1 <= r1 -> 1 <= r2 -> Z.of_nat (length U) = r1 * r2 -> Z.of_nat (length V) = r1 * r2 -> Z.of_nat (length junk) <= 2 ^ 52 ->
  is_finite 53 1024 max_eb = true -> (B2R 53 1024 max_eb <= bpow radix2 56)%R -> (forall x, In x U \/ In x V -> finite_le 56 x) ->
  compress_sz3 F wrap max_eb ord ub r1 r2 U V junk = Some (buf, size) -> sz3_short F wrap max_eb ord r1 r2 U V ->
  exists n U' V' rU rV, main_2d F z heap ord ub wrap max_eb r1 r2 (file U) (file V) junk =
      Some {| o_size := n; o_reports := [rU; rV]; o_files := [tser_array F U'; tser_array F V'] |} /\
    pipeline z heap (compress_sz3 F wrap max_eb ord ub r1 r2 U V junk) (decompress_sz3 F wrap r1 r2) = Some (U', V') /\
    verify F U U' (length U) = Some rU /\ verify F V V' (length V) = Some rV /\
    0 <= n <= room (Z.of_nat size) /\ length U' = length U /\ length V' = length V /\
    (forall i j, 0 <= i < r1 -> 0 <= j < r2 -> forall x x',
      (aget U (i * r2 + j) = Some x /\ aget U' (i * r2 + j) = Some x') \/ (aget V (i * r2 + j) = Some x /\ aget V' (i * r2 + j) = Some x') ->
      x' = x \/ (0 < B2R 53 1024 max_eb)%R /\ differs_le (level_bound (B2R 53 1024 max_eb) i j * (1 + bpow radix2 (-23))) x x') /\
    (forall a b d, cell r1 r2 a b d -> has_cp (vecF r2 U V a) (vecF r2 U V b) (vecF r2 U V d) ->
      forall x, In x [a; b; d] -> aget U' (lin r2 x) = aget U (lin r2 x) /\ aget V' (lin r2 x) = aget V (lin r2 x)) /\
    forall r, In r [rU; rV] -> is_finite 24 128 (r_diff r) = true /\ (B2R 24 128 (r_diff r) <= Rmax 0 (B2R 53 1024 max_eb) * (1 + bpow radix2 (-21)))%R.
Proof.
  intros HG R1 R2 LU LV LJ Fm Hm Hx HC HK.
  destruct (program_2d_float lm L z heap wrap max_eb ord ub r1 r2 U V junk buf size) as (U' & V' & HP & L1 & L2 & HB & HCP); auto.
  destruct (program_2d_report_float lm L z heap wrap max_eb ord ub r1 r2 U V junk buf size) as (U2 & V2 & rU & rV & HP2 & EU & EV & FU & FV & DU & DV); auto.
  rewrite HP in HP2. injection HP2 as <- <-.
  destruct (sz3_fits F wrap max_eb ord ub r1 r2 U V junk buf size ltac:(lia) HC HK) as [F1 F2].
  destruct (outsize_range z heap buf size HZ HH F1 ltac:(lia) HG) as (n & EN & RN).
  exists n, U', V', rU, rV. split; [|split; [exact HP|split; [exact EU|split; [exact EV|split; [exact RN|split; [exact L1|split; [exact L2|split; [exact HB|split; [exact HCP|]]]]]]]]].
  - apply (main_2d_eq F (FA_ser lm)); auto. rewrite HC. exact EN.
  - intros r [<-|[<-|[]]]; auto.
Qed.

(** A file with more values than the grid has: the report reads past the end of the decompressed array. *)
Theorem main_2d_longer wrap max_eb r1 r2 U V U1 V1 junk buf size : (size < 100)%nat \/ (320 <= size)%nat ->
  1 <= r1 -> 1 <= r2 -> Z.of_nat (length U) = r1 * r2 -> Z.of_nat (length V) = r1 * r2 -> Z.of_nat (length junk) <= 2 ^ 52 ->
  is_finite 53 1024 max_eb = true -> (B2R 53 1024 max_eb <= bpow radix2 56)%R -> (forall x, In x U \/ In x V -> finite_le 56 x) ->
  compress_sz3 F wrap max_eb ord ub r1 r2 U V junk = Some (buf, size) -> sz3_short F wrap max_eb ord r1 r2 U V -> V1 <> [] ->
  main_2d F z heap ord ub wrap max_eb r1 r2 (file (U ++ U1)) (file (V ++ V1)) junk = None.
Proof.
  intros HG R1 R2 LU LV LJ Fm Hm Hx HC HK HN.
  destruct (program_2d_float lm L z heap wrap max_eb ord ub r1 r2 U V junk buf size) as (U' & V' & HP & L1 & L2 & _); auto.
  exact (main_2d_none F (FA_ser lm) z heap ord ub wrap max_eb r1 r2 U V U1 V1 junk U' V' HN LU LV L1 HP).
Qed.

Theorem main_3d_run ftk max_eb r1 r2 r3 (U V W : list binary32) junk buf size : (size < 100)%nat \/ (320 <= size)%nat ->
  0 < r1 -> 0 < r2 -> 0 < r3 -> sized r1 r2 r3 U -> sized r1 r2 r3 V -> sized r1 r2 r3 W -> Z.of_nat (length junk) <= 2 ^ 52 ->
  finite_le 38 max_eb -> (forall x, In x U \/ In x V \/ In x W -> finite_le 38 x) ->
  compress_abs3 F ftk max_eb ord ub r1 r2 r3 U V W junk = Some (buf, size) ->
  short_codes3 (enc_abs3 F ftk max_eb) ord r1 r2 r3 U V W ->
  exists n (U' V' W' : list binary32) rU rV rW, main_3d F ftk z heap ord ub max_eb r1 r2 r3 (file U) (file V) (file W) junk =
      Some {| o_size := n; o_reports := [rU; rV; rW]; o_files := [tser_array F U'; tser_array F V'; tser_array F W'] |} /\
    pipeline z heap (compress_abs3 F ftk max_eb ord ub r1 r2 r3 U V W junk) (decompress_abs3 F r1 r2 r3) = Some (U', V', W') /\
    verify F U U' (length U) = Some rU /\ verify F V V' (length V) = Some rV /\ verify F W W' (length W) = Some rW /\
    0 <= n <= room (Z.of_nat size) /\ length U' = length U /\ length V' = length V /\ length W' = length W /\
    (forall p u v w u' v' w', aget U p = Some u -> aget V p = Some v -> aget W p = Some w ->
      aget U' p = Some u' -> aget V' p = Some v' -> aget W' p = Some w' ->
      let b := (B2R 53 1024 max_eb * (1 + bpow radix2 (-40)))%R in
      (u' = u /\ v' = v /\ w' = w) \/ (differs_lt b u u' /\ differs_lt b v v' /\ differs_lt b w w')) /\
    (forall a b d e, tet r1 r2 r3 [a; b; d; e] -> check_cp3 F ftk U V W r2 r3 a b d e = Some true ->
      forall x, In x [a; b; d; e] ->
      aget U' (lin3 r2 r3 x) = aget U (lin3 r2 r3 x) /\ aget V' (lin3 r2 r3 x) = aget V (lin3 r2 r3 x) /\
      aget W' (lin3 r2 r3 x) = aget W (lin3 r2 r3 x)) /\
    forall r, In r [rU; rV; rW] -> is_finite 24 128 (r_diff r) = true /\ (B2R 24 128 (r_diff r) <= Rmax 0 (B2R 53 1024 max_eb) * (1 + bpow radix2 (-23)))%R.
Proof.
  intros HG R1 R2 R3 SU SV SW LJ Fm Hx HC HK.
  destruct (program_3d_float lm L z heap ftk max_eb ord ub r1 r2 r3 U V W junk buf size) as (U' & V' & W' & HP & L1 & L2 & L3 & HB & HCP); auto; try lia.
  destruct (abs3_fits F ftk max_eb ord ub r1 r2 r3 U V W junk buf size ltac:(lia) HC HK) as [F1 F2].
  destruct (outsize_range z heap buf size HZ HH F1 ltac:(lia) HG) as (n & EN & RN).
  set (m := B2R 53 1024 max_eb) in *. set (b0 := (Rmax 0 m * (1 + bpow radix2 (-40)))%R).
  pose proof (bpow_gt_0 radix2 (-40)) as P. pose proof (Rmax_l 0 m) as M0. pose proof (Rmax_r 0 m) as M1.
  unfold sized in SU, SV, SW. change (@length binary32 U' = @length binary32 U) in L1. change (@length binary32 V' = @length binary32 V) in L2. change (@length binary32 W' = @length binary32 W) in L3.
  assert (N0 : 0 < r1 * r2 * r3) by nia.
  assert (Z0 : (0 <= b0)%R) by (apply Rmult_le_pos; lra).
  assert (MB : (m * (1 + bpow radix2 (-40)) <= b0)%R) by (apply Rmult_le_compat_r; lra).
  assert (B57 : (b0 <= bpow radix2 57)%R).
  { apply Rle_trans with (bpow radix2 38 * 2)%R.
    - apply Rmult_le_compat; [lra|lra|apply Rmax_lub; [apply bpow_ge_0|]|].
      + destruct Fm as [_ Fm]. apply Rabs_le_inv in Fm. apply Fm.
      + assert (bpow radix2 (-40) <= bpow radix2 0)%R by (apply bpow_le; lia). change (bpow radix2 0) with 1%R in *. lra.
    - change 2%R with (bpow radix2 1). rewrite <- bpow_plus. apply bpow_le. lia. }
  assert (EX : forall (l l' : list binary32) p x', length l' = length l -> aget l' p = Some x' -> exists x, aget l p = Some x).
  { intros l l' p x' EL E. unfold aget in *. destruct (p <? 0); [discriminate|]. destruct (nth_error l (Z.to_nat p)) as [x|] eqn:E0; [eauto|].
    apply nth_error_None in E0. assert (nth_error l' (Z.to_nat p) <> None) by congruence. apply nth_error_Some in H. lia. }
  assert (HW : forall i, (forall x y, nth_error U i = Some x -> nth_error U' i = Some y -> is_finite 24 128 y = true /\ (Rabs (B2R 24 128 y - B2R 24 128 x) <= b0)%R) /\
                         (forall x y, nth_error V i = Some x -> nth_error V' i = Some y -> is_finite 24 128 y = true /\ (Rabs (B2R 24 128 y - B2R 24 128 x) <= b0)%R) /\
                         (forall x y, nth_error W i = Some x -> nth_error W' i = Some y -> is_finite 24 128 y = true /\ (Rabs (B2R 24 128 y - B2R 24 128 x) <= b0)%R)).
  { intros i. destruct (Nat.lt_ge_cases i (length U)) as [Hi|Hi];
      [|assert (N1 : nth_error U i = None) by (apply nth_error_None; lia);
        assert (N2 : nth_error V i = None) by (apply nth_error_None; lia); assert (N3 : nth_error W i = None) by (apply nth_error_None; lia); rewrite N1, N2, N3; repeat split; discriminate].
    assert (GE : forall l : list binary32, length l = length U -> exists x, nth_error l i = Some x).
    { intros l EL. destruct (nth_error l i) as [x|] eqn:E; [eauto|]. apply nth_error_None in E. lia. }
    destruct (GE U) as [u E1]; [lia|]. destruct (GE V) as [v E2]; [lia|]. destruct (GE W) as [w E3]; [lia|]. destruct (GE U') as [u' E1']; [lia|]. destruct (GE V') as [v' E2']; [lia|]. destruct (GE W') as [w' E3']; [lia|].
    assert (PT : forall (l : list binary32) x y, nth_error l i = Some x -> nth_error l i = Some y -> x = y) by (intros; congruence).
    assert (SELF : forall x : binary32, finite_le 38 x -> is_finite 24 128 x = true /\ (Rabs (B2R 24 128 x - B2R 24 128 x) <= b0)%R).
    { intros x [Fx _]. split; [exact Fx|]. replace (B2R 24 128 x - B2R 24 128 x)%R with 0%R by ring. rewrite Rabs_R0. exact Z0. }
    destruct (HB (Z.of_nat i) u v w u' v' w') as [(-> & -> & ->)|((A1 & A2) & (B1 & B2) & (C1 & C2))]; try (apply aget_nth; assumption).
    - split; [|split]; intros x y Ex Ey.
      + rewrite (PT _ _ _ Ex E1), (PT _ _ _ Ey E1'). apply SELF, Hx. left. exact (nth_error_In _ _ E1).
      + rewrite (PT _ _ _ Ex E2), (PT _ _ _ Ey E2'). apply SELF, Hx. right. left. exact (nth_error_In _ _ E2).
      + rewrite (PT _ _ _ Ex E3), (PT _ _ _ Ey E3'). apply SELF, Hx. right. right. exact (nth_error_In _ _ E3).
    - split; [|split]; intros x y Ex Ey.
      + rewrite (PT _ _ _ Ex E1), (PT _ _ _ Ey E1'). split; [exact A1|]. apply Rlt_le. eapply Rlt_le_trans; [exact A2|exact MB].
      + rewrite (PT _ _ _ Ex E2), (PT _ _ _ Ey E2'). split; [exact B1|]. apply Rlt_le. eapply Rlt_le_trans; [exact B2|exact MB].
      + rewrite (PT _ _ _ Ex E3), (PT _ _ _ Ey E3'). split; [exact C1|]. apply Rlt_le. eapply Rlt_le_trans; [exact C2|exact MB]. }
  assert (UP : forall x : binary32, finite_le 38 x -> finite_le 56 x).
  { intros x [Fx Bx]. split; [exact Fx|]. eapply Rle_trans; [exact Bx|apply bpow_le; lia]. }
  assert (NE : forall l : list binary32, Z.of_nat (length l) = r1 * r2 * r3 -> l <> []) by (intros l EL ->; cbn [length] in EL; lia).
  destruct (report_abs lm U U' b0) as (rU & EU & FU & DU); auto; [intros i; apply HW|].
  destruct (report_abs lm V V' b0) as (rV & EV & FV & DV); auto; [intros i; apply HW|].
  destruct (report_abs lm W W' b0) as (rW & EW & FW & DW); auto; [intros i; apply HW|].
  exists n, U', V', W', rU, rV, rW. split; [|split; [exact HP|split; [exact EU|split; [exact EV|split; [exact EW|split; [exact RN|split; [exact L1|split; [exact L2|split; [exact L3|split; [exact HB|split; [exact HCP|]]]]]]]]]]].
  - apply (main_3d_eq F (FA_ser lm)); auto. rewrite HC. exact EN.
  - assert (FIN : (b0 * (1 + bpow radix2 (-24)) <= Rmax 0 m * (1 + bpow radix2 (-23)))%R).
    { unfold b0. rewrite Rmult_assoc. apply Rmult_le_compat_l; [lra|].
      assert (K1 : (bpow radix2 (-40) <= bpow radix2 (-26))%R) by (apply bpow_le; lia).
      assert (K2 : bpow radix2 (-23) = (8 * bpow radix2 (-26))%R) by (change (-23) with (-26 + 3); rewrite bpow_plus; change (bpow radix2 3) with 8%R; ring).
      assert (K3 : bpow radix2 (-24) = (4 * bpow radix2 (-26))%R) by (change (-24) with (-26 + 2); rewrite bpow_plus; change (bpow radix2 2) with 4%R; ring).
      assert (K4 : (bpow radix2 (-26) <= / 4)%R) by (change (/ 4)%R with (bpow radix2 (-2)); apply bpow_le; lia).
      pose proof (bpow_gt_0 radix2 (-26)). rewrite K2, K3. set (v := bpow radix2 (-26)) in *. set (q := bpow radix2 (-40)) in *. clear - P K1 K4 H.
      assert (q * v <= v * / 4)%R by (rewrite Rmult_comm; apply Rmult_le_compat_l; lra). lra. }
    intros r [<-|[<-|[<-|[]]]]; (split; [assumption|eapply Rle_trans; eassumption]).
Qed.


Theorem main_3d_longer ftk max_eb r1 r2 r3 (U V W U1 V1 W1 : list binary32) junk buf size : (size < 100)%nat \/ (320 <= size)%nat ->
  0 < r1 -> 0 < r2 -> 0 < r3 -> sized r1 r2 r3 U -> sized r1 r2 r3 V -> sized r1 r2 r3 W -> Z.of_nat (length junk) <= 2 ^ 52 ->
  finite_le 38 max_eb -> (forall x, In x U \/ In x V \/ In x W -> finite_le 38 x) ->
  compress_abs3 F ftk max_eb ord ub r1 r2 r3 U V W junk = Some (buf, size) ->
  short_codes3 (enc_abs3 F ftk max_eb) ord r1 r2 r3 U V W -> W1 <> [] ->
  main_3d F ftk z heap ord ub max_eb r1 r2 r3 (file (U ++ U1)) (file (V ++ V1)) (file (W ++ W1)) junk = None.
Proof.
  intros HG R1 R2 R3 SU SV SW LJ Fm Hx HC HK HN.
  destruct (program_3d_float lm L z heap ftk max_eb ord ub r1 r2 r3 U V W junk buf size) as (U' & V' & W' & HP & L1 & _); auto; try lia.
  exact (main_3d_none F (FA_ser lm) ftk z heap ord ub max_eb r1 r2 r3 U V W U1 V1 W1 junk U' V' W' HN SU SV SW L1 HP).
Qed.

Context (LL : log_libm_ok F (FA_ieee lm)).

Lemma uns_codes_small max_eb n tets data s c : 1 <= n -> Z.of_nat (length data) = 3 * n ->
  is_finite 53 1024 max_eb = true -> (0 <= B2R 53 1024 max_eb <= 5 / 2)%R -> (forall x, In x data -> nonzero_usual 38 x) ->
  enc_uns F max_eb tets n data = Some (s, c) -> forall e, In e (c_eb c) -> 0 <= e <= 24.
Proof.
  intros Hn1 HL M1 M2 HU HEn e He. set (m := B2R 53 1024 max_eb) in *.
  destruct (split3 data) as [[U V] W] eqn:ES. rewrite (enc_uns_split F n max_eb tets data U V W ES) in HEn.
  pose proof (split3_length data (Z.to_nat n) ltac:(lia)) as SL. rewrite ES in SL. destruct SL as (L1 & L2 & L3).
  assert (HU' : forall x, In x data -> usual F (FA_ieee lm) 38 x) by (intros x Hx; apply usual_b32; apply HU; exact Hx).
  destruct (split_all F (usual F (FA_ieee lm) 38) data U V W ES HU') as (MU & MV & MW).
  assert (Em : vD F (FA_ieee lm) max_eb = Fin m) by (apply (fin_val 53 1024); auto).
  pose proof (uns_err_step F (FA_ieee lm) L LL ltac:(cbn; lia) 38 ltac:(lia) ltac:(cbn; lia) max_eb m Em M2 tets n ltac:(lia) U V W MU MV MW) as ST.
  assert (I0 : log3_err F (FA_ieee lm) (fun _ => m) U V W 0 (U, V, W, (map (log_value F) U, map (log_value F) V, map (log_value F) W))).
  { split; [|split]; eapply (comp_err_init F (FA_ieee lm) LL ltac:(cbn; lia) 38 ltac:(lia) (fun _ => m) (fun _ => M2)); eauto. }
  exact (uns_symbols F max_eb tets 24 n (log3_err F (FA_ieee lm) (fun _ => m) U V W) ST U V W _ _ ltac:(lia) I0 HEn e He).
Qed.

Lemma uns_fits max_eb n tets data junk buf size : Z.of_nat (length junk) < 2 ^ 64 -> Z.of_nat (length data) = 3 * n ->
  is_finite 53 1024 max_eb = true -> (0 <= B2R 53 1024 max_eb <= 5 / 2)%R -> (forall x, In x data -> nonzero_usual 38 x) ->
  compress_uns F max_eb ord ub n tets data junk = Some (buf, size) -> uns_short F max_eb ord n tets data ->
  (size <= length buf)%nat /\ length buf = length junk /\ 1 <= n < 2 ^ 31 /\ forallb (in_range n) tets = true.
Proof.
  intros HJ HL M1 M2 HU HC HK. unfold compress_uns in HC. destruct (_ && _)%bool eqn:E1 in HC; [|discriminate].
  destruct (forallb (in_range n) tets) eqn:ER; [|discriminate]. bind_as HC [s c] HE. specialize (HK _ _ HE).
  destruct (Z.of_nat (length junk) =? _) in HC; [|discriminate].
  assert (K1 : max_code_64 ord 512 (c_eb c)).
  { apply small_symbols. intros e He. pose proof (uns_codes_small max_eb n tets data s c ltac:(lia) HL M1 M2 HU HE e He). lia. }
  assert (HF : Forall (piece_ok ord) (uns_pieces F data c)).
  { unfold uns_pieces, capacity. change (2 * 65536) with 131072. clear - K1 HK. repeat apply Forall_cons; try apply Forall_nil; cbn [piece_ok]; auto; split; auto; lia. }
  destruct (written_fits ord ub (uns_pieces F data c) junk buf size HJ HF HC) as [F1 F2]. split; [exact F1|]. split; [exact F2|]. split; [lia|reflexivity].
Qed.

Theorem main_uns_run max_eb n tets (points data : list binary32) junk buf size : (size < 100)%nat \/ (320 <= size)%nat ->
  Z.of_nat (length points) = 3 * n -> Z.of_nat (length data) = 3 * n -> Z.of_nat (length junk) <= 2 ^ 52 ->
  is_finite 53 1024 max_eb = true -> (0 <= B2R 53 1024 max_eb <= 5 / 2)%R -> (forall x, In x data -> nonzero_usual 38 x) ->
  compress_uns F max_eb ord ub n tets data junk = Some (buf, size) -> uns_short F max_eb ord n tets data ->
  exists k (data' : list binary32) r, main_uns F z heap ord ub max_eb (file points) (file data) (Some (mesh_bytes tets)) junk =
      Some {| o_size := k; o_reports := [r]; o_files := [tser_array F data'] |} /\
    pipeline z heap (compress_uns F max_eb ord ub n tets data junk) (decompress_uns F n) = Some data' /\ verify F data data' (length data) = Some r /\
    0 <= k <= room (Z.of_nat size) /\ length data' = length data /\
    (forall p x x', aget data p = Some x -> aget data' p = Some x' -> x' = x \/ rel_differs_le (B2R 53 1024 max_eb + bpow radix2 (-13)) x x') /\
    is_finite 53 1024 (r_pw r) = true /\ (B2R 53 1024 (r_pw r) <= B2R 53 1024 max_eb + bpow radix2 (-12))%R.
Proof.
  intros HG LP LD LJ M1 M2 HU HC HK. destruct (uns_fits max_eb n tets data junk buf size ltac:(lia) LD M1 M2 HU HC HK) as (F1 & F2 & Hn & HT).
  destruct (uns_bound_float lm L LL max_eb ord ub n tets data junk buf size LD ltac:(lia) M1 M2 HU HC HK) as (data' & HD & L1 & HB).
  change (@length binary32 data' = @length binary32 data) in L1.
  destruct (outsize_range z heap buf size HZ HH F1 ltac:(lia) HG) as (k & EN & RN).
  assert (HP : pipeline z heap (compress_uns F max_eb ord ub n tets data junk) (decompress_uns F n) = Some data') by (rewrite HC, pipeline_id; auto; lia).
  set (m := B2R 53 1024 max_eb) in *. pose proof (bpow_gt_0 radix2 (-13)) as P13.
  assert (B1 : (bpow radix2 (-13) <= / 2)%R) by (change (/ 2)%R with (bpow radix2 (-1)); apply bpow_le; lia).
  assert (NE : data <> []) by (intros ->; cbn [length] in LD; lia).
  destruct (report_rel lm data data' (m + bpow radix2 (-13))) as (r & ER & FR & DR); auto; [|lra| |].
  - intros x [HI|HI].
    + destruct (HU x HI) as [(Fx & _ & Bx) _]. split; [exact Fx|]. eapply Rle_trans; [exact Bx|apply bpow_le; lia].
    + apply In_nth_error in HI. destruct HI as [i Ei]. assert (Hi : (i < length data)%nat) by (rewrite <- L1; apply nth_error_Some; congruence).
      destruct (nth_error data i) as [x0|] eqn:E0; [|apply nth_error_None in E0; lia].
      destruct (HU x0 (nth_error_In _ _ E0)) as [(Fx & _ & Bx) _].
      destruct (HB (Z.of_nat i) x0 x (aget_nth _ _ _ E0) (aget_nth _ _ _ Ei)) as [->|(FX & _ & DX)].
      * split; [exact Fx|]. eapply Rle_trans; [exact Bx|apply bpow_le; lia].
      * split; [exact FX|]. apply Rle_trans with (bpow radix2 38 * 4)%R; [|change 4%R with (bpow radix2 2); rewrite <- bpow_plus; apply bpow_le; lia].
        assert (Rabs (B2R 24 128 x0) * (m + bpow radix2 (-13)) <= bpow radix2 38 * 3)%R by (apply Rmult_le_compat; try lra; apply Rabs_pos).
        replace (B2R 24 128 x) with (B2R 24 128 x - B2R 24 128 x0 + B2R 24 128 x0)%R by ring. eapply Rle_trans; [apply Rabs_triang|]. lra.
  - intros i x y Ex Ey _. destruct (HB (Z.of_nat i) x y (aget_nth _ _ _ Ex) (aget_nth _ _ _ Ey)) as [->|(_ & _ & DX)]; [|exact DX].
    replace (B2R 24 128 x - B2R 24 128 x)%R with 0%R by ring. rewrite Rabs_R0. apply Rmult_le_pos; [apply Rabs_pos|lra].
  - exists k, data', r. split; [|split; [exact HP|split; [exact ER|split; [exact RN|split; [exact L1|split; [exact HB|split; [exact FR|]]]]]]].
    + apply (main_uns_eq F (FA_ser lm) z heap ord ub max_eb n tets points data junk k data' r Hn HT LP LD L1); auto. rewrite HC. exact EN.
    + eapply Rle_trans; [exact DR|].
      assert (K1 : bpow radix2 (-12) = (512 * bpow radix2 (-21))%R) by (change (-12) with (-21 + 9); rewrite bpow_plus; change (bpow radix2 9) with 512%R; ring).
      assert (K2 : bpow radix2 (-13) = (256 * bpow radix2 (-21))%R) by (change (-13) with (-21 + 8); rewrite bpow_plus; change (bpow radix2 8) with 256%R; ring).
      assert (K3 : (2 * bpow radix2 (-22) = bpow radix2 (-21))%R) by (change (-21) with (-22 + 1); rewrite bpow_plus; change (bpow radix2 1) with 2%R; ring).
      assert (K4 : (bpow radix2 (-1074) <= bpow radix2 (-21))%R) by (apply bpow_le; lia).
      pose proof (bpow_gt_0 radix2 (-21)). assert (K5 : ((m + bpow radix2 (-13)) * bpow radix2 (-22) <= 3 * bpow radix2 (-22))%R) by (apply Rmult_le_compat_r; [apply bpow_ge_0|lra]).
      rewrite Rmult_plus_distr_l, Rmult_1_r. rewrite K1. rewrite K2 at 1. lra.
Qed.

Theorem main_test_run eb r1 r2 r3 pad (data : list binary32) jl junk buf size : (size < 100)%nat \/ (320 <= size)%nat ->
  length pad = 3%nat -> Z.of_nat (length jl) < 2 ^ 64 -> Z.of_nat (length junk) <= 2 ^ 52 ->
  1 <= r1 * r2 * r3 -> Z.of_nat (length data) = r1 * r2 * r3 ->
  (forall x, In x data -> zero_or_usual 100 x) -> (exists x, In x data /\ B2R 24 128 x <> 0%R) ->
  is_finite 53 1024 eb = true -> (bpow radix2 (-16) <= B2R 53 1024 eb <= 1)%R ->
  compress_pwr F (FO lm) ord ub (r1 * r2) r3 12 true eb pad data jl junk = Some (buf, size) -> short_pwr F (FO lm) ord (r1 * r2) r3 12 eb data ->
  exists k (v mx mn : binary32) r, main_test F (FO lm) z heap ord ub eb r1 r2 r3 (file data) pad jl junk =
      Some (v, {| o_size := k; o_reports := [r]; o_files := [] |}) /\
    (exists out (dec : list binary32), pipeline z heap (compress_pwr F (FO lm) ord ub (r1 * r2) r3 12 true eb pad data jl junk) (decompress_pwr F (FO lm) (r1 * r2) r3) = Some out /\
      written out = Some dec /\ verify F data dec (length data) = Some r) /\
    0 <= k <= room (Z.of_nat size) /\
    In mx data /\ In mn data /\ (forall x, In x data -> (B2R 24 128 mn <= B2R 24 128 x <= B2R 24 128 mx)%R) /\ is_finite 24 128 v = true /\
    (Rabs (B2R 24 128 v - (B2R 24 128 mx - B2R 24 128 mn)) <= bpow radix2 (-24) * (B2R 24 128 mx - B2R 24 128 mn))%R /\
    is_finite 53 1024 (r_pw r) = true /\ (B2R 53 1024 (r_pw r) <= B2R 53 1024 eb + bpow radix2 (-12))%R.
Proof.
  intros HG LP LL' LJ N1 LD HU HX M1 M2 HC HK.
  destruct (pwr_api_float lm L LL ord ub (r1 * r2) r3 12 true eb pad data jl junk buf size ltac:(lia) LP LL' ltac:(lia) N1 LD HU HX M1 M2 HC HK) as (out & HD & L1 & HB).
  set (m := B2R 53 1024 eb) in *. pose proof (bpow_gt_0 radix2 (-13)) as P13.
  assert (B1 : (bpow radix2 (-13) <= / 2)%R) by (change (/ 2)%R with (bpow radix2 (-1)); apply bpow_le; lia).
  assert (P16 : (0 < m)%R) by (apply Rlt_le_trans with (bpow radix2 (-16)); [apply bpow_gt_0|lra]).
  assert (F1 : (size <= length buf)%nat /\ length buf = length junk).
  { pose proof HC as HC'. unfold compress_pwr in HC'. bind_as HC' [a b] E1. bind_as HC' [bl sl] E2. unfold pwr_write in HC'.
    destruct (length junk =? _)%nat eqn:E3 in HC'; [|discriminate]. apply Nat.eqb_eq in E3. bind_as HC' [b' q] EW. apply Some_inj in HC'.
    assert (Eb : b' = buf) by congruence. assert (Es : size = length junk) by (rewrite E3; congruence). subst b'.
    pose proof (fun H => written_fits ord ub _ junk buf q ltac:(lia) H EW) as W. destruct W as [_ W2]; [repeat apply Forall_cons; try apply Forall_nil; exact Logic.I|]. rewrite Es, W2. split; [apply le_n|reflexivity]. }
  destruct F1 as [F1 F2]. destruct (outsize_range z heap buf size HZ HH F1 ltac:(lia) HG) as (k & EN & RN).
  assert (HP : pipeline z heap (compress_pwr F (FO lm) ord ub (r1 * r2) r3 12 true eb pad data jl junk) (decompress_pwr F (FO lm) (r1 * r2) r3) = Some out).
  { rewrite HC, pipeline_id by (auto; lia). specialize (HD []). rewrite app_nil_r in HD. exact HD. }
  change (list (option binary32)) in (type of out). change (@length (option binary32) out = Z.to_nat (r1 * r2 * r3)) in L1.
  destruct (@written_ok binary32 out) as (dec & W1 & W2 & W3).
  { intros i Hi. rewrite L1 in Hi. destruct (HB i Hi) as (x & x' & _ & E & _). exists x'. exact E. }
  assert (LX : length dec = length data) by (rewrite W2, L1; lia).
  assert (NE : data <> []) by (intros ->; cbn [length] in LD; lia).
  assert (HV : forall i x y, nth_error data i = Some x -> nth_error dec i = Some y -> is_finite 24 128 y = true /\ (Rabs (B2R 24 128 y) <= bpow radix2 126)%R /\
    ((1 < Rabs (B2R 24 128 x))%R -> (Rabs (B2R 24 128 y - B2R 24 128 x) <= Rabs (B2R 24 128 x) * (m + bpow radix2 (-13)))%R)).
  { intros i x y Ex Ey. assert (Hi : (i < length data)%nat) by (apply nth_error_Some; congruence).
    destruct (HB (Z.of_nat i) ltac:(lia)) as (x1 & y1 & Ex1 & Ey1 & H). pose proof (eq_trans (eq_sym Ex1) (aget_nth _ _ _ Ex)) as K. apply Some_inj in K. subst x1.
    pose proof (eq_trans (eq_sym Ey1) (W3 _ _ Ey)) as K2. apply Some_inj in K2. apply Some_inj in K2. subst y1. destruct (HU x (nth_error_In _ _ Ex)) as (_ & _ & Bx).
    assert (BB : forall t, (Rabs t <= bpow radix2 100)%R -> (Rabs t * 2 <= bpow radix2 126)%R).
    { intros t Ht. apply Rle_trans with (bpow radix2 100 * bpow radix2 1)%R; [change (bpow radix2 1) with 2%R; lra|]. rewrite <- bpow_plus. apply bpow_le. lia. }
    destruct H as [(Z0 & Fy & Py & HS)|(Fy & _ & HR)].
    - split; [exact Fy|]. split; [|rewrite Z0, Rabs_R0; lra]. destruct HS as [->|HS]; [cbn [B2R]; rewrite Rabs_R0; apply bpow_ge_0|].
      destruct HX as (x0 & I0 & N0). specialize (HS x0 I0 N0). destruct (HU x0 I0) as (_ & _ & Bx0). rewrite Rabs_pos_eq by exact Py.
      eapply Rle_trans; [exact HS|]. eapply Rle_trans; [|apply (BB _ Bx0)]. apply Rmult_le_compat_l; [apply Rabs_pos|lra].
    - split; [exact Fy|]. split; [|intros _; exact HR].
      assert (Rabs (B2R 24 128 x) * (m + bpow radix2 (-13)) <= Rabs (B2R 24 128 x) * (3 / 2))%R by (apply Rmult_le_compat_l; [apply Rabs_pos|lra]).
      apply Rle_trans with (bpow radix2 100 * bpow radix2 2)%R; [change (bpow radix2 2) with 4%R|rewrite <- bpow_plus; apply bpow_le; lia].
      replace (B2R 24 128 y) with (B2R 24 128 y - B2R 24 128 x + B2R 24 128 x)%R by ring. eapply Rle_trans; [apply Rabs_triang|]. pose proof (bpow_gt_0 radix2 100). lra. }
  assert (HO : forall x, In x data -> finite_le 126 x).
  { intros x Hx. destruct (HU x Hx) as (Fx & _ & Bx). split; [exact Fx|]. eapply Rle_trans; [exact Bx|apply bpow_le; lia]. }
  destruct (report_rel lm data dec (m + bpow radix2 (-13))) as (r & ER & FR & DR); auto; [|lra| |].
  - intros x [HI|HI]; [auto|]. apply In_nth_error in HI. destruct HI as [i Ei]. assert (Hi : (i < length data)%nat) by (rewrite <- LX; apply nth_error_Some; congruence).
    destruct (nth_error data i) as [x0|] eqn:E0; [|apply nth_error_None in E0; lia]. destruct (HV i x0 x E0 Ei) as (Fy & By & _). split; assumption.
  - intros i x y Ex Ey X1. apply (HV i x y Ex Ey). exact X1.
  - destruct (value_range_float lm data NE HO) as (mx & mn & EV & I1 & I2 & IB & FV & DV).
    exists k, (tsub F mx mn), mx, mn, r. split; [|split; [exists out, dec; auto|split; [exact RN|split; [exact I1|split; [exact I2|split; [exact IB|split; [exact FV|split; [exact DV|split; [exact FR|]]]]]]]]].
    + apply (main_test_eq F (FA_ser lm) (FO lm) z heap ord ub eb r1 r2 r3 data pad jl junk mx mn k out dec r); auto. rewrite HC. exact EN.
    + eapply Rle_trans; [exact DR|].
      assert (K1 : bpow radix2 (-12) = (512 * bpow radix2 (-21))%R) by (change (-12) with (-21 + 9); rewrite bpow_plus; change (bpow radix2 9) with 512%R; ring).
      assert (K2 : bpow radix2 (-13) = (256 * bpow radix2 (-21))%R) by (change (-13) with (-21 + 8); rewrite bpow_plus; change (bpow radix2 8) with 256%R; ring).
      assert (K3 : (2 * bpow radix2 (-22) = bpow radix2 (-21))%R) by (change (-21) with (-22 + 1); rewrite bpow_plus; change (bpow radix2 1) with 2%R; ring).
      assert (K4 : (bpow radix2 (-1074) <= bpow radix2 (-21))%R) by (apply bpow_le; lia).
      pose proof (bpow_gt_0 radix2 (-21)). assert (K5 : ((m + bpow radix2 (-13)) * bpow radix2 (-22) <= 3 * bpow radix2 (-22))%R) by (apply Rmult_le_compat_r; [apply bpow_ge_0|lra]).
      rewrite Rmult_plus_distr_l, Rmult_1_r. rewrite K1. rewrite K2 at 1. lra.
Qed.
End Runs.
