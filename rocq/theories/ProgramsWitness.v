(** Runs of the test programs on concrete files.  Nothing of /repo is modelled here. *)
From Coq Require Import Reals Lra Lia ZArith List Bool.
From Coq Require Import ZifyBool ZifyNat.
From Flocq Require Import Core.Core IEEE754.BinarySingleNaN IEEE754.Binary IEEE754.Bits.
From Verif Require Import Base Huffman HuffStream HuffProps Stream Arith Mesh2D Mesh3D Derive2D Derive3D Codec2D Stream2D Exact Cells2D Geo2D Preserve2D Cells3D Preserve3D
  IEEE IEEELaws IEEEQuant IEEE2D IEEEAbs2D Api2D LibmModel LogLibm Witness2D Examples2D Refute2D RelaxApi2D Sz3 Sz3Cells Sz3Api Sz3Refute KeepApi2D Abs3D Sync3D Api3D Refute3D
  Log2D LogErr2D LogApi2D Log3D LogErr3D LogApi3D LinQuant Block BlockIEEE BlockRefute OfflineWitness2D Plan Total3D IEEE3D Uns3D UnsSync UnsErr UnsApi UnsRefute
  Pwr2D PwrErr2D PwrApi2D PwrWitness2D Lossless LosslessApi Verify VerifyApi Programs ProgramsApi.
Import ListNotations.
Local Open Scope Z_scope.
Local Notation F2 := (FA (lm32 true)).
Local Notation FL := (FA (lmlog32 false)). Local Notation OL := (FO (lmlog32 false)).

Lemma b32_le m e k : Z.abs m <= 2 ^ 17 -> -126 <= e <= 10 -> e + 17 <= k -> finite_le k (b32 (m, e)).
Proof.
  intros Hm He Hk. pose proof (b32_dy m e ltac:(lia) ltac:(lia)) as V. apply (val_fin_iff 24 128) in V. destruct V as [V1 V2].
  split; [exact V1|]. unfold b32. cbn [fst snd]. rewrite V2, Rabs_mult, (Rabs_pos_eq (bpow _ _)) by apply bpow_ge_0. rewrite <- abs_IZR.
  apply Rle_trans with (bpow radix2 (e + 17)); [|apply bpow_le; exact Hk]. rewrite bpow_plus, Rmult_comm. apply Rmult_le_compat_l; [apply bpow_ge_0|].
  change (bpow radix2 17) with (IZR (2 ^ 17)). apply IZR_le. exact Hm.
Qed.
Lemma b32_le_all k l x : forallb (fun me => (Z.abs (fst me) <=? 2 ^ 17) && (-126 <=? snd me) && (snd me <=? 10) && (snd me + 17 <=? k)) l = true ->
  In x (map b32 l) -> finite_le k x.
Proof.
  intros H Hx. apply in_map_iff in Hx. destruct Hx as ([m e] & <- & Hm). rewrite forallb_forall in H. specialize (H _ Hm). cbn [fst snd] in H. apply b32_le; lia.
Qed.

Lemma b32_int m : Z.abs m <= 2 ^ 17 -> B2R 24 128 (b32 (m, 0)) = IZR m.
Proof. intros Hm. pose proof (b32_dy m 0 ltac:(lia) ltac:(lia)) as V. apply (val_fin_iff 24 128) in V. destruct V as [_ V]. unfold b32. cbn [fst snd]. rewrite V. cbn [bpow]. ring. Qed.

(** ** 2D: a linear 8 x 8 field with a critical point in its last corner *)
Definition corner (p : list Z) (f : Z -> Z -> Z) : list (Z * Z) :=
  map (fun k => (if (5 <=? k / 8) && (5 <=? k mod 8) then nth (Z.to_nat ((k / 8 - 5) * 3 + (k mod 8 - 5))) p 0 else f (k / 8) (k mod 8), 0)) (zrange 0 64).
Definition q8 : list (Z * Z) := corner [205; 205; 207; 205; 600; 1000; 203; 200; -300] (fun i _ => 200 + 16 * i).
Definition s8 : list (Z * Z) := corner [201; 207; 205; 201; 600; 200; 205; 1000; -310] (fun _ j => 200 + 16 * j).
Lemma main_2d_example : (exists buf, compress_sz3 F2 true two ord0 ub0 8 8 (map b32 q8) (map b32 s8) (repeat 0 512) = Some (buf, 452%nat)) /\
  libm_ok F2 (FA_ieee (lm32 true)) /\ zstd_ok compress_bound store0 /\ sizes heap0 /\ (320 <= 452)%nat /\
  Z.of_nat (length (map b32 q8)) = 8 * 8 /\ Z.of_nat (length (map b32 s8)) = 8 * 8 /\ Z.of_nat (length (repeat 0 512)) <= 2 ^ 52 /\
  is_finite 53 1024 two = true /\ (B2R 53 1024 two <= bpow radix2 56)%R /\ (forall x, In x (map b32 q8) \/ In x (map b32 s8) -> finite_le 56 x) /\
  sz3_short F2 true two ord0 8 8 (map b32 q8) (map b32 s8) /\
  cell 8 8 (6, 6) (7, 6) (7, 7) /\ has_cp (vecF 8 (map b32 q8) (map b32 s8) (6, 6)) (vecF 8 (map b32 q8) (map b32 s8) (7, 6)) (vecF 8 (map b32 q8) (map b32 s8) (7, 7)).
Proof.
  split; [apply out_size_some; vm_compute; reflexivity|]. split; [apply lm32_ok|]. split; [exact store0_ok|]. split; [exact heap0_ok|]. split; [lia|].
  split; [reflexivity|]. split; [reflexivity|]. split; [vm_compute; discriminate|]. split; [reflexivity|].
  split; [rewrite two_val; apply Rle_trans with (bpow radix2 1); [cbn; lra|apply bpow_le; lia]|].
  split; [intros x [H|H]; [apply (b32_le_all 56 q8)|apply (b32_le_all 56 s8)]; auto|].
  split; [apply sz3_short_check; vm_compute; reflexivity|].
  split; [apply (cell_lower 8 8 6 6); lia|].
  change (vecF 8 (map b32 q8) (map b32 s8) (6, 6)) with (B2R 24 128 (b32 (600, 0)), B2R 24 128 (b32 (600, 0))).
  change (vecF 8 (map b32 q8) (map b32 s8) (7, 6)) with (B2R 24 128 (b32 (200, 0)), B2R 24 128 (b32 (1000, 0))).
  change (vecF 8 (map b32 q8) (map b32 s8) (7, 7)) with (B2R 24 128 (b32 (-300, 0)), B2R 24 128 (b32 (-310, 0))).
  rewrite !b32_int by lia. exists (119 / 362)%R, (3 / 362)%R, (240 / 362)%R. cbn [fst snd]. lra.
Qed.

(** The same fields with one more value in the second file. *)
Lemma longer_file : exists (U V : list binary32) junk run, libm_ok F2 (FA_ieee (lm32 true)) /\ (forall x, In x U \/ In x V -> finite_le 56 x) /\
  main_2d F2 store0 heap0 ord0 ub0 true two 8 8 (Some (tser_array F2 U)) (Some (tser_array F2 V)) junk = Some run /\
  main_2d F2 store0 heap0 ord0 ub0 true two 8 8 (Some (tser_array F2 U)) (Some (tser_array F2 (V ++ [b32 (1, 0)]))) junk = None.
Proof.
  destruct main_2d_example as ((buf & E) & HL & HZ & HH & HG & LU & LV & LJ & M1 & M2 & HF & HS & _).
  destruct (main_2d_run (lm32 true) HL store0 HZ heap0 HH ord0 ub0 true two 8 8 (map b32 q8) (map b32 s8) (repeat 0 512) buf 452 (or_intror HG) ltac:(lia) ltac:(lia) LU LV LJ M1 M2 HF E HS)
    as (n & U' & V' & rU & rV & ER & _).
  exists (map b32 q8), (map b32 s8), (repeat 0 512). eexists. split; [exact HL|]. split; [exact HF|]. split; [exact ER|].
  pose proof (main_2d_longer (lm32 true) HL store0 HZ heap0 HH ord0 ub0 true two 8 8 (map b32 q8) (map b32 s8) [] [b32 (1, 0)] (repeat 0 512) buf 452
    (or_intror HG) ltac:(lia) ltac:(lia) LU LV LJ M1 M2 HF E HS ltac:(discriminate)) as K. rewrite app_nil_r in K. exact K.
Qed.

(** ** 3D *)
Definition e3 (f : Z -> Z) : list (Z * Z) := map (fun p => if (p =? 0) || (p =? 5) then (-1000, 0) else (64000 + 32000 * (f p mod 2) + p mod 3, -6)) (zrange 0 32).
Definition e3U : list (Z * Z) := e3 (fun p => p / 16). Definition e3V : list (Z * Z) := e3 (fun p => p / 8). Definition e3W : list (Z * Z) := e3 (fun p => p mod 8).
Lemma main_3d_example : (exists buf, compress_abs3 F2 ftk0 ex_eb ord0 ub0 2 2 8 (map b32 e3U) (map b32 e3V) (map b32 e3W) (repeat 0 384) = Some (buf, 349%nat)) /\
  libm_ok F2 (FA_ieee (lm32 true)) /\ zstd_ok compress_bound store0 /\ sizes heap0 /\ (320 <= 349)%nat /\
  sized 2 2 8 (map b32 e3U) /\ sized 2 2 8 (map b32 e3V) /\ sized 2 2 8 (map b32 e3W) /\ Z.of_nat (length (repeat 0 384)) <= 2 ^ 52 /\
  finite_le 38 ex_eb /\ (forall x, In x (map b32 e3U) \/ In x (map b32 e3V) \/ In x (map b32 e3W) -> finite_le 38 x) /\
  short_codes3 (enc_abs3 F2 ftk0 ex_eb) ord0 2 2 8 (map b32 e3U) (map b32 e3V) (map b32 e3W) /\
  tet 2 2 8 [(0, 0, 0); (1, 0, 0); (1, 1, 0); (1, 1, 1)] /\
  check_cp3 F2 ftk0 (map b32 e3U) (map b32 e3V) (map b32 e3W) 2 8 (0, 0, 0) (1, 0, 0) (1, 1, 0) (1, 1, 1) = Some true.
Proof.
  split; [apply out_size_some; vm_compute; reflexivity|]. split; [apply lm32_ok|]. split; [exact store0_ok|]. split; [exact heap0_ok|]. split; [lia|].
  split; [reflexivity|]. split; [reflexivity|]. split; [reflexivity|]. split; [vm_compute; discriminate|].
  split; [destruct (dy_B2R 1 (-2) ltac:(lia) ltac:(lia)) as [K1 K2]; split; [exact K1|]; unfold ex_eb; rewrite K2, Rmult_1_l, Rabs_pos_eq by apply bpow_ge_0; apply bpow_le; lia|].
  split; [intros x [H|[H|H]]; [apply (b32_le_all 38 e3U)|apply (b32_le_all 38 e3V)|apply (b32_le_all 38 e3W)]; auto|].
  split; [apply short_small3; try lia; vm_compute; reflexivity|].
  split; [apply (tet_path 2 2 8 (0, 0, 0) (1, 0, 0) (0, 1, 0) (0, 0, 1)); cbn; try lia; apply Permutation.Permutation_refl|]. vm_compute. reflexivity.
Qed.

(** ** A mesh *)
Definition ut : list (Z * Z) := concat (map (fun p => let e := if p <? 24 then p / 12 else p mod 2 in
  if p mod 4 =? 3 then [(-1, e); (-1, 1); (-1, 2)] else [(1, e); (1, 1); (1, 2)]) (zrange 0 40)).
Definition mesh2 : list tetra := [(20, 21, 22, 23); (4, 5, 6, 8)].
Lemma ut_usual x : In x (map b32 ut) -> nonzero_usual 38 x.
Proof.
  assert (K : forall me, In me ut -> (fst me = 1 \/ fst me = -1) /\ 0 <= snd me <= 2).
  { assert (H : forallb (fun me => ((fst me =? 1) || (fst me =? -1)) && (0 <=? snd me) && (snd me <=? 2)) ut = true) by (vm_compute; reflexivity).
    intros me Hm. rewrite forallb_forall in H. specialize (H me Hm). lia. }
  intros Hx. apply in_map_iff in Hx. destruct Hx as ([m e] & <- & Hm). specialize (K _ Hm). cbn [fst snd] in K. destruct K as [K1 K2].
  destruct (b32_fin m e ltac:(lia) ltac:(lia)) as [(Fx & Bl & _) V]. split.
  - split; [exact Fx|]. split; [exact Bl|]. rewrite V, Rabs_mult, (Rabs_pos_eq (bpow _ _)) by apply bpow_ge_0. rewrite <- abs_IZR. replace (Z.abs m) with 1 by lia. rewrite Rmult_1_l. apply bpow_le. lia.
  - assert (NZ : B2R 24 128 (b32 (m, e)) <> 0%R) by (rewrite V; apply Rmult_integral_contrapositive; split; [apply IZR_neq; lia|apply Rgt_not_eq, bpow_gt_0]).
    destruct (b32 (m, e)); try reflexivity. cbn [B2R] in NZ. congruence.
Qed.
Lemma few_uns A max_eb ord n tets data :
  (match enc_uns A max_eb tets n data with Some (_, c) => (length (nodup Z.eq_dec (c_q c)) <=? 65)%nat | None => true end) = true -> uns_short A max_eb ord n tets data.
Proof. intros HC s c E. rewrite E in HC. apply Nat.leb_le in HC. apply few_symbols_max_code. exact HC. Qed.
Lemma main_uns_example : (exists buf, compress_uns FL (dy 1 0) ord0 ub0 40 mesh2 (map b32 ut) (repeat 0 480) = Some (buf, 386%nat)) /\
  (exists buf, compress_uns FL (dy 1 0) ord0 ub0 40 [] (map b32 ut) (repeat 0 480) = Some (buf, 338%nat)) /\
  libm_ok FL (FA_ieee (lmlog32 false)) /\ log_libm_ok FL (FA_ieee (lmlog32 false)) /\ zstd_ok compress_bound store0 /\ sizes heap0 /\
  Z.of_nat (length (map b32 ut)) = 3 * 40 /\ Z.of_nat (length (repeat 0 480)) <= 2 ^ 52 /\
  is_finite 53 1024 (dy 1 0) = true /\ (0 <= B2R 53 1024 (dy 1 0) <= 5 / 2)%R /\ (forall x, In x (map b32 ut) -> nonzero_usual 38 x) /\
  uns_short FL (dy 1 0) ord0 40 mesh2 (map b32 ut) /\ uns_short FL (dy 1 0) ord0 40 [] (map b32 ut).
Proof.
  split; [apply out_size_some; vm_compute; reflexivity|]. split; [apply out_size_some; vm_compute; reflexivity|].
  split; [apply lmlog32_ok|]. split; [apply lmlog32_log_ok|]. split; [exact store0_ok|]. split; [exact heap0_ok|].
  split; [reflexivity|]. split; [vm_compute; discriminate|]. split; [apply one_fin|]. split; [rewrite (proj2 one_fin); lra|]. split; [exact ut_usual|].
  split; apply few_uns; vm_compute; reflexivity.
Qed.
Lemma missing_mesh : exists (points data : list binary32) junk run, libm_ok FL (FA_ieee (lmlog32 false)) /\ log_libm_ok FL (FA_ieee (lmlog32 false)) /\
  (forall x, In x data -> nonzero_usual 38 x) /\
  main_uns FL store0 heap0 ord0 ub0 (dy 1 0) (Some (tser_array FL points)) (Some (tser_array FL data)) None junk = Some run /\ o_files run <> [] /\ o_reports run <> [].
Proof.
  destruct main_uns_example as (_ & (buf & E) & HL & HLL & HZ & HH & LD & LJ & M1 & M2 & HF & _ & HS).
  destruct (main_uns_run (lmlog32 false) HL store0 HZ heap0 HH ord0 ub0 HLL (dy 1 0) 40 [] (map b32 ut) (map b32 ut) (repeat 0 480) buf 338 ltac:(lia) LD LD LJ M1 M2 HF E HS)
    as (k & d' & r & ER & _).
  exists (map b32 ut), (map b32 ut), (repeat 0 480). eexists. split; [exact HL|]. split; [exact HLL|]. split; [exact HF|].
  rewrite main_uns_no_mesh. split; [exact ER|]. split; discriminate.
Qed.

(** ** Point-wise relative compression of one file *)
Definition pw168 : list (Z * Z) := map (fun k => if k mod 9 =? 4 then (0, 0) else (1 - 2 * (k mod 2), 60 - (k * k) mod 13)) (zrange 0 168).
Lemma main_test_example : (exists buf, compress_pwr FL OL ord0 ub0 (2 * 7) 12 12 true (dy 1 0) (repeat 0 3) (map b32 pw168) (repeat 0 806) (repeat 0 412) = Some (buf, 412%nat)) /\
  libm_ok FL (FA_ieee (lmlog32 false)) /\ log_libm_ok FL (FA_ieee (lmlog32 false)) /\ zstd_ok compress_bound store0 /\ sizes heap0 /\
  Z.of_nat (length (map b32 pw168)) = 2 * 7 * 12 /\
  (forall x, In x (map b32 pw168) -> zero_or_usual 100 x) /\ (exists x, In x (map b32 pw168) /\ B2R 24 128 x <> 0%R) /\
  is_finite 53 1024 (dy 1 0) = true /\ (bpow radix2 (-16) <= B2R 53 1024 (dy 1 0) <= 1)%R /\
  short_pwr FL OL ord0 (2 * 7) 12 12 (dy 1 0) (map b32 pw168).
Proof.
  split; [apply out_size_some; vm_compute; reflexivity|].
  split; [apply lmlog32_ok|]. split; [apply lmlog32_log_ok|]. split; [exact store0_ok|]. split; [exact heap0_ok|]. split; [reflexivity|].
  split; [intros x; apply b32_usual_all; reflexivity|]. split; [apply (b32_nonzero pw168 1 60); [left; reflexivity|lia|lia]|].
  split; [apply one_fin|]. split; [rewrite (proj2 one_fin); split; [change 1%R with (bpow radix2 0); apply bpow_le; lia|lra]|].
  apply few_pwr_short. vm_compute. reflexivity.
Qed.

(** ** Files *)
Lemma short_file_example : ser_ok F2 /\
  forall f, Some (tser_array F2 (firstn 60 (map b32 q8))) = Some f -> Z.of_nat (length f) < 8 * 8 * Z.of_nat (tsize_of F2).
Proof. split; [apply FA_ser|]. intros f E. apply Some_inj in E. subst f. rewrite (tser_array_length F2 _ (FA_ser (lm32 true))). vm_compute. reflexivity. Qed.
Lemma write_read_example : ser_ok F2 /\ (exists f, writefile F2 (map b32 q8) 64 = Some f) /\ (length [1; 2; 3]%Z < tsize_of F2)%nat.
Proof. split; [apply FA_ser|]. split; [eexists; apply (writefile_all F2); reflexivity|vm_compute; lia]. Qed.
