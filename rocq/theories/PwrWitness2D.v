(** Point-wise relative compression: fields that go through; zeros that come back non-zero, values that come back as zero, fields that
    overrun the verbatim block.  Nothing of /repo is modelled here. *)
From Coq Require Import Reals Lra Lia ZArith List Bool.
From Coq Require Import ZifyBool ZifyNat.
From Flocq Require Import Core.Core IEEE754.BinarySingleNaN IEEE754.Binary IEEE754.Bits.
From Verif Require Import Base Huffman HuffStream HuffProps BitPack Stream Arith Codec2D Sync2D Stream2D Exact IEEE IEEELaws IEEEQuant IEEE2D Api2D RelaxErr2D
  LibmModel LogLibm Witness2D Refute2D Examples2D LinQuant Block BlockSync BlockTile BlockBytes BlockIEEE BlockApi BlockRefute OfflineWitness2D Log2D LogCells2D LogErr2D LogApi2D LogRefute2D
  OffLog2D OffLogApi2D OffLogWitness2D Plan PlanApi Pwr2D PwrErr2D PwrApi2D.
Import ListNotations.
Local Open Scope Z_scope.
Local Notation FA0 := (FA (lmlog32 false)). Local Notation FO0 := (FO (lmlog32 false)).

(** ** One position of a decompressed field *)
Definition pwr_at {A : Arith} (dec : list Z -> option (list (option (T A)))) (r1 r2 : Z) (s : list Z) (i : Z) : option (T A * T A * Z) :=
  let n := Z.to_nat (r1 * r2) in
  if (1 <=? n)%nat then
    let* (tb, s1) := take_bytes (tsize_of A) s in
    let* (g, s2) := unpack_flags n (sign_map_size n) s1 in
    let* L := dec s2 in
    match aget L i, aget g i with Some (Some l), Some b => Some (tdes A tb, l, b) | _, _ => None end
  else None.
Lemma pwr_at_spec {A : Arith} f dec r1 r2 s i th l b : @pwr_at A dec r1 r2 s i = Some (th, l, b) ->
  exists out, decompress_pwr_with A f dec r1 r2 s = Some out /\ aget out i = Some (Some (f th l b)).
Proof.
  unfold pwr_at, decompress_pwr_with. cbv zeta. destruct (1 <=? Z.to_nat (r1 * r2))%nat; [|discriminate].
  destruct (take_bytes (tsize_of A) s) as [[tb s1]|]; [|discriminate]. cbn [bind].
  destruct (unpack_flags _ _ s1) as [[g s2]|]; [|discriminate]. cbn [bind]. destruct (dec s2) as [L|]; [|discriminate]. cbn [bind].
  destruct (aget L i) as [[l'|]|] eqn:E1; try discriminate. destruct (aget g i) as [b'|] eqn:E2; [|discriminate].
  intros H. apply Some_inj in H. inversion H; subst. eexists. split; [reflexivity|]. apply aget_restore; assumption.
Qed.

Definition b32 (me : Z * Z) : binary32 := b32_of_b64 (dy (fst me) (snd me)).
Lemma b32_fin m e : Z.abs m <= 1 -> -97 <= e <= 100 -> zero_or_usual 100 (b32 (m, e)) /\ B2R 24 128 (b32 (m, e)) = (IZR m * bpow radix2 e)%R.
Proof.
  intros Hm He. pose proof (b32_dy m e ltac:(lia) ltac:(lia)) as V. apply (val_fin_iff 24 128) in V. destruct V as [V1 V2].
  split; [|exact V2]. split; [exact V1|]. unfold b32. cbn [fst snd]. rewrite V2, Rabs_mult, (Rabs_pos_eq (bpow _ _)) by apply bpow_ge_0. rewrite <- abs_IZR.
  assert (K : Z.abs m = 0 \/ Z.abs m = 1) by lia. split.
  - destruct K as [K|K]; [left; replace m with 0 by lia; lra|right]. rewrite K, Rmult_1_l. apply bpow_le. lia.
  - apply Rle_trans with (1 * bpow radix2 e)%R; [apply Rmult_le_compat_r; [apply bpow_ge_0|apply IZR_le; lia]|]. rewrite Rmult_1_l. apply bpow_le. lia.
Qed.
Definition in_range (l : list (Z * Z)) : bool := forallb (fun me => (Z.abs (fst me) <=? 1) && (-97 <=? snd me) && (snd me <=? 100)) l.
Lemma b32_usual_all l x : in_range l = true -> In x (map b32 l) -> zero_or_usual 100 x.
Proof.
  intros H Hx. apply in_map_iff in Hx. destruct Hx as ([m e] & <- & Hm). unfold in_range in H. rewrite forallb_forall in H. specialize (H _ Hm). cbn [fst snd] in H.
  apply b32_fin; lia.
Qed.
Lemma b32_nonzero l m e : In (m, e) l -> Z.abs m = 1 -> -97 <= e <= 100 -> exists x, In x (map b32 l) /\ B2R 24 128 x <> 0%R.
Proof.
  intros H Hm He. exists (b32 (m, e)). split; [apply in_map; exact H|]. rewrite (proj2 (b32_fin m e ltac:(lia) He)). apply Rmult_integral_contrapositive. split.
  - apply IZR_neq. lia.
  - apply Rgt_not_eq, bpow_gt_0.
Qed.

Definition few_pwr {A O} (r1 r2 bs : Z) (precision : D A) (data : list (T A)) : bool :=
  match pwr_range A data with
  | Some (mx, mn) => let lp := log_precision A precision mx in let X := pwr_logs A data (zero_log A mn lp) in
      match plan2 A O r1 r2 bs lp None X with Some plan => few_blocks (encode_2d A O r1 r2 bs lp plan X) | None => true end
  | None => true end.
Lemma few_pwr_short {A O} ord r1 r2 bs (p : D A) data : @few_pwr A O r1 r2 bs p data = true -> short_pwr A O ord r1 r2 bs p data.
Proof. intros H mx mn E plan EP. unfold few_pwr in H. rewrite E in H. cbv zeta in H. rewrite EP in H. apply few_short. exact H. Qed.
Definition few_pwr_eb {A O} (r1 r2 bs : Z) (ebs : list (D A)) (data : list (T A)) : bool :=
  match eb_threshold A data ebs, all_some (final_log_eb A) (combine data ebs) with
  | Some th, Some lebs => few_blocks (encode_2d_eb A O r1 r2 bs lebs (pwr_logs A data th))
  | _, _ => true end.
Lemma few_pwr_eb_short {A O} ord r1 r2 bs (ebs : list (D A)) data : @few_pwr_eb A O r1 r2 bs ebs data = true -> short_pwr_eb A O ord r1 r2 bs ebs data.
Proof. intros H th lebs E1 E2. unfold few_pwr_eb in H. rewrite E1, E2 in H. apply few_short. exact H. Qed.

(** ** The hypotheses hold *)
Definition pw : list (Z * Z) := map (fun k => if k mod 9 =? 4 then (0, 0) else (1 - 2 * (k mod 2), -60 - k mod 5)) (zrange 0 64).
Local Notation pwrun := (compress_pwr FA0 FO0 ord0 ub0 8 8 12 true (dy 1 0) (repeat 0 3) (map b32 pw) (repeat 0 307) (repeat 0 205)).
Lemma one_fin : is_finite 53 1024 (dy 1 0) = true /\ B2R 53 1024 (dy 1 0) = 1%R.
Proof. assert (V1 : val64 (dy 1 0) = Fin 1) by (rewrite dy_val by lia; f_equal; cbn [bpow]; ring). apply (val_fin_iff 53 1024) in V1. exact V1. Qed.
Lemma zero_fin : is_finite 53 1024 (dy 0 0) = true /\ B2R 53 1024 (dy 0 0) = 0%R.
Proof. assert (V1 : val64 (dy 0 0) = Fin 0) by (rewrite dy_val by lia; f_equal; cbn [bpow]; ring). apply (val_fin_iff 53 1024) in V1. exact V1. Qed.
Lemma pw_example : exists buf size,
  pwrun = Some (buf, size) /\ libm_ok FA0 (FA_ieee (lmlog32 false)) /\ log_libm_ok FA0 (FA_ieee (lmlog32 false)) /\
  Z.of_nat (length (map b32 pw)) = 8 * 8 /\ (forall x, In x (map b32 pw) -> zero_or_usual 100 x) /\ (exists x, In x (map b32 pw) /\ B2R 24 128 x <> 0%R) /\
  is_finite 53 1024 (dy 1 0) = true /\ (bpow radix2 (-16) <= B2R 53 1024 (dy 1 0) <= 1)%R /\
  short_pwr FA0 FO0 ord0 8 8 12 (dy 1 0) (map b32 pw).
Proof.
  destruct (@runs_ex pwrun) as (buf & size & E); [vm_compute; reflexivity|].
  exists buf, size. split; [exact E|]. split; [apply lmlog32_ok|]. split; [apply lmlog32_log_ok|]. split; [reflexivity|].
  split; [intros x; apply b32_usual_all; reflexivity|]. split; [apply (b32_nonzero pw 1 (-60)); [left; reflexivity|lia|lia]|].
  split; [apply one_fin|]. split; [rewrite (proj2 one_fin); split; [change 1%R with (bpow radix2 0); apply bpow_le; lia|lra]|].
  apply few_pwr_short. vm_compute. reflexivity.
Qed.

Definition eb_size (r : option (list Z * nat * list binary64)) : bool := match r with Some _ => true | None => false end.
Lemma runs_eb r : eb_size r = true -> exists buf size lebs, r = Some (buf, size, lebs).
Proof. destruct r as [[[b s] l]|]; [eauto|discriminate]. Qed.
Lemma unit_bounds es b : Forall (fun b => b = dy 0 0 \/ b = dy 1 0) es -> In b es -> is_finite 53 1024 b = true /\ (0 <= B2R 53 1024 b <= 1)%R.
Proof.
  intros H Hb. rewrite Forall_forall in H. destruct (H b Hb) as [-> | ->].
  - split; [apply zero_fin|]. rewrite (proj2 zero_fin). lra.
  - split; [apply one_fin|]. rewrite (proj2 one_fin). lra.
Qed.
Lemma log2f_zero_model x86 : log2f_zero (lmlog32 x86).
Proof. unfold log2f_zero. vm_compute. reflexivity. Qed.

(** All bounds 1; and, the first value being zero, bounds 0 and 1. *)
Definition pe : list binary64 := map (fun k => if k mod 9 =? 4 then dy 0 0 else dy 1 0) (zrange 0 64).
Definition pz : list (Z * Z) := map (fun k => if k mod 9 =? 0 then (0, 0) else (1 - 2 * (k mod 2), -60 - k mod 5)) (zrange 0 64).
Local Notation perun := (compress_pwr_eb FA0 FO0 ord0 ub0 8 8 12 true (repeat (dy 1 0) 64) (repeat 0 3) (map b32 pw) (repeat 0 307) (repeat 0 253)).
Local Notation pzrun := (compress_pwr_eb FA0 FO0 ord0 ub0 8 8 12 true pe (repeat 0 3) (map b32 pz) (repeat 0 307) (repeat 0 292)).
Lemma pe_bounds : Forall (fun b => b = dy 0 0 \/ b = dy 1 0) pe.
Proof.
  apply Forall_forall. intros b Hb. unfold pe in Hb. apply in_map_iff in Hb. destruct Hb as (k & <- & _). destruct (k mod 9 =? 4); auto.
Qed.
Lemma pe_example : exists buf size lebs,
  perun = Some (buf, size, lebs) /\ libm_ok FA0 (FA_ieee (lmlog32 false)) /\ log_libm_ok FA0 (FA_ieee (lmlog32 false)) /\
  Z.of_nat (length (map b32 pw)) = 8 * 8 /\ (forall x, In x (map b32 pw) -> zero_or_usual 100 x) /\
  (forall b, In b (repeat (dy 1 0) 64) -> is_finite 53 1024 b = true /\ (0 <= B2R 53 1024 b <= 1)%R) /\
  separated (lmlog32 false) (repeat (dy 1 0) 64) (map b32 pw) /\
  short_pwr_eb FA0 FO0 ord0 8 8 12 (repeat (dy 1 0) 64) (map b32 pw).
Proof.
  destruct (runs_eb perun) as (buf & size & lebs & E); [vm_compute; reflexivity|].
  exists buf, size, lebs. split; [exact E|]. split; [apply lmlog32_ok|]. split; [apply lmlog32_log_ok|]. split; [reflexivity|].
  split; [intros x; apply b32_usual_all; reflexivity|].
  split; [intros b; apply unit_bounds; apply Forall_forall; intros y Hy; right; eapply repeat_spec; exact Hy|].
  split; [|apply few_pwr_eb_short; vm_compute; reflexivity].
  exists (b32 (1, -60)), (map b32 (tl pw)). split; [reflexivity|]. right. split.
  - rewrite (proj2 (b32_fin 1 (-60) ltac:(lia) ltac:(lia))). rewrite Rmult_1_l. apply Rgt_not_eq, bpow_gt_0.
  - intros i y e _ He _. apply aget_In, repeat_spec in He. subst e. rewrite (proj2 one_fin). change 1%R with (bpow radix2 0). apply bpow_le. lia.
Qed.
Lemma pz_example : exists buf size lebs,
  pzrun = Some (buf, size, lebs) /\ libm_ok FA0 (FA_ieee (lmlog32 false)) /\ log_libm_ok FA0 (FA_ieee (lmlog32 false)) /\
  Z.of_nat (length (map b32 pz)) = 8 * 8 /\ (forall x, In x (map b32 pz) -> zero_or_usual 100 x) /\
  (forall b, In b pe -> is_finite 53 1024 b = true /\ (0 <= B2R 53 1024 b <= 1)%R) /\
  separated (lmlog32 false) pe (map b32 pz) /\
  short_pwr_eb FA0 FO0 ord0 8 8 12 pe (map b32 pz).
Proof.
  destruct (runs_eb pzrun) as (buf & size & lebs & E); [vm_compute; reflexivity|].
  exists buf, size, lebs. split; [exact E|]. split; [apply lmlog32_ok|]. split; [apply lmlog32_log_ok|]. split; [reflexivity|].
  split; [intros x; apply b32_usual_all; reflexivity|].
  split; [intros b; apply unit_bounds; exact pe_bounds|].
  split; [|apply few_pwr_eb_short; vm_compute; reflexivity].
  exists (b32 (0, 0)), (map b32 (tl pz)). split; [reflexivity|]. left. split; [|apply log2f_zero_model].
  rewrite (proj2 (b32_fin 0 0 ltac:(lia) ltac:(lia))). ring.
Qed.

(** ** A value with bound 0 that comes back as zero *)
Definition pq : list (Z * Z) := map (fun k => if k mod 9 =? 4 then (1, 3) else (1 - 2 * (k mod 2), 5 + k mod 3)) (zrange 0 64).
Local Notation pqrun := (compress_pwr_eb FA0 FO0 ord0 ub0 8 8 12 true pe (repeat 0 3) (map b32 pq) (repeat 0 307) (repeat 0 208)).
Definition eb_at {A O} (r : option (list Z * nat * list (D A))) (P : T A * T A * Z -> bool) (i : Z) : bool :=
  match r with
  | Some (b, s, lebs) => match pwr_at (decompress_2d_eb A O 8 8 lebs) 8 8 (firstn s b) i with Some x => P x | None => false end
  | None => false end.
Lemma eb_at_spec {A O} r P i : @eb_at A O r P i = true -> exists buf size lebs th l b, r = Some (buf, size, lebs) /\
  pwr_at (decompress_2d_eb A O 8 8 lebs) 8 8 (firstn size buf) i = Some (th, l, b) /\ P (th, l, b) = true.
Proof.
  unfold eb_at. destruct r as [[[bf s] lebs]|]; [|discriminate]. destruct (pwr_at _ _ _ _ _) as [[[th l] b]|] eqn:E; [|discriminate].
  intros H. exists bf, s, lebs, th, l, b. auto.
Qed.
Lemma pq_refuted : exists buf size lebs out x,
  libm_ok FA0 (FA_ieee (lmlog32 false)) /\ log_libm_ok FA0 (FA_ieee (lmlog32 false)) /\
  (forall x, In x (map b32 pq) -> zero_or_usual 100 x) /\
  pqrun = Some (buf, size, lebs) /\ decompress_pwr_eb FA0 FO0 8 8 lebs (firstn size buf) = Some out /\
  aget pe 4 = Some (dy 0 0) /\ aget (map b32 pq) 4 = Some x /\ B2R 24 128 x = 8%R /\ aget out 4 = Some (Some (B754_zero 24 128 false)).
Proof.
  destruct (@eb_at_spec FA0 FO0 pqrun (fun '(th, l, b) => teq FA0 l th && (b =? 0)) 4) as (buf & size & lebs & th & l & b & E & EA & H); [vm_compute; reflexivity|].
  apply andb_true_iff in H. destruct H as [H1 H2].
  destruct (pwr_at_spec (pwr_eb_value FA0) _ _ _ _ _ _ _ _ EA) as (out & EO & EV).
  exists buf, size, lebs, out, (b32 (1, 3)). split; [apply lmlog32_ok|]. split; [apply lmlog32_log_ok|]. split; [intros x; apply b32_usual_all; reflexivity|].
  split; [exact E|]. split; [exact EO|]. split; [reflexivity|]. split; [reflexivity|].
  split; [rewrite (proj2 (b32_fin 1 3 ltac:(lia) ltac:(lia))); cbn [bpow]; cbn; lra|].
  rewrite EV. unfold pwr_eb_value. rewrite H1, H2. reflexivity.
Qed.

(** ** Fields that overrun the verbatim block *)
Definition overrun {A O} (r1 r2 bs : Z) (precision : D A) (data : list (T A)) : bool :=
  match plan2 A O r1 r2 bs precision None data with
  | Some plan => match encode_2d A O r1 r2 bs precision plan data with
    | Some c => unp_room A (r1 * r2) <? Z.of_nat (length (b_unp _ _ c)) * Z.of_nat (tsize_of A)
    | None => false end
  | None => false end.
Lemma overrun_none {A O} r1 r2 bs (p : D A) data : @overrun A O r1 r2 bs p data = true ->
  (exists plan c, plan2 A O r1 r2 bs p None data = Some plan /\ encode_2d A O r1 r2 bs p plan data = Some c) /\
  forall ord ub indep pad jl, sz_compress_2d A O ord ub r1 r2 bs indep p pad data jl = None.
Proof.
  unfold overrun, sz_compress_2d. destruct (plan2 A O r1 r2 bs p None data) as [plan|]; [|discriminate].
  destruct (encode_2d A O r1 r2 bs p plan data) as [c|] eqn:E; [|discriminate]. intros H. split; [eauto|]. intros. cbn [bind]. unfold compress_2d. rewrite E.
  destruct (_ && _); [|reflexivity]. cbn [bind]. replace (_ <=? unp_room _ _) with false by lia. reflexivity.
Qed.
Definition pwr_overrun {A O} (r1 r2 bs : Z) (precision : D A) (data : list (T A)) : bool :=
  match pwr_range A data with
  | Some (mx, mn) => let lp := log_precision A precision mx in @overrun A O r1 r2 bs lp (pwr_logs A data (zero_log A mn lp))
  | None => false end.
Lemma pwr_overrun_none {A O} r1 r2 bs (p : D A) data : @pwr_overrun A O r1 r2 bs p data = true ->
  forall ord ub indep pad jl junk, compress_pwr A O ord ub r1 r2 bs indep p pad data jl junk = None.
Proof.
  unfold pwr_overrun, compress_pwr. destruct (pwr_range A data) as [[mx mn]|]; [|discriminate]. cbv zeta. intros H ord ub indep pad jl junk. cbn [bind].
  rewrite (proj2 (overrun_none _ _ _ _ _ H)). reflexivity.
Qed.
Definition big : list (Z * Z) := repeat (1, 64) 64.
Lemma zero_field_overrun ord ub indep pad jl junk : compress_pwr FA0 FO0 ord ub 8 8 12 indep (dy 1 0) pad (map b32 (repeat (0, 0) 64)) jl junk = None.
Proof. apply pwr_overrun_none. vm_compute. reflexivity. Qed.
Lemma tiny_precision_overrun ord ub indep pad jl junk : compress_pwr FA0 FO0 ord ub 8 8 12 indep (dy 1 (-60)) pad (map b32 big) jl junk = None.
Proof. apply pwr_overrun_none. vm_compute. reflexivity. Qed.

(** ** Zeros that come back as positive numbers *)
(** A libm whose log2 is exact at one more point: 1024 log2(X) = 1 up to 2^-40. *)
Definition xM : Z := 4506649152907471.
Definition xP : binary64 := dy xM (-52).
Definition pP : binary64 := dy (xM - 2 ^ 52) (-52).
Definition lmO : Libm binary32 binary64 :=
  {| lm_log2 := fun x => if bits_of_b64 x =? bits_of_b64 xP then dy 1 (-10) else log2_model x; lm_pow := pow_model; lm_log2f := log2f_32; lm_exp2 := exp2_32; lm_x86 := false |}.

Lemma log2R_pow m n : (0 < m)%R -> log2R (m ^ n) = (INR n * log2R m)%R.
Proof.
  intros H. induction n as [|n IH]; [cbn [pow INR]; unfold log2R; rewrite ln_1; lra|]. rewrite S_INR. cbn [pow]. rewrite log2R_mul, IH by (try apply pow_lt; auto). ring.
Qed.
Lemma log2R_near z : (0 < z <= / 4)%R -> (- (4 * z) <= log2R (1 - z))%R /\ (log2R (1 + z) <= 2 * z)%R.
Proof.
  intros H. assert (H2 : (/ 2 <= ln 2)%R) by apply ln2_lb.
  assert (UP : forall y, (0 < y)%R -> (log2R (1 + y) <= 2 * y)%R).
  { intros y Hy. assert (Q : (ln (1 + y) <= y)%R) by (apply Rlt_le; rewrite <- (ln_exp y) at 2; apply ln_increasing; [lra|]; apply exp_ineq1; lra).
    unfold log2R, Rdiv. replace (2 * y)%R with (y * 2)%R by ring.
    apply Rmult_le_compat; try lra; [rewrite <- ln_1; apply Rlt_le, ln_increasing; lra|left; apply Rinv_0_lt_compat; lra|].
    apply Rmult_le_reg_l with (ln 2); [lra|]. rewrite Rinv_r; lra. }
  split; [|apply UP; lra].
  assert (E : log2R (1 - z) = (- log2R (/ (1 - z)))%R) by (unfold log2R; rewrite ln_Rinv by lra; field; lra).
  rewrite E. apply Ropp_le_contravar. apply Rle_trans with (log2R (1 + 2 * z)); [|pose proof (UP (2 * z)%R); lra].
  apply log2R_le; [apply Rinv_0_lt_compat; lra|]. apply Rmult_le_reg_l with (1 - z)%R; [lra|]. rewrite Rinv_r by lra. nra.
Qed.

(** Powers by repeated squaring, bracketed by fixed-point numbers with 100 fractional bits. *)
Fixpoint squares (k : nat) (lh : Z * Z) : Z * Z :=
  match k with O => lh | S k => let '(l, h) := lh in squares k (l * l / 2 ^ 100, h * h / 2 ^ 100 + 1) end.
Lemma floor_div a : (IZR (a / 2 ^ 100) * bpow radix2 100 <= IZR a < IZR (a / 2 ^ 100 + 1) * bpow radix2 100)%R.
Proof.
  rewrite <- (IZR_Zpower radix2 100) by lia. rewrite <- !mult_IZR. change (radix2 ^ 100) with (2 ^ 100).
  pose proof (Z.div_mod a (2 ^ 100) ltac:(lia)). pose proof (Z.mod_pos_bound a (2 ^ 100) ltac:(lia)). split; [apply IZR_le; lia|apply IZR_lt; lia].
Qed.
Lemma squares_ok k : forall l h x, 0 <= l -> (IZR l <= x * bpow radix2 100 <= IZR h)%R ->
  (IZR (fst (squares k (l, h))) <= x ^ (2 ^ k) * bpow radix2 100 <= IZR (snd (squares k (l, h))))%R.
Proof.
  induction k as [|k IH]; intros l h x Hl [H1 H2]; cbn [squares Nat.pow]; [cbn [fst snd]; rewrite pow_1; auto|].
  replace (x ^ (2 * 2 ^ k))%R with ((x * x) ^ (2 ^ k))%R by (rewrite pow_mult; f_equal; cbn; ring).
  pose proof (bpow_gt_0 radix2 100) as P. apply IZR_le in Hl. pose proof (floor_div (l * l)) as [F1 _]. pose proof (floor_div (h * h)) as [_ F2].
  rewrite mult_IZR in F1, F2. apply IH; [apply Z.div_pos; [nia|lia]|]. split.
  - apply Rmult_le_reg_r with (bpow radix2 100); [exact P|]. eapply Rle_trans; [exact F1|].
    replace (x * x * bpow radix2 100 * bpow radix2 100)%R with ((x * bpow radix2 100) * (x * bpow radix2 100))%R by ring. apply Rmult_le_compat; lra.
  - apply Rmult_le_reg_r with (bpow radix2 100); [exact P|]. eapply Rle_trans; [|apply Rlt_le; exact F2].
    replace (x * x * bpow radix2 100 * bpow radix2 100)%R with ((x * bpow radix2 100) * (x * bpow radix2 100))%R by ring. apply Rmult_le_compat; lra.
Qed.
Lemma xM_root : let lh := squares 10 (xM * 2 ^ 48, xM * 2 ^ 48) in ((2 ^ 41 - 1) * 2 ^ 60 <=? fst lh) && (snd lh <=? (2 ^ 41 + 1) * 2 ^ 60) = true.
Proof. vm_compute. reflexivity. Qed.
Lemma IZR_scaled k n : 0 <= n -> IZR (k * 2 ^ n) = (IZR k * bpow radix2 n)%R.
Proof. intros H. rewrite mult_IZR. f_equal. apply (IZR_Zpower radix2). exact H. Qed.
Lemma log2_xM : (Rabs (1024 * log2R (IZR xM * bpow radix2 (-52)) - 1) <= bpow radix2 (-38))%R.
Proof.
  set (x := (IZR xM * bpow radix2 (-52))%R). pose proof xM_root as H. cbv zeta in H. apply andb_true_iff in H. destruct H as [HL HH]. apply Z.leb_le in HL, HH.
  assert (Px : (0 < x)%R) by (apply Rmult_lt_0_compat; [apply (IZR_lt 0); reflexivity|apply bpow_gt_0]).
  assert (E0 : (x * bpow radix2 100 = IZR (xM * 2 ^ 48))%R).
  { unfold x. rewrite IZR_scaled by lia. rewrite Rmult_assoc, <- bpow_plus. reflexivity. }
  pose proof (squares_ok 10 (xM * 2 ^ 48) (xM * 2 ^ 48) x ltac:(unfold xM; lia) ltac:(rewrite E0; lra)) as [S1 S2].
  apply IZR_le in HL, HH. rewrite IZR_scaled in HL, HH by lia.
  assert (XL : (bpow radix2 1 * (1 - bpow radix2 (-41)) <= x ^ (2 ^ 10))%R).
  { apply Rmult_le_reg_r with (bpow radix2 100); [apply bpow_gt_0|]. eapply Rle_trans; [|exact S1]. eapply Rle_trans; [|exact HL]. apply Req_le.
    change (bpow radix2 100) with (bpow radix2 (40 + 60)). rewrite bpow_plus, <- !Rmult_assoc. f_equal.
    change (bpow radix2 (-41)) with (/ 2199023255552)%R. change (bpow radix2 40) with 1099511627776%R. change (bpow radix2 1) with 2%R. change (2 ^ 41 - 1) with 2199023255551. field. }
  assert (XH : (x ^ (2 ^ 10) <= bpow radix2 1 * (1 + bpow radix2 (-41)))%R).
  { apply Rmult_le_reg_r with (bpow radix2 100); [apply bpow_gt_0|]. eapply Rle_trans; [exact S2|]. eapply Rle_trans; [exact HH|]. apply Req_le.
    change (bpow radix2 100) with (bpow radix2 (40 + 60)). rewrite bpow_plus, <- !Rmult_assoc. f_equal.
    change (bpow radix2 (-41)) with (/ 2199023255552)%R. change (bpow radix2 40) with 1099511627776%R. change (bpow radix2 1) with 2%R. change (2 ^ 41 + 1) with 2199023255553. field. }
  clear HL HH S1 S2. assert (P41 : bpow radix2 (-41) = (/ 2199023255552)%R) by reflexivity. assert (P38 : bpow radix2 (-38) = (/ 274877906944)%R) by reflexivity.
  pose proof (bpow_gt_0 radix2 1) as P1. destruct (log2R_near (bpow radix2 (-41))) as [N1 N2]; [rewrite P41; lra|].
  apply log2R_le in XL; [|apply Rmult_lt_0_compat; [exact P1|rewrite P41; lra]]. apply log2R_le in XH; [|apply pow_lt; exact Px].
  rewrite log2R_mul, log2R_bpow in XL by (try exact P1; rewrite P41; lra). rewrite log2R_mul, log2R_bpow in XH by (try exact P1; rewrite P41; lra).
  rewrite log2R_pow in XL, XH by exact Px. replace (INR (2 ^ 10)) with 1024%R in XL, XH by (rewrite pow_INR; cbn; lra).
  rewrite P41 in *. rewrite P38. apply Rabs_le. lra.
Qed.

Lemma Fin_eq a b : Fin a = Fin b -> a = b.
Proof. congruence. Qed.
Lemma lmO_ok : libm_ok (FA lmO) (FA_ieee lmO).
Proof.
  destruct (lmlog32_ok false) as [O1 O2 O3 O4 O5 O6].
  assert (VX : val64 xP = Fin (IZR xM * bpow radix2 (-52))) by (apply dy_val; vm_compute; split; congruence || reflexivity).
  assert (DL : forall x, dlog2 (FA lmO) x = dlog2 FA0 x \/ x = xP /\ dlog2 (FA lmO) x = dy 1 (-10)).
  { intros x. change (dlog2 (FA lmO) x) with (if bits_of_b64 x =? bits_of_b64 xP then dy 1 (-10) else log2_model x).
    destruct (Z.eqb_spec (bits_of_b64 x) (bits_of_b64 xP)) as [E|N]; [right|left; reflexivity]. split; [apply bits_inj; exact E|reflexivity]. }
  constructor.
  - exact O1.
  - exact O2.
  - intros x k H. destruct (DL x) as [E|[E _]]; [rewrite E; apply O3; exact H|]. exfalso. subst x. change (val64 xP = Fin (bpow radix2 k)) in H. rewrite VX in H. apply Fin_eq in H.
    assert (X1 : (bpow radix2 0 < IZR xM * bpow radix2 (-52) < bpow radix2 1)%R).
    { change (bpow radix2 (-52)) with (/ 4503599627370496)%R. change (bpow radix2 0) with 1%R. change (bpow radix2 1) with 2%R. unfold xM. lra. }
    rewrite H in X1. destruct X1 as [X1 X2]. apply lt_bpow in X1, X2. lia.
  - intros x r H Hr. destruct (DL x) as [E|[E E2]]; [rewrite E; apply O4; assumption|]. subst x. change (val64 xP = Fin r) in H. rewrite VX in H. apply Fin_eq in H. subst r.
    exists (bpow radix2 (-10)). split; [rewrite E2; change (val64 (dy 1 (-10)) = Fin (bpow radix2 (-10))); rewrite dy_val by lia; f_equal; ring|].
    pose proof log2_xM as HX. fold (log2R (IZR xM * bpow radix2 (-52))). change (bpow radix2 (-10)) with (/ 1024)%R.
    assert (P38 : bpow radix2 (-38) = (/ 274877906944)%R) by reflexivity. assert (P40 : bpow radix2 (-40) = (/ 1099511627776)%R) by reflexivity. rewrite P38 in HX. rewrite P40.
    apply Rabs_le_inv in HX. apply Rabs_le. lra.
  - intros x H. destruct (DL x) as [E|[E _]]; [rewrite E; apply O5; exact H|]. exfalso. subst x. change (val64 xP = PInf) in H. rewrite VX in H. discriminate.
  - intros x H. destruct (DL x) as [E|[E _]]; [rewrite E; apply O6; exact H|]. exfalso. subst x. change (val64 xP = NaN) in H. rewrite VX in H. discriminate.
Qed.
Lemma lmO_log_ok : log_libm_ok (FA lmO) (FA_ieee lmO).
Proof. destruct (lmlog32_log_ok false) as [O1 O2]. constructor; [exact O1|exact O2]. Qed.

Definition pzero : list (Z * Z) := concat (repeat [(1, 47); (1, -21); (0, 0); (0, 0); (-1, -32); (1, -32); (1, -32); (0, 0)] 8).
Local Notation pvrun := (compress_pwr (FA lmO) (FO lmO) ord0 ub0 8 8 12 true pP (repeat 0 3) (map b32 pzero) (repeat 0 307) (repeat 0 163)).
Definition pw_at {A O} (r : option (list Z * nat)) (P : T A * T A * Z -> bool) (i : Z) : bool :=
  match r with
  | Some (b, s) => match pwr_at (decompress_2d A O 8 8) 8 8 (firstn s b) i with Some x => P x | None => false end
  | None => false end.
Lemma pw_at_spec {A O} r P i : @pw_at A O r P i = true -> exists buf size th l b, r = Some (buf, size) /\
  pwr_at (decompress_2d A O 8 8) 8 8 (firstn size buf) i = Some (th, l, b) /\ P (th, l, b) = true.
Proof.
  unfold pw_at. destruct r as [[bf s]|]; [|discriminate]. destruct (pwr_at _ _ _ _ _) as [[[th l] b]|] eqn:E; [|discriminate].
  intros H. exists bf, s, th, l, b. auto.
Qed.
Lemma pP_bounds : is_finite 53 1024 pP = true /\ (bpow radix2 (-16) <= B2R 53 1024 pP <= 1)%R.
Proof.
  assert (V : val64 pP = Fin (IZR (xM - 2 ^ 52) * bpow radix2 (-52))) by (apply dy_val; vm_compute; split; congruence || reflexivity).
  apply (val_fin_iff 53 1024) in V. destruct V as [V1 V2]. split; [exact V1|]. rewrite V2. change (xM - 2 ^ 52) with 3049525536975.
  change (bpow radix2 (-52)) with (/ 4503599627370496)%R. change (bpow radix2 (-16)) with (/ 65536)%R. lra.
Qed.
Lemma pzero_refuted : exists buf size out x x',
  libm_ok (FA lmO) (FA_ieee lmO) /\ log_libm_ok (FA lmO) (FA_ieee lmO) /\
  (forall x, In x (map b32 pzero) -> zero_or_usual 100 x) /\
  is_finite 53 1024 pP = true /\ (bpow radix2 (-16) <= B2R 53 1024 pP <= 1)%R /\
  pvrun = Some (buf, size) /\ decompress_pwr (FA lmO) (FO lmO) 8 8 (firstn size buf) = Some out /\
  aget (map b32 pzero) 2 = Some x /\ B2R 24 128 x = 0%R /\ aget out 2 = Some (Some x') /\ (0 < B2R 24 128 x')%R.
Proof.
  destruct (@pw_at_spec (FA lmO) (FO lmO) pvrun (fun '(th, l, b) => negb (tlt (FA lmO) l th) && (b =? 0) && tle (FA lmO) (tofZ (FA lmO) (-33)) l && tle (FA lmO) l (tofZ (FA lmO) (-32))) 2)
    as (buf & size & th & l & b & E & EA & H); [vm_compute; reflexivity|].
  apply andb_true_iff in H. destruct H as [H H4]. apply andb_true_iff in H. destruct H as [H H3]. apply andb_true_iff in H. destruct H as [H1 H2]. apply negb_true_iff in H1.
  destruct (pwr_at_spec (pwr_value (FA lmO)) _ _ _ _ _ _ _ _ EA) as (out & EO & EV).
  assert (V : pwr_value (FA lmO) th l b = texp2 (FA lmO) l) by (unfold pwr_value; rewrite H1, H2; reflexivity).
  assert (R : exists d, vT (FA lmO) (FA_ieee lmO) l = Fin d /\ (-33 <= d <= -32)%R).
  { rewrite (v_tle _ (FA_ieee lmO)) in H3, H4. rewrite (LogErr3D.vT_int _ (FA_ieee lmO)) in H3, H4 by (cbn; lia).
    destruct (vT (FA lmO) (FA_ieee lmO) l) as [d| | |]; try discriminate H3; try discriminate H4. exists d. split; [reflexivity|].
    apply xle_fin in H3, H4. lra. }
  destruct R as (d & Ed & Rd). destruct (ll_exp2 _ _ lmO_log_ok l d Ed ltac:(lra)) as (z & Ez & Hz).
  exists buf, size, out, (b32 (0, 0)), (texp2 (FA lmO) l). split; [exact lmO_ok|]. split; [exact lmO_log_ok|]. split; [intros x; apply b32_usual_all; reflexivity|].
  split; [apply pP_bounds|]. split; [apply pP_bounds|]. split; [exact E|]. split; [exact EO|]. split; [reflexivity|].
  split; [rewrite (proj2 (b32_fin 0 0 ltac:(lia) ltac:(lia))); ring|]. split; [rewrite EV, V; reflexivity|].
  change (val 24 128 (texp2 (FA lmO) l) = Fin z) in Ez. apply (val_fin_iff 24 128) in Ez. destruct Ez as [_ Ez].
  assert (PP : (0 < Rpower 2 d)%R) by apply exp_pos. change (bpow radix2 (-20)) with (/ 1048576)%R in Hz. apply Rabs_le_inv in Hz.
  rewrite Ez. lra.
Qed.
