(** sz_compress_2d and sz_compress_3d with the decisions they take themselves ([Plan], [Sample3D]): round trip, termination, and
    the runs that do not end. *)
From Coq Require Import Reals Lra Lia ZArith List Bool.
From Flocq Require Import Core.Core IEEE754.BinarySingleNaN IEEE754.Binary IEEE754.Bits.
From Verif Require Import Base Huffman HuffStream HuffProps BitPack Stream Arith Codec2D Sync2D Stream2D IEEE IEEELaws IEEEQuant
  LibmModel Witness2D Examples2D LinQuant Block BlockSync BlockTile BlockBytes BlockIEEE BlockApi BlockTotal BlockRefute RelaxApi2D Sample3D Plan.
Import ListNotations.
Local Open Scope Z_scope.

(** (size_t)x and (ptrdiff_t)x for a double (include/sz_optimize_quant_intervals.hpp:8,91,98-99): the truncation if it fits;
    otherwise undefined, or with [x86] the 64-bit pattern 2^63 of the conversion instruction. *)
Definition to_size (x86 : bool) (x : binary64) : option Z :=
  if is_finite 53 1024 x then
    let z := Btrunc 53 1024 x in if (0 <=? z) && (z <? 2 ^ 64) then Some z else if x86 then Some (2 ^ 63) else None
  else if x86 then Some (2 ^ 63) else None.
Definition to_diff (x86 : bool) (x : binary64) : option Z :=
  if is_finite 53 1024 x then
    let z := Btrunc 53 1024 x in if (- 2 ^ 63 <=? z) && (z <? 2 ^ 63) then Some z else if x86 then Some (- 2 ^ 63) else None
  else if x86 then Some (- 2 ^ 63) else None.
Lemma x86_defined_double lm : conversions_defined (DA lm) (to_size true) (to_diff true).
Proof.
  split; intros x; [unfold to_size|unfold to_diff]; destruct (is_finite 53 1024 x); cbv zeta; try (eexists; split; [reflexivity|lia]); try (eexists; reflexivity).
  - destruct (_ && _) eqn:E; eexists; (split; [reflexivity|lia]).
  - destruct (_ && _); eexists; reflexivity.
Qed.
Lemma x86_defined_float lm : conversions_defined (FA lm) (to_size true) (to_diff true).
Proof. exact (x86_defined_double (lm64 true)). Qed.

(** No code word longer than 64 bits, for the decisions taken. *)
Definition short_sz2 (A : Arith) (O : FOps A) ord r1 r2 bs precision data : Prop :=
  forall plan, plan2 A O r1 r2 bs precision None data = Some plan -> short_blocks ord 32768 (encode_2d A O r1 r2 bs precision plan data).
Definition short_sz3 (A : Arith) (O : FOps A) ts td fuel ord r1 r2 r3 bs indep precision data : Prop :=
  forall capacity mean plan, optimize_quant_invl_3d A O ts td fuel r1 r2 r3 precision data = Done (capacity, mean) ->
    plan3 A O r1 r2 r3 bs precision mean data = Some plan ->
    short_blocks ord capacity (encode_3d A O r1 r2 r3 bs indep precision capacity mean plan data).

Theorem sz2_float lm ord ub r1 r2 bs indep precision pad (data : list binary32) junk buf size :
  bs < 2 ^ 31 -> length pad = 3%nat -> Z.of_nat (length junk) < 2 ^ 64 -> is_finite 53 1024 precision = true ->
  sz_compress_2d (FA lm) (FO lm) ord ub r1 r2 bs indep precision pad data junk = Some (buf, size) ->
  short_sz2 (FA lm) (FO lm) ord r1 r2 bs precision data ->
  exists out, (forall rest, decompress_2d (FA lm) (FO lm) r1 r2 (firstn size buf ++ rest) = Some out) /\
    recovered (fun _ => Some precision) data (Z.to_nat (r1 * r2)) out.
Proof.
  intros H1 H2 H3 HP HC HS. unfold sz_compress_2d in HC. bind_as HC plan EP.
  exact (block2_api_float lm ord ub r1 r2 bs indep precision plan pad data junk buf size H1 H2 H3 HP HC (HS plan EP)).
Qed.

Lemma pow2_even e : 5 <= e <= 17 -> Z.even (2 ^ e) = true /\ 2 <= 2 ^ e <= 2 ^ 25.
Proof.
  intros H. split; [apply Z.even_pow; lia|].
  split; [change 2 with (2 ^ 1) at 1|]; apply Z.pow_le_mono_r; lia.
Qed.

Theorem sz3_float lm ts td fuel ord ub r1 r2 r3 bs indep precision pad (data : list binary32) junk buf size :
  bs < 2 ^ 31 -> length pad = 3%nat -> Z.of_nat (length junk) < 2 ^ 64 -> is_finite 53 1024 precision = true ->
  sz_compress_3d (FA lm) (FO lm) ts td fuel ord ub r1 r2 r3 bs indep precision pad data junk = Done (buf, size) ->
  short_sz3 (FA lm) (FO lm) ts td fuel ord r1 r2 r3 bs indep precision data ->
  exists out, (forall rest, decompress_3d (FA lm) (FO lm) r1 r2 r3 (firstn size buf ++ rest) = Some out) /\
    recovered (fun _ => Some precision) data (Z.to_nat (r1 * r2 * r3)) out.
Proof.
  intros H1 H2 H3 HP HC HS. unfold sz_compress_3d in HC.
  destruct (optimize_quant_invl_3d (FA lm) (FO lm) ts td fuel r1 r2 r3 precision data) as [[capacity mean]| |] eqn:EO; try discriminate.
  destruct (plan3 (FA lm) (FO lm) r1 r2 r3 bs precision mean data) as [plan|] eqn:EP; [|discriminate]. cbn [bind] in HC.
  destruct (compress_3d (FA lm) (FO lm) ord ub r1 r2 r3 bs indep precision capacity mean plan pad data junk) as [r|] eqn:EC; [|discriminate]. injection HC as ->.
  destruct (optimize_capacity _ _ _ _ _ _ _ _ _ _ _ _ EO) as (e & He & Ee). destruct (pow2_even e He) as [E1 E2]. rewrite <- Ee in E1, E2.
  exact (block3_api_float lm ord ub r1 r2 r3 bs indep precision capacity mean plan pad data junk buf size E1 E2 H1 H2 H3 HP EC (HS _ _ _ EO EP)).
Qed.

Theorem sz3_double lm ts td fuel ord ub r1 r2 r3 bs indep precision pad (data : list binary64) junk buf size :
  bs < 2 ^ 31 -> length pad = 7%nat -> Z.of_nat (length junk) < 2 ^ 64 -> is_finite 53 1024 precision = true ->
  sz_compress_3d (DA lm) (DO lm) ts td fuel ord ub r1 r2 r3 bs indep precision pad data junk = Done (buf, size) ->
  short_sz3 (DA lm) (DO lm) ts td fuel ord r1 r2 r3 bs indep precision data ->
  (forall capacity mean plan c, optimize_quant_invl_3d (DA lm) (DO lm) ts td fuel r1 r2 r3 precision data = Done (capacity, mean) ->
     plan3 (DA lm) (DO lm) r1 r2 r3 bs precision mean data = Some plan ->
     encode_3d (DA lm) (DO lm) r1 r2 r3 bs indep precision capacity mean plan data = Some c -> b_unp _ _ c = []) ->
  exists out, (forall rest, decompress_3d (DA lm) (DO lm) r1 r2 r3 (firstn size buf ++ rest) = Some out) /\
    recovered (fun _ => Some precision) data (Z.to_nat (r1 * r2 * r3)) out.
Proof.
  intros H1 H2 H3 HP HC HS HU. unfold sz_compress_3d in HC.
  destruct (optimize_quant_invl_3d (DA lm) (DO lm) ts td fuel r1 r2 r3 precision data) as [[capacity mean]| |] eqn:EO; try discriminate.
  destruct (plan3 (DA lm) (DO lm) r1 r2 r3 bs precision mean data) as [plan|] eqn:EP; [|discriminate]. cbn [bind] in HC.
  destruct (compress_3d (DA lm) (DO lm) ord ub r1 r2 r3 bs indep precision capacity mean plan pad data junk) as [r|] eqn:EC; [|discriminate]. injection HC as ->.
  destruct (optimize_capacity _ _ _ _ _ _ _ _ _ _ _ _ EO) as (e & He & Ee). destruct (pow2_even e He) as [E1 E2]. rewrite <- Ee in E1, E2.
  exact (block3_api_double lm ord ub r1 r2 r3 bs indep precision capacity mean plan pad data junk buf size E1 E2 H1 H2 H3 HP EC (HS _ _ _ EO EP)
           (fun c => HU _ _ _ c eq_refl EP)).
Qed.

(** From nine values on everything up to the output block is defined and ends (conversions as on x86). *)
Theorem sz3_terminates_double lm r1 r2 r3 bs indep precision (data : list binary64) :
  1 <= r1 -> 1 <= r2 -> 1 <= r3 -> 9 <= r1 * r2 * r3 < 2 ^ 61 -> 1 <= bs < 2 ^ 31 ->
  is_finite 53 1024 precision = true -> at_least (-60) precision -> Z.of_nat (length data) = r1 * r2 * r3 ->
  exists n, forall fuel, (n <= fuel)%nat -> exists capacity mean plan c,
    optimize_quant_invl_3d (DA lm) (DO lm) (to_size true) (to_diff true) fuel r1 r2 r3 precision data = Done (capacity, mean) /\
    plan3 (DA lm) (DO lm) r1 r2 r3 bs precision mean data = Some plan /\
    encode_3d (DA lm) (DO lm) r1 r2 r3 bs indep precision capacity mean plan data = Some c.
Proof.
  intros H1 H2 H3 HN HB HF HA HL.
  destruct (optimize_terminates (DA lm) (DO lm) _ _ r1 r2 r3 precision data (x86_defined_double lm) H1 H2 H3 HN HL) as [n Hn].
  exists n. intros fuel Hf. destruct (Hn fuel Hf) as (capacity & mean & E).
  destruct (plan3_good (DA lm) (DO lm) r1 r2 r3 bs precision mean data H1 H2 H3 ltac:(lia) HL) as (plan & EP & GP).
  destruct (optimize_capacity _ _ _ _ _ _ _ _ _ _ _ _ E) as (e & He & Ee). destruct (pow2_even e He) as [_ E2]. rewrite <- Ee in E2.
  destruct (block3_total_double lm r1 r2 r3 bs indep precision capacity mean plan data H1 H2 H3 HB ltac:(lia) HF HA HL GP) as [c EC].
  exists capacity, mean, plan, c. auto.
Qed.
Theorem sz3_terminates_float lm r1 r2 r3 bs indep precision (data : list binary32) :
  1 <= r1 -> 1 <= r2 -> 1 <= r3 -> 9 <= r1 * r2 * r3 < 2 ^ 61 -> 1 <= bs < 2 ^ 31 ->
  is_finite 53 1024 precision = true -> at_least (-60) precision -> Z.of_nat (length data) = r1 * r2 * r3 ->
  exists n, forall fuel, (n <= fuel)%nat -> exists capacity mean plan c,
    optimize_quant_invl_3d (FA lm) (FO lm) (to_size true) (to_diff true) fuel r1 r2 r3 precision data = Done (capacity, mean) /\
    plan3 (FA lm) (FO lm) r1 r2 r3 bs precision mean data = Some plan /\
    encode_3d (FA lm) (FO lm) r1 r2 r3 bs indep precision capacity mean plan data = Some c.
Proof.
  intros H1 H2 H3 HN HB HF HA HL.
  destruct (optimize_terminates (FA lm) (FO lm) _ _ r1 r2 r3 precision data (x86_defined_float lm) H1 H2 H3 HN HL) as [n Hn].
  exists n. intros fuel Hf. destruct (Hn fuel Hf) as (capacity & mean & E).
  destruct (plan3_good (FA lm) (FO lm) r1 r2 r3 bs precision mean data H1 H2 H3 ltac:(lia) HL) as (plan & EP & GP).
  destruct (optimize_capacity _ _ _ _ _ _ _ _ _ _ _ _ E) as (e & He & Ee). destruct (pow2_even e He) as [_ E2]. rewrite <- Ee in E2.
  destruct (block3_total_float lm r1 r2 r3 bs indep precision capacity mean plan data H1 H2 H3 HB ltac:(lia) HF HA HL GP) as [c EC].
  exists capacity, mean, plan, c. auto.
Qed.

Theorem sz2_defined_float lm r1 r2 bs precision (data : list binary32) :
  1 <= r1 -> 1 <= r2 -> 1 <= bs < 2 ^ 31 ->
  is_finite 53 1024 precision = true -> at_least (-60) precision -> Z.of_nat (length data) = r1 * r2 ->
  exists plan c, plan2 (FA lm) (FO lm) r1 r2 bs precision None data = Some plan /\ encode_2d (FA lm) (FO lm) r1 r2 bs precision plan data = Some c.
Proof.
  intros H1 H2 HB HF HA HL.
  destruct (plan2_good (FA lm) (FO lm) r1 r2 bs precision None data H1 H2 ltac:(lia) HL) as (plan & EP & GP).
  destruct (block2_total_float lm r1 r2 bs precision plan data H1 H2 HB HF HA HL GP) as [c EC]. exists plan, c. auto.
Qed.

Theorem sz3_hangs A O ts td fuel ord ub bs indep precision pad (x y : T A) junk :
  sz_compress_3d A O ts td fuel ord ub 1 1 2 bs indep precision pad [x; y] junk = Looping.
Proof. unfold sz_compress_3d. rewrite optimize_hangs. reflexivity. Qed.

Theorem small_grid_hangs : exists r1 r2 r3, 1 <= r1 /\ 1 <= r2 /\ 1 <= r3 /\
  forall (A : Arith) (O : FOps A) ts td fuel ord ub bs indep precision pad data junk, Z.of_nat (length data) = r1 * r2 * r3 ->
    sz_compress_3d A O ts td fuel ord ub r1 r2 r3 bs indep precision pad data junk = Looping.
Proof.
  exists 1, 1, 2. split; [lia|]. split; [lia|]. split; [lia|]. intros A O ts td fuel ord ub bs indep precision pad data junk H.
  destruct data as [|x [|y [|z d]]]; cbn [length] in H; try lia. apply sz3_hangs.
Qed.

(** ** The capacity covers the samples *)
Lemma first_above_sum : forall v target sum i n, first_above target sum i v = i + Z.of_nat n -> (n < length v)%nat ->
  target < fold_left Z.add (firstn (S n) v) sum.
Proof.
  induction v as [|x v IH]; intros target sum i n H HN; cbn [length] in HN; [lia|]. cbn [first_above] in H. cbn [firstn fold_left].
  destruct (target <? sum + x) eqn:E.
  - apply Z.ltb_lt in E. assert (n = 0)%nat as -> by lia. exact E.
  - destruct n as [|n]; [pose proof (first_above_range v target (sum + x) (i + 1)); lia|].
    apply (IH target (sum + x) (i + 1)); lia.
Qed.
Lemma fold_add_mono : forall v s, (forall x, In x v -> 0 <= x) -> s <= fold_left Z.add v s.
Proof.
  induction v as [|x v IH]; intros s H; cbn [fold_left]; [lia|].
  specialize (IH (s + x) (fun y Hy => H y (or_intror Hy))). specialize (H x (or_introl eq_refl)). lia.
Qed.
Lemma firstn_In {X} (x : X) : forall n v, In x (firstn n v) -> In x v.
Proof. induction n as [|n IH]; intros [|y v] H; cbn in *; try tauto. destruct H; auto. Qed.

Theorem estimate_covers intervals target : length intervals = Z.to_nat 32768 -> (forall x, In x intervals -> 0 <= x) ->
  let c := estimate_intervals intervals target in
  (exists e, 5 <= e <= 17 /\ c = 2 ^ e) /\ (c = 2 ^ 17 \/ target < fold_left Z.add (firstn (Z.to_nat (c / 4)) intervals) 0).
Proof.
  intros HL HN c. split; [exact (estimate_range intervals target HL)|].
  pose proof (first_above_range intervals target 0 0) as R. rewrite HL in R.
  subst c. unfold estimate_intervals. rewrite HL.
  set (f := first_above target 0 0 intervals) in *.
  set (i := if f =? Z.of_nat (Z.to_nat 32768) then _ else _).
  assert (HI : 0 <= i <= 32767) by (subst i; destruct (f =? Z.of_nat (Z.to_nat 32768)) eqn:E; lia).
  assert (U : u32 (2 * (i + 1)) = 2 * (i + 1)) by (unfold u32; apply Z.mod_small; lia). rewrite U.
  destruct (round_up_power_of_2_spec (2 * (i + 1)) ltac:(lia)) as (e & He & Ee & HB & HM). rewrite Ee.
  assert (E16 : e <= 16).
  { destruct (Z.le_gt_cases e 16) as [|K]; auto. exfalso.
    specialize (HM 16 ltac:(lia) ltac:(lia)). assert (2 ^ 17 <= 2 ^ e) by (apply Z.pow_le_mono_r; lia). lia. }
  assert (P : 0 < 2 ^ e <= 2 ^ 16) by (split; [apply Z.pow_pos_nonneg; lia|apply Z.pow_le_mono_r; lia]).
  replace (u32 (2 * 2 ^ e)) with (2 * 2 ^ e) by (unfold u32; rewrite Z.mod_small; lia).
  set (c := if 32 <? 2 * 2 ^ e then _ else _).
  assert (HC : 4 * (i + 1) <= c <= 2 ^ 17 /\ (c = 2 ^ 17 \/ c <= 2 ^ 16)).
  { subst c. destruct (32 <? 2 * 2 ^ e) eqn:E; [apply Z.ltb_lt in E|apply Z.ltb_ge in E; lia]. split; [lia|].
    destruct (Z.eq_dec e 16) as [->|N]; [left; reflexivity|right].
    assert (2 ^ e <= 2 ^ 15) by (apply Z.pow_le_mono_r; lia). lia. }
  destruct HC as [HC1 [HC2|HC2]]; [left; exact HC2|right].
  assert (HF : i = f) by (subst i; destruct (f =? Z.of_nat (Z.to_nat 32768)) eqn:E; [lia|reflexivity]).
  assert (HQ : i + 1 <= c / 4) by (apply Z.div_le_lower_bound; lia).
  pose proof (first_above_sum intervals target 0 0 (Z.to_nat i) ltac:(fold f; lia) ltac:(lia)) as G.
  replace (Z.to_nat (c / 4)) with (S (Z.to_nat i) + (Z.to_nat (c / 4) - S (Z.to_nat i)))%nat by lia.
  rewrite <- (firstn_skipn (S (Z.to_nat i)) intervals) at 1.
  rewrite firstn_app, firstn_firstn, Nat.min_r by lia. rewrite fold_left_app.
  eapply Z.lt_le_trans; [exact G|]. apply fold_add_mono. intros x Hx. apply HN.
  apply firstn_In in Hx. rewrite <- (firstn_skipn (S (Z.to_nat i)) intervals). apply in_or_app. right. exact Hx.
Qed.
Lemma estimate_covers_ex : let v := [900; 80; 19; 1; 0; 0; 0; 0; 0; 0; 0; 5] ++ repeat 0 (Z.to_nat 32756) in
  length v = Z.to_nat 32768 /\ (forall x, In x v -> 0 <= x) /\ estimate_intervals v 1003 = 64 /\ 1003 < fold_left Z.add (firstn 16 v) 0.
Proof.
  cbv zeta. split; [rewrite app_length, repeat_length; cbn [length]; lia|]. split; [|split; vm_compute; reflexivity].
  intros x Hx. apply in_app_or in Hx. destruct Hx as [Hx|Hx]; [|apply repeat_spec in Hx; lia].
  cbn [In] in Hx. intuition lia.
Qed.

(** ** Runs *)
(** A bumpy plane with an outlier: 5 x 5 x 8 floats in blocks of five; one block uses regression, one the Lorenzo predictor, and
    a mean is chosen. *)
Definition hill32 : list binary32 :=
  map (fun t => let '(x, y, z) := (t / 40, (t / 8) mod 5, t mod 8) in if t =? 199 then b32_ofZ (2 ^ 30) else b32_ofZ (x + 2 * y + 3 * z + 3 * Z.rem t 3))
      (zrange 0 200).
Definition done_opt {X} (o : outcome X) : option X := match o with Done x => Some x | _ => None end.
Definition check_sz3 (A : Arith) (O : FOps A) ts td fuel ord ub r1 r2 r3 bs indep precision pad data junk (p : bcode A O -> bool) : bool :=
  match optimize_quant_invl_3d A O ts td fuel r1 r2 r3 precision data with
  | Done (capacity, mean) =>
      match plan3 A O r1 r2 r3 bs precision mean data with
      | Some plan =>
          let enc := encode_3d A O r1 r2 r3 bs indep precision capacity mean plan data in
          few_blocks enc && match enc with Some c => p c | None => false end &&
          (if out_size (compress_3d A O ord ub r1 r2 r3 bs indep precision capacity mean plan pad data junk) then true else false)
      | None => false
      end
  | _ => false
  end.
Lemma check_sz3_inv (A : Arith) (O : FOps A) ts td fuel ord ub r1 r2 r3 bs indep precision pad data junk p :
  check_sz3 A O ts td fuel ord ub r1 r2 r3 bs indep precision pad data junk p = true ->
  (exists capacity mean plan c buf size, optimize_quant_invl_3d A O ts td fuel r1 r2 r3 precision data = Done (capacity, mean) /\
     plan3 A O r1 r2 r3 bs precision mean data = Some plan /\
     encode_3d A O r1 r2 r3 bs indep precision capacity mean plan data = Some c /\ p c = true /\
     sz_compress_3d A O ts td fuel ord ub r1 r2 r3 bs indep precision pad data junk = Done (buf, size)) /\
  short_sz3 A O ts td fuel ord r1 r2 r3 bs indep precision data.
Proof.
  unfold check_sz3, sz_compress_3d, short_sz3. intros H.
  destruct (optimize_quant_invl_3d A O ts td fuel r1 r2 r3 precision data) as [[capacity mean]| |] eqn:EO; try discriminate.
  destruct (plan3 A O r1 r2 r3 bs precision mean data) as [plan|] eqn:EP; [|discriminate]. cbv zeta in H. cbn [bind].
  apply andb_true_iff in H. destruct H as [H H3]. apply andb_true_iff in H. destruct H as [H1 H2].
  destruct (encode_3d A O r1 r2 r3 bs indep precision capacity mean plan data) as [c|] eqn:EE; [|discriminate].
  destruct (runs_ex H3) as (buf & size & ER). split.
  - exists capacity, mean, plan, c, buf, size. rewrite ER. repeat split; auto.
  - intros cap' mean' plan' E1 E2. assert (capacity = cap' /\ mean = mean') as [<- <-] by (split; congruence).
    assert (plan = plan') as <- by congruence. rewrite EE. apply few_short. exact H1.
Qed.
Definition mixed {A O} (c : bcode A O) : bool := (1 <=? reg_count _ _ c)%nat && (1 <=? length (b_unp _ _ c))%nat.
Lemma mixed_inv {A O} (c : bcode A O) : mixed c = true -> (1 <= reg_count _ _ c)%nat /\ (1 <= length (b_unp _ _ c))%nat.
Proof. unfold mixed. rewrite andb_true_iff, !Nat.leb_le. auto. Qed.

Lemma hill_ok :
  (exists capacity mean plan c buf size,
     optimize_quant_invl_3d (FA (lm32 false)) (FO (lm32 false)) (to_size false) (to_diff false) 300 5 5 8 half64 hill32 = Done (capacity, mean) /\
     plan3 (FA (lm32 false)) (FO (lm32 false)) 5 5 8 5 half64 mean hill32 = Some plan /\
     encode_3d (FA (lm32 false)) (FO (lm32 false)) 5 5 8 5 false half64 capacity mean plan hill32 = Some c /\
     ((1 <= reg_count _ _ c)%nat /\ (1 <= length (b_unp _ _ c))%nat) /\
     sz_compress_3d (FA (lm32 false)) (FO (lm32 false)) (to_size false) (to_diff false) 300 ord0 ub0 5 5 8 5 false half64 [0; 0; 0] hill32 (repeat 0 960) = Done (buf, size)) /\
  short_sz3 (FA (lm32 false)) (FO (lm32 false)) (to_size false) (to_diff false) 300 ord0 5 5 8 5 false half64 hill32.
Proof.
  destruct (check_sz3_inv (FA (lm32 false)) (FO (lm32 false)) (to_size false) (to_diff false) 300 ord0 ub0 5 5 8 5 false half64 [0; 0; 0] hill32 (repeat 0 960) mixed)
    as [(capacity & mean & plan & c & buf & size & E1 & E2 & E3 & E4 & E5) HS]; [vm_compute; reflexivity|].
  split; [|exact HS]. exists capacity, mean, plan, c, buf, size. apply mixed_inv in E4. auto.
Qed.

(** Doubles, nothing stored verbatim. *)
Definition hill64 : list binary64 := map (fun t => b64_ofZ (t / 40 + 2 * ((t / 8) mod 5) + 3 * (t mod 8))) (zrange 0 200).
Definition nothing_verbatim {A O} (c : bcode A O) : bool := match b_unp _ _ c with [] => true | _ => false end.
Lemma nothing_verbatim_inv {A O} (c : bcode A O) : nothing_verbatim c = true -> b_unp _ _ c = [].
Proof. unfold nothing_verbatim. destruct (b_unp _ _ c); [reflexivity|discriminate]. Qed.
Lemma hill64_ok :
  (exists buf size, sz_compress_3d (DA (lm64 false)) (DO (lm64 false)) (to_size false) (to_diff false) 300 ord0 ub0 5 5 8 5 true half64 (repeat 0 7) hill64 (repeat 0 1920) = Done (buf, size)) /\
  short_sz3 (DA (lm64 false)) (DO (lm64 false)) (to_size false) (to_diff false) 300 ord0 5 5 8 5 true half64 hill64 /\
  (forall capacity mean plan c, optimize_quant_invl_3d (DA (lm64 false)) (DO (lm64 false)) (to_size false) (to_diff false) 300 5 5 8 half64 hill64 = Done (capacity, mean) ->
     plan3 (DA (lm64 false)) (DO (lm64 false)) 5 5 8 5 half64 mean hill64 = Some plan ->
     encode_3d (DA (lm64 false)) (DO (lm64 false)) 5 5 8 5 true half64 capacity mean plan hill64 = Some c -> b_unp _ _ c = []).
Proof.
  destruct (check_sz3_inv (DA (lm64 false)) (DO (lm64 false)) (to_size false) (to_diff false) 300 ord0 ub0 5 5 8 5 true half64 (repeat 0 7) hill64 (repeat 0 1920) nothing_verbatim)
    as [(capacity & mean & plan & c & buf & size & E1 & E2 & E3 & E4 & E5) HS]; [vm_compute; reflexivity|].
  split; [exists buf, size; exact E5|]. split; [exact HS|].
  intros cap' mean' plan' c' F1 F2 F3. rewrite E1 in F1. injection F1 as <- <-. rewrite E2 in F2. apply Some_inj in F2. subst plan'.
  rewrite E3 in F3. apply Some_inj in F3. subst c'. exact (nothing_verbatim_inv c E4).
Qed.

Lemma flat_sz2_ok :
  (exists buf size, sz_compress_2d (FA (lm32 false)) (FO (lm32 false)) ord0 ub0 8 8 4 false half64 [0; 0; 0] flat32 (repeat 0 307) = Some (buf, size)) /\
  short_sz2 (FA (lm32 false)) (FO (lm32 false)) ord0 8 8 4 half64 flat32.
Proof.
  split; [apply runs_ex; vm_compute; reflexivity|]. intros plan EP.
  assert (K : match plan2 (FA (lm32 false)) (FO (lm32 false)) 8 8 4 half64 None flat32 with
              | Some p => few_blocks (encode_2d (FA (lm32 false)) (FO (lm32 false)) 8 8 4 half64 p flat32) | None => false end = true)
    by (vm_compute; reflexivity).
  rewrite EP in K. apply few_short. exact K.
Qed.

(** ** An undefined conversion: 2 x 2 x 100 values, all zero but one. *)
Definition spike64 : list binary64 := repeat (b64_ofZ 0) (Z.to_nat 398) ++ [b64_ofZ (2 ^ 100); b64_ofZ 0].
Lemma undef_check : (match optimize_quant_invl_3d (DA (lm64 false)) (DO (lm64 false)) (to_size false) (to_diff false) 2000 2 2 100 half64 spike64 with Undef => true | _ => false end) = true.
Proof. vm_compute. reflexivity. Qed.
Theorem undefined_conversion : exists (data : list binary64) precision, Z.of_nat (length data) = 2 * 2 * 100 /\
  is_finite 53 1024 precision = true /\ (forall x, In x data -> x = b64_ofZ 0 \/ x = b64_ofZ (2 ^ 100)) /\
  optimize_quant_invl_3d (DA (lm64 false)) (DO (lm64 false)) (to_size false) (to_diff false) 2000 2 2 100 precision data = Undef.
Proof.
  exists spike64, half64. split; [vm_compute; reflexivity|]. split; [reflexivity|]. split.
  - intros x Hx. apply in_app_or in Hx. destruct Hx as [Hx|[<-|[<-|[]]]]; auto. apply repeat_spec in Hx. auto.
  - pose proof undef_check as K. destruct (optimize_quant_invl_3d _ _ _ _ _ _ _ _ _ _); [discriminate|reflexivity|discriminate].
Qed.
