(** The 2D log-domain codec at the level of the byte interface, double and float.  Nothing of /repo is modelled here. *)
From Coq Require Import Reals Lra Lia ZArith List Bool.
From Coq Require Import ZifyBool ZifyNat.
From Flocq Require Import Core.Core IEEE754.BinarySingleNaN IEEE754.Binary IEEE754.Bits.
From Verif Require Import Base Huffman HuffStream HuffProps Stream Arith Mesh2D Derive2D Codec2D Sync2D Trace2D Scan Stream2D Exact IEEE IEEELaws IEEEQuant
  IEEE2D IEEEAbs2D Api2D RelaxApi2D Log2D LogSync2D LogCells2D LogErr2D.
Import ListNotations.
Local Open Scope Z_scope.

(** The Huffman code words of both index arrays are at most 64 bits long. *)
Definition log_short A (max_eb : D A) ord r1 r2 U V : Prop := forall s c, enc_log A max_eb r1 r2 U V = Some (s, c) -> code_words_64 ord c.

Section Gen.
Context (A : Arith) (HS : ser_ok A).

(** What the decompressor returns, point by point, after any run with the invariant of LogSync2D. *)
Lemma inv_api_points r1 r2 U V U' V' LU LV c :
  Z.of_nat (length U) = r1 * r2 -> Z.of_nat (length V) = r1 * r2 -> log_inv A U V (Z.to_nat (r1 * r2)) (U', V', LU, LV) c ->
  length (log_finals A (c_eb c) U LU) = length U /\ length (log_finals A (c_eb c) V LV) = length V /\
  forall k u v ud vd, aget U k = Some u -> aget V k = Some v ->
    aget (log_finals A (c_eb c) U LU) k = Some ud -> aget (log_finals A (c_eb c) V LV) k = Some vd ->
      (ud = u /\ vd = v /\ aget U' k = Some u /\ aget V' k = Some v) \/
      (teq A u (t0 A) = false /\ teq A v (t0 A) = false /\ exists lu lv u' v',
         aget LU k = Some lu /\ aget LV k = Some lv /\ aget U' k = Some u' /\ aget V' k = Some v' /\
         ud = (if tlt A lu (tofZ A (-99)) then t0 A else u') /\ vd = (if tlt A lv (tofZ A (-99)) then t0 A else v')).
Proof.
  intros LenU LenV (TU & TV & TLU & TLV & Le & Lq & Es & HF).
  set (n := Z.to_nat (r1 * r2)) in *.
  assert (L5 : length LU = n) by (rewrite (proj1 TLU), map_length; lia). assert (L6 : length LV = n) by (rewrite (proj1 TLV), map_length; lia).
  split; [rewrite log_finals_length; lia|]. split; [rewrite log_finals_length; lia|].
  intros k u v ud vd Eu Ev Ed1 Ed2.
  destruct (aget_len U (c_eb c) k u ltac:(lia) Eu) as [e Ee]. destruct (aget_len U LU k u ltac:(lia) Eu) as [lu El].
  destruct (aget_len U LV k u ltac:(lia) Eu) as [lv Em].
  rewrite (log_finals_get _ _ _ _ _ _ _ _ Ee Eu El) in Ed1. rewrite (log_finals_get _ _ _ _ _ _ _ _ Ee Ev Em) in Ed2.
  pose proof (HF k e u v Ee Eu Ev) as HP. unfold log_final in Ed1, Ed2. apply Some_inj in Ed1. apply Some_inj in Ed2.
  destruct (e =? 0) eqn:Ez.
  - left. destruct HP as (P1 & P2 & _). subst. auto.
  - right. destruct HP as (P1 & P2 & P3 & P4). split; auto. split; auto.
    rewrite El in P3. rewrite Em in P4. cbn [option_map] in P3, P4.
    exists lu, lv, (unlog A u lu), (unlog A v lv). do 4 (split; auto). subst ud vd.
    split; unfold from_log; [destruct (tlt A lu _) eqn:EL|destruct (tlt A lv _) eqn:EL]; auto.
    + pose proof (from_log_unlog A u lu P1 EL) as X. unfold from_log in X. rewrite EL in X. exact X.
    + pose proof (from_log_unlog A v lv P2 EL) as X. unfold from_log in X. rewrite EL in X. exact X.
Qed.

Theorem log_api max_eb ord ub r1 r2 U V junk buf size :
  0 <= r1 -> 0 < r2 -> Z.of_nat (length U) = r1 * r2 -> Z.of_nat (length V) = r1 * r2 -> Z.of_nat (length junk) < 2 ^ 64 ->
  (forall x, In x U \/ In x V -> log_agree A x) ->
  compress_log A max_eb ord ub r1 r2 U V junk = Some (buf, size) -> log_short A max_eb ord r1 r2 U V ->
  exists Ud Vd U' V' LU LV c,
    decompress_log A r1 r2 (firstn size buf) = Some (Ud, Vd) /\ enc_log A max_eb r1 r2 U V = Some (U', V', LU, LV, c) /\
    Ud = log_finals A (c_eb c) U LU /\ Vd = log_finals A (c_eb c) V LV /\
    length Ud = length U /\ length Vd = length V /\
    forall k u v ud vd, aget U k = Some u -> aget V k = Some v -> aget Ud k = Some ud -> aget Vd k = Some vd ->
      (ud = u /\ vd = v /\ aget U' k = Some u /\ aget V' k = Some v) \/
      (teq A u (t0 A) = false /\ teq A v (t0 A) = false /\ exists lu lv u' v',
         aget LU k = Some lu /\ aget LV k = Some lv /\ aget U' k = Some u' /\ aget V' k = Some v' /\
         ud = (if tlt A lu (tofZ A (-99)) then t0 A else u') /\ vd = (if tlt A lv (tofZ A (-99)) then t0 A else v')).
Proof.
  intros H1 H2 LenU LenV HJ HA H HK. unfold compress_log in H. destruct (1 <=? r1 * r2) eqn:E1; [|discriminate].
  bind_as H [s c] HE. destruct s as [[[U' V'] LU] LV]. destruct (Z.of_nat (length junk) =? _) eqn:EJ in H; [|discriminate].
  exists (log_finals A (c_eb c) U LU), (log_finals A (c_eb c) V LV), U', V', LU, LV, c.
  split; [exact (log_round_trip A ord ub max_eb r1 r2 U V U' V' LU LV c junk buf size HS H1 H2 LenU LenV HA HE (HK _ _ HE) HJ H ltac:(lia))|].
  split; auto. split; auto. split; auto.
  exact (inv_api_points r1 r2 U V U' V' LU LV c LenU LenV (log_inv_final _ _ _ _ _ _ _ _ H1 H2 HE)).
Qed.
End Gen.

(** Values that are not NaN. *)
Definition not_nan {p e} (x : binary_float p e) : Prop := is_nan p e x = false.

Lemma agree_double lm x : not_nan x -> log_agree (DA lm) x.
Proof.
  unfold not_nan, log_agree, log_of_stored, log_value, t0. cbn [DA tofZ teq tlt tneg tabs tlog2f].
  intros H. destruct x as [[|]|[|]|s pl Hp|[|] m e Hb]; try discriminate; try reflexivity.
Qed.
Lemma agree_float lm x : not_nan x -> log_agree (FA lm) x.
Proof.
  unfold not_nan, log_agree, log_of_stored, log_value, t0. cbn [FA tofZ teq tlt tneg tabs tlog2f].
  intros H. destruct x as [[|]|[|]|s pl Hp|[|] m e Hb]; try discriminate; try reflexivity.
Qed.

Definition is_zero {p e} (x : binary_float p e) : bool := match x with B754_zero _ _ _ => true | _ => false end.

(** Zero, or of magnitude between 2^-97 and 2^k. *)
Definition zero_or_usual {p e} (k : Z) (x : binary_float p e) : Prop :=
  is_finite p e x = true /\ (B2R p e x = 0 \/ bpow radix2 (-97) <= Rabs (B2R p e x))%R /\ (Rabs (B2R p e x) <= bpow radix2 k)%R.
(** Same sign, finite, relative error at most b. *)
Definition rel_differs_le {p e} (b : R) (x y : binary_float p e) : Prop :=
  is_finite p e y = true /\ (0 < B2R p e x * B2R p e y)%R /\ (Rabs (B2R p e y - B2R p e x) <= Rabs (B2R p e x) * b)%R.


Section Double.
Context (lm : Libm binary64 binary64).

Theorem log_api_double max_eb ord ub r1 r2 U V junk buf size :
  0 <= r1 -> 0 < r2 -> Z.of_nat (length U) = r1 * r2 -> Z.of_nat (length V) = r1 * r2 -> Z.of_nat (length junk) < 2 ^ 64 ->
  (forall x, In x U \/ In x V -> not_nan x) ->
  compress_log (DA lm) max_eb ord ub r1 r2 U V junk = Some (buf, size) -> log_short (DA lm) max_eb ord r1 r2 U V ->
  exists Ud Vd U' V' LU LV c,
    decompress_log (DA lm) r1 r2 (firstn size buf) = Some (Ud, Vd) /\ enc_log (DA lm) max_eb r1 r2 U V = Some (U', V', LU, LV, c) /\
    length Ud = length U /\ length Vd = length V /\
    forall k u v ud vd, aget U k = Some u -> aget V k = Some v -> aget Ud k = Some ud -> aget Vd k = Some vd ->
      (ud = u /\ vd = v /\ aget U' k = Some u /\ aget V' k = Some v) \/
      (is_zero u = false /\ is_zero v = false /\ exists lu lv u' v',
         aget LU k = Some lu /\ aget LV k = Some lv /\ aget U' k = Some u' /\ aget V' k = Some v' /\
         ud = (if blt 53 1024 lu (b64_ofZ (-99)) then B754_zero 53 1024 false else u') /\
         vd = (if blt 53 1024 lv (b64_ofZ (-99)) then B754_zero 53 1024 false else v')).
Proof.
  intros H1 H2 LU LV LJ HN H HK.
  destruct (log_api (DA lm) (DA_ser lm) _ _ _ _ _ _ _ _ _ _ H1 H2 LU LV LJ (fun x Hx => agree_double lm x (HN x Hx)) H HK)
    as (Ud & Vd & U' & V' & MU & MV & c & E1 & E2 & _ & _ & E3 & E4 & HP).
  exists Ud, Vd, U', V', MU, MV, c. repeat (split; auto). intros k u v ud vd G1 G2 G3 G4.
  destruct (HP k u v ud vd G1 G2 G3 G4) as [X|(Zu & Zv & X)]; [left; exact X|right].
  assert (Z : forall x : binary64, teq (DA lm) x (t0 (DA lm)) = false -> is_zero x = false).
  { intros [[|]| | |] Hx; auto; vm_compute in Hx; discriminate. }
  split; [apply Z; auto|]. split; [apply Z; auto|]. exact X.
Qed.

Context (L : libm_ok (DA lm) (DA_ieee lm)) (LL : log_libm_ok (DA lm) (DA_ieee lm)).

Theorem log_bound_double max_eb ord ub r1 r2 U V junk buf size :
  0 <= r1 -> 0 < r2 -> Z.of_nat (length U) = r1 * r2 -> Z.of_nat (length V) = r1 * r2 -> Z.of_nat (length junk) < 2 ^ 64 ->
  is_finite 53 1024 max_eb = true -> (0 <= B2R 53 1024 max_eb <= 1)%R -> (forall x, In x U \/ In x V -> zero_or_usual 100 x) ->
  compress_log (DA lm) max_eb ord ub r1 r2 U V junk = Some (buf, size) -> log_short (DA lm) max_eb ord r1 r2 U V ->
  exists U' V', decompress_log (DA lm) r1 r2 (firstn size buf) = Some (U', V') /\
    (exists LU LV c, enc_log (DA lm) max_eb r1 r2 U V = Some (U', V', LU, LV, c)) /\
    length U' = length U /\ length V' = length V /\
    forall k u v u' v', aget U k = Some u -> aget V k = Some v -> aget U' k = Some u' -> aget V' k = Some v' ->
      let b := (B2R 53 1024 max_eb + bpow radix2 (-13))%R in
      (u' = u /\ v' = v) \/ (rel_differs_le b u u' /\ rel_differs_le b v v').
Proof.
  intros H1 H2 LU LV LJ M1 M2 HU H HK.
  assert (HN : forall x, In x U \/ In x V -> not_nan x).
  { intros x Hx. destruct (HU x Hx) as [F _]. unfold not_nan. destruct x; try discriminate; reflexivity. }
  destruct (log_api (DA lm) (DA_ser lm) _ _ _ _ _ _ _ _ _ _ H1 H2 LU LV LJ (fun x Hx => agree_double lm x (HN x Hx)) H HK)
    as (Ud & Vd & U' & V' & MU & MV & c & E1 & E2 & F1 & F2 & E3 & E4 & _).
  assert (US : forall W, (forall x, In x W -> In x U \/ In x V) -> forall n x, aget W n = Some x -> usual (DA lm) (DA_ieee lm) 100 x).
  { intros W HW n x Ex. apply aget_In in Ex. destruct (HU x (HW x Ex)) as (G1 & G2 & G3). exists (B2R 53 1024 x).
    split; [apply (fin_val 53 1024); auto|auto]. }
  destruct (log_bound (DA lm) (DA_ieee lm) L LL ltac:(cbn; lia) 100 ltac:(lia) ltac:(cbn; lia) max_eb (B2R 53 1024 max_eb)
     ltac:(apply (fin_val 53 1024); auto) M2 r1 r2 U V U' V' MU MV c H1 H2 LU LV (US U ltac:(auto)) (US V ltac:(auto)) E2) as (K1 & K2 & K).
  exists U', V'. rewrite K1 in F1. rewrite K2 in F2. subst Ud Vd. split; auto. split; [eauto|]. split; auto. split; auto.
  intros k u v u' v' G1 G2 G3 G4 b.
  assert (W : forall x y, rel_close (DA lm) (DA_ieee lm) (B2R 53 1024 max_eb) x y -> rel_differs_le b x y).
  { intros x y (a & a' & Ea & Ea' & Hs & Hb). apply (val_fin_iff 53 1024) in Ea, Ea'. destruct Ea as [_ <-]. destruct Ea' as [F <-].
    split; auto. }
  destruct (K k u v u' v' G1 G2 G3 G4) as [X|[X Y]]; [left; auto|right; auto].
Qed.
End Double.

Section Float.
Context (lm : Libm binary32 binary64).

Theorem log_api_float max_eb ord ub r1 r2 U V junk buf size :
  0 <= r1 -> 0 < r2 -> Z.of_nat (length U) = r1 * r2 -> Z.of_nat (length V) = r1 * r2 -> Z.of_nat (length junk) < 2 ^ 64 ->
  (forall x, In x U \/ In x V -> not_nan x) ->
  compress_log (FA lm) max_eb ord ub r1 r2 U V junk = Some (buf, size) -> log_short (FA lm) max_eb ord r1 r2 U V ->
  exists Ud Vd U' V' LU LV c,
    decompress_log (FA lm) r1 r2 (firstn size buf) = Some (Ud, Vd) /\ enc_log (FA lm) max_eb r1 r2 U V = Some (U', V', LU, LV, c) /\
    length Ud = length U /\ length Vd = length V /\
    forall k u v ud vd, aget U k = Some u -> aget V k = Some v -> aget Ud k = Some ud -> aget Vd k = Some vd ->
      (ud = u /\ vd = v /\ aget U' k = Some u /\ aget V' k = Some v) \/
      (is_zero u = false /\ is_zero v = false /\ exists lu lv u' v',
         aget LU k = Some lu /\ aget LV k = Some lv /\ aget U' k = Some u' /\ aget V' k = Some v' /\
         ud = (if blt 24 128 lu (b32_ofZ (-99)) then B754_zero 24 128 false else u') /\
         vd = (if blt 24 128 lv (b32_ofZ (-99)) then B754_zero 24 128 false else v')).
Proof.
  intros H1 H2 LU LV LJ HN H HK.
  destruct (log_api (FA lm) (FA_ser lm) _ _ _ _ _ _ _ _ _ _ H1 H2 LU LV LJ (fun x Hx => agree_float lm x (HN x Hx)) H HK)
    as (Ud & Vd & U' & V' & MU & MV & c & E1 & E2 & _ & _ & E3 & E4 & HP).
  exists Ud, Vd, U', V', MU, MV, c. repeat (split; auto). intros k u v ud vd G1 G2 G3 G4.
  destruct (HP k u v ud vd G1 G2 G3 G4) as [X|(Zu & Zv & X)]; [left; exact X|right].
  assert (Z : forall x : binary32, teq (FA lm) x (t0 (FA lm)) = false -> is_zero x = false).
  { intros [[|]| | |] Hx; auto; vm_compute in Hx; discriminate. }
  split; [apply Z; auto|]. split; [apply Z; auto|]. exact X.
Qed.

Context (L : libm_ok (FA lm) (FA_ieee lm)) (LL : log_libm_ok (FA lm) (FA_ieee lm)).

Theorem log_bound_float max_eb ord ub r1 r2 U V junk buf size :
  0 <= r1 -> 0 < r2 -> Z.of_nat (length U) = r1 * r2 -> Z.of_nat (length V) = r1 * r2 -> Z.of_nat (length junk) < 2 ^ 64 ->
  is_finite 53 1024 max_eb = true -> (0 <= B2R 53 1024 max_eb <= 1)%R -> (forall x, In x U \/ In x V -> zero_or_usual 56 x) ->
  compress_log (FA lm) max_eb ord ub r1 r2 U V junk = Some (buf, size) -> log_short (FA lm) max_eb ord r1 r2 U V ->
  exists U' V', decompress_log (FA lm) r1 r2 (firstn size buf) = Some (U', V') /\
    (exists LU LV c, enc_log (FA lm) max_eb r1 r2 U V = Some (U', V', LU, LV, c)) /\
    length U' = length U /\ length V' = length V /\
    forall k u v u' v', aget U k = Some u -> aget V k = Some v -> aget U' k = Some u' -> aget V' k = Some v' ->
      let b := (B2R 53 1024 max_eb + bpow radix2 (-13))%R in
      (u' = u /\ v' = v) \/ (rel_differs_le b u u' /\ rel_differs_le b v v').
Proof.
  intros H1 H2 LU LV LJ M1 M2 HU H HK.
  assert (HN : forall x, In x U \/ In x V -> not_nan x).
  { intros x Hx. destruct (HU x Hx) as [F _]. unfold not_nan. destruct x; try discriminate; reflexivity. }
  destruct (log_api (FA lm) (FA_ser lm) _ _ _ _ _ _ _ _ _ _ H1 H2 LU LV LJ (fun x Hx => agree_float lm x (HN x Hx)) H HK)
    as (Ud & Vd & U' & V' & MU & MV & c & E1 & E2 & F1 & F2 & E3 & E4 & _).
  assert (US : forall W, (forall x, In x W -> In x U \/ In x V) -> forall n x, aget W n = Some x -> usual (FA lm) (FA_ieee lm) 56 x).
  { intros W HW n x Ex. apply aget_In in Ex. destruct (HU x (HW x Ex)) as (G1 & G2 & G3). exists (B2R 24 128 x).
    split; [apply (fin_val 24 128); auto|auto]. }
  destruct (log_bound (FA lm) (FA_ieee lm) L LL ltac:(cbn; lia) 56 ltac:(lia) ltac:(cbn; lia) max_eb (B2R 53 1024 max_eb)
     ltac:(apply (fin_val 53 1024); auto) M2 r1 r2 U V U' V' MU MV c H1 H2 LU LV (US U ltac:(auto)) (US V ltac:(auto)) E2) as (K1 & K2 & K).
  exists U', V'. rewrite K1 in F1. rewrite K2 in F2. subst Ud Vd. split; auto. split; [eauto|]. split; auto. split; auto.
  intros k u v u' v' G1 G2 G3 G4 b.
  assert (W : forall x y, rel_close (FA lm) (FA_ieee lm) (B2R 53 1024 max_eb) x y -> rel_differs_le b x y).
  { intros x y (a & a' & Ea & Ea' & Hs & Hb). apply (val_fin_iff 24 128) in Ea, Ea'. destruct Ea as [_ <-]. destruct Ea' as [F <-].
    split; auto. }
  destruct (K k u v u' v' G1 G2 G3 G4) as [X|[X Y]]; [left; auto|right; auto].
Qed.
End Float.
