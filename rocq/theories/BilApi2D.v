(** The bilinear codec at the level of the byte interface, double and float.  Nothing of /repo is modelled here. *)
From Coq Require Import Reals Lra Lia ZArith List Bool.
From Coq Require Import ZifyBool ZifyNat.
From Flocq Require Import Core.Core IEEE754.BinarySingleNaN IEEE754.Binary IEEE754.Bits.
From Verif Require Import Base Huffman HuffStream HuffProps Stream Arith Mesh2D Derive2D Codec2D Sync2D Trace2D Scan Stream2D Exact IEEE IEEELaws IEEEQuant
  IEEE2D IEEEAbs2D Api2D RelaxApi2D LibmModel Witness2D Examples2D Refute2D Log2D LogSync2D LogCells2D LogErr2D LogLibm LogApi2D LogRefute2D
  Bil2D BilSync2D BilErr2D.
Import ListNotations.
Local Open Scope Z_scope.

(** The Huffman code words of both index arrays are at most 64 bits long. *)
Definition bil_short A cs (max_eb : D A) ord r1 r2 U V : Prop := forall s c, enc_bil A cs max_eb r1 r2 U V = Some (s, c) -> code_words_64 ord c.

Section Gen.
Context (A : Arith) (HS : ser_ok A) (cs : D A -> D A).

Theorem bil_api max_eb ord ub r1 r2 U V junk buf size :
  0 <= r1 -> 0 < r2 -> Z.of_nat (length U) = r1 * r2 -> Z.of_nat (length V) = r1 * r2 -> Z.of_nat (length junk) < 2 ^ 64 ->
  (forall x, In x U \/ In x V -> log_agree A x) ->
  compress_bil A cs max_eb ord ub r1 r2 U V junk = Some (buf, size) -> bil_short A cs max_eb ord r1 r2 U V ->
  exists Ud Vd U' V' LU LV c,
    decompress_log A r1 r2 (firstn size buf) = Some (Ud, Vd) /\ enc_bil A cs max_eb r1 r2 U V = Some (U', V', LU, LV, c) /\
    Ud = log_finals A (c_eb c) U LU /\ Vd = log_finals A (c_eb c) V LV /\
    length Ud = length U /\ length Vd = length V /\
    forall k u v ud vd, aget U k = Some u -> aget V k = Some v -> aget Ud k = Some ud -> aget Vd k = Some vd ->
      (ud = u /\ vd = v /\ aget U' k = Some u /\ aget V' k = Some v) \/
      (teq A u (t0 A) = false /\ teq A v (t0 A) = false /\ exists lu lv u' v',
         aget LU k = Some lu /\ aget LV k = Some lv /\ aget U' k = Some u' /\ aget V' k = Some v' /\
         ud = (if tlt A lu (tofZ A (-99)) then t0 A else u') /\ vd = (if tlt A lv (tofZ A (-99)) then t0 A else v')).
Proof.
  intros H1 H2 LenU LenV HJ HA H HK. unfold compress_bil in H. destruct (1 <=? r1 * r2) eqn:E1; [|discriminate].
  bind_as H [s c] HE. destruct s as [[[U' V'] LU] LV]. destruct (Z.of_nat (length junk) =? _) eqn:EJ in H; [|discriminate].
  exists (log_finals A (c_eb c) U LU), (log_finals A (c_eb c) V LV), U', V', LU, LV, c.
  split; [exact (gen_round_trip A _ r2 _ (bil_step A cs max_eb r1 r2) ord ub r1 U V U' V' LU LV c junk buf size HS H1 H2 LenU LenV HA HE (HK _ _ HE) HJ H ltac:(lia))|].
  split; auto. split; auto. split; auto.
  exact (inv_api_points A r1 r2 U V U' V' LU LV c LenU LenV (gen_inv_final A _ r2 _ (bil_step A cs max_eb r1 r2) r1 _ _ _ _ H1 H2 HE)).
Qed.
End Gen.

Section Double.
Context (lm : Libm binary64 binary64) (cs : binary64 -> binary64).

Theorem bil_api_double max_eb ord ub r1 r2 U V junk buf size :
  0 <= r1 -> 0 < r2 -> Z.of_nat (length U) = r1 * r2 -> Z.of_nat (length V) = r1 * r2 -> Z.of_nat (length junk) < 2 ^ 64 ->
  (forall x, In x U \/ In x V -> not_nan x) ->
  compress_bil (DA lm) cs max_eb ord ub r1 r2 U V junk = Some (buf, size) -> bil_short (DA lm) cs max_eb ord r1 r2 U V ->
  exists Ud Vd U' V' LU LV c,
    decompress_log (DA lm) r1 r2 (firstn size buf) = Some (Ud, Vd) /\ enc_bil (DA lm) cs max_eb r1 r2 U V = Some (U', V', LU, LV, c) /\
    length Ud = length U /\ length Vd = length V /\
    forall k u v ud vd, aget U k = Some u -> aget V k = Some v -> aget Ud k = Some ud -> aget Vd k = Some vd ->
      (ud = u /\ vd = v /\ aget U' k = Some u /\ aget V' k = Some v) \/
      (is_zero u = false /\ is_zero v = false /\ exists lu lv u' v',
         aget LU k = Some lu /\ aget LV k = Some lv /\ aget U' k = Some u' /\ aget V' k = Some v' /\
         ud = (if blt 53 1024 lu (b64_ofZ (-99)) then B754_zero 53 1024 false else u') /\
         vd = (if blt 53 1024 lv (b64_ofZ (-99)) then B754_zero 53 1024 false else v')).
Proof.
  intros H1 H2 LU LV LJ HN H HK.
  destruct (bil_api (DA lm) (DA_ser lm) cs _ _ _ _ _ _ _ _ _ _ H1 H2 LU LV LJ (fun x Hx => agree_double lm x (HN x Hx)) H HK)
    as (Ud & Vd & U' & V' & MU & MV & c & E1 & E2 & _ & _ & E3 & E4 & HP).
  exists Ud, Vd, U', V', MU, MV, c. repeat (split; auto). intros k u v ud vd G1 G2 G3 G4.
  destruct (HP k u v ud vd G1 G2 G3 G4) as [X|(Zu & Zv & X)]; [left; exact X|right].
  assert (Z : forall x : binary64, teq (DA lm) x (t0 (DA lm)) = false -> is_zero x = false).
  { intros [[|]| | |] Hx; auto; vm_compute in Hx; discriminate. }
  split; [apply Z; auto|]. split; [apply Z; auto|]. exact X.
Qed.

Theorem bil_machine_double max_eb r1 r2 U V : lm_x86 lm = true ->
  0 <= r1 -> 0 < r2 -> Z.of_nat (length U) = r1 * r2 -> Z.of_nat (length V) = r1 * r2 ->
  exists s c, enc_bil (DA lm) cs max_eb r1 r2 U V = Some (s, c).
Proof.
  intros HX. apply bil_machine_total. intros x. rewrite (v_dtoint (DA lm) (DA_ieee lm)). cbn [DA_ieee oob]. unfold lm_oob. rewrite HX. destruct (xtoint _); eauto.
Qed.

Context (L : libm_ok (DA lm) (DA_ieee lm)) (LL : log_libm_ok (DA lm) (DA_ieee lm)).

Theorem bil_bound_double max_eb ord ub r1 r2 U V junk buf size :
  0 <= r1 -> 0 < r2 -> Z.of_nat (length U) = r1 * r2 -> Z.of_nat (length V) = r1 * r2 -> Z.of_nat (length junk) < 2 ^ 64 ->
  is_finite 53 1024 max_eb = true -> (0 <= B2R 53 1024 max_eb <= 1)%R -> (forall x, In x U \/ In x V -> zero_or_usual 100 x) ->
  compress_bil (DA lm) cs max_eb ord ub r1 r2 U V junk = Some (buf, size) -> bil_short (DA lm) cs max_eb ord r1 r2 U V ->
  exists U' V', decompress_log (DA lm) r1 r2 (firstn size buf) = Some (U', V') /\
    length U' = length U /\ length V' = length V /\
    (forall k u v u' v', aget U k = Some u -> aget V k = Some v -> aget U' k = Some u' -> aget V' k = Some v' ->
      let b := (B2R 53 1024 max_eb + bpow radix2 (-13))%R in
      (u' = u /\ v' = v) \/ (rel_differs_le b u u' /\ rel_differs_le b v v')) /\
    forall i j, 0 <= i < r1 - 1 -> 0 <= j < r2 - 1 -> cell_types (DA lm) cs r2 U' V' i j = cell_types (DA lm) cs r2 U V i j.
Proof.
  intros H1 H2 LU LV LJ M1 M2 HU H HK.
  assert (HN : forall x, In x U \/ In x V -> not_nan x).
  { intros x Hx. destruct (HU x Hx) as [F _]. unfold not_nan. destruct x; try discriminate; reflexivity. }
  destruct (bil_api (DA lm) (DA_ser lm) cs _ _ _ _ _ _ _ _ _ _ H1 H2 LU LV LJ (fun x Hx => agree_double lm x (HN x Hx)) H HK)
    as (Ud & Vd & U' & V' & MU & MV & c & E1 & E2 & F1 & F2 & E3 & E4 & _).
  assert (US : forall W, (forall x, In x W -> In x U \/ In x V) -> forall n x, aget W n = Some x -> usual (DA lm) (DA_ieee lm) 100 x).
  { intros W HW n x Ex. apply aget_In in Ex. destruct (HU x (HW x Ex)) as (G1 & G2 & G3). exists (B2R 53 1024 x).
    split; [apply (fin_val 53 1024); auto|auto]. }
  destruct (bil_bound (DA lm) (DA_ieee lm) L LL ltac:(cbn; lia) cs max_eb (B2R 53 1024 max_eb) r1 r2 U V U' V' MU MV c
     ltac:(apply (fin_val 53 1024); auto) M2 H1 H2 LU LV (US U ltac:(auto)) (US V ltac:(auto)) E2) as (K1 & K2 & K).
  exists U', V'. rewrite K1 in F1. rewrite K2 in F2. subst Ud Vd. split; auto. split; auto. split; auto.
  split; [|exact (bil_cells (DA lm) cs max_eb r1 r2 U V U' V' MU MV c H1 H2 E2)].
  intros k u v u' v' G1 G2 G3 G4 b.
  assert (W : forall x y, rel_close (DA lm) (DA_ieee lm) (B2R 53 1024 max_eb) x y -> rel_differs_le b x y).
  { intros x y (a & a' & Ea & Ea' & Hs & Hb). apply (val_fin_iff 53 1024) in Ea, Ea'. destruct Ea as [_ <-]. destruct Ea' as [F <-].
    split; auto. }
  destruct (K k u v u' v' G1 G2 G3 G4) as [X|[X Y]]; [left; auto|right; auto].
Qed.
End Double.

Section Float.
Context (lm : Libm binary32 binary64) (cs : binary64 -> binary64).

Theorem bil_api_float max_eb ord ub r1 r2 U V junk buf size :
  0 <= r1 -> 0 < r2 -> Z.of_nat (length U) = r1 * r2 -> Z.of_nat (length V) = r1 * r2 -> Z.of_nat (length junk) < 2 ^ 64 ->
  (forall x, In x U \/ In x V -> not_nan x) ->
  compress_bil (FA lm) cs max_eb ord ub r1 r2 U V junk = Some (buf, size) -> bil_short (FA lm) cs max_eb ord r1 r2 U V ->
  exists Ud Vd U' V' LU LV c,
    decompress_log (FA lm) r1 r2 (firstn size buf) = Some (Ud, Vd) /\ enc_bil (FA lm) cs max_eb r1 r2 U V = Some (U', V', LU, LV, c) /\
    length Ud = length U /\ length Vd = length V /\
    forall k u v ud vd, aget U k = Some u -> aget V k = Some v -> aget Ud k = Some ud -> aget Vd k = Some vd ->
      (ud = u /\ vd = v /\ aget U' k = Some u /\ aget V' k = Some v) \/
      (is_zero u = false /\ is_zero v = false /\ exists lu lv u' v',
         aget LU k = Some lu /\ aget LV k = Some lv /\ aget U' k = Some u' /\ aget V' k = Some v' /\
         ud = (if blt 24 128 lu (b32_ofZ (-99)) then B754_zero 24 128 false else u') /\
         vd = (if blt 24 128 lv (b32_ofZ (-99)) then B754_zero 24 128 false else v')).
Proof.
  intros H1 H2 LU LV LJ HN H HK.
  destruct (bil_api (FA lm) (FA_ser lm) cs _ _ _ _ _ _ _ _ _ _ H1 H2 LU LV LJ (fun x Hx => agree_float lm x (HN x Hx)) H HK)
    as (Ud & Vd & U' & V' & MU & MV & c & E1 & E2 & _ & _ & E3 & E4 & HP).
  exists Ud, Vd, U', V', MU, MV, c. repeat (split; auto). intros k u v ud vd G1 G2 G3 G4.
  destruct (HP k u v ud vd G1 G2 G3 G4) as [X|(Zu & Zv & X)]; [left; exact X|right].
  assert (Z : forall x : binary32, teq (FA lm) x (t0 (FA lm)) = false -> is_zero x = false).
  { intros [[|]| | |] Hx; auto; vm_compute in Hx; discriminate. }
  split; [apply Z; auto|]. split; [apply Z; auto|]. exact X.
Qed.

Theorem bil_machine_float max_eb r1 r2 U V : lm_x86 lm = true ->
  0 <= r1 -> 0 < r2 -> Z.of_nat (length U) = r1 * r2 -> Z.of_nat (length V) = r1 * r2 ->
  exists s c, enc_bil (FA lm) cs max_eb r1 r2 U V = Some (s, c).
Proof.
  intros HX. apply bil_machine_total. intros x. rewrite (v_dtoint (FA lm) (FA_ieee lm)). cbn [FA_ieee oob]. unfold lm_oob. rewrite HX. destruct (xtoint _); eauto.
Qed.

Context (L : libm_ok (FA lm) (FA_ieee lm)) (LL : log_libm_ok (FA lm) (FA_ieee lm)).

Theorem bil_bound_float max_eb ord ub r1 r2 U V junk buf size :
  0 <= r1 -> 0 < r2 -> Z.of_nat (length U) = r1 * r2 -> Z.of_nat (length V) = r1 * r2 -> Z.of_nat (length junk) < 2 ^ 64 ->
  is_finite 53 1024 max_eb = true -> (0 <= B2R 53 1024 max_eb <= 1)%R -> (forall x, In x U \/ In x V -> zero_or_usual 100 x) ->
  compress_bil (FA lm) cs max_eb ord ub r1 r2 U V junk = Some (buf, size) -> bil_short (FA lm) cs max_eb ord r1 r2 U V ->
  exists U' V', decompress_log (FA lm) r1 r2 (firstn size buf) = Some (U', V') /\
    length U' = length U /\ length V' = length V /\
    (forall k u v u' v', aget U k = Some u -> aget V k = Some v -> aget U' k = Some u' -> aget V' k = Some v' ->
      let b := (B2R 53 1024 max_eb + bpow radix2 (-13))%R in
      (u' = u /\ v' = v) \/ (rel_differs_le b u u' /\ rel_differs_le b v v')) /\
    forall i j, 0 <= i < r1 - 1 -> 0 <= j < r2 - 1 -> cell_types (FA lm) cs r2 U' V' i j = cell_types (FA lm) cs r2 U V i j.
Proof.
  intros H1 H2 LU LV LJ M1 M2 HU H HK.
  assert (HN : forall x, In x U \/ In x V -> not_nan x).
  { intros x Hx. destruct (HU x Hx) as [F _]. unfold not_nan. destruct x; try discriminate; reflexivity. }
  destruct (bil_api (FA lm) (FA_ser lm) cs _ _ _ _ _ _ _ _ _ _ H1 H2 LU LV LJ (fun x Hx => agree_float lm x (HN x Hx)) H HK)
    as (Ud & Vd & U' & V' & MU & MV & c & E1 & E2 & F1 & F2 & E3 & E4 & _).
  assert (US : forall W, (forall x, In x W -> In x U \/ In x V) -> forall n x, aget W n = Some x -> usual (FA lm) (FA_ieee lm) 100 x).
  { intros W HW n x Ex. apply aget_In in Ex. destruct (HU x (HW x Ex)) as (G1 & G2 & G3). exists (B2R 24 128 x).
    split; [apply (fin_val 24 128); auto|auto]. }
  destruct (bil_bound (FA lm) (FA_ieee lm) L LL ltac:(cbn; lia) cs max_eb (B2R 53 1024 max_eb) r1 r2 U V U' V' MU MV c
     ltac:(apply (fin_val 53 1024); auto) M2 H1 H2 LU LV (US U ltac:(auto)) (US V ltac:(auto)) E2) as (K1 & K2 & K).
  exists U', V'. rewrite K1 in F1. rewrite K2 in F2. subst Ud Vd. split; auto. split; auto. split; auto.
  split; [|exact (bil_cells (FA lm) cs max_eb r1 r2 U V U' V' MU MV c H1 H2 E2)].
  intros k u v u' v' G1 G2 G3 G4 b.
  assert (W : forall x y, rel_close (FA lm) (FA_ieee lm) (B2R 53 1024 max_eb) x y -> rel_differs_le b x y).
  { intros x y (a & a' & Ea & Ea' & Hs & Hb). apply (val_fin_iff 24 128) in Ea, Ea'. destruct Ea as [_ <-]. destruct Ea' as [F <-].
    split; auto. }
  destruct (K k u v u' v' G1 G2 G3 G4) as [X|[X Y]]; [left; auto|right; auto].
Qed.
End Float.

(** ** A run *)
Lemma short_bil A cs max_eb ord r1 r2 U V : 0 <= r1 -> 0 < r2 -> 2 * (r1 * r2) <= 65 -> bil_short A cs max_eb ord r1 r2 U V.
Proof.
  intros H1 H2 H3 s c E. destruct s as [[[U' V'] LU] LV].
  destruct (gen_inv_final A _ r2 _ (bil_step A cs max_eb r1 r2) r1 _ _ _ _ H1 H2 E) as (_ & _ & _ & _ & Le & Lq & _).
  assert (N : forall l : list Z, (length (nodup Z.eq_dec l) <= length l)%nat).
  { induction l as [|x l IH]; cbn [nodup]; auto. destruct (in_dec _ _ _); cbn [length]; lia. }
  split; apply few_symbols_max_code; eapply Nat.le_trans; try apply N; lia.
Qed.

Definition zero_re (x : binary64) : binary64 := dy 0 0.
Definition bqU64 : list binary64 := map (fun p : Z * Z => dy (fst p) (snd p))
  [(0, 0); (1, 0); (-1, 2); (0, 0); (0, 0); (-1, -12); (0, 0); (-1, 2); (0, 0); (-1, 2); (1, 2); (0, 0); (-1, 0); (0, 0); (-1, 2); (-1, -12); (0, 0); (1, -12); (0, 0); (1, -12); (1, 0); (0, 0); (1, 0); (1, -12); (1, 2); (-1, -12); (0, 0); (-1, -12); (0, 0); (1, -12); (0, 0); (1, 2)].
Definition bqV64 : list binary64 := map (fun p : Z * Z => dy (fst p) (snd p))
  [(-1, 0); (0, 0); (0, 0); (1, 2); (-1, 2); (-1, -12); (-1, 0); (0, 0); (-1, 0); (0, 0); (0, 0); (-1, 2); (0, 0); (1, 2); (0, 0); (1, -12); (1, 2); (-1, -12); (-1, 0); (-1, -12); (0, 0); (1, 2); (0, 0); (1, -12); (0, 0); (1, -12); (1, 2); (-1, -12); (-1, 0); (-1, -12); (-1, 0); (0, 0)].
Lemma ex_bil_runs x86 : out_size (compress_bil (DA (lmlog64 x86)) zero_re one ord0 ub0 2 16 bqU64 bqV64 (repeat 0 768)) = Some 613%nat.
Proof. destruct x86; vm_compute; reflexivity. Qed.
(** How many points are not stored verbatim. *)
Lemma ex_bil_coded x86 : option_map (fun r : log_state (DA (lmlog64 x86)) * code binary64 => Z.of_nat (length (filter (fun e => negb (e =? 0)) (c_eb (snd r)))))
    (enc_bil (DA (lmlog64 x86)) zero_re one 2 16 bqU64 bqV64) = Some 8.
Proof. destruct x86; vm_compute; reflexivity. Qed.
Lemma ex_bil_types x86 : map (cell_types (DA (lmlog64 x86)) zero_re 16 bqU64 bqV64 0) (zrange 0 15) =
  map Some [[2]; [1]; [3]; [4]; [3]; [2]; [3]; [2]; [3]; [2]; [3]; []; [3]; [1]; [3]].
Proof. destruct x86; vm_compute; reflexivity. Qed.

Lemma bq_usual x : In x bqU64 \/ In x bqV64 -> zero_or_usual 100 x.
Proof.
  intros H. assert (G : Forall (zero_or_usual 100) (bqU64 ++ bqV64)).
  { unfold bqU64, bqV64. cbn [map app fst snd]. repeat (apply Forall_cons; [apply dy_usual; lia|]). apply Forall_nil. }
  rewrite Forall_forall in G. apply G. apply in_or_app. auto.
Qed.

Lemma ex_bil_ok x86 :
  (exists buf, compress_bil (DA (lmlog64 x86)) zero_re one ord0 ub0 2 16 bqU64 bqV64 (repeat 0 768) = Some (buf, 613%nat)) /\
  libm_ok (DA (lmlog64 x86)) (DA_ieee (lmlog64 x86)) /\ log_libm_ok (DA (lmlog64 x86)) (DA_ieee (lmlog64 x86)) /\
  bil_short (DA (lmlog64 x86)) zero_re one ord0 2 16 bqU64 bqV64 /\ (forall x, In x bqU64 \/ In x bqV64 -> zero_or_usual 100 x) /\
  is_finite 53 1024 one = true /\ (0 <= B2R 53 1024 one <= 1)%R.
Proof.
  split; [apply out_size_some, ex_bil_runs|]. split; [apply lmlog64_ok|]. split; [apply lmlog64_log_ok|].
  split; [apply short_bil; lia|]. split; [exact bq_usual|]. split; [reflexivity|]. rewrite one_val. lra.
Qed.
