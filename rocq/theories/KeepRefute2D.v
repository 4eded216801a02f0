(** Runs of the absolute 2D codec in which rounding creates a critical point.  Nothing of /repo is modelled here. *)
From Coq Require Import Reals Lra Lia ZArith List Bool.
From Coq Require Import ZifyBool ZifyNat.
From Flocq Require Import Core.Core IEEE754.BinarySingleNaN IEEE754.Binary IEEE754.Bits.
From Verif Require Import Base Huffman HuffStream HuffProps Stream Arith Mesh2D Derive2D Codec2D Sync2D Trace2D Stream2D Exact Cells2D Geo2D Preserve2D
  IEEE IEEELaws IEEEQuant IEEE2D IEEEAbs2D Api2D LibmModel Witness2D Examples2D Refute2D OfflineWitness2D PwrWitness2D Sz3 Sz3Cells Sz3Refute KeepApi2D.
Import ListNotations.
Local Open Scope Z_scope.

(** Two rows: a smooth ramp (coded), a column of zeros (critical points, kept), then two columns with nearly parallel vectors. *)
Definition ramp_u (n i : Z) : list (Z * Z) := map (fun j => (64 * (4 * (8 + i) + j) + 1, -8)) (zrange 0 n).
Definition ramp_v (n i : Z) : list (Z * Z) := map (fun j => (2 * (20 + j) - i, -1)) (zrange 0 n).
Definition two_rows (f : Z -> list (Z * Z)) (a b c d : Z * Z) : list (Z * Z) := f 0 ++ [(0, 0); a; b] ++ f 1 ++ [(0, 0); c; d].
Definition du (x : Z * Z) : binary64 := dy (fst x) (snd x).

Definition fu : list (Z * Z) := two_rows (ramp_u 16) (-1468069, 2) (1467645, 1) (-2935799, 1) (2935965, 0).
Definition fv : list (Z * Z) := two_rows (ramp_v 16) (-194575, 1) (24315, 3) (-194553, 1) (12452099, -6).
Definition FU : list binary32 := map b32 fu.
Definition FV : list binary32 := map b32 fv.
Definition gu64 : list (Z * Z) := two_rows (ramp_u 16) (1545784377685337, 1) (-193230933729055, -1) (1545786318982171, 1) (-6183141393335005, -6).
Definition gv64 : list (Z * Z) := two_rows (ramp_v 16) (106738406303823, 1) (-106742762898013, -4) (106738540352875, 1) (-6831262293014331, -10).
Definition GU : list binary64 := map du gu64.
Definition GV : list binary64 := map du gv64.

(** Compress, decompress, and look at some points. *)
Definition seen {A} (max_eb : D A) (U V : list (T A)) n (bits : T A -> Z) (ks : list Z) : option (list (option Z) * list (option Z)) :=
  match compress_online_abs A max_eb ord0 ub0 2 19 U V (repeat 0 n) with
  | Some (buf, size) => match decompress_online A 2 19 (firstn size buf) with
      | Some (U', V') => Some (map (fun k => option_map bits (aget U' k)) ks, map (fun k => option_map bits (aget V' k)) ks) | None => None end
  | None => None
  end.
Definition at_bits {X} (bits : X -> Z) (l : list X) : list (option Z) := map (fun x => Some (bits x)) l.
Lemma seen_float x86 : @seen (FA (lm32 x86)) (dy 1 (-4)) FU FV 304 bits_of_b32 [17; 36; 37; 3] =
  Some (at_bits bits_of_b32 (map b32 [(-1468069, 2); (-2935799, 1); (2935965, 0); (35, -2)]), at_bits bits_of_b32 (map b32 [(-194575, 1); (-194553, 1); (48641, 2); (23, 0)])).
Proof. destruct x86; vm_compute; reflexivity. Qed.
Lemma seen_double x86 : @seen (DA (lm64 x86)) (dy 1 (-8)) GU GV 608 bits_of_b64 [17; 36; 37] =
  Some (at_bits bits_of_b64 (map du [(1545784377685337, 1); (1545786318982171, 1); (-6183141393335005, -6)]),
        at_bits bits_of_b64 (map du [(106738406303823, 1); (106738540352875, 1); (-853907786626791, -7)])).
Proof. destruct x86; vm_compute; reflexivity. Qed.

Lemma yes_crosses w0 w1 w2 : (0 < mM0 w0 w1 w2 * mM w0 w1 w2 -> 0 < mM1 w0 w1 w2 * mM w0 w1 w2 -> 0 < mM2 w0 w1 w2 * mM w0 w1 w2 -> crosses w0 w1 w2)%R.
Proof.
  intros H0 H1 H2. set (m := mM w0 w1 w2) in *.
  assert (HM : m <> 0%R) by (intros Z; rewrite Z in H0; lra). split; [exact HM|].
  assert (Hq : forall x, (0 < x * m -> 0 < x / m)%R).
  { intros x Hx. replace (x / m)%R with (x * m / (m * m))%R by (field; auto).
    apply Rmult_lt_0_compat; auto. apply Rinv_0_lt_compat. nra. }
  exists (mM1 w0 w1 w2 / m)%R, (mM0 w0 w1 w2 / m)%R, (mM2 w0 w1 w2 / m)%R.
  split; [auto|]. split; [auto|]. split; [auto|]. destruct w0 as [u0 v0], w1 as [u1 v1], w2 as [u2 v2].
  repeat split; unfold mM, mM0, mM1, mM2 in m; unfold mM0, mM1, mM2; cbn [fst snd] in *; unfold m in *; field; exact HM.
Qed.

Lemma four_inj {X} (a b c x y z : X) (l l' : list X) : a :: b :: c :: l = x :: y :: z :: l' -> a = x /\ b = y /\ c = z.
Proof. intros H. inversion H. auto. Qed.
Lemma seen_inv {A} max_eb U V n (bits : T A -> Z) (inj : forall x y, bits x = bits y -> x = y) p q r ks u0 u1 u2 us v0 v1 v2 vs :
  @seen A max_eb U V n bits (p :: q :: r :: ks) = Some (at_bits bits (u0 :: u1 :: u2 :: us), at_bits bits (v0 :: v1 :: v2 :: vs)) ->
  exists buf size U' V', compress_online_abs A max_eb ord0 ub0 2 19 U V (repeat 0 n) = Some (buf, size) /\
    decompress_online A 2 19 (firstn size buf) = Some (U', V') /\
    (aget U' p = Some u0 /\ aget U' q = Some u1 /\ aget U' r = Some u2) /\ (aget V' p = Some v0 /\ aget V' q = Some v1 /\ aget V' r = Some v2).
Proof.
  unfold seen, at_bits. intros H. destruct (compress_online_abs _ _ _ _ _ _ _ _ _) as [[buf size]|]; [|discriminate].
  destruct (decompress_online _ _ _ _) as [[U' V']|] eqn:E2; [|discriminate]. apply Some_inj in H. symmetry in H. apply pair_equal_spec in H.
  destruct H as [HU HV]. cbn [map] in HU, HV. apply four_inj in HU, HV. destruct HU as (U1 & U2 & U3), HV as (V1 & V2 & V3).
  assert (G : forall l k y, option_map bits (aget l k) = Some (bits y) -> aget l k = Some y).
  { intros l k y Hy. destruct (aget l k) as [x|]; [|discriminate]. cbn [option_map] in Hy. injection Hy as Hy. f_equal. auto. }
  apply G in U1, U2, U3, V1, V2, V3. exists buf, size, U', V'. repeat (split; [first [reflexivity|assumption]|]). repeat split; assumption.
Qed.

Lemma vecF_get {p e} r2 (U V : list (binary_float p e)) a u v : 0 <= lin r2 a -> aget U (lin r2 a) = Some u -> aget V (lin r2 a) = Some v ->
  vecF r2 U V a = (B2R p e u, B2R p e v).
Proof. intros H HU HV. unfold vecF, vecR. rewrite !nth_aget by auto. rewrite HU, HV, <- !B2R_toR. reflexivity. Qed.

Definition okm (b : Z) (x : Z * Z) : bool := (Z.abs (fst x) <? b) && (-20 <=? snd x) && (snd x <=? 3).
Lemma b32_val x : okm (2 ^ 24) x = true -> is_finite 24 128 (b32 x) = true /\ B2R 24 128 (b32 x) = (IZR (fst x) * bpow radix2 (snd x))%R.
Proof. unfold okm. intros H. apply (val_fin_iff 24 128). destruct x as [m e]. cbn [fst snd] in *. apply b32_dy; lia. Qed.
Lemma du_val x : okm (2 ^ 53) x = true -> is_finite 53 1024 (du x) = true /\ B2R 53 1024 (du x) = (IZR (fst x) * bpow radix2 (snd x))%R.
Proof. unfold okm. intros H. destruct x as [m e]. cbn [fst snd] in *. apply dy_B2R; lia. Qed.
Lemma ok_le b k x : 0 <= b -> okm (2 ^ b) x = true -> b + 3 <= k -> (Rabs (IZR (fst x) * bpow radix2 (snd x)) <= bpow radix2 k)%R.
Proof.
  intros Hb H Hk. unfold okm in H. rewrite Rabs_mult, <- abs_IZR, (Rabs_pos_eq (bpow _ _)) by apply bpow_ge_0.
  apply Rle_trans with (bpow radix2 b * bpow radix2 3)%R; [|rewrite <- bpow_plus; apply bpow_le; lia].
  apply Rmult_le_compat; [apply IZR_le; lia|apply bpow_ge_0| |apply bpow_le; lia].
  rewrite <- IZR_Zpower by auto. apply IZR_le. change (Z.abs (fst x) <= 2 ^ b). lia.
Qed.
Lemma F_ok x : In x FU \/ In x FV -> finite_le 56 x.
Proof.
  assert (K : forallb (okm (2 ^ 24)) (fu ++ fv) = true) by (vm_compute; reflexivity). rewrite forallb_forall in K.
  intros H. assert (G : exists y, x = b32 y /\ In y (fu ++ fv)).
  { destruct H as [H|H]; apply in_map_iff in H; destruct H as (y & <- & Hy); exists y; rewrite in_app_iff; auto. }
  destruct G as (y & -> & Hy). destruct (b32_val y (K y Hy)) as [F E]. split; [exact F|]. rewrite E. apply (ok_le 24); auto; lia.
Qed.
Lemma G_ok x : In x GU \/ In x GV -> finite_le 500 x.
Proof.
  assert (K : forallb (okm (2 ^ 53)) (gu64 ++ gv64) = true) by (vm_compute; reflexivity). rewrite forallb_forall in K.
  intros H. assert (G : exists y, x = du y /\ In y (gu64 ++ gv64)).
  { destruct H as [H|H]; apply in_map_iff in H; destruct H as (y & <- & Hy); exists y; rewrite in_app_iff; auto. }
  destruct G as (y & -> & Hy). destruct (du_val y (K y Hy)) as [F E]. split; [exact F|]. rewrite E. apply (ok_le 53); auto; lia.
Qed.

(** Values of the points of the witnesses. *)
Lemma vecF32_get (U V : list binary32) a x y : 0 <= lin 19 a -> aget U (lin 19 a) = Some (b32 x) -> aget V (lin 19 a) = Some (b32 y) ->
  okm (2 ^ 24) x = true -> okm (2 ^ 24) y = true ->
  vecF 19 U V a = (IZR (fst x) * bpow radix2 (snd x), IZR (fst y) * bpow radix2 (snd y))%R.
Proof. intros H HU HV Ox Oy. rewrite (vecF_get 19 U V a _ _ H HU HV). rewrite (proj2 (b32_val x Ox)), (proj2 (b32_val y Oy)). reflexivity. Qed.
Lemma vecF64_get (U V : list binary64) a x y : 0 <= lin 19 a -> aget U (lin 19 a) = Some (du x) -> aget V (lin 19 a) = Some (du y) ->
  okm (2 ^ 53) x = true -> okm (2 ^ 53) y = true ->
  vecF 19 U V a = (IZR (fst x) * bpow radix2 (snd x), IZR (fst y) * bpow radix2 (snd y))%R.
Proof. intros H HU HV Ox Oy. rewrite (vecF_get 19 U V a _ _ H HU HV). rewrite (proj2 (du_val x Ox)), (proj2 (du_val y Oy)). reflexivity. Qed.

Lemma before_float : ~ has_cp (vecF 19 FU FV (0, 17)) (vecF 19 FU FV (1, 17)) (vecF 19 FU FV (1, 18)).
Proof.
  rewrite (vecF32_get FU FV (0, 17) (-1468069, 2) (-194575, 1)), (vecF32_get FU FV (1, 17) (-2935799, 1) (-194553, 1)),
    (vecF32_get FU FV (1, 18) (2935965, 0) (12452099, -6)) by (reflexivity || (unfold lin; cbn; lia)).
  apply no_cp1. unfold mM0, mM1, mM2. cbn [fst snd bpow]. cbn. lra.
Qed.
Lemma after_float U' V' : aget U' 17 = Some (b32 (-1468069, 2)) /\ aget U' 36 = Some (b32 (-2935799, 1)) /\ aget U' 37 = Some (b32 (2935965, 0)) ->
  aget V' 17 = Some (b32 (-194575, 1)) /\ aget V' 36 = Some (b32 (-194553, 1)) /\ aget V' 37 = Some (b32 (48641, 2)) ->
  crosses (vecF 19 U' V' (0, 17)) (vecF 19 U' V' (1, 17)) (vecF 19 U' V' (1, 18)).
Proof.
  intros (U1 & U2 & U3) (V1 & V2 & V3).
  rewrite (vecF32_get U' V' (0, 17) (-1468069, 2) (-194575, 1)), (vecF32_get U' V' (1, 17) (-2935799, 1) (-194553, 1)),
    (vecF32_get U' V' (1, 18) (2935965, 0) (48641, 2)) by (assumption || reflexivity || (unfold lin; cbn; lia)).
  apply yes_crosses; unfold mM, mM0, mM1, mM2; cbn [fst snd bpow]; cbn; lra.
Qed.
Lemma before_double : ~ has_cp (vecF 19 GU GV (0, 17)) (vecF 19 GU GV (1, 17)) (vecF 19 GU GV (1, 18)).
Proof.
  rewrite (vecF64_get GU GV (0, 17) (1545784377685337, 1) (106738406303823, 1)), (vecF64_get GU GV (1, 17) (1545786318982171, 1) (106738540352875, 1)),
    (vecF64_get GU GV (1, 18) (-6183141393335005, -6) (-6831262293014331, -10)) by (reflexivity || (unfold lin; cbn; lia)).
  apply no_cp1. unfold mM0, mM1, mM2. cbn [fst snd bpow]. cbn. lra.
Qed.
Lemma after_double U' V' : aget U' 17 = Some (du (1545784377685337, 1)) /\ aget U' 36 = Some (du (1545786318982171, 1)) /\ aget U' 37 = Some (du (-6183141393335005, -6)) ->
  aget V' 17 = Some (du (106738406303823, 1)) /\ aget V' 36 = Some (du (106738540352875, 1)) /\ aget V' 37 = Some (du (-853907786626791, -7)) ->
  crosses (vecF 19 U' V' (0, 17)) (vecF 19 U' V' (1, 17)) (vecF 19 U' V' (1, 18)).
Proof.
  intros (U1 & U2 & U3) (V1 & V2 & V3).
  rewrite (vecF64_get U' V' (0, 17) (1545784377685337, 1) (106738406303823, 1)), (vecF64_get U' V' (1, 17) (1545786318982171, 1) (106738540352875, 1)),
    (vecF64_get U' V' (1, 18) (-6183141393335005, -6) (-853907786626791, -7)) by (assumption || reflexivity || (unfold lin; cbn; lia)).
  apply yes_crosses; unfold mM, mM0, mM1, mM2; cbn [fst snd bpow]; cbn; lra.
Qed.

Lemma bits32_inj x y : bits_of_b32 x = bits_of_b32 y -> x = y.
Proof. intros H. rewrite <- (b32_ser x), <- (b32_ser y), H. reflexivity. Qed.
Lemma eb_le e k : -20 <= e <= 0 -> 53 <= k -> finite_le k (dy 1 e).
Proof. intros He Hk. apply dy_finite; lia. Qed.
Lemma short19 A max_eb U V :
  match enc_online_abs A max_eb 2 19 U V with Some (_, _, c) => Nat.leb (length (nodup Z.eq_dec (c_q c))) 65 && Nat.leb (length (nodup Z.eq_dec (c_eb c))) 65 | None => true end = true ->
  short_codes (enc_online_abs A max_eb) ord0 2 19 U V.
Proof. intros H U' V' c E. rewrite E in H. apply andb_true_iff in H. destruct H as [H1 H2]. apply Nat.leb_le in H1, H2. split; apply few_symbols_max_code; auto. Qed.
Lemma short_float x86 : short_codes (enc_online_abs (FA (lm32 x86)) (dy 1 (-4))) ord0 2 19 FU FV.
Proof. apply short19. destruct x86; vm_compute; reflexivity. Qed.
Lemma short_double x86 : short_codes (enc_online_abs (DA (lm64 x86)) (dy 1 (-8))) ord0 2 19 GU GV.
Proof. apply short19. destruct x86; vm_compute; reflexivity. Qed.

Theorem creates_float x86 : exists max_eb r1 r2 (U V : list binary32) junk buf size U' V' a b d,
  finite_le 56 max_eb /\ (forall x, In x U \/ In x V -> finite_le 56 x) /\ Z.of_nat (length U) = r1 * r2 /\ Z.of_nat (length V) = r1 * r2 /\
  Z.of_nat (length junk) < 2 ^ 64 /\ short_codes (enc_online_abs (FA (lm32 x86)) max_eb) ord0 r1 r2 U V /\
  compress_online_abs (FA (lm32 x86)) max_eb ord0 ub0 r1 r2 U V junk = Some (buf, size) /\
  decompress_online (FA (lm32 x86)) r1 r2 (firstn size buf) = Some (U', V') /\ cell r1 r2 a b d /\
  ~ has_cp (vecF r2 U V a) (vecF r2 U V b) (vecF r2 U V d) /\ crosses (vecF r2 U' V' a) (vecF r2 U' V' b) (vecF r2 U' V' d).
Proof.
  destruct (@seen_inv (FA (lm32 x86)) _ _ _ _ bits_of_b32 bits32_inj _ _ _ _ _ _ _ _ _ _ _ _ (seen_float x86)) as (buf & size & U' & V' & E1 & E2 & HU & HV).
  exists (dy 1 (-4)), 2, 19, FU, FV, (repeat 0 304), buf, size, U', V', (0, 17), (1, 17), (1, 18).
  split; [apply eb_le; lia|]. split; [exact F_ok|]. split; [reflexivity|]. split; [reflexivity|]. split; [reflexivity|].
  split; [apply short_float|].
  split; [exact E1|]. split; [exact E2|]. split; [apply (cell_lower 2 19 0 17); lia|]. split; [exact before_float|]. apply after_float; assumption.
Qed.

Theorem creates_double x86 : exists max_eb r1 r2 (U V : list binary64) junk buf size U' V' a b d,
  finite_le 500 max_eb /\ (forall x, In x U \/ In x V -> finite_le 500 x) /\ Z.of_nat (length U) = r1 * r2 /\ Z.of_nat (length V) = r1 * r2 /\
  Z.of_nat (length junk) < 2 ^ 64 /\ short_codes (enc_online_abs (DA (lm64 x86)) max_eb) ord0 r1 r2 U V /\
  compress_online_abs (DA (lm64 x86)) max_eb ord0 ub0 r1 r2 U V junk = Some (buf, size) /\
  decompress_online (DA (lm64 x86)) r1 r2 (firstn size buf) = Some (U', V') /\ cell r1 r2 a b d /\
  ~ has_cp (vecF r2 U V a) (vecF r2 U V b) (vecF r2 U V d) /\ crosses (vecF r2 U' V' a) (vecF r2 U' V' b) (vecF r2 U' V' d).
Proof.
  destruct (@seen_inv (DA (lm64 x86)) _ _ _ _ bits_of_b64 bits_inj _ _ _ _ _ _ _ _ _ _ _ _ (seen_double x86)) as (buf & size & U' & V' & E1 & E2 & HU & HV).
  exists (dy 1 (-8)), 2, 19, GU, GV, (repeat 0 608), buf, size, U', V', (0, 17), (1, 17), (1, 18).
  split; [apply eb_le; lia|]. split; [exact G_ok|]. split; [reflexivity|]. split; [reflexivity|]. split; [reflexivity|].
  split; [apply short_double|].
  split; [exact E1|]. split; [exact E2|]. split; [apply (cell_lower 2 19 0 17); lia|]. split; [exact before_double|]. apply after_double; assumption.
Qed.

(** The same run meets the hypotheses of the positive theorem: a triangle with a critical point next to coded points. *)
Lemma keep_example : 
  (exists buf size, compress_online_abs (FA (lm32 false)) (dy 1 (-4)) ord0 ub0 2 19 FU FV (repeat 0 304) = Some (buf, size)) /\
  libm_ok (FA (lm32 false)) (FA_ieee (lm32 false)) /\ short_codes (enc_online_abs (FA (lm32 false)) (dy 1 (-4))) ord0 2 19 FU FV /\
  finite_le 56 (dy 1 (-4)) /\ (forall x, In x FU \/ In x FV -> finite_le 56 x) /\ Z.of_nat (length FU) = 2 * 19 /\ Z.of_nat (length FV) = 2 * 19 /\
  (exists a b d, cell 2 19 a b d /\ has_cp (vecF 19 FU FV a) (vecF 19 FU FV b) (vecF 19 FU FV d)) /\
  (exists k x x', aget FU k = Some x /\ option_map (fun p => aget (fst (fst p)) k) (enc_online_abs (FA (lm32 false)) (dy 1 (-4)) 2 19 FU FV) = Some (Some x') /\ x' <> x).
Proof.
  destruct (@seen_inv (FA (lm32 false)) _ _ _ _ bits_of_b32 bits32_inj _ _ _ _ _ _ _ _ _ _ _ _ (seen_float false)) as (buf & size & U' & V' & E1 & E2 & HU & HV).
  split; [eauto|]. split; [apply lm32_ok|]. split; [apply short_float|]. split; [apply eb_le; lia|]. split; [exact F_ok|].
  split; [reflexivity|]. split; [reflexivity|]. split.
  - exists (0, 16), (1, 16), (1, 17). split; [apply (cell_lower 2 19 0 16); lia|]. exists 1%R, 0%R, 0%R.
    rewrite (vecF32_get FU FV (0, 16) (0, 0) (0, 0)) by (reflexivity || (unfold lin; cbn; lia)). cbn [fst snd]. repeat split; lra.
  - assert (K : match enc_online_abs (FA (lm32 false)) (dy 1 (-4)) 2 19 FU FV with Some (X, _, _) => option_map bits_of_b32 (aget X 3) | None => None end = Some (bits_of_b32 (b32 (35, -2)))) by (vm_compute; reflexivity).
    destruct (enc_online_abs (FA (lm32 false)) (dy 1 (-4)) 2 19 FU FV) as [[[X Y] c]|]; [|discriminate].
    destruct (aget X 3) as [y|] eqn:Ey; [|discriminate]. cbn [option_map] in K. apply Some_inj in K. symmetry in K.
    exists 3, (b32 (2241, -8)), y. split; [reflexivity|]. split; [cbn [option_map fst]; rewrite Ey; reflexivity|].
    intros ->. vm_compute in K. discriminate K.
Qed.

Lemma keep_example_sz3 :
  (exists buf, compress_sz3 (DA (lm64 true)) true two ord0 ub0 6 6 U6 V6 (repeat 0 576) = Some (buf, 380%nat)) /\
  exists a b d, cell 6 6 a b d /\ has_cp (vecF 6 U6 V6 a) (vecF 6 U6 V6 b) (vecF 6 U6 V6 d).
Proof.
  split; [exact (proj1 (sz3_example true true))|].
  exists (4, 4), (5, 4), (5, 5). split; [apply (cell_lower 6 6 4 4); lia|]. exists 1%R, 0%R, 0%R.
  rewrite (vecF_get 6 U6 V6 (4, 4) (dy 0 0) (dy 0 0)) by (reflexivity || (unfold lin; cbn; lia)). rewrite (proj2 (dy_B2R 0 0 ltac:(lia) ltac:(lia))).
  cbn [fst snd]. repeat split; lra.
Qed.
