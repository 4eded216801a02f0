(** The extraction programs after a compression round trip; cases they do not see. *)
From Coq Require Import Reals Lra Lia ZArith List Bool Permutation FunctionalExtensionality.
From Coq Require Import ZifyBool ZifyNat.
From Flocq Require Import Core.Core IEEE754.BinarySingleNaN IEEE754.Binary IEEE754.Bits.
From Verif Require Import Base Huffman HuffStream HuffProps Stream Arith Mesh2D Derive2D Codec2D Sync2D Trace2D Stream2D Exact Total2D Cells2D Geo2D Preserve2D
  IEEE IEEELaws IEEEQuant IEEE2D IEEEAbs2D Api2D LibmModel Witness2D Examples2D Mesh3D Derive3D Abs3D Sync3D Cells3D Geo3D Preserve3D Total3D Api3D Refute3D
  Sz3 Sz3Cells Sz3Api Refute2D Sz3Refute KeepApi2D KeepRefute2D CpTool CpToolProps CpToolApi.
Import ListNotations.
Local Open Scope Z_scope.

(** *** 2D, in the machine's arithmetic *)
Section Kept.
Context (A : Arith).
Lemma kept_report (Q : Z * Z -> Z * Z -> Z * Z -> Prop) U V U' V' r1 r2 :
  (forall a b d, cell r1 r2 a b d -> Q a b d -> forall x, In x [a; b; d] -> aget U' (lin r2 x) = aget U (lin r2 x) /\ aget V' (lin r2 x) = aget V (lin r2 x)) ->
  forall inv2 lerp2 eig2 r, tool2 A inv2 lerp2 eig2 U V U' V' r1 r2 = Some r ->
  forall e, In e (r_fn r) \/ In e (r_fp r) \/ In e (r_ft r) -> exists a b d, examined2 r1 r2 a b d (e_id e) /\ ~ Q a b d.
Proof.
  intros HQ inv2 lerp2 eig2 r H e He. destruct (tool2_unchanged _ _ _ _ _ _ _ _ _ _ _ _ H He) as (a & b & d & HE & Hn). exists a, b, d. split; [auto|].
  intros Hq. apply Hn. apply HQ; auto. eapply examined2_cell; eauto.
Qed.
End Kept.

Theorem tool2_abs_double lm : libm_ok (DA lm) (DA_ieee lm) -> forall max_eb ord ub r1 r2 U V junk buf size,
  0 <= r1 -> 0 < r2 -> Z.of_nat (length U) = r1 * r2 -> Z.of_nat (length V) = r1 * r2 -> Z.of_nat (length junk) < 2 ^ 64 ->
  finite_le 500 max_eb -> (forall x, In x U \/ In x V -> finite_le 500 x) ->
  compress_online_abs (DA lm) max_eb ord ub r1 r2 U V junk = Some (buf, size) ->
  short_codes (enc_online_abs (DA lm) max_eb) ord r1 r2 U V ->
  exists U' V', decompress_online (DA lm) r1 r2 (firstn size buf) = Some (U', V') /\
    forall inv2 lerp2 eig2 r, tool2 (DA lm) inv2 lerp2 eig2 U V U' V' r1 r2 = Some r ->
    forall e, In e (r_fn r) \/ In e (r_fp r) \/ In e (r_ft r) -> exists a b d, examined2 r1 r2 a b d (e_id e) /\
      ~ has_cp (vecF r2 U V a) (vecF r2 U V b) (vecF r2 U V d).
Proof.
  intros L max_eb ord ub r1 r2 U V junk buf size H1 H2 LU LV LJ HE HF HC HS.
  destruct (abs_cp_api_double lm L _ _ _ _ _ _ _ _ _ _ H1 H2 LU LV LJ HE HF HC HS) as (U' & V' & E & K). exists U', V'. split; [exact E|].
  apply (kept_report (DA lm) (fun a b d => has_cp (vecF r2 U V a) (vecF r2 U V b) (vecF r2 U V d))). exact K.
Qed.
Theorem tool2_abs_float lm : libm_ok (FA lm) (FA_ieee lm) -> forall max_eb ord ub r1 r2 U V junk buf size,
  0 <= r1 -> 0 < r2 -> Z.of_nat (length U) = r1 * r2 -> Z.of_nat (length V) = r1 * r2 -> Z.of_nat (length junk) < 2 ^ 64 ->
  finite_le 56 max_eb -> (forall x, In x U \/ In x V -> finite_le 56 x) ->
  compress_online_abs (FA lm) max_eb ord ub r1 r2 U V junk = Some (buf, size) ->
  short_codes (enc_online_abs (FA lm) max_eb) ord r1 r2 U V ->
  exists U' V', decompress_online (FA lm) r1 r2 (firstn size buf) = Some (U', V') /\
    forall inv2 lerp2 eig2 r, tool2 (FA lm) inv2 lerp2 eig2 U V U' V' r1 r2 = Some r ->
    forall e, In e (r_fn r) \/ In e (r_fp r) \/ In e (r_ft r) -> exists a b d, examined2 r1 r2 a b d (e_id e) /\
      ~ has_cp (vecF r2 U V a) (vecF r2 U V b) (vecF r2 U V d).
Proof.
  intros L max_eb ord ub r1 r2 U V junk buf size H1 H2 LU LV LJ HE HF HC HS.
  destruct (abs_cp_api_float lm L _ _ _ _ _ _ _ _ _ _ H1 H2 LU LV LJ HE HF HC HS) as (U' & V' & E & K). exists U', V'. split; [exact E|].
  apply (kept_report (FA lm) (fun a b d => has_cp (vecF r2 U V a) (vecF r2 U V b) (vecF r2 U V d))). exact K.
Qed.
Theorem tool2_sz3_double lm : libm_ok (DA lm) (DA_ieee lm) -> forall wrap max_eb ord ub r1 r2 U V junk buf size,
  1 <= r1 -> 1 <= r2 -> Z.of_nat (length U) = r1 * r2 -> Z.of_nat (length V) = r1 * r2 -> Z.of_nat (length junk) < 2 ^ 64 ->
  is_finite 53 1024 max_eb = true -> (B2R 53 1024 max_eb <= bpow radix2 500)%R -> (forall x, In x U \/ In x V -> finite_le 500 x) ->
  compress_sz3 (DA lm) wrap max_eb ord ub r1 r2 U V junk = Some (buf, size) -> sz3_short (DA lm) wrap max_eb ord r1 r2 U V ->
  exists U' V', decompress_sz3 (DA lm) wrap r1 r2 (firstn size buf) = Some (U', V') /\
    forall inv2 lerp2 eig2 r, tool2 (DA lm) inv2 lerp2 eig2 U V U' V' r1 r2 = Some r ->
    forall e, In e (r_fn r) \/ In e (r_fp r) \/ In e (r_ft r) -> exists a b d, examined2 r1 r2 a b d (e_id e) /\
      ~ has_cp (vecF r2 U V a) (vecF r2 U V b) (vecF r2 U V d).
Proof.
  intros L wrap max_eb ord ub r1 r2 U V junk buf size H1 H2 LU LV LJ HE1 HE2 HF HC HS.
  destruct (sz3_cp_api_double lm L _ _ _ _ _ _ _ _ _ _ _ H1 H2 LU LV LJ HE1 HE2 HF HC HS) as (U' & V' & E & K). exists U', V'. split; [exact E|].
  apply (kept_report (DA lm) (fun a b d => has_cp (vecF r2 U V a) (vecF r2 U V b) (vecF r2 U V d))). exact K.
Qed.
Theorem tool2_sz3_float lm : libm_ok (FA lm) (FA_ieee lm) -> forall wrap max_eb ord ub r1 r2 U V junk buf size,
  1 <= r1 -> 1 <= r2 -> Z.of_nat (length U) = r1 * r2 -> Z.of_nat (length V) = r1 * r2 -> Z.of_nat (length junk) < 2 ^ 64 ->
  is_finite 53 1024 max_eb = true -> (B2R 53 1024 max_eb <= bpow radix2 56)%R -> (forall x, In x U \/ In x V -> finite_le 56 x) ->
  compress_sz3 (FA lm) wrap max_eb ord ub r1 r2 U V junk = Some (buf, size) -> sz3_short (FA lm) wrap max_eb ord r1 r2 U V ->
  exists U' V', decompress_sz3 (FA lm) wrap r1 r2 (firstn size buf) = Some (U', V') /\
    forall inv2 lerp2 eig2 r, tool2 (FA lm) inv2 lerp2 eig2 U V U' V' r1 r2 = Some r ->
    forall e, In e (r_fn r) \/ In e (r_fp r) \/ In e (r_ft r) -> exists a b d, examined2 r1 r2 a b d (e_id e) /\
      ~ has_cp (vecF r2 U V a) (vecF r2 U V b) (vecF r2 U V d).
Proof.
  intros L wrap max_eb ord ub r1 r2 U V junk buf size H1 H2 LU LV LJ HE1 HE2 HF HC HS.
  destruct (sz3_cp_api_float lm L _ _ _ _ _ _ _ _ _ _ _ H1 H2 LU LV LJ HE1 HE2 HF HC HS) as (U' & V' & E & K). exists U', V'. split; [exact E|].
  apply (kept_report (FA lm) (fun a b d => has_cp (vecF r2 U V a) (vecF r2 U V b) (vecF r2 U V d))). exact K.
Qed.

(** *** 3D, in the machine's arithmetic: compressor and program call the same ftk function *)
Theorem tool3_abs_double lm inv3 lerp3 roots3 max_eb ord ub r1 r2 r3 (U V W : list binary64) junk buf size :
  0 <= r1 -> 0 < r2 -> 0 < r3 -> sized r1 r2 r3 U -> sized r1 r2 r3 V -> sized r1 r2 r3 W -> Z.of_nat (length junk) < 2 ^ 64 ->
  compress_abs3 (DA lm) (found3 (DA lm) inv3) max_eb ord ub r1 r2 r3 U V W junk = Some (buf, size) ->
  short_codes3 (enc_abs3 (DA lm) (found3 (DA lm) inv3) max_eb) ord r1 r2 r3 U V W ->
  exists U' V' W', decompress_abs3 (DA lm) r1 r2 r3 (firstn size buf) = Some (U', V', W') /\
    forall r, tool3 (DA lm) inv3 lerp3 roots3 U V W U' V' W' r1 r2 r3 = Some r ->
      r_fn r = [] /\ (6 * (r1 * r2 * r3) <= 2 ^ 32 -> r_ft r = []) /\
      (6 * (r1 * r2 * r3) <= 2 ^ 31 -> forall e, In e (r_fp r) -> exists a b c d, examined3 r1 r2 r3 a b c d (e_id e) /\
         check_cp3 (DA lm) (found3 (DA lm) inv3) U V W r2 r3 a b c d = Some false).
Proof.
  intros H1 H2 H3 SU SV SW LJ HC HS. destruct (abs3_flagged_double lm _ _ _ _ _ _ _ _ _ _ _ _ _ H1 H2 H3 SU SV SW LJ HC HS) as (U' & V' & W' & E & K).
  exists U', V', W'. split; [exact E|]. intros r Hr. exact (tool3_marked (DA lm) inv3 lerp3 roots3 U V W U' V' W' r1 r2 r3 r K Hr).
Qed.
Theorem tool3_abs_float lm inv3 lerp3 roots3 max_eb ord ub r1 r2 r3 (U V W : list binary32) junk buf size :
  0 <= r1 -> 0 < r2 -> 0 < r3 -> sized r1 r2 r3 U -> sized r1 r2 r3 V -> sized r1 r2 r3 W -> Z.of_nat (length junk) < 2 ^ 64 ->
  compress_abs3 (FA lm) (found3 (FA lm) inv3) max_eb ord ub r1 r2 r3 U V W junk = Some (buf, size) ->
  short_codes3 (enc_abs3 (FA lm) (found3 (FA lm) inv3) max_eb) ord r1 r2 r3 U V W ->
  exists U' V' W', decompress_abs3 (FA lm) r1 r2 r3 (firstn size buf) = Some (U', V', W') /\
    forall r, tool3 (FA lm) inv3 lerp3 roots3 U V W U' V' W' r1 r2 r3 = Some r ->
      r_fn r = [] /\ (6 * (r1 * r2 * r3) <= 2 ^ 32 -> r_ft r = []) /\
      (6 * (r1 * r2 * r3) <= 2 ^ 31 -> forall e, In e (r_fp r) -> exists a b c d, examined3 r1 r2 r3 a b c d (e_id e) /\
         check_cp3 (FA lm) (found3 (FA lm) inv3) U V W r2 r3 a b c d = Some false).
Proof.
  intros H1 H2 H3 SU SV SW LJ HC HS. destruct (abs3_flagged_float lm _ _ _ _ _ _ _ _ _ _ _ _ _ H1 H2 H3 SU SV SW LJ HC HS) as (U' & V' & W' & E & K).
  exists U', V', W'. split; [exact E|]. intros r Hr. exact (tool3_marked (FA lm) inv3 lerp3 roots3 U V W U' V' W' r1 r2 r3 r K Hr).
Qed.

(** *** Exact arithmetic and exact ftk: a clean report *)
Definition exact2 (inv2 : tri2 XA -> option (XR * XR * XR)) : Prop :=
  forall x y z : R * R, inv2 ((Fin (fst x), Fin (snd x)), (Fin (fst y), Fin (snd y)), (Fin (fst z), Fin (snd z))) <> None <-> has_cp x y z.
Definition xv3 (x : V3) : XR * XR * XR := (Fin (cx x), Fin (cy x), Fin (cz x)).
Definition exact3 (inv3 : tet3 XA -> option (XR * XR * XR * XR)) : Prop :=
  forall x y z t : V3, inv3 (xv3 x, xv3 y, xv3 z, xv3 t) <> None <-> has_cp3 [x; y; z; t].

Lemma aget_fin u k y : aget (map Fin u) k = Some y -> y = Fin (nth (Z.to_nat k) u 0%R).
Proof.
  unfold aget. destruct (k <? 0); [discriminate|]. rewrite nth_error_map. destruct (nth_error u (Z.to_nat k)) as [z|] eqn:E; [|discriminate].
  cbn [option_map]. intros H. injection H as <-. f_equal. symmetry. apply nth_error_nth. auto.
Qed.
Lemma dvec2_fin u v r2 x w : dvec2 XA (map Fin u) (map Fin v) r2 x = Some w -> w = (Fin (fst (vecR r2 u v x)), Fin (snd (vecR r2 u v x))).
Proof.
  unfold dvec2. intros H. bind_as H a Ea. bind_as H b Eb. apply Some_inj in H. subst w. apply aget_fin in Ea, Eb. subst. reflexivity.
Qed.
Lemma dvec3_fin u v w r2 r3 x y : dvec3 XA (map Fin u) (map Fin v) (map Fin w) r2 r3 x = Some y -> y = xv3 (vecR3 r2 r3 u v w x).
Proof.
  unfold dvec3. intros H. bind_as H p Ep. destruct p as [[a b] c]. apply vec_at_inv in Ep. destruct Ep as (Ea & Eb & Ec).
  injection H as <-. apply aget_fin in Ea, Eb, Ec. subst. reflexivity.
Qed.
Lemma no_entries {P} (r : cp_report P) : (forall e, In e (r_fn r) \/ In e (r_fp r) \/ In e (r_ft r) -> False) -> r_fn r = [] /\ r_fp r = [] /\ r_ft r = [].
Proof.
  assert (G : forall l : list (entry P), (forall e, In e l -> False) -> l = []) by (intros [|e l] Hl; [auto|exfalso; apply (Hl e); left; auto]).
  intros H. split; [|split]; apply G; intros e He; apply (H e); auto.
Qed.

Theorem tool2_exact max_eb r1 r2 u v U' V' c :
  0 <= r1 -> 0 < r2 -> Z.of_nat (length u) = r1 * r2 -> Z.of_nat (length v) = r1 * r2 ->
  enc_online_abs XA (Fin max_eb) r1 r2 (map Fin u) (map Fin v) = Some (U', V', c) ->
  exists u' v', decode r1 r2 c = Some (map Fin u', map Fin v') /\
    forall inv2 lerp2 eig2 r, exact2 inv2 -> tool2 XA inv2 lerp2 eig2 (map Fin u) (map Fin v) (map Fin u') (map Fin v') r1 r2 = Some r ->
    r_fn r = [] /\ r_fp r = [] /\ r_ft r = [].
Proof.
  intros H1 H2 Lu Lv H. destruct (abs_preserves _ _ _ _ _ _ _ _ H1 H2 Lu Lv H) as (u' & v' & E & K). exists u', v'. split; [exact E|].
  intros inv2 lerp2 eig2 r HX Hr. apply no_entries. intros e He.
  destruct (tool2_changed _ _ _ _ _ _ _ _ _ _ _ _ Hr He) as (a & b & d & va & vb & vd & va' & vb' & vd' & HE & Ea & Eb & Ed & Ea' & Eb' & Ed' & Hne & Hd).
  apply dvec2_fin in Ea, Eb, Ed, Ea', Eb', Ed'. subst. unfold exact2 in HX. rewrite !HX in Hd.
  destruct (K a b d (examined2_cell _ _ _ _ _ _ HE)) as [K1 K2].
  assert (HC : has_cp (vecR r2 u v a) (vecR r2 u v b) (vecR r2 u v d)) by (destruct Hd; [auto|apply K1; auto]).
  apply Hne. rewrite !(K2 HC) by (cbn; auto). reflexivity.
Qed.
Theorem tool3_exact ftk max_eb r1 r2 r3 u v w U' V' W' c :
  0 <= r1 -> 0 < r2 -> 0 < r3 -> Z.of_nat (length u) = r1 * r2 * r3 -> Z.of_nat (length v) = r1 * r2 * r3 -> Z.of_nat (length w) = r1 * r2 * r3 ->
  6 * (r1 * r2 * r3) <= 2 ^ 32 ->
  enc_abs3 XA ftk (Fin max_eb) r1 r2 r3 (map Fin u) (map Fin v) (map Fin w) = Some (U', V', W', c) ->
  exists u' v' w', decode3 r1 r2 r3 c = Some (map Fin u', map Fin v', map Fin w') /\
    forall inv3 lerp3 roots3 r, exact3 inv3 ->
    tool3 XA inv3 lerp3 roots3 (map Fin u) (map Fin v) (map Fin w) (map Fin u') (map Fin v') (map Fin w') r1 r2 r3 = Some r ->
    r_fn r = [] /\ r_fp r = [] /\ r_ft r = [].
Proof.
  intros H1 H2 H3 Lu Lv Lw HS H. destruct (abs3_preserves _ _ _ _ _ _ _ _ _ _ _ _ H1 H2 H3 Lu Lv Lw H) as (u' & v' & w' & E & K). exists u', v', w'. split; [exact E|].
  intros inv3 lerp3 roots3 r HX Hr. apply no_entries. intros e He.
  destruct (tool3_changed _ _ _ _ _ _ _ _ _ _ _ _ _ _ _ HS Hr He) as
    (a & b & x & d & va & vb & vc & vd & va' & vb' & vc' & vd' & HT & Ea & Eb & Ec & Ed & Ea' & Eb' & Ec' & Ed' & Hne & Hd).
  apply dvec3_fin in Ea, Eb, Ec, Ed, Ea', Eb', Ec', Ed'. subst. unfold exact3 in HX. rewrite !HX in Hd.
  destruct (K _ HT) as [K1 K2]. cbn [map] in K1, K2.
  assert (HC : has_cp3 [vecR3 r2 r3 u v w a; vecR3 r2 r3 u v w b; vecR3 r2 r3 u v w x; vecR3 r2 r3 u v w d]) by (destruct Hd; [auto|apply K1; auto]).
  apply Hne. rewrite !(K2 HC) by (cbn; auto). reflexivity.
Qed.

(** Exact tests exist. *)
Lemma cp_dec (Q : Prop) : {Q} + {~ Q}.
Proof. destruct (ClassicalDedekindReals.sig_not_dec Q) as [H|H]; [left; apply Classical_Prop.NNPP; exact H|right; exact H]. Qed.
Definition rv (x : XR * XR) : R * R := (toR (fst x), toR (snd x)).
Definition test2 (t : tri2 XA) : option (XR * XR * XR) :=
  if cp_dec (has_cp (rv (fst (fst t))) (rv (snd (fst t))) (rv (snd t))) then Some (Fin 0, Fin 0, Fin 0) else None.
Lemma test2_exact : exact2 test2.
Proof.
  intros [x1 x2] [y1 y2] [z1 z2]. unfold test2. cbn [fst snd rv toR]. destruct (cp_dec _) as [H|H]; split; intros G; auto; try discriminate; congruence.
Qed.
Definition rv3 (x : XR * XR * XR) : V3 := (toR (fst (fst x)), toR (snd (fst x)), toR (snd x)).
Definition test3 (t : tet3 XA) : option (XR * XR * XR * XR) :=
  let '(a, b, c, d) := t in if cp_dec (has_cp3 [rv3 a; rv3 b; rv3 c; rv3 d]) then Some (Fin 0, Fin 0, Fin 0, Fin 0) else None.
Lemma test3_exact : exact3 test3.
Proof.
  intros [[x1 x2] x3] [[y1 y2] y3] [[z1 z2] z3] [[t1 t2] t3]. unfold test3, xv3. cbn [fst snd rv3 toR cx cy cz]. destruct (cp_dec _) as [H|H]; split; intros G; auto; try discriminate; congruence.
Qed.

(** *** What the programs do not see *)
Definition one64 : binary64 := dy 1 0.
Definition nil64 : binary64 := dy 0 0.
(** 2 x 2: no cell is examined. *)
Definition BU : list binary64 := [dy (-1) 0; dy 0 0; dy 1 0; dy 0 0].
Definition BV : list binary64 := [dy (-1) 0; dy 5 0; dy 0 0; dy 1 0].
Lemma small_val m : Z.abs m < 2 ^ 53 -> B2R 53 1024 (dy m 0) = IZR m.
Proof. intros H. destruct (dy_B2R m 0) as [_ E]; try lia. rewrite E. cbn [bpow]. lra. Qed.
Lemma map_rep {X Y} (f : X -> Y) x n : map f (repeat x n) = repeat (f x) n.
Proof. induction n; cbn; congruence. Qed.
Lemma ones_no_cp n r2 x y z : 0 < r2 -> 0 <= lin r2 x < n -> 0 <= lin r2 y < n -> 0 <= lin r2 z < n ->
  ~ has_cp (vecF r2 (repeat one64 (Z.to_nat n)) (repeat one64 (Z.to_nat n)) x) (vecF r2 (repeat one64 (Z.to_nat n)) (repeat one64 (Z.to_nat n)) y)
           (vecF r2 (repeat one64 (Z.to_nat n)) (repeat one64 (Z.to_nat n)) z).
Proof.
  intros H2 Hx Hy Hz.
  assert (G : forall p, 0 <= lin r2 p < n -> vecF r2 (repeat one64 (Z.to_nat n)) (repeat one64 (Z.to_nat n)) p = (1, 1)%R).
  { intros p Hp. unfold vecF, vecR. rewrite map_rep. unfold one64. rewrite small_val by lia.
    erewrite !nth_error_nth by (apply nth_error_repeat; lia). reflexivity. }
  rewrite !G by auto. intros (l0 & l1 & l2 & P0 & P1 & P2 & E & EU & EV). cbn [fst snd] in *. lra.
Qed.
Theorem border_unseen lm : exists r1 r2 (U V U' V' : list binary64) a b d,
  Z.of_nat (length U) = r1 * r2 /\ Z.of_nat (length V) = r1 * r2 /\ Z.of_nat (length U') = r1 * r2 /\ Z.of_nat (length V') = r1 * r2 /\
  cell r1 r2 a b d /\ has_cp (vecF r2 U V a) (vecF r2 U V b) (vecF r2 U V d) /\ ~ has_cp (vecF r2 U' V' a) (vecF r2 U' V' b) (vecF r2 U' V' d) /\
  forall inv2 lerp2 eig2, tool2 (DA lm) inv2 lerp2 eig2 U V U' V' r1 r2 =
    Some {| r_origin := []; r_decompressed := []; r_tp := []; r_fp := []; r_fn := []; r_ft := [] |}.
Proof.
  exists 2, 2, BU, BV, (repeat one64 (Z.to_nat 4)), (repeat one64 (Z.to_nat 4)), (0, 0), (1, 0), (1, 1).
  repeat (split; [reflexivity|]). split; [apply (cell_lower 2 2 0 0); lia|]. split; [|split].
  - assert (G : forall p u v, 0 <= lin 2 p -> Z.abs u < 2 ^ 53 -> Z.abs v < 2 ^ 53 -> aget BU (lin 2 p) = Some (dy u 0) -> aget BV (lin 2 p) = Some (dy v 0) ->
       vecF 2 BU BV p = (IZR u, IZR v)).
    { intros p u v Hp Hu Hv EU EV. rewrite (vecF_get _ _ _ _ _ _ Hp EU EV), !small_val by auto. reflexivity. }
    rewrite (G (0, 0) (-1) (-1)), (G (1, 0) 1 0), (G (1, 1) 0 1) by (reflexivity || (unfold lin; cbn [fst snd]; lia)).
    exists (1/3)%R, (1/3)%R, (1/3)%R. cbn [fst snd]. repeat split; lra.
  - apply (ones_no_cp 4 2); unfold lin; cbn [fst snd]; lia.
  - intros. reflexivity.
Qed.

Lemma run_silent {S P} (f : S -> option (Z * option (entry P))) l : (forall s, In s l -> exists k, f s = Some (k, None)) -> forall m, run_sites f l m = Some m.
Proof.
  induction l as [|s l IH]; intros H m; [reflexivity|]. cbn [run_sites]. destruct (H s (or_introl eq_refl)) as (k & ->). cbn [bind]. apply IH. intros; apply H. right. auto.
Qed.
(** 4 x 4, the vectors of an examined triangle are zero. *)
Theorem zeros_unseen lm : exists r1 r2 (U V U' V' : list binary64) a b d id,
  Z.of_nat (length U) = r1 * r2 /\ Z.of_nat (length V) = r1 * r2 /\ Z.of_nat (length U') = r1 * r2 /\ Z.of_nat (length V') = r1 * r2 /\
  examined2 r1 r2 a b d id /\ has_cp (vecF r2 U V a) (vecF r2 U V b) (vecF r2 U V d) /\ ~ has_cp (vecF r2 U' V' a) (vecF r2 U' V' b) (vecF r2 U' V' d) /\
  forall (inv2 : tri2 (DA lm) -> _) lerp2 eig2, inv2 ((one64, one64), (one64, one64), (one64, one64)) = None -> tool2 (DA lm) inv2 lerp2 eig2 U V U' V' r1 r2 =
    Some {| r_origin := []; r_decompressed := []; r_tp := []; r_fp := []; r_fn := []; r_ft := [] |}.
Proof.
  exists 4, 4, (repeat nil64 16), (repeat nil64 16), (repeat one64 (Z.to_nat 16)), (repeat one64 (Z.to_nat 16)), (1, 1), (2, 1), (2, 2), (2 * (1 * (4 - 1) + 1)).
  repeat (split; [reflexivity|]). split; [apply (examined_lower 4 4 1 1); lia|]. split; [|split].
  - assert (G : forall p, 0 <= lin 4 p < 16 -> vecF 4 (repeat nil64 16) (repeat nil64 16) p = (0, 0)%R).
    { intros p Hp. unfold vecF, vecR. rewrite map_rep. unfold nil64. rewrite small_val by lia. erewrite !nth_error_nth by (apply nth_error_repeat; lia). reflexivity. }
    rewrite !G by (unfold lin; cbn [fst snd]; lia). exists 1%R, 0%R, 0%R. cbn [fst snd]. repeat split; lra.
  - apply (ones_no_cp 16 4); unfold lin; cbn [fst snd]; lia.
  - intros inv2 lerp2 eig2 HI.
    assert (Z0 : zero2 (DA lm) (nil64, nil64) = true) by (vm_compute; reflexivity).
    assert (Z1 : zero2 (DA lm) (one64, one64) = false) by (vm_compute; reflexivity).
    assert (S : forall x up, site2 (DA lm) inv2 lerp2 eig2 (repeat x 16) (repeat x 16) 4 (1, 1, up) =
       Some (if up then 9 else 8, check_simplex2 (DA lm) inv2 lerp2 eig2 ((x, x), (x, x), (x, x)) (X2d (DA lm) up) 1 1 (if up then 9 else 8))).
    { intros x [|]; reflexivity. }
    assert (E : forall x, check_simplex2 (DA lm) inv2 lerp2 eig2 ((x, x), (x, x), (x, x)) (X2d (DA lm) false) 1 1 8 = None ->
       check_simplex2 (DA lm) inv2 lerp2 eig2 ((x, x), (x, x), (x, x)) (X2d (DA lm) true) 1 1 9 = None ->
       extract2 (DA lm) inv2 lerp2 eig2 (repeat x 16) (repeat x 16) 4 4 = Some []).
    { intros x E1 E2. apply run_silent. change (sites2 4 4) with [(1, 1, false); (1, 1, true)].
      intros s [<-|[<-|[]]]; eexists; (etransitivity; [apply S|]); cbn beta iota; f_equal; f_equal; [exact E1|exact E2]. }
    assert (E0 : extract2 (DA lm) inv2 lerp2 eig2 (repeat nil64 16) (repeat nil64 16) 4 4 = Some []).
    { apply E; unfold check_simplex2; rewrite ?Z0; reflexivity. }
    assert (E1 : extract2 (DA lm) inv2 lerp2 eig2 (repeat one64 16) (repeat one64 16) 4 4 = Some []).
    { apply E; unfold check_simplex2; rewrite ?Z1; cbn [orb]; (etransitivity; [exact (f_equal (fun o => match o with None => None | Some mu => _ end) HI)|reflexivity]). }
    exact (f_equal2 (fun m0 m1 => let* m0 := m0 in let* m1 := m1 in Some (compare_cps m0 m1)) E0 E1).
Qed.

(** 3 x 2 x 300000000: two tetrahedra with the same key. *)
Theorem keys_collide : exists r1 r2 r3 a b c d id a' b' c' d' id', 2 <= r1 /\ 2 <= r2 /\ 2 <= r3 /\ r1 * r2 * r3 < 2 ^ 31 /\
  examined3 r1 r2 r3 a b c d id /\ examined3 r1 r2 r3 a' b' c' d' id' /\ id <> id' /\
  forall A inv3 lerp3 roots3 U V W U' V' W' r, tool3 A inv3 lerp3 roots3 U V W U' V' W' r1 r2 r3 = Some r ->
    detects3 A inv3 U V W r2 r3 a b c d -> detects3 A inv3 U V W r2 r3 a' b' c' d' ->
    exists l, NoDup l /\ (forall p q s t, In (p, q, s, t) l -> tet r1 r2 r3 [p; q; s; t] /\ detects3 A inv3 U V W r2 r3 p q s t) /\
      (length (r_origin r) < length l)%nat.
Proof.
  exists 3, 2, 300000000, (0, 0, 0), (1, 0, 0), (1, 1, 0), (1, 1, 1), 0, (1, 0, 115827882), (1, 0, 115827883), (2, 0, 115827883), (2, 1, 115827883), (2 ^ 32).
  assert (E1 : examined3 3 2 300000000 (0, 0, 0) (1, 0, 0) (1, 1, 0) (1, 1, 1) 0) by (exists (0, 0, 0), 0%nat; cbn [fst snd]; repeat split; lia).
  assert (E2 : examined3 3 2 300000000 (1, 0, 115827882) (1, 0, 115827883) (2, 0, 115827883) (2, 1, 115827883) (2 ^ 32))
    by (exists (1, 0, 115827882), 3%nat; cbn [fst snd]; repeat split; lia).
  do 4 (split; [lia|]). split; [exact E1|]. split; [exact E2|]. split; [lia|]. intros A inv3 lerp3 roots3 U V W U' V' W' r Hr.
  refine (tool3_collision A inv3 lerp3 roots3 U V W U' V' W' 3 2 300000000 r _ _ _ _ _ _ _ _ _ _ _ _ _ Hr E1 E2 _ _); try lia. reflexivity.
Qed.
(** Fields on that grid on which the program runs to the end and finds both. *)
Theorem keys_collide_reached lm : exists inv3 lerp3 roots3 U r, tool3 (DA lm) inv3 lerp3 roots3 U U U U U U 3 2 300000000 = Some r /\
  forall a b c d id, examined3 3 2 300000000 a b c d id -> detects3 (DA lm) inv3 U U U 2 300000000 a b c d.
Proof.
  set (U := repeat (one64 : T (DA lm)) (Z.to_nat 1800000000) : list (T (DA lm))).
  assert (HS : sized 3 2 300000000 U). { unfold sized, U. rewrite repeat_length, Z2Nat.id by lia. reflexivity. }
  set (inv3 := fun _ : tet3 (DA lm) => Some (one64, one64, one64, one64)).
  destruct (tool3_total (DA lm) inv3 (fun _ _ => (one64, one64, one64)) (fun _ _ => (one64, (one64, one64, one64))) U U U U U U 3 2 300000000) as (r & Hr); auto; try lia.
  exists inv3, (fun _ _ => (one64, one64, one64)), (fun _ _ => (one64, (one64, one64, one64))), U, r. split; [exact Hr|].
  intros a b c d id HE. assert (HT : tet 3 2 300000000 [a; b; c; d]) by (apply examined3_tet; eauto).
  assert (G : forall x, In x [a; b; c; d] -> dvec3 (DA lm) U U U 2 300000000 x = Some (one64, one64, one64)).
  { intros x Hx. pose proof (lin3_nonneg _ _ _ _ (tet_points _ _ _ _ _ HT Hx)) as L.
    assert (EU : aget U (lin3 2 300000000 x) = Some one64).
    { unfold aget. replace (lin3 2 300000000 x <? 0) with false by lia. unfold U. apply nth_error_repeat. lia. }
    unfold dvec3, vec_at. rewrite EU. reflexivity. }
  assert (Z1 : zero3 (DA lm) (one64, one64, one64) = false) by (vm_compute; reflexivity).
  exists (one64, one64, one64), (one64, one64, one64), (one64, one64, one64), (one64, one64, one64).
  repeat (split; [first [exact Z1|apply G; cbn; auto]|]). discriminate.
Qed.

(** *** Runs *)
Definition inv0 (t : tet3 (DA (lm64 false))) : option (binary64 * binary64 * binary64 * binary64) :=
  let '(a, b, c, d) := t in if ftk0 a b c d then Some (one64, one64, one64, one64) else None.
Lemma found_ftk0 : found3 (DA (lm64 false)) inv0 = ftk0.
Proof.
  apply functional_extensionality. intros a. apply functional_extensionality. intros b. apply functional_extensionality. intros c.
  apply functional_extensionality. intros d. unfold found3, inv0. destruct (ftk0 a b c d) eqn:E; exact eq_refl || (rewrite E; reflexivity).
Qed.
Lemma run_tool3 : exists buf U' V' W' r,
  compress_abs3 (DA (lm64 false)) (found3 (DA (lm64 false)) inv0) ex_eb ord0 ub0 2 2 6 ex3U ex3V ex3W (repeat 0 576) = Some (buf, 337%nat) /\
  short_codes3 (enc_abs3 (DA (lm64 false)) (found3 (DA (lm64 false)) inv0) ex_eb) ord0 2 2 6 ex3U ex3V ex3W /\
  sized 2 2 6 ex3U /\ sized 2 2 6 ex3V /\ sized 2 2 6 ex3W /\
  decompress_abs3 (DA (lm64 false)) 2 2 6 (firstn 337 buf) = Some (U', V', W') /\
  tool3 (DA (lm64 false)) inv0 (fun _ _ => (one64, one64, one64)) (fun _ _ => (one64, (one64, one64, one64))) ex3U ex3V ex3W U' V' W' 2 2 6 = Some r /\
  r_origin r <> [] /\ (ex3U, ex3V, ex3W) <> (U', V', W').
Proof.
  rewrite found_ftk0. destruct ex3_ok as ((buf & E) & HC & HL & HF & LU & LV & LW & HM & HK & HT & HCp).
  destruct (abs3_api_double (lm64 false) HL ftk0 ex_eb ord0 ub0 2 2 6 ex3U ex3V ex3W (repeat 0 576) buf 337%nat) as (U' & V' & W' & HD & (c & HE) & L1 & L2 & L3 & _); auto; try lia.
  { rewrite repeat_length. reflexivity. }
  destruct (tool3_total (DA (lm64 false)) inv0 (fun _ _ => (one64, one64, one64)) (fun _ _ => (one64, (one64, one64, one64))) ex3U ex3V ex3W U' V' W' 2 2 6) as (r & Hr);
    auto; try lia; try (unfold sized in *; congruence).
  exists buf, U', V', W', r. do 7 (split; [assumption|]). split.
  - assert (HX : exists id, examined3 2 2 6 (0, 0, 0) (1, 0, 0) (1, 1, 0) (1, 1, 1) id) by (apply examined3_tet; exact HT). destruct HX as (id & HX).
    assert (HD3 : detects3 (DA (lm64 false)) inv0 ex3U ex3V ex3W 2 6 (0, 0, 0) (1, 0, 0) (1, 1, 0) (1, 1, 1)).
    { do 4 eexists. do 4 (split; [reflexivity|]). do 4 (split; [vm_compute; reflexivity|]).
      intros HN. apply (f_equal (fun o => match o with Some _ => true | None => false end)) in HN. revert HN. vm_compute. discriminate. }
    destruct (tool3_false _ _ _ _ _ _ _ _ _ _ 2 2 6 r ltac:(lia) Hr) as (_ & _ & HO & _). destruct (HO _ _ _ _ _ HX HD3) as (e & He & _).
    intros E0. rewrite E0 in He. destruct He.
  - intros E0. injection E0 as <- <- <-. rewrite HE in HC. revert HC. cbn [changed3]. vm_compute. discriminate.
Qed.

Lemma run_tool2 : exists buf U' V' r,
  compress_sz3 (DA (lm64 true)) true two ord0 ub0 6 6 U6 V6 (repeat 0 576) = Some (buf, 380%nat) /\ sz3_short (DA (lm64 true)) true two ord0 6 6 U6 V6 /\
  (forall x, In x U6 \/ In x V6 -> finite_le 500 x) /\ decompress_sz3 (DA (lm64 true)) true 6 6 (firstn 380 buf) = Some (U', V') /\
  tool2 (DA (lm64 true)) (fun _ => None) (fun _ _ => (one64, one64)) (fun _ _ => (one64, one64, one64)) U6 V6 U' V' 6 6 = Some r.
Proof.
  destruct (sz3_example true true) as ((buf & E) & _ & HL & HK & HF & HM & HM' & LU & LV & LJ).
  destruct (sz3_api_double (lm64 true) HL true two ord0 ub0 6 6 U6 V6 (repeat 0 576) buf 380%nat) as (U' & V' & HD & _ & L1 & L2 & _); auto; try lia; [tauto|].
  destruct (tool2_total (DA (lm64 true)) (fun _ => None) (fun _ _ => (one64, one64)) (fun _ _ => (one64, one64, one64)) U6 V6 U' V' 6 6) as (r & Hr);
    try lia; try exact LU; try exact LV; try (etransitivity; [apply (f_equal Z.of_nat); eassumption|assumption]).
  exists buf, U', V', r. auto.
Qed.
(** A lost and an added point: the test accepts everything, the vectors of one field are zero. *)
Lemma run_false2 : let run U U' := option_map (fun r => (length (r_origin r), length (r_decompressed r), length (r_tp r), length (r_fn r), length (r_fp r)))
    (tool2 (DA (lm64 true)) (fun _ => Some (one64, one64, one64)) (fun _ _ => (one64, one64)) (fun _ _ => (one64, one64, one64)) U U U' U' 4 4) in
  run (repeat one64 16) (repeat nil64 16) = Some (2, 0, 0, 2, 0)%nat /\ run (repeat nil64 16) (repeat one64 16) = Some (0, 2, 0, 0, 2)%nat /\
  run (repeat one64 16) (repeat one64 16) = Some (2, 2, 2, 0, 0)%nat.
Proof. vm_compute. auto. Qed.
Lemma run_exact : exact2 test2 /\ exact3 test3 /\
  (exists r, enc_online_abs XA (Fin 1) 4 4 (map Fin (repeat 1%R 16)) (map Fin (repeat 1%R 16)) = Some r) /\
  exists s c, enc_abs3 XA (fun _ _ _ _ => false) (Fin 1) 2 2 3 (map Fin (repeat 1%R 12)) (map Fin (repeat 1%R 12)) (map Fin (repeat 1%R 12)) = Some (s, c).
Proof.
  split; [exact test2_exact|]. split; [exact test3_exact|]. split.
  - assert (B : (1 <= big)%R) by (apply (bpow_le radix2 0); lia). assert (HR : Forall (fun x => Rabs x <= big)%R (repeat 1%R 16)).
    { apply Forall_forall. intros x Hx. apply repeat_spec in Hx. subst. rewrite Rabs_R1. exact B. }
    apply abs_total; auto; lia || reflexivity.
  - assert (B : (1 <= big)%R) by (apply (bpow_le radix2 0); lia). apply abs3_total; try lia; try reflexivity. nra.
Qed.
Definition U4 : list binary64 := firstn 24 U6.
Definition V4 : list binary64 := firstn 24 V6.
Lemma run_abs2 : exists buf size U' V' r, compress_online_abs (DA (lm64 true)) two ord0 ub0 4 6 U4 V4 (repeat 0 384) = Some (buf, size) /\
  short_codes (enc_online_abs (DA (lm64 true)) two) ord0 4 6 U4 V4 /\ libm_ok (DA (lm64 true)) (DA_ieee (lm64 true)) /\
  finite_le 500 two /\ (forall x, In x U4 \/ In x V4 -> finite_le 500 x) /\ Z.of_nat (length U4) = 4 * 6 /\ Z.of_nat (length V4) = 4 * 6 /\
  decompress_online (DA (lm64 true)) 4 6 (firstn size buf) = Some (U', V') /\
  tool2 (DA (lm64 true)) (fun _ => None) (fun _ _ => (one64, one64)) (fun _ _ => (one64, one64, one64)) U4 V4 U' V' 4 6 = Some r.
Proof.
  assert (HC : exists buf size, compress_online_abs (DA (lm64 true)) two ord0 ub0 4 6 U4 V4 (repeat 0 384) = Some (buf, size)).
  { assert (E : match compress_online_abs (DA (lm64 true)) two ord0 ub0 4 6 U4 V4 (repeat 0 384) with Some _ => true | None => false end = true) by (vm_compute; reflexivity).
    destruct (compress_online_abs _ _ _ _ _ _ _ _ _) as [[buf size]|]; [eauto|discriminate]. }
  destruct HC as (buf & size & HC).
  assert (LU : Z.of_nat (length U4) = 4 * 6) by reflexivity. assert (LV : Z.of_nat (length V4) = 4 * 6) by reflexivity.
  assert (HL : libm_ok (DA (lm64 true)) (DA_ieee (lm64 true))) by apply lm64_ok.
  assert (HM : finite_le 500 two) by (apply dy_finite; lia).
  assert (HF : forall x, In x U4 \/ In x V4 -> finite_le 500 x).
  { intros x [H|H]; apply all6; [left|right]; unfold U4, V4 in H; (rewrite <- (firstn_skipn 24); apply in_or_app; left; exact H). }
  assert (HK : short_codes (enc_online_abs (DA (lm64 true)) two) ord0 4 6 U4 V4) by (apply short_small; try lia; auto; do 2 eexists; reflexivity).
  destruct (abs_api_double (lm64 true) HL two ord0 ub0 4 6 U4 V4 (repeat 0 384) buf size) as (U' & V' & HD & L1 & L2 & _); auto; try lia.
  { rewrite repeat_length. reflexivity. }
  destruct (tool2_total (DA (lm64 true)) (fun _ => None) (fun _ _ => (one64, one64)) (fun _ _ => (one64, one64, one64)) U4 V4 U' V' 4 6) as (r & Hr);
    try lia; try exact LU; try exact LV; try (etransitivity; [apply (f_equal Z.of_nat); eassumption|assumption]).
  exists buf, size, U', V', r. auto 12.
Qed.
