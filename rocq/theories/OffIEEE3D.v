(** The offline 3D bounds in IEEE arithmetic: never NaN, at most the configured bound. *)
From Coq Require Import Reals Lra Lia ZArith List Bool.
From Coq Require Import ZifyBool ZifyNat.
From Flocq Require Import Core.Core IEEE754.BinarySingleNaN IEEE754.Binary IEEE754.Bits.
From Verif Require Import Base Arith Mesh2D Mesh3D Derive2D Derive3D Codec2D Sync2D Exact IEEE IEEELaws IEEEQuant IEEE2D IEEE3D LinQuant BlockIEEE Api2D
  Cells3D Offline2D OfflineField2D Log3D LogCells3D Off3D OffField3D Acbrt.
Import ListNotations.
Local Open Scope R_scope.

(** ** Sign of zero *)
Lemma plus_sign p e (Hp : Prec_gt_0 p) (He : Prec_lt_emax p e) nan (x y : binary_float p e) r s t :
  val p e x = Fin r -> 0 <= r -> Bsign p e x = false -> val p e y = Fin s -> 0 <= s -> val p e (Bplus p e Hp He nan mode_NE x y) = Fin t ->
  Bsign p e (Bplus p e Hp He nan mode_NE x y) = false.
Proof.
  intros Ex Hr Sx Ey Hs Ez. apply val_fin_iff in Ex, Ey, Ez. destruct Ex as [Fx Vx], Ey as [Fy Vy], Ez as [Fz Vz].
  pose proof (Bplus_correct p e Hp He nan mode_NE x y Fx Fy) as C.
  destruct (Rlt_bool _ _).
  - destruct C as (_ & _ & C). rewrite C, Vx, Vy. destruct (Rcompare_spec (r + s) 0) as [K|K|K]; [lra| |reflexivity]. rewrite Sx. reflexivity.
  - destruct C as [C _]. destruct (Bplus p e Hp He nan mode_NE x y); try discriminate.
Qed.

Lemma b32_of_b64_sign (x : binary64) r t : val64 x = Fin r -> 0 <= r -> Bsign 53 1024 x = false -> val32 (b32_of_b64 x) = Fin t ->
  Bsign 24 128 (b32_of_b64 x) = false.
Proof.
  intros Ex Hr Sx Et. unfold val64, val32 in *. apply val_fin_iff in Ex, Et. destruct Ex as [Fx Vx], Et as [Ft Vt].
  destruct x as [s|s|s pl H|s m ex H]; try discriminate; [exact Sx|]. cbn [Bsign] in Sx. subst s.
  cbn [b32_of_b64] in *. pose proof (binary_normalize_correct 24 128 eq_refl eq_refl mode_NE (cond_Zopp false (Zpos m)) ex false) as C.
  assert (P : 0 < F2R (Float radix2 (cond_Zopp false (Zpos m)) ex)) by (apply F2R_gt_0; cbn; lia).
  destruct (Rlt_bool _ _).
  - destruct C as (_ & _ & C). rewrite C. destruct (Rcompare_spec (F2R (Float radix2 (cond_Zopp false (Zpos m)) ex)) 0) as [K|K|K]; [lra|lra|reflexivity].
  - destruct (binary_normalize 24 128 _ _ mode_NE _ ex false); try discriminate.
Qed.

(** ** What the bounds need of the arithmetic *)
Record off_ieee (A : Arith) (I : ieee A) (O : FOps A) (acbrt : F O -> F O) : Type := {
  vF : F O -> XR; sD : D A -> bool; sF : F O -> bool;
  s_zero : sD (dofZ A 0) = false;
  s_dadd : forall x y r s t, vD A I x = Fin r -> 0 <= r -> sD x = false -> vD A I y = Fin s -> 0 <= s -> vD A I (dadd A x y) = Fin t -> sD (dadd A x y) = false;
  v_d2f : forall x, vF (d2f O x) = rndx 24 128 (vD A I x);
  s_d2f : forall x r t, vD A I x = Fin r -> 0 <= r -> sD x = false -> vF (d2f O x) = Fin t -> sF (d2f O x) = false;
  v_fadd : forall x y, vF (fadd O x y) = rndx 24 128 (xadd (vF x) (vF y));
  s_fadd : forall x y r s t, vF x = Fin r -> 0 <= r -> sF x = false -> vF y = Fin s -> 0 <= s -> vF (fadd O x y) = Fin t -> sF (fadd O x y) = false;
  v_fsub : forall x y, vF (fsub O x y) = rndx 24 128 (xsub (vF x) (vF y));
  v_fabsf : forall x, vF (fabsf O x) = xabs (vF x);
  v_fdiv : forall x y, vF y <> Fin 0 -> vF (fdiv O x y) = rndx 24 128 (xdiv (vF x) (vF y));
  v_f2d_ : forall x, vD A I (f2d O x) = vF x;
  v_fofZ0 : vF (fofZ O 0) = Fin 0;
  v_acbrt : forall x r, vF x = Fin r -> sF x = false -> exists y, vF (acbrt x) = Fin y /\ bpow radix2 (-45) <= y <= bpow radix2 63;
}.

Lemma DO_off lm : off_ieee (DA lm) (DA_ieee lm) (DO lm) acbrt1.
Proof.
  refine {| vF := (val32 : F (DO lm) -> XR); sD := (Bsign 53 1024 : D (DA lm) -> bool); sF := (Bsign 24 128 : F (DO lm) -> bool) |}.
  - reflexivity.
  - intros x y r s t. apply plus_sign.
  - apply val_of_b64.
  - intros x r t. apply b32_of_b64_sign.
  - intros x y. apply val_plus.
  - intros x y r s t. apply plus_sign.
  - intros x y. apply val_minus.
  - intros x. apply val_abs.
  - intros x y. apply val_div.
  - intros x. apply val_of_b32.
  - reflexivity.
  - intros x r E S. apply val_fin_iff in E. apply acbrt1_pos; tauto.
Defined.
Lemma FO_off lm : off_ieee (FA lm) (FA_ieee lm) (FO lm) acbrt1.
Proof.
  refine {| vF := (val32 : F (FO lm) -> XR); sD := (Bsign 53 1024 : D (FA lm) -> bool); sF := (Bsign 24 128 : F (FO lm) -> bool) |}.
  - reflexivity.
  - intros x y r s t. apply plus_sign.
  - apply val_of_b64.
  - intros x r t. apply b32_of_b64_sign.
  - intros x y. apply val_plus.
  - intros x y r s t. apply plus_sign.
  - intros x y. apply val_minus.
  - intros x. apply val_abs.
  - intros x y. apply val_div.
  - intros x. apply val_of_b32.
  - reflexivity.
  - intros x r E S. apply val_fin_iff in E. apply acbrt1_pos; tauto.
Defined.

Section Gen.
Context (A : Arith) (I : ieee A) (O : FOps A) (acbrt : F O -> F O) (J : off_ieee A I O acbrt).
Local Notation vD := (vD A I). Local Notation vT := (vT A I). Local Notation eT := (eT A I).
Local Notation vF := (vF A I O acbrt J). Local Notation sD := (sD A I O acbrt J). Local Notation sF := (sF A I O acbrt J).
Local Notation bnd := (bnd A I). Local Notation bndD := (bndD A I). Local Notation all_bnd := (all_bnd A I).

(** Non-negative, not -0, at most 2^k. *)
Definition nnD (k : Z) (x : D A) : Prop := exists r, vD x = Fin r /\ 0 <= r <= bpow radix2 k /\ sD x = false.
Definition nnF (k : Z) (x : F O) : Prop := exists r, vF x = Fin r /\ 0 <= r <= bpow radix2 k /\ sF x = false.

Lemma nnD_mono k k' x : (k <= k')%Z -> nnD k x -> nnD k' x.
Proof. intros H (r & E & B & S). exists r. split; auto. split; auto. split; [tauto|]. eapply Rle_trans; [apply B|apply bpow_le; auto]. Qed.
Lemma nnF_mono k k' x : (k <= k')%Z -> nnF k x -> nnF k' x.
Proof. intros H (r & E & B & S). exists r. split; auto. split; auto. split; [tauto|]. eapply Rle_trans; [apply B|apply bpow_le; auto]. Qed.

Lemma rnd_nn p e (Hp : Prec_gt_0 p) r k : (1 < p)%Z -> (3 - e - p < 0)%Z -> (0 <= k < e)%Z -> 0 <= r <= bpow radix2 k -> exists s, rndx p e (Fin r) = Fin s /\ 0 <= s <= bpow radix2 k.
Proof.
  intros P1 E1 Hk [H0 H]. assert (G : generic_format radix2 (SpecFloat.fexp p e) (bpow radix2 k)) by (apply (fmt_bpow p e Hp); lia).
  pose proof (rnd_bound p e Hp r _ G ltac:(rewrite Rabs_pos_eq; auto)) as Hb.
  pose proof (rnd_sign_ge p e Hp r H0) as Hg. cbn [rndx]. eexists. split.
  - apply sat_fin. eapply Rle_lt_trans; [exact Hb|]. apply bpow_lt. lia.
  - split; [exact Hg|]. eapply Rle_trans; [apply Rle_abs|exact Hb].
Qed.

Lemma nnD_add k x y s : (0 <= k)%Z -> (k + 1 < 1024)%Z -> nnD k x -> vD y = Fin s -> 0 <= s <= bpow radix2 k -> nnD (k + 1) (dadd A x y).
Proof.
  intros H0 H1 (r & E & B & S) Ey Bs. destruct (rnd_nn 53 1024 eq_refl (r + s) (k + 1)) as (t & Et & Bt); try lia.
  { rewrite bpow_2. lra. }
  assert (V : vD (dadd A x y) = Fin t) by (rewrite v_dadd, E, Ey; exact Et).
  exists t. split; auto. split; auto. eapply (s_dadd A I O acbrt J); eauto; lra.
Qed.
Lemma nnF_add k x y : (0 <= k)%Z -> (k + 1 < 128)%Z -> nnF k x -> nnF k y -> nnF (k + 1) (fadd O x y).
Proof.
  intros H0 H1 (r & E & B & S) (s & Ey & Bs & Sy). destruct (rnd_nn 24 128 eq_refl (r + s) (k + 1)) as (t & Et & Bt); try lia.
  { rewrite bpow_2. lra. }
  assert (V : vF (fadd O x y) = Fin t) by (rewrite v_fadd, E, Ey; exact Et).
  exists t. split; auto. split; auto. eapply (s_fadd A I O acbrt J); eauto; lra.
Qed.
Lemma nnF_d2f k x : (0 <= k < 128)%Z -> nnD k x -> nnF k (d2f O x).
Proof.
  intros Hk (r & E & B & S). destruct (rnd_nn 24 128 eq_refl r k) as (t & Et & Bt); try lia; auto.
  assert (V : vF (d2f O x) = Fin t) by (rewrite v_d2f, E; exact Et). exists t. split; auto. split; auto.
  eapply (s_d2f A I O acbrt J); eauto; lra.
Qed.
Lemma nnF_sum3 k x y z : (0 <= k)%Z -> (k + 2 < 128)%Z -> nnF k x -> nnF k y -> nnF k z -> nnF (k + 2) (fadd O (fadd O x y) z).
Proof.
  intros. replace (k + 2)%Z with (k + 1 + 1)%Z by lia. apply nnF_add; try lia; [apply nnF_add; auto; lia|]. apply (nnF_mono k); auto. lia.
Qed.

(** The accumulators. *)
Lemma acc_step k l : (0 <= k)%Z -> (k + Z.of_nat (length l) < 1024)%Z -> (forall x, In x l -> bndD k x) -> forall k0 p n, (k <= k0)%Z ->
  (k0 + Z.of_nat (length l) < 1024)%Z -> nnD k0 p -> nnD k0 n ->
  let pn := fold_left (accumulate_d A) l (p, n) in nnD (k0 + Z.of_nat (length l)) (fst pn) /\ nnD (k0 + Z.of_nat (length l)) (snd pn).
Proof.
  intros Hk. induction l as [|x l IH]; intros Hl HB k0 p n H0 H1 Hp Hn; cbn [fold_left length].
  { cbn. rewrite Z.add_0_r. auto. }
  cbn [length] in Hl, H1.
  replace (k0 + Z.of_nat (S (length l)))%Z with (k0 + 1 + Z.of_nat (length l))%Z by lia.
  destruct (HB x ltac:(left; auto)) as (r & E & Br).
  assert (BK : Rabs r <= bpow radix2 k0) by (eapply Rle_trans; [exact Br|apply bpow_le; auto]).
  assert (HI : forall p n, nnD (k0 + 1) p -> nnD (k0 + 1) n -> let pn := fold_left (accumulate_d A) l (p, n) in
     nnD (k0 + 1 + Z.of_nat (length l)) (fst pn) /\ nnD (k0 + 1 + Z.of_nat (length l)) (snd pn)).
  { intros. apply IH; auto; try lia. intros. apply HB. right. auto. }
  unfold accumulate_d at 2 4. destruct (dle A (dofZ A 0) x) eqn:C; rewrite (v_dle A I), (vD_0 A I), E in C.
  - apply xle_fin in C. apply HI; [|apply (nnD_mono k0); auto; lia].
    rewrite Rabs_pos_eq in BK by auto. apply (nnD_add k0 p x r); auto; lia.
  - apply HI; [apply (nnD_mono k0); auto; lia|]. apply (nnD_add k0 n (dneg A x) (- r)); auto; try lia; [rewrite v_dneg, E; auto|].
    cbn in C. destruct (Rle_bool_spec 0 r) as [Q|Q]; [discriminate|]. rewrite Rabs_left in BK by auto. lra.
Qed.

Lemma parts_nn k l : (0 <= k)%Z -> (k + Z.of_nat (length l) < 128)%Z -> (forall x, In x l -> bndD k x) ->
  nnF (k + Z.of_nat (length l)) (fst (parts A O l)) /\ nnF (k + Z.of_nat (length l)) (snd (parts A O l)).
Proof.
  intros Hk Hl HB. unfold parts, acc_d.
  assert (Z0 : nnD k (dofZ A 0)).
  { exists 0. split; [apply (vD_0 A I)|]. split; [|apply s_zero]. split; [lra|apply bpow_ge_0]. }
  pose proof (acc_step k l Hk ltac:(lia) HB k _ _ ltac:(lia) ltac:(lia) Z0 Z0) as H. cbv zeta in H.
  destruct (fold_left _ l _) as [p n]. cbn [fst snd] in *. split; apply nnF_d2f; try tauto; lia.
Qed.

(** ** One tetrahedron *)
Definition fnn (x : F O) : Prop := vF x <> NaN.
Lemma keep3_fin k x y : nnF k x -> nnF k y -> fnn (keep3 A O acbrt x y).
Proof.
  intros (r & E & _ & S) (s & E' & _ & S'). unfold fnn, keep3.
  destruct (v_acbrt A I O acbrt J x r E S) as (P & EP & HP). destruct (v_acbrt A I O acbrt J y s E' S') as (N & EN & HN).
  pose proof (bpow_gt_0 radix2 (-45)) as G. pose proof (bpow_2 63) as G2. change (63 + 1)%Z with 64%Z in G2.
  assert (Q1 : exists d, vF (fsub O (acbrt x) (acbrt y)) = Fin d /\ Rabs d <= bpow radix2 64).
  { rewrite v_fsub, EP, EN. cbn [xsub xadd xneg]. set (z := P - N). assert (Hz : Rabs z <= bpow radix2 64).
    { unfold z. apply Rabs_le. lra. }
    pose proof (rnd_bound 24 128 eq_refl z (bpow radix2 64) ltac:(apply (fmt_bpow 24 128 eq_refl); lia) Hz) as Hb.
    eexists. split; [|exact Hb]. cbn [rndx]. apply sat_fin. eapply Rle_lt_trans; [exact Hb|]. apply bpow_lt. lia. }
  assert (Q2 : exists d, vF (fadd O (acbrt x) (acbrt y)) = Fin d /\ bpow radix2 (-45) <= d).
  { rewrite v_fadd, EP, EN. cbn [xadd]. set (z := P + N). assert (Hz : Rabs z <= bpow radix2 64).
    { unfold z. apply Rabs_le. lra. }
    pose proof (rnd_bound 24 128 eq_refl z (bpow radix2 64) ltac:(apply (fmt_bpow 24 128 eq_refl); lia) Hz) as Hb.
    eexists. split.
    - cbn [rndx]. apply sat_fin. eapply Rle_lt_trans; [exact Hb|]. apply bpow_lt. lia.
    - rewrite <- (rnd_id 24 128 (bpow radix2 (-45))) by (apply (fmt_bpow 24 128 eq_refl); lia). apply (rnd_le 24 128 eq_refl). unfold z; lra. }
  destruct Q1 as (d & Ed & Bd). destruct Q2 as (m & Em & Bm).
  rewrite v_fdiv by (rewrite Em; intros K; injection K as K; lra). rewrite v_fabsf, Ed, Em. cbn [xabs xdiv].
  set (z := Rabs d / m). assert (Hz : Rabs z <= bpow radix2 109).
  { assert (Z0 : 0 <= z) by (apply Rmult_le_pos; [apply Rabs_pos|left; apply Rinv_0_lt_compat; lra]). rewrite Rabs_pos_eq by auto.
    apply Rle_trans with (bpow radix2 64 * / bpow radix2 (-45)).
    - apply Rmult_le_compat; auto; [apply Rabs_pos|left; apply Rinv_0_lt_compat; lra|apply Rinv_le; auto].
    - rewrite <- bpow_opp, <- bpow_plus. apply bpow_le. lia. }
  pose proof (rnd_bound 24 128 eq_refl z (bpow radix2 109) ltac:(apply (fmt_bpow 24 128 eq_refl); lia) Hz) as Hb.
  assert (NZ : rndx 24 128 (Fin z) <> NaN).
  { cbn [rndx]. rewrite sat_fin; [discriminate|]. eapply Rle_lt_trans; [exact Hb|]. apply bpow_lt. lia. }
  rewrite Req_bool_false by lra. exact NZ.
Qed.
Lemma fmax_fnn x y : fnn x -> fnn y -> fnn (fmax_ A O x y).
Proof. unfold fmax_. destruct (dlt A _ _); auto. Qed.
Lemma fmin_fnn x y : fnn x -> fnn y -> fnn (fmin_ A O x y).
Proof. unfold fmin_. destruct (dlt A _ _); auto. Qed.

Definition bnd3_ (k : Z) (x : T A * T A * T A) : Prop := bnd k (fst (fst x)) /\ bnd k (snd (fst x)) /\ bnd k (snd x).

Lemma offline3_notnan x0 x1 x2 x3 : (114 < eT)%Z -> bnd3_ 38 x0 -> bnd3_ 38 x1 -> bnd3_ 38 x2 -> bnd3_ 38 x3 -> vD (offline3_eb A O acbrt x0 x1 x2 x3) <> NaN.
Proof.
  intros HeT B0 B1 B2 B3.
  destruct x0 as [[u0 v0] w0], x1 as [[u1 v1] w1], x2 as [[u2 v2] w2], x3 as [[u3 v3] w3].
  destruct B0 as (? & ? & ?), B1 as (? & ? & ?), B2 as (? & ? & ?), B3 as (? & ? & ?). cbn [fst snd] in *.
  assert (BP : forall a b c, bnd 38 a -> bnd 38 b -> bnd 38 c -> bndD 114 (prod3 A a b c)).
  { intros a b c Ba Bb Bc. apply bnd_t2d. change 114%Z with (38 + 38 + 38)%Z. apply bnd_mul; auto; try lia. apply bnd_mul; auto; lia. }
  assert (BN : forall a b c, bnd 38 a -> bnd 38 b -> bnd 38 c -> bndD 114 (dneg A (prod3 A a b c))).
  { intros a b c Ba Bb Bc. destruct (BP a b c Ba Bb Bc) as (r & E & Br). exists (- r). rewrite v_dneg, E, Rabs_Ropp. auto. }
  assert (Z0 : vD (dofZ A 0) <> NaN) by (rewrite (vD_0 A I); discriminate).
  assert (Z1 : vD (dofZ A 1) <> NaN).
  { rewrite v_dofZ. rewrite (rndx_fin 53 1024); [discriminate|apply (fmt_IZR 53 1024 eq_refl); lia|]. rewrite Rabs_pos_eq by lra. change 1 with (bpow radix2 0). apply bpow_lt. lia. }
  unfold offline3_eb.
  destruct (deq A _ _); [exact Z0|].
  match goal with |- context [inside_flag A ?m ?a && inside_flag A ?m ?b && inside_flag A ?m ?c && inside_flag A ?m ?d] =>
    generalize (inside_flag A m a), (inside_flag A m b), (inside_flag A m c), (inside_flag A m d) end. intros f0 f1 f2 f3.
  destruct (f0 && f1 && f2 && f3); [destruct (_ || _); [exact Z1|exact Z0]|].
  assert (PT : forall l, In l (minor_terms A (u0, v0, w0) (u1, v1, w1) (u2, v2, w2) (u3, v3, w3)) -> nnF 120 (fst (parts A O l)) /\ nnF 120 (snd (parts A O l))).
  { intros l Hl. assert (HB : length l = 6%nat /\ forall x, In x l -> bndD 114 x).
    { cbn [minor_terms In] in Hl. destruct Hl as [<-|[<-|[<-|[<-|[]]]]]; (split; [reflexivity|]); intros x Hx; cbn [In] in Hx;
        repeat (destruct Hx as [<-|Hx]; [first [apply BP; assumption|apply BN; assumption]|]); destruct Hx. }
    destruct HB as [HL HB]. pose proof (parts_nn 114 l ltac:(lia) ltac:(rewrite HL; lia) HB) as K. rewrite HL in K. exact K. }
  assert (L4 : length (minor_terms A (u0, v0, w0) (u1, v1, w1) (u2, v2, w2) (u3, v3, w3)) = 4%nat) by reflexivity.
  destruct (minor_terms A (u0, v0, w0) (u1, v1, w1) (u2, v2, w2) (u3, v3, w3)) as [|a [|b [|c [|d [|]]]]]; try discriminate L4. cbn [map].
  pose proof (PT a ltac:(cbn; auto)) as P0. pose proof (PT b ltac:(cbn; auto)) as P1. pose proof (PT c ltac:(cbn; auto)) as P2. pose proof (PT d ltac:(cbn; auto 6)) as P3.
  destruct (parts A O a) as [p0 n0], (parts A O b) as [p1 n1], (parts A O c) as [p2 n2], (parts A O d) as [p3 n3].
  cbn [fst snd] in *. clear PT L4 a b c d. rewrite (v_f2d_ A I O acbrt J).
  assert (S3 : forall a b c, nnF 120 a -> nnF 120 b -> nnF 120 c -> nnF 122 (fadd O (fadd O a b) c)) by (intros; apply (nnF_sum3 120); auto; lia).
  assert (E0 : fnn (fofZ O 0)) by (unfold fnn; rewrite v_fofZ0; discriminate).
  assert (ST : forall (b : bool) e a c a' c', fnn e -> nnF 120 a -> nnF 120 c -> nnF 122 a' -> nnF 122 c' ->
     fnn (if b then e else fmax_ A O e (fmin_ A O (keep3 A O acbrt a c) (keep3 A O acbrt a' c')))).
  { intros [|] e a c a' c' He Ha Hc Ha' Hc'; auto. apply fmax_fnn; auto. apply fmin_fnn; eapply keep3_fin; eauto. }
  destruct P0, P1, P2, P3.
  repeat (apply ST; auto).
Qed.

(** ** The field *)
Definition low_ebs (m : R) (n : Z) (eb : list (D A)) : Prop := Z.of_nat (length eb) = n /\ forall p x, aget eb p = Some x -> atmost m (vD x).

Lemma lower_low m n eb p cur : low_ebs m n eb -> (0 <= p < n)%Z -> vD cur <> NaN -> exists eb', lower_eb A eb p cur = Some eb' /\ low_ebs m n eb'.
Proof.
  intros [L H] Hp Hc. unfold lower_eb. destruct (aget_ok eb p ltac:(lia)) as [x Ex]. rewrite Ex. cbn [bind].
  destruct (aset_ok eb p (minf A x cur) ltac:(lia)) as [eb' E']. exists eb'. split; [exact E'|].
  apply aset_Some in E'. destruct E' as (_ & EL & G). split; [lia|]. intros q y Hq. rewrite G in Hq.
  destruct (q =? p)%Z; [|eapply H; eauto]. injection Hq as <-. apply minf_atmost; auto. eapply H; eauto.
Qed.

Lemma offline3_low m r1 r2 r3 U V W : (114 < eT)%Z -> (0 <= r1)%Z -> (0 <= r2)%Z -> (0 <= r3)%Z ->
  Z.of_nat (length U) = (r1 * r2 * r3)%Z -> Z.of_nat (length V) = (r1 * r2 * r3)%Z -> Z.of_nat (length W) = (r1 * r2 * r3)%Z ->
  all_bnd 38 U -> all_bnd 38 V -> all_bnd 38 W ->
  forall ts, (forall t, In t ts -> cell_in r1 r2 r3 t) -> forall eb, low_ebs m (r1 * r2 * r3) eb ->
  exists eb', fold_opt (offline3_tet A O acbrt r2 r3 U V W) ts eb = Some eb' /\ low_ebs m (r1 * r2 * r3) eb'.
Proof.
  intros HeT H1 H2 H3 LU LV LW BU BV BW. induction ts as [|[b n] ts IH]; intros HT eb HL; cbn [fold_opt]; [eauto|].
  assert (HC : cell_in r1 r2 r3 (b, n)) by (apply HT; left; auto).
  assert (GI : forall p, (p <= 2)%nat -> (0 <= lin3 r2 r3 (nbr3 b n p) < r1 * r2 * r3)%Z).
  { intros p Hp. apply lin3_range. apply (cell_points r1 r2 r3 b n); auto. unfold around.
    destruct p as [|[|[|p]]]; cbn; auto 6. lia. }
  assert (GB : (0 <= lin3 r2 r3 b < r1 * r2 * r3)%Z).
  { apply lin3_range. destruct b as [[i j] k]. unfold cell_in, in_grid in *. cbn [fst snd] in *. lia. }
  assert (PT : forall i, (0 <= i < r1 * r2 * r3)%Z -> exists x, (let* u := aget U i in let* v := aget V i in let* w := aget W i in Some (u, v, w)) = Some x /\ bnd3_ 38 x).
  { intros i Hi. destruct (aget_ok U i ltac:(lia)) as [u Eu]. destruct (aget_ok V i ltac:(lia)) as [v Ev]. destruct (aget_ok W i ltac:(lia)) as [w Ew].
    rewrite Eu, Ev, Ew. cbn [bind]. exists (u, v, w). split; [auto|]. split; [eapply BU; eauto|]. split; [eapply BV; eauto|eapply BW; eauto]. }
  assert (ST : exists eb', offline3_tet A O acbrt r2 r3 U V W eb (b, n) = Some eb' /\ low_ebs m (r1 * r2 * r3) eb').
  { unfold offline3_tet. rewrite !off_nbr.
    destruct (PT _ (GI 0%nat ltac:(lia))) as (x0 & E0 & X0). destruct (PT _ (GI 1%nat ltac:(lia))) as (x1 & E1 & X1).
    destruct (PT _ (GI 2%nat ltac:(lia))) as (x2 & E2 & X2). destruct (PT _ GB) as (x3 & E3 & X3).
    rewrite E0, E1, E2, E3. cbn [bind]. pose proof (offline3_notnan x0 x1 x2 x3 HeT X0 X1 X2 X3) as NN.
    destruct (lower_low m _ eb _ _ HL GB NN) as (e1 & F1 & L1). rewrite F1. cbn [bind].
    destruct (lower_low m _ e1 _ _ L1 (GI 0%nat ltac:(lia)) NN) as (e2 & F2 & L2). rewrite F2. cbn [bind].
    destruct (lower_low m _ e2 _ _ L2 (GI 1%nat ltac:(lia)) NN) as (e3 & F3 & L3). rewrite F3. cbn [bind].
    exact (lower_low m _ e3 _ _ L3 (GI 2%nat ltac:(lia)) NN). }
  destruct ST as (e1 & E1 & L1). rewrite E1. cbn [bind]. apply IH; auto. intros. apply HT. right. auto.
Qed.

Theorem offline3_ebs_low m max_eb r1 r2 r3 U V W : (114 < eT)%Z -> (0 <= r1)%Z -> (0 <= r2)%Z -> (0 <= r3)%Z ->
  Z.of_nat (length U) = (r1 * r2 * r3)%Z -> Z.of_nat (length V) = (r1 * r2 * r3)%Z -> Z.of_nat (length W) = (r1 * r2 * r3)%Z ->
  all_bnd 38 U -> all_bnd 38 V -> all_bnd 38 W -> vD max_eb = Fin m ->
  exists eb, offline3_ebs A O acbrt max_eb r1 r2 r3 U V W = Some eb /\ low_ebs m (r1 * r2 * r3) eb.
Proof.
  intros HeT H1 H2 H3 LU LV LW BU BV BW Em. apply offline3_low; auto.
  - intros t. apply cell_tets_in.
  - split; [rewrite repeat_length; nia|]. intros p x H. apply aget_In, repeat_spec in H. subst. right. exists m. split; [auto|lra].
Qed.
End Gen.
