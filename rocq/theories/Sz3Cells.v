(** Critical points under the multilevel codec, in exact arithmetic. *)
From Coq Require Import Reals Lra Lia ZArith List Bool Permutation.
From Coq Require Import ZifyBool ZifyNat.
From Flocq Require Import Core.Raux.
From Verif Require Import Base Huffman Arith Mesh2D Derive2D Codec2D Sync2D Trace2D Scan Exact Cells2D Geo2D Preserve2D Sz3 Sz3Order Sz3Sync.
Import ListNotations.
Local Open Scope R_scope.

(** A zero strictly inside a non-degenerate triangle. *)
Definition crosses (w0 w1 w2 : R * R) : Prop :=
  mM w0 w1 w2 <> 0 /\ exists l0 l1 l2, 0 < l0 /\ 0 < l1 /\ 0 < l2 /\ l0 + l1 + l2 = 1 /\
    l0 * fst w0 + l1 * fst w1 + l2 * fst w2 = 0 /\ l0 * snd w0 + l1 * snd w1 + l2 * snd w2 = 0.

Lemma crosses_cp a b c : crosses a b c -> has_cp a b c.
Proof. intros (_ & x & y & z & H). exists x, y, z. intuition lra. Qed.
Lemma crosses_swap a b c : crosses a b c -> crosses b a c.
Proof. intros (M & x & y & z & H). split; [|exists y, x, z; intuition lra]. unfold mM, mM0, mM1, mM2 in *. lra. Qed.
Lemma crosses_rot a b c : crosses a b c -> crosses b c a.
Proof. intros (M & x & y & z & H). split; [|exists y, z, x; intuition lra]. unfold mM, mM0, mM1, mM2 in *. lra. Qed.
Lemma crosses_perm {X} (f : X -> R * R) a b c x y z : Permutation [a; b; c] [x; y; z] -> crosses (f a) (f b) (f c) -> crosses (f x) (f y) (f z).
Proof.
  intros HP H.
  destruct (perm3_cases _ _ _ _ _ _ HP) as [(-> & -> & ->)|[(-> & -> & ->)|[(-> & -> & ->)|[(-> & -> & ->)|[(-> & -> & ->)|(-> & -> & ->)]]]]];
    auto using crosses_swap, crosses_rot.
Qed.

(** A crossing at the end of a segment is already there a little before. *)
Lemma crosses_before a b w w' : (forall t, 0 <= t < 1 -> ~ has_cp a b (fst w + t * (fst w' - fst w), snd w + t * (snd w' - snd w))) -> ~ crosses a b w'.
Proof.
  intros H (M & l0 & l1 & l2 & P0 & P1 & P2 & S & HU & HV).
  destruct (cp_minors _ _ _ _ _ _ S HU HV) as (E0 & E1 & E2). set (m := mM a b w') in *.
  assert (Pm : 0 < m * m) by (apply Rsqr_pos_lt; auto).
  set (f0 := mM0 a b w * m). set (f1 := mM1 a b w * m). set (f2 := mM2 a b w * m).
  set (g0 := l1 * (m * m)). set (g1 := l0 * (m * m)). set (g2 := l2 * (m * m)).
  assert (G0 : 0 < g0) by (apply Rmult_lt_0_compat; auto). assert (G1 : 0 < g1) by (apply Rmult_lt_0_compat; auto).
  assert (G2 : 0 < g2) by (apply Rmult_lt_0_compat; auto).
  (* a point of the segment where the three linear functions are positive *)
  assert (T : exists s, 0 < s <= 1 /\ 0 < g0 + s * (f0 - g0) /\ 0 < g1 + s * (f1 - g1) /\ 0 < g2 + s * (f2 - g2)).
  { assert (One : forall f g, 0 < g -> exists s, 0 < s <= 1 /\ forall s', 0 < s' <= s -> 0 < g + s' * (f - g)).
    { intros f g Hg. destruct (Rle_lt_dec 0 (f - g)) as [Q|Q].
      - exists 1. split; [lra|]. intros s' Hs. nra.
      - exists (Rmin 1 (g / (2 * (g - f)))). assert (Pq : 0 < g / (2 * (g - f))) by (apply Rdiv_lt_0_compat; lra).
        split; [split; [apply Rmin_glb_lt; lra|apply Rmin_l]|]. intros s' [Hs1 Hs2].
        assert (s' <= g / (2 * (g - f))) by (eapply Rle_trans; [exact Hs2|apply Rmin_r]).
        assert (s' * (g - f) <= g / (2 * (g - f)) * (g - f)) by (apply Rmult_le_compat_r; lra).
        replace (g / (2 * (g - f)) * (g - f)) with (g / 2) in H1 by (field; lra). lra. }
    destruct (One f0 g0 G0) as (s0 & B0 & K0). destruct (One f1 g1 G1) as (s1 & B1 & K1). destruct (One f2 g2 G2) as (s2 & B2 & K2).
    exists (Rmin s0 (Rmin s1 s2)). assert (Q1 := Rmin_l s0 (Rmin s1 s2)). assert (Q2 := Rmin_r s0 (Rmin s1 s2)).
    assert (Q3 := Rmin_l s1 s2). assert (Q4 := Rmin_r s1 s2).
    assert (0 < Rmin s0 (Rmin s1 s2)) by (repeat apply Rmin_glb_lt; lra).
    split; [lra|]. split; [apply K0; lra|]. split; [apply K1; lra|apply K2; lra]. }
  destruct T as (s & Hs & T0 & T1 & T2). apply (H (1 - s)); [lra|].
  set (wt := (fst w + (1 - s) * (fst w' - fst w), snd w + (1 - s) * (snd w' - snd w))).
  assert (F0 : mM0 a b wt * m = g0 + s * (f0 - g0)).
  { unfold g0, f0. replace (l1 * (m * m)) with (mM0 a b w' * m) by (rewrite E0; ring). unfold mM0, wt. cbn [fst snd]. ring. }
  assert (F1 : mM1 a b wt * m = g1 + s * (f1 - g1)).
  { unfold g1, f1. replace (l0 * (m * m)) with (mM1 a b w' * m) by (rewrite E1; ring). unfold mM1, wt. cbn [fst snd]. ring. }
  assert (F2 : mM2 a b wt * m = g2 + s * (f2 - g2)).
  { unfold g2, f2. replace (l2 * (m * m)) with (mM2 a b w' * m) by (rewrite E2; ring). unfold mM2, wt. cbn [fst snd]. ring. }
  assert (FM : 0 < mM a b wt * m) by (unfold mM; rewrite !Rmult_plus_distr_r, F0, F1, F2; lra).
  assert (Sg : forall x, 0 < x * m -> 0 <= x * mM a b wt).
  { intros x Hx. assert (0 < (x * m) * (mM a b wt * m)) by (apply Rmult_lt_0_compat; auto).
    replace ((x * m) * (mM a b wt * m)) with ((m * m) * (x * mM a b wt)) in H0 by ring. nra. }
  apply yes_cp.
  - intros Z. rewrite Z in FM. lra.
  - apply Sg. rewrite F0. auto.
  - apply Sg. rewrite F1. auto.
  - apply Sg. rewrite F2. auto.
Qed.

(** What a run guarantees on a cell. *)
Definition cell_kept (t t' : (R * R) * (R * R) * (R * R)) : Prop :=
  let '(a, b, c) := t in let '(a', b', c') := t' in (has_cp a b c -> t' = t) /\ (~ has_cp a b c -> ~ crosses a' b' c').
Lemma cell_kept_refl t : cell_kept t t.
Proof. destruct t as [[a b] c]. cbn. split; [auto|]. intros H K. apply H, crosses_cp, K. Qed.

Lemma has_cp_dec a b c : has_cp a b c \/ ~ has_cp a b c.
Proof. apply Classical_Prop.classic. Qed.

Lemma cell_kept_trans t1 t2 t3 : cell_kept t1 t2 -> cell_kept t2 t3 -> cell_kept t1 t3.
Proof.
  destruct t1 as [[a b] c], t2 as [[a' b'] c'], t3 as [[a'' b''] c'']. cbn. intros [H1 K1] [H2 K2]. split.
  - intros H. specialize (H1 H). injection H1 as -> -> ->. auto.
  - intros H. destruct (has_cp_dec a' b' c') as [Y|N]; [|auto]. specialize (H2 Y). injection H2 as -> -> ->. auto.
Qed.

Lemma step_kept r1 r2 U V U' V' i j :
  (0 <= i < r1)%Z -> (0 <= j < r2)%Z ->
  (forall k, k <> (i * r2 + j)%Z -> aget U' k = aget U k) -> (forall k, k <> (i * r2 + j)%Z -> aget V' k = aget V k) ->
  (forall k, (k < 6)%nat -> in_mesh r1 r2 i j k = true ->
     let a := vec r2 U V (nbr i j k 0) in let b := vec r2 U V (nbr i j k 1) in
     (has_cp a b (vec r2 U V (i, j)) -> vec r2 U' V' (i, j) = vec r2 U V (i, j)) /\
     (~ has_cp a b (vec r2 U V (i, j)) -> ~ crosses a b (vec r2 U' V' (i, j)))) ->
  forall a b c, cell r1 r2 a b c -> cell_kept (cell_vecs r2 U V a b c) (cell_vecs r2 U' V' a b c).
Proof.
  intros Hi Hj HU HV HK a b c HC.
  destruct (cell_points _ _ _ _ _ HC) as [ND HP].
  destruct (in_dec ZZ_dec (i, j) [a; b; c]) as [HI|HI].
  - destruct (table_complete _ _ _ _ _ _ _ HC HI) as (k & Hk & HM & HS). unfold same_cell in HS.
    destruct (HK k Hk HM) as [H1 H2].
    assert (E0 : vec r2 U' V' (nbr i j k 0) = vec r2 U V (nbr i j k 0)).
    { apply (vec_other r2 U V U' V' i j); auto.
      - rewrite Forall_forall in HP. apply HP. apply (Permutation_in _ (Permutation_sym HS)). left; auto.
      - intros E. assert (ND' := Permutation_NoDup HS ND). rewrite E in ND'. inversion ND'; subst.
        match goal with H : ~ In _ _ |- _ => apply H; right; left; auto end. }
    assert (E1 : vec r2 U' V' (nbr i j k 1) = vec r2 U V (nbr i j k 1)).
    { apply (vec_other r2 U V U' V' i j); auto.
      - rewrite Forall_forall in HP. apply HP. apply (Permutation_in _ (Permutation_sym HS)). right; left; auto.
      - intros E. assert (ND' := Permutation_NoDup HS ND). rewrite E in ND'. inversion ND' as [|? ? _ ND'']; subst.
        inversion ND''; subst. match goal with H : ~ In _ _ |- _ => apply H; left; auto end. }
    unfold cell_kept, cell_vecs.
    assert (P1 : has_cp (vec r2 U V a) (vec r2 U V b) (vec r2 U V c) <->
                 has_cp (vec r2 U V (nbr i j k 0)) (vec r2 U V (nbr i j k 1)) (vec r2 U V (i, j))).
    { split; apply has_cp_perm; auto. apply Permutation_sym; auto. }
    split.
    + intros Y. apply P1 in Y. specialize (H1 Y).
      assert (G : forall x, In x [a; b; c] -> vec r2 U' V' x = vec r2 U V x).
      { intros x Hx. apply (Permutation_in _ HS) in Hx. destruct Hx as [<-|[<-|[<-|[]]]]; auto. }
      rewrite (G a), (G b), (G c) by (cbn; auto). reflexivity.
    + intros N C. apply H2; [rewrite <- P1; auto|]. apply (crosses_perm (vec r2 U' V') _ _ _ _ _ _ HS) in C. rewrite E0, E1 in C. exact C.
  - assert (G : forall x, In x [a; b; c] -> vec r2 U' V' x = vec r2 U V x).
    { intros x Hx. apply (vec_other r2 U V U' V' i j); auto.
      - rewrite Forall_forall in HP. apply HP; auto.
      - intros ->. auto. }
    unfold cell_vecs. rewrite (G a), (G b), (G c) by (cbn; auto). apply cell_kept_refl.
Qed.

(** ** Exact arithmetic with the machine's conversion to int *)
Definition XO (o : option Z) : Arith := {|
  T := XR; D := XR;
  tadd := xadd; tsub := xsub; tmul := xmul; tdiv := xdiv; tneg := xneg; tabs := xabs;
  tlt := xlt; tle := xle; teq := xeq; tofZ := fun z => Fin (IZR z);
  ttoint := fun x => match xtoint x with Some z => Some z | None => o end;
  dadd := xadd; dsub := xsub; dmul := xmul; ddiv := xdiv; dneg := xneg; dabs := xabs; dsqrt := xsqrt;
  dlt := xlt; dle := xle; deq := xeq; dofZ := fun z => Fin (IZR z); dtoint := xtoint;
  t2d := fun x => x; d2t := fun x => x;
  dlog2 := xlog2; dpow := fun b e => Fin (powerRZ (IZR b) e);
  tlog2f := xlog2; texp2 := xexp2;
  eps_double := Fin (/ 4503599627370496); eps_float := Fin (/ 8388608);
  tsize_of := 0; tser := fun _ => []; tdes := fun _ => NaN; dser := fun _ => []; ddes := fun _ => NaN
|}.

Section Exact.
Context (o : option Z) (Ho : o = None \/ o = Some (- 2 ^ 31)%Z) (wrap : bool).
Local Notation X := (XO o).

Lemma same_quant eb : eb_exponential_quantize X 4 (eps_double X) eb = eb_exponential_quantize XA 4 (Fin (/ 4503599627370496)) eb.
Proof. reflexivity. Qed.
Lemma same_abs u0 u1 u2 v0 v1 v2 : derive_cp_eb_for_positions_online_abs X u0 u1 u2 v0 v1 v2 = derive_cp_eb_for_positions_online_abs XA u0 u1 u2 v0 v1 v2.
Proof.
  cbv beta iota zeta delta [derive_cp_eb_for_positions_online_abs max_eb_to_keep_sign_2d_online_abs minf dmax XO XA
    T D tadd tsub tmul tdiv tneg tabs tlt tle teq dadd dsub dmul ddiv dneg dabs dlt dle deq dofZ tofZ t2d d2t d0 t0]. reflexivity.
Qed.
Lemma same_derive eb U V r1 r2 i j : derive_eb_abs X eb U V r1 r2 i j = derive_eb_abs XA eb U V r1 r2 i j.
Proof.
  unfold derive_eb_abs. generalize six as ks. intros ks. revert eb. induction ks as [|k ks IH]; intros eb; cbn [req_loop]; [reflexivity|].
  destruct (in_mesh r1 r2 i j k); [|apply IH].
  change (tri_values XA U V r2 (i * r2 + j) k) with (tri_values X U V r2 (i * r2 + j) k).
  destruct (tri_values X U V r2 (i * r2 + j) k) as [[[[[[u0 u1] u2] v0] v1] v2]|]; [|reflexivity]. cbn [bind].
  rewrite same_abs. apply IH.
Qed.

Lemma predict_fin w p s k x : allfin w -> predict X (aget w) p s k = Some x -> exists r, x = Fin r.
Proof.
  intros HF. destruct k; unfold predict; cbn [X XO tdiv tadd tsub tmul tneg tofZ t0]; intros H.
  - apply Some_inj in H. subst x. unfold t0. cbn. eauto.
  - bind_as H a Ea. bind_as H b Eb. destruct (HF _ _ Ea) as [ra ->]. destruct (HF _ _ Eb) as [rb ->]. apply Some_inj in H. subst x.
    cbn [xadd xsub xmul xneg]. rewrite xdiv_fin by lra. eauto.
  - bind_as H a Ea. bind_as H b Eb. bind_as H c Ec. destruct (HF _ _ Ea) as [ra ->]. destruct (HF _ _ Eb) as [rb ->]. destruct (HF _ _ Ec) as [rc ->].
    apply Some_inj in H. subst x. cbn [xadd xsub xmul xneg]. rewrite xdiv_fin by lra. eauto.
  - bind_as H a Ea. bind_as H b Eb. bind_as H c Ec. bind_as H d Ed. destruct (HF _ _ Ea) as [ra ->]. destruct (HF _ _ Eb) as [rb ->].
    destruct (HF _ _ Ec) as [rc ->]. destruct (HF _ _ Ed) as [rd ->].
    apply Some_inj in H. subst x. cbn [xadd xsub xmul xneg]. rewrite xdiv_fin by lra. eauto.
  - bind_as H a Ea. bind_as H b Eb. bind_as H c Ec. destruct (HF _ _ Ea) as [ra ->]. destruct (HF _ _ Eb) as [rb ->]. destruct (HF _ _ Ec) as [rc ->].
    apply Some_inj in H. subst x. cbn [xadd xsub xmul xneg]. rewrite xdiv_fin by lra. eauto.
  - eauto.
Qed.

Lemma component d p a q x un : 0 <= a -> quantized X wrap (Fin d) (Fin p) (Fin a) q x un ->
  exists y, x = Fin y /\ Rabs (y - d) <= a /\ zeros [q] = length un.
Proof.
  intros Ha H. inversion H as [|c n qi q' E0 Ec En Ln Hd El]; subst.
  - exists d. split; [reflexivity|]. split; [|reflexivity]. rewrite Rminus_eq_0, Rabs_R0. auto.
  - cbn [XO teq tsub tmul tadd tabs tlt tofZ tdiv ttoint t0 xsub xabs xmul xadd] in *. apply xeq_fin_false in E0.
    apply xlt_fin_false in El. eexists. split; [reflexivity|]. split; [exact El|].
    rewrite xdiv_fin in Ec by auto.
    assert (Hc : c = (- 2 ^ 31)%Z \/ (0 <= c < 2 ^ 31)%Z).
    { destruct (xtoint (Fin (Rabs (d - p) / a))) as [z|] eqn:Ex.
      - apply Some_inj in Ec. subst z. right. cbn [xtoint] in Ex. destruct (_ && _)%bool eqn:E2 in Ex; [|discriminate]. apply Some_inj in Ex.
        assert (0 <= Ztrunc (Rabs (d - p) / a))%Z; [|lia].
        assert (0 <= Rabs (d - p) / a) by (apply Rmult_le_pos; [apply Rabs_pos|left; apply Rinv_0_lt_compat; lra]).
        rewrite Ztrunc_floor by auto. apply Zfloor_lub. auto.
      - left. destruct Ho; congruence. }
    pose proof (int32_range _ _ _ En) as Rn.
    assert (Rn' : (n < -2 ^ 30 \/ 1 <= n)%Z).
    { unfold int32 in En. destruct ((- 2 ^ 31 <=? c + 1)%Z && (c + 1 <? 2 ^ 31)%Z)%bool eqn:E1; [apply Some_inj in En; lia|].
      destruct wrap; [|discriminate]. apply Some_inj in En.
      assert (c + 1 = 2 ^ 31)%Z as Q by lia. rewrite Q in En. change ((2 ^ 31 + 2 ^ 31) mod 2 ^ 32)%Z with 0%Z in En. lia. }
    assert (Z.shiftr n 1 < - 32768 \/ 0 <= Z.shiftr n 1)%Z.
    { rewrite shiftr1. destruct Rn'; [left; apply Z.div_lt_upper_bound; lia|right; apply Z.div_pos; lia]. }
    assert (Z.shiftr n 1 <= 32767)%Z by (rewrite shiftr1; assert (n / 2 < 32768)%Z by (apply Z.div_lt_upper_bound; lia); lia).
    assert (Nq : q <> 0%Z) by (unfold intv_radius in Hd; destruct Hd as [(_ & _ & ->)|(_ & _ & ->)]; lia).
    cbn [length]. unfold zeros. cbn [count_occ]. destruct (Z.eq_dec q 0); [contradiction|reflexivity].
Qed.

(** The bound actually used: not above the bound asked for, or zero. *)
Lemma used_bound req id ab : eb_exponential_quantize X 4 (eps_double X) req = Some (id, ab) ->
  exists a, ab = Fin a /\ 0 <= a /\ (a = 0 \/ exists r, req = Fin r /\ a <= r).
Proof.
  rewrite same_quant. intros H. destruct req as [eb| | |].
  - apply quantize_exact in H; [|lia|lra]. destruct H as [(_ & _ & ->)|(Ht & _ & a & -> & _ & Ha & Hle & _)].
    + exists 0. split; [reflexivity|]. split; [lra|auto].
    + exists a. split; [reflexivity|]. split; [lra|]. right. exists eb. auto.
  - exfalso. unfold eb_exponential_quantize in H. cbn [dle dlog2 ddiv dtoint dofZ eps_double XA xle xlt xeq orb] in H.
    Local Transparent xdiv. bind_as H z Hz. cbn [xdiv] in Hz. rewrite Rlt_bool_false in Hz by lra. cbn [xlog2] in Hz.
    destruct (Rlt_bool 0 4) in Hz; [|destruct (Rlt_bool 4 0) in Hz; discriminate].
    cbn [xdiv] in Hz. destruct (Rlt_bool _ _) in Hz; discriminate.
  - unfold eb_exponential_quantize in H. cbn in H. apply Some_inj in H. injection H as _ ->. exists 0. split; [reflexivity|]. split; [lra|auto].
  - exfalso. unfold eb_exponential_quantize in H. cbn [dle dlog2 ddiv dtoint dofZ eps_double XA xle xlt xeq orb] in H.
    bind_as H z Hz. cbn [xdiv xlog2] in Hz. discriminate.
Qed.
Local Opaque xdiv.

Lemma sz3_step max_eb r1 r2 U V U' V' v c :
  (0 <= v_i v < r1)%Z -> (0 <= v_j v < r2)%Z -> v_p v = (v_i v * r2 + v_j v)%Z -> allfin U -> allfin V ->
  sz3_point X wrap (Fin max_eb) r1 r2 (U, V) v = Some ((U', V'), c) ->
  allfin U' /\ allfin V' /\ zeros (c_q c) = length (c_unp c) /\
  forall a b d, cell r1 r2 a b d -> cell_kept (cell_vecs r2 U V a b d) (cell_vecs r2 U' V' a b d).
Proof.
  intros Hi Hj Ep FU FV H. apply sz3_point_inv in H.
  destruct H as [req id ab u w pu pw qu qw u' w' nu nw Er Eq Eu Ew Epu Epw Equ Eqw SU SV].
  pose proof (atR_fin _ _ _ FU Eu) as Fu. pose proof (atR_fin _ _ _ FV Ew) as Fw. subst u w.
  destruct (predict_fin _ _ _ _ _ FU Epu) as [p0 ->]. destruct (predict_fin _ _ _ _ _ FV Epw) as [p1 ->].
  destruct (used_bound _ _ _ Eq) as (a & -> & Ha & Hr).
  apply quantized_inv in Equ. apply quantized_inv in Eqw. change (d2t X (Fin a)) with (Fin a) in *.
  destruct (component _ _ _ _ _ _ Ha Equ) as (d0 & -> & D0 & Z0). destruct (component _ _ _ _ _ _ Ha Eqw) as (d1 & -> & D1 & Z1).
  rewrite Ep in *. set (i := v_i v) in *. set (j := v_j v) in *.
  split; [eapply allfin_aset; [exact FU|exact SU]|]. split; [eapply allfin_aset; [exact FV|exact SV]|]. split.
  { cbn [c_q c_unp]. rewrite app_length. change [qu; qw] with ([qu] ++ [qw]). rewrite zeros_app. lia. }
  destruct (aset_Some _ _ _ _ SU) as (_ & _ & GU). destruct (aset_Some _ _ _ _ SV) as (_ & _ & GV).
  assert (A0 : atR U' (i * r2 + j) = d0) by (unfold atR; rewrite GU, Z.eqb_refl; reflexivity).
  assert (A1 : atR V' (i * r2 + j) = d1) by (unfold atR; rewrite GV, Z.eqb_refl; reflexivity).
  apply step_kept with (i := i) (j := j); auto.
  { intros k Hk. rewrite GU. replace (k =? i * r2 + j)%Z with false by lia. auto. }
  { intros k Hk. rewrite GV. replace (k =? i * r2 + j)%Z with false by lia. auto. }
  intros k Hk HM.
  set (wa := vec r2 U V (nbr i j k 0)). set (wb := vec r2 U V (nbr i j k 1)). set (wc := vec r2 U V (i, j)). set (wd := vec r2 U' V' (i, j)).
  assert (Wc : wc = (atR U (i * r2 + j), atR V (i * r2 + j))) by reflexivity.
  assert (Wd : wd = (d0, d1)) by (unfold wd, vec, lin; cbn [fst snd]; rewrite A0, A1; reflexivity).
  set (e := Rmax (Rabs (d0 - atR U (i * r2 + j))) (Rabs (d1 - atR V (i * r2 + j)))).
  assert (He0 : 0 <= e) by (unfold e; eapply Rle_trans; [apply Rabs_pos|apply Rmax_l]).
  assert (Hea : e <= a) by (apply Rmax_lub; auto).
  assert (L0 : Rabs (d0 - atR U (i * r2 + j)) <= e) by apply Rmax_l.
  assert (L1 : Rabs (d1 - atR V (i * r2 + j)) <= e) by apply Rmax_r.
  destruct (Req_dec e 0) as [Ez|Nz].
  { assert (wd = wc).
    { rewrite Wc, Wd. rewrite Ez in L0, L1. assert (G : forall x y, Rabs (x - y) <= 0 -> x = y).
      { intros x y Hxy. apply Rminus_diag_uniq. destruct (Req_dec (x - y) 0) as [|N]; [auto|]. pose proof (Rabs_pos_lt _ N). lra. }
      rewrite (G _ _ L0), (G _ _ L1). reflexivity. }
    rewrite H. split; [auto|]. intros N C. apply N, crosses_cp, C. }
  destruct Hr as [->|(r & -> & Hr)]; [lra|].
  assert (BK : forall t, 0 <= t < 1 -> ~ has_cp wa wb wc /\ ~ has_cp wa wb (fst wc + t * (fst wd - fst wc), snd wc + t * (snd wd - snd wc))).
  { intros t Ht. rewrite same_derive in Er. unfold derive_eb_abs in Er.
    assert (HB : below (t * e) (Fin r)) by (apply below_fin; nra).
    change (level_eb X (Fin max_eb) (v_half v)) with (level_eb XA (Fin max_eb) (v_half v)) in Er.
    apply (req_loop_below _ _ _ _ _ _ _ (t * e)) in Er; auto.
    2:{ intros k0 v0 Hk0 _ Hv; apply in_six in Hk0; apply (tri_values_vec _ _ _ _ _ _ _ Hk0 FU FV) in Hv; cbn zeta in Hv;
        rewrite Hv; apply derive_abs_sound. }
    2:{ unfold level_eb. destruct (v_half v); [|discriminate]. cbn [dmul ddiv dofZ XA]. rewrite xdiv_fin by lra. discriminate. }
    destruct Er as [_ HK]. destruct (HK k (proj2 (in_six k) Hk) HM) as (vals & Hv & Bk).
    apply (tri_values_vec _ _ _ _ _ _ _ Hk FU FV) in Hv. cbn zeta in Hv. rewrite Hv in Bk. clear Hv. fold wa wb wc in Bk.
    destruct (derive_abs_sound (fst wa) (fst wb) (fst wc) (snd wa) (snd wb) (snd wc)) as [_ HS].
    set (wt := (fst wc + t * (fst wd - fst wc), snd wc + t * (snd wd - snd wc))).
    assert (S0 : Rabs (fst wt - fst wc) <= t * e).
    { unfold wt. cbn [fst snd]. replace (fst wc + t * (fst wd - fst wc) - fst wc) with (t * (fst wd - fst wc)) by ring.
      rewrite Rabs_mult, (Rabs_pos_eq t) by lra. apply Rmult_le_compat_l; [lra|]. rewrite Wc, Wd. exact L0. }
    assert (S1 : Rabs (snd wt - snd wc) <= t * e).
    { unfold wt. cbn [fst snd]. replace (snd wc + t * (snd wd - snd wc) - snd wc) with (t * (snd wd - snd wc)) by ring.
      rewrite Rabs_mult, (Rabs_pos_eq t) by lra. apply Rmult_le_compat_l; [lra|]. rewrite Wc, Wd. exact L1. }
    assert (Pt : 0 <= t * e) by nra.
    destruct (HS (t * e) wt Pt Bk S0 S1) as [N1 N2].
    rewrite <- !surjective_pairing in N1. rewrite <- !surjective_pairing in N2. split; [exact N1|exact N2]. }
  split.
  - intros Y. exfalso. assert (Z : 0 <= 0 < 1) by lra. exact (proj1 (BK 0 Z) Y).
  - intros _. apply (crosses_before wa wb wc wd). intros t Ht. apply BK. auto.
Qed.

Lemma sz3_run max_eb r1 r2 : forall vs U V U' V' c,
  (forall v, In v vs -> (0 <= v_i v < r1)%Z /\ (0 <= v_j v < r2)%Z /\ v_p v = (v_i v * r2 + v_j v)%Z) -> allfin U -> allfin V ->
  scan_enc (sz3_point X wrap (Fin max_eb) r1 r2) vs (U, V) = Some ((U', V'), c) ->
  allfin U' /\ allfin V' /\ zeros (c_q c) = length (c_unp c) /\
  forall a b d, cell r1 r2 a b d -> cell_kept (cell_vecs r2 U V a b d) (cell_vecs r2 U' V' a b d).
Proof.
  induction vs as [|v vs IH]; intros U V U' V' c Hv FU FV H; cbn [scan_enc] in H.
  - apply Some_inj in H. injection H as -> -> ->. split; [auto|split; [auto|split; [reflexivity|intros; apply cell_kept_refl]]].
  - bind_as H [[U1 V1] c1] E1. bind_as H [[U2 V2] c2] E2. apply Some_inj in H. injection H as -> -> ->.
    destruct (Hv v (or_introl eq_refl)) as (C1 & C2 & C3).
    destruct (sz3_step _ _ _ _ _ _ _ _ _ C1 C2 C3 FU FV E1) as (F1 & F2 & Z1 & K1).
    destruct (IH _ _ _ _ _ (fun v0 H0 => Hv v0 (or_intror H0)) F1 F2 E2) as (F3 & F4 & Z2 & K2).
    split; [auto|split; [auto|split]].
    + exact (eq_trans (zeros_app _ _) (eq_trans (f_equal2 Nat.add Z1 Z2) (eq_sym (app_length _ _)))).
    + intros a b d HC. eapply cell_kept_trans; eauto.
Qed.

(** The whole field, from the reals given to the reals decoded. *)
Theorem sz3_preserves max_eb r1 r2 u v U' V' c :
  (1 <= r1)%Z -> (1 <= r2)%Z -> Z.of_nat (length u) = (r1 * r2)%Z -> Z.of_nat (length v) = (r1 * r2)%Z ->
  enc_sz3 X wrap (Fin max_eb) r1 r2 (map Fin u) (map Fin v) = Some ((U', V'), c) ->
  exists u' v', decode_sz3 X wrap 4 (eps_double X) intv_radius r1 r2 c = Some (map Fin u', map Fin v') /\
  forall a b d, cell r1 r2 a b d ->
    (has_cp (vecR r2 u v a) (vecR r2 u v b) (vecR r2 u v d) -> forall x, In x [a; b; d] -> vecR r2 u' v' x = vecR r2 u v x) /\
    (~ has_cp (vecR r2 u v a) (vecR r2 u v b) (vecR r2 u v d) -> ~ crosses (vecR r2 u' v' a) (vecR r2 u' v' b) (vecR r2 u' v' d)).
Proof.
  intros H1 H2 Lu Lv H. exists (map toR U'), (map toR V'). pose proof H as H'. unfold enc_sz3 in H.
  destruct (sz3_run max_eb r1 r2 _ _ _ _ _ _ (visits_coord r1 r2 H1 H2) (allfin_map u) (allfin_map v) H) as (F1 & F2 & Z & HC).
  rewrite <- (allfin_inv U' F1), <- (allfin_inv V' F2).
  split.
  { apply (sz3_field_sync X) with (max_eb := Fin max_eb) (U := map Fin u) (V := map Fin v); auto; try (rewrite map_length; auto; fail).
    cbn [XO teq d2t t0 d0 dofZ tofZ]. apply xeq_fin. reflexivity. }
  intros a b d Hc. specialize (HC a b d Hc). unfold cell_kept, cell_vecs in HC.
  rewrite (allfin_inv U' F1), (allfin_inv V' F2) in HC.
  assert (G : forall x y z, In z [a; b; d] -> vec r2 (map Fin x) (map Fin y) z = vecR r2 x y z)
    by (intros; eapply vec_map; eauto).
  rewrite !G in HC by (cbn; auto). destruct HC as [HC1 HC2]. split; [|exact HC2].
  intros Y x Hx. specialize (HC1 Y). injection HC1 as E1 E2 E3 E4 E5 E6.
  unfold vecR. destruct Hx as [<-|[<-|[<-|[]]]]; f_equal; auto.
Qed.
End Exact.
