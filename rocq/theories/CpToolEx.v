(** Functions with the properties assumed of ftk in CpToolSem, and runs with critical points. *)
From Coq Require Import Reals Lra Lia ZArith List Bool Permutation.
From Coq Require Import ZifyBool ZifyNat.
From Flocq Require Import Core.Core.
From Verif Require Import Base Arith Mesh2D Derive2D Codec2D Sync2D Trace2D Exact Total2D Cells2D Geo2D Preserve2D Type2D LogCells2D
  Mesh3D Derive3D Sync3D Cells3D Geo3D Preserve3D Sz3 Sz3Api CpTool CpToolProps CpToolApi CpToolCodec CpToolSem.
Import ListNotations.
Local Open Scope R_scope.

(** *** Two dimensions *)
(** Finds a zero at the centre of a triangle. *)
Definition mid2 (t : tri2 XA) : option (XR * XR * XR) :=
  let '(a, b, c) := t in
  if Req_EM_T (toR (fst a) + toR (fst b) + toR (fst c)) 0 then
    if Req_EM_T (toR (snd a) + toR (snd b) + toR (snd c)) 0 then Some (Fin (/ 3), Fin (/ 3), Fin (/ 3)) else None
  else None.
Lemma mid2_weights : weights2 mid2.
Proof.
  intros [x1 x2] [y1 y2] [z1 z2] m. unfold mid2, xv2. cbn [fst snd toR]. destruct (Req_EM_T _ 0) as [E|]; [|discriminate]. destruct (Req_EM_T _ 0) as [E'|]; [|discriminate].
  intros H. injection H as <-. exists (/ 3), (/ 3), (/ 3). split; [reflexivity|]. repeat split; lra.
Qed.
Definition wsum (t : tri2 XA) (l : XR * XR * XR) : XR * XR :=
  let '(a, b, c) := t in let '(l0, l1, l2) := l in
  (Fin (toR l0 * toR (fst a) + toR l1 * toR (fst b) + toR l2 * toR (fst c)), Fin (toR l0 * toR (snd a) + toR l1 * toR (snd b) + toR l2 * toR (snd c))).
Lemma wsum_lerps : lerps2 wsum.
Proof. intros p q s l0 l1 l2. reflexivity. Qed.
(** The Jacobian by Cramer's rule and its eigenvalues. *)
Definition eig_ex (p w : tri2 XA) : XR * XR * XR :=
  let '(p0, p1, p2) := p in let '(w0, w1, w2) := w in
  let x1 := toR (fst p1) - toR (fst p0) in let x2 := toR (fst p2) - toR (fst p0) in
  let y1 := toR (snd p1) - toR (snd p0) in let y2 := toR (snd p2) - toR (snd p0) in
  let dt := x1 * y2 - x2 * y1 in
  let f g := ((toR (g w1) - toR (g w0)) * y2 - (toR (g w2) - toR (g w0)) * y1) / dt in
  let h g := ((toR (g w2) - toR (g w0)) * x1 - (toR (g w1) - toR (g w0)) * x2) / dt in
  let tr := f fst + h snd in let de := f fst * h snd - h fst * f snd in let q := tr * tr - 4 * de in
  if Rlt_dec q 0 then (Fin q, Fin (tr / 2), Fin (tr / 2)) else (Fin q, Fin ((tr + 1 * sqrt q) / 2), Fin ((tr - 1 * sqrt q) / 2)).
Lemma eig_ex_ok : eigen2 1 eig_ex.
Proof.
  split; [lra|]. intros p0 p1 p2 w0 w1 w2 J HD HJ. destruct (HJ p1 w1) as [A1 A2]; [cbn; auto|]. destruct (HJ p2 w2) as [B1 B2]; [cbn; auto|]. clear HJ.
  unfold eig_ex, xv2. cbn [fst snd toR]. set (dt := _ - _) in HD |- *.
  rewrite A1, A2, B1, B2. set (x1 := fst p1 - fst p0) in *. set (x2 := fst p2 - fst p0) in *. set (y1 := snd p1 - snd p0) in *. set (y2 := snd p2 - snd p0) in *.
  assert (C1 : ((ux J * x1 + uy J * y1) * y2 - (ux J * x2 + uy J * y2) * y1) / dt = ux J) by (unfold dt in *; field; exact HD).
  assert (C2 : ((ux J * x2 + uy J * y2) * x1 - (ux J * x1 + uy J * y1) * x2) / dt = uy J) by (unfold dt in *; field; exact HD).
  assert (C3 : ((vx J * x1 + vy J * y1) * y2 - (vx J * x2 + vy J * y2) * y1) / dt = vx J) by (unfold dt in *; field; exact HD).
  assert (C4 : ((vx J * x2 + vy J * y2) * x1 - (vx J * x1 + vy J * y1) * x2) / dt = vy J) by (unfold dt in *; field; exact HD).
  rewrite C1, C2, C3, C4. fold (jtr J). change (ux J * vy J - uy J * vx J) with (jdet J). fold (jdisc J).
  destruct (Rlt_dec (jdisc J) 0) as [L|L]; do 2 eexists; (split; [reflexivity|]); split; intros; try lra; auto.
Qed.

(** 4 x 4, u = column - 4/3, v = row - 5/3: a source at the centre of a triangle. *)
Definition u4 : list R := concat (repeat [- (4 / 3); - (1 / 3); 2 / 3; 5 / 3] 4).
Definition v4 : list R := repeat (- (5 / 3)) 4 ++ repeat (- (2 / 3)) 4 ++ repeat (1 / 3) 4 ++ repeat (4 / 3) 4.
Lemma run_source : exists r e, tool2 XA mid2 wsum eig_ex (map Fin u4) (map Fin v4) (map Fin u4) (map Fin v4) 4 4 = Some r /\ In e (r_origin r) /\
  e_type e = 2%Z /\ e_pos e = (Fin (4 / 3), Fin (5 / 3)).
Proof.
  destruct (tool2_total XA mid2 wsum eig_ex (map Fin u4) (map Fin v4) (map Fin u4) (map Fin v4) 4 4) as (r & Hr); try reflexivity; try lia.
  exists r. destruct (tool2_lists XA mid2 wsum eig_ex _ _ _ _ _ _ _ (2 * (1 * (4 - 1) + 1))%Z Hr) as [HL _].
  assert (HE : examined2 4 4 (1, 1)%Z (2, 1)%Z (2, 2)%Z (2 * (1 * (4 - 1) + 1))%Z) by (apply (examined_lower 4 4 1 1); lia).
  destruct HL as [_ HL]. destruct HL as (e & He & Hid).
  { exists (1, 1)%Z, (2, 1)%Z, (2, 2)%Z. split; [exact HE|]. unfold detects2. do 3 eexists. do 3 (split; [reflexivity|]). unfold zero2. cbn [t2d XA fst snd deq dofZ].
    assert (Z : forall x y : XR, forall a, y = Fin a -> a <> 0 -> (xeq x (Fin 0) && xeq y (Fin 0))%bool = false).
    { intros x y a -> Ha. rewrite (proj2 (xeq_fin_false a 0) Ha). apply andb_false_r. }
    split; [eapply Z; [reflexivity|lra]|]. split; [eapply Z; [reflexivity|lra]|]. split; [eapply Z; [reflexivity|lra]|].
    unfold mid2. cbn [fst snd toR]. destruct (Req_EM_T _ 0) as [E|E]; [|exfalso; apply E; lra]. destruct (Req_EM_T _ 0) as [E'|E']; [discriminate|exfalso; apply E'; lra]. }
  exists e. split; [exact Hr|]. split; [exact He|].
  destruct (proj1 (tool2_entries 1 _ _ _ _ _ _ _ _ _ _ mid2_weights wsum_lerps eig_ex_ok Hr) e He) as (a & b & d & HX & (l0 & l1 & l2 & (P0 & P1 & P2 & P3 & P4 & P5) & Hp) & HT).
  rewrite Hid in HX. pose proof (examined2_unique _ _ _ _ _ _ _ _ _ HX HE) as Q. injection Q as -> -> ->.
  assert (W1 : vecR 4 u4 v4 (1, 1)%Z = (- (1 / 3), - (2 / 3))) by reflexivity. assert (W2 : vecR 4 u4 v4 (2, 1)%Z = (- (1 / 3), 1 / 3)) by reflexivity.
  assert (W3 : vecR 4 u4 v4 (2, 2)%Z = (2 / 3, 1 / 3)) by reflexivity. split.
  - set (J := {| ux := 1; uy := 0; vx := 0; vy := 1 |}). assert (H : has_type J (e_type e)).
    { apply HT; [|unfold jdet, J; cbn; lra]. exists (- (4 / 3)), (- (5 / 3)). intros p [<-|[<-|[<-|[]]]]; rewrite ?W1, ?W2, ?W3; unfold J; cbn [fst snd ux uy vx vy]; split; lra. }
    unfold has_type, jdet, jtr, jdisc, jtr, jdet, J in H. cbn [ux uy vx vy] in H.
    destruct H as [[_ H]|[_ [[_ H]|[[H _]|[[_ H]|[[_ H]|[_ H]]]]]]]; auto; exfalso; lra.
  - rewrite Hp. rewrite W1, W2, W3 in P4, P5. cbn [fst snd] in *. f_equal; f_equal; lra.
Qed.

(** *** Three dimensions *)
Definition mid3 (t : tet3 XA) : option (XR * XR * XR * XR) :=
  let '(a, b, c, d) := t in
  let z f := Req_EM_T (f (rv3 a) + f (rv3 b) + f (rv3 c) + f (rv3 d)) 0 in
  if z cx then if z cy then if z cz then Some (Fin (/ 4), Fin (/ 4), Fin (/ 4), Fin (/ 4)) else None else None else None.
Lemma mid3_weights : weights3 mid3.
Proof.
  intros [[x1 x2] x3] [[y1 y2] y3] [[z1 z2] z3] [[t1 t2] t3] m. unfold mid3, xv3, rv3. cbn [fst snd toR cx cy cz]. do 3 (destruct (Req_EM_T _ 0); [|discriminate]).
  intros H. injection H as <-. exists (/ 4), (/ 4), (/ 4), (/ 4). split; [reflexivity|]. repeat split; lra.
Qed.
Definition wsum3 (t : tet3 XA) (l : XR * XR * XR * XR) : XR * XR * XR :=
  let '(a, b, c, d) := t in let '(l0, l1, l2, l3) := l in
  let f g := Fin (toR l0 * g (rv3 a) + toR l1 * g (rv3 b) + toR l2 * g (rv3 c) + toR l3 * g (rv3 d)) in (f cx, f cy, f cz).
Lemma wsum3_lerps : lerps3 wsum3.
Proof. intros [[? ?] ?] [[? ?] ?] [[? ?] ?] [[? ?] ?] l0 l1 l2 l3. reflexivity. Qed.

(** A real root of a cubic. *)
Definition cubic (t m d z : R) : R := z * z * z - t * (z * z) + m * z - d.
Definition cbound (t m d : R) : R := 1 + Rabs t + Rabs m + Rabs d.
Lemma cubic_hi t m d : 0 < cubic t m d (cbound t m d) /\ cubic t m d (- cbound t m d) < 0 /\ - cbound t m d <= cbound t m d.
Proof.
  pose proof (Rabs_pos t). pose proof (Rabs_pos m). pose proof (Rabs_pos d).
  pose proof (Rle_abs t). pose proof (Rle_abs m). pose proof (Rle_abs d). pose proof (Rle_abs (- t)). pose proof (Rle_abs (- m)). pose proof (Rle_abs (- d)). rewrite Rabs_Ropp in *.
  unfold cubic, cbound. set (B := 1 + Rabs t + Rabs m + Rabs d). assert (HB : 1 <= B) by (unfold B; lra). assert (HB2 : B <= B * B) by nra.
  assert (K : B * B * B = B * B + Rabs t * (B * B) + Rabs m * (B * B) + Rabs d * (B * B)) by (unfold B; ring).
  assert (M1 : Rabs m * B <= Rabs m * (B * B)) by (apply Rmult_le_compat_l; lra). assert (M2 : Rabs d <= Rabs d * (B * B)) by nra.
  assert (T1 : t * (B * B) <= Rabs t * (B * B)) by (apply Rmult_le_compat_r; nra). assert (T2 : - t * (B * B) <= Rabs t * (B * B)) by (apply Rmult_le_compat_r; nra).
  assert (N1 : m * B <= Rabs m * B) by (apply Rmult_le_compat_r; lra). assert (N2 : - m * B <= Rabs m * B) by (apply Rmult_le_compat_r; lra).
  split; [|split]; [nra|nra|lra].
Qed.
Lemma cubic_root t m d : {z : R | cubic t m d z = 0}.
Proof.
  destruct (IVT_cor (cubic t m d) (- cbound t m d) (cbound t m d)) as (z & _ & Hz); [|apply cubic_hi| |exists z; exact Hz].
  - unfold cubic. reg.
  - destruct (cubic_hi t m d) as (H1 & H2 & _). nra.
Qed.
(** The other two: z^2 - p z + q. *)
Definition root1 (t m d : R) : R := proj1_sig (cubic_root t m d).
Definition quad (t m d : R) : R * R := let z := root1 t m d in (t - z, m - z * (t - z)).
Definition dsc_ex (t m d : R) : R := let '(p, q) := quad t m d in - (p * p - 4 * q).
Definition roots_ex_of (t m d : R) : R * (R * R * R) :=
  let '(p, q) := quad t m d in let dl := dsc_ex t m d in
  (dl, if Rlt_bool 0 dl then (root1 t m d, p / 2, p / 2) else (root1 t m d, (p + sqrt (- dl)) / 2, (p - sqrt (- dl)) / 2)).
Lemma roots_ex_ok t m d : exists x y z, roots_ex_of t m d = (dsc_ex t m d, (x, y, z)) /\ has_roots t m d (Rlt_bool 0 (dsc_ex t m d)) [x; y; z].
Proof.
  unfold roots_ex_of. destruct (quad t m d) as [p q] eqn:EQ. assert (HD : dsc_ex t m d = 4 * q - p * p) by (unfold dsc_ex; rewrite EQ; ring).
  unfold quad in EQ. set (z := root1 t m d) in *. assert (Hz : cubic t m d z = 0) by (exact (proj2_sig (cubic_root t m d))). unfold cubic in Hz.
  injection EQ as Hp Hq. assert (Et : t = z + p) by lra. assert (Em : m = z * p + q) by (subst p q; ring). assert (Ed : d = z * q) by (subst p q; nra). clear Hp Hq Hz. clearbody z.
  destruct (Rlt_bool_spec 0 (dsc_ex t m d)) as [L|L]; do 3 eexists; (split; [reflexivity|]); unfold has_roots.
  - exists z, (p / 2), (sqrt (dsc_ex t m d) / 2). split; [|apply Permutation_refl]. pose proof (sqrt_lt_R0 _ L). pose proof (sqrt_sqrt _ (Rlt_le _ _ L)) as S.
    assert (S' : sqrt (dsc_ex t m d) / 2 * (sqrt (dsc_ex t m d) / 2) = q - p * p / 4) by nra. rewrite S'. repeat split; try lra; nra.
  - exists z, ((p + sqrt (- dsc_ex t m d)) / 2), ((p - sqrt (- dsc_ex t m d)) / 2). split; [|apply Permutation_refl].
    assert (L' : 0 <= - dsc_ex t m d) by lra. pose proof (sqrt_sqrt _ L') as S. set (g := sqrt (- dsc_ex t m d)) in *. clearbody g. rewrite HD in S.
    assert (S' : (p + g) / 2 * ((p - g) / 2) = q) by nra. repeat split; try lra; nra.
Qed.
(** X^-1 U by Cramer's rule. *)
Definition adj3 (x : M3) : M3 :=
  let '((a, b, c), (d, e, f), (g, h, i)) := x in
  ((e * i - f * h, c * h - b * i, b * f - c * e), (f * g - d * i, a * i - c * g, c * d - a * f), (d * h - e * g, b * g - a * h, a * e - b * d)).
Definition scale3 (s : R) (x : M3) : M3 :=
  let f r := (s * cx r, s * cy r, s * cz r) in (f (row x 0), f (row x 1), f (row x 2)).
Lemma adj_mul x k : det3 x <> 0 -> scale3 (/ det3 x) (mul3 (adj3 x) (mul3 x k)) = k.
Proof.
  destruct x as [[[[a b] c] [[d e] f]] [[g h] i]]. destruct k as [[[[k0 k1] k2] [[k3 k4] k5]] [[k6 k7] k8]].
  intros H. unfold scale3. set (s := / det3 _). assert (Hs : s * det3 ((a, b, c), (d, e, f), (g, h, i)) = 1) by (unfold s; rewrite Rinv_l; auto). clearbody s.
  cbv beta iota zeta delta [det3 mul3 adj3 app3 cols row cx cy cz fst snd] in *.
  apply (f_equal2 pair); [apply (f_equal2 pair)|]; (apply (f_equal2 pair); [apply (f_equal2 pair)|]);
  match goal with |- _ = ?k => transitivity (s * (a * (e * i - f * h) - b * (d * i - f * g) + c * (d * h - e * g)) * k); [ring|rewrite Hs; ring] end.
Qed.
Definition roots_ex (p w : tet3 XA) : XR * (XR * XR * XR) :=
  let '(p0, p1, p2, p3) := p in let '(w0, w1, w2, w3) := w in
  let df x y := vsub (rv3 x) (rv3 y) in
  let X := cols (df p0 p3) (df p1 p3) (df p2 p3) in
  let K := scale3 (/ det3 X) (mul3 (adj3 X) (cols (df w0 w3) (df w1 w3) (df w2 w3))) in
  let '(dl, (x, y, z)) := roots_ex_of (tr3 K) (min3 K) (det3 K) in (Fin dl, (Fin x, Fin y, Fin z)).
Lemma rv3_xv3 x : rv3 (xv3 x) = x.
Proof. destruct x as [[? ?] ?]. reflexivity. Qed.
Lemma roots_ex_spec : roots_ok dsc_ex roots_ex.
Proof.
  intros p q s t a b c d K HD HK. unfold roots_ex. rewrite !rv3_xv3. rewrite <- HK, (adj_mul _ _ HD).
  destruct (roots_ex_ok (tr3 K) (min3 K) (det3 K)) as (x & y & z & -> & H). exists x, y, z. auto.
Qed.

(** 2 x 2 x 2, a zero at the centre of the first tetrahedron. *)
Definition u8 : list R := concat (repeat [- (1 / 4); 3 / 4] 4).
Definition v8 : list R := concat (repeat [- 1; - 1; 1; 1] 2).
Definition w8 : list R := repeat (- (9 / 4)) 4 ++ repeat (3 / 4) 4.
Lemma run_source3 : exists r e, tool3 XA mid3 wsum3 roots_ex (map Fin u8) (map Fin v8) (map Fin w8) (map Fin u8) (map Fin v8) (map Fin w8) 2 2 2 = Some r /\ In e (r_origin r) /\
  e_pos e = (Fin (1 / 4), Fin (1 / 2), Fin (3 / 4)).
Proof.
  destruct (tool3_total XA mid3 wsum3 roots_ex (map Fin u8) (map Fin v8) (map Fin w8) (map Fin u8) (map Fin v8) (map Fin w8) 2 2 2) as (r & Hr); try reflexivity; try lia.
  assert (HS : (6 * (2 * 2 * 2) <= 2 ^ 31)%Z) by lia. exists r. destruct (tool3_false XA mid3 wsum3 roots_ex _ _ _ _ _ _ _ _ _ _ HS Hr) as (_ & _ & HL & _).
  assert (HE : examined3 2 2 2 (0, 0, 0)%Z (1, 0, 0)%Z (1, 1, 0)%Z (1, 1, 1)%Z 0) by (exists (0, 0, 0)%Z, 0%nat; repeat split; cbn; lia).
  assert (W1 : vecR3 2 2 u8 v8 w8 (0, 0, 0)%Z = (- (1 / 4), - 1, - (9 / 4))) by reflexivity.
  assert (W2 : vecR3 2 2 u8 v8 w8 (1, 0, 0)%Z = (- (1 / 4), - 1, 3 / 4)) by reflexivity.
  assert (W3 : vecR3 2 2 u8 v8 w8 (1, 1, 0)%Z = (- (1 / 4), 1, 3 / 4)) by reflexivity.
  assert (W4 : vecR3 2 2 u8 v8 w8 (1, 1, 1)%Z = (3 / 4, 1, 3 / 4)) by reflexivity.
  destruct (HL _ _ _ _ _ HE) as (e & He & Hid).
  { unfold detects3. do 4 eexists. do 4 (split; [reflexivity|]). unfold zero3. cbn [t2d XA fst snd deq dofZ].
    assert (Z : forall x y z : XR, forall a, z = Fin a -> a <> 0 -> (xeq x (Fin 0) && xeq y (Fin 0) && xeq z (Fin 0))%bool = false).
    { intros x y z a -> Ha. rewrite (proj2 (xeq_fin_false a 0) Ha). apply andb_false_r. }
    do 4 (split; [eapply Z; [reflexivity|lra]|]).
    unfold mid3, rv3. cbn [fst snd toR cx cy cz]. do 3 (destruct (Req_EM_T _ 0) as [E|E]; [clear E|exfalso; apply E; lra]). discriminate. }
  exists e. split; [exact Hr|]. split; [exact He|].
  destruct (proj1 (tool3_entries _ _ _ _ _ _ _ _ _ _ _ _ _ _ mid3_weights wsum3_lerps roots_ex_spec HS Hr) e He)
    as (a & b & c & d & HX & (l0 & l1 & l2 & l3 & (P0 & P1 & P2 & P3 & P4 & P5 & P6 & P7) & Hp) & _).
  rewrite Hid in HX. pose proof (examined3_unique _ _ _ _ _ _ _ _ _ _ _ _ HX HE) as Q. injection Q as -> -> -> ->.
  rewrite Hp. rewrite W1, W2, W3, W4 in P5, P6, P7. unfold pos3. cbn [fst snd cx cy cz] in *. f_equal; [f_equal|]; f_equal; lra.
Qed.

(** The hypotheses of [tool2_relative]. *)
Lemma run_rel : exact2 test2 /\ eigen2 1 eig_ex /\ exists r, enc_online XA (Fin 1) 4 4 (map Fin u4) (map Fin v4) = Some r.
Proof.
  split; [exact test2_exact|]. split; [exact eig_ex_ok|]. assert (B : 2 <= big) by (apply (bpow_le radix2 1); lia).
  assert (HF : forall x, In x u4 \/ In x v4 -> Rabs x <= big).
  { intros x Hx. apply Rle_trans with 2; [|exact B]. apply Rabs_le. cbn in Hx. repeat match goal with H : _ \/ _ |- _ => destruct H end; subst; try tauto; lra. }
  apply rel_total; try reflexivity; try lia; [lra| |]; apply Forall_forall; intros x Hx; apply HF; auto.
Qed.
