(** What the cell test of the bilinear codec computes in exact arithmetic: the zeros of the bilinear interpolant and their types.
    Nothing of /repo is modelled here. *)
From Coq Require Import Reals Lra Lia ZArith List Bool.
From Coq Require Import ZifyBool ZifyNat.
From Flocq Require Import Core.Raux.
From Verif Require Import Base Arith Codec2D Sync2D Exact Cells2D Geo2D Preserve2D Log2D LogSync2D Bil2D BilSync2D.
Import ListNotations.
Local Open Scope R_scope.

(** Values at the corners (0,0), (1,0), (1,1), (0,1) of the unit square, and the bilinear interpolant. *)
Definition quad : Type := R * R * R * R.
Definition interp (w : quad) (x y : R) : R :=
  let '(w0, w1, w2, w3) := w in w0 * (1 - x) * (1 - y) + w1 * x * (1 - y) + w2 * x * y + w3 * (1 - x) * y.
(** Its partial derivatives. *)
Definition interp_x (w : quad) (y : R) : R := let '(w0, w1, w2, w3) := w in (w1 - w0) * (1 - y) + (w2 - w3) * y.
Definition interp_y (w : quad) (x : R) : R := let '(w0, w1, w2, w3) := w in (w3 - w0) * (1 - x) + (w2 - w1) * x.

(** The zeros in the half-open unit square, listed without repetition. *)
Definition zero_list (u v : quad) (l : list (R * R)) : Prop :=
  NoDup l /\ forall x y, In (x, y) l <-> 0 <= x < 1 /\ 0 <= y < 1 /\ interp u x y = 0 /\ interp v x y = 0.

(** Type of a zero from the trace and the determinant of the Jacobian: saddle 3, spirals 4 and 5, centre 6, node 2 (source) and 1 (sink),
    0 when the largest eigenvalue is 0. *)
Definition class (tr det : R) : Z :=
  if Rlt_bool det 0 then 3
  else if Rlt_bool (tr * tr - 4 * det) 0 then (if Rlt_bool tr 0 then 4 else if Rlt_bool 0 tr then 5 else 6)
  else if Rlt_bool 0 tr then 2 else if Rlt_bool 0 det then 1 else 0.
Definition zero_type (u v : quad) (p : R * R) : Z :=
  let '(x, y) := p in
  class (interp_x u y + interp_y v x) (interp_x u y * interp_y v x - interp_x v y * interp_y u x).

(** Cells on which both coordinates of a zero are roots of a quadratic with distinct roots. *)
Definition cross (a b c d : R) : R := a * d - b * c.
Definition twist (w : quad) : R := let '(w0, w1, w2, w3) := w in w0 - w1 - w3 + w2.
Definition side_x (w : quad) : R := let '(w0, w1, _, _) := w in w1 - w0.
Definition side_y (w : quad) : R := let '(w0, _, _, w3) := w in w3 - w0.
Definition at0 (w : quad) : R := let '(w0, _, _, _) := w in w0.
(** Trace and determinant of the pencil. *)
Definition pen_d (u v : quad) : R := cross (twist u) (side_y u) (twist v) (side_y v).
Definition pen_t (u v : quad) : R :=
  (- cross (side_x u) (side_y u) (side_x v) (side_y v) - cross (twist u) (at0 u) (twist v) (at0 v)) / pen_d u v.
Definition pen_p (u v : quad) : R := cross (side_x u) (at0 u) (side_x v) (at0 v) / pen_d u v.
Definition solvable (u v : quad) : Prop := pen_d u v <> 0 /\ cross (twist u) (side_x u) (twist v) (side_x v) <> 0.
Definition regular (u v : quad) : Prop := solvable u v /\ pen_t u v * pen_t u v / 4 - pen_p u v <> 0.

(** The principal square root of a negative real number has real part 0. *)
Definition csqrt0 (x : XR) : XR := Fin 0.

Lemma cp_type_exact a b c d : cp_type XA csqrt0 (Fin a) (Fin b) (Fin c) (Fin d) = class (a + d) (a * d - c * b).
Proof.
  unfold cp_type, class. cbn [dneg dadd dsub dmul dofZ dsqrt dle dlt XA xneg xadd xsub xmul].
  replace (- (a + d) * - (a + d) - 4 * 1 * (a * d - c * b)) with ((a + d) * (a + d) - 4 * (a * d - c * b)) by ring.
  set (t := a + d). set (p := a * d - c * b). set (dl := t * t - 4 * p).
  destruct (xle (Fin 0) (Fin dl)) eqn:E.
  - apply xle_fin in E. cbn [xsqrt]. rewrite (Rlt_bool_false dl 0) by auto. cbn [ddiv XA].
    pose proof (sqrt_sqrt dl E) as HS. pose proof (sqrt_pos dl) as HP. set (s := sqrt dl) in *.
    cbn [xadd xsub xneg]. rewrite !xdiv_fin by lra. cbn [xmul].
    replace ((- - t + s) / (2 * 1) * ((- - t - s) / (2 * 1))) with p by (unfold dl in HS; nra).
    replace ((- - t + s) / (2 * 1)) with ((t + s) / 2) by lra.
    destruct (Rlt_bool_spec p 0) as [Hp|Hp].
    + replace (xlt (Fin p) (Fin 0)) with true by (symmetry; apply xlt_fin; auto). reflexivity.
    + replace (xlt (Fin p) (Fin 0)) with false by (symmetry; apply xlt_fin_false; auto).
      destruct (Rlt_bool_spec 0 t) as [Ht|Ht].
      * replace (xlt (Fin ((t + s) / 2)) (Fin 0)) with false by (symmetry; apply xlt_fin_false; lra).
        replace (xlt (Fin 0) (Fin ((t + s) / 2))) with true by (symmetry; apply xlt_fin; lra). reflexivity.
      * destruct (Rlt_bool_spec 0 p) as [Hq|Hq].
        -- assert (s < - t) by (unfold dl in HS; nra).
           replace (xlt (Fin ((t + s) / 2)) (Fin 0)) with true by (symmetry; apply xlt_fin; lra). reflexivity.
        -- assert (p = 0) by lra. assert (HT : s = - t) by (unfold dl in HS; nra).
           replace (xlt (Fin ((t + s) / 2)) (Fin 0)) with false by (symmetry; apply xlt_fin_false; lra).
           replace (xlt (Fin 0) (Fin ((t + s) / 2))) with false by (symmetry; apply xlt_fin_false; lra). reflexivity.
  - apply xle_fin_false in E. rewrite (Rlt_bool_true dl 0) by auto.
    rewrite (Rlt_bool_false p 0) by (unfold dl in E; nra). unfold csqrt0. cbn [xadd ddiv XA]. rewrite xdiv_fin by lra.
    replace ((- - t + 0) / (2 * 1)) with (t / 2) by lra.
    destruct (Rlt_bool_spec t 0) as [Ht|Ht].
    + replace (xlt (Fin (t / 2)) (Fin 0)) with true by (symmetry; apply xlt_fin; lra). reflexivity.
    + replace (xlt (Fin (t / 2)) (Fin 0)) with false by (symmetry; apply xlt_fin_false; lra).
      destruct (Rlt_bool_spec 0 t) as [Hp|Hp].
      * replace (xlt (Fin 0) (Fin (t / 2))) with true by (symmetry; apply xlt_fin; lra). reflexivity.
      * replace (xlt (Fin 0) (Fin (t / 2))) with false by (symmetry; apply xlt_fin_false; lra). reflexivity.
Qed.

Definition inside (x y : R) : bool := Rle_bool 0 x && Rlt_bool x 1 && Rle_bool 0 y && Rlt_bool y 1.
Lemma inside_spec x y : inside x y = true <-> 0 <= x < 1 /\ 0 <= y < 1.
Proof.
  unfold inside. destruct (Rle_bool_spec 0 x), (Rlt_bool_spec x 1), (Rle_bool_spec 0 y), (Rlt_bool_spec y 1); cbn; split; intros; try discriminate; try lra; auto.
Qed.

(** The zeros the test looks at. *)
Definition found (u v : quad) : list (R * R) :=
  let t := pen_t u v in let p := pen_p u v in
  if Rlt_bool (t * t / 4 - p) 0 then []
  else let s := sqrt (t * t / 4 - p) in
       filter (fun z => inside (fst z) (snd z))
         (map (fun y => ((y + cross (twist u) (at0 u) (twist v) (at0 v) / pen_d u v) /
                           (- cross (twist u) (side_x u) (twist v) (side_x v) / pen_d u v), y)) [t / 2 + s; t / 2 - s]).

Lemma roots_exact u0 u1 u2 u3 v0 v1 v2 v3 : let u := (u0, u1, u2, u3) in let v := (v0, v1, v2, v3) in
  solvable u v ->
  cell_roots XA csqrt0 (Fin u0) (Fin u1) (Fin u2) (Fin u3) (Fin v0) (Fin v1) (Fin v2) (Fin v3) = map (zero_type u v) (found u v).
Proof.
  intros u v (H1 & H2). unfold cell_roots, roots.
  cbn [dsub dneg dadd dmul ddiv dofZ dlt dsqrt XA xneg xadd xsub xmul].
  set (A0 := u0 - u1 - u3 + u2) in *. set (B0 := u1 - u0) in *. set (C0 := u3 - u0) in *.
  set (A1 := v0 - v1 - v3 + v2) in *. set (B1 := v1 - v0) in *. set (C1 := v3 - v0) in *.
  set (q3 := - cross (twist u) (at0 u) (twist v) (at0 v) / pen_d u v).
  set (q2 := - cross (twist u) (side_x u) (twist v) (side_x v) / pen_d u v).
  assert (Ed : A0 * C1 - A1 * C0 = pen_d u v) by (unfold pen_d, cross, A0, A1, C0, C1; cbn; ring).
  assert (N2 : q2 <> 0) by (unfold q2; apply Rmult_integral_contrapositive_currified; [lra|apply Rinv_neq_0_compat; auto]).
  rewrite Ed, !xdiv_fin by auto. cbn [xmul xadd xsub].
  replace (C1 / pen_d u v * - B0 + - C0 / pen_d u v * - B1) with (pen_t u v - q3)
    by (unfold pen_t, q3, cross, A0, A1, B0, B1, C0, C1; cbn; field; auto).
  replace (- A1 / pen_d u v * - u0 + A0 / pen_d u v * - v0) with q3
    by (unfold q3, cross, A0, A1; cbn; field; auto).
  replace (- A1 / pen_d u v * - B0 + A0 / pen_d u v * - B1) with q2
    by (unfold q2, cross, A0, A1, B0, B1; cbn; field; auto).
  set (q1 := C1 / pen_d u v * - u0 + - C0 / pen_d u v * - v0).
  assert (Ep : (pen_t u v - q3) * q3 - q1 * q2 = pen_p u v).
  { unfold pen_t, pen_p, q3, q2, q1. rewrite <- Ed. assert (A0 * C1 - A1 * C0 <> 0) by congruence. 
    unfold cross. cbn. fold A0 A1 B0 B1 C0 C1. field. auto. }
  rewrite Ep. replace (pen_t u v - q3 + q3) with (pen_t u v) by ring.
  unfold found. set (t := pen_t u v). set (pp := pen_p u v).
  rewrite !xdiv_fin by lra. cbn [xsub].
  destruct (Rlt_bool_spec (t * t / 4 - pp) 0) as [Hn|Hn].
  { replace (xlt (Fin (t * t / 4 - pp)) (Fin 0)) with true by (symmetry; apply xlt_fin; auto). reflexivity. }
  replace (xlt (Fin (t * t / 4 - pp)) (Fin 0)) with false by (symmetry; apply xlt_fin_false; auto).
  cbn [xsqrt]. rewrite (Rlt_bool_false (t * t / 4 - pp) 0) by auto. cbn [xadd xsub].
  set (s := sqrt (t * t / 4 - pp)).
  assert (G : forall y, (let x := xdiv (xsub (Fin y) (Fin q3)) (Fin q2) in
      if dle XA (Fin 0) x && xlt x (Fin 1) && dle XA (Fin 0) (Fin y) && xlt (Fin y) (Fin 1) then
        [cp_type XA csqrt0 (xadd (xmul (Fin A0) (Fin y)) (Fin B0)) (xadd (xmul (Fin A0) x) (Fin C0))
           (xadd (xmul (Fin A1) (Fin y)) (Fin B1)) (xadd (xmul (Fin A1) x) (Fin C1))] else []) =
      map (zero_type u v) (filter (fun z => inside (fst z) (snd z))
        [((y + cross (twist u) (at0 u) (twist v) (at0 v) / pen_d u v) / q2, y)])).
  { intros y. cbn zeta. cbn [xsub]. rewrite xdiv_fin by auto.
    replace (y + cross (twist u) (at0 u) (twist v) (at0 v) / pen_d u v) with (y - q3) by (unfold q3; field; auto).
    set (x := (y - q3) / q2). cbn [filter fst snd]. unfold inside at 1.
    replace (dle XA (Fin 0) (Fin x)) with (Rle_bool 0 x) by reflexivity. replace (xlt (Fin x) (Fin 1)) with (Rlt_bool x 1) by reflexivity.
    replace (dle XA (Fin 0) (Fin y)) with (Rle_bool 0 y) by reflexivity. replace (xlt (Fin y) (Fin 1)) with (Rlt_bool y 1) by reflexivity.
    destruct (Rle_bool 0 x && Rlt_bool x 1 && Rle_bool 0 y && Rlt_bool y 1); [|reflexivity].
    cbn [xmul xadd map]. rewrite cp_type_exact. unfold zero_type. do 2 f_equal; cbn; unfold A0, A1, B0, B1, C0, C1; ring. }
  cbn [flat_map]. rewrite !app_nil_r.
  etransitivity; [exact (f_equal2 (@app Z) (G (t / 2 + s)) (G (t / 2 - s)))|].
  rewrite <- map_app. f_equal. cbn [map filter]. destruct (inside _ _), (inside _ _); reflexivity.
Qed.

(** The roots found are the zeros in the cell; the Jacobian determinant there. *)
Lemma found_spec u v : solvable u v ->
  (forall x y, In (x, y) (found u v) <-> 0 <= x < 1 /\ 0 <= y < 1 /\ interp u x y = 0 /\ interp v x y = 0) /\
  (forall x y, In (x, y) (found u v) ->
     interp_x u y * interp_y v x - interp_x v y * interp_y u x = pen_d u v * (2 * y - pen_t u v)) /\
  let disc := pen_t u v * pen_t u v / 4 - pen_p u v in
  (found u v = [] \/ 0 <= disc /\ exists g : R -> R * R, (forall y, snd (g y) = y) /\
     found u v = filter (fun z => inside (fst z) (snd z)) [g (pen_t u v / 2 + sqrt disc); g (pen_t u v / 2 - sqrt disc)]).
Proof.
  intros (H1 & H2). destruct u as [[[u0 u1] u2] u3], v as [[[v0 v1] v2] v3].
  set (u := (u0, u1, u2, u3)) in *. set (v := (v0, v1, v2, v3)) in *.
  set (A0 := u0 - u1 - u3 + u2). set (B0 := u1 - u0). set (C0 := u3 - u0).
  set (A1 := v0 - v1 - v3 + v2). set (B1 := v1 - v0). set (C1 := v3 - v0).
  set (d := pen_d u v) in *. set (q3 := - cross (twist u) (at0 u) (twist v) (at0 v) / d).
  set (q2 := - cross (twist u) (side_x u) (twist v) (side_x v) / d).
  assert (N2 : q2 <> 0) by (unfold q2; apply Rmult_integral_contrapositive_currified; [lra|apply Rinv_neq_0_compat; auto]).
  set (q1 := (C0 * v0 - C1 * u0) / d). set (q0 := (C0 * B1 - C1 * B0) / d).
  assert (Ed : A0 * C1 - A1 * C0 = d) by (unfold d, pen_d, cross, A0, A1, C0, C1; cbn; ring).
  assert (E3 : q3 * d = A1 * u0 - A0 * v0) by (unfold q3, cross, A0, A1; cbn; field; auto).
  assert (E2 : q2 * d = A1 * B0 - A0 * B1) by (unfold q2, cross, A0, A1, B0, B1; cbn; field; auto).
  assert (E1 : q1 * d = C0 * v0 - C1 * u0) by (unfold q1; field; auto).
  assert (E0 : q0 * d = C0 * B1 - C1 * B0) by (unfold q0; field; auto).
  assert (Et : pen_t u v = q0 + q3) by (unfold pen_t, q0, q3, cross, A0, A1, B0, B1, C0, C1; cbn; fold d; field; auto).
  assert (Ep : pen_p u v = q0 * q3 - q1 * q2).
  { assert (Y : pen_p u v * d = B0 * v0 - u0 * B1) by (unfold pen_p, cross, B0, B1; cbn; fold d; field; auto).
    apply (Rmult_eq_reg_r (d * d)); [|apply Rmult_integral_contrapositive_currified; auto].
    replace (pen_p u v * (d * d)) with (pen_p u v * d * d) by ring.
    replace ((q0 * q3 - q1 * q2) * (d * d)) with ((q0 * d) * (q3 * d) - (q1 * d) * (q2 * d)) by ring.
    rewrite Y, E0, E1, E2, E3, <- Ed. ring. }
  assert (Fu : forall x y, interp u x y = A0 * x * y + B0 * x + C0 * y + u0) by (intros; unfold A0, B0, C0; cbn; ring).
  assert (Fv : forall x y, interp v x y = A1 * x * y + B1 * x + C1 * y + v0) by (intros; unfold A1, B1, C1; cbn; ring).
  (* zeros are eigenvectors *)
  assert (Z : forall x y, (interp u x y = 0 /\ interp v x y = 0) <-> (y = q2 * x + q3 /\ x * y = q0 * x + q1)).
  { intros x y. rewrite Fu, Fv. split.
    - intros [Z1 Z2]. split; apply (Rmult_eq_reg_r d); auto.
      + replace ((q2 * x + q3) * d) with ((q2 * d) * x + q3 * d) by ring. rewrite E2, E3, <- Ed.
        replace (y * (A0 * C1 - A1 * C0)) with (A0 * (A1 * x * y + B1 * x + C1 * y + v0) - A1 * (A0 * x * y + B0 * x + C0 * y + u0)
           + ((A1 * B0 - A0 * B1) * x + (A1 * u0 - A0 * v0))) by ring. rewrite Z1, Z2. ring.
      + replace ((q0 * x + q1) * d) with ((q0 * d) * x + q1 * d) by ring. rewrite E0, E1, <- Ed.
        replace (x * y * (A0 * C1 - A1 * C0)) with (C1 * (A0 * x * y + B0 * x + C0 * y + u0) - C0 * (A1 * x * y + B1 * x + C1 * y + v0)
           + ((C0 * B1 - C1 * B0) * x + (C0 * v0 - C1 * u0))) by ring. rewrite Z1, Z2. ring.
    - intros [Y1 Y2].
      assert (P1 : y * d = (A1 * B0 - A0 * B1) * x + (A1 * u0 - A0 * v0)) by (rewrite Y1 at 1; rewrite <- E2, <- E3; ring).
      assert (P2 : x * y * d = (C0 * B1 - C1 * B0) * x + (C0 * v0 - C1 * u0)) by (rewrite Y2; rewrite <- E0, <- E1; ring).
      split; apply (Rmult_eq_reg_r d); auto.
      + replace ((A0 * x * y + B0 * x + C0 * y + u0) * d) with (A0 * (x * y * d) + C0 * (y * d) + (B0 * x + u0) * d) by ring.
        rewrite P1, P2, <- Ed. ring.
      + replace ((A1 * x * y + B1 * x + C1 * y + v0) * d) with (A1 * (x * y * d) + C1 * (y * d) + (B1 * x + v0) * d) by ring.
        rewrite P1, P2, <- Ed. ring. }
  set (t := pen_t u v) in *. set (pp := pen_p u v) in *.
  (* and y a root of the characteristic polynomial *)
  assert (Q : forall x y, (y = q2 * x + q3 /\ x * y = q0 * x + q1) <-> (y * y - t * y + pp = 0 /\ x = (y - q3) / q2)).
  { intros x y. rewrite Et, Ep. split.
    - intros [Y1 Y2]. assert (Hx : x = (y - q3) / q2) by (rewrite Y1; field; auto). split; auto.
      replace (y * y - (q0 + q3) * y + (q0 * q3 - q1 * q2)) with ((y - q3) * (y - q0) - q1 * q2) by ring.
      replace (y - q3) with (q2 * x) by (rewrite Y1; ring). replace (q2 * x * (y - q0) - q1 * q2) with (q2 * (x * y - (q0 * x + q1))) by ring. rewrite Y2. ring.
    - intros [Y1 Y2]. assert (Hy : y = q2 * x + q3) by (rewrite Y2; field; auto). split; auto.
      apply (Rmult_eq_reg_l q2); auto. replace (q2 * (x * y)) with ((q2 * x) * y) by ring. replace (q2 * x) with (y - q3) by (rewrite Hy at 1; ring).
      replace (q2 * (q0 * x + q1)) with (q0 * (q2 * x) + q1 * q2) by ring. replace (q2 * x) with (y - q3) by (rewrite Hy at 1; ring). lra. }
  unfold found. fold d t pp q2.
  destruct (Rlt_bool_spec (t * t / 4 - pp) 0) as [Hn|Hn].
  - split; [|split; [intros x y []|left; reflexivity]]. intros x y. split; [intros []|]. intros (_ & _ & HZ). apply Z, Q in HZ. destruct HZ as [HZ _].
    exfalso. replace (y * y - t * y + pp) with ((y - t / 2) * (y - t / 2) - (t * t / 4 - pp)) in HZ by field. pose proof (Rle_0_sqr (y - t / 2)). unfold Rsqr in *. lra.
  - set (s := sqrt (t * t / 4 - pp)). assert (Hs : s * s = t * t / 4 - pp) by (apply sqrt_sqrt; auto).
    set (g := fun y => ((y + cross (twist u) (at0 u) (twist v) (at0 v) / d) / q2, y)).
    assert (Eg : forall y, g y = ((y - q3) / q2, y)) by (intros y; unfold g, q3; f_equal; f_equal; field; auto).
    split; [|split].
    + intros x y. rewrite filter_In. cbn [fst snd map]. rewrite inside_spec. cbn [In]. rewrite !Eg. split.
      * intros (HI & HX & HY). split; auto. split; auto. apply Z, Q.
        destruct HI as [HI|[HI|[]]]; apply pair_equal_spec in HI; destruct HI as [<- <-]; split; auto.
        -- replace ((t / 2 + s) * (t / 2 + s) - t * (t / 2 + s) + pp) with (s * s - (t * t / 4 - pp)) by field. lra.
        -- replace ((t / 2 - s) * (t / 2 - s) - t * (t / 2 - s) + pp) with (s * s - (t * t / 4 - pp)) by field. lra.
      * intros (HX & HY & HZ). split; [|auto]. apply Z, Q in HZ. destruct HZ as [HZ ->].
        assert (HF : (y - (t / 2 + s)) * (y - (t / 2 - s)) = 0).
        { replace ((y - (t / 2 + s)) * (y - (t / 2 - s))) with (y * y - t * y + t * t / 4 - s * s) by field. lra. }
        apply Rmult_integral in HF. destruct HF as [HF|HF]; [left|right; left]; apply pair_equal_spec; split; try lra; f_equal; lra.
    + intros x y HI. apply filter_In in HI. destruct HI as [HI _]. cbn [map In] in HI.
      assert (HX : x = (y - q3) / q2).
      { destruct HI as [HI|[HI|[]]]; rewrite Eg in HI; apply pair_equal_spec in HI; destruct HI as [<- <-]; reflexivity. }
      assert (HQ : q2 * x = y - q3) by (rewrite HX; field; auto).
      replace (interp_x u y * interp_y v x - interp_x v y * interp_y u x)
        with (y * (A0 * C1 - A1 * C0) + x * (A1 * B0 - A0 * B1) - (C0 * B1 - C1 * B0)) by (unfold A0, A1, B0, B1, C0, C1; cbn; ring).
      rewrite Ed, <- E2, <- E0, Et. replace (x * (q2 * d)) with (q2 * x * d) by ring. rewrite HQ. ring.
    + right. split; auto. exists g. split; [intros; reflexivity|]. reflexivity.
Qed.

Lemma found_zeros u v : regular u v -> zero_list u v (found u v).
Proof.
  intros [HS HD]. destruct (found_spec u v HS) as (H1 & _ & H3). split; [|exact H1]. cbn zeta in H3.
  destruct H3 as [E|(Hd & g & Eg & E)]; rewrite E; [constructor|]. apply NoDup_filter. constructor; [|constructor; [intros []|constructor]].
  assert (Ps : 0 < sqrt (pen_t u v * pen_t u v / 4 - pen_p u v)) by (apply sqrt_lt_R0; lra).
  cbn [In]. intros [X|[]]. apply (f_equal snd) in X. rewrite !Eg in X. lra.
Qed.

(** Two zeros in one cell: one of them is a saddle. *)
Lemma two_saddle u v : regular u v -> length (found u v) = 2%nat -> In 3%Z (map (zero_type u v) (found u v)).
Proof.
  intros [HS HD] HL. destruct (found_spec u v HS) as (_ & HJ & H3). cbn zeta in H3.
  destruct H3 as [E|(Hd & g & Eg & E)]; [rewrite E in HL; discriminate|].
  set (s := sqrt _) in *. set (t := pen_t u v) in *. assert (Ps : 0 < s) by (apply sqrt_lt_R0; lra).
  assert (Ef : found u v = [g (t / 2 + s); g (t / 2 - s)]).
  { rewrite E in *. cbn [filter] in *. destruct (inside _ _), (inside _ _); cbn [length] in HL; try discriminate; reflexivity. }
  rewrite Ef. apply in_map_iff.
  assert (G : forall y, In (g y) (found u v) -> pen_d u v * (2 * y - t) < 0 -> zero_type u v (g y) = 3%Z).
  { intros y HI Hn. pose proof (Eg y) as Ey. destruct (g y) as [x y'] eqn:Eg'. cbn [snd] in Ey. subst y'.
    pose proof (HJ x y HI) as J. unfold zero_type, class. rewrite J. rewrite Rlt_bool_true by auto. reflexivity. }
  destruct HS as [Nd _]. fold t in G. rewrite Ef in G.
  destruct (Rdichotomy _ _ Nd) as [L|L].
  - exists (g (t / 2 + s)). split; [|left; auto]. apply G; [left; auto|]. replace (2 * (t / 2 + s) - t) with (2 * s) by field. nra.
  - exists (g (t / 2 - s)). split; [|right; left; auto]. apply G; [right; left; auto|]. replace (2 * (t / 2 - s) - t) with (- (2 * s)) by field. nra.
Qed.

(** Zeros found twice are not saddles. *)
Lemma double_not_saddle u v : solvable u v -> pen_t u v * pen_t u v / 4 - pen_p u v = 0 ->
  found u v = [] \/ length (found u v) = 2%nat /\ ~ In 3%Z (map (zero_type u v) (found u v)).
Proof.
  intros HS HD. destruct (found_spec u v HS) as (_ & HJ & H3). cbn zeta in H3.
  destruct H3 as [E|(Hd & g & Eg & E)]; [left; auto|]. rewrite HD, sqrt_0, Rplus_0_r, Rminus_0_r in E.
  set (t := pen_t u v) in *. pose proof (Eg (t / 2)) as Ey. destruct (g (t / 2)) as [x y]. cbn [snd] in Ey. subst y.
  cbn [filter fst snd] in E. destruct (inside x (t / 2)); [right|left; auto]. rewrite E. split; [reflexivity|].
  pose proof (HJ x (t / 2)) as J. rewrite E in J. specialize (J (or_introl eq_refl)).
  replace (pen_d u v * (2 * (t / 2) - t)) with 0 in J by field.
  assert (X : zero_type u v (x, t / 2) <> 3%Z).
  { unfold zero_type, class. rewrite J, Rlt_bool_false by lra.
    repeat match goal with |- (if ?b then _ else _) <> _ => destruct b end; discriminate. }
  cbn [map In]. intuition.
Qed.

(** Types found alike on a regular cell and a solvable one: both have the same number of zeros, of the same types. *)
Lemma same_found u v u' v' : regular u v -> solvable u' v' -> map (zero_type u v) (found u v) = map (zero_type u' v') (found u' v') ->
  exists l l', zero_list u v l /\ zero_list u' v' l' /\ map (zero_type u v) l = map (zero_type u' v') l'.
Proof.
  intros R S E. exists (found u v), (found u' v'). split; [apply found_zeros; auto|]. split; [|auto].
  destruct (Req_dec (pen_t u' v' * pen_t u' v' / 4 - pen_p u' v') 0) as [Z|N]; [|apply found_zeros; split; auto].
  destruct (found_spec u' v' S) as (H1 & _). destruct (double_not_saddle u' v' S Z) as [F|[L NS]].
  - split; [rewrite F; constructor|exact H1].
  - exfalso. apply NS. rewrite <- E. apply two_saddle; auto. rewrite <- L, <- (map_length (zero_type u v)), E, map_length. auto.
Qed.

(** ** A cell of a field *)
Definition cell_quad (r2 : Z) (w : list R) (a b : Z) : option quad :=
  let* w0 := aget w (a * r2 + b) in let* w1 := aget w (a * r2 + (b + 1)) in
  let* w2 := aget w ((a + 1) * r2 + (b + 1)) in let* w3 := aget w ((a + 1) * r2 + b) in Some (w0, w1, w2, w3).

Lemma cell_types_exact r2 U V a b u v : cell_quad r2 U a b = Some u -> cell_quad r2 V a b = Some v -> solvable u v ->
  cell_types XA csqrt0 r2 (map Fin U) (map Fin V) a b = Some (map (zero_type u v) (found u v)).
Proof.
  intros HU HV HR. unfold cell_quad in HU, HV. 
  bind_as HU u0 E0. bind_as HU u1 E1. bind_as HU u2 E2. bind_as HU u3 E3. bind_as HV v0 F0. bind_as HV v1 F1. bind_as HV v2 F2. bind_as HV v3 F3.
  apply Some_inj in HU, HV. subst u v. unfold cell_types. cbn zeta. change (T XA) with XR. rewrite !aget_map.
  rewrite E0, E1, E2, E3, F0, F1, F2, F3. cbn [option_map bind t2d XA].
  f_equal. apply (roots_exact u0 u1 u2 u3 v0 v1 v2 v3 HR).
Qed.
