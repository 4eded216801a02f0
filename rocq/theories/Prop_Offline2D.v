(** Property theorems about the derived bounds (C20) and the offline bounds of a field (C36).  Conventions as in Prop_Type2D;
    exact arithmetic [XA]. *)
From Coq Require Import Reals Lra Lia ZArith List Bool.
From Flocq Require Import Core.Core IEEE754.BinarySingleNaN IEEE754.Binary IEEE754.Bits.
From Verif Require Import Base Arith Codec2D Exact Cells2D Geo2D Preserve2D Type2D Derive2D Derive3D Geo3D Geo3DRel IEEE IEEELaws
  LibmModel Witness2D Examples2D Offline2D OfflineSound2D OfflineField2D OfflineRefute2D.
Import ListNotations.
Local Open Scope R_scope.

(** C20.  [l]: the terms of the sum with their factors; a factor is a product of [d] numbers 1 + a, |a| <= e. *)
Theorem C20_sum_keeps_sign : forall cbrt, cube_root cbrt -> forall (d : nat) (l : list (R * R)), (1 <= d <= 3)%nat ->
  exists b, max_eb_to_keep_sign XA cbrt (acc_d XA (map Fin (map fst l))) d = Some (Fin b) /\ 0 <= b <= 1 /\
  forall e, 0 <= e < b -> Forall (fun x => change e d (snd x)) l ->
    same_sign (sum (map fst l)) (sum (map (fun x => fst x * snd x) l)).
Proof. exact keep_sign_sound. Qed.
Print Assumptions C20_sum_keeps_sign.

(** The bounds of the online codecs: relative and absolute, 2D and 3D. *)
Theorem C20_online_relative_2d : forall a b c e e1 e2, 0 <= e ->
  below e (max_eb_to_keep_sign_2d_online XA (Fin a) (Fin b) (Fin c)) ->
  Rabs e1 <= e -> Rabs e2 <= e -> 0 < (a + b + c) * (a * (1 + e1) + b * (1 + e2) + c).
Proof. exact keep_rel_sound. Qed.
Print Assumptions C20_online_relative_2d.
Theorem C20_online_absolute_2d : forall a b c e e1 e2,
  below e (max_eb_to_keep_sign_2d_online_abs XA (Fin a) (Fin b) (Fin c)) ->
  Rabs e1 <= e -> Rabs e2 <= e -> 0 < c * (c + a * e1 + b * e2).
Proof. exact keep_abs_sound. Qed.
Print Assumptions C20_online_absolute_2d.
Theorem C20_online_relative_3d : forall a b c d e e1 e2 e3, 0 <= e ->
  below e (max_eb_to_keep_sign_3d_online XA (Fin a) (Fin b) (Fin c) (Fin d)) -> Rabs e1 <= e -> Rabs e2 <= e -> Rabs e3 <= e ->
  same_sign (a + b + c + d) (a * (1 + e1) + b * (1 + e2) + c * (1 + e3) + d).
Proof. exact keep3_rel_sound. Qed.
Print Assumptions C20_online_relative_3d.
Theorem C20_online_absolute_3d : forall a b c d e e1 e2 e3, 0 <= e ->
  below e (max_eb_to_keep_sign_3d_online_abs XA (Fin a) (Fin b) (Fin c) (Fin d)) ->
  Rabs e1 <= e -> Rabs e2 <= e -> Rabs e3 <= e -> 0 < d * (d + a * e1 + b * e2 + c * e3).
Proof. exact keep3_abs_sound. Qed.
Print Assumptions C20_online_absolute_3d.

(** The 3D relative bound of a tetrahedron: a smaller relative change of the vector at its last vertex neither creates nor
    destroys a critical point. *)
Theorem C20_tetrahedron_relative : forall x0 x1 x2 x3 e e1 e2 e3, 0 <= e ->
  below e (derive3_rel XA (fin3 x0) (fin3 x1) (fin3 x2) (fin3 x3)) -> Rabs e1 <= e -> Rabs e2 <= e -> Rabs e3 <= e ->
  (has_cp3 [x0; x1; x2; x3] <-> has_cp3 [x0; x1; x2; scaled x3 e1 e2 e3]).
Proof. intros x0 x1 x2 x3. exact (proj2 (derive3_rel_sound x0 x1 x2 x3)). Qed.
Print Assumptions C20_tetrahedron_relative.

(** A real cube root exists; 3·1 - 1·1 with square factors has the bound (sqrt 3 - 1)/(sqrt 3 + 1), above 1/4. *)
Example C20_nonvacuous : cube_root real_cbrt /\
  (exists b, max_eb_to_keep_sign XA real_cbrt (acc_d XA (map Fin [3; -1])) 2 = Some (Fin b) /\ 1 / 4 < b) /\
  Forall (fun x => change (1 / 4) 2 (snd x)) [(3, (1 + 1 / 4) * (1 - 1 / 4)); (-1, (1 + 1 / 4) * (1 + 1 / 4))] /\
  below (1 / 4) (max_eb_to_keep_sign_2d_online XA (Fin 1) (Fin 1) (Fin 1)) /\
  below (1 / 4) (max_eb_to_keep_sign_2d_online_abs XA (Fin 1) (Fin 1) (Fin 1)) /\
  below (1 / 4) (max_eb_to_keep_sign_3d_online XA (Fin 1) (Fin 1) (Fin 1) (Fin 1)) /\
  below (1 / 4) (max_eb_to_keep_sign_3d_online_abs XA (Fin 1) (Fin 1) (Fin 1) (Fin 1)).
Proof.
  assert (R1 : Rabs 1 = 1) by apply Rabs_R1.
  split; [|split; [|split; [|split; [|split; [|split]]]]].
  - intros x Hx. unfold real_cbrt. destruct (Rle_dec x 0) as [L|L].
    + exists 0. repeat split; lra.
    + exists (Rpower x (/ 3)). repeat split; [left; apply exp_pos|]. rewrite <- !Rpower_plus.
      replace (/ 3 + / 3 + / 3) with 1 by field. apply Rpower_1. lra.
  - assert (S : 1.7 < sqrt 3) by (apply Rsqr_incrst_0; [rewrite Rsqr_sqrt; unfold Rsqr; lra|lra|apply sqrt_pos]).
    assert (EA : acc_d XA (map Fin [3; -1]) = (Fin 3, Fin 1)).
    { rewrite acc_value. unfold ppart, npart, ones, sum. cbn [map fold_right fst snd].
      destruct (Rle_dec 0 3), (Rle_dec 0 (-1)); try lra. f_equal; f_equal; lra. }
    rewrite EA. unfold max_eb_to_keep_sign.
    replace (dlt XA (Fin 1) _) with false by (symmetry; apply xlt_fin_false; lra).
    replace (dlt XA (Fin 3) _) with false by (symmetry; apply xlt_fin_false; lra).
    replace (deq XA (Fin 1) _) with false by (symmetry; apply xeq_fin_false; lra).
    replace (deq XA (Fin 3) _) with false by (symmetry; apply xeq_fin_false; lra).
    cbn [orb bind degree_root dsqrt XA xsqrt]. rewrite !Rlt_bool_false by lra. cbn [dabs ddiv dadd dsub XA xabs xadd xsub].
    rewrite sqrt_1. rewrite xdiv_fin by lra. eexists. split; [reflexivity|].
    rewrite Rabs_pos_eq by lra. apply (Rmult_lt_reg_r (sqrt 3 + 1)); [lra|]. unfold Rdiv at 2. rewrite Rmult_assoc, Rinv_l by lra. lra.
  - repeat constructor; cbn [snd]; [exists [1 / 4; - (1 / 4)]|exists [1 / 4; 1 / 4]]; (split; [reflexivity|]);
      (split; [repeat constructor; unfold Rabs; destruct (Rcase_abs _); lra|cbn; lra]).
  - unfold max_eb_to_keep_sign_2d_online. cbn [t2d ddiv tabs tadd XA xabs xadd deq dofZ]. rewrite R1.
    replace (xeq _ _) with false by (symmetry; apply xeq_fin_false; lra). rewrite xdiv_fin by lra. apply below_fin.
    rewrite Rabs_pos_eq by lra. lra.
  - unfold max_eb_to_keep_sign_2d_online_abs. cbn [t2d tdiv tabs tadd XA xabs xadd]. rewrite R1, xdiv_fin by lra. apply below_fin. lra.
  - unfold max_eb_to_keep_sign_3d_online. cbn [ddiv dabs dadd deq dofZ XA xabs xadd]. rewrite R1.
    replace (xeq _ _) with false by (symmetry; apply xeq_fin_false; lra). cbn [andb]. rewrite xdiv_fin by lra. apply below_fin.
    rewrite Rabs_pos_eq by lra. lra.
  - unfold max_eb_to_keep_sign_3d_online_abs. cbn [ddiv dabs dadd deq dofZ XA xabs xadd]. rewrite R1.
    replace (xeq (Fin (1 + 1 + 1)) _) with false by (symmetry; apply xeq_fin_false; lra). rewrite xdiv_fin by lra. apply below_fin. lra.
Qed.

(** C36.  The array exists, respects the requested bound, and any field changed by less than it has the same critical cells and,
    where the zero is strictly inside a cell, the same type. *)
Theorem C36_offline_bounds_keep : forall cbrt, cube_root cbrt -> forall max_eb r1 r2 u v,
  (0 <= r1)%Z -> (0 <= r2)%Z -> Z.of_nat (length u) = (r1 * r2)%Z -> Z.of_nat (length v) = (r1 * r2)%Z ->
  exists eb, offline_ebs XA cbrt (Fin max_eb) r1 r2 (map Fin u) (map Fin v) = Some (map Fin eb) /\
  Z.of_nat (length eb) = (r1 * r2)%Z /\ Forall (fun e => e <= max_eb) eb /\
  forall u' v', (forall k, small_change (nth k eb 0) (nth k u 0) (nth k u' 0)) ->
                (forall k, small_change (nth k eb 0) (nth k v 0) (nth k v' 0)) ->
  forall a b c, cell r1 r2 a b c ->
    (has_cp (vecR r2 u v a) (vecR r2 u v b) (vecR r2 u v c) <-> has_cp (vecR r2 u' v' a) (vecR r2 u' v' b) (vecR r2 u' v' c)) /\
    (inside_cp (vecR r2 u v a) (vecR r2 u v b) (vecR r2 u v c) -> forall J J',
       linear_part (vecR r2 u v) [a; b; c] J -> linear_part (vecR r2 u' v') [a; b; c] J' -> same_type J J').
Proof. exact offline_bounds_keep. Qed.
Print Assumptions C36_offline_bounds_keep.

(** A zero on an edge: the computed bounds (in doubles) are the requested 1/2, a relative change of 3/10 turns a repelling critical
    point into an attracting one. *)
Theorem C36_edge_type_refuted : exists U V u v u' v' J J',
  (forall cbrt, offline_ebs (DA (lm64 false)) cbrt (dy 1 (-1)) 2 2 U V = Some (repeat (dy 1 (-1)) 4)) /\
  map val64 U = map Fin u /\ map val64 V = map Fin v /\
  Forall2 (fun x y => Rabs (y - x) <= Rabs x * (3 / 10)) (u ++ v) (u' ++ v') /\
  has_cp (vecR 2 u v (0, 0)%Z) (vecR 2 u v (1, 0)%Z) (vecR 2 u v (1, 1)%Z) /\
  linear_part (vecR 2 u v) [(0, 0); (1, 0); (1, 1)]%Z J /\ linear_part (vecR 2 u' v') [(0, 0); (1, 0); (1, 1)]%Z J' /\ ~ same_type J J'.
Proof. exact edge_refuted. Qed.
Print Assumptions C36_edge_type_refuted.

(** The field of C28_nonvacuous: a zero strictly inside a cell, and positive bounds (computed in doubles). *)
Example C36_nonvacuous : let fu := [4; 1; -2; 1] in let fv := [-4; 1; -1; 5] in
  cell 2 2 (0, 0)%Z (1, 0)%Z (1, 1)%Z /\ inside_cp (vecR 2 fu fv (0, 0)%Z) (vecR 2 fu fv (1, 0)%Z) (vecR 2 fu fv (1, 1)%Z) /\
  (forall cbrt, match offline_ebs (DA (lm64 false)) cbrt (dy 1 0) 2 2 exoU exoV with
    | Some E => forallb (fun e => dlt (DA (lm64 false)) (dy 0 0) e && dlt (DA (lm64 false)) e (dy 1 0)) E | None => false end = true).
Proof.
  cbv zeta. split; [apply (cell_lower 2 2 0 0); lia|]. split; [|exact exo_runs].
  change (inside_cp (4, -4) (-2, -1) (1, 5)). exists (3/15), (8/15), (4/15). cbn [fst snd]. repeat split; lra.
Qed.
