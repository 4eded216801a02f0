(** Property theorems about the types of critical points (C28).  Conventions as in Prop_2D.
    [linear_part w cell J]: [J] is the Jacobian of the linear interpolant of the vectors at the vertices of the cell. *)
From Coq Require Import Reals Lra Lia ZArith List Bool.
From Flocq Require Import Core.Core.
From Verif Require Import Base Arith Codec2D Exact Cells2D Geo2D Preserve2D Type2D Total2D Log2D LogCells2D LogTotal2D.
Import ListNotations.
Local Open Scope Z_scope.

Theorem C28_relative_keeps_types : forall max_eb r1 r2 u v U' V' c,
  0 <= r1 -> 0 < r2 -> Z.of_nat (length u) = r1 * r2 -> Z.of_nat (length v) = r1 * r2 ->
  enc_online XA (Fin max_eb) r1 r2 (map Fin u) (map Fin v) = Some (U', V', c) ->
  exists u' v', decode r1 r2 c = Some (map Fin u', map Fin v') /\
  forall a b d, cell r1 r2 a b d ->
    (has_cp (vecR r2 u v a) (vecR r2 u v b) (vecR r2 u v d) <->
     has_cp (vecR r2 u' v' a) (vecR r2 u' v' b) (vecR r2 u' v' d)) /\
    (has_cp (vecR r2 u v a) (vecR r2 u v b) (vecR r2 u v d) ->
     forall J J', linear_part (vecR r2 u v) [a; b; d] J -> linear_part (vecR r2 u' v') [a; b; d] J' -> same_type J J').
Proof. exact rel_keeps_types. Qed.
Print Assumptions C28_relative_keeps_types.

Theorem C28_log_keeps_types : forall max_eb r1 r2 u v s c,
  (0 <= max_eb <= 1)%R -> 0 <= r1 -> 0 < r2 -> Z.of_nat (length u) = r1 * r2 -> Z.of_nat (length v) = r1 * r2 ->
  (forall x, In x u \/ In x v -> not_tiny x) ->
  enc_log XA (Fin max_eb) r1 r2 (map Fin u) (map Fin v) = Some (s, c) ->
  exists u' v', decode_log XA 2 intv_radius r1 r2 (map (fun x => log_sign XA (Fin x)) u) (map (fun x => log_sign XA (Fin x)) v) c
                  = Some (map Fin u', map Fin v') /\
  forall a b d, cell r1 r2 a b d ->
    (has_cp (vecR r2 u v a) (vecR r2 u v b) (vecR r2 u v d) <->
     has_cp (vecR r2 u' v' a) (vecR r2 u' v' b) (vecR r2 u' v' d)) /\
    (has_cp (vecR r2 u v a) (vecR r2 u v b) (vecR r2 u v d) ->
     forall J J', linear_part (vecR r2 u v) [a; b; d] J -> linear_part (vecR r2 u' v') [a; b; d] J' -> same_type J J').
Proof. exact log_keeps_types. Qed.
Print Assumptions C28_log_keeps_types.

(** Every cell has a Jacobian. *)
Theorem C28_jacobian_exists : forall r1 r2 a b c w, cell r1 r2 a b c -> exists J, linear_part w [a; b; c] J.
Proof. exact cell_jac. Qed.
Print Assumptions C28_jacobian_exists.

(** A repelling focus among non-zero values. *)
Example C28_nonvacuous :
  let fu := [4; 1; -2; 1]%R in let fv := [-4; 1; -1; 5]%R in
  (exists r, enc_online XA (Fin 1) 2 2 (map Fin fu) (map Fin fv) = Some r) /\
  (exists s c, enc_log XA (Fin 1) 2 2 (map Fin fu) (map Fin fv) = Some (s, c)) /\
  cell 2 2 (0, 0) (1, 0) (1, 1) /\ has_cp (vecR 2 fu fv (0, 0)) (vecR 2 fu fv (1, 0)) (vecR 2 fu fv (1, 1)) /\
  exists J, linear_part (vecR 2 fu fv) [(0, 0); (1, 0); (1, 1)] J /\ (0 < jdet J /\ 0 < jtr J /\ jdisc J < 0)%R.
Proof.
  cbv zeta. split; [|split; [|split; [apply (cell_lower 2 2 0 0); lia|split]]].
  - assert (K : forall x, (-8 <= x <= 8 -> Rabs x <= big)%R).
    { intros x H. apply Rle_trans with 8%R; [apply Rabs_le; auto|]. unfold big. change 8%R with (bpow radix2 3). apply bpow_le. lia. }
    pose proof big_ge_1. apply rel_total; try lia; try reflexivity; auto;
      repeat (apply Forall_cons; [apply K; lra|]); apply Forall_nil.
  - apply log_total; try reflexivity; try lia; lra.
  - change (has_cp (4, -4) (-2, -1) (1, 5))%R. exists (3/15)%R, (8/15)%R, (4/15)%R. cbn [fst snd]. repeat split; lra.
  - exists {| ux := 3; uy := -6; vx := 6; vy := 3 |}. split.
    + exists 4%R, (-4)%R. intros p [<-|[<-|[<-|[]]]]; [change (vecR _ _ _ _) with (4, -4)%R|change (vecR _ _ _ _) with (-2, -1)%R|
        change (vecR _ _ _ _) with (1, 5)%R]; cbn; lra.
    + unfold jdisc, jtr, jdet. cbn. lra.
Qed.
