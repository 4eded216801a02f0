(** A critical point on the edge of a cell gets no protection for its type. *)
From Coq Require Import Reals Lra Lia ZArith List Bool.
From Flocq Require Import Core.Core IEEE754.BinarySingleNaN IEEE754.Binary IEEE754.Bits.
From Verif Require Import Base Arith Codec2D Exact Cells2D Geo2D Preserve2D Type2D IEEE IEEELaws LibmModel Witness2D Refute2D Examples2D Offline2D.
Import ListNotations.
Local Open Scope Z_scope.

(** The vectors (0,1), (1,0), (1,5/2), (0,-1) of a 2 x 2 grid; a zero lies in the middle of the diagonal. *)
Definition edU : list binary64 := [dy 0 0; dy 1 0; dy 1 0; dy 0 0].
Definition edV : list binary64 := [dy 1 0; dy 0 0; dy 5 (-1); dy (-1) 0].
Definition ed_u : list R := [0; 1; 1; 0]%R.
Definition ed_v : list R := [1; 0; 5/2; -1]%R.
(** The third vector changed to (1,7/4), a relative change of 0.3. *)
Definition ed_v' : list R := [1; 0; 7/4; -1]%R.

Lemma edU_val : map val64 edU = map Fin ed_u.
Proof. unfold edU, ed_u. cbn [map]. rewrite !dy_val by lia. repeat f_equal; cbn; lra. Qed.
Lemma edV_val : map val64 edV = map Fin ed_v.
Proof. unfold edV, ed_v. cbn [map]. rewrite !dy_val by lia. repeat f_equal; cbn; lra. Qed.


Lemma ed_bits cbrt : match offline_ebs (DA (lm64 false)) cbrt (dy 1 (-1)) 2 2 edU edV with Some E => map bits_of_b64 E | None => [] end =
  map bits_of_b64 (repeat (dy 1 (-1)) 4).
Proof. vm_compute. reflexivity. Qed.

Lemma bits_list l l' : map bits_of_b64 l = map bits_of_b64 l' -> l = l'.
Proof.
  revert l'. induction l as [|x l IH]; intros [|y l'] H; try discriminate; auto. injection H as H1 H2. f_equal; [apply bits_inj|]; auto.
Qed.
Lemma ed_bounds cbrt : offline_ebs (DA (lm64 false)) cbrt (dy 1 (-1)) 2 2 edU edV = Some (repeat (dy 1 (-1)) 4).
Proof.
  pose proof (ed_bits cbrt) as H. destruct (offline_ebs _ _ _ _ _ _ _) as [E|]; [|discriminate]. f_equal. apply bits_list. exact H.
Qed.

Lemma edge_refuted : exists U V u v u' v' J J',
  (forall cbrt, offline_ebs (DA (lm64 false)) cbrt (dy 1 (-1)) 2 2 U V = Some (repeat (dy 1 (-1)) 4)) /\
  map val64 U = map Fin u /\ map val64 V = map Fin v /\
  Forall2 (fun x y => Rabs (y - x) <= Rabs x * (3 / 10))%R (u ++ v) (u' ++ v') /\
  has_cp (vecR 2 u v (0, 0)) (vecR 2 u v (1, 0)) (vecR 2 u v (1, 1)) /\
  linear_part (vecR 2 u v) [(0, 0); (1, 0); (1, 1)] J /\ linear_part (vecR 2 u' v') [(0, 0); (1, 0); (1, 1)] J' /\ ~ same_type J J'.
Proof.
  exists edU, edV, ed_u, ed_v, ed_u, ed_v', {| ux := -1; uy := 1; vx := -7/2; vy := 3/2 |}, {| ux := -1; uy := 1; vx := -11/4; vy := 3/4 |}.
  split; [exact ed_bounds|]. split; [exact edU_val|]. split; [exact edV_val|]. split.
  { unfold ed_u, ed_v, ed_v'. cbn [app]. repeat constructor; unfold Rabs; repeat destruct (Rcase_abs _); lra. }
  split; [|split; [|split]].
  - change (has_cp (0, 1) (1, 5/2) (0, -1))%R. exists (1/2)%R, 0%R, (1/2)%R. cbn [fst snd]. repeat split; lra.
  - exists 0%R, 1%R. intros p [<-|[<-|[<-|[]]]]; [change (vecR _ _ _ _) with (0, 1)%R|change (vecR _ _ _ _) with (1, 5/2)%R|
      change (vecR _ _ _ _) with (0, -1)%R]; cbn; lra.
  - exists 0%R, 1%R. intros p [<-|[<-|[<-|[]]]]; [change (vecR _ _ _ _) with (0, 1)%R|change (vecR _ _ _ _) with (1, 7/4)%R|
      change (vecR _ _ _ _) with (0, -1)%R]; cbn; lra.
  - unfold same_type, same_sign, jtr, jdet. cbn. intros [_ H]. destruct H as [[[H _] _] _]; lra.
Qed.

(** A real cube root exists. *)
Definition real_cbrt (x : XR) : XR := match x with Fin r => Fin (if Rle_dec r 0 then 0 else Rpower r (/ 3)) | _ => x end.

(** The field of the example, as doubles: every vertex gets a positive bound below 1. *)
Definition exoU : list binary64 := [dy 4 0; dy 1 0; dy (-2) 0; dy 1 0].
Definition exoV : list binary64 := [dy (-4) 0; dy 1 0; dy (-1) 0; dy 5 0].
Lemma exo_runs cbrt : match offline_ebs (DA (lm64 false)) cbrt (dy 1 0) 2 2 exoU exoV with
  | Some E => forallb (fun e => dlt (DA (lm64 false)) (dy 0 0) e && dlt (DA (lm64 false)) e (dy 1 0)) E | None => false end = true.
Proof. vm_compute. reflexivity. Qed.
