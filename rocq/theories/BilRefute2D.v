(** Where the bilinear codec loses critical points.  Nothing of /repo is modelled here. *)
From Coq Require Import Reals Lra Lia ZArith List Bool.
From Flocq Require Import Core.Core IEEE754.BinarySingleNaN IEEE754.Binary IEEE754.Bits.
From Verif Require Import Base Huffman HuffStream Stream Arith Codec2D Stream2D IEEE LibmModel Witness2D Examples2D Refute2D
  Log2D LogLibm LogApi2D LogRefute2D Bil2D BilSync2D BilExact BilApi2D.
Import ListNotations.
Local Open Scope Z_scope.

(** The field of [ex_bil_runs] times 2^-96. *)
Definition tqU : list binary64 := map (fun p : Z * Z => dy (fst p) (snd p))
  [(0, 0); (1, -96); (-1, -94); (0, 0); (0, 0); (-1, -108); (0, 0); (-1, -94); (0, 0); (-1, -94); (1, -94); (0, 0); (-1, -96); (0, 0); (-1, -94); (-1, -108); (0, 0); (1, -108); (0, 0); (1, -108); (1, -96); (0, 0); (1, -96); (1, -108); (1, -94); (-1, -108); (0, 0); (-1, -108); (0, 0); (1, -108); (0, 0); (1, -94)].
Definition tqV : list binary64 := map (fun p : Z * Z => dy (fst p) (snd p))
  [(-1, -96); (0, 0); (0, 0); (1, -94); (-1, -94); (-1, -108); (-1, -96); (0, 0); (-1, -96); (0, 0); (0, 0); (-1, -94); (0, 0); (1, -94); (0, 0); (1, -108); (1, -94); (-1, -108); (-1, -96); (-1, -108); (0, 0); (1, -94); (0, 0); (1, -108); (0, 0); (1, -108); (1, -94); (-1, -108); (-1, -96); (-1, -108); (-1, -96); (0, 0)].
Definition lost_check A cs (max_eb : D A) (U V : list (T A)) (j : Z) : bool :=
  match compress_bil A cs max_eb ord0 ub0 2 16 U V (repeat 0 768) with
  | Some (buf, size) =>
      match decompress_log A 2 16 (firstn size buf) with
      | Some (Ud, Vd) =>
          match cell_types A cs 16 U V 0 j, cell_types A cs 16 Ud Vd 0 j with
          | Some [3], Some [] => true
          | _, _ => false
          end
      | None => false
      end
  | None => false
  end.
Lemma lost_inv A cs max_eb U V j : lost_check A cs max_eb U V j = true -> exists buf size Ud Vd,
  compress_bil A cs max_eb ord0 ub0 2 16 U V (repeat 0 768) = Some (buf, size) /\
  decompress_log A 2 16 (firstn size buf) = Some (Ud, Vd) /\
  cell_types A cs 16 U V 0 j = Some [3] /\ cell_types A cs 16 Ud Vd 0 j = Some [].
Proof.
  unfold lost_check. intros H.
  destruct (compress_bil A cs max_eb ord0 ub0 2 16 U V (repeat 0 768)) as [[buf size]|]; [|discriminate].
  destruct (decompress_log A 2 16 (firstn size buf)) as [[Ud Vd]|] eqn:E; [|discriminate].
  exists buf, size, Ud, Vd. split; auto. split; auto.
  destruct (cell_types A cs 16 U V 0 j) as [[|[|[[]|[]|]|] [|]]|]; try discriminate; destruct (cell_types A cs 16 Ud Vd 0 j) as [[|]|]; try discriminate; auto.
Qed.
Lemma lost_run x86 : lost_check (DA (lmlog64 x86)) zero_re one tqU tqV 2 = true.
Proof. destruct x86; vm_compute; reflexivity. Qed.

Theorem bil_tiny_refuted x86 : exists U V buf size Ud Vd,
  (forall x, In x U \/ In x V -> is_finite 53 1024 x = true) /\
  compress_bil (DA (lmlog64 x86)) zero_re one ord0 ub0 2 16 U V (repeat 0 768) = Some (buf, size) /\
  decompress_log (DA (lmlog64 x86)) 2 16 (firstn size buf) = Some (Ud, Vd) /\
  cell_types (DA (lmlog64 x86)) zero_re 16 U V 0 2 = Some [3] /\ cell_types (DA (lmlog64 x86)) zero_re 16 Ud Vd 0 2 = Some [].
Proof.
  destruct (lost_inv _ _ _ _ _ _ (lost_run x86)) as (buf & size & Ud & Vd & H).
  exists tqU, tqV, buf, size, Ud, Vd. split; [|exact H].
  assert (G : forallb (is_finite 53 1024) (tqU ++ tqV) = true) by (vm_compute; reflexivity).
  rewrite forallb_forall in G. intros x Hx. apply G, in_or_app, Hx.
Qed.

(** A small field whose stream does not fit the block of 3*n*sizeof(T) bytes. *)
Definition ovU : list binary64 := map (fun p : Z * Z => dy (fst p) (snd p))
  [(0, 0); (-1, -4); (0, 0); (-1, -10); (0, 0); (-1, 0); (1, 0); (-1, -12); (0, 0); (-1, -10); (1, 4); (0, 0); (1, -2); (1, -14); (0, 0); (-1, -4)].
Definition ovV : list binary64 := map (fun p : Z * Z => dy (fst p) (snd p))
  [(-1, 2); (0, 0); (-1, 2); (-1, -10); (-1, -4); (0, 0); (0, 0); (-1, -14); (1, 2); (1, -12); (0, 0); (1, 4); (0, 0); (1, -14); (1, -4); (0, 0)].
Definition is_none {X} (o : option X) : bool := match o with None => true | _ => false end.
Lemma is_none_true {X} (o : option X) : is_none o = true -> o = None.
Proof. destruct o; [discriminate|reflexivity]. Qed.
Lemma overflow_run x86 : is_none (compress_bil (DA (lmlog64 x86)) zero_re one ord0 ub0 2 8 ovU ovV (repeat 0 384)) = true /\
  is_none (enc_bil (DA (lmlog64 x86)) zero_re one 2 8 ovU ovV) = false.
Proof. destruct x86; split; vm_compute; reflexivity. Qed.
Theorem bil_capacity_refuted x86 : exists U V s c,
  length U = 16%nat /\ length V = 16%nat /\
  enc_bil (DA (lmlog64 x86)) zero_re one 2 8 U V = Some (s, c) /\
  compress_bil (DA (lmlog64 x86)) zero_re one ord0 ub0 2 8 U V (repeat 0 384) = None.
Proof.
  destruct (overflow_run x86) as [H1 H2]. exists ovU, ovV.
  destruct (enc_bil (DA (lmlog64 x86)) zero_re one 2 8 ovU ovV) as [[s c]|]; [|discriminate].
  exists s, c. split; [reflexivity|]. split; [reflexivity|]. split; [reflexivity|]. exact (is_none_true _ H1).
Qed.

(** The cell test misses the zero of an affine field. *)
Definition affU : list binary64 := [dy (-1) 0; dy 1 0; dy (-1) 0; dy 1 0].
Definition affV : list binary64 := [dy (-1) 0; dy (-1) 0; dy 1 0; dy 1 0].
Lemma affine_test lm cs : cell_types (DA lm) cs 2 affU affV 0 0 = Some [].
Proof. vm_compute. reflexivity. Qed.
Theorem bil_affine_missed lm cs : exists U V u v,
  cell_quad 2 (map (B2R 53 1024) U) 0 0 = Some u /\ cell_quad 2 (map (B2R 53 1024) V) 0 0 = Some v /\
  interp u (/ 2) (/ 2) = 0%R /\ interp v (/ 2) (/ 2) = 0%R /\ cell_types (DA lm) cs 2 U V 0 0 = Some [].
Proof.
  assert (V1 : B2R 53 1024 (dy 1 0) = 1%R) by exact one_val.
  assert (V2 : B2R 53 1024 (dy (-1) 0) = (-1)%R).
  { destruct (dy_B2R (-1) 0 ltac:(lia) ltac:(lia)) as [_ X]. rewrite X. cbn [bpow]. ring. }
  exists affU, affV, (-1, 1, 1, -1)%R, (-1, -1, 1, 1)%R. unfold affU at 1, affV at 1. cbn [map]. rewrite V1, V2.
  split; [reflexivity|]. split; [reflexivity|]. split; [cbn; lra|]. split; [cbn; lra|]. apply affine_test.
Qed.
