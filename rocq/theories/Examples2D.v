(** Concrete fields for the property theorems about the 2D online codecs.  Nothing of /repo is modelled here. *)
From Coq Require Import Reals Lra Lia ZArith List Bool.
From Coq Require Import ZifyBool ZifyNat.
From Flocq Require Import Core.Core IEEE754.BinarySingleNaN IEEE754.Binary IEEE754.Bits.
From Verif Require Import Base Huffman HuffStream HuffProps Stream Arith Mesh2D Derive2D Codec2D Sync2D Trace2D Stream2D Exact Cells2D Geo2D
  Preserve2D Total2D IEEE IEEELaws IEEEQuant IEEE2D IEEEAbs2D IEEERel2D TotalAny IEEETotal2D Fit2D Api2D LibmModel Witness2D.
Import ListNotations.
Local Open Scope Z_scope.
Local Instance p53e : Prec_gt_0 53 := eq_refl.
Local Instance p24e : Prec_gt_0 24 := eq_refl.

Lemma short_small A enc ord r1 r2 U V : 0 <= r1 -> 0 < r2 -> 2 * (r1 * r2) <= 65 ->
  Z.of_nat (length U) = r1 * r2 -> Z.of_nat (length V) = r1 * r2 ->
  (exists req ab, enc = enc_field A req ab) -> short_codes enc ord r1 r2 U V.
Proof.
  intros H1 H2 H3 LU LV (req & ab & ->) U' V' c E.
  destruct (field_sync A _ _ _ _ _ _ _ _ _ H1 H2 LU LV E) as (Le & Lq & _).
  assert (N : forall l : list Z, (length (nodup Z.eq_dec l) <= length l)%nat).
  { induction l as [|x l IH]; cbn [nodup]; auto. destruct (in_dec _ _ _); cbn [length]; lia. }
  split; apply few_symbols_max_code; eapply Nat.le_trans; try apply N; lia.
Qed.

Definition out_size (r : option (list Z * nat)) : option nat := match r with Some (_, n) => Some n | None => None end.
Lemma out_size_some r n : out_size r = Some n -> exists b, r = Some (b, n).
Proof. destruct r as [[b m]|]; cbn; [|discriminate]. intros H. apply Some_inj in H. subst. eauto. Qed.

(** m * 2^e is finite with that value. *)
Lemma dy_val m e : (Z.abs m < 2 ^ 53) -> (-1074 <= e <= 900) -> val64 (dy m e) = Fin (IZR m * bpow radix2 e).
Proof.
  intros Hm He. rewrite val_dy. assert (E : F2R (Float radix2 m e) = (IZR m * bpow radix2 e)%R) by reflexivity.
  rewrite E. rewrite (rnd_id 53 1024).
  - apply sat_small. rewrite Rabs_mult, (Rabs_pos_eq (bpow _ _)) by apply bpow_ge_0.
    apply Rlt_le_trans with (bpow radix2 53 * bpow radix2 e)%R.
    + apply Rmult_lt_compat_r; [apply bpow_gt_0|]. rewrite <- abs_IZR. apply (IZR_lt _ (2 ^ 53)). auto.
    + rewrite <- bpow_plus. apply bpow_le. lia.
  - apply (generic_format_FLT radix2 (-1074) 53). exists (Float radix2 m e); [reflexivity|exact Hm|cbn [Fexp]; lia].
Qed.
Lemma dy_finite m e k : (Z.abs m < 2 ^ 53) -> (-1074 <= e <= 900) -> (0 <= k) -> 53 + e <= k -> finite_le k (dy m e).
Proof.
  intros Hm He Hk Hek. pose proof (dy_val m e Hm He) as V. apply val_fin_iff in V. destruct V as [V1 V2]. split; auto.
  rewrite V2, Rabs_mult, (Rabs_pos_eq (bpow _ _)) by apply bpow_ge_0.
  apply Rle_trans with (bpow radix2 53 * bpow radix2 e)%R.
  - apply Rmult_le_compat_r; [apply bpow_ge_0|]. rewrite <- abs_IZR. apply (IZR_le _ (2 ^ 53)). lia.
  - rewrite <- bpow_plus. apply bpow_le. lia.
Qed.

(** Absolute codec, double, 4 x 4. *)
Definition exU : list binary64 := map (fun p => dy (64 * (4 * (8 + p / 4) + p mod 4) + 1) (-8)) (zrange 0 16).
Definition exV : list binary64 := map (fun p => dy (2 * (20 + p mod 4) - p / 4) (-1)) (zrange 0 16).
Definition ex_eb : binary64 := dy 1 (-2).
Definition ord0 : queue -> bool := fun _ => false.
Definition ub0 : Z -> Z -> Z := fun _ _ => 0.
Lemma ex_abs_runs : out_size (compress_online_abs (DA (lm64 false)) ex_eb ord0 ub0 4 4 exU exV (repeat 0 256)) = Some 159%nat.
Proof. vm_compute. reflexivity. Qed.
Definition changed (r : option (list binary64 * list binary64 * code binary64)) (U V : list binary64) : option Z :=
  match r with
  | Some (U', V', _) => Some (Z.of_nat (length (filter (fun '(a, b) => negb (bits_of_b64 a =? bits_of_b64 b)) (combine (U ++ V) (U' ++ V')))))
  | None => None
  end.
Lemma ex_abs_lossy : changed (enc_online_abs (DA (lm64 false)) ex_eb 4 4 exU exV) exU exV = Some 16.
Proof. vm_compute. reflexivity. Qed.
Lemma ex_fin x : In x exU \/ In x exV -> finite_le 500 x.
Proof.
  intros H. assert (K : exists m, x = dy m (-8) \/ x = dy m (-1)) by (destruct H as [H|H]; apply in_map_iff in H; destruct H as (p & <- & _); eauto).
  assert (B : forall y, In y exU \/ In y exV -> exists m e, y = dy m e /\ Z.abs m < 2 ^ 53 /\ -8 <= e <= -1).
  { intros y [Hy|Hy]; apply in_map_iff in Hy; destruct Hy as (p & <- & Hp); unfold zrange in Hp; apply in_zseq in Hp;
      do 2 eexists; (split; [reflexivity|]); (split; [|lia]); pose proof (Z.mod_pos_bound p 4 ltac:(lia));
      assert (0 <= p / 4 < 16) by (split; [apply Z.div_pos; lia|apply Z.div_lt_upper_bound; lia]); lia. }
  destruct (B x H) as (m & e & -> & ? & ?). apply dy_finite; lia.
Qed.

(** Relative codec, double, 4 x 4. *)
Definition rxU : list binary64 := map (fun p => dy 1 (6 * (p mod 2))) (zrange 0 16).
Definition rxV : list binary64 := map (fun p => dy 1 (6 * ((p / 4) mod 2))) (zrange 0 16).
Definition rx_eb : binary64 := dy 1 (-3).
Lemma ex_rel_runs : out_size (compress_online (DA (lm64 false)) rx_eb ord0 ub0 4 4 rxU rxV (repeat 0 256)) = Some 134%nat.
Proof. vm_compute. reflexivity. Qed.
Lemma ex_rel_lossy : changed (enc_online (DA (lm64 false)) rx_eb 4 4 rxU rxV) rxU rxV = Some 16.
Proof. vm_compute. reflexivity. Qed.
Lemma rx_fin x : In x rxU \/ In x rxV -> finite_le 500 x /\ normal_enough x.
Proof.
  intros H. assert (K : exists e, x = dy 1 e /\ 0 <= e <= 6).
  { destruct H as [H|H]; apply in_map_iff in H; destruct H as (p & <- & _); eexists; (split; [reflexivity|]);
      [pose proof (Z.mod_pos_bound p 2 ltac:(lia))|pose proof (Z.mod_pos_bound (p / 4) 2 ltac:(lia))]; lia. }
  destruct K as (e & -> & He). split; [apply dy_finite; lia|]. right.
  pose proof (dy_val 1 e ltac:(lia) ltac:(lia)) as V. apply val_fin_iff in V. destruct V as [_ ->].
  rewrite Rmult_1_l, Rabs_pos_eq by apply bpow_ge_0. apply bpow_le. lia.
Qed.

(** Exact arithmetic: a 2 x 2 field with a critical point in its lower triangle only. *)
Definition gu : list R := [1; 1; -1; 0]%R.
Definition gv : list R := [1; 2; 0; -1]%R.
Lemma g_cp : has_cp (vecR 2 gu gv (0, 0)) (vecR 2 gu gv (1, 0)) (vecR 2 gu gv (1, 1)).
Proof. change (has_cp (1, 1) (-1, 0) (0, -1))%R. exists (/ 3)%R, (/ 3)%R, (/ 3)%R. cbn [fst snd]. repeat split; lra. Qed.
Lemma g_nocp : ~ has_cp (vecR 2 gu gv (0, 0)) (vecR 2 gu gv (0, 1)) (vecR 2 gu gv (1, 1)).
Proof. change (~ has_cp (1, 1) (1, 2) (0, -1))%R. intros (l0 & l1 & l2 & H0 & H1 & H2 & HS & HU & HV). cbn [fst snd] in *. lra. Qed.
Lemma g_small : Forall (fun x => Rabs x <= big)%R gu /\ Forall (fun x => Rabs x <= big)%R gv.
Proof.
  assert (K : forall x, (-2 <= x <= 2 -> Rabs x <= big)%R).
  { intros x H. apply Rle_trans with 2%R; [apply Rabs_le; auto|]. unfold big. change 2%R with (bpow radix2 1) at 1. apply bpow_le. lia. }
  split; repeat (apply Forall_cons; [apply K; lra|]); apply Forall_nil.
Qed.

Definition zeros64 (n : nat) : list binary64 := repeat (dy 0 0) n.

(** Bound 0 with a block that is large enough. *)
Definition zx_out : option nat :=
  match enc_online_abs (DA (lm64 false)) (dy 0 0) 4 4 exU exV with
  | Some (_, _, c) => out_size (write_pieces ord0 ub0 (stream_pieces (DA (lm64 false)) c) (repeat 0 600) 0)
  | None => None
  end.
Definition zx_rel_out : option nat :=
  match enc_online (DA (lm64 false)) (dy 0 0) 4 4 rxU rxV with
  | Some (_, _, c) => out_size (write_pieces ord0 ub0 (stream_pieces (DA (lm64 false)) c) (repeat 0 600) 0)
  | None => None
  end.
Lemma zx_runs : zx_out = Some 336%nat /\ zx_rel_out = Some 336%nat.
Proof. split; vm_compute; reflexivity. Qed.

(** A row that ends in a NaN. *)
Definition nfU : list binary64 := map (fun p => dy (64 * (32 + p) + 1) (-8)) (zrange 0 15) ++ [dnan].
Definition nfV : list binary64 := map (fun p => dy (40 + p) 0) (zrange 0 16).
Lemma nf_runs : out_size (compress_online_abs (DA (lm64 true)) ex_eb ord0 ub0 1 16 nfU nfV (repeat 0 256)) = Some 179%nat.
Proof. vm_compute. reflexivity. Qed.
