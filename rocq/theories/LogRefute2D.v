(** Runs of the 2D log-domain codec, and a field on which it returns zeros for nonzero values.
    Nothing of /repo is modelled here. *)
From Coq Require Import Reals Lra Lia ZArith List Bool.
From Coq Require Import ZifyBool ZifyNat.
From Flocq Require Import Core.Core IEEE754.BinarySingleNaN IEEE754.Binary IEEE754.Bits.
From Verif Require Import Base Huffman HuffStream HuffProps Stream Arith Mesh2D Derive2D Codec2D Sync2D Trace2D Scan Stream2D Exact IEEE IEEELaws IEEEQuant
  IEEE2D IEEEAbs2D Api2D LibmModel Witness2D Examples2D Refute2D RelaxApi2D Log2D LogSync2D LogCells2D LogErr2D LogLibm LogApi2D.
Import ListNotations.
Local Open Scope Z_scope.

Lemma short_log A max_eb ord r1 r2 U V : 0 <= r1 -> 0 < r2 -> 2 * (r1 * r2) <= 65 -> log_short A max_eb ord r1 r2 U V.
Proof.
  intros H1 H2 H3 s c E. destruct s as [[[U' V'] LU] LV].
  destruct (log_inv_final _ _ _ _ _ _ _ _ H1 H2 E) as (_ & _ & _ & _ & Le & Lq & _).
  assert (N : forall l : list Z, (length (nodup Z.eq_dec l) <= length l)%nat).
  { induction l as [|x l IH]; cbn [nodup]; auto. destruct (in_dec _ _ _); cbn [length]; lia. }
  split; apply few_symbols_max_code; eapply Nat.le_trans; try apply N; lia.
Qed.

Definition lgU : list binary64 := map (fun p => if p =? 9 then dy 0 0 else dy (1 - 2 * (p mod 2)) (p / 8)) (zrange 0 16).
Definition lgV : list binary64 := map (fun p => dy 1 (3 + p / 14)) (zrange 0 16).
Definition one : binary64 := dy 1 0.
Definition bits2 (r : option (list binary64 * list binary64)) := option_map (fun '(a, b) => (map bits_of_b64 a, map bits_of_b64 b)) r.
Definition back x86 (max_eb : binary64) r1 r2 U V n : option (list Z * list Z) :=
  match compress_log (DA (lmlog64 x86)) max_eb ord0 ub0 r1 r2 U V (repeat 0 n) with
  | Some (buf, size) => bits2 (decompress_log (DA (lmlog64 x86)) r1 r2 (firstn size buf))
  | None => None
  end.
Lemma ex_log_runs x86 : out_size (compress_log (DA (lmlog64 x86)) one ord0 ub0 1 16 lgU lgV (repeat 0 256)) = Some 172%nat.
Proof. destruct x86; vm_compute; reflexivity. Qed.
(** Bound indices of the run: how many points are stored verbatim. *)
Lemma ex_log_coded x86 : option_map (fun r : log_state (DA (lmlog64 x86)) * code binary64 => Z.of_nat (length (filter (fun e => negb (e =? 0)) (c_eb (snd r)))))
    (enc_log (DA (lmlog64 x86)) one 1 16 lgU lgV) = Some 11.
Proof. destruct x86; vm_compute; reflexivity. Qed.

Lemma dy_usual m e k : Z.abs m < 2 ^ 53 -> -97 <= e <= 900 -> 53 + e <= k -> zero_or_usual k (dy m e).
Proof.
  intros Hm He Hk. pose proof (dy_val m e Hm ltac:(lia)) as V. apply val_fin_iff in V. destruct V as [V1 V2]. split; auto.
  rewrite V2, Rabs_mult, (Rabs_pos_eq (bpow _ _)) by apply bpow_ge_0. split.
  - destruct (Z.eq_dec m 0) as [->|N]; [left; lra|right]. apply Rle_trans with (1 * bpow radix2 e)%R.
    + rewrite Rmult_1_l. apply bpow_le. lia.
    + apply Rmult_le_compat_r; [apply bpow_ge_0|]. rewrite <- abs_IZR. apply IZR_le. lia.
  - apply Rle_trans with (bpow radix2 53 * bpow radix2 e)%R.
    + apply Rmult_le_compat_r; [apply bpow_ge_0|]. rewrite <- abs_IZR. apply (IZR_le _ (2 ^ 53)). lia.
    + rewrite <- bpow_plus. apply bpow_le. lia.
Qed.

Lemma lg_usual x : In x lgU \/ In x lgV -> zero_or_usual 100 x.
Proof.
  intros H. assert (G : Forall (zero_or_usual 100) (lgU ++ lgV)).
  { unfold lgU, lgV. change (zrange 0 16) with [0;1;2;3;4;5;6;7;8;9;10;11;12;13;14;15]. cbn [map app].
    repeat (apply Forall_cons; [first [apply dy_usual; lia | cbn [Z.eqb Pos.eqb]; apply dy_usual; lia]|]). apply Forall_nil. }
  rewrite Forall_forall in G. apply G. apply in_or_app. auto.
Qed.

Lemma one_val : B2R 53 1024 one = 1%R.
Proof. destruct (dy_B2R 1 0 ltac:(lia) ltac:(lia)) as [_ V]. unfold one. rewrite V. cbn [bpow]. ring. Qed.

Lemma ex_log_ok x86 :
  (exists buf, compress_log (DA (lmlog64 x86)) one ord0 ub0 1 16 lgU lgV (repeat 0 256) = Some (buf, 172%nat)) /\
  libm_ok (DA (lmlog64 x86)) (DA_ieee (lmlog64 x86)) /\ log_libm_ok (DA (lmlog64 x86)) (DA_ieee (lmlog64 x86)) /\
  log_short (DA (lmlog64 x86)) one ord0 1 16 lgU lgV /\ (forall x, In x lgU \/ In x lgV -> zero_or_usual 100 x) /\
  is_finite 53 1024 one = true /\ (0 <= B2R 53 1024 one <= 1)%R.
Proof.
  split; [apply out_size_some, ex_log_runs|]. split; [apply lmlog64_ok|]. split; [apply lmlog64_log_ok|].
  split; [apply short_log; lia|]. split; [exact lg_usual|]. split; [reflexivity|]. rewrite one_val. lra.
Qed.

(** Nonzero values below 2^-99 come back as zeros although the working copy of the compressor keeps them. *)
Definition tnU : list binary64 := repeat (dy 1 (-110)) 10.
Definition tiny_check A (max_eb : D A) (U : list (T A)) (isz : T A -> bool) : bool :=
  match compress_log A max_eb ord0 ub0 1 10 U U (repeat 0 160) with
  | Some (buf, size) =>
      match enc_log A max_eb 1 10 U U, decompress_log A 1 10 (firstn size buf) with
      | Some (U', _, _, _, _), Some (Ud, _) =>
          (length Ud =? 10)%nat && forallb isz Ud && (length U' =? 10)%nat && forallb (fun x => negb (isz x)) U'
      | _, _ => false
      end
  | None => false
  end.
Lemma tiny_inv A max_eb U isz : tiny_check A max_eb U isz = true -> exists buf size Ud Vd U' V' LU LV c,
  compress_log A max_eb ord0 ub0 1 10 U U (repeat 0 160) = Some (buf, size) /\
  enc_log A max_eb 1 10 U U = Some (U', V', LU, LV, c) /\
  decompress_log A 1 10 (firstn size buf) = Some (Ud, Vd) /\
  length Ud = 10%nat /\ (forall x, In x Ud -> isz x = true) /\ (forall x, In x U' -> isz x = false).
Proof.
  unfold tiny_check. intros H.
  destruct (compress_log A max_eb ord0 ub0 1 10 U U (repeat 0 160)) as [[buf size]|]; [|discriminate].
  destruct (enc_log A max_eb 1 10 U U) as [[[[[U' V'] LU] LV] c]|]; [|discriminate].
  destruct (decompress_log A 1 10 (firstn size buf)) as [[Ud Vd]|] eqn:E3; [|discriminate].
  exists buf, size, Ud, Vd, U', V', LU, LV, c. rewrite !andb_true_iff in H. destruct H as [[[B1 B2] B3] B4].
  apply Nat.eqb_eq in B1. rewrite forallb_forall in B2, B4. do 5 (split; [auto|]). intros x Hx. apply B4, negb_true_iff in Hx. auto.
Qed.
Lemma tiny_run x86 : tiny_check (DA (lmlog64 x86)) one tnU (@is_zero 53 1024) = true.
Proof. destruct x86; vm_compute; reflexivity. Qed.

Theorem log_tiny_refuted x86 : exists U buf size Ud Vd U' V' LU LV c,
  (forall x, In x U -> is_finite 53 1024 x = true /\ @is_zero 53 1024 x = false) /\
  compress_log (DA (lmlog64 x86)) one ord0 ub0 1 10 U U (repeat 0 160) = Some (buf, size) /\
  enc_log (DA (lmlog64 x86)) one 1 10 U U = Some (U', V', LU, LV, c) /\
  decompress_log (DA (lmlog64 x86)) 1 10 (firstn size buf) = Some (Ud, Vd) /\
  length Ud = 10%nat /\ (forall x, In x Ud -> @is_zero 53 1024 x = true) /\ (forall x, In x U' -> @is_zero 53 1024 x = false).
Proof.
  destruct (tiny_inv _ _ _ _ (tiny_run x86)) as (buf & size & Ud & Vd & U' & V' & LU & LV & c & H).
  exists tnU, buf, size, Ud, Vd, U', V', LU, LV, c. split; [|exact H].
  intros x Hx. apply repeat_spec in Hx. subst x. split; reflexivity.
Qed.
