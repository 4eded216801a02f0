(** What does not hold of the relaxed codec: runs in IEEE double arithmetic.  Nothing of /repo is modelled here. *)
From Coq Require Import Reals Lra Lia ZArith List Bool.
From Coq Require Import ZifyBool ZifyNat.
From Flocq Require Import Core.Core IEEE754.BinarySingleNaN IEEE754.Binary IEEE754.Bits.
From Verif Require Import Base Huffman HuffStream HuffProps Stream Arith Mesh2D Derive2D Codec2D Sync2D Trace2D Scan Stream2D Exact
  IEEE IEEELaws IEEEQuant IEEE2D Api2D LibmModel Witness2D Examples2D Refute2D Relax2D RelaxSync2D RelaxApi2D.
Import ListNotations.
Local Open Scope Z_scope.

(** The compressor's test on the original and on the final working copy disagree: it is evaluated with the vertices in
    another order when a change is verified. *)
Definition roU : list binary64 := [dy (-1) 0; dy 2 0; dy 7 0; dy 5 0].
Definition roV : list binary64 := [dy (-2) 0; dy 4 0; dy 12 0; dy 10 0].
Definition roU' : list binary64 := [dy (-1) 0; dy 3 0; dy 7 0; dy 5 0].
Lemma ro_run x86 : bits_of_result (enc_relax (DA (lm64 x86)) (dy 1 0) 2 2 roU roV) = Some (map bits_of_b64 roU', map bits_of_b64 roV).
Proof. destruct x86; vm_compute; reflexivity. Qed.
Theorem relax_test_refuted : forall x86, exists max_eb U V U' V' c,
  enc_relax (DA (lm64 x86)) max_eb 2 2 U V = Some (U', V', c) /\
  compute_cp (DA (lm64 x86)) U V 2 2 = Some [true; false] /\
  compute_cp (DA (lm64 x86)) U' V' 2 2 = Some [true; true].
Proof.
  intros x86. destruct (result_inv _ roU' roV (ro_run x86)) as [c E]. exists (dy 1 0), roU, roV, roU', roV, c.
  split; [exact E|]. split; destruct x86; vm_compute; reflexivity.
Qed.

(** The bound may be exceeded (the reconstruction is not checked). *)
Definition rsU : list binary64 := [dy (2 ^ 53 - 1) (-53)].
Lemma rs_run x86 : bits_of_result (enc_relax (DA (lm64 x86)) (dy 1 0) 1 1 rsU rsU) = Some (map bits_of_b64 [dy 1 1], map bits_of_b64 [dy 1 1]).
Proof. destruct x86; vm_compute; reflexivity. Qed.
Theorem relax_bound_refuted : forall x86, exists max_eb U V U' V' c u u',
  enc_relax (DA (lm64 x86)) max_eb 1 1 U V = Some (U', V', c) /\ aget U 0 = Some u /\ aget U' 0 = Some u' /\
  is_finite 53 1024 u = true /\ is_finite 53 1024 u' = true /\ B2R 53 1024 max_eb = 1%R /\
  (1 < Rabs (B2R 53 1024 u' - B2R 53 1024 u))%R.
Proof.
  intros x86. destruct (result_inv _ [dy 1 1] [dy 1 1] (rs_run x86)) as [c E].
  exists (dy 1 0), rsU, rsU, [dy 1 1], [dy 1 1], c, (dy (2 ^ 53 - 1) (-53)), (dy 1 1).
  destruct (dy_B2R 1 0 ltac:(lia) ltac:(lia)) as [F0 V0]. destruct (dy_B2R 1 1 ltac:(lia) ltac:(lia)) as [F1 V1].
  destruct (dy_B2R (2 ^ 53 - 1) (-53) ltac:(lia) ltac:(lia)) as [F2 V2].
  split; [exact E|]. split; [reflexivity|]. split; [reflexivity|]. split; auto. split; auto. rewrite V0, V1, V2.
  change (bpow radix2 0) with 1%R. change (bpow radix2 1) with 2%R. change (bpow radix2 (-53)) with (/ 9007199254740992)%R.
  change (IZR (2 ^ 53 - 1)) with 9007199254740991%R. split; [lra|]. rewrite Rabs_pos_eq; lra.
Qed.

(** A bound between eps and 4 eps: a coded point gets index 0, which the decompressor takes for a verbatim one. *)
Definition rdU : list binary64 := map (fun p => dy (4 * (8 + p / 4) + p mod 4) (-51)) (zrange 0 16).
Definition rdV : list binary64 := map (fun p => dy (2 * (20 + p mod 4) - p / 4) (-51)) (zrange 0 16).
Definition rejected (r : option (list Z * nat)) : bool :=
  match r with
  | Some (b, n) => match decompress_online (DA (lm64 false)) 4 4 (firstn n b) with Some _ => false | None => true end
  | None => false
  end.
Lemma rejected_inv r : rejected r = true -> exists b n, r = Some (b, n) /\ decompress_online (DA (lm64 false)) 4 4 (firstn n b) = None.
Proof.
  destruct r as [[b n]|]; [|discriminate]. cbn [rejected]. intros H. exists b, n. split; [reflexivity|].
  revert H. destruct (decompress_online (DA (lm64 false)) 4 4 (firstn n b)); [discriminate|reflexivity].
Qed.
Lemma rd_fails : rejected (compress_relax (DA (lm64 false)) (dy 1 (-51)) ord0 ub0 4 4 rdU rdV (repeat 0 256)) = true.
Proof. vm_compute. reflexivity. Qed.
Theorem relax_small_bound_refuted : exists max_eb U V buf size,
  compress_relax (DA (lm64 false)) max_eb ord0 ub0 4 4 U V (repeat 0 256) = Some (buf, size) /\
  length U = 16%nat /\ length V = 16%nat /\ (0 < B2R 53 1024 max_eb)%R /\
  decompress_online (DA (lm64 false)) 4 4 (firstn size buf) = None.
Proof.
  destruct (rejected_inv _ rd_fails) as (b & n & E & K).
  exists (dy 1 (-51)), rdU, rdV, b, n. split; [exact E|]. split; [reflexivity|]. split; [reflexivity|]. split; [|exact K].
  rewrite (proj2 (dy_B2R 1 (-51) ltac:(lia) ltac:(lia))), Rmult_1_l. apply bpow_gt_0.
Qed.
