(** Runs of the 3D log-domain codec; at bound 3 its streams cannot be read back; tiny values come back as zeros.
    Nothing of /repo is modelled here. *)
From Coq Require Import Reals Lra Lia ZArith List Bool.
From Coq Require Import ZifyBool ZifyNat.
From Flocq Require Import Core.Core IEEE754.BinarySingleNaN IEEE754.Binary IEEE754.Bits.
From Verif Require Import Base Huffman HuffStream HuffProps Stream Arith Mesh2D Mesh3D Derive3D Codec2D Sync2D Scan Stream2D Exact IEEE IEEELaws IEEEQuant
  IEEE2D IEEEAbs2D Api2D LibmModel Witness2D Examples2D Refute2D RelaxApi2D Abs3D Sync3D Cells3D Geo3D Preserve3D Total3D IEEE3D Api3D Refute3D
  Log2D LogSync2D LogCells2D LogErr2D LogLibm LogApi2D LogRefute2D Log3D LogSync3D LogErr3D LogCells3D LogTotal3D LogApi3D.
Import ListNotations.
Local Open Scope Z_scope.

Lemma short_log3 A max_eb ord r1 r2 r3 U V W :
  (match enc_log3 A max_eb r1 r2 r3 U V W with Some (_, c) => (length (c_q c) <=? 65)%nat | None => true end) = true ->
  log3_short A max_eb ord r1 r2 r3 U V W.
Proof.
  intros HC s c E. rewrite E in HC. apply Nat.leb_le in HC.
  assert (N : forall l : list Z, (length (nodup Z.eq_dec l) <= length l)%nat).
  { induction l as [|x l IH]; cbn [nodup]; auto. destruct (in_dec _ _ _); cbn [length]; lia. }
  apply few_symbols_max_code. eapply Nat.le_trans; [apply N|lia].
Qed.

(** ** A run with a zero component and symbols of both kinds *)
Definition lgW : list binary64 := map (fun p => dy 1 (1 + p / 7)) (zrange 0 16).
Lemma ex_log3_runs x86 : out_size (compress_log3 (DA (lmlog64 x86)) one ord0 ub0 1 1 16 lgU lgV lgW (repeat 0 384)) = Some 254%nat.
Proof. destruct x86; vm_compute; reflexivity. Qed.
Lemma ex_log3_coded x86 : option_map (fun r : log3_state (DA (lmlog64 x86)) * code binary64 => Z.of_nat (length (c_q (snd r))))
    (enc_log3 (DA (lmlog64 x86)) one 1 1 16 lgU lgV lgW) = Some 30.
Proof. destruct x86; vm_compute; reflexivity. Qed.
Lemma lg3_usual x : In x lgU \/ In x lgV \/ In x lgW -> zero_or_usual 100 x.
Proof.
  intros [H|[H|H]]; [apply lg_usual; auto|apply lg_usual; auto|].
  unfold lgW in H. apply in_map_iff in H. destruct H as (p & <- & Hp). apply in_zrange in Hp.
  pose proof (Z.div_le_mono p 16 7 ltac:(lia) ltac:(lia)). pose proof (Z.div_pos p 7 ltac:(lia) ltac:(lia)). change (16 / 7) with 2 in *.
  apply dy_usual; lia.
Qed.
Lemma ex_log3_ok x86 :
  (exists buf, compress_log3 (DA (lmlog64 x86)) one ord0 ub0 1 1 16 lgU lgV lgW (repeat 0 384) = Some (buf, 254%nat)) /\
  libm_ok (DA (lmlog64 x86)) (DA_ieee (lmlog64 x86)) /\ log_libm_ok (DA (lmlog64 x86)) (DA_ieee (lmlog64 x86)) /\
  log3_short (DA (lmlog64 x86)) one ord0 1 1 16 lgU lgV lgW /\ (forall x, In x lgU \/ In x lgV \/ In x lgW -> zero_or_usual 100 x) /\
  sized 1 1 16 lgU /\ sized 1 1 16 lgV /\ sized 1 1 16 lgW /\
  is_finite 53 1024 one = true /\ (0 <= B2R 53 1024 one <= 5 / 2)%R.
Proof.
  split; [apply out_size_some, ex_log3_runs|]. split; [apply lmlog64_ok|]. split; [apply lmlog64_log_ok|].
  split; [apply short_log3; destruct x86; vm_compute; reflexivity|]. split; [exact lg3_usual|].
  split; [reflexivity|]. split; [reflexivity|]. split; [reflexivity|]. split; [reflexivity|]. rewrite one_val. lra.
Qed.

(** ** Bound 3: the symbol of the largest bound is the symbol of verbatim points *)
Definition three : binary64 := dy 3 0.
Definition k3U : list binary64 := repeat (dy 1 1) 16.
Definition k3V : list binary64 := repeat (dy (-1) 0) 16.
Definition k3W : list binary64 := repeat (dy 1 2) 16.
Definition collision_check A (max_eb : D A) (U V W : list (T A)) : bool :=
  match compress_log3 A max_eb ord0 ub0 1 1 16 U V W (repeat 0 384) with
  | Some (buf, size) => match decompress_log3 A 1 1 16 (firstn size buf) with None => true | _ => false end
  | None => false
  end.
Lemma collision_inv A max_eb U V W : collision_check A max_eb U V W = true -> exists buf size,
  compress_log3 A max_eb ord0 ub0 1 1 16 U V W (repeat 0 384) = Some (buf, size) /\ decompress_log3 A 1 1 16 (firstn size buf) = None.
Proof.
  unfold collision_check. intros H. destruct (compress_log3 _ _ _ _ _ _ _ _ _ _ _) as [[buf size]|]; [|discriminate].
  exists buf, size. split; auto. destruct (decompress_log3 _ _ _ _ _); [discriminate|reflexivity].
Qed.
Lemma collision_run x86 : collision_check (DA (lmlog64 x86)) three k3U k3V k3W = true.
Proof. destruct x86; vm_compute; reflexivity. Qed.
Lemma collision_short x86 : log3_short (DA (lmlog64 x86)) three ord0 1 1 16 k3U k3V k3W.
Proof. apply short_log3. destruct x86; vm_compute; reflexivity. Qed.
Lemma k3_usual x : In x k3U \/ In x k3V \/ In x k3W -> zero_or_usual 100 x.
Proof. intros [H|[H|H]]; apply repeat_spec in H; subst x; apply dy_usual; lia. Qed.
Lemma three_val : B2R 53 1024 three = 3%R.
Proof. destruct (dy_B2R 3 0 ltac:(lia) ltac:(lia)) as [_ V]. unfold three. rewrite V. cbn [bpow]. ring. Qed.

Theorem log3_three_refuted x86 : exists max_eb U V W buf size,
  B2R 53 1024 max_eb = 3%R /\ sized 1 1 16 U /\ sized 1 1 16 V /\ sized 1 1 16 W /\
  (forall x, In x U \/ In x V \/ In x W -> zero_or_usual 100 x) /\
  log3_short (DA (lmlog64 x86)) max_eb ord0 1 1 16 U V W /\
  compress_log3 (DA (lmlog64 x86)) max_eb ord0 ub0 1 1 16 U V W (repeat 0 384) = Some (buf, size) /\
  decompress_log3 (DA (lmlog64 x86)) 1 1 16 (firstn size buf) = None.
Proof.
  destruct (collision_inv _ _ _ _ _ (collision_run x86)) as (buf & size & H1 & H2).
  exists three, k3U, k3V, k3W, buf, size. split; [exact three_val|]. do 3 (split; [reflexivity|]).
  split; [exact k3_usual|]. split; [apply collision_short|]. auto.
Qed.

(** ** Tiny values *)
Definition tn3 : list binary64 := repeat (dy 1 (-110)) 16.
Definition tiny3_check A (max_eb : D A) (U V W : list (T A)) (isz : T A -> bool) : bool :=
  match compress_log3 A max_eb ord0 ub0 1 1 16 U V W (repeat 0 384) with
  | Some (buf, size) => match decompress_log3 A 1 1 16 (firstn size buf) with
                        | Some (U', V', W') => existsb isz U'
                        | None => false end
  | None => false
  end.
Lemma tiny3_inv A max_eb U V W isz : tiny3_check A max_eb U V W isz = true -> exists buf size U' V' W',
  compress_log3 A max_eb ord0 ub0 1 1 16 U V W (repeat 0 384) = Some (buf, size) /\
  decompress_log3 A 1 1 16 (firstn size buf) = Some (U', V', W') /\ exists x, In x U' /\ isz x = true.
Proof.
  unfold tiny3_check. intros H. destruct (compress_log3 _ _ _ _ _ _ _ _ _ _ _) as [[buf size]|]; [|discriminate].
  destruct (decompress_log3 _ _ _ _ _) as [[[U' V'] W']|] eqn:E; [|discriminate].
  exists buf, size, U', V', W'. split; auto. split; auto. apply existsb_exists in H. auto.
Qed.
Lemma tiny3_run x86 : tiny3_check (DA (lmlog64 x86)) one tn3 tn3 tn3 (@is_zero 53 1024) = true.
Proof. destruct x86; vm_compute; reflexivity. Qed.
Theorem log3_tiny_refuted x86 : exists U buf size U' V' W',
  (forall x, In x U -> is_finite 53 1024 x = true /\ @is_zero 53 1024 x = false) /\ sized 1 1 16 U /\
  compress_log3 (DA (lmlog64 x86)) one ord0 ub0 1 1 16 U U U (repeat 0 384) = Some (buf, size) /\
  decompress_log3 (DA (lmlog64 x86)) 1 1 16 (firstn size buf) = Some (U', V', W') /\
  exists x, In x U' /\ @is_zero 53 1024 x = true.
Proof.
  destruct (tiny3_inv _ _ _ _ _ _ (tiny3_run x86)) as (buf & size & U' & V' & W' & H).
  exists tn3, buf, size, U', V', W'. split.
  - intros x Hx. apply repeat_spec in Hx. subst x. split; reflexivity.
  - split; [reflexivity|exact H].
Qed.

(** ** Real fields: a critical tetrahedron, one that is not, and one with a null vector *)
Definition g4 : list R := (-1 :: repeat 1 15 ++ repeat 0 4)%R.
Lemma g4_large x : In x g4 -> zero_or_large x.
Proof.
  intros H. assert (E : x = 0%R \/ Rabs x = 1%R).
  { unfold g4 in H. destruct H as [<-|H]; [right; rewrite Rabs_left; lra|]. apply in_app_or in H.
    destruct H as [H|H]; apply repeat_spec in H; subst x; [right; apply Rabs_R1|auto]. }
  destruct E as [E|E]; [left; exact E|right].
  rewrite E. apply Rle_trans with (powerRZ 2 0); [|cbn; lra]. change 2%R with (IZR radix2). rewrite <- !bpow_powerRZ. apply bpow_le. lia.
Qed.
Definition pure_tet u v w r2 r3 (t : list pt) : Prop := forall x, In x t -> vecR3 r2 r3 u v w x = null3 \/ full (vecR3 r2 r3 u v w x).
Lemma g4_ok : tet 5 2 2 [(0, 0, 0); (1, 0, 0); (1, 1, 0); (1, 1, 1)] /\ tet 5 2 2 [(1, 0, 0); (2, 0, 0); (2, 1, 0); (2, 1, 1)] /\
  tet 5 2 2 [(3, 0, 0); (4, 0, 0); (4, 1, 0); (4, 1, 1)] /\
  has_cp3 (map (vecR3 2 2 g4 g4 g4) [(0, 0, 0); (1, 0, 0); (1, 1, 0); (1, 1, 1)]) /\
  ~ has_cp3 (map (vecR3 2 2 g4 g4 g4) [(1, 0, 0); (2, 0, 0); (2, 1, 0); (2, 1, 1)]) /\
  (forall t, In t [[(0, 0, 0); (1, 0, 0); (1, 1, 0); (1, 1, 1)]; [(1, 0, 0); (2, 0, 0); (2, 1, 0); (2, 1, 1)]; [(3, 0, 0); (4, 0, 0); (4, 1, 0); (4, 1, 1)]] ->
     pure_tet g4 g4 g4 2 2 t) /\
  vecR3 2 2 g4 g4 g4 (4, 0, 0) = null3 /\
  (forall x, In x g4 -> zero_or_large x) /\
  exists s c, enc_log3 XA (Fin 1) 5 2 2 (map Fin g4) (map Fin g4) (map Fin g4) = Some (s, c).
Proof.
  split; [apply (tet_path 5 2 2 (0, 0, 0) (1, 0, 0) (0, 1, 0) (0, 0, 1)); cbn; try lia; apply Permutation.Permutation_refl|].
  split; [apply (tet_path 5 2 2 (1, 0, 0) (1, 0, 0) (0, 1, 0) (0, 0, 1)); cbn; try lia; apply Permutation.Permutation_refl|].
  split; [apply (tet_path 5 2 2 (3, 0, 0) (1, 0, 0) (0, 1, 0) (0, 0, 1)); cbn; try lia; apply Permutation.Permutation_refl|].
  change (map (vecR3 2 2 g4 g4 g4) [(0, 0, 0); (1, 0, 0); (1, 1, 0); (1, 1, 1)]) with [(-1, -1, -1); (1, 1, 1); (1, 1, 1); (1, 1, 1)]%R.
  change (map (vecR3 2 2 g4 g4 g4) [(1, 0, 0); (2, 0, 0); (2, 1, 0); (2, 1, 1)]) with [(1, 1, 1); (1, 1, 1); (1, 1, 1); (1, 1, 1)]%R.
  split; [|split; [|split; [|split; [reflexivity|split; [exact g4_large|]]]]].
  - apply has_cp3_four. exists (1 / 2)%R, (1 / 2)%R, 0%R, 0%R. unfold cx, cy, cz; cbn [fst snd]. repeat split; lra.
  - intros H. apply has_cp3_four in H. destruct H as (a & b & c & d & Ha & Hb & Hc & Hd & H1 & H2 & _).
    unfold cx in H2; cbn [fst snd] in H2. lra.
  - intros t Ht x Hx.
    assert (F1 : full (1, 1, 1)%R) by (unfold full, cx, cy, cz; cbn; repeat split; lra).
    assert (F2 : full (-1, -1, -1)%R) by (unfold full, cx, cy, cz; cbn; repeat split; lra).
    destruct Ht as [<-|[<-|[<-|[]]]]; destruct Hx as [<-|[<-|[<-|[<-|[]]]]];
      first [left; reflexivity | right; exact F1 | right; exact F2].
  - apply log3_total; try lia; try reflexivity; [lra|]. intros x [H|[H|H]]; apply g4_large; auto.
Qed.
