(** The offline 3D codec: a field of doubles that goes through with bounds 0 and 1; an exact cube root.  Nothing of /repo is modelled here. *)
From Coq Require Import Reals Lra Lia ZArith List Bool.
From Coq Require Import ZifyBool ZifyNat.
From Flocq Require Import Core.Core IEEE754.BinarySingleNaN IEEE754.Binary IEEE754.Bits.
From Verif Require Import Base Huffman HuffStream HuffProps Stream Arith Mesh2D Mesh3D Derive3D Codec2D Sync2D Scan Stream2D Exact IEEE IEEELaws IEEEQuant
  IEEE2D Api2D LibmModel LogLibm Witness2D Refute2D Examples2D RelaxApi2D Abs3D Sync3D Cells3D Geo3D Preserve3D Total3D IEEE3D Api3D
  Log2D LogSync2D LogCells2D LogErr2D LogApi2D LogRefute2D Log3D LogSync3D LogErr3D LogCells3D LogTotal3D LogApi3D LogRefute3D
  LinQuant BlockIEEE BlockRefute PwrWitness2D Offline2D OfflineWitness2D OfflineRefute2D Off3D OffSound3D OffField3D OffCells3D Acbrt OffIEEE3D OffApi3D.
Import ListNotations.
Local Open Scope Z_scope.
Local Notation A := (DA (lmlog64 false)). Local Notation O := (DO (lmlog64 false)).

(** ** A 2 x 2 x 6 field of powers of two and zeros *)
Definition f3cls (p : Z) : Z := (p / 12 + p / 6 mod 2 + p mod 6) mod 4.
Definition f3c (c p : Z) : binary64 :=
  if p =? 23 then dy 0 0 else if (f3cls p =? 3) || (f3cls p =? c) then dy 1 (2 * (p mod 2)) else dy 0 0.
Definition f3U : list binary64 := map (f3c 0) (zrange 0 24).
Definition f3V : list binary64 := map (f3c 1) (zrange 0 24).
Definition f3W : list binary64 := map (f3c 2) (zrange 0 24).
Definition f3E : list binary64 := map (fun b => dy b 0) [1;1;1;1;0;0; 1;1;1;1;0;0; 1;1;1;1;0;0; 1;1;1;1;0;0].

Lemma dy_usual1 m e k : Z.abs m <= 1 -> -97 <= e <= 900 -> e <= k -> zero_or_usual k (dy m e).
Proof.
  intros Hm He Hk. assert (H53 : Z.abs m < 2 ^ 53) by (change (2 ^ 53) with 9007199254740992; lia).
  destruct (dy_usual m e (53 + e) H53 He ltac:(lia)) as (F & G & _). split; [exact F|]. split; [exact G|].
  pose proof (dy_val m e H53 ltac:(lia)) as V. apply val_fin_iff in V. destruct V as [_ V]. rewrite V, Rabs_mult, (Rabs_pos_eq (bpow _ _)) by apply bpow_ge_0.
  apply Rle_trans with (1 * bpow radix2 e)%R; [|rewrite Rmult_1_l; apply bpow_le; exact Hk].
  apply Rmult_le_compat_r; [apply bpow_ge_0|]. rewrite <- abs_IZR. apply (IZR_le _ 1). exact Hm.
Qed.
Lemma f3_usual x : In x f3U \/ In x f3V \/ In x f3W -> zero_or_usual 38 x.
Proof.
  assert (G : forall c p, zero_or_usual 38 (f3c c p)).
  { intros c p. unfold f3c. pose proof (Z.mod_pos_bound p 2 ltac:(lia)). destruct (p =? 23); [apply dy_usual1; lia|]. destruct (_ || _); apply dy_usual1; lia. }
  intros [H|[H|H]]; apply in_map_iff in H; destruct H as (p & <- & _); apply G.
Qed.

Lemma f3_ebs : offline3_ebs A O acbrt1 (dy 1 0) 2 2 6 f3U f3V f3W = Some f3E.
Proof.
  assert (H : match offline3_ebs A O acbrt1 (dy 1 0) 2 2 6 f3U f3V f3W with Some E => map bits_of_b64 E | None => [] end = map bits_of_b64 f3E) by (vm_compute; reflexivity).
  destruct (offline3_ebs _ _ _ _ _ _ _ _ _ _) as [E|]; [|discriminate H]. f_equal. apply bits_list. exact H.
Qed.

Lemma short_with A req ord r1 r2 r3 U V W :
  (match enc_log3_with A req r1 r2 r3 U V W with Some (_, c) => (length (nodup Z.eq_dec (c_q c)) <=? 65)%nat | None => true end) = true ->
  log3_short_with A req ord r1 r2 r3 U V W.
Proof. intros HC s c E. rewrite E in HC. apply few_symbols_max_code. apply Nat.leb_le. exact HC. Qed.

Lemma f3_size : out_size (compress_off3 A O acbrt1 (dy 1 0) ord0 ub0 2 2 6 f3U f3V f3W (repeat 0 576)) = Some 481%nat.
Proof. vm_compute. reflexivity. Qed.

Lemma f3_example : (exists buf, compress_off3 A O acbrt1 (dy 1 0) ord0 ub0 2 2 6 f3U f3V f3W (repeat 0 576) = Some (buf, 481%nat)) /\
  libm_ok A (DA_ieee (lmlog64 false)) /\ log_libm_ok A (DA_ieee (lmlog64 false)) /\
  sized 2 2 6 f3U /\ sized 2 2 6 f3V /\ sized 2 2 6 f3W /\ (forall x, In x f3U \/ In x f3V \/ In x f3W -> zero_or_usual 38 x) /\
  is_finite 53 1024 (dy 1 0) = true /\ (0 <= B2R 53 1024 (dy 1 0) <= 5 / 2)%R /\
  offline3_ebs A O acbrt1 (dy 1 0) 2 2 6 f3U f3V f3W = Some f3E /\ In (dy 1 0) f3E /\ In (dy 0 0) f3E /\
  forall eb, offline3_ebs A O acbrt1 (dy 1 0) 2 2 6 f3U f3V f3W = Some eb -> log3_short_with A (stored_bound A eb 2 6) ord0 2 2 6 f3U f3V f3W.
Proof.
  split; [apply out_size_some, f3_size|]. split; [apply lmlog64_ok|]. split; [apply lmlog64_log_ok|].
  split; [reflexivity|]. split; [reflexivity|]. split; [reflexivity|]. split; [exact f3_usual|]. split; [reflexivity|].
  split; [change (dy 1 0) with one; rewrite one_val; lra|]. split; [exact f3_ebs|]. split; [apply in_map_iff; exists 1; split; [reflexivity|repeat (first [left; reflexivity|right])]|].
  split; [apply in_map_iff; exists 0; split; [reflexivity|repeat (first [left; reflexivity|right])]|].
  intros eb E. rewrite f3_ebs in E. apply Some_inj in E. subst eb. apply short_with. vm_compute. reflexivity.
Qed.

(** ** A 2 x 2 x 12 field of floats *)
Local Notation A' := (FA (lmlog32 false)). Local Notation O' := (FO (lmlog32 false)).
Definition h3c (c p : Z) : binary32 :=
  let k := (p / 24 + p / 12 mod 2 + p mod 12) mod 4 in b32 ((if p =? 47 then 0 else if (k =? 3) || (k =? c) then 1 else 0), 0).
Definition h3U : list binary32 := map (h3c 0) (zrange 0 48).
Definition h3V : list binary32 := map (h3c 1) (zrange 0 48).
Definition h3W : list binary32 := map (h3c 2) (zrange 0 48).
Definition h3E : list binary64 := map (fun k => dy (if k mod 12 <? 10 then 1 else 0) 0) (zrange 0 48).

Lemma h3_usual x : In x h3U \/ In x h3V \/ In x h3W -> zero_or_usual 38 x.
Proof.
  assert (G : forall c p, zero_or_usual 38 (h3c c p)).
  { intros c p. unfold h3c. cbv zeta. set (m := if p =? 47 then 0 else _). assert (Hm : m = 0 \/ m = 1) by (unfold m; destruct (p =? 47); [auto|destruct (_ || _); auto]).
    clearbody m. destruct (b32_fin m 0 ltac:(lia) ltac:(lia)) as [(F & G & _) V]. split; [exact F|]. split; [exact G|]. rewrite V.
    apply Rle_trans with (bpow radix2 0); [|apply bpow_le; lia]. change (bpow radix2 0) with 1%R. destruct Hm as [-> | ->]; apply Rabs_le; lra. }
  intros [H|[H|H]]; apply in_map_iff in H; destruct H as (p & <- & _); apply G.
Qed.
Lemma h3_ebs : offline3_ebs A' O' acbrt1 (dy 1 0) 2 2 12 h3U h3V h3W = Some h3E.
Proof.
  assert (H : match offline3_ebs A' O' acbrt1 (dy 1 0) 2 2 12 h3U h3V h3W with Some E => map bits_of_b64 E | None => [] end = map bits_of_b64 h3E) by (vm_compute; reflexivity).
  destruct (offline3_ebs _ _ _ _ _ _ _ _ _ _) as [E|]; [|discriminate H]. f_equal. apply bits_list. exact H.
Qed.
Lemma h3_size : out_size (compress_off3 A' O' acbrt1 (dy 1 0) ord0 ub0 2 2 12 h3U h3V h3W (repeat 0 576)) = Some 345%nat.
Proof. vm_compute. reflexivity. Qed.
Lemma h3_example : (exists buf, compress_off3 A' O' acbrt1 (dy 1 0) ord0 ub0 2 2 12 h3U h3V h3W (repeat 0 576) = Some (buf, 345%nat)) /\
  libm_ok A' (FA_ieee (lmlog32 false)) /\ log_libm_ok A' (FA_ieee (lmlog32 false)) /\
  sized 2 2 12 h3U /\ sized 2 2 12 h3V /\ sized 2 2 12 h3W /\ (forall x, In x h3U \/ In x h3V \/ In x h3W -> zero_or_usual 38 x) /\
  offline3_ebs A' O' acbrt1 (dy 1 0) 2 2 12 h3U h3V h3W = Some h3E /\
  forall eb, offline3_ebs A' O' acbrt1 (dy 1 0) 2 2 12 h3U h3V h3W = Some eb -> log3_short_with A' (stored_bound A' eb 2 12) ord0 2 2 12 h3U h3V h3W.
Proof.
  split; [apply out_size_some, h3_size|]. split; [apply lmlog32_ok|]. split; [apply lmlog32_log_ok|].
  split; [reflexivity|]. split; [reflexivity|]. split; [reflexivity|]. split; [exact h3_usual|]. split; [exact h3_ebs|].
  intros eb E. rewrite h3_ebs in E. apply Some_inj in E. subst eb. apply short_with. vm_compute. reflexivity.
Qed.

(** ** The exact cube root *)
Definition xcbrt (x : XR) : XR := match x with Fin r => if Rlt_dec 0 r then Fin (Rpower r (/ 3)) else Fin 1 | y => y end.
Lemma xcbrt_ok : cube_root0 xcbrt.
Proof.
  split.
  - intros x Hx. exists (Rpower x (/ 3)). unfold xcbrt. destruct (Rlt_dec 0 x); [|contradiction]. split; [reflexivity|].
    split; [apply exp_pos|]. rewrite <- !Rpower_plus. replace (/ 3 + / 3 + / 3)%R with 1%R by lra. apply Rpower_1. exact Hx.
  - exists 1%R. unfold xcbrt. destruct (Rlt_dec 0 0); [lra|]. split; [reflexivity|lra].
Qed.

(** A field with a tetrahedron with a critical point, one without, and one with vectors some of whose components are zero. *)
Definition g6 : list R := (-1 :: repeat 1 15 ++ repeat 2 4)%R.
Lemma g6_large x : In x g6 -> zero_or_large x.
Proof.
  intros H. right. assert (E : (1 <= Rabs x)%R).
  { unfold g6 in H. destruct H as [<-|H]; [rewrite Rabs_left; lra|]. apply in_app_or in H.
    destruct H as [H|H]; apply repeat_spec in H; subst x; rewrite Rabs_pos_eq; lra. }
  eapply Rle_trans; [|exact E]. apply Rle_trans with (powerRZ 2 0); [|cbn; lra]. change 2%R with (IZR radix2). rewrite <- !bpow_powerRZ. apply bpow_le. lia.
Qed.
Lemma g56_ok : cube_root0 xcbrt /\ (0 <= 1 < 3)%R /\
  tet 5 2 2 [(0, 0, 0); (1, 0, 0); (1, 1, 0); (1, 1, 1)] /\ tet 5 2 2 [(1, 0, 0); (2, 0, 0); (2, 1, 0); (2, 1, 1)] /\
  tet 5 2 2 [(3, 0, 0); (4, 0, 0); (4, 1, 0); (4, 1, 1)] /\
  has_cp3 (map (vecR3 2 2 g4 g6 g6) [(0, 0, 0); (1, 0, 0); (1, 1, 0); (1, 1, 1)]) /\
  ~ has_cp3 (map (vecR3 2 2 g4 g6 g6) [(1, 0, 0); (2, 0, 0); (2, 1, 0); (2, 1, 1)]) /\
  vecR3 2 2 g4 g6 g6 (4, 0, 0) = (0, 2, 2)%R /\
  sized 5 2 2 g4 /\ sized 5 2 2 g6 /\ forall x, In x g4 \/ In x g6 \/ In x g6 -> zero_or_large x.
Proof.
  split; [exact xcbrt_ok|]. split; [lra|].
  split; [apply (tet_path 5 2 2 (0, 0, 0) (1, 0, 0) (0, 1, 0) (0, 0, 1)); cbn; try lia; apply Permutation.Permutation_refl|].
  split; [apply (tet_path 5 2 2 (1, 0, 0) (1, 0, 0) (0, 1, 0) (0, 0, 1)); cbn; try lia; apply Permutation.Permutation_refl|].
  split; [apply (tet_path 5 2 2 (3, 0, 0) (1, 0, 0) (0, 1, 0) (0, 0, 1)); cbn; try lia; apply Permutation.Permutation_refl|].
  change (map (vecR3 2 2 g4 g6 g6) [(0, 0, 0); (1, 0, 0); (1, 1, 0); (1, 1, 1)]) with [(-1, -1, -1); (1, 1, 1); (1, 1, 1); (1, 1, 1)]%R.
  change (map (vecR3 2 2 g4 g6 g6) [(1, 0, 0); (2, 0, 0); (2, 1, 0); (2, 1, 1)]) with [(1, 1, 1); (1, 1, 1); (1, 1, 1); (1, 1, 1)]%R.
  split; [|split; [|split; [reflexivity|split; [reflexivity|split; [reflexivity|]]]]].
  - apply has_cp3_four. exists (1 / 2)%R, (1 / 2)%R, 0%R, 0%R. unfold cx, cy, cz; cbn [fst snd]. repeat split; lra.
  - intros H. apply has_cp3_four in H. destruct H as (a & b & c & d & Ha & Hb & Hc & Hd & H1 & H2 & _).
    unfold cx in H2; cbn [fst snd] in H2. lra.
  - intros x [H|[H|H]]; [apply g4_large; exact H|apply g6_large; exact H|apply g6_large; exact H].
Qed.

(** ** Bound 0: a value of magnitude 2^44 does not come back.  The cell bounds overflow in single precision; MIN with a NaN forgets the
    requested bound, and the next cell sets the bound of the vertex to 1. *)
Definition bgc (c p : Z) : binary64 :=
  let k := (p / 16 + p / 8 mod 2 + p mod 8) mod 4 in
  if (k =? 3) || (k =? c) then dy 1 (44 * ((p + 1) mod 2)) else dy 0 0.
Definition bgU : list binary64 := dy (2 ^ 52 + 1) (-8) :: map (bgc 0) (zrange 1 32).
Definition bgV : list binary64 := map (bgc 1) (zrange 0 32).
Definition bgW : list binary64 := map (bgc 2) (zrange 0 32).
Local Notation bgrun := (compress_off3 A O acbrt1 (dy 0 0) ord0 ub0 2 2 8 bgU bgV bgW (repeat 0 768)).

Definition bg_check (eb : option (list binary64)) (run : option (list Z * nat)) (dec : list Z -> option (list binary64 * list binary64 * list binary64)) : bool :=
  match eb, run with
  | Some (e :: _), Some (b, s) => match dec (firstn s b) with
      | Some (x :: _, _, _) => (bits_of_b64 e =? bits_of_b64 (dy 1 0)) && (bits_of_b64 x =? bits_of_b64 (dy 1 44))
      | _ => false end
  | _, _ => false end.
Lemma bg_check_spec eb run dec : bg_check eb run dec = true -> exists e buf size U' V' W', eb = Some e /\ aget e 0 = Some (dy 1 0) /\
  run = Some (buf, size) /\ dec (firstn size buf) = Some (U', V', W') /\ aget U' 0 = Some (dy 1 44).
Proof.
  unfold bg_check. destruct eb as [[|e es]|]; try discriminate. destruct run as [[b s]|]; [|discriminate].
  destruct (dec (firstn s b)) as [[[[|x u] v] w]|] eqn:E; try discriminate. intros H. apply andb_true_iff in H. destruct H as [H1 H2].
  apply Z.eqb_eq, bits_inj in H1, H2. subst. exists (dy 1 0 :: es), b, s, (dy 1 44 :: u), v, w. auto.
Qed.

Definition moderate (x : binary64) : Prop := is_finite 53 1024 x = true /\ (Rabs (B2R 53 1024 x) <= bpow radix2 45)%R.
Lemma bg_moderate x : In x bgU \/ In x bgV \/ In x bgW -> moderate x.
Proof.
  assert (G : forall c p, moderate (bgc c p)).
  { intros c p. unfold bgc. pose proof (Z.mod_pos_bound (p + 1) 2 ltac:(lia)).
    destruct (_ || _); [destruct (dy_usual1 1 (44 * ((p + 1) mod 2)) 45 ltac:(lia) ltac:(lia) ltac:(lia)) as (F & _ & B)|
                        destruct (dy_usual1 0 0 45 ltac:(lia) ltac:(lia) ltac:(lia)) as (F & _ & B)]; split; auto. }
  intros [[<-|H]|[H|H]]; [|apply in_map_iff in H; destruct H as (p & <- & _); apply G..].
  destruct (dy_usual (2 ^ 52 + 1) (-8) 45 ltac:(lia) ltac:(lia) ltac:(lia)) as (F & _ & B). split; auto.
Qed.

Theorem off3_large_refuted : exists U V W eb buf size U' V' W' x x',
  libm_ok A (DA_ieee (lmlog64 false)) /\ log_libm_ok A (DA_ieee (lmlog64 false)) /\
  sized 2 2 8 U /\ sized 2 2 8 V /\ sized 2 2 8 W /\ (forall y, In y U \/ In y V \/ In y W -> moderate y) /\
  offline3_ebs A O acbrt1 (dy 0 0) 2 2 8 U V W = Some eb /\ aget eb 0 = Some (dy 1 0) /\
  compress_off3 A O acbrt1 (dy 0 0) ord0 ub0 2 2 8 U V W (repeat 0 768) = Some (buf, size) /\
  decompress_log3 A 2 2 8 (firstn size buf) = Some (U', V', W') /\
  aget U 0 = Some x /\ aget U' 0 = Some x' /\ is_finite 53 1024 x' = true /\ B2R 53 1024 x' <> B2R 53 1024 x.
Proof.
  destruct (bg_check_spec (offline3_ebs A O acbrt1 (dy 0 0) 2 2 8 bgU bgV bgW) bgrun (decompress_log3 A 2 2 8))
    as (eb & buf & size & U' & V' & W' & E1 & E2 & E3 & E4 & E5); [vm_compute; reflexivity|].
  exists bgU, bgV, bgW, eb, buf, size, U', V', W', (dy (2 ^ 52 + 1) (-8)), (dy 1 44).
  split; [apply lmlog64_ok|]. split; [apply lmlog64_log_ok|]. split; [reflexivity|]. split; [reflexivity|]. split; [reflexivity|].
  split; [exact bg_moderate|]. do 4 (split; [assumption|]). split; [reflexivity|]. split; [assumption|].
  destruct (proj1 (val_fin_iff 53 1024 _ _) (dy_val 1 44 ltac:(lia) ltac:(lia))) as [F ->].
  destruct (proj1 (val_fin_iff 53 1024 _ _) (dy_val (2 ^ 52 + 1) (-8) ltac:(lia) ltac:(lia))) as [_ ->].
  split; [exact F|]. change (2 ^ 52 + 1) with 4503599627370497. change (bpow radix2 (-8)) with (/ 256)%R. change (bpow radix2 44) with (IZR 17592186044416). lra.
Qed.
