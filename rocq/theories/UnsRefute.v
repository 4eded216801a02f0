(** Runs of the unstructured codec; a zero component shifts the signs of the values after it.  Nothing of /repo is modelled here. *)
From Coq Require Import Reals Lra Lia ZArith List Bool.
From Coq Require Import ZifyBool ZifyNat.
From Flocq Require Import Core.Core IEEE754.BinarySingleNaN IEEE754.Binary IEEE754.Bits.
From Verif Require Import Base Huffman HuffStream HuffProps Stream Arith Mesh2D Mesh3D Derive3D Codec2D Sync2D Scan Stream2D Exact IEEE IEEELaws IEEEQuant
  IEEE2D IEEEAbs2D Api2D LibmModel Witness2D Examples2D Refute2D RelaxApi2D Abs3D Sync3D Cells3D Geo3D Preserve3D Total3D IEEE3D Api3D Refute3D
  Log2D LogSync2D LogCells2D LogErr2D LogLibm LogApi2D LogRefute2D Log3D LogSync3D LogErr3D LogCells3D LogTotal3D LogApi3D LogRefute3D
  Uns3D UnsSync UnsErr UnsCells UnsApi.
Import ListNotations.
Local Open Scope Z_scope.

Lemma short_uns A max_eb ord n tets data :
  (match enc_uns A max_eb tets n data with Some (_, c) => (length (c_q c) <=? 65)%nat | None => true end) = true ->
  uns_short A max_eb ord n tets data.
Proof.
  intros HC s c E. rewrite E in HC. apply Nat.leb_le in HC.
  assert (N : forall l : list Z, (length (nodup Z.eq_dec l) <= length l)%nat).
  { induction l as [|x l IH]; cbn [nodup]; auto. destruct (in_dec _ _ _); cbn [length]; lia. }
  apply few_symbols_max_code. eapply Nat.le_trans; [apply N|lia].
Qed.

(** ** A run with a critical tetrahedron and symbols of both kinds *)
Definition mesh24 : list tetra := [(0, 1, 2, 3); (4, 1, 2, 3); (4, 5, 6, 7); (8, 5, 6, 7); (11, 12, 13, 14); (23, 20, 21, 22)].
Definition ug_at (p : Z) : list binary64 := if p =? 23 then [dy (-1) 0; dy (-1) 1; dy (-1) 2] else [dy 1 (p / 12); dy 1 0; dy 1 1].
Definition ug : list binary64 := concat (map ug_at (zrange 0 24)).
Definition uns_symbols_of A (max_eb : D A) tets n data : option (list Z) :=
  match enc_uns A max_eb tets n data with Some (_, c) => Some (c_eb c) | None => None end.
Lemma ex_uns_runs x86 : out_size (compress_uns (DA (lmlog64 x86)) one ord0 ub0 24 mesh24 ug (repeat 0 576)) = Some 258%nat.
Proof. destruct x86; vm_compute; reflexivity. Qed.
Lemma ex_uns_symbols x86 : uns_symbols_of (DA (lmlog64 x86)) one mesh24 24 ug =
  Some [0; 23; 23; 23; 23; 23; 23; 23; 23; 23; 23; 23; 0; 23; 23; 23; 23; 23; 23; 23; 0; 0; 0; 0].
Proof. destruct x86; vm_compute; reflexivity. Qed.
Lemma ug_usual x : In x ug -> nonzero_usual 100 x.
Proof.
  intros H. unfold ug in H. apply in_concat in H. destruct H as (l & Hl & Hx). apply in_map_iff in Hl. destruct Hl as (p & <- & Hp). apply in_zrange in Hp.
  pose proof (Z.div_le_mono p 24 12 ltac:(lia) ltac:(lia)). pose proof (Z.div_pos p 12 ltac:(lia) ltac:(lia)). change (24 / 12) with 2 in *.
  assert (C : p / 12 = 0 \/ p / 12 = 1 \/ p / 12 = 2) by lia.
  unfold ug_at in Hx. destruct (p =? 23).
  - destruct Hx as [<-|[<-|[<-|[]]]]; (split; [apply dy_usual; lia|reflexivity]).
  - destruct Hx as [<-|[<-|[<-|[]]]]; [destruct C as [-> | [-> | ->]]|..]; (split; [apply dy_usual; lia|reflexivity]).
Qed.
Lemma ex_uns_ok x86 :
  (exists buf, compress_uns (DA (lmlog64 x86)) one ord0 ub0 24 mesh24 ug (repeat 0 576) = Some (buf, 258%nat)) /\
  uns_symbols_of (DA (lmlog64 x86)) one mesh24 24 ug =
    Some [0; 23; 23; 23; 23; 23; 23; 23; 23; 23; 23; 23; 0; 23; 23; 23; 23; 23; 23; 23; 0; 0; 0; 0] /\
  libm_ok (DA (lmlog64 x86)) (DA_ieee (lmlog64 x86)) /\ log_libm_ok (DA (lmlog64 x86)) (DA_ieee (lmlog64 x86)) /\
  uns_short (DA (lmlog64 x86)) one ord0 24 mesh24 ug /\ (forall x, In x ug -> nonzero_usual 100 x) /\
  Z.of_nat (length ug) = 3 * 24 /\ forallb (in_range 24) mesh24 = true /\
  is_finite 53 1024 one = true /\ (0 <= B2R 53 1024 one <= 5 / 2)%R.
Proof.
  split; [apply out_size_some, ex_uns_runs|]. split; [apply ex_uns_symbols|]. split; [apply lmlog64_ok|]. split; [apply lmlog64_log_ok|].
  split; [apply short_uns; destruct x86; vm_compute; reflexivity|]. split; [exact ug_usual|].
  split; [reflexivity|]. split; [reflexivity|]. split; [reflexivity|]. rewrite one_val. lra.
Qed.

(** ** Zero components *)
Definition drift : list binary64 := concat (repeat [dy 1 0; dy 0 0; dy (-1) 0] 24).
Definition drift_check A (max_eb : D A) n tets (data junk : list _) (pos neg : T A -> bool) : bool :=
  match compress_uns A max_eb ord0 ub0 n tets data junk with
  | Some (buf, size) => match decompress_uns A n (firstn size buf) with
                        | Some data' => existsb (fun xy => pos (fst xy) && neg (snd xy)) (combine data data')
                        | None => false end
  | None => false
  end.
Lemma combine_aget {X Y} : forall (l : list X) (l' : list Y) x y, In (x, y) (combine l l') -> exists k, aget l k = Some x /\ aget l' k = Some y.
Proof.
  intros l l' x y H. apply In_nth_error in H. destruct H as [i Hi]. exists (Z.of_nat i).
  unfold aget. replace (Z.of_nat i <? 0) with false by lia. rewrite Nat2Z.id. revert l' i Hi.
  induction l as [|a l IH]; intros [|b l'] [|i] Hi; cbn in *; try discriminate; [injection Hi as -> ->; auto|]. apply IH. exact Hi.
Qed.
Lemma drift_inv A max_eb n tets data junk pos neg : drift_check A max_eb n tets data junk pos neg = true -> exists buf size data' k x x',
  compress_uns A max_eb ord0 ub0 n tets data junk = Some (buf, size) /\ decompress_uns A n (firstn size buf) = Some data' /\
  aget data k = Some x /\ aget data' k = Some x' /\ pos x = true /\ neg x' = true.
Proof.
  unfold drift_check. intros H. destruct (compress_uns _ _ _ _ _ _ _ _) as [[buf size]|] eqn:E1; [|discriminate].
  destruct (decompress_uns _ _ _) as [data'|] eqn:E2; [|discriminate].
  apply existsb_exists in H. destruct H as ([x x'] & Hin & Hp). apply combine_aget in Hin. destruct Hin as (k & H1 & H2).
  apply andb_true_iff in Hp. exists buf, size, data', k, x, x'. tauto.
Qed.
Definition is_one (x : binary64) : bool := bits_of_b64 x =? bits_of_b64 (dy 1 0).
Definition is_minus_one (x : binary64) : bool := bits_of_b64 x =? bits_of_b64 (dy (-1) 0).
Lemma drift_run x86 : drift_check (DA (lmlog64 x86)) one 24 mesh24 drift (repeat 0 576) is_one is_minus_one = true.
Proof. destruct x86; vm_compute; reflexivity. Qed.
Lemma drift_short x86 : uns_short (DA (lmlog64 x86)) one ord0 24 mesh24 drift.
Proof.
  intros s c E. apply few_symbols_max_code. revert E.
  assert (H : match enc_uns (DA (lmlog64 x86)) one mesh24 24 drift with Some (_, c) => (length (nodup Z.eq_dec (c_q c)) <=? 65)%nat | None => true end = true)
    by (destruct x86; vm_compute; reflexivity).
  intros E. rewrite E in H. apply Nat.leb_le in H. exact H.
Qed.
Lemma drift_usual x : In x drift -> zero_or_usual 100 x.
Proof.
  intros H. unfold drift in H. apply in_concat in H. destruct H as (l & Hl & Hx). apply repeat_spec in Hl. subst l.
  destruct Hx as [<-|[<-|[<-|[]]]]; apply dy_usual; lia.
Qed.
Lemma bits_eq (x y : binary64) : (bits_of_b64 x =? bits_of_b64 y) = true -> x = y.
Proof.
  intros H. apply Z.eqb_eq in H. pose proof (binary_float_of_bits_of_binary_float 52 11 eq_refl eq_refl eq_refl x) as E1.
  pose proof (binary_float_of_bits_of_binary_float 52 11 eq_refl eq_refl eq_refl y) as E2.
  unfold bits_of_b64 in H. rewrite <- E1, <- E2, H. reflexivity.
Qed.
Lemma one_B2R : B2R 53 1024 (dy 1 0) = 1%R /\ B2R 53 1024 (dy (-1) 0) = (-1)%R.
Proof. split; [destruct (dy_B2R 1 0 ltac:(lia) ltac:(lia)) as [_ ->]|destruct (dy_B2R (-1) 0 ltac:(lia) ltac:(lia)) as [_ ->]]; cbn [bpow]; ring. Qed.

Theorem uns_drift_refuted x86 : exists n tets data buf size data' k x x',
  Z.of_nat (length data) = 3 * n /\ forallb (in_range n) tets = true /\ (forall x, In x data -> zero_or_usual 100 x) /\
  uns_short (DA (lmlog64 x86)) one ord0 n tets data /\
  compress_uns (DA (lmlog64 x86)) one ord0 ub0 n tets data (repeat 0 576) = Some (buf, size) /\
  decompress_uns (DA (lmlog64 x86)) n (firstn size buf) = Some data' /\
  aget data k = Some x /\ aget data' k = Some x' /\ B2R 53 1024 x = 1%R /\ B2R 53 1024 x' = (-1)%R.
Proof.
  destruct (drift_inv _ _ _ _ _ _ _ _ (drift_run x86)) as (buf & size & data' & k & x & x' & H1 & H2 & H3 & H4 & H5 & H6).
  apply bits_eq in H5, H6. destruct one_B2R as [V1 V2].
  exists 24, mesh24, drift, buf, size, data', k, x, x'.
  split; [reflexivity|]. split; [reflexivity|]. split; [exact drift_usual|]. split; [apply drift_short|].
  repeat (split; [assumption|]). rewrite H5, H6. auto.
Qed.

(** ** Bound 3 *)
Definition u3 : list binary64 := concat (repeat [dy 1 1; dy (-1) 0; dy 1 2] 24).
Definition none_check A (max_eb : D A) n tets (data : list (T A)) junk : bool :=
  match compress_uns A max_eb ord0 ub0 n tets data junk with
  | Some (buf, size) => match decompress_uns A n (firstn size buf) with None => true | _ => false end
  | None => false
  end.
Lemma none_inv A max_eb n tets data junk : none_check A max_eb n tets data junk = true -> exists buf size,
  compress_uns A max_eb ord0 ub0 n tets data junk = Some (buf, size) /\ decompress_uns A n (firstn size buf) = None.
Proof.
  unfold none_check. intros H. destruct (compress_uns _ _ _ _ _ _ _ _) as [[buf size]|]; [|discriminate].
  exists buf, size. split; auto. destruct (decompress_uns _ _ _); [discriminate|reflexivity].
Qed.
Lemma u3_run x86 : none_check (DA (lmlog64 x86)) three 24 [] u3 (repeat 0 576) = true.
Proof. destruct x86; vm_compute; reflexivity. Qed.
Lemma u3_usual x : In x u3 -> nonzero_usual 100 x.
Proof.
  intros H. unfold u3 in H. apply in_concat in H. destruct H as (l & Hl & Hx). apply repeat_spec in Hl. subst l.
  destruct Hx as [<-|[<-|[<-|[]]]]; (split; [apply dy_usual; lia|reflexivity]).
Qed.
Theorem uns_three_refuted x86 : exists max_eb n tets data buf size,
  B2R 53 1024 max_eb = 3%R /\ Z.of_nat (length data) = 3 * n /\ forallb (in_range n) tets = true /\ (forall x, In x data -> nonzero_usual 100 x) /\
  compress_uns (DA (lmlog64 x86)) max_eb ord0 ub0 n tets data (repeat 0 576) = Some (buf, size) /\
  decompress_uns (DA (lmlog64 x86)) n (firstn size buf) = None.
Proof.
  destruct (none_inv _ _ _ _ _ _ (u3_run x86)) as (buf & size & H1 & H2).
  exists three, 24, [], u3, buf, size. split; [exact three_val|]. split; [reflexivity|]. split; [reflexivity|]. split; [exact u3_usual|]. auto.
Qed.

(** ** Real fields: a critical tetrahedron and one that is not, sharing three vertices *)
Definition ur : list R := (-1 :: -1 :: -1 :: repeat 1 12)%R.
Definition mesh5 : list tetra := [(0, 1, 2, 3); (4, 1, 2, 3)].
Lemma ur_ok : has_cp3 (map (vecI ur) (corners (0, 1, 2, 3))) /\ ~ has_cp3 (map (vecI ur) (corners (4, 1, 2, 3))) /\
  (forall t, In t mesh5 -> NoDup (corners t)) /\ forallb (in_range 5) mesh5 = true /\ Z.of_nat (length ur) = 3 * 5 /\
  (forall x, In x ur -> (x <> 0 /\ powerRZ 2 (-97) <= Rabs x)%R) /\
  exists s c, enc_uns XA (Fin 1) mesh5 5 (map Fin ur) = Some (s, c).
Proof.
  assert (HU : forall x, In x ur -> (x <> 0 /\ powerRZ 2 (-97) <= Rabs x)%R).
  { intros x H. assert (E : Rabs x = 1%R).
    { unfold ur in H. destruct H as [<-|[<-|[<-|H]]]; try (rewrite Rabs_left; lra). apply repeat_spec in H. subst x. apply Rabs_R1. }
    split; [intros ->; rewrite Rabs_R0 in E; lra|].
    rewrite E. apply Rle_trans with (powerRZ 2 0); [|cbn; lra]. change 2%R with (IZR radix2). rewrite <- !bpow_powerRZ. apply bpow_le. lia. }
  change (map (vecI ur) (corners (0, 1, 2, 3))) with [(-1, -1, -1); (1, 1, 1); (1, 1, 1); (1, 1, 1)]%R.
  change (map (vecI ur) (corners (4, 1, 2, 3))) with [(1, 1, 1); (1, 1, 1); (1, 1, 1); (1, 1, 1)]%R.
  split; [|split; [|split; [|split; [reflexivity|split; [reflexivity|split; [exact HU|]]]]]].
  - apply has_cp3_four. exists (1 / 2)%R, (1 / 2)%R, 0%R, 0%R. unfold cx, cy, cz; cbn [fst snd]. repeat split; lra.
  - intros H. apply has_cp3_four in H. destruct H as (a & b & c & d & Ha & Hb & Hc & Hd & H1 & H2 & _).
    unfold cx in H2; cbn [fst snd] in H2. lra.
  - intros t [<-|[<-|[]]]; cbn [corners]; repeat constructor; cbn [In]; lia.
  - apply uns_total; try lia; try reflexivity; [lra|exact HU].
Qed.
