(** Runs of the multilevel codec and limits of its guarantees.  Nothing of /repo is modelled here. *)
From Coq Require Import Reals Lra Lia ZArith List Bool.
From Coq Require Import ZifyBool ZifyNat.
From Flocq Require Import Core.Core IEEE754.BinarySingleNaN IEEE754.Binary IEEE754.Bits.
From Verif Require Import Base Huffman HuffStream HuffProps Stream Arith Mesh2D Derive2D Codec2D Sync2D Trace2D Scan Stream2D Exact IEEE IEEELaws IEEEQuant
  IEEE2D IEEEAbs2D TotalAny Total2D Api2D LibmModel Witness2D Examples2D Refute2D RelaxApi2D Cells2D Geo2D Preserve2D LogRefute2D UnsRefute
  Sz3 Sz3Order Sz3Sync Sz3Err Sz3Cells Sz3Api.
Import ListNotations.
Local Open Scope Z_scope.

Lemma sz3_short_check A wrap max_eb ord r1 r2 U V :
  (match enc_sz3 A wrap max_eb r1 r2 U V with Some (_, c) => (length (nodup Z.eq_dec (c_eb c)) <=? 65)%nat && (length (nodup Z.eq_dec (c_q c)) <=? 65)%nat
   | None => true end) = true -> sz3_short A wrap max_eb ord r1 r2 U V.
Proof.
  intros HC s c E. rewrite E in HC. apply andb_true_iff in HC. destruct HC as [H1 H2]. apply Nat.leb_le in H1, H2.
  split; apply few_symbols_max_code; auto.
Qed.

(** ** A 6x6 run *)
Definition z6 : list Z := [64; 64; 64; 64; 64; 64; 80; 80; 80; 80; 80; 80; 96; 96; 96; 96; 96; 96;
  112; 112; 112; 2; -2; 4; 128; 128; 128; 4; 0; -4; 144; 144; 144; 1; 0; 2].
Definition y6 : list Z := [64; 80; 96; 112; 128; 144; 64; 80; 96; 112; 128; 144; 64; 80; 96; 112; 128; 144;
  64; 80; 96; 4; 4; 2; 64; 80; 96; 1; 0; 1; 64; 80; 96; -1; 2; 2].
Definition U6 : list binary64 := map (fun z => dy z 0) z6.
Definition V6 : list binary64 := map (fun z => dy z 0) y6.
Definition two : binary64 := dy 2 0.
Lemma two_val : B2R 53 1024 two = 2%R.
Proof. unfold two. destruct (dy_B2R 2 0 ltac:(lia) ltac:(lia)) as [_ ->]. cbn [bpow]. lra. Qed.

Definition sz3_symbols A wrap (max_eb : D A) r1 r2 U V : option (list Z * list Z) :=
  match enc_sz3 A wrap max_eb r1 r2 U V with Some (_, c) => Some (c_eb c, c_q c) | None => None end.
Lemma run6 x86 wrap : out_size (compress_sz3 (DA (lm64 x86)) wrap two ord0 ub0 6 6 U6 V6 (repeat 0 576)) = Some 380%nat.
Proof. destruct x86, wrap; vm_compute; reflexivity. Qed.
Lemma symbols6 x86 wrap : option_map (fun '(a, b) => (firstn 6 a, firstn 12 b)) (sz3_symbols (DA (lm64 x86)) wrap two 6 6 U6 V6) =
  Some ([26; 26; 26; 0; 26; 26], [32800; 32800; 32800; 32768; 32768; 32800; 0; 0; 32768; 32768; 32800; 32800]).
Proof. destruct x86, wrap; vm_compute; reflexivity. Qed.
Lemma short6 x86 wrap : sz3_short (DA (lm64 x86)) wrap two ord0 6 6 U6 V6.
Proof. apply sz3_short_check. destruct x86, wrap; vm_compute; reflexivity. Qed.

Lemma dy_le z : Z.abs z <= 2 ^ 40 -> finite_le 500 (dy z 0).
Proof.
  intros H. destruct (dy_B2R z 0 ltac:(lia) ltac:(lia)) as [F E]. split; [exact F|]. rewrite E. replace (bpow radix2 0) with 1%R by reflexivity.
  rewrite Rmult_1_r, <- abs_IZR. apply Rle_trans with (bpow radix2 40).
  - change (bpow radix2 40) with (IZR (2 ^ 40)). apply IZR_le. auto.
  - apply bpow_le. lia.
Qed.
Lemma all_dy l x : forallb (fun z => Z.abs z <=? 2 ^ 40) l = true -> In x (map (fun z => dy z 0) l) -> finite_le 500 x.
Proof. intros HL H. apply in_map_iff in H. destruct H as (z & <- & Hz). rewrite forallb_forall in HL. specialize (HL z Hz). apply dy_le. lia. Qed.
Lemma all6 x : In x U6 \/ In x V6 -> finite_le 500 x.
Proof. intros [H|H]; [apply (all_dy z6)|apply (all_dy y6)]; auto. Qed.

Lemma sz3_example x86 wrap :
  (exists buf, compress_sz3 (DA (lm64 x86)) wrap two ord0 ub0 6 6 U6 V6 (repeat 0 576) = Some (buf, 380%nat)) /\
  option_map (fun '(a, b) => (firstn 6 a, firstn 12 b)) (sz3_symbols (DA (lm64 x86)) wrap two 6 6 U6 V6) =
    Some ([26; 26; 26; 0; 26; 26], [32800; 32800; 32800; 32768; 32768; 32800; 0; 0; 32768; 32768; 32800; 32800]) /\
  libm_ok (DA (lm64 x86)) (DA_ieee (lm64 x86)) /\ sz3_short (DA (lm64 x86)) wrap two ord0 6 6 U6 V6 /\
  (forall x, In x U6 \/ In x V6 -> finite_le 500 x) /\ is_finite 53 1024 two = true /\ (0 < B2R 53 1024 two <= bpow radix2 500)%R /\
  Z.of_nat (length U6) = 6 * 6 /\ Z.of_nat (length V6) = 6 * 6 /\ Z.of_nat (length (repeat 0 576)) < 2 ^ 64.
Proof.
  split; [apply out_size_some, run6|]. split; [apply symbols6|]. split; [apply lm64_ok|]. split; [apply short6|]. split; [exact all6|].
  split; [reflexivity|]. split; [|split; [reflexivity|split; reflexivity]]. rewrite two_val. split; [lra|].
  apply Rle_trans with (bpow radix2 1); [cbn; lra|apply bpow_le; lia].
Qed.

(** ** A zero on the boundary of a triangle appears *)
Definition bits6 A (wrap : bool) (max_eb : D A) r1 r2 U V n (bits : T A -> Z) (ks : list Z) : option (list (option Z) * list (option Z)) :=
  match compress_sz3 A wrap max_eb ord0 ub0 r1 r2 U V (repeat 0 n) with
  | Some (buf, size) => match decompress_sz3 A wrap r1 r2 (firstn size buf) with
      | Some (U', V') => Some (map (fun k => option_map bits (aget U' k)) ks, map (fun k => option_map bits (aget V' k)) ks) | None => None end
  | None => None
  end.
Lemma bits6_run x86 wrap : bits6 (DA (lm64 x86)) wrap two 6 6 U6 V6 576 bits_of_b64 [27; 33; 34] =
  Some (map (fun x => Some (bits_of_b64 x)) [dy 4 0; dy 0 0; dy 0 0], map (fun x => Some (bits_of_b64 x)) [dy 1 0; dy (-5) (-2); dy 2 0]).
Proof. destruct x86, wrap; vm_compute; reflexivity. Qed.

Lemma list3_inj {X} (a b c x y z : X) : [a; b; c] = [x; y; z] -> a = x /\ b = y /\ c = z.
Proof. intros H. inversion H. auto. Qed.

Definition vecB (r2 : Z) (U V : list binary64) (a : Z * Z) : R * R := vecR r2 (map (B2R 53 1024) U) (map (B2R 53 1024) V) a.
Lemma vecB_get r2 U V a u v : 0 <= lin r2 a -> aget U (lin r2 a) = Some u -> aget V (lin r2 a) = Some v ->
  vecB r2 U V a = (B2R 53 1024 u, B2R 53 1024 v).
Proof.
  intros H HU HV. unfold vecB, vecR. unfold aget in HU, HV. replace (lin r2 a <? 0) with false in * by lia.
  assert (G : forall (l : list binary64) n x, nth_error l n = Some x -> nth n (map (B2R 53 1024) l) 0%R = B2R 53 1024 x).
  { intros l n x E. apply (map_nth_error (B2R 53 1024)) in E. apply nth_error_nth. exact E. }
  rewrite (G _ _ _ HU), (G _ _ _ HV). reflexivity.
Qed.

Lemma bits6_inv lm wrap max_eb r1 r2 U V n p q r u0 u1 u2 v0 v1 v2 :
  bits6 (DA lm) wrap max_eb r1 r2 U V n bits_of_b64 [p; q; r] =
    Some (map (fun x => Some (bits_of_b64 x)) [u0; u1; u2], map (fun x => Some (bits_of_b64 x)) [v0; v1; v2]) ->
  exists buf size U' V', compress_sz3 (DA lm) wrap max_eb ord0 ub0 r1 r2 U V (repeat 0 n) = Some (buf, size) /\
    decompress_sz3 (DA lm) wrap r1 r2 (firstn size buf) = Some (U', V') /\
    aget U' p = Some u0 /\ aget U' q = Some u1 /\ aget U' r = Some u2 /\ aget V' p = Some v0 /\ aget V' q = Some v1 /\ aget V' r = Some v2.
Proof.
  unfold bits6. intros H.
  destruct (compress_sz3 _ _ _ _ _ _ _ _ _ _) as [[buf size]|]; [|discriminate].
  destruct (decompress_sz3 _ _ _ _ _) as [[U' V']|] eqn:E2; [|discriminate]. apply Some_inj in H. symmetry in H. apply pair_equal_spec in H. destruct H as [HU HV].
  cbn [map] in HU, HV. apply list3_inj in HU, HV. destruct HU as (U1 & U2 & U3), HV as (V1 & V2 & V3).
  assert (G : forall (l : list binary64) k y, option_map bits_of_b64 (aget l k) = Some (bits_of_b64 y) -> aget l k = Some y).
  { intros l k y Hy. destruct (aget l k) as [x|]; [|discriminate]. cbn [option_map] in Hy. injection Hy as Hy. f_equal. apply bits_eq. apply Z.eqb_eq. exact Hy. }
  apply G in U1, U2, U3, V1, V2, V3. exists buf, size, U', V'. repeat (split; [first [reflexivity|assumption]|]). assumption.
Qed.

Lemma before6 : ~ has_cp (vecB 6 U6 V6 (4, 3)) (vecB 6 U6 V6 (5, 3)) (vecB 6 U6 V6 (5, 4)).
Proof.
  assert (B : forall z, Z.abs z < 2 ^ 53 -> B2R 53 1024 (dy z 0) = IZR z).
  { intros z Hz. destruct (dy_B2R z 0 Hz ltac:(lia)) as [_ ->]. replace (bpow radix2 0) with 1%R by reflexivity. lra. }
  assert (G : forall i j z y, nth_error z6 (Z.to_nat (i * 6 + j)) = Some z -> nth_error y6 (Z.to_nat (i * 6 + j)) = Some y -> Z.abs z < 2 ^ 53 -> Z.abs y < 2 ^ 53 ->
    vecB 6 U6 V6 (i, j) = (IZR z, IZR y)).
  { intros i j z y Hz Hy Bz By. unfold vecB, vecR, lin, U6, V6. cbn [fst snd]. rewrite !map_map.
    apply (map_nth_error (fun x => B2R 53 1024 (dy x 0))) in Hz, Hy. rewrite (nth_error_nth _ _ _ Hz), (nth_error_nth _ _ _ Hy), !B by auto. reflexivity. }
  rewrite (G 4 3 4 1), (G 5 3 1 (-1)), (G 5 4 0 2) by (reflexivity || lia).
  unfold has_cp. cbn [fst snd]. intros (l0 & l1 & l2 & P0 & P1 & P2 & S & X & Y). lra.
Qed.
Lemma after6 U' V' : aget U' 27 = Some (dy 4 0) -> aget U' 33 = Some (dy 0 0) -> aget U' 34 = Some (dy 0 0) ->
  aget V' 27 = Some (dy 1 0) -> aget V' 33 = Some (dy (-5) (-2)) -> aget V' 34 = Some (dy 2 0) ->
  has_cp (vecB 6 U' V' (4, 3)) (vecB 6 U' V' (5, 3)) (vecB 6 U' V' (5, 4)).
Proof.
  intros U1 U2 U3 V1 V2 V3.
  assert (N1 : 0 <= lin 6 (4, 3)) by (unfold lin; cbn [fst snd]; lia). assert (N2 : 0 <= lin 6 (5, 3)) by (unfold lin; cbn [fst snd]; lia).
  assert (N3 : 0 <= lin 6 (5, 4)) by (unfold lin; cbn [fst snd]; lia).
  rewrite (vecB_get 6 U' V' (4, 3) _ _ N1 U1 V1), (vecB_get 6 U' V' (5, 3) _ _ N2 U2 V2), (vecB_get 6 U' V' (5, 4) _ _ N3 U3 V3).
  assert (B : forall m e, Z.abs m < 2 ^ 53 -> -1074 <= e <= 900 -> B2R 53 1024 (dy m e) = (IZR m * bpow radix2 e)%R).
  { intros m e Hm He. apply (dy_B2R m e Hm He). }
  clear - B. rewrite !(B _ 0), !(B _ (-2)) by lia. replace (bpow radix2 0) with 1%R by reflexivity. replace (bpow radix2 (-2)) with (/4)%R by reflexivity.
  unfold has_cp. cbn [fst snd]. exists 0%R, (8 / 13)%R, (5 / 13)%R. lra.
Qed.

Theorem sz3_boundary_refuted x86 wrap : exists r1 r2 U V buf size U' V' a b d,
  (forall x, In x U \/ In x V -> finite_le 500 x) /\ Z.of_nat (length U) = r1 * r2 /\ Z.of_nat (length V) = r1 * r2 /\
  sz3_short (DA (lm64 x86)) wrap two ord0 r1 r2 U V /\
  compress_sz3 (DA (lm64 x86)) wrap two ord0 ub0 r1 r2 U V (repeat 0 576) = Some (buf, size) /\
  decompress_sz3 (DA (lm64 x86)) wrap r1 r2 (firstn size buf) = Some (U', V') /\ cell r1 r2 a b d /\
  ~ has_cp (vecB r2 U V a) (vecB r2 U V b) (vecB r2 U V d) /\ has_cp (vecB r2 U' V' a) (vecB r2 U' V' b) (vecB r2 U' V' d).
Proof.
  destruct (bits6_inv _ _ _ _ _ _ _ _ _ _ _ _ _ _ _ _ _ (bits6_run x86 wrap)) as (buf & size & U' & V' & E1 & E2 & U1 & U2 & U3 & V1 & V2 & V3).
  exists 6, 6, U6, V6, buf, size, U', V', (4, 3), (5, 3), (5, 4).
  split; [exact all6|]. split; [reflexivity|]. split; [reflexivity|]. split; [apply short6|]. split; [exact E1|]. split; [exact E2|].
  split; [apply (cell_lower 6 6 4 3); lia|]. split; [exact before6|]. apply after6; assumption.
Qed.

(** ** Conversions to int out of range *)
Definition tiny : binary64 := dy 1 (-40).
Lemma tiny_val : B2R 53 1024 tiny = bpow radix2 (-40).
Proof. unfold tiny. destruct (dy_B2R 1 (-40) ltac:(lia) ltac:(lia)) as [_ ->]. lra. Qed.
Definition is_none {X} (o : option X) : bool := match o with None => true | _ => false end.
Lemma tiny_run wrap : is_none (enc_sz3 (DA (lm64 false)) wrap tiny 6 6 U6 V6) = true.
Proof. destruct wrap; vm_compute; reflexivity. Qed.
Theorem sz3_ub_refuted wrap : exists max_eb r1 r2 U V, B2R 53 1024 max_eb = bpow radix2 (-40) /\
  (forall x, In x U \/ In x V -> finite_le 500 x) /\ 1 <= r1 /\ 1 <= r2 /\ Z.of_nat (length U) = r1 * r2 /\ Z.of_nat (length V) = r1 * r2 /\
  enc_sz3 (DA (lm64 false)) wrap max_eb r1 r2 U V = None.
Proof.
  exists tiny, 6, 6, U6, V6. split; [exact tiny_val|]. split; [exact all6|]. split; [lia|]. split; [lia|]. split; [reflexivity|]. split; [reflexivity|].
  pose proof (tiny_run wrap) as H. destruct (enc_sz3 _ _ _ _ _ _ _); [discriminate|reflexivity].
Qed.

(** Even with the machine's conversions, a symbol can be outside the alphabet of the entropy coder (131072). *)
Definition zw : list Z := map (fun k => - 2 ^ 31 - 2 ^ 20 * (k / 3)) (zrange 0 9).
Definition yw : list Z := map (fun k => 2 ^ 31 + 2 ^ 20 * (k mod 3)) (zrange 0 9).
Definition Uw : list binary64 := map (fun z => dy z 0) zw.
Definition Vw : list binary64 := map (fun z => dy z 0) yw.
Lemma window_run : option_map snd (sz3_symbols (DA (lm64 true)) true two 3 3 Uw Vw) =
  Some [1073774592; 0; 0; 32768; 32768; 0; 32768; 0; 32768; 32768; 32768; 32768; 32768; 32768; 32768; 32768; 32768; 32768].
Proof. vm_compute. reflexivity. Qed.
Lemma all_w x : In x Uw \/ In x Vw -> finite_le 500 x.
Proof. intros [H|H]; [apply (all_dy zw)|apply (all_dy yw)]; auto. Qed.
Lemma window_compress : is_none (compress_sz3 (DA (lm64 true)) true two ord0 ub0 3 3 Uw Vw (repeat 0 144)) = true.
Proof. vm_compute. reflexivity. Qed.

Theorem sz3_alphabet_refuted : exists r1 r2 U V s c q, (forall x, In x U \/ In x V -> finite_le 500 x) /\
  1 <= r1 /\ 1 <= r2 /\ Z.of_nat (length U) = r1 * r2 /\ Z.of_nat (length V) = r1 * r2 /\
  enc_sz3 (DA (lm64 true)) true two r1 r2 U V = Some (s, c) /\ In q (c_q c) /\ 131072 <= q.
Proof.
  pose proof window_run as H. unfold sz3_symbols in H. destruct (enc_sz3 _ _ _ _ _ _ _) as [[s c]|] eqn:E; [|discriminate].
  cbn [option_map snd] in H. injection H as H. exists 3, 3, Uw, Vw, s, c, 1073774592. split; [exact all_w|]. split; [lia|]. split; [lia|].
  split; [reflexivity|]. split; [reflexivity|]. split; [exact E|]. split; [|lia]. change (T (DA (lm64 true))) with binary64 in *. rewrite H. left. reflexivity.
Qed.

(** ** Exact arithmetic: a field with a critical triangle and others *)
Definition xu : list R := [-1; -1; -1; 1; 2; 1; 4; 4; 4]%R.
Definition xv : list R := [-1; 1; 2; 0; 3; 2; 5; 6; 8]%R.
Lemma sz3_exact_example : Z.of_nat (length xu) = 3 * 3 /\ Z.of_nat (length xv) = 3 * 3 /\
  (exists a b d, cell 3 3 a b d /\ has_cp (vecR 3 xu xv a) (vecR 3 xu xv b) (vecR 3 xu xv d)) /\
  (exists a b d, cell 3 3 a b d /\ ~ has_cp (vecR 3 xu xv a) (vecR 3 xu xv b) (vecR 3 xu xv d)) /\
  exists s c, enc_sz3 (XO (Some (- 2 ^ 31))) true (Fin 1) 3 3 (map Fin xu) (map Fin xv) = Some (s, c).
Proof.
  split; [reflexivity|]. split; [reflexivity|]. split; [|split].
  - exists (0, 0), (0 + 1, 0), (0 + 1, 0 + 1). split; [apply cell_lower; lia|]. unfold has_cp, vecR, lin, xu, xv. cbn [fst snd].
    change (Z.to_nat (0 * 3 + 0)) with (0%nat). change (Z.to_nat ((0 + 1) * 3 + 0)) with (3%nat). change (Z.to_nat ((0 + 1) * 3 + (0 + 1))) with (4%nat). cbn [nth].
    exists (3 / 5)%R, (1 / 5)%R, (1 / 5)%R. lra.
  - exists (1, 1), (1 + 1, 1), (1 + 1, 1 + 1). split; [apply cell_lower; lia|]. unfold has_cp, vecR, lin, xu, xv. cbn [fst snd].
    change (Z.to_nat (1 * 3 + 1)) with (4%nat). change (Z.to_nat ((1 + 1) * 3 + 1)) with (7%nat). change (Z.to_nat ((1 + 1) * 3 + (1 + 1))) with (8%nat). cbn [nth].
    intros (l0 & l1 & l2 & P0 & P1 & P2 & S & X & Y). lra.
  - apply sz3_exact_total; try lia; try reflexivity. apply Rle_trans with (IZR 1); [lra|apply big_ge_1].
Qed.
