(** Concrete 3D fields; fields in which nothing can be predicted.  Nothing of /repo is modelled here. *)
From Coq Require Import Reals Lra Lia ZArith List Bool.
From Coq Require Import ZifyBool ZifyNat.
From Flocq Require Import Core.Core IEEE754.BinarySingleNaN IEEE754.Binary IEEE754.Bits.
From Verif Require Import Base Huffman HuffStream HuffProps Stream Arith Codec2D Sync2D Scan Stream2D Exact Total2D IEEE IEEELaws IEEEQuant IEEE2D IEEEAbs2D Api2D
  LibmModel Witness2D Examples2D Mesh3D Derive3D Abs3D Sync3D Cells3D Geo3D Preserve3D Total3D Lossless3D IEEE3D Api3D.
Import ListNotations.
Local Open Scope Z_scope.

(** ** Nothing predictable: no stream *)
Lemma write_pieces_empty ord ub sn ps : forall rs buf pos, Forall (fun p => exists bs, p = Raw bs \/ exists n s, p = Huff n s) rs ->
  write_pieces ord ub (rs ++ Huff sn [] :: ps) buf pos = None.
Proof.
  induction rs as [|p rs IH]; intros buf pos HF; cbn [app write_pieces].
  - destruct (huffman_encode_tree_and_data ord ub sn [] buf pos) as [[b q]|] eqn:E; [|reflexivity]. exfalso.
    unfold huffman_encode_tree_and_data in E. bind_as E t Et. apply symbols_ok_of_build in Et. apply (proj2 Et). reflexivity.
  - inversion HF; subst. destruct p as [bs|n s].
    + destruct (store pos bs buf); cbn [bind]; auto.
    + destruct (huffman_encode_tree_and_data ord ub n s buf pos) as [[b q]|]; cbn [bind]; auto.
Qed.

Section Empty.
Context (A : Arith) (Z0 : deq A (dofZ A 0) (dofZ A 0) = true).
Context (ftk : D A * D A * D A -> D A * D A * D A -> D A * D A * D A -> D A * D A * D A -> bool).

Lemma abs3_no_symbols max_eb r1 r2 r3 U V W s c : 0 <= r1 -> 0 < r2 -> 0 < r3 ->
  (forall p u v w, aget U p = Some u -> aget V p = Some v -> aget W p = Some w ->
     teq A u (t0 A) = true \/ teq A v (t0 A) = true \/ teq A w (t0 A) = true) ->
  enc_abs3 A ftk max_eb r1 r2 r3 U V W = Some (s, c) -> s = (U, V, W) /\ c_q c = [].
Proof.
  intros H1 H2 H3 HZ H. unfold enc_abs3 in H. bind_as H cp Ec.
  match type of H with scan_enc ?st _ _ = _ =>
    pose proof (fun a b => scan_code st (fun _ s c => s = (U, V, W) /\ c_q c = []) (scan3 r1 r2 r3) 0%nat _ code_nil _ _ a b H) as G end.
  apply G.
  2: { split; reflexivity. }
  intros m [[i j] k] s0 c0 s1 c1 Hm [-> Hq] HS.
  unfold abs3_point in HS. bind_as HS [[u v] w] Ev. bind_as HS eb Er.
  assert (X : eb = dofZ A 0).
  { unfold required_eb3_abs in Er. rewrite Ev in Er. cbn [bind] in Er. apply vec_at_inv in Ev. destruct Ev as (E1 & E2 & E3).
    assert (Y : (teq A u (t0 A) || teq A v (t0 A) || teq A w (t0 A))%bool = true)
      by (destruct (HZ _ _ _ _ E1 E2 E3) as [-> | [-> | -> ]]; rewrite ?orb_true_r; reflexivity).
    rewrite Y, Z0 in Er. apply Some_inj in Er. auto. }
  subst eb. rewrite Z0 in HS. apply Some_inj in HS. injection HS as Es Ecd. subst s1 c1. split; auto. unfold code_app, verbatim3. cbn [c_q]. rewrite Hq. reflexivity.
Qed.

(** A field with a zero component at every point: the compressor never produces a stream. *)
Theorem abs3_no_stream max_eb ord ub r1 r2 r3 U V W junk : 0 <= r1 -> 0 < r2 -> 0 < r3 ->
  (forall p u v w, aget U p = Some u -> aget V p = Some v -> aget W p = Some w ->
     teq A u (t0 A) = true \/ teq A v (t0 A) = true \/ teq A w (t0 A) = true) ->
  compress_abs3 A ftk max_eb ord ub r1 r2 r3 U V W junk = None.
Proof.
  intros H1 H2 H3 HZ. unfold compress_abs3. destruct (enc_abs3 A ftk max_eb r1 r2 r3 U V W) as [[s c]|] eqn:E; [|reflexivity].
  cbn [bind]. destruct (abs3_no_symbols _ _ _ _ _ _ _ _ _ H1 H2 H3 HZ E) as [_ Hq]. unfold write_abs3.
  destruct (_ =? _); [|reflexivity]. unfold abs3_pieces. rewrite Hq.
  change [?a; ?b; ?x; ?d; ?e; ?f; ?g; ?h] with ([a; b; x; d; e; f; g] ++ [h]).
  apply write_pieces_empty. repeat constructor; eexists; eauto. Unshelve. all: exact [].
Qed.
End Empty.

(** ** A run: 2 x 2 x 6, double *)
Definition mixed (f : binary64 * binary64 * binary64 -> binary64) (l : list (binary64 * binary64 * binary64)) : bool :=
  existsb (fun x => dlt (DA (lm64 false)) (f x) (dofZ (DA (lm64 false)) 0)) l && existsb (fun x => dlt (DA (lm64 false)) (dofZ (DA (lm64 false)) 0) (f x)) l.
(** A test that asks for both signs in every component. *)
Definition ftk0 (a b c d : binary64 * binary64 * binary64) : bool :=
  let l := [a; b; c; d] in mixed (fun x => fst (fst x)) l && mixed (fun x => snd (fst x)) l && mixed snd l.
Definition ex3 (f : Z -> Z) : list binary64 :=
  map (fun p => if p =? 0 then dy (-1000) 0 else dy (64000 + 32000 * (f p mod 2) + p mod 3) (-6)) (zrange 0 24).
Definition ex3U : list binary64 := ex3 (fun p => p / 12).
Definition ex3V : list binary64 := ex3 (fun p => p / 6).
Definition ex3W : list binary64 := ex3 (fun p => p mod 6).
Definition changed3 (r : option (field3 (DA (lm64 false)) * code binary64)) (U V W : list binary64) : option Z :=
  match r with
  | Some (U', V', W', _) => Some (Z.of_nat (length (filter (fun '(a, b) => negb (bits_of_b64 a =? bits_of_b64 b)) (combine (U ++ V ++ W) (U' ++ V' ++ W')))))
  | None => None
  end.

Lemma ex3_runs : out_size (compress_abs3 (DA (lm64 false)) ftk0 ex_eb ord0 ub0 2 2 6 ex3U ex3V ex3W (repeat 0 576)) = Some 337%nat.
Proof. vm_compute. reflexivity. Qed.
Lemma ex3_lossy : changed3 (enc_abs3 (DA (lm64 false)) ftk0 ex_eb 2 2 6 ex3U ex3V ex3W) ex3U ex3V ex3W = Some 36.
Proof. vm_compute. reflexivity. Qed.
Lemma ex3_flag : check_cp3 (DA (lm64 false)) ftk0 ex3U ex3V ex3W 2 6 (0, 0, 0) (1, 0, 0) (1, 1, 0) (1, 1, 1) = Some true.
Proof. vm_compute. reflexivity. Qed.
Lemma ex3_fin x : In x ex3U \/ In x ex3V \/ In x ex3W -> finite_le 336 x.
Proof.
  assert (K : forall f p, finite_le 336 (if p =? 0 then dy (-1000) 0 else dy (64000 + 32000 * (f p mod 2) + p mod 3) (-6))).
  { intros f p. pose proof (Z.mod_pos_bound p 3 ltac:(lia)). pose proof (Z.mod_pos_bound (f p) 2 ltac:(lia)).
    destruct (p =? 0); apply dy_finite; lia. }
  intros [H|[H|H]]; unfold ex3U, ex3V, ex3W, ex3 in H; apply in_map_iff in H; destruct H as (p & <- & _).
  - exact (K (fun p => p / 12) p).
  - exact (K (fun p => p / 6) p).
  - exact (K (fun p => p mod 6) p).
Qed.
Lemma short_small3 A (ftk : D A * D A * D A -> D A * D A * D A -> D A * D A * D A -> D A * D A * D A -> bool) max_eb ord r1 r2 r3 U V W :
  0 <= r1 -> 0 < r2 -> 0 < r3 ->
  (match enc_abs3 A ftk max_eb r1 r2 r3 U V W with
   | Some (_, c) => (length (c_eb c) <=? 65)%nat && (length (c_q c) <=? 65)%nat
   | None => true end) = true ->
  short_codes3 (enc_abs3 A ftk max_eb) ord r1 r2 r3 U V W.
Proof.
  intros H1 H2 H3 HC s c E. rewrite E in HC. apply andb_true_iff in HC. destruct HC as [C1 C2]. apply Nat.leb_le in C1, C2.
  assert (N : forall l : list Z, (length (nodup Z.eq_dec l) <= length l)%nat).
  { induction l as [|x l IH]; cbn [nodup]; auto. destruct (in_dec _ _ _); cbn [length]; lia. }
  split; apply few_symbols_max_code; eapply Nat.le_trans; try apply N; lia.
Qed.
Lemma ex_tet : tet 2 2 6 [(0, 0, 0); (1, 0, 0); (1, 1, 0); (1, 1, 1)].
Proof. apply (tet_path 2 2 6 (0, 0, 0) (1, 0, 0) (0, 1, 0) (0, 0, 1)); cbn; try lia. apply Permutation.Permutation_refl. Qed.

Lemma ex3_ok :
  (exists buf, compress_abs3 (DA (lm64 false)) ftk0 ex_eb ord0 ub0 2 2 6 ex3U ex3V ex3W (repeat 0 576) = Some (buf, 337%nat)) /\
  changed3 (enc_abs3 (DA (lm64 false)) ftk0 ex_eb 2 2 6 ex3U ex3V ex3W) ex3U ex3V ex3W = Some 36 /\
  libm_ok (DA (lm64 false)) (DA_ieee (lm64 false)) /\ (forall x, In x ex3U \/ In x ex3V \/ In x ex3W -> finite_le 336 x) /\
  sized 2 2 6 ex3U /\ sized 2 2 6 ex3V /\ sized 2 2 6 ex3W /\ finite_le 336 ex_eb /\
  short_codes3 (enc_abs3 (DA (lm64 false)) ftk0 ex_eb) ord0 2 2 6 ex3U ex3V ex3W /\
  tet 2 2 6 [(0, 0, 0); (1, 0, 0); (1, 1, 0); (1, 1, 1)] /\
  check_cp3 (DA (lm64 false)) ftk0 ex3U ex3V ex3W 2 6 (0, 0, 0) (1, 0, 0) (1, 1, 0) (1, 1, 1) = Some true.
Proof.
  split; [apply out_size_some, ex3_runs|]. split; [exact ex3_lossy|]. split; [apply lm64_ok|]. split; [exact ex3_fin|].
  split; [reflexivity|]. split; [reflexivity|]. split; [reflexivity|]. split; [apply dy_finite; lia|].
  split; [apply short_small3; try lia; vm_compute; reflexivity|]. split; [exact ex_tet|exact ex3_flag].
Qed.

(** Real fields: a tetrahedron with a zero and one without, 2 x 2 x 3. *)
Definition g3 : list R := (-1 :: repeat 1 11)%R.
Lemma g3_ok : tet 2 2 3 [(0, 0, 0); (1, 0, 0); (1, 1, 0); (1, 1, 1)] /\ tet 2 2 3 [(0, 0, 1); (1, 0, 1); (1, 1, 1); (1, 1, 2)] /\
  has_cp3 (map (vecR3 2 3 g3 g3 g3) [(0, 0, 0); (1, 0, 0); (1, 1, 0); (1, 1, 1)]) /\
  ~ has_cp3 (map (vecR3 2 3 g3 g3 g3) [(0, 0, 1); (1, 0, 1); (1, 1, 1); (1, 1, 2)]) /\
  exists s c, enc_abs3 XA (fun _ _ _ _ => false) (Fin 1) 2 2 3 (map Fin g3) (map Fin g3) (map Fin g3) = Some (s, c).
Proof.
  split; [apply (tet_path 2 2 3 (0, 0, 0) (1, 0, 0) (0, 1, 0) (0, 0, 1)); cbn; try lia; apply Permutation.Permutation_refl|].
  split; [apply (tet_path 2 2 3 (0, 0, 1) (1, 0, 0) (0, 1, 0) (0, 0, 1)); cbn; try lia; apply Permutation.Permutation_refl|].
  change (map (vecR3 2 3 g3 g3 g3) [(0, 0, 0); (1, 0, 0); (1, 1, 0); (1, 1, 1)]) with [(-1, -1, -1); (1, 1, 1); (1, 1, 1); (1, 1, 1)]%R.
  change (map (vecR3 2 3 g3 g3 g3) [(0, 0, 1); (1, 0, 1); (1, 1, 1); (1, 1, 2)]) with [(1, 1, 1); (1, 1, 1); (1, 1, 1); (1, 1, 1)]%R.
  split; [|split].
  - apply has_cp3_four. exists (1 / 2)%R, (1 / 2)%R, 0%R, 0%R. unfold cx, cy, cz; cbn [fst snd]. repeat split; lra.
  - intros H. apply has_cp3_four in H. destruct H as (a & b & c & d & Ha & Hb & Hc & Hd & H1 & H2 & _).
    unfold cx in H2; cbn [fst snd] in H2. lra.
  - apply abs3_total; try lia; try reflexivity. pose proof big_ge_1. nra.
Qed.

Lemma zeros3_ok : forall p u v w, aget (zeros64 8) p = Some u -> aget (zeros64 8) p = Some v -> aget (zeros64 8) p = Some w ->
  teq (DA (lm64 false)) u (t0 (DA (lm64 false))) = true.
Proof. intros p u v w E _ _. apply aget_In in E. unfold zeros64 in E. apply repeat_spec in E. subst u. vm_compute. reflexivity. Qed.
Lemma abs3_no_stream_ex : compress_abs3 (DA (lm64 false)) ftk0 ex_eb ord0 ub0 2 2 2 (zeros64 8) (zeros64 8) (zeros64 8) (repeat 0 192) = None /\
  exists s c, enc_abs3 (DA (lm64 false)) ftk0 ex_eb 2 2 2 (zeros64 8) (zeros64 8) (zeros64 8) = Some (s, c).
Proof.
  split; [vm_compute; reflexivity|].
  apply (abs3_noub_double (lm64 false) (lm64_ok false)); try lia; try reflexivity.
  - apply dy_finite; lia.
  - intros x Hx. assert (E : x = dy 0 0) by (unfold zeros64 in Hx; destruct Hx as [H|[H|H]]; apply repeat_spec in H; auto).
    subst x. apply dy_finite; lia.
Qed.
Lemma abs3_no_stream_refuted : exists U V W, length U = 8%nat /\ length V = 8%nat /\ length W = 8%nat /\
  compress_abs3 (DA (lm64 false)) ftk0 ex_eb ord0 ub0 2 2 2 U V W (repeat 0 192) = None /\
  exists s c, enc_abs3 (DA (lm64 false)) ftk0 ex_eb 2 2 2 U V W = Some (s, c).
Proof. exists (zeros64 8), (zeros64 8), (zeros64 8). do 3 (split; [reflexivity|]). exact abs3_no_stream_ex. Qed.
