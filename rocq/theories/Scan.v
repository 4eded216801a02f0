(** Loops over a list of grid points that carry a state and emit code, and the matching decoder loops.
    Used by the codecs other than the two plain 2D online ones. *)
From Coq Require Import List ZArith Lia Bool Arith.
From Coq Require Import ZifyBool ZifyNat.
From Verif Require Import Base Arith Codec2D Sync2D.
Import ListNotations.
Local Open Scope Z_scope.

Section Scan.
Context {S P X : Type}.

(** for each point: new state and the symbols it appends to the output arrays. *)
Fixpoint scan_enc (step : S -> P -> option (S * code X)) (pts : list P) (s : S) : option (S * code X) :=
  match pts with
  | [] => Some (s, code_nil)
  | p :: pts' =>
      let* (s1, c) := step s p in
      let* (s2, cs) := scan_enc step pts' s1 in
      Some (s2, code_app c cs)
  end.

(** for each point: new state and what is left of the input arrays. *)
Fixpoint scan_dec (step : S -> code X -> P -> option (S * code X)) (pts : list P) (s : S) (c : code X)
  : option (S * code X) :=
  match pts with
  | [] => Some (s, c)
  | p :: pts' => let* (s1, c1) := step s c p in scan_dec step pts' s1 c1
  end.
End Scan.

Lemma code_app_assoc {X} (a b c : code X) : code_app (code_app a b) c = code_app a (code_app b c).
Proof. unfold code_app; cbn; rewrite !app_assoc; reflexivity. Qed.
Lemma code_app_nil {X} (c : code X) : code_app c code_nil = c.
Proof. unfold code_app, code_nil; destruct c; cbn; rewrite !app_nil_r; reflexivity. Qed.

(** Invariants of the encoder; [k] points are done. *)
Lemma scan_inv {S P X} (step : S -> P -> option (S * code X)) (Inv : nat -> S -> Prop) : forall pts k s s' c,
  (forall m p s s' c, nth_error pts m = Some p -> Inv (k + m)%nat s -> step s p = Some (s', c) -> Inv (Datatypes.S (k + m)) s') ->
  Inv k s -> scan_enc step pts s = Some (s', c) -> Inv (k + length pts)%nat s'.
Proof.
  induction pts as [|p pts IH]; intros k s s' c HS HI H; cbn [scan_enc] in H.
  - apply Some_inj in H. injection H as E _. subst. rewrite Nat.add_0_r. auto.
  - bind_as H [s1 c1] E1. bind_as H [s2 c2] E2. apply Some_inj in H. injection H as Ea Eb. subst.
    cbn [length]. replace (k + Datatypes.S (length pts))%nat with (Datatypes.S k + length pts)%nat by lia.
    refine (IH _ s1 _ c2 _ _ E2).
    + intros m q s0 s0' c0 Hm Hi Hst. replace (Datatypes.S k + m)%nat with (k + Datatypes.S m)%nat in * by lia.
      exact (HS (Datatypes.S m) _ _ _ _ Hm Hi Hst).
    + specialize (HS 0%nat p s s1 c1 eq_refl). rewrite Nat.add_0_r in HS. auto.
Qed.

(** ... with the emitted code. *)
Lemma scan_code {S P X} (step : S -> P -> option (S * code X)) (Inv : nat -> S -> code X -> Prop) : forall pts k s c0 s' c,
  (forall m p s c0 s' c, nth_error pts m = Some p -> Inv (k + m)%nat s c0 -> step s p = Some (s', c) ->
     Inv (Datatypes.S (k + m)) s' (code_app c0 c)) ->
  Inv k s c0 -> scan_enc step pts s = Some (s', c) -> Inv (k + length pts)%nat s' (code_app c0 c).
Proof.
  induction pts as [|p pts IH]; intros k s c0 s' c HS HI H; cbn [scan_enc] in H.
  - apply Some_inj in H. injection H as E E'. subst. rewrite Nat.add_0_r, code_app_nil. auto.
  - bind_as H [s1 c1] E1. bind_as H [s2 c2] E2. apply Some_inj in H. injection H as Ea Eb. subst.
    cbn [length]. replace (k + Datatypes.S (length pts))%nat with (Datatypes.S k + length pts)%nat by lia.
    rewrite <- code_app_assoc. refine (IH _ s1 (code_app c0 c1) _ c2 _ _ E2).
    + intros m q s0 c3 s0' c4 Hm Hi Hst. replace (Datatypes.S k + m)%nat with (k + Datatypes.S m)%nat in * by lia.
      exact (HS (Datatypes.S m) _ _ _ _ _ Hm Hi Hst).
    + specialize (HS 0%nat p s c0 s1 c1 eq_refl). rewrite Nat.add_0_r in HS. auto.
Qed.

(** Progress: if every step succeeds under an invariant, the loop does. *)
Lemma scan_total {S P X} (step : S -> P -> option (S * code X)) (Inv : nat -> S -> Prop) : forall pts k s,
  (forall m p s, nth_error pts m = Some p -> Inv (k + m)%nat s ->
     exists s' c, step s p = Some (s', c) /\ Inv (Datatypes.S (k + m)) s') ->
  Inv k s -> exists s' c, scan_enc step pts s = Some (s', c).
Proof.
  induction pts as [|p pts IH]; intros k s HS HI; cbn [scan_enc]; eauto.
  destruct (HS 0%nat p s eq_refl) as (s1 & c1 & E1 & I1); [rewrite Nat.add_0_r; auto|].
  rewrite E1. cbn [bind]. rewrite Nat.add_0_r in I1.
  destruct (IH (Datatypes.S k) s1) as (s2 & c2 & E2); auto.
  - intros m q s0 Hm Hi. replace (Datatypes.S k + m)%nat with (k + Datatypes.S m)%nat in * by lia. exact (HS (Datatypes.S m) _ _ Hm Hi).
  - rewrite E2. cbn [bind]. eauto.
Qed.

(** Encoder and decoder in step. *)
Lemma scan_sync {S S' P X} (enc : S -> P -> option (S * code X)) (dec : S' -> code X -> P -> option (S' * code X))
      (R : nat -> S -> S' -> Prop) : forall pts k s d s' c,
  (forall m p s d s' c rest, nth_error pts m = Some p -> R (k + m)%nat s d -> enc s p = Some (s', c) ->
     exists d', dec d (code_app c rest) p = Some (d', rest) /\ R (Datatypes.S (k + m)) s' d') ->
  R k s d -> scan_enc enc pts s = Some (s', c) ->
  forall rest, exists d', scan_dec dec pts d (code_app c rest) = Some (d', rest) /\ R (k + length pts)%nat s' d'.
Proof.
  induction pts as [|p pts IH]; intros k s d s' c HS HI H rest; cbn [scan_enc] in H.
  - apply Some_inj in H. injection H as Ea Eb. subst. exists d. cbn [scan_dec length]. rewrite Nat.add_0_r.
    split; auto. destruct rest; reflexivity.
  - bind_as H [s1 c1] E1. bind_as H [s2 c2] E2. apply Some_inj in H. injection H as Ea Eb. subst.
    cbn [length scan_dec]. replace (k + Datatypes.S (length pts))%nat with (Datatypes.S k + length pts)%nat by lia.
    rewrite code_app_assoc.
    destruct (HS 0%nat p s d s1 c1 (code_app c2 rest) eq_refl) as (d1 & D1 & R1); [rewrite Nat.add_0_r; auto|auto|].
    rewrite D1. cbn [bind]. rewrite Nat.add_0_r in R1.
    edestruct (IH (Datatypes.S k) s1 d1) with (rest := rest) as (d2 & D2 & R2); [|exact R1|exact E2|eauto].
    intros m q s0 d0 s0' c0 rest0 Hm Hi Hst. replace (Datatypes.S k + m)%nat with (k + Datatypes.S m)%nat in * by lia.
    exact (HS (Datatypes.S m) _ _ _ _ _ _ Hm Hi Hst).
Qed.

(** Row-major order. *)
Lemma nth_error_zseq lo n k : nth_error (zseq lo n) k = if (k <? n)%nat then Some (lo + Z.of_nat k) else None.
Proof.
  revert lo k. induction n as [|n IH]; intros lo k; cbn [zseq].
  - destruct k; reflexivity.
  - destruct k as [|k]; cbn [nth_error].
    + change (0 <? Datatypes.S n)%nat with true. cbv iota. f_equal. lia.
    + rewrite IH. destruct (Nat.ltb_spec k n); destruct (Nat.ltb_spec (Datatypes.S k) (Datatypes.S n)); auto; try lia. f_equal. lia.
Qed.

Lemma scan2_length r1 r2 : 0 <= r1 -> 0 < r2 -> length (scan2 r1 r2) = Z.to_nat (r1 * r2).
Proof. intros. rewrite scan2_map by auto. rewrite map_length. unfold zrange. rewrite zseq_length. f_equal. lia. Qed.

Lemma scan2_nth r1 r2 k ij : 0 <= r1 -> 0 < r2 -> nth_error (scan2 r1 r2) k = Some ij ->
  0 <= fst ij < r1 /\ 0 <= snd ij < r2 /\ fst ij * r2 + snd ij = Z.of_nat k.
Proof.
  intros H1 H2 H. rewrite scan2_map in H by auto. rewrite nth_error_map in H. unfold zrange in H.
  rewrite nth_error_zseq in H. destruct (Nat.ltb_spec k (Z.to_nat (r1 * r2 - 0))); [|discriminate].
  cbn [option_map] in H. apply Some_inj in H. subst ij. cbn [fst snd]. rewrite !Z.add_0_l.
  pose proof (Z.mod_pos_bound (Z.of_nat k) r2 H2). pose proof (Z.div_mod (Z.of_nat k) r2 ltac:(lia)).
  split; [|split; [lia|lia]]. split; [apply Z.div_pos; lia|]. apply Z.div_lt_upper_bound; lia.
Qed.

Lemma scan2_nth_ok r1 r2 i j : 0 <= i < r1 -> 0 <= j < r2 -> nth_error (scan2 r1 r2) (Z.to_nat (i * r2 + j)) = Some (i, j).
Proof.
  intros Hi Hj. rewrite scan2_map by lia. rewrite nth_error_map. unfold zrange. rewrite nth_error_zseq.
  destruct (Nat.ltb_spec (Z.to_nat (i * r2 + j)) (Z.to_nat (r1 * r2 - 0))) as [H|H]; [|nia].
  cbn [option_map]. rewrite Z.add_0_l, Z2Nat.id by nia. f_equal. f_equal.
  - rewrite Z.div_add_l, Z.div_small by lia. lia.
  - rewrite Z.add_comm, Z.mod_add, Z.mod_small by lia. lia.
Qed.

(** An array of which the cells from [k] on are still those of [o]. *)
Definition untouched {X} (k : nat) (w o : list X) : Prop :=
  length w = length o /\ forall m, Z.of_nat k <= m -> aget w m = aget o m.
Lemma untouched_refl {X} k (w : list X) : untouched k w w.
Proof. split; auto. Qed.
Lemma untouched_keep {X} k (w o : list X) : untouched k w o -> untouched (Datatypes.S k) w o.
Proof. intros [L H]. split; auto. intros m Hm. apply H. lia. Qed.
Lemma untouched_set {X} k (w o w' : list X) x : untouched k w o -> aset w (Z.of_nat k) x = Some w' -> untouched (Datatypes.S k) w' o.
Proof.
  intros [L H] E. destruct (aset_Some _ _ _ _ E) as (_ & L' & G). split; [lia|]. intros m Hm. rewrite G.
  replace (m =? Z.of_nat k) with false by lia. apply H. lia.
Qed.
