(** Vertices of the tetrahedra flagged by the external test are stored verbatim, in every arithmetic.
    Nothing of /repo is modelled here. *)
From Coq Require Import List ZArith Lia Bool Permutation.
From Coq Require Import ZifyBool ZifyNat.
From Verif Require Import Base Huffman Arith Mesh2D Mesh3D Derive3D Codec2D Scan Abs3D Sync2D Sync3D Cells3D Preserve3D.
Import ListNotations.
Local Open Scope Z_scope.

Section Any.
Context (A : Arith).
Hypothesis zero_zero : deq A (dofZ A 0) (dofZ A 0) = true.

Lemma req_loop_flagged cp U V W r1 r2 r3 i j k n : in_mesh3 r1 r2 r3 i j k n = true ->
  aget cp (simplex_offset r2 r3 n + 6 * (i * (r2 - 1) * (r3 - 1) + j * (r3 - 1) + k)) = Some true ->
  forall ns eb r, In n ns -> req_loop_abs A cp U V W r1 r2 r3 i j k ns eb = Some r -> r = dofZ A 0.
Proof.
  intros HM HT. induction ns as [|n' ns IH]; intros eb r HI H; [destruct HI|]. cbn [req_loop_abs] in H.
  destruct (Nat.eq_dec n' n) as [->|Hne].
  - rewrite HM, HT in H. cbn [bind] in H. apply Some_inj in H. auto.
  - destruct HI as [E|HI]; [contradiction|]. destruct (in_mesh3 r1 r2 r3 i j k n'); [|eauto].
    bind_as H b Eb. destruct b; [apply Some_inj in H; auto|]. bind_as H x Ex. destruct x as [[[x0 x1] x2] x3]. eauto.
Qed.

Context (ftk : D A * D A * D A -> D A * D A * D A -> D A * D A * D A -> D A * D A * D A -> bool).

Theorem abs3_flagged_exact max_eb r1 r2 r3 U V W U' V' W' c a b d e :
  0 <= r1 -> 0 < r2 -> 0 < r3 -> enc_abs3 A ftk max_eb r1 r2 r3 U V W = Some (U', V', W', c) ->
  tet r1 r2 r3 [a; b; d; e] -> check_cp3 A ftk U V W r2 r3 a b d e = Some true ->
  forall x, In x [a; b; d; e] ->
    aget U' (lin3 r2 r3 x) = aget U (lin3 r2 r3 x) /\ aget V' (lin3 r2 r3 x) = aget V (lin3 r2 r3 x) /\
    aget W' (lin3 r2 r3 x) = aget W (lin3 r2 r3 x).
Proof.
  intros H1 H2 H3 H HT HC. unfold enc_abs3 in H. bind_as H cp Ec.
  match type of H with scan_enc ?st _ _ = _ =>
    pose proof (fun p q => scan_inv st (fun _ s => let '(U', V', W') := s in forall x, In x [a; b; d; e] ->
      aget U' (lin3 r2 r3 x) = aget U (lin3 r2 r3 x) /\ aget V' (lin3 r2 r3 x) = aget V (lin3 r2 r3 x) /\
      aget W' (lin3 r2 r3 x) = aget W (lin3 r2 r3 x)) (scan3 r1 r2 r3) 0%nat _ _ _ p q H) as G end.
  apply G; clear G.
  - intros m [[i j] k] [[Ua Va] Wa] [[Ub Vb] Wb] c0 Hm HI HS x Hx.
    destruct (scan3_nth _ _ _ _ _ H1 H2 H3 Hm) as (Hi & Hj & Hk & _). cbn [fst snd] in *.
    assert (HD : {In (i, j, k) [a; b; d; e]} + {~ In (i, j, k) [a; b; d; e]}) by (apply in_dec; repeat decide equality).
    destruct HD as [HD|HD].
    + destruct (cp_lookup A ftk _ _ _ _ _ _ _ _ _ _ _ _ _ _ Ec HT HD) as (n & y & Hn & HM & _ & Ey & Eg).
      rewrite HC in Ey. apply Some_inj in Ey. subst y.
      assert (HZ : forall eb, required_eb3_abs A max_eb cp Ua Va Wa r1 r2 r3 i j k = Some eb -> deq A eb (dofZ A 0) = true).
      { intros eb He. unfold required_eb3_abs in He. bind_as He [[u v] w] Ev.
        match type of He with (if deq A ?x _ then _ else _) = _ => destruct (deq A x (dofZ A 0)) eqn:EZ end.
        - apply Some_inj in He. subst eb. auto.
        - apply (req_loop_flagged _ _ _ _ _ _ _ _ _ _ _ HM Eg _ _ _ (in_24 n Hn)) in He. subst eb. auto. }
      apply abs3_point_inv in HS. destruct HS as [|u v w eb id ab q0 q1 q2 x0 x1 x2 ? ? ? ? ? ? Er Ez]; [auto|].
      rewrite (HZ _ Er) in Ez. discriminate.
    + apply abs3_point_inv in HS. apply abs3_outcome_local in HS. destruct HS as (_ & _ & _ & _ & _ & HO).
      destruct (HO (lin3 r2 r3 x)) as (-> & -> & ->); [|auto].
      intros E. apply HD. replace (i, j, k) with x; auto. apply (lin3_inj r1 r2 r3); auto.
      * exact (tet_in_grid _ _ _ _ _ HT Hx).
      * unfold in_grid. cbn [fst snd]. auto.
  - intros x _. auto.
Qed.
End Any.
