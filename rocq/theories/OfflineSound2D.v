(** The offline bounds keep signs, critical points and their types under simultaneous relative changes (exact arithmetic). *)
From Coq Require Import Reals Lra Lia Psatz ZArith List Bool.
From Flocq Require Import Core.Raux.
From Verif Require Import Base Arith Mesh2D Derive2D Exact Geo2D Type2D Offline2D.
Import ListNotations.
Local Open Scope R_scope.

(** ** A sum of terms and its bound *)
Definition sum (l : list R) : R := fold_right Rplus 0 l.
Definition cube_root (cbrt : XR -> XR) : Prop := forall x, 0 <= x -> exists y, cbrt (Fin x) = Fin y /\ 0 <= y /\ y * y * y = x.

(** A product of [d] factors, each of the form 1 + a with |a| <= e. *)
Definition change (e : R) (d : nat) (f : R) : Prop :=
  exists l, length l = d /\ Forall (fun a => Rabs a <= e) l /\ f = fold_right (fun a p => (1 + a) * p) 1 l.

Lemma change_range e d f : 0 <= e <= 1 -> change e d f -> (1 - e) ^ d <= f <= (1 + e) ^ d.
Proof.
  intros He (l & <- & F & ->). induction F as [|a l Ha F IH]; cbn [fold_right length pow]; [lra|].
  apply Rabs_le_inv in Ha. assert (0 <= (1 - e) ^ length l) by (apply pow_le; lra). nra.
Qed.

Lemma change1 e a : Rabs a <= e -> change e 1 (1 + a).
Proof. intros H. exists [a]. repeat split; auto. cbn. ring. Qed.
Lemma change2 e a b : Rabs a <= e -> Rabs b <= e -> change e 2 ((1 + a) * (1 + b)).
Proof. intros H H1. exists [a; b]. repeat split; auto. cbn. ring. Qed.

Lemma acc_same (l : list XR) : acc_t XA l = acc_d XA l.
Proof. reflexivity. Qed.

(** positive and negative parts of a list of (term, factor) *)
Definition ppart (l : list (R * R)) : R := sum (map (fun x => if Rle_dec 0 (fst x) then fst x * snd x else 0) l).
Definition npart (l : list (R * R)) : R := sum (map (fun x => if Rle_dec 0 (fst x) then 0 else - fst x * snd x) l).
Definition ones (l : list R) : list (R * R) := map (fun t => (t, 1)) l.

Lemma acc_value_gen l p n : fold_left (accumulate_d XA) (map Fin l) (Fin p, Fin n) = (Fin (p + ppart (ones l)), Fin (n + npart (ones l))).
Proof.
  revert p n. induction l as [|t l IH]; intros p n.
  - cbn. f_equal; f_equal; unfold ppart, npart; cbn; ring.
  - cbn [map fold_left accumulate_d dle dofZ dneg dadd XA]. unfold ppart, npart. cbn [ones map sum fold_right fst snd].
    fold (ones l). destruct (Rle_dec 0 t) as [H|H].
    + rewrite (proj2 (xle_fin 0 t) H). cbn [xadd]. rewrite IH. unfold ppart, npart, sum. f_equal; f_equal; ring.
    + rewrite (proj2 (xle_fin_false 0 t)) by lra. cbn [xneg xadd]. rewrite IH. unfold ppart, npart, sum. f_equal; f_equal; ring.
Qed.
Lemma acc_value l : acc_d XA (map Fin l) = (Fin (ppart (ones l)), Fin (npart (ones l))).
Proof. unfold acc_d. cbn [dofZ XA]. rewrite acc_value_gen. f_equal; f_equal; ring. Qed.

Lemma parts_sum l : ppart l - npart l = sum (map (fun x => fst x * snd x) l).
Proof.
  unfold ppart, npart. induction l as [|x l IH]; cbn [map sum fold_right] in *; [unfold sum; cbn; lra|].
  unfold sum in *. cbn [fold_right map] in *. destruct (Rle_dec 0 (fst x)); lra.
Qed.

Lemma parts_range a b l : 0 <= a -> Forall (fun x => a <= snd x <= b) l ->
  let l1 := ones (map fst l) in
  0 <= ppart l1 /\ 0 <= npart l1 /\ a * ppart l1 <= ppart l <= b * ppart l1 /\ a * npart l1 <= npart l <= b * npart l1.
Proof.
  intros Ha F. cbn zeta. induction F as [|[t f] l Hf F IH].
  - unfold ppart, npart, sum. cbn. lra.
  - cbn [snd] in Hf. unfold ppart, npart, sum, ones in *. cbn [map fold_right fst snd] in *.
    destruct (Rle_dec 0 t); nra.
Qed.

Lemma root_gap p n e (d : nat) : 0 < p -> 0 < n -> 0 <= e -> e < Rabs (p - n) / (p + n) ->
  e < 1 /\ (n < p -> n * (1 + e) < p * (1 - e)) /\ (p < n -> p * (1 + e) < n * (1 - e)) /\ p <> n.
Proof.
  intros Hp Hn He H. apply (Rmult_lt_compat_r (p + n)) in H; [|lra]. unfold Rdiv in H. rewrite Rmult_assoc, Rinv_l in H by lra.
  unfold Rabs in H. destruct (Rcase_abs (p - n)); repeat split; intros; try nra.
Qed.

Lemma pow_gap a b (d : nat) : (0 < d)%nat -> 0 <= a < b -> a ^ d < b ^ d.
Proof.
  intros Hd H. induction d as [|d IH]; [lia|]. destruct d as [|d].
  - cbn. lra.
  - assert (IH' := IH ltac:(lia)). cbn [pow] in *. assert (0 <= a * a ^ d) by (apply Rmult_le_pos; [lra|apply pow_le; lra]). nra.
Qed.

Lemma sign_of_gap P N P' N' (d : nat) p n e : (0 < d)%nat -> P = p ^ d -> N = n ^ d -> 0 < p -> 0 < n -> 0 <= e ->
  e < Rabs (p - n) / (p + n) ->
  P * (1 - e) ^ d <= P' <= P * (1 + e) ^ d -> N * (1 - e) ^ d <= N' <= N * (1 + e) ^ d ->
  0 < (P - N) * (P' - N').
Proof.
  intros Hd -> -> Hp Hn He HB HP HN. destruct (root_gap p n e d Hp Hn He HB) as (E1 & G1 & G2 & NE).
  rewrite <- !Rpow_mult_distr in HP, HN.
  destruct (Rtotal_order p n) as [L|[L|L]]; [|contradiction|].
  - specialize (G2 L). assert (p ^ d < n ^ d) by (apply pow_gap; auto; lra).
    assert ((p * (1 + e)) ^ d < (n * (1 - e)) ^ d) by (apply pow_gap; auto; split; auto; apply Rmult_le_pos; lra). nra.
  - specialize (G1 L). assert (n ^ d < p ^ d) by (apply pow_gap; auto; lra).
    assert ((n * (1 + e)) ^ d < (p * (1 - e)) ^ d) by (apply pow_gap; auto; split; auto; apply Rmult_le_pos; lra). nra.
Qed.

Lemma same_sign_gap a b : 0 < a * b -> same_sign a b.
Proof. apply same_sign_prod. Qed.

(** The bound exists, lies in [0,1] and keeps the sign (zero included) of every sum. *)
Theorem keep_sign_sound cbrt : cube_root cbrt -> forall (d : nat) (l : list (R * R)), (1 <= d <= 3)%nat ->
  exists b, max_eb_to_keep_sign XA cbrt (acc_d XA (map Fin (map fst l))) d = Some (Fin b) /\ 0 <= b <= 1 /\
  forall e, 0 <= e < b -> Forall (fun x => change e d (snd x)) l ->
    same_sign (sum (map fst l)) (sum (map (fun x => fst x * snd x) l)).
Proof.
  intros HC d l Hd. rewrite acc_value. set (l1 := ones (map fst l)).
  assert (S1 : sum (map fst l) = ppart l1 - npart l1).
  { rewrite parts_sum. unfold l1, ones. rewrite !map_map. f_equal. apply map_ext. intros. cbn. ring. }
  assert (NN : 0 <= ppart l1 /\ 0 <= npart l1).
  { destruct (parts_range 0 1 (map (fun x => (fst x, 1)) l)) as (H1 & H2 & _); [lra|apply Forall_map, Forall_forall; cbn; intros; lra|].
    rewrite map_map in H1, H2. cbn [fst] in H1, H2. split; [exact H1|exact H2]. }
  assert (RG : forall e, 0 <= e <= 1 -> Forall (fun x => change e d (snd x)) l ->
            (1 - e) ^ d * ppart l1 <= ppart l <= (1 + e) ^ d * ppart l1 /\ (1 - e) ^ d * npart l1 <= npart l <= (1 + e) ^ d * npart l1).
  { intros e He F. apply (parts_range ((1 - e) ^ d) ((1 + e) ^ d) l); [apply pow_le; lra|].
    eapply Forall_impl; [|exact F]. intros x Hx. cbn beta. apply change_range; auto. }
  rewrite S1. setoid_rewrite <- parts_sum. set (P := ppart l1) in *. set (N := npart l1) in *. destruct NN as [HP HN].
  unfold max_eb_to_keep_sign. cbn [dlt deq dofZ XA].
  rewrite !(proj2 (xlt_fin_false _ _)) by lra. cbn [orb].
  destruct (Req_dec N 0) as [ZN|NZ].
  { rewrite (proj2 (xeq_fin N 0) ZN). cbn [orb]. exists 1. split; [reflexivity|]. split; [lra|]. intros e He F.
    destruct (RG e ltac:(lra) F) as [R1 R2]. rewrite ZN in *. assert (npart l = 0) by lra.
    assert (0 < (1 - e) ^ d) by (apply pow_lt; lra). assert (0 < (1 + e) ^ d) by (apply pow_lt; lra). split; split; intros; nra. }
  rewrite (proj2 (xeq_fin_false N 0) NZ). cbn [orb].
  destruct (Req_dec P 0) as [ZP|PZ].
  { rewrite (proj2 (xeq_fin P 0) ZP). exists 1. split; [reflexivity|]. split; [lra|]. intros e He F.
    destruct (RG e ltac:(lra) F) as [R1 R2]. rewrite ZP in *. assert (ppart l = 0) by lra.
    assert (0 < (1 - e) ^ d) by (apply pow_lt; lra). assert (0 < (1 + e) ^ d) by (apply pow_lt; lra). split; split; intros; nra. }
  rewrite (proj2 (xeq_fin_false P 0) PZ).
  assert (HR : exists r, degree_root XA cbrt d = Some r
             /\ forall x, 0 < x -> exists y, r (Fin x) = Fin y /\ 0 < y /\ x = y ^ d).
  { destruct d as [|[|[|[|d]]]]; try lia; eexists; (split; [reflexivity|]); intros x Hx.
    - exists x. split; [reflexivity|]. split; [auto|cbn; ring].
    - exists (sqrt x). cbn [dsqrt XA xsqrt]. rewrite Rlt_bool_false by lra. split; [reflexivity|]. split; [apply sqrt_lt_R0; auto|].
      cbn. rewrite Rmult_1_r, sqrt_def by lra. auto.
    - destruct (HC x ltac:(lra)) as (y & E & H0 & HY). exists y. split; [exact E|]. split; [|cbn; lra].
      destruct H0 as [H0|H0]; [exact H0|]. subst y. lra. }
  destruct HR as (r & -> & HR). cbn [bind].
  destruct (HR P ltac:(lra)) as (p & Ep & Pp & EP). destruct (HR N ltac:(lra)) as (n & En & Pn & EN).
  rewrite Ep, En. cbn [dsub dadd dabs ddiv XA xsub xadd xabs]. rewrite xdiv_fin by lra.
  exists (Rabs (p - n) / (p + n)). split; [reflexivity|]. split.
  - split; [apply Rmult_le_pos; [apply Rabs_pos|left; apply Rinv_0_lt_compat; lra]|].
    apply (Rmult_le_reg_r (p + n)); [lra|]. unfold Rdiv. rewrite Rmult_assoc, Rinv_l by lra. rewrite Rmult_1_r, Rmult_1_l.
    unfold Rabs; destruct (Rcase_abs _); lra.
  - intros e He F. apply same_sign_prod. destruct (root_gap p n e d Pp Pn ltac:(lra) ltac:(lra)) as (E1 & _).
    destruct (RG e ltac:(lra) F) as [R1 R2].
    apply (sign_of_gap P N (ppart l) (npart l) d p n e); auto; try lia; lra.
Qed.

(** A vanishing two-term sum with a positive bound has two vanishing terms. *)
Lemma balanced_zero cbrt t1 t2 b : cube_root cbrt ->
  max_eb_to_keep_sign XA cbrt (acc_d XA [Fin t1; Fin t2]) 2 = Some (Fin b) -> 0 < b -> t1 + t2 = 0 -> t1 = 0 /\ t2 = 0.
Proof.
  intros HC E Hb S.
  assert (K : t1 = 0); [|lra].
  destruct (keep_sign_sound cbrt HC 2 [(t1, (1 + b / 2) * (1 + b / 2)); (t2, 1 * 1)]) as (b' & E' & Rb & G); [lia|].
  cbn [map fst snd] in E'. rewrite E in E'. injection E' as <-.
  destruct (G (b / 2)) as [G1 G2]; [lra| |].
  - constructor; [cbn [snd]; apply change2; rewrite Rabs_pos_eq; lra|]. constructor; [|constructor].
    cbn [snd]. exists [0; 0]. split; [reflexivity|]. split; [|cbn; ring].
    assert (Rabs 0 <= b / 2) by (rewrite Rabs_R0; lra). auto.
  - unfold sum in G1, G2. cbn [map fst snd fold_right] in G1, G2.
    replace (t1 + (t2 + 0)) with 0 in G1, G2 by lra.
    replace (t1 * ((1 + b / 2) * (1 + b / 2)) + (t2 * (1 * 1) + 0)) with (t1 * (b + b * b / 4)) in G1, G2 by (replace t2 with (- t1) by lra; field).
    assert (0 < b + b * b / 4) by nra.
    destruct (Rtotal_order t1 0) as [L|[L|L]]; [|exact L|]; exfalso.
    + assert (t1 * (b + b * b / 4) < 0) by nra. apply G2 in H0. lra.
    + assert (0 < t1 * (b + b * b / 4)) by nra. apply G1 in H0. lra.
Qed.

(** ** Two collinear axis-aligned vectors *)
Lemma has_cp_zero w1 w2 : has_cp (0, 0) w1 w2.
Proof. exists 1, 0, 0. cbn. repeat split; lra. Qed.

Lemma line_scale (v0 v1 : R) b0 b1 : 0 < b0 -> 0 < b1 ->
  (exists l0 l1, 0 <= l0 /\ 0 <= l1 /\ l0 + l1 = 1 /\ l0 * v0 + l1 * v1 = 0) ->
  exists l0 l1, 0 <= l0 /\ 0 <= l1 /\ l0 + l1 = 1 /\ l0 * (v0 * b0) + l1 * (v1 * b1) = 0.
Proof.
  intros P0 P1 (l0 & l1 & H0 & H1 & S & E). set (s := l0 * b1 + l1 * b0).
  assert (Ps : 0 < s). { unfold s. destruct (Rle_lt_dec l0 0); [assert (l1 = 1) by lra; assert (l0 = 0) by lra; subst; lra|]. assert (0 <= l1 * b0) by nra. nra. }
  exists (l0 * b1 / s), (l1 * b0 / s).
  assert (forall x, 0 <= x -> 0 <= x / s) by (intros; apply Rmult_le_pos; auto; left; apply Rinv_0_lt_compat; auto).
  split; [apply H; nra|]. split; [apply H; nra|]. split.
  - unfold s. field. fold s. lra.
  - replace (l0 * b1 / s * (v0 * b0) + l1 * b0 / s * (v1 * b1)) with ((l0 * v0 + l1 * v1) * (b0 * b1) / s) by (field; lra). rewrite E. field. lra.
Qed.

Definition on_line (v0 v1 : R) : Prop := exists l0 l1, 0 <= l0 /\ 0 <= l1 /\ l0 + l1 = 1 /\ l0 * v0 + l1 * v1 = 0.
Lemma on_line_scale v0 v1 b0 b1 : 0 < b0 -> 0 < b1 -> on_line v0 v1 <-> on_line (v0 * b0) (v1 * b1).
Proof.
  intros H0 H1. split; [apply line_scale; auto|]. intros H. apply (line_scale _ _ (/ b0) (/ b1)) in H; [|apply Rinv_0_lt_compat; auto..].
  rewrite !Rmult_assoc, !Rinv_r, !Rmult_1_r in H by lra. exact H.
Qed.
Lemma cp_vertical v0 v1 u2 v2 : u2 <> 0 -> has_cp (0, v0) (0, v1) (u2, v2) <-> on_line v0 v1.
Proof.
  intros N. split.
  - intros (l0 & l1 & l2 & H0 & H1 & H2 & S & EU & EV). cbn [fst snd] in *.
    assert (l2 = 0) by (apply (Rmult_eq_reg_r u2); auto; lra). subst l2. exists l0, l1. repeat split; lra.
  - intros (l0 & l1 & H0 & H1 & S & E). exists l0, l1, 0. cbn [fst snd]. repeat split; lra.
Qed.
Lemma cp_horizontal u0 u1 u2 v2 : v2 <> 0 -> has_cp (u0, 0) (u1, 0) (u2, v2) <-> on_line u0 u1.
Proof.
  intros N. split.
  - intros (l0 & l1 & l2 & H0 & H1 & H2 & S & EU & EV). cbn [fst snd] in *.
    assert (l2 = 0) by (apply (Rmult_eq_reg_r v2); auto; lra). subst l2. exists l0, l1. repeat split; lra.
  - intros (l0 & l1 & H0 & H1 & S & E). exists l0, l1, 0. cbn [fst snd]. repeat split; lra.
Qed.

(** A pair of vectors whose cross products vanish termwise: scaling all components keeps the critical point. *)
Lemma aligned_kept u0 v0 u1 v1 u2 v2 p0 q0 p1 q1 p2 q2 :
  0 < p0 -> 0 < q0 -> 0 < p1 -> 0 < q1 -> 0 < p2 -> 0 < q2 ->
  u0 * v1 = 0 -> u1 * v0 = 0 -> mM (u0, v0) (u1, v1) (u2, v2) <> 0 ->
  has_cp (u0, v0) (u1, v1) (u2, v2) <-> has_cp (u0 * p0, v0 * q0) (u1 * p1, v1 * q1) (u2 * p2, v2 * q2).
Proof.
  intros P0 Q0 P1 Q1 P2 Q2 E1 E2 HM.
  apply Rmult_integral in E1. apply Rmult_integral in E2.
  assert (Z1 : forall v w, has_cp v (0, 0) w) by (intros; apply has_cp_swap, has_cp_zero).
  destruct E1 as [-> | ->], E2 as [-> | ->]; rewrite ?Rmult_0_l.
  - assert (u2 <> 0) by (intros ->; apply HM; unfold mM, mM0, mM1, mM2; cbn; ring).
    rewrite !cp_vertical; [|apply Rmult_integral_contrapositive; lra|auto]. apply on_line_scale; auto.
  - split; intros; apply has_cp_zero.
  - split; intros; apply Z1.
  - assert (v2 <> 0) by (intros ->; apply HM; unfold mM, mM0, mM1, mM2; cbn; ring).
    rewrite !cp_horizontal; [|apply Rmult_integral_contrapositive; lra|auto]. apply on_line_scale; auto.
Qed.

(** Signs of the minors decide. *)
Lemma same_sign_zero a b : same_sign a b -> (a = 0 <-> b = 0).
Proof. intros [H1 H2]. split; intros E; destruct (Rtotal_order a 0) as [L|[L|L]], (Rtotal_order b 0) as [K|[K|K]]; tauto || lra. Qed.
Lemma same_sign_mult a b c d : same_sign a b -> same_sign c d -> 0 <= a * c -> 0 <= b * d.
Proof.
  intros H1 H2 H. pose proof (same_sign_zero _ _ H1). pose proof (same_sign_zero _ _ H2). destruct H1 as [A1 A2], H2 as [C1 C2].
  destruct (Rtotal_order a 0) as [L|[L|L]], (Rtotal_order c 0) as [K|[K|K]];
    try (assert (a * c < 0) by nra; lra);
    repeat match goal with H : ?P <-> ?Q, K : ?P |- _ => apply (proj1 H) in K end; nra.
Qed.
Lemma same_sign_sym a b : same_sign a b -> same_sign b a.
Proof. unfold same_sign. tauto. Qed.
Lemma minors_decide w0 w1 w2 w0' w1' w2' : mM w0 w1 w2 <> 0 ->
  same_sign (mM0 w0 w1 w2) (mM0 w0' w1' w2') -> same_sign (mM1 w0 w1 w2) (mM1 w0' w1' w2') ->
  same_sign (mM2 w0 w1 w2) (mM2 w0' w1' w2') -> same_sign (mM w0 w1 w2) (mM w0' w1' w2') ->
  has_cp w0 w1 w2 -> has_cp w0' w1' w2'.
Proof.
  intros HM S0 S1 S2 S (l0 & l1 & l2 & P0 & P1 & P2 & SS & HU & HV).
  destruct (cp_minors _ _ _ _ _ _ SS HU HV) as (E0 & E1 & E2).
  assert (G : forall l x, 0 <= l -> x = l * mM w0 w1 w2 -> 0 <= x * mM w0 w1 w2).
  { intros l x Hl ->. rewrite Rmult_assoc. apply Rmult_le_pos; auto. nra. }
  apply yes_cp; [rewrite <- (same_sign_zero _ _ S); auto|..].
  - apply (same_sign_mult _ _ _ _ S0 S). eapply G; [|exact E0]; auto.
  - apply (same_sign_mult _ _ _ _ S1 S). eapply G; [|exact E1]; auto.
  - apply (same_sign_mult _ _ _ _ S2 S). eapply G; [|exact E2]; auto.
Qed.

(** ** One triangle *)
Section Triangle.
Variable cbrt : XR -> XR.
Hypothesis HC : cube_root cbrt.
Variables (u0 u1 u2 v0 v1 v2 : R).             (* original values *)
Variables (e a0 a1 a2 b0 b1 b2 : R).           (* relative changes *)
Hypothesis He : 0 <= e.
Hypotheses (A0 : Rabs a0 <= e) (A1 : Rabs a1 <= e) (A2 : Rabs a2 <= e) (B0 : Rabs b0 <= e) (B1 : Rabs b1 <= e) (B2 : Rabs b2 <= e).
Let u0' := u0 * (1 + a0). Let u1' := u1 * (1 + a1). Let u2' := u2 * (1 + a2).
Let v0' := v0 * (1 + b0). Let v1' := v1 * (1 + b1). Let v2' := v2 * (1 + b2).

(** A bound that exists, lies in [0,1] and, if larger than [e], gives [P]. *)
Definition good (x : option XR) (P : Prop) : Prop := exists b, x = Some (Fin b) /\ 0 <= b <= 1 /\ (e < b -> P).

Lemma good_keep d (l : list (R * R)) ts (P : Prop) : (1 <= d <= 3)%nat -> Forall (fun x => change e d (snd x)) l ->
  ts = map Fin (map fst l) -> (same_sign (sum (map fst l)) (sum (map (fun x => fst x * snd x) l)) -> P) ->
  good (max_eb_to_keep_sign XA cbrt (acc_d XA ts) d) P.
Proof using HC He.
  intros Hd F -> HP. destruct (keep_sign_sound cbrt HC d l Hd) as (b & E & Rb & G). exists b. split; [exact E|]. split; [exact Rb|].
  intros H. apply HP, (G e); auto; lra.
Qed.

Lemma good_min x y P Q : good x P -> good y Q -> good (min_opt XA x y) (P /\ Q).
Proof using Type.
  intros (b & -> & Rb & HP) (c & -> & Rc & HQ). unfold min_opt. cbn [bind]. unfold minf. cbn [dlt XA].
  destruct (xlt (Fin b) (Fin c)) eqn:E.
  - apply xlt_fin in E. exists b. split; [reflexivity|]. split; [auto|]. intros H. split; [auto|apply HQ; lra].
  - apply xlt_fin_false in E. exists c. split; [reflexivity|]. split; [auto|]. intros H. split; [apply HP; lra|auto].
Qed.
Lemma good_weak x (P Q : Prop) : good x P -> (P -> Q) -> good x Q.
Proof using Type. intros (b & E & Rb & H) G. exists b. auto. Qed.

Local Notation keep := (max_eb_to_keep_sign_2d_offline XA cbrt).
Local Notation w0 := (u0, v0). Local Notation w1 := (u1, v1). Local Notation w2 := (u2, v2).
Local Notation w0' := (u0', v0'). Local Notation w1' := (u1', v1'). Local Notation w2' := (u2', v2').
Let M0 := mM0 w0 w1 w2. Let M1 := mM1 w0 w1 w2. Let M2 := mM2 w0 w1 w2.
Let M0' := mM0 w0' w1' w2'. Let M1' := mM1 w0' w1' w2'. Let M2' := mM2 w0' w1' w2'.

Lemma good_two p q r s a b c d (P : Prop) : Rabs a <= e -> Rabs b <= e -> Rabs c <= e -> Rabs d <= e ->
  (same_sign (p * q - r * s) (p * (1 + a) * (q * (1 + b)) - r * (1 + c) * (s * (1 + d))) -> P) ->
  good (keep [Fin (p * q); xneg (Fin (r * s))]) P.
Proof using HC He.
  intros H1 H2 H3 H4 HP. apply (good_keep 2 [(p * q, (1 + a) * (1 + b)); (- (r * s), (1 + c) * (1 + d))]); [lia| |reflexivity|].
  - repeat constructor; cbn [snd]; apply change2; auto.
  - unfold sum. cbn [map fst snd fold_right]. intros H. apply HP.
    replace (p * q - r * s) with (p * q + (- (r * s) + 0)) by ring.
    replace (p * (1 + a) * (q * (1 + b)) - r * (1 + c) * (s * (1 + d))) with
      (p * q * ((1 + a) * (1 + b)) + (- (r * s) * ((1 + c) * (1 + d)) + 0)) by ring. exact H.
Qed.
Lemma good_four p q r s p' q' r' s' a b c d a' b' c' d' (P : Prop) :
  Rabs a <= e -> Rabs b <= e -> Rabs c <= e -> Rabs d <= e -> Rabs a' <= e -> Rabs b' <= e -> Rabs c' <= e -> Rabs d' <= e ->
  (same_sign ((p * q - r * s) + (p' * q' - r' * s'))
     ((p * (1 + a) * (q * (1 + b)) - r * (1 + c) * (s * (1 + d))) + (p' * (1 + a') * (q' * (1 + b')) - r' * (1 + c') * (s' * (1 + d')))) -> P) ->
  good (keep [Fin (p * q); xneg (Fin (r * s)); Fin (p' * q'); xneg (Fin (r' * s'))]) P.
Proof using HC He.
  intros H1 H2 H3 H4 H5 H6 H7 H8 HP.
  apply (good_keep 2 [(p * q, (1 + a) * (1 + b)); (- (r * s), (1 + c) * (1 + d)); (p' * q', (1 + a') * (1 + b')); (- (r' * s'), (1 + c') * (1 + d'))]);
    [lia| |reflexivity|].
  - repeat constructor; cbn [snd]; apply change2; auto.
  - unfold sum. cbn [map fst snd fold_right]. intros H. apply HP. revert H.
    match goal with |- same_sign ?x ?y -> same_sign ?z ?t => replace z with x by ring; replace t with y by ring; auto end.
Qed.

Lemma same_sign_eq a b a' b' : a = a' -> b = b' -> same_sign a b -> same_sign a' b'.
Proof using Type. intros -> ->. auto. Qed.

Lemma good_eb1 : good (min_opt XA (keep [Fin (u2 * v0); xneg (Fin (u0 * v2))]) (keep [Fin (u0 * v1); xneg (Fin (u1 * v0)); Fin (u1 * v2); xneg (Fin (u2 * v1))]))
  (same_sign M0 M0' /\ same_sign (M1 + M2) (M1' + M2')).
Proof using All.
  apply good_min; [apply (good_two _ _ _ _ a2 b0 a0 b2)|apply (good_four _ _ _ _ _ _ _ _ a0 b1 a1 b0 a1 b2 a2 b1)]; auto.
  apply same_sign_eq; unfold M1, M2, M1', M2', mM1, mM2, u0', u1', u2', v0', v1', v2'; cbn [fst snd]; ring.
Qed.
Lemma good_eb2 : good (min_opt XA (keep [Fin (u1 * v2); xneg (Fin (u2 * v1))]) (keep [Fin (u0 * v1); xneg (Fin (u1 * v0)); Fin (u2 * v0); xneg (Fin (u0 * v2))]))
  (same_sign M1 M1' /\ same_sign (M0 + M2) (M0' + M2')).
Proof using All.
  apply good_min; [apply (good_two _ _ _ _ a1 b2 a2 b1)|apply (good_four _ _ _ _ _ _ _ _ a0 b1 a1 b0 a2 b0 a0 b2)]; auto.
  apply same_sign_eq; unfold M0, M2, M0', M2', mM0, mM2, u0', u1', u2', v0', v1', v2'; cbn [fst snd]; ring.
Qed.
Lemma good_eb3 : good (min_opt XA (keep [Fin (u0 * v1); xneg (Fin (u1 * v0))]) (keep [Fin (u1 * v2); xneg (Fin (u2 * v1)); Fin (u2 * v0); xneg (Fin (u0 * v2))]))
  (same_sign M2 M2' /\ same_sign (M0 + M1) (M0' + M1')).
Proof using All.
  apply good_min; [apply (good_two _ _ _ _ a0 b1 a1 b0)|apply (good_four _ _ _ _ _ _ _ _ a1 b2 a2 b1 a2 b0 a0 b2)]; auto.
  apply same_sign_eq; unfold M0, M1, M0', M1', mM0, mM1, u0', u1', u2', v0', v1', v2'; cbn [fst snd]; ring.
Qed.

Lemma good_det : good (max_eb_to_keep_sign_det2x2 XA cbrt (Fin u0) (Fin u1) (Fin u2) (Fin v0) (Fin v1) (Fin v2))
  (same_sign (mM w0 w1 w2) (mM w0' w1' w2')).
Proof using All.
  unfold max_eb_to_keep_sign_det2x2. rewrite acc_same.
  apply (good_keep 2 [(u0 * v1, (1 + a0) * (1 + b1)); (- u0 * v2, (1 + a0) * (1 + b2)); (u1 * v2, (1 + a1) * (1 + b2));
                      (- u1 * v0, (1 + a1) * (1 + b0)); (u2 * v0, (1 + a2) * (1 + b0)); (- u2 * v1, (1 + a2) * (1 + b1))]); [lia| |reflexivity|].
  - repeat constructor; cbn [snd]; apply change2; auto.
  - unfold sum. cbn [map fst snd fold_right]. apply same_sign_eq; unfold mM, mM0, mM1, mM2, u0', u1', u2', v0', v1', v2'; cbn [fst snd]; ring.
Qed.

(** *** Type *)
Variables (c0 c1 c2 c3 : R).
Let m := c1 * c2 - c0 * c3.
Let tr := c0 * (u0 - u2) + c1 * (u1 - u2) + c2 * (v0 - v2) + c3 * (v1 - v2).
Let tr' := c0 * (u0' - u2') + c1 * (u1' - u2') + c2 * (v0' - v2') + c3 * (v1' - v2').
Let dt := - m * mM w0 w1 w2.
Let dt' := - m * mM w0' w1' w2'.

Lemma good_trace : good (max_eb_to_keep_sign XA cbrt (acc_t XA
    [Fin (c0 * u0); Fin (c1 * u1); Fin (- (c0 + c1) * u2); Fin (c2 * v0); Fin (c3 * v1); Fin (- (c2 + c3) * v2)]) 1) (same_sign tr tr').
Proof using All.
  rewrite acc_same.
  apply (good_keep 1 [(c0 * u0, 1 + a0); (c1 * u1, 1 + a1); (- (c0 + c1) * u2, 1 + a2); (c2 * v0, 1 + b0); (c3 * v1, 1 + b1);
                      (- (c2 + c3) * v2, 1 + b2)]); [lia| |reflexivity|].
  - repeat constructor; cbn [snd]; apply change1; auto.
  - unfold sum. cbn [map fst snd fold_right]. apply same_sign_eq; unfold tr, tr', u0', u1', u2', v0', v1', v2'; cbn [fst snd]; ring.
Qed.

Lemma good_disc : good (max_eb_to_keep_sign XA cbrt (acc_t XA (squares XA
      [Fin (c0 * u0); Fin (c1 * u1); Fin (- (c1 + c0) * u2); Fin (c2 * v0); Fin (c3 * v1); Fin (- (c3 + c2) * v2)] ++
      [Fin (-4 * m * u1 * v0); Fin (4 * m * u2 * v0); Fin (4 * m * u0 * v1); Fin (-4 * m * u2 * v1); Fin (-4 * m * u0 * v2); Fin (4 * m * u1 * v2)])) 2)
   (same_sign (tr * tr - 4 * dt) (tr' * tr' - 4 * dt')).
Proof using All.
  rewrite acc_same.
  set (cs := [(c0 * u0, 1 + a0); (c1 * u1, 1 + a1); (- (c1 + c0) * u2, 1 + a2); (c2 * v0, 1 + b0); (c3 * v1, 1 + b1); (- (c3 + c2) * v2, 1 + b2)]).
  apply (good_keep 2 (flat_map (fun x => map (fun y => (fst x * fst y, snd x * snd y)) cs) cs ++
     [(-4 * m * u1 * v0, (1 + a1) * (1 + b0)); (4 * m * u2 * v0, (1 + a2) * (1 + b0)); (4 * m * u0 * v1, (1 + a0) * (1 + b1));
      (-4 * m * u2 * v1, (1 + a2) * (1 + b1)); (-4 * m * u0 * v2, (1 + a0) * (1 + b2)); (4 * m * u1 * v2, (1 + a1) * (1 + b2))])); [lia| |reflexivity|].
  - unfold cs. cbn [flat_map map app fst snd]. repeat (constructor; [cbn [snd]; apply change2; auto|]). constructor.
  - unfold sum, cs. cbn [flat_map map app fst snd fold_right].
    apply same_sign_eq; unfold tr, tr', dt, dt', mM, mM0, mM1, mM2, u0', u1', u2', v0', v1', v2'; cbn [fst snd]; ring.
Qed.

Lemma good_eigen : good (max_eb_to_keep_sign_eigen_delta_2 XA cbrt (Fin u0) (Fin u1) (Fin u2) (Fin v0) (Fin v1) (Fin v2) (Fin c0, Fin c1, Fin c2, Fin c3))
  (same_sign (mM w0 w1 w2) (mM w0' w1' w2') /\ same_sign tr tr' /\ (0 < dt -> same_sign (tr * tr - 4 * dt) (tr' * tr' - 4 * dt'))).
Proof using All.
  pose proof (good_min _ _ _ _ good_trace good_det) as G1. pose proof good_disc as G2.
  destruct G1 as (b & E1 & R1 & H1). destruct G2 as (c & E2 & R2 & H2).
  unfold max_eb_to_keep_sign_eigen_delta_2. cbn [tmul tadd tsub tneg XA xmul xadd xsub xneg tofZ]. change (IZR (-4)) with (-4). change (IZR 4) with 4.
  fold m. match goal with |- context [bind (min_opt XA ?x ?y) _] => replace (min_opt XA x y) with (Some (Fin b)) by (symmetry; exact E1) end.
  cbn [bind teq tlt XA]. unfold t0. cbn [tofZ XA].
  assert (ED : - m * (u0 * v1 - u0 * v2 + u1 * v2 - u1 * v0 + u2 * v0 - u2 * v1) = dt) by (unfold dt, mM, mM0, mM1, mM2; cbn [fst snd]; ring).
  rewrite ED. destruct (xeq (Fin dt) (Fin 0)) eqn:Z.
  { exists 0. split; [reflexivity|]. split; [lra|]. intros. lra. }
  apply xeq_fin_false in Z. destruct (xlt (Fin dt) (Fin 0)) eqn:L.
  - apply xlt_fin in L. exists b. split; [reflexivity|]. split; [auto|]. intros H. destruct (H1 H). split; [auto|]. split; [auto|]. intros. lra.
  -
    match goal with |- context [min_opt XA _ ?y] => replace y with (Some (Fin c)) by (symmetry; exact E2) end. unfold min_opt. cbn [bind]. unfold minf. cbn [dlt XA].
    destruct (xlt (Fin b) (Fin c)) eqn:E.
    + apply xlt_fin in E. exists b. split; [reflexivity|]. split; [auto|]. intros H. destruct (H1 H). split; [auto|]. split; [auto|]. intros. apply H2. lra.
    + apply xlt_fin_false in E. exists c. split; [reflexivity|]. split; [auto|]. intros H. destruct (H1 ltac:(lra)). split; [auto|]. split; [auto|]. intros. apply H2. lra.
Qed.

(** *** The whole bound *)
Variables (x0 x1 x2 y0 y1 y2 : R).
Hypothesis HX : (x0 - x2) * (y1 - y2) - (x1 - x2) * (y0 - y2) <> 0.
Let dX := (x0 - x2) * (y1 - y2) - (x1 - x2) * (y0 - y2).
Hypotheses (C0 : c0 = (y1 - y2) / dX) (C1 : c1 = - (y0 - y2) / dX) (C2 : c2 = - (x1 - x2) / dX) (C3 : c3 = (x0 - x2) / dX).

(** [J] is the linear part of the affine field with the given vectors at the three points. *)
Definition through (w0 w1 w2 : R * R) (J : jac) : Prop :=
  exists p q, forall w x y, In (w, x, y) [(w0, x0, y0); (w1, x1, y1); (w2, x2, y2)] ->
    fst w = p + ux J * x + uy J * y /\ snd w = q + vx J * x + vy J * y.

Lemma through_jac p0 q0 p1 q1 p2 q2 J : through (p0, q0) (p1, q1) (p2, q2) J ->
  jtr J = c0 * (p0 - p2) + c1 * (p1 - p2) + c2 * (q0 - q2) + c3 * (q1 - q2) /\ jdet J = - m * mM (p0, q0) (p1, q1) (p2, q2).
Proof using All.
  intros (p & q & H).
  destruct (H (p0, q0) x0 y0) as [E0 F0]; [cbn; auto|]. destruct (H (p1, q1) x1 y1) as [E1 F1]; [cbn; auto|].
  destruct (H (p2, q2) x2 y2) as [E2 F2]; [cbn; auto|]. cbn [fst snd] in *. fold dX in HX.
  unfold jtr, jdet, m, mM, mM0, mM1, mM2. cbn [fst snd]. rewrite C0, C1, C2, C3. rewrite E0, E1, E2, F0, F1, F2.
  split; unfold dX in *; field; auto.
Qed.

Definition inside_cp (w0 w1 w2 : R * R) : Prop :=
  exists l0 l1 l2, 0 < l0 /\ 0 < l1 /\ 0 < l2 /\ l0 + l1 + l2 = 1 /\
    l0 * fst w0 + l1 * fst w1 + l2 * fst w2 = 0 /\ l0 * snd w0 + l1 * snd w1 + l2 * snd w2 = 0.

Definition kept : Prop := (has_cp w0 w1 w2 <-> has_cp w0' w1' w2') /\
  (inside_cp w0 w1 w2 -> forall J J', through w0 w1 w2 J -> through w0' w1' w2' J' -> same_type J J').

Lemma adjugate_fin : adjugate XA (Fin x0) (Fin x1) (Fin x2) (Fin y0) (Fin y1) (Fin y2) = (Fin c0, Fin c1, Fin c2, Fin c3).
Proof using All.
  unfold adjugate. cbn [tsub tmul tneg tdiv XA xsub xmul xneg]. fold dX in HX |- *. rewrite !xdiv_fin by exact HX. rewrite C0, C1, C2, C3. reflexivity.
Qed.

(** A false flag: the minor is opposed to the rest, or vanishes. *)
Lemma flag_false M Mi : M <> 0 -> dle XA (dofZ XA 1) (xdiv (Fin M) (Fin Mi)) = false -> Mi = 0 \/ Mi * (M - Mi) < 0.
Proof using Type.
  intros NM H. destruct (Req_dec Mi 0) as [Z|NZ]; [auto|]. right. rewrite xdiv_fin in H by auto. cbn [dle dofZ XA] in H.
  apply xle_fin_false in H. assert (P : 0 < Mi * Mi) by nra.
  apply (Rmult_lt_compat_r (Mi * Mi)) in H; auto. replace (M / Mi * (Mi * Mi)) with (M * Mi) in H by (field; auto). lra.
Qed.
Lemma flag_true M Mi l : M <> 0 -> 0 < l <= 1 -> Mi = l * M -> dle XA (dofZ XA 1) (xdiv (Fin M) (Fin Mi)) = true.
Proof using Type.
  intros NM Hl ->. rewrite xdiv_fin by (apply Rmult_integral_contrapositive; lra). cbn [dle dofZ XA]. apply xle_fin.
  replace (M / (l * M)) with (/ l) by (field; lra). rewrite <- Rinv_1. apply Rinv_le_contravar; lra.
Qed.

Lemma opposed_kept a b a' b' : same_sign a a' -> same_sign b b' -> a * b < 0 -> a' * b' < 0.
Proof using Type.
  intros [S1 S2] [S3 S4] H. destruct (Rtotal_order a 0) as [L|[L|L]], (Rtotal_order b 0) as [K|[K|K]]; try nra;
    repeat match goal with H : ?P <-> ?Q, K : ?P |- _ => apply (proj1 H) in K end; nra.
Qed.

Lemma unit_pos : e < 1 -> 0 < 1 + a0 /\ 0 < 1 + a1 /\ 0 < 1 + a2 /\ 0 < 1 + b0 /\ 0 < 1 + b1 /\ 0 < 1 + b2.
Proof using A0 A1 A2 B0 B1 B2.
  intros H. repeat match goal with X : Rabs _ <= e |- _ => apply Rabs_le_inv in X end. repeat split; lra.
Qed.

(** The three ways of excluding a critical point. *)
Lemma excluded (N : mM w0 w1 w2 <> 0) i :
  (i = 0%nat -> M0 = 0 \/ M0 * (mM w0 w1 w2 - M0) < 0) -> (i = 1%nat -> M1 = 0 \/ M1 * (mM w0 w1 w2 - M1) < 0) ->
  (i = 2%nat -> M2 = 0 \/ M2 * (mM w0 w1 w2 - M2) < 0) -> (i < 3)%nat ->
  good (nth i [min_opt XA (keep [Fin (u2 * v0); xneg (Fin (u0 * v2))]) (keep [Fin (u0 * v1); xneg (Fin (u1 * v0)); Fin (u1 * v2); xneg (Fin (u2 * v1))]);
               min_opt XA (keep [Fin (u1 * v2); xneg (Fin (u2 * v1))]) (keep [Fin (u0 * v1); xneg (Fin (u1 * v0)); Fin (u2 * v0); xneg (Fin (u0 * v2))]);
               min_opt XA (keep [Fin (u0 * v1); xneg (Fin (u1 * v0))]) (keep [Fin (u1 * v2); xneg (Fin (u2 * v1)); Fin (u2 * v0); xneg (Fin (u0 * v2))])] None)
   ((~ inside_cp w0 w1 w2) /\ (has_cp w0 w1 w2 <-> has_cp w0' w1' w2')).
Proof using All.
  intros D0 D1 D2 Hi.
  assert (IM : inside_cp w0 w1 w2 -> M0 <> 0 /\ M1 <> 0 /\ M2 <> 0 /\ has_cp w0 w1 w2).
  { intros (l0 & l1 & l2 & P0 & P1 & P2 & S & EU & EV). destruct (cp_minors _ _ _ _ _ _ S EU EV) as (E0 & E1 & E2).
    unfold M0, M1, M2. rewrite E0, E1, E2. repeat split; try (apply Rmult_integral_contrapositive; split; lra).
    exists l0, l1, l2. repeat split; auto; lra. }
  assert (Q : forall t1 t2 y b, min_opt XA (keep [Fin t1; xneg (Fin t2)]) y = Some (Fin b) -> e < b -> (exists b', y = Some (Fin b')) ->
    t1 - t2 = 0 -> t1 = 0 /\ t2 = 0).
  { intros t1 t2 y b E Hb (b' & ->) Z. unfold min_opt in E. destruct (keep [Fin t1; xneg (Fin t2)]) as [k|] eqn:EK; [|discriminate].
    cbn [bind] in E. injection E as E. unfold max_eb_to_keep_sign_2d_offline in EK. cbn [xneg] in EK.
    assert (exists k', k = Fin k' /\ 0 <= k') as (k' & -> & _).
    { destruct (keep_sign_sound cbrt HC 2 [(t1, 1); (- t2, 1)]) as (k' & EK' & Rk & _); [lia|]. cbn [map fst] in EK'.
      rewrite EK in EK'. injection EK' as ->. exists k'. split; [auto|lra]. }
    assert (Hk : e < k').
    { unfold minf in E. cbn [dlt XA] in E. destruct (xlt (Fin k') (Fin b')) eqn:L; injection E as ->; [auto|]. apply xlt_fin_false in L. lra. }
    destruct (balanced_zero cbrt t1 (- t2) k' HC EK ltac:(lra) ltac:(lra)). split; lra. }
  assert (Y : forall a b c d, exists b', keep [Fin a; xneg (Fin b); Fin c; xneg (Fin d)] = Some (Fin b')).
  { intros a b c d. destruct (keep_sign_sound cbrt HC 2 [(a, 1); (- b, 1); (c, 1); (- d, 1)]) as (k' & EK & _); [lia|]. exists k'. exact EK. }
  destruct i as [|[|[|i]]]; [clear D1 D2; specialize (D0 eq_refl)|clear D0 D2; specialize (D1 eq_refl)|clear D0 D1; specialize (D2 eq_refl)|lia]; cbn [nth].
  - destruct good_eb1 as (b & E & Rb & HS). exists b. split; [exact E|]. split; [exact Rb|]. intros H. destruct (HS H) as [S1 S2].
    destruct (unit_pos ltac:(lra)) as (P0 & P1 & P2 & Q0 & Q1 & Q2). destruct D0 as [Z|O].
    + split; [intros I; apply IM in I; tauto|].
      destruct (Q _ _ _ _ E H (Y _ _ _ _) Z) as [Z1 Z2].
      pose proof (aligned_kept u0 v0 u2 v2 u1 v1 (1 + a0) (1 + b0) (1 + a2) (1 + b2) (1 + a1) (1 + b1) P0 Q0 P2 Q2 P1 Q1 Z2 Z1) as AK.
      assert (N' : mM w0 w2 w1 <> 0) by (intros X; apply N; rewrite <- Ropp_0, <- X; unfold mM, mM0, mM1, mM2; cbn [fst snd]; ring).
      specialize (AK N').
      assert (SW : forall x y z, has_cp x y z <-> has_cp x z y) by (intros x y z; split; intros X; apply has_cp_swap, has_cp_rot, has_cp_rot, X).
      rewrite (SW w0 w1 w2), (SW w0' w1' w2'). exact AK.
    + assert (O' : M0 * (M1 + M2) < 0) by (replace (M1 + M2) with (mM w0 w1 w2 - M0) by (unfold M0, M1, M2, mM; ring); exact O).
      assert (N1 : ~ has_cp w0 w1 w2) by (apply no_cp0; exact O').
      assert (N2 : ~ has_cp w0' w1' w2') by (apply no_cp0; exact (opposed_kept _ _ _ _ S1 S2 O')).
      split; [intros I; apply IM in I; tauto|tauto].
  - destruct good_eb2 as (b & E & Rb & HS). exists b. split; [exact E|]. split; [exact Rb|]. intros H. destruct (HS H) as [S1 S2].
    destruct (unit_pos ltac:(lra)) as (P0 & P1 & P2 & Q0 & Q1 & Q2). destruct D1 as [Z|O].
    + split; [intros I; apply IM in I; tauto|].
      destruct (Q _ _ _ _ E H (Y _ _ _ _) Z) as [Z1 Z2].
      pose proof (aligned_kept u1 v1 u2 v2 u0 v0 (1 + a1) (1 + b1) (1 + a2) (1 + b2) (1 + a0) (1 + b0) P1 Q1 P2 Q2 P0 Q0 Z1 Z2) as AK.
      assert (N' : mM w1 w2 w0 <> 0) by (intros X; apply N; rewrite <- X; unfold mM, mM0, mM1, mM2; cbn [fst snd]; ring).
      specialize (AK N').
      assert (SW : forall x y z, has_cp x y z <-> has_cp y z x) by (intros x y z; split; intros X; [apply has_cp_rot, X|apply has_cp_rot, has_cp_rot, X]).
      rewrite (SW w0 w1 w2), (SW w0' w1' w2'). exact AK.
    + assert (O' : M1 * (M0 + M2) < 0) by (replace (M0 + M2) with (mM w0 w1 w2 - M1) by (unfold M0, M1, M2, mM; ring); exact O).
      assert (N1 : ~ has_cp w0 w1 w2) by (apply no_cp1; exact O').
      assert (N2 : ~ has_cp w0' w1' w2') by (apply no_cp1; exact (opposed_kept _ _ _ _ S1 S2 O')).
      split; [intros I; apply IM in I; tauto|tauto].
  - destruct good_eb3 as (b & E & Rb & HS). exists b. split; [exact E|]. split; [exact Rb|]. intros H. destruct (HS H) as [S1 S2].
    destruct (unit_pos ltac:(lra)) as (P0 & P1 & P2 & Q0 & Q1 & Q2). destruct D2 as [Z|O].
    + split; [intros I; apply IM in I; tauto|].
      destruct (Q _ _ _ _ E H (Y _ _ _ _) Z) as [Z1 Z2].
      exact (aligned_kept u0 v0 u1 v1 u2 v2 (1 + a0) (1 + b0) (1 + a1) (1 + b1) (1 + a2) (1 + b2) P0 Q0 P1 Q1 P2 Q2 Z1 Z2 N).
    + assert (O' : M2 * (M0 + M1) < 0) by (replace (M0 + M1) with (mM w0 w1 w2 - M2) by (unfold M0, M1, M2, mM; ring); exact O).
      assert (N1 : ~ has_cp w0 w1 w2) by (apply no_cp2; exact O').
      assert (N2 : ~ has_cp w0' w1' w2') by (apply no_cp2; exact (opposed_kept _ _ _ _ S1 S2 O')).
      split; [intros I; apply IM in I; tauto|tauto].
Qed.

Theorem triangle_kept : good (max_eb_to_keep_position_and_type XA cbrt (Fin u0) (Fin u1) (Fin u2) (Fin v0) (Fin v1) (Fin v2)
                                (Fin x0) (Fin x1) (Fin x2) (Fin y0) (Fin y1) (Fin y2)) kept.
Proof using All.
  unfold max_eb_to_keep_position_and_type. rewrite adjugate_fin. cbn [tmul t2d XA xmul dneg ddiv dsub dadd xsub xadd deq dofZ]. cbv zeta.
  assert (EM : u0 * v1 - u1 * v0 + u1 * v2 - u2 * v1 + u2 * v0 - u0 * v2 = mM w0 w1 w2) by (unfold mM, mM0, mM1, mM2; cbn [fst snd]; ring).
  rewrite EM. destruct (xeq (Fin (mM w0 w1 w2)) (Fin 0)) eqn:EZ.
  { exists 0. split; [reflexivity|]. split; [lra|]. intros. lra. }
  apply xeq_fin_false in EZ.
  change (u2 * v0 - u0 * v2) with M0. change (u1 * v2 - u2 * v1) with M1. change (u0 * v1 - u1 * v0) with M2.
  set (f1 := dle XA (Fin 1) (xdiv (Fin (mM w0 w1 w2)) (Fin M0))). set (f2 := dle XA (Fin 1) (xdiv (Fin (mM w0 w1 w2)) (Fin M1))).
  set (f3 := dle XA (Fin 1) (xdiv (Fin (mM w0 w1 w2)) (Fin M2))).
  pose proof (excluded EZ) as EX.
  destruct (f1 && f2 && f3) eqn:EF.
  - eapply good_weak; [apply good_min; [apply good_min; [exact good_eb1|exact good_eb2]|apply good_min; [exact good_eb3|exact good_eigen]]|].
    intros (((S0 & _) & S1 & _) & (S2 & _) & SM & ST & SD). split.
    + split; [apply minors_decide; auto|]. apply minors_decide; auto using same_sign_sym. rewrite <- (same_sign_zero _ _ SM). auto.
    + intros _ J J' HJ HJ'. destruct (through_jac _ _ _ _ _ _ _ HJ) as [T1 T2]. destruct (through_jac _ _ _ _ _ _ _ HJ') as [T3 T4].
      unfold same_type, jdisc. rewrite T1, T2, T3, T4.
      fold u0' u1' u2' v0' v1' v2'. fold tr tr' dt dt'. split.
      * destruct SM as [SM1 SM2]. unfold dt, dt'. destruct (Rtotal_order m 0) as [L|[L|L]].
        -- split; split; intros X; [assert (0 < mM w0 w1 w2) by nra; rewrite SM1 in *|assert (0 < mM w0' w1' w2') by nra; rewrite <- SM1 in *|
              assert (mM w0 w1 w2 < 0) by nra; rewrite SM2 in *|assert (mM w0' w1' w2' < 0) by nra; rewrite <- SM2 in *]; nra.
        -- rewrite L. split; split; lra.
        -- split; split; intros X; [assert (mM w0 w1 w2 < 0) by nra; rewrite SM2 in *|assert (mM w0' w1' w2' < 0) by nra; rewrite <- SM2 in *|
              assert (0 < mM w0 w1 w2) by nra; rewrite SM1 in *|assert (0 < mM w0' w1' w2') by nra; rewrite <- SM1 in *]; nra.
      * intros P. split; [exact ST|apply SD; exact P].
  - assert (FF : forall i, (i < 3)%nat -> nth i [f1; f2; f3] true = false -> good (nth i [min_opt XA (keep [Fin (u2 * v0); xneg (Fin (u0 * v2))]) (keep [Fin (u0 * v1); xneg (Fin (u1 * v0)); Fin (u1 * v2); xneg (Fin (u2 * v1))]);
               min_opt XA (keep [Fin (u1 * v2); xneg (Fin (u2 * v1))]) (keep [Fin (u0 * v1); xneg (Fin (u1 * v0)); Fin (u2 * v0); xneg (Fin (u0 * v2))]);
               min_opt XA (keep [Fin (u0 * v1); xneg (Fin (u1 * v0))]) (keep [Fin (u1 * v2); xneg (Fin (u2 * v1)); Fin (u2 * v0); xneg (Fin (u0 * v2))])] None) kept).
    { intros i Hi Hf. eapply good_weak; [apply (EX i)|]; auto.
      - intros ->. apply flag_false; auto.
      - intros ->. apply flag_false; auto.
      - intros ->. apply flag_false; auto.
      - intros [G1 G2]. split; [exact G2|]. intros I. contradiction. }
    assert (BP : forall (f : bool) x y, (f = false -> good x kept) -> good y kept ->
              good (if f then y else let* e := y in let* c := x in Some (dmax XA e c)) kept).
    { intros f x y Hx (b & -> & Rb & Hb). destruct f; [exists b; auto|]. destruct (Hx eq_refl) as (c & -> & Rc & Hc). cbn [bind].
      unfold dmax. cbn [dlt XA]. destruct (xlt (Fin c) (Fin b)) eqn:L; [exists b|exists c]; auto. }
    apply BP; [intros; apply (FF 2%nat); auto|]. apply BP; [intros; apply (FF 1%nat); auto|]. apply BP; [intros; apply (FF 0%nat); auto|].
    exists 0. split; [reflexivity|]. split; [lra|]. intros. lra.
Qed.
End Triangle.
