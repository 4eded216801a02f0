(** The order in which the multilevel codec visits the grid: every point once, predictions only from earlier points. *)
From Coq Require Import List ZArith Lia Bool Arith Permutation.
From Coq Require Import ZifyBool ZifyNat.
From Verif Require Import Base Arith Codec2D Sync2D Scan Sz3.
Import ListNotations.
Local Open Scope Z_scope.
Ltac Zify.zify_post_hook ::= Z.to_euclidean_division_equations.

Lemma in_steps a lim d x : 0 < d -> In x (steps a lim d) <-> exists k, 0 <= k /\ x = a + d * k /\ x < lim.
Proof.
  intros Hd. unfold steps. rewrite in_map_iff. split.
  - intros (k & E & H). apply in_zrange in H. exists k. split; [lia|]. split; [lia|]. nia.
  - intros (k & H0 & E & H). exists k. split; [lia|]. apply in_zrange. split; [lia|]. nia.
Qed.

Lemma NoDup_map_inj {X Y} (f : X -> Y) l : (forall x y, In x l -> In y l -> f x = f y -> x = y) -> NoDup l -> NoDup (map f l).
Proof.
  induction l as [|a l IH]; intros HI HN; cbn [map]; constructor; inversion HN; subst.
  - intros HF. apply in_map_iff in HF as (b & E & Hb). apply HI in E; [subst; auto|right; auto|left; auto].
  - apply IH; auto. intros x y Hx Hy. apply HI; right; auto.
Qed.

Lemma NoDup_zrange lo hi : NoDup (zrange lo hi).
Proof. apply NoDup_zseq. Qed.

Lemma NoDup_steps a lim d : 0 < d -> NoDup (steps a lim d).
Proof. intros Hd. apply NoDup_map_inj; [|apply NoDup_zrange]. intros x y _ _ E. nia. Qed.

Lemma NoDup_app_intro {X} (a b : list X) : NoDup a -> NoDup b -> (forall x, In x a -> In x b -> False) -> NoDup (a ++ b).
Proof.
  induction a as [|x a IH]; cbn [app]; intros Ha Hb HD; auto. inversion Ha; subst. constructor.
  - rewrite in_app_iff. intros [H|H]; auto. exact (HD x (or_introl eq_refl) H).
  - apply IH; auto. intros y Hy. apply HD. right. auto.
Qed.

Lemma NoDup_flat_map {X Y} (f : X -> list Y) l : NoDup l -> (forall x, In x l -> NoDup (f x)) ->
  (forall x y z, In x l -> In y l -> In z (f x) -> In z (f y) -> x = y) -> NoDup (flat_map f l).
Proof.
  induction l as [|a l IH]; cbn [flat_map]; intros HN HF HD; [constructor|]. inversion HN; subst. apply NoDup_app_intro.
  - apply HF. left; auto.
  - apply IH; auto. + intros x Hx. apply HF. right; auto. + intros x y z Hx Hy. apply HD; right; auto.
  - intros z Hz Hz'. apply in_flat_map in Hz' as (b & Hb & Hz'). assert (a = b) by (eapply HD; eauto; [left|right]; auto). congruence.
Qed.

(** ** A line *)

(** Positions read by an interpolation, in units of the distance. *)
Definition taps (k : kind) : list Z :=
  match k with
  | First => [] | Linear => [-1; 1] | Quad1 => [-1; 1; 3] | Cubic => [-3; -1; 1; 3] | Quad2 => [-3; -1; 1] | Last => [-1]
  end.

Lemma steps_length a lim d : length (steps a lim d) = Z.to_nat ((lim - a + d - 1) / d).
Proof. unfold steps, zrange. rewrite map_length, zseq_length. f_equal. lia. Qed.

Lemma steps3_length n : 5 <= n -> Z.of_nat (length (steps 3 (n - 3) 2)) = (n - 5) / 2.
Proof. intros. rewrite steps_length, Z2Nat.id by (apply Z.div_pos; lia). f_equal. lia. Qed.

Lemma last_of_spec n i k : In (i, k) (last_of n) -> n mod 2 = 0 /\ i = n - 1 /\ k = Last.
Proof. unfold last_of. destruct (n mod 2 =? 0) eqn:E; [intros [H|[]]|intros []]. injection H as <- <-. repeat split; lia. Qed.

Lemma line_spec n i k : In (i, k) (predict_line n) ->
  0 < i < n /\ i mod 2 = 1 /\ (forall t, In t (taps k) -> 0 <= i + t < n /\ (i + t) mod 2 = 0).
Proof.
  unfold predict_line. destruct (Z.leb_spec n 1); [intros []|]. destruct (Z.ltb_spec n 5).
  - rewrite in_app_iff. intros [H1|H1].
    + apply in_map_iff in H1 as (x & E & Hx). injection E as -> <-. apply in_steps in Hx as (m & Hm & -> & Hl); [|lia].
      split; [lia|]. split; [lia|]. cbn [taps In]. intros t [<-|[<-|[]]]; lia.
    + apply last_of_spec in H1 as (E & -> & ->). split; [lia|]. split; [lia|]. cbn [taps In]. intros t [<-|[]]. lia.
  - cbn [In]. rewrite !in_app_iff. intros [H1|[H1|[H1|H1]]].
    + injection H1 as <- <-. split; [lia|]. split; [lia|]. cbn [taps In]. intros t [<-|[<-|[<-|[]]]]; lia.
    + apply in_map_iff in H1 as (x & E & Hx). injection E as -> <-. apply in_steps in Hx as (m & Hm & -> & Hl); [|lia].
      split; [lia|]. split; [lia|]. cbn [taps In]. intros t [<-|[<-|[<-|[<-|[]]]]]; lia.
    + destruct H1 as [H1|[]]. apply pair_equal_spec in H1 as [<- <-]. rewrite steps3_length by lia.
      split; [lia|]. split; [lia|]. cbn [taps In]. intros t [<-|[<-|[<-|[]]]]; lia.
    + apply last_of_spec in H1 as (E & -> & ->). split; [lia|]. split; [lia|]. cbn [taps In]. intros t [<-|[]]. lia.
Qed.

Lemma line_complete n i : 0 < i < n -> i mod 2 = 1 -> exists k, In (i, k) (predict_line n).
Proof.
  intros Hi Ho. unfold predict_line. destruct (Z.leb_spec n 1); [lia|]. destruct (Z.ltb_spec n 5).
  - destruct (Z.eq_dec i (n - 1)) as [->|N].
    + exists Last. apply in_or_app. right. unfold last_of. replace (n mod 2 =? 0) with true by lia. left. reflexivity.
    + exists Linear. apply in_or_app. left. apply in_map_iff. exists i. split; [reflexivity|]. apply in_steps; [lia|].
      exists ((i - 1) / 2). lia.
  - destruct (Z.eq_dec i 1) as [->|N1]; [exists Quad1; left; reflexivity|].
    destruct (Z_lt_dec (i + 3) n) as [L|L].
    { exists Cubic. right. apply in_or_app. left. apply in_map_iff. exists i. split; [reflexivity|]. apply in_steps; [lia|].
      exists ((i - 3) / 2). lia. }
    destruct (Z.eq_dec i (3 + 2 * Z.of_nat (length (steps 3 (n - 3) 2)))) as [E|N2].
    { exists Quad2. right. apply in_or_app. right. left. rewrite <- E. reflexivity. }
    rewrite steps3_length in N2 by lia.
    exists Last. right. apply in_or_app. right. right. unfold last_of.
    replace (n mod 2 =? 0) with true by lia. left. f_equal. lia.
Qed.

Lemma line_nodup n : NoDup (map fst (predict_line n)).
Proof.
  unfold predict_line. destruct (Z.leb_spec n 1); [constructor|]. destruct (Z.ltb_spec n 5).
  - rewrite map_app, map_map. cbn [fst]. rewrite map_id. apply NoDup_app_intro.
    + apply NoDup_steps. lia.
    + unfold last_of. destruct (n mod 2 =? 0); repeat constructor. intros [].
    + intros x H1 H2. apply in_steps in H1 as (m & Hm & -> & Hl); [|lia].
      apply in_map_iff in H2 as ([i k] & E & H2). apply last_of_spec in H2. cbn [fst] in E. lia.
  - cbn [map fst]. rewrite !map_app, map_map. cbn [fst map app]. rewrite map_id. rewrite steps3_length by lia.
    constructor.
    + rewrite in_app_iff. intros [H1|[H1|H1]].
      * apply in_steps in H1 as (m & Hm & E & Hl); lia.
      * lia.
      * apply in_map_iff in H1 as ([i k] & E & H2). apply last_of_spec in H2. cbn [fst] in E. lia.
    + apply NoDup_app_intro; [apply NoDup_steps; lia| |].
      * constructor.
        -- intros H1. apply in_map_iff in H1 as ([i k] & E & H2). apply last_of_spec in H2. cbn [fst] in E. lia.
        -- unfold last_of. destruct (n mod 2 =? 0); repeat constructor. intros [].
      * intros x H1 [H2|H2].
        -- apply in_steps in H1 as (m & Hm & E & Hl); lia.
        -- apply in_map_iff in H2 as ([i k] & E & H2). apply last_of_spec in H2. cbn [fst] in E.
           apply in_steps in H1 as (m & Hm & E' & Hl); lia.
Qed.

Lemma recover_line_same n : recover_line n = predict_line n.
Proof. reflexivity. Qed.

(** The decompressor visits the same indices with the same neighbours and interpolations. *)
Lemma dec_visits_same r1 r2 : dec_visits r1 r2 = map (fun v => (v_p v, v_s v, v_kind v)) (visits r1 r2).
Proof.
  unfold dec_visits, visits. cbn [map first_visit v_p v_s v_kind]. f_equal.
  induction (levels (interpolation_level r1 r2)) as [|l ls IH]; cbn [flat_map map]; [reflexivity|].
  rewrite map_app, IH. f_equal. rewrite map_app. unfold visits_r1, visits_r2. f_equal.
  - generalize (steps 0 r2 (2 ^ (l - 1) * 2)) as js. induction js as [|j js IJ]; cbn [flat_map map]; [reflexivity|].
    rewrite map_app, IJ, map_map, recover_line_same. f_equal. apply map_ext. intros [i k]. reflexivity.
  - generalize (steps 0 r1 (2 ^ (l - 1))) as js. induction js as [|j js IJ]; cbn [flat_map map]; [reflexivity|].
    rewrite map_app, IJ, map_map, recover_line_same. f_equal. apply map_ext. intros [i k]. reflexivity.
Qed.

(** ** Order *)

(** Grid points read by the prediction of a visit: along a column when the distance is a multiple of r2 -- stated by index. *)
Definition reads (v : visit) : list Z := map (fun t => v_p v + t * v_s v) (taps (v_kind v)).

(** [vs] visits, from a state where the points [P] are done, only new points and reads only done ones. *)
Fixpoint in_order (P : Z -> Prop) (vs : list visit) : Prop :=
  match vs with
  | [] => True
  | v :: vs' => ~ P (v_p v) /\ (forall q, In q (reads v) -> P q) /\ in_order (fun q => P q \/ q = v_p v) vs'
  end.

Lemma in_order_ext vs : forall P Q, (forall q, P q <-> Q q) -> in_order P vs -> in_order Q vs.
Proof.
  induction vs as [|v vs IH]; cbn [in_order]; intros P Q HPQ H; auto. destruct H as (H1 & H2 & H3). split; [|split].
  - rewrite <- HPQ. auto. - intros q Hq. apply HPQ. auto. - eapply IH; [|exact H3]. intros q. cbv beta. rewrite HPQ. reflexivity.
Qed.

Lemma in_order_app a : forall P b, in_order P (a ++ b) <-> in_order P a /\ in_order (fun q => P q \/ In q (map v_p a)) b.
Proof.
  induction a as [|v a IH]; intros P b; cbn [app in_order map In].
  - split; [intros H; split; auto; eapply in_order_ext; [|exact H]; tauto|].
    intros [_ H]. eapply in_order_ext; [|exact H]. tauto.
  - rewrite IH. split.
    + intros (H1 & H2 & H3 & H4). repeat split; auto. eapply in_order_ext; [|exact H4]. intros q. cbv beta. intuition congruence.
    + intros ((H1 & H2 & H3) & H4). repeat split; auto. eapply in_order_ext; [|exact H4]. intros q. cbv beta. intuition congruence.
Qed.

(** A pass whose predictions all read points done before the pass. *)
Lemma in_order_pass vs : forall P, NoDup (map v_p vs) ->
  (forall v, In v vs -> ~ P (v_p v) /\ forall q, In q (reads v) -> P q) -> in_order P vs.
Proof.
  induction vs as [|v vs IH]; cbn [in_order map]; intros P HN H; auto. inversion HN as [|x l Hx Hl]; subst.
  split; [apply H; left; auto|]. split; [apply H; left; auto|]. apply IH; auto. intros w Hw. destruct (H w (or_intror Hw)) as [H1 H2]. split.
  - intros [G|G]; [auto|]. apply Hx. rewrite <- G. apply in_map. auto.
  - intros q Hq. left. auto.
Qed.

Lemma in_order_nodup vs : forall P, in_order P vs -> NoDup (map v_p vs) /\ forall v, In v vs -> ~ P (v_p v).
Proof.
  induction vs as [|v vs IH]; cbn [in_order map]; intros P H; [split; [constructor|intros v []]|].
  destruct H as (H1 & _ & H3). destruct (IH _ H3) as [N D]. split.
  - constructor; auto. intros H. apply in_map_iff in H as (w & E & Hw). apply (D w Hw). right. auto.
  - intros w [<-|Hw]; auto. intros HP. apply (D w Hw). left. auto.
Qed.

Section Grid.
Variables r1 r2 : Z.
Hypothesis H1 : 1 <= r1.
Hypothesis H2 : 1 <= r2.

(** Points of the grid whose coordinates are multiples of a and b. *)
Definition coarse (a b q : Z) : Prop := exists i j, 0 <= i < r1 /\ 0 <= j < r2 /\ i mod a = 0 /\ j mod b = 0 /\ q = i * r2 + j.

Lemma idx_inj i j i' j' : 0 <= j < r2 -> 0 <= j' < r2 -> i * r2 + j = i' * r2 + j' -> i = i' /\ j = j'.
Proof. intros. assert (i = i') by nia. subst. split; [auto|lia]. Qed.

(** Odd multiples. *)
Lemma pow_pos l : 0 < 2 ^ (l - 1) \/ l - 1 < 0.
Proof. destruct (Z_lt_dec (l - 1) 0); [right; lia|left; apply Z.pow_pos_nonneg; lia]. Qed.

Lemma mod_mult i s : 0 < s -> i mod s = 0 <-> exists k, i = k * s.
Proof. intros Hs. split; [intros H; exists (i / s); lia|intros [k ->]; apply Z.mod_mul; lia]. Qed.

Lemma mult_range k s r : 0 < s -> 1 <= r -> 0 <= k -> k * s < r <-> k < (r - 1) / s + 1.
Proof. intros. split; intros; nia. Qed.

Lemma mod2s k s : 0 < s -> (k * s) mod (s * 2) = 0 <-> k mod 2 = 0.
Proof. intros. rewrite (Z.mul_comm k s), Z.mul_mod_distr_l by lia. nia. Qed.

Section Level.
Variable l : Z.
Hypothesis Hl : 1 <= l.
Let s := 2 ^ (l - 1).
Let Hs : 0 < s.
Proof. apply Z.pow_pos_nonneg; lia. Qed.

Lemma in_visits_r1 v : In v (visits_r1 r1 r2 l) -> exists i j k,
  In (i, k) (predict_line ((r1 - 1) / s + 1)) /\ 0 <= j < r2 /\ j mod (s * 2) = 0 /\
  v = {| v_i := i * s; v_j := j; v_p := j + i * (s * r2); v_s := s * r2; v_kind := k; v_half := 3 <=? l |}.
Proof.
  unfold visits_r1. fold s. intros H. apply in_flat_map in H as (j & Hj & H). apply in_map_iff in H as ([i k] & <- & H).
  exists i, j, k. apply in_steps in Hj as (m & Hm & -> & Hlt); [|lia]. split; [auto|]. split; [nia|]. split; [|reflexivity].
  rewrite Z.add_0_l, Z.mul_comm. apply Z.mod_mul. lia.
Qed.

Lemma in_visits_r2 v : In v (visits_r2 r1 r2 l) -> exists i j k,
  In (j, k) (predict_line ((r2 - 1) / s + 1)) /\ 0 <= i < r1 /\ i mod s = 0 /\
  v = {| v_i := i; v_j := j * s; v_p := i * r2 + j * s; v_s := s; v_kind := k; v_half := 3 <=? l |}.
Proof.
  unfold visits_r2. fold s. intros H. apply in_flat_map in H as (i & Hi & H). apply in_map_iff in H as ([j k] & <- & H).
  exists i, j, k. apply in_steps in Hi as (m & Hm & -> & Hlt); [|lia]. split; [auto|]. split; [nia|]. split; [|reflexivity].
  rewrite Z.add_0_l, Z.mul_comm. apply Z.mod_mul. lia.
Qed.

Lemma visits_r1_points q : In q (map v_p (visits_r1 r1 r2 l)) <->
  exists i j, 0 <= i < r1 /\ 0 <= j < r2 /\ i mod s = 0 /\ i mod (s * 2) <> 0 /\ j mod (s * 2) = 0 /\ q = i * r2 + j.
Proof.
  split.
  - intros H. apply in_map_iff in H as (v & <- & Hv). apply in_visits_r1 in Hv as (i & j & k & Hi & Hj & Hm & ->). cbn [v_p].
    apply line_spec in Hi as (Hr & Ho & _). exists (i * s), j. split; [split; [nia|]; apply mult_range; lia|]. split; [auto|].
    split; [apply Z.mod_mul; lia|]. split; [rewrite mod2s; lia|]. split; [auto|]. ring.
  - intros (i & j & Hi & Hj & M1 & M2 & M3 & ->). apply mod_mult in M1 as [m ->]; [|lia]. rewrite mod2s in M2 by lia.
    destruct (line_complete ((r1 - 1) / s + 1) m) as (k & Hk).
    { assert (0 <= m) by nia. split; [|apply mult_range; lia]. destruct (Z.eq_dec m 0) as [->|]; [exfalso; apply M2; reflexivity|lia]. }
    { assert (m mod 2 = 0 \/ m mod 2 = 1) by lia. tauto. }
    apply in_map_iff. eexists. split; [|unfold visits_r1; fold s; apply in_flat_map; exists j; split].
    2: { apply in_steps; [lia|]. apply mod_mult in M3 as [jj ->]; [|lia]. exists jj. nia. }
    2: { apply in_map_iff. exists (m, k). split; [reflexivity|exact Hk]. }
    cbn [v_p]. ring.
Qed.

Lemma visits_r2_points q : In q (map v_p (visits_r2 r1 r2 l)) <->
  exists i j, 0 <= i < r1 /\ 0 <= j < r2 /\ i mod s = 0 /\ j mod s = 0 /\ j mod (s * 2) <> 0 /\ q = i * r2 + j.
Proof.
  split.
  - intros H. apply in_map_iff in H as (v & <- & Hv). apply in_visits_r2 in Hv as (i & j & k & Hj & Hi & Hm & ->). cbn [v_p].
    apply line_spec in Hj as (Hr & Ho & _). exists i, (j * s). split; [auto|]. split; [split; [nia|]; apply mult_range; lia|].
    split; [auto|]. split; [apply Z.mod_mul; lia|]. split; [rewrite mod2s; lia|]. reflexivity.
  - intros (i & j & Hi & Hj & M1 & M2 & M3 & ->). apply mod_mult in M2 as [m ->]; [|lia]. rewrite mod2s in M3 by lia.
    destruct (line_complete ((r2 - 1) / s + 1) m) as (k & Hk).
    { assert (0 <= m) by nia. split; [|apply mult_range; lia]. destruct (Z.eq_dec m 0) as [->|]; [exfalso; apply M3; reflexivity|lia]. }
    { assert (m mod 2 = 0 \/ m mod 2 = 1) by lia. tauto. }
    apply in_map_iff. eexists. split; [|unfold visits_r2; fold s; apply in_flat_map; exists i; split].
    2: { apply in_steps; [lia|]. apply mod_mult in M1 as [jj ->]; [|lia]. exists jj. nia. }
    2: { apply in_map_iff. exists (m, k). split; [reflexivity|exact Hk]. }
    cbn [v_p]. ring.
Qed.

Lemma visits_r1_nodup : NoDup (map v_p (visits_r1 r1 r2 l)).
Proof.
  unfold visits_r1. fold s. rewrite flat_map_concat_map, concat_map, map_map, <- flat_map_concat_map.
  assert (E : forall j, map v_p (map (fun '(i, k) => {| v_i := i * s; v_j := j; v_p := j + i * (s * r2); v_s := s * r2; v_kind := k; v_half := 3 <=? l |})
                          (predict_line ((r1 - 1) / s + 1))) = map (fun i => j + i * (s * r2)) (map fst (predict_line ((r1 - 1) / s + 1)))).
  { intros j. rewrite !map_map. apply map_ext. intros [i k]. reflexivity. }
  apply NoDup_flat_map.
  - apply NoDup_steps. lia.
  - intros j _. rewrite E. apply NoDup_map_inj; [|apply line_nodup]. intros x y _ _ EQ. assert (0 < s * r2) by nia. nia.
  - intros j j' q Hj Hj' Hq Hq'. rewrite E in Hq, Hq'.
    apply in_map_iff in Hq as (i & <- & Hi). apply in_map_iff in Hq' as (i' & Eq & Hi').
    apply in_steps in Hj as (m & Hm & Ej & Hlt); [|lia]. apply in_steps in Hj' as (m' & Hm' & Ej' & Hlt'); [|lia].
    destruct (idx_inj (i' * s) j' (i * s) j); [nia|nia| |auto]. rewrite (Z.add_comm (i' * s * r2)), (Z.add_comm (i * s * r2)), <- !Z.mul_assoc. exact Eq.
Qed.

Lemma visits_r2_nodup : NoDup (map v_p (visits_r2 r1 r2 l)).
Proof.
  unfold visits_r2. fold s. rewrite flat_map_concat_map, concat_map, map_map, <- flat_map_concat_map.
  assert (E : forall i, map v_p (map (fun '(j, k) => {| v_i := i; v_j := j * s; v_p := i * r2 + j * s; v_s := s; v_kind := k; v_half := 3 <=? l |})
                          (predict_line ((r2 - 1) / s + 1))) = map (fun j => i * r2 + j * s) (map fst (predict_line ((r2 - 1) / s + 1)))).
  { intros j. rewrite !map_map. apply map_ext. intros [i k]. reflexivity. }
  apply NoDup_flat_map.
  - apply NoDup_steps. lia.
  - intros j _. rewrite E. apply NoDup_map_inj; [|apply line_nodup]. intros x y _ _ EQ. nia.
  - intros i i' q Hi Hi' Hq Hq'. rewrite E in Hq, Hq'.
    apply in_map_iff in Hq as (j & <- & Hj). apply in_map_iff in Hq' as (j' & Eq & Hj').
    apply in_map_iff in Hj as ([x k] & <- & Hj). apply in_map_iff in Hj' as ([x' k'] & <- & Hj'). cbn [fst] in *.
    apply line_spec in Hj as (Hj & _). apply line_spec in Hj' as (Hj' & _).
    destruct (idx_inj i' (x' * s) i (x * s)); auto; split; try nia; apply mult_range; lia.
Qed.

(** One level refines the grid of done points from stride 2s to s. *)
Lemma level_order P : (forall q, P q <-> coarse (s * 2) (s * 2) q) ->
  in_order P (visits_r1 r1 r2 l ++ visits_r2 r1 r2 l) /\
  forall q, P q \/ In q (map v_p (visits_r1 r1 r2 l ++ visits_r2 r1 r2 l)) <-> coarse s s q.
Proof.
  intros HP.
  assert (M : forall x, x mod (s * 2) = 0 -> x mod s = 0).
  { intros x Hx. apply mod_mult in Hx as [k ->]; [|lia]. replace (k * (s * 2)) with (k * 2 * s) by ring. apply Z.mod_mul. lia. }
  assert (HA : forall q, P q \/ In q (map v_p (visits_r1 r1 r2 l)) <-> coarse s (s * 2) q).
  { intros q. rewrite HP, visits_r1_points. split.
    - intros [(i & j & Hi & Hj & Mi & Mj & E)|(i & j & Hi & Hj & Mi & _ & Mj & E)]; exists i, j; auto 10.
    - intros (i & j & Hi & Hj & Mi & Mj & E). destruct (Z.eq_dec (i mod (s * 2)) 0); [left|right]; exists i, j; auto 10. }
  split.
  - apply in_order_app. split.
    + apply in_order_pass; [apply visits_r1_nodup|]. intros v Hv. split.
      * rewrite HP. intros (i & j & Hi & Hj & Mi & Mj & E).
        assert (In (v_p v) (map v_p (visits_r1 r1 r2 l))) as G by (apply in_map; auto).
        apply visits_r1_points in G as (i' & j' & Hi' & Hj' & _ & Ni & _ & E'). destruct (idx_inj i j i' j'); auto; try congruence.
      * intros q Hq. apply HP. apply in_visits_r1 in Hv as (i & j & k & Hi & Hj & Mj & ->).
        unfold reads in Hq. cbn [v_p v_s v_kind] in Hq. apply in_map_iff in Hq as (t & <- & Ht).
        apply line_spec in Hi as (_ & _ & Hi). destruct (Hi t Ht) as [Hr Hm].
        exists ((i + t) * s), j. split; [split; [nia|]; apply mult_range; lia|]. split; [auto|]. split; [apply mod2s; lia|]. split; [auto|]. ring.
    + eapply in_order_ext; [intros q; symmetry; apply HA|].
      apply in_order_pass; [apply visits_r2_nodup|]. intros v Hv. split.
      * intros (i & j & Hi & Hj & Mi & Mj & E).
        assert (In (v_p v) (map v_p (visits_r2 r1 r2 l))) as G by (apply in_map; auto).
        apply visits_r2_points in G as (i' & j' & Hi' & Hj' & _ & _ & Nj & E'). destruct (idx_inj i j i' j'); auto; try congruence.
      * intros q Hq. apply in_visits_r2 in Hv as (i & j & k & Hj & Hi & Mi & ->).
        unfold reads in Hq. cbn [v_p v_s v_kind] in Hq. apply in_map_iff in Hq as (t & <- & Ht).
        apply line_spec in Hj as (_ & _ & Hj). destruct (Hj t Ht) as [Hr Hm].
        exists i, ((j + t) * s). split; [auto|]. split; [split; [nia|]; apply mult_range; lia|]. split; [auto|]. split; [apply mod2s; lia|]. ring.
  - intros q. rewrite map_app, in_app_iff. rewrite <- or_assoc. rewrite HA, visits_r2_points. split.
    + intros [(i & j & Hi & Hj & Mi & Mj & E)|(i & j & Hi & Hj & Mi & Mj & _ & E)]; exists i, j; auto 10.
    + intros (i & j & Hi & Hj & Mi & Mj & E). destruct (Z.eq_dec (j mod (s * 2)) 0); [left|right]; exists i, j; auto 10.
Qed.
End Level.

Lemma levels_S l : 0 <= l -> levels (l + 1) = (l + 1) :: levels l.
Proof.
  intros. unfold levels, zrange. replace (Z.to_nat (l + 1 - 0)) with (S (Z.to_nat (l - 0))) by lia. cbn [zseq map]. f_equal; [lia|].
  assert (G : forall m a, map (fun k => l + 1 - k) (zseq (a + 1) m) = map (fun k => l - k) (zseq a m)).
  { induction m as [|m IH]; intros a; cbn [zseq map]; auto. f_equal; [lia|]. apply IH. }
  apply G.
Qed.

Lemma levels_order : forall m P, (forall q, P q <-> coarse (2 ^ Z.of_nat m) (2 ^ Z.of_nat m) q) ->
  let vs := flat_map (fun l => visits_r1 r1 r2 l ++ visits_r2 r1 r2 l) (levels (Z.of_nat m)) in
  in_order P vs /\ forall q, P q \/ In q (map v_p vs) <-> coarse 1 1 q.
Proof.
  induction m as [|m IH]; intros P HP; cbv zeta.
  - change (levels (Z.of_nat 0)) with (@nil Z). cbn [flat_map in_order map In]. split; [auto|]. intros q. rewrite HP. cbn. tauto.
  - rewrite Nat2Z.inj_succ, <- Z.add_1_r, levels_S by lia. cbn [flat_map].
    assert (E : 2 ^ Z.of_nat (S m) = 2 ^ (Z.of_nat m + 1 - 1) * 2).
    { rewrite Nat2Z.inj_succ, Z.pow_succ_r by lia. replace (Z.of_nat m + 1 - 1) with (Z.of_nat m) by lia. ring. }
    destruct (level_order (Z.of_nat m + 1) ltac:(lia) P) as [O1 D1]; [intros q; rewrite HP, E; reflexivity|].
    replace (Z.of_nat m + 1 - 1) with (Z.of_nat m) in D1 by lia.
    destruct (IH _ D1) as [O2 D2]. split; [apply in_order_app; auto|].
    intros q. rewrite map_app, in_app_iff, <- or_assoc. apply D2.
Qed.

Lemma level_covers : 0 <= interpolation_level r1 r2 /\ r1 <= 2 ^ interpolation_level r1 r2 /\ r2 <= 2 ^ interpolation_level r1 r2.
Proof.
  unfold interpolation_level. split; [apply Z.log2_up_nonneg|].
  destruct (Z.eq_dec (Z.max r1 r2) 1) as [E|N].
  - rewrite E. change (2 ^ Z.log2_up 1) with 1. lia.
  - pose proof (Z.log2_up_spec (Z.max r1 r2) ltac:(lia)). lia.
Qed.

(** The whole traversal. *)
Theorem visits_order : in_order (fun _ => False) (visits r1 r2) /\ forall q, In q (map v_p (visits r1 r2)) <-> 0 <= q < r1 * r2.
Proof.
  destruct level_covers as (L0 & L1 & L2). set (L := interpolation_level r1 r2) in *.
  assert (Hp : 0 < 2 ^ L) by (apply Z.pow_pos_nonneg; lia).
  destruct (levels_order (Z.to_nat L) (fun q => False \/ q = 0)) as [O D].
  { rewrite Z2Nat.id by lia. intros q. split.
    - intros [[]| ->]. exists 0, 0. rewrite Z.mod_0_l by lia. lia.
    - intros (i & j & Hi & Hj & Mi & Mj & E). rewrite Z.mod_small in Mi, Mj by lia. lia. }
  rewrite Z2Nat.id in O, D by lia. unfold visits. fold L. split.
  - cbn [in_order]. split; [tauto|]. split; [intros q []|]. exact O.
  - intros q. cbn [map In]. change (v_p first_visit) with 0. specialize (D q).
    assert (C : coarse 1 1 q <-> 0 <= q < r1 * r2).
    { split.
      - intros (i & j & Hi & Hj & _ & _ & ->). nia.
      - intros Hq. exists (q / r2), (q mod r2). rewrite !Z.mod_1_r. split; [split; [apply Z.div_pos; lia|apply Z.div_lt_upper_bound; lia]|].
        split; [apply Z.mod_pos_bound; lia|]. split; [auto|]. split; [auto|]. rewrite (Z.mul_comm (q / r2)). apply Z.div_mod. lia. }
    rewrite <- C, <- D. split; [intros [E|E]; auto|intros [[[]|E]|E]; auto].
Qed.

(** Coordinates of a visit. *)
Lemma visits_coord v : In v (visits r1 r2) -> 0 <= v_i v < r1 /\ 0 <= v_j v < r2 /\ v_p v = v_i v * r2 + v_j v.
Proof.
  intros [<-|H]; [cbn; lia|]. apply in_flat_map in H as (l & Hl & H).
  assert (Hl1 : 1 <= l). { unfold levels in Hl. apply in_map_iff in Hl as (k & <- & Hk). apply in_zrange in Hk. lia. }
  assert (Hs : 0 < 2 ^ (l - 1)) by (apply Z.pow_pos_nonneg; lia).
  apply in_app_or in H as [H|H].
  - apply in_visits_r1 in H as (i & j & k & Hi & Hj & _ & ->); auto. cbn [v_i v_j v_p]. apply line_spec in Hi as (Hr & _).
    split; [split; [nia|]; apply mult_range; lia|]. split; [auto|]. ring.
  - apply in_visits_r2 in H as (i & j & k & Hj & Hi & _ & ->); auto. cbn [v_i v_j v_p]. apply line_spec in Hj as (Hr & _).
    split; [auto|]. split; [split; [nia|]; apply mult_range; lia|]. reflexivity.
Qed.

(** The levels whose bound is not halved visit the points off the grid of stride 4. *)
Lemma visits_half v : In v (visits r1 r2) -> v_half v = false -> v_i v mod 4 <> 0 \/ v_j v mod 4 <> 0.
Proof.
  intros [<-|H]; [discriminate|]. apply in_flat_map in H as (l & Hl & H).
  assert (Hl1 : 1 <= l). { unfold levels in Hl. apply in_map_iff in Hl as (k & <- & Hk). apply in_zrange in Hk. lia. }
  intros Hh. apply in_app_or in H as [H|H].
  - apply in_visits_r1 in H as (i & j & k & Hi & Hj & _ & ->); auto. cbn [v_i v_j v_half] in *. apply line_spec in Hi as (Hr & Ho & _).
    left. assert (l = 1 \/ l = 2) as [-> | ->] by lia; cbn; lia.
  - apply in_visits_r2 in H as (i & j & k & Hj & Hi & _ & ->); auto. cbn [v_i v_j v_half] in *. apply line_spec in Hj as (Hr & Ho & _).
    right. assert (l = 1 \/ l = 2) as [-> | ->] by lia; cbn; lia.
Qed.

Lemma visits_length : length (visits r1 r2) = Z.to_nat (r1 * r2).
Proof.
  destruct visits_order as [O D]. destruct (in_order_nodup _ _ O) as [N _].
  rewrite <- (map_length v_p). rewrite <- (zseq_length 0 (Z.to_nat (r1 * r2))).
  apply Permutation_length, NoDup_Permutation; [auto|apply NoDup_zseq|]. intros q. rewrite D, in_zseq. lia.
Qed.

(** The points read by visit number [m] are among the points of the visits before it. *)
Lemma in_order_nth vs : forall P m v, in_order P vs -> nth_error vs m = Some v ->
  forall q, In q (reads v) -> P q \/ In q (map v_p (firstn m vs)).
Proof.
  induction vs as [|w vs IH]; intros P m v HO Hm q Hq; [destruct m; discriminate|]. destruct HO as (_ & HR & HO). destruct m as [|m].
  - apply Some_inj in Hm. subst w. left. auto.
  - cbn [firstn map In]. destruct (IH _ _ _ HO Hm q Hq) as [[G|G]|G]; auto.
Qed.
End Grid.
