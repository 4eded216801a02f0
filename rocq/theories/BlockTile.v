(** The block traversals: compressor and decompressor use the same positions, every grid point is visited, as many
    values as the grid has points, and no access leaves the prediction buffer. *)
From Coq Require Import List ZArith Lia Bool Arith.
From Coq Require Import ZifyBool ZifyNat.
From Verif Require Import Base Stream Arith Sync2D LinQuant Block BlockSync.
Import ListNotations.
Local Open Scope Z_scope.
Ltac Zify.zify_post_hook ::= Z.div_mod_to_equations.

Lemma running_const c : forall m lo p,
  running (fun _ => c) p (zseq lo m) = map (fun k => (k, p + (k - lo) * c)) (zseq lo m).
Proof.
  induction m as [|m IH]; intros lo p; cbn [zseq running map]; [reflexivity|].
  rewrite IH. f_equal; [f_equal; lia|]. apply map_ext. intros k. f_equal. lia.
Qed.

Lemma running_zrange c hi : running (fun _ => c) 0 (zrange 0 hi) = map (fun k => (k, k * c)) (zrange 0 hi).
Proof. unfold zrange. rewrite running_const. apply map_ext. intros k. f_equal. lia. Qed.

Section Dim.
Context (d bs : Z) (Hd : 1 <= d) (Hb : 1 <= bs).
Set Default Proof Using "All".

Lemma num_blocks_pos : 1 <= num_blocks d bs.
Proof. unfold num_blocks. assert (0 <= (d - 1) / bs) by (apply Z.div_pos; lia). lia. Qed.

Lemma block_lt i : i < num_blocks d bs -> i * bs < d.
Proof. unfold num_blocks. intros H. assert (HH : i <= (d - 1) / bs) by lia. pose proof (Z.mul_div_le (d - 1) bs ltac:(lia)). nia. Qed.

Lemma block_last i : (i + 1) * bs < d -> i + 1 < num_blocks d bs.
Proof. unfold num_blocks. intros H. assert (i + 1 <= (d - 1) / bs) by (apply Z.div_le_lower_bound; lia). lia. Qed.

Lemma extent_range i : 0 <= i < num_blocks d bs -> 1 <= block_extent d bs i <= bs /\ i * bs + block_extent d bs i <= d.
Proof.
  intros H. pose proof (block_lt i ltac:(lia)). unfold block_extent. destruct ((i + 1) * bs <? d) eqn:E; lia.
Qed.

Lemma running_extent : forall m lo, 0 <= lo -> lo + Z.of_nat m <= num_blocks d bs ->
  running (block_extent d bs) (lo * bs) (zseq lo m) = map (fun k => (k, k * bs)) (zseq lo m).
Proof.
  induction m as [|m IH]; intros lo H0 HM; cbn [zseq running map]; [reflexivity|]. f_equal.
  destruct m as [|m]; [reflexivity|].
  assert (HE : block_extent d bs lo = bs).
  { unfold block_extent. pose proof (block_lt (lo + 1) ltac:(lia)). destruct ((lo + 1) * bs <? d) eqn:E; lia. }
  rewrite HE. replace (lo * bs + bs) with ((lo + 1) * bs) by lia. apply IH; lia.
Qed.

Lemma running_extent0 : running (block_extent d bs) 0 (zrange 0 (num_blocks d bs)) =
  map (fun k => (k, k * bs)) (zrange 0 (num_blocks d bs)).
Proof. unfold zrange. pose proof num_blocks_pos. apply (running_extent _ 0); lia. Qed.

(** Every coordinate lies in one block. *)
Lemma block_of a : 0 <= a < d ->
  0 <= a / bs < num_blocks d bs /\ 0 <= a mod bs < block_extent d bs (a / bs) /\ a = a / bs * bs + a mod bs.
Proof.
  intros H. pose proof (Z.div_mod a bs ltac:(lia)). pose proof (Z.mod_pos_bound a bs ltac:(lia)).
  assert (Hq : 0 <= a / bs) by (apply Z.div_pos; lia).
  assert (Hn : a / bs <= (d - 1) / bs) by (apply Z.div_le_mono; lia).
  unfold num_blocks, block_extent. set (q := a / bs) in *. set (r := a mod bs) in *. clearbody q r.
  split; [lia|]. split; [|lia]. destruct ((q + 1) * bs <? d) eqn:E; lia.
Qed.

Fixpoint zsum {X} (f : X -> Z) (l : list X) : Z := match l with [] => 0 | x :: l' => f x + zsum f l' end.

Lemma sum_extent : forall m lo, 0 <= lo -> lo + Z.of_nat m <= num_blocks d bs ->
  zsum (block_extent d bs) (zseq lo m) = (if lo + Z.of_nat m =? num_blocks d bs then d else (lo + Z.of_nat m) * bs) - (if lo =? num_blocks d bs then d else lo * bs).
Proof.
  induction m as [|m IH]; intros lo H0 HM; cbn [zseq zsum]; [rewrite !Z.add_0_r; lia|].
  rewrite (IH (lo + 1)) by lia. replace (lo + 1 + Z.of_nat m) with (lo + Z.of_nat (S m)) by lia.
  replace (lo =? num_blocks d bs) with false by lia.
  destruct (lo + 1 =? num_blocks d bs) eqn:E1.
  - assert (HE : block_extent d bs lo = d - lo * bs).
    { unfold block_extent. destruct ((lo + 1) * bs <? d) eqn:E; [|reflexivity]. pose proof (block_last lo ltac:(lia)). lia. }
    rewrite HE. destruct (_ =? _); lia.
  - assert (HE : block_extent d bs lo = bs).
    { unfold block_extent. pose proof (block_lt (lo + 1) ltac:(lia)). destruct ((lo + 1) * bs <? d) eqn:E; lia. }
    rewrite HE. destruct (lo + Z.of_nat (S m) =? _); lia.
Qed.

Lemma sum_extent_all : zsum (block_extent d bs) (zrange 0 (num_blocks d bs)) = d.
Proof.
  pose proof num_blocks_pos. unfold zrange. rewrite sum_extent by lia.
  replace (0 + Z.of_nat (Z.to_nat (num_blocks d bs - 0)) =? num_blocks d bs) with true by lia.
  replace (0 =? num_blocks d bs) with false by lia. lia.
Qed.
End Dim.

Lemma zsum_ext {X} (f h : X -> Z) l : (forall x, In x l -> f x = h x) -> zsum f l = zsum h l.
Proof. induction l as [|x l IH]; intros H; cbn [zsum]; [reflexivity|]. rewrite H by (left; auto). rewrite IH by (intros; apply H; right; auto). reflexivity. Qed.

Lemma zsum_mul {X} (f : X -> Z) c l : zsum (fun x => f x * c) l = zsum f l * c.
Proof. induction l; cbn [zsum]; lia. Qed.

Lemma flat_map_len {X Y} (f : X -> list Y) l : Z.of_nat (length (flat_map f l)) = zsum (fun x => Z.of_nat (length (f x))) l.
Proof. induction l as [|x l IH]; cbn [flat_map zsum]; [reflexivity|]. rewrite app_length. lia. Qed.

Lemma zsum_const {X} c (l : list X) : zsum (fun _ => c) l = Z.of_nat (length l) * c.
Proof. induction l; cbn [zsum length]; lia. Qed.

Lemma zrange_len lo hi : Z.of_nat (length (zrange lo hi)) = Z.max 0 (hi - lo).
Proof. unfold zrange. rewrite zseq_length. lia. Qed.

Lemma combine_map {X Y V} (f : X -> Y) (h : X -> V) l : combine (map f l) (map h l) = map (fun x => (f x, h x)) l.
Proof. induction l as [|x l IH]; cbn; [reflexivity|]. rewrite IH. reflexivity. Qed.

Lemma flat_map_map {X Y V} (f : X -> Y) (h : Y -> list V) l : flat_map h (map f l) = flat_map (fun x => h (f x)) l.
Proof. induction l as [|x l IH]; cbn; [reflexivity|]. rewrite IH. reflexivity. Qed.

Lemma flat_map_flat_map {X Y V} (f : X -> list Y) (h : Y -> list V) l :
  flat_map h (flat_map f l) = flat_map (fun x => flat_map h (f x)) l.
Proof. induction l as [|x l IH]; cbn; [reflexivity|]. rewrite flat_map_app, IH. reflexivity. Qed.

Lemma filter_flat_map {X Y} (p : Y -> bool) (f : X -> list Y) l : filter p (flat_map f l) = flat_map (fun x => filter p (f x)) l.
Proof. induction l as [|x l IH]; cbn; [reflexivity|]. rewrite filter_app, IH. reflexivity. Qed.

(** ** Two dimensions *)
Section Two.
Context (d1 d2 bs : Z) (H1 : 1 <= d1) (H2 : 1 <= d2) (Hb : 1 <= bs).
Set Default Proof Using "All".

Definition acts2 : list act :=
  flat_map (fun i =>
      map (fun j => Block (sites2 d2 (i * (bs * d2) + j * bs) (j * bs) (block_extent d1 bs i) (block_extent d2 bs j)))
          (zrange 0 (num_blocks d2 bs))
      ++ [Shift (bs * (d2 + 1)) (d2 + 1)])
    (zrange 0 (num_blocks d1 bs)).

Lemma acts2_enc_eq : acts2_enc d1 d2 bs = acts2.
Proof.
  unfold acts2_enc, acts2. rewrite !running_zrange, flat_map_map. apply flat_map_ext. intros i.
  rewrite map_map. reflexivity.
Qed.

(** The decompressor, which advances by the size of the block, uses the same positions. *)
Lemma acts2_dec_eq : acts2_dec d1 d2 bs = acts2.
Proof.
  unfold acts2_dec, acts2. rewrite running_zrange, flat_map_map. apply flat_map_ext. intros i.
  rewrite (running_extent0 d2 bs H2 Hb), map_map. reflexivity.
Qed.

Lemma in_sites2 s dp bp sx sy : In s (sites2 d2 dp bp sx sy) <->
  exists x y, 0 <= x < sx /\ 0 <= y < sy /\
    s = {| s_at := dp + x * d2 + y; s_buf := bp + (d2 + 1) + 1 + x * (d2 + 1) + y; s_crd := [x; y] |}.
Proof.
  unfold sites2. rewrite in_flat_map. split.
  - intros (x & Hx & Hy). apply in_map_iff in Hy. destruct Hy as (y & E & Hy). apply in_zrange in Hx, Hy. exists x, y. auto.
  - intros (x & y & Hx & Hy & E). exists x. split; [apply in_zrange; lia|]. apply in_map_iff. exists y. split; [auto|]. apply in_zrange; lia.
Qed.

Lemma sites2_len dp bp sx sy : 0 <= sx -> 0 <= sy -> Z.of_nat (length (sites2 d2 dp bp sx sy)) = sx * sy.
Proof.
  intros Hx Hy. unfold sites2. rewrite flat_map_len.
  rewrite (zsum_ext _ (fun _ => sy)).
  - rewrite zsum_const, zrange_len. lia.
  - intros x _. rewrite map_length, zrange_len. lia.
Qed.

Lemma sites_of_acts2 : flat_map act_sites acts2 =
  flat_map (fun i => flat_map (fun j => sites2 d2 (i * (bs * d2) + j * bs) (j * bs) (block_extent d1 bs i) (block_extent d2 bs j))
                              (zrange 0 (num_blocks d2 bs))) (zrange 0 (num_blocks d1 bs)).
Proof.
  unfold acts2. rewrite flat_map_flat_map. apply flat_map_ext. intros i. rewrite flat_map_app, flat_map_map. cbn. apply app_nil_r.
Qed.

(** As many values as grid points. *)
Lemma acts2_count : Z.of_nat (length (flat_map act_sites acts2)) = d1 * d2.
Proof.
  rewrite sites_of_acts2, flat_map_len. rewrite (zsum_ext _ (fun i => block_extent d1 bs i * d2)).
  - rewrite zsum_mul, (sum_extent_all d1 bs H1 Hb). reflexivity.
  - intros i Hi. apply in_zrange in Hi. pose proof (extent_range d1 bs H1 Hb i ltac:(lia)). rewrite flat_map_len.
    rewrite (zsum_ext _ (fun j => block_extent d2 bs j * block_extent d1 bs i)).
    + rewrite zsum_mul, (sum_extent_all d2 bs H2 Hb). lia.
    + intros j Hj. apply in_zrange in Hj. pose proof (extent_range d2 bs H2 Hb j ltac:(lia)). rewrite sites2_len by lia. lia.
Qed.

(** Every grid point is visited. *)
Lemma acts2_cover t : 0 <= t < d1 * d2 -> exists s, In s (flat_map act_sites acts2) /\ s_at s = t.
Proof.
  intros Ht. rewrite sites_of_acts2. set (a := t / d2). set (b := t mod d2).
  assert (Hab : 0 <= a < d1 /\ 0 <= b < d2 /\ t = a * d2 + b).
  { pose proof (Z.div_mod t d2 ltac:(lia)). pose proof (Z.mod_pos_bound t d2 ltac:(lia)).
    pose proof (Z.div_pos t d2 ltac:(lia) ltac:(lia)). pose proof (Z.div_lt_upper_bound t d2 d1 ltac:(lia) ltac:(lia)). unfold a, b. lia. }
  destruct Hab as (Ha & Hb' & Et). clearbody a b.
  destruct (block_of d1 bs H1 Hb a Ha) as (A1 & A2 & A3). destruct (block_of d2 bs H2 Hb b Hb') as (B1 & B2 & B3).
  exists {| s_at := a / bs * (bs * d2) + b / bs * bs + a mod bs * d2 + b mod bs;
            s_buf := b / bs * bs + (d2 + 1) + 1 + a mod bs * (d2 + 1) + b mod bs; s_crd := [a mod bs; b mod bs] |}.
  split.
  - apply in_flat_map. exists (a / bs). split; [apply in_zrange; lia|]. apply in_flat_map. exists (b / bs).
    split; [apply in_zrange; lia|]. apply in_sites2. exists (a mod bs), (b mod bs). auto.
  - cbn [s_at]. rewrite Et. set (qa := a / bs) in *. set (ra := a mod bs) in *. set (qb := b / bs) in *. set (rb := b mod bs) in *.
    clearbody qa ra qb rb. rewrite A3, B3. ring.
Qed.

(** No access leaves the arrays. *)
Lemma acts2_range s : In s (flat_map act_sites acts2) ->
  0 <= s_at s < d1 * d2 /\ d2 + 2 <= s_buf s < (bs + 1) * (d2 + 1) /\ length (s_crd s) = 2%nat.
Proof.
  rewrite sites_of_acts2. intros H. apply in_flat_map in H. destruct H as (i & Hi & H). apply in_flat_map in H.
  destruct H as (j & Hj & H). apply in_sites2 in H. destruct H as (x & y & Hx & Hy & ->). cbn [s_at s_buf s_crd length].
  apply in_zrange in Hi, Hj. destruct (extent_range d1 bs H1 Hb i Hi) as [E1 E2]. destruct (extent_range d2 bs H2 Hb j Hj) as [E3 E4].
  assert (0 <= i * bs) by nia. assert (0 <= j * bs) by nia.
  replace (i * (bs * d2) + j * bs + x * d2 + y) with ((i * bs + x) * d2 + (j * bs + y)) by ring.
  replace (j * bs + (d2 + 1) + 1 + x * (d2 + 1) + y) with ((x + 1) * (d2 + 1) + (j * bs + y + 1)) by ring.
  assert (0 <= i * bs + x <= d1 - 1) by lia. assert (0 <= j * bs + y <= d2 - 1) by lia.
  set (a := i * bs + x) in *. set (b := j * bs + y) in *. clearbody a b.
  assert (0 <= a * d2 <= (d1 - 1) * d2) by nia.
  assert (1 * (d2 + 1) <= (x + 1) * (d2 + 1) <= bs * (d2 + 1)) by nia. lia.
Qed.

Lemma acts2_blocks : Z.of_nat (length (filter act_block acts2)) = num_blocks d1 bs * num_blocks d2 bs.
Proof.
  pose proof (num_blocks_pos d1 bs H1 Hb). pose proof (num_blocks_pos d2 bs H2 Hb).
  unfold acts2. rewrite filter_flat_map, flat_map_len. rewrite (zsum_ext _ (fun _ => num_blocks d2 bs)).
  - rewrite zsum_const, zrange_len. lia.
  - intros i _. rewrite filter_app. cbn [filter act_block]. rewrite app_nil_r.
    assert (HH : forall l : list Z, length (filter act_block (map (fun j => Block (sites2 d2 (i * (bs * d2) + j * bs) (j * bs) (block_extent d1 bs i) (block_extent d2 bs j))) l)) = length l).
    { induction l as [|y l IH]; cbn; [reflexivity|]. rewrite IH. reflexivity. }
    rewrite HH, zrange_len. lia.
Qed.

Lemma acts2_shifts src len : In (Shift src len) acts2 -> src = bs * (d2 + 1) /\ len = d2 + 1.
Proof.
  unfold acts2. intros H. apply in_flat_map in H. destruct H as (i & _ & H). apply in_app_or in H. destruct H as [H|[H|[]]].
  - apply in_map_iff in H. destruct H as (j & E & _). discriminate.
  - injection H; auto.
Qed.
End Two.

(** ** Three dimensions *)
Section Three.
Context (d1 d2 d3 bs : Z) (H1 : 1 <= d1) (H2 : 1 <= d2) (H3 : 1 <= d3) (Hb : 1 <= bs).
Set Default Proof Using "All".

(** [b0 b1]: buffer strides; [bp j k]: buffer position of a block; [post]: the step after a row of blocks. *)
Definition acts3_of (b0 b1 : Z) (bp : Z -> Z -> Z) (post : list act) : list act :=
  flat_map (fun i =>
      flat_map (fun j =>
          map (fun k => Block (sites3 d2 d3 b0 b1 (i * (bs * (d2 * d3)) + j * (bs * d3) + k * bs) (bp j k)
                                 (block_extent d1 bs i) (block_extent d2 bs j) (block_extent d3 bs k)))
              (zrange 0 (num_blocks d3 bs)))
        (zrange 0 (num_blocks d2 bs)) ++ post)
    (zrange 0 (num_blocks d1 bs)).

Lemma acts3_border_eq : acts3_border d1 d2 d3 bs =
  acts3_of ((d2 + 1) * (d3 + 1)) (d3 + 1) (fun j k => j * (bs * (d3 + 1)) + k * bs)
           [Shift (bs * ((d2 + 1) * (d3 + 1))) ((d2 + 1) * (d3 + 1))].
Proof.
  unfold acts3_border, acts3_of. rewrite !running_zrange, flat_map_map. apply flat_map_ext. intros i. f_equal.
  rewrite combine_map, flat_map_map. apply flat_map_ext. intros j.
  rewrite (running_extent0 d3 bs H3 Hb), combine_map, map_map. apply map_ext. intros k.
  replace (bs * num_blocks d3 bs + (bs * (d3 + 1) - bs * num_blocks d3 bs)) with (bs * (d3 + 1)) by ring. reflexivity.
Qed.

Lemma acts3_indep_eq : acts3_indep d1 d2 d3 bs = acts3_of ((bs + 1) * (bs + 1)) (bs + 1) (fun _ _ => 0) [].
Proof.
  unfold acts3_indep, acts3_of. rewrite !running_zrange, flat_map_map. apply flat_map_ext. intros i. rewrite app_nil_r.
  rewrite flat_map_map. apply flat_map_ext. intros j.
  rewrite (running_extent0 d3 bs H3 Hb), map_map. reflexivity.
Qed.

Context (b0 b1 : Z) (bp : Z -> Z -> Z) (post : list act).
Hypothesis Hpost : flat_map act_sites post = [] /\ filter act_block post = [].
Notation acts := (acts3_of b0 b1 bp post).

Lemma in_sites3 s dp p sx sy sz : In s (sites3 d2 d3 b0 b1 dp p sx sy sz) <->
  exists x y z, 0 <= x < sx /\ 0 <= y < sy /\ 0 <= z < sz /\
    s = {| s_at := dp + x * (d2 * d3) + y * d3 + z; s_buf := p + b0 + b1 + 1 + x * b0 + y * b1 + z; s_crd := [x; y; z] |}.
Proof.
  unfold sites3. rewrite in_flat_map. split.
  - intros (x & Hx & H). apply in_flat_map in H. destruct H as (y & Hy & H). apply in_map_iff in H. destruct H as (z & E & Hz).
    apply in_zrange in Hx, Hy, Hz. exists x, y, z. auto.
  - intros (x & y & z & Hx & Hy & Hz & E). exists x. split; [apply in_zrange; lia|]. apply in_flat_map. exists y.
    split; [apply in_zrange; lia|]. apply in_map_iff. exists z. split; [auto|]. apply in_zrange; lia.
Qed.

Lemma sites3_len dp p sx sy sz : 0 <= sx -> 0 <= sy -> 0 <= sz ->
  Z.of_nat (length (sites3 d2 d3 b0 b1 dp p sx sy sz)) = sx * sy * sz.
Proof.
  intros Hx Hy Hz. unfold sites3. rewrite flat_map_len. rewrite (zsum_ext _ (fun _ => sy * sz)).
  - rewrite zsum_const, zrange_len. lia.
  - intros x _. rewrite flat_map_len. rewrite (zsum_ext _ (fun _ => sz)).
    + rewrite zsum_const, zrange_len. lia.
    + intros y _. rewrite map_length, zrange_len. lia.
Qed.

Lemma sites_of_acts3 : flat_map act_sites acts =
  flat_map (fun i => flat_map (fun j => flat_map (fun k =>
      sites3 d2 d3 b0 b1 (i * (bs * (d2 * d3)) + j * (bs * d3) + k * bs) (bp j k)
             (block_extent d1 bs i) (block_extent d2 bs j) (block_extent d3 bs k))
    (zrange 0 (num_blocks d3 bs))) (zrange 0 (num_blocks d2 bs))) (zrange 0 (num_blocks d1 bs)).
Proof.
  unfold acts3_of. rewrite flat_map_flat_map. apply flat_map_ext. intros i. rewrite flat_map_app, (proj1 Hpost), app_nil_r.
  rewrite flat_map_flat_map. apply flat_map_ext. intros j. rewrite flat_map_map. reflexivity.
Qed.

Lemma acts3_count : Z.of_nat (length (flat_map act_sites acts)) = d1 * d2 * d3.
Proof.
  rewrite sites_of_acts3, flat_map_len. rewrite (zsum_ext _ (fun i => block_extent d1 bs i * (d2 * d3))).
  - rewrite zsum_mul, (sum_extent_all d1 bs H1 Hb). ring.
  - intros i Hi. apply in_zrange in Hi. pose proof (extent_range d1 bs H1 Hb i ltac:(lia)). rewrite flat_map_len.
    rewrite (zsum_ext _ (fun j => block_extent d2 bs j * (d3 * block_extent d1 bs i))).
    + rewrite zsum_mul, (sum_extent_all d2 bs H2 Hb). ring.
    + intros j Hj. apply in_zrange in Hj. pose proof (extent_range d2 bs H2 Hb j ltac:(lia)). rewrite flat_map_len.
      rewrite (zsum_ext _ (fun k => block_extent d3 bs k * (block_extent d1 bs i * block_extent d2 bs j))).
      * rewrite zsum_mul, (sum_extent_all d3 bs H3 Hb). ring.
      * intros k Hk. apply in_zrange in Hk. pose proof (extent_range d3 bs H3 Hb k ltac:(lia)). rewrite sites3_len by lia. ring.
Qed.

Lemma acts3_cover t : 0 <= t < d1 * d2 * d3 -> exists s, In s (flat_map act_sites acts) /\ s_at s = t.
Proof.
  intros Ht. rewrite sites_of_acts3. set (a := t / (d2 * d3)). set (r := t mod (d2 * d3)). set (b := r / d3). set (c := r mod d3).
  assert (P23 : 1 <= d2 * d3) by nia.
  assert (Hab : 0 <= a < d1 /\ 0 <= b < d2 /\ 0 <= c < d3 /\ t = a * (d2 * d3) + b * d3 + c).
  { pose proof (Z.div_mod t (d2 * d3) ltac:(lia)). pose proof (Z.mod_pos_bound t (d2 * d3) ltac:(lia)).
    pose proof (Z.div_pos t (d2 * d3) ltac:(lia) ltac:(lia)).
    pose proof (Z.div_lt_upper_bound t (d2 * d3) d1 ltac:(lia) ltac:(lia)).
    fold a r in H, H0, H4, H5.
    pose proof (Z.div_mod r d3 ltac:(lia)). pose proof (Z.mod_pos_bound r d3 ltac:(lia)).
    pose proof (Z.div_pos r d3 ltac:(lia) ltac:(lia)). pose proof (Z.div_lt_upper_bound r d3 d2 ltac:(lia) ltac:(lia)).
    fold b c in H6, H7, H8, H9. clearbody a r b c. lia. }
  destruct Hab as (Ha & Hb' & Hc & Et). clearbody a r b c.
  destruct (block_of d1 bs H1 Hb a Ha) as (A1 & A2 & A3). destruct (block_of d2 bs H2 Hb b Hb') as (B1 & B2 & B3).
  destruct (block_of d3 bs H3 Hb c Hc) as (C1 & C2 & C3).
  eexists. split.
  - apply in_flat_map. exists (a / bs). split; [apply in_zrange; lia|]. apply in_flat_map. exists (b / bs).
    split; [apply in_zrange; lia|]. apply in_flat_map. exists (c / bs). split; [apply in_zrange; lia|].
    apply in_sites3. exists (a mod bs), (b mod bs), (c mod bs). repeat (split; [eassumption|]). reflexivity.
  - cbn [s_at]. rewrite Et. set (qa := a / bs) in *. set (ra := a mod bs) in *. set (qb := b / bs) in *. set (rb := b mod bs) in *.
    set (qc := c / bs) in *. set (rc := c mod bs) in *. clearbody qa ra qb rb qc rc. rewrite A3, B3, C3. ring.
Qed.

Lemma acts3_site s : In s (flat_map act_sites acts) ->
  0 <= s_at s < d1 * d2 * d3 /\ length (s_crd s) = 3%nat /\
  exists j k x y z, 0 <= j < num_blocks d2 bs /\ 0 <= k < num_blocks d3 bs /\ 0 <= x <= bs - 1 /\ 0 <= y <= bs - 1 /\ 0 <= z <= bs - 1 /\
    0 <= j * bs + y <= d2 - 1 /\ 0 <= k * bs + z <= d3 - 1 /\ s_buf s = bp j k + b0 + b1 + 1 + x * b0 + y * b1 + z.
Proof.
  rewrite sites_of_acts3. intros H. apply in_flat_map in H. destruct H as (i & Hi & H). apply in_flat_map in H.
  destruct H as (j & Hj & H). apply in_flat_map in H. destruct H as (k & Hk & H).
  apply in_sites3 in H. destruct H as (x & y & z & Hx & Hy & Hz & ->). cbn [s_at s_buf s_crd length].
  apply in_zrange in Hi, Hj, Hk. destruct (extent_range d1 bs H1 Hb i Hi) as [E1 E2]. destruct (extent_range d2 bs H2 Hb j Hj) as [E3 E4].
  destruct (extent_range d3 bs H3 Hb k Hk) as [E5 E6].
  assert (0 <= i * bs) by nia. assert (0 <= j * bs) by nia. assert (0 <= k * bs) by nia.
  assert (0 <= i * bs + x <= d1 - 1) by lia. assert (0 <= j * bs + y <= d2 - 1) by lia. assert (0 <= k * bs + z <= d3 - 1) by lia.
  split; [|split; [reflexivity|exists j, k, x, y, z; repeat (split; [lia|]); reflexivity]].
  replace (i * (bs * (d2 * d3)) + j * (bs * d3) + k * bs + x * (d2 * d3) + y * d3 + z)
    with ((i * bs + x) * (d2 * d3) + (j * bs + y) * d3 + (k * bs + z)) by ring.
  set (a := i * bs + x) in *. set (b := j * bs + y) in *. set (c := k * bs + z) in *. clearbody a b c.
  assert (0 <= b * d3 <= (d2 - 1) * d3) by nia.
  assert (0 <= d2 * d3) by nia.
  assert (0 <= a * (d2 * d3) <= (d1 - 1) * (d2 * d3)) by nia.
  replace (d1 * d2 * d3) with ((d1 - 1) * (d2 * d3) + d2 * d3) by ring. lia.
Qed.

Lemma acts3_blocks : Z.of_nat (length (filter act_block acts)) = num_blocks d1 bs * num_blocks d2 bs * num_blocks d3 bs.
Proof.
  pose proof (num_blocks_pos d1 bs H1 Hb). pose proof (num_blocks_pos d2 bs H2 Hb). pose proof (num_blocks_pos d3 bs H3 Hb).
  unfold acts3_of. rewrite filter_flat_map, flat_map_len. rewrite (zsum_ext _ (fun _ => num_blocks d2 bs * num_blocks d3 bs)).
  - rewrite zsum_const, zrange_len. lia.
  - intros i _. rewrite filter_app, (proj2 Hpost), app_nil_r, filter_flat_map, flat_map_len.
    rewrite (zsum_ext _ (fun _ => num_blocks d3 bs)).
    + rewrite zsum_const, zrange_len. lia.
    + intros j _.
      assert (HH : forall (f : Z -> list site) (l : list Z), length (filter act_block (map (fun k => Block (f k)) l)) = length l).
      { induction l as [|y l IH]; cbn; [reflexivity|]. rewrite IH. reflexivity. }
      rewrite (HH (fun k => sites3 d2 d3 b0 b1 (i * (bs * (d2 * d3)) + j * (bs * d3) + k * bs) (bp j k) (block_extent d1 bs i) (block_extent d2 bs j) (block_extent d3 bs k))).
      rewrite zrange_len. lia.
Qed.

Lemma acts3_shifts a : In a acts -> act_block a = false -> In a post.
Proof.
  unfold acts3_of. intros H HB. apply in_flat_map in H. destruct H as (i & _ & H). apply in_app_or in H. destruct H as [H|H]; [|exact H].
  apply in_flat_map in H. destruct H as (j & _ & H). apply in_map_iff in H. destruct H as (k & E & _). subst a. discriminate.
Qed.
End Three.

Lemma border_range d2 d3 bs j k x y z : 1 <= d2 -> 1 <= d3 -> 0 <= x <= bs - 1 ->
  0 <= j * bs + y <= d2 - 1 -> 0 <= k * bs + z <= d3 - 1 ->
  let b1 := d3 + 1 in let b0 := (d2 + 1) * b1 in
  b0 + b1 + 1 <= j * (bs * b1) + k * bs + b0 + b1 + 1 + x * b0 + y * b1 + z < (bs + 1) * (d2 + 1) * (d3 + 1).
Proof.
  intros H2 H3 Hx Hy Hz b1 b0.
  replace (j * (bs * b1) + k * bs + b0 + b1 + 1 + x * b0 + y * b1 + z)
    with ((x + 1) * b0 + (j * bs + y + 1) * b1 + (k * bs + z + 1)) by ring.
  replace ((bs + 1) * (d2 + 1) * (d3 + 1)) with (bs * b0 + d2 * b1 + b1) by (unfold b0, b1; ring).
  assert (Hb1 : 2 <= b1) by (unfold b1; lia). assert (Hb0 : 0 <= b0) by (unfold b0; nia).
  assert (1 * b0 <= (x + 1) * b0 <= bs * b0) by nia.
  assert (1 * b1 <= (j * bs + y + 1) * b1 <= d2 * b1) by nia. unfold b1 in *. lia.
Qed.

Lemma indep_range bs x y z : 1 <= bs -> 0 <= x <= bs - 1 -> 0 <= y <= bs - 1 -> 0 <= z <= bs - 1 ->
  let b1 := bs + 1 in let b0 := b1 * b1 in
  b0 + b1 + 1 <= 0 + b0 + b1 + 1 + x * b0 + y * b1 + z < (bs + 1) * (bs + 1) * (bs + 1).
Proof.
  intros Hb Hx Hy Hz b1 b0.
  replace (0 + b0 + b1 + 1 + x * b0 + y * b1 + z) with ((x + 1) * b0 + (y + 1) * b1 + (z + 1)) by ring.
  replace ((bs + 1) * (bs + 1) * (bs + 1)) with (bs * b0 + bs * b1 + b1) by (unfold b0, b1; ring).
  assert (Hb1 : 2 <= b1) by (unfold b1; lia). assert (Hb0 : 0 <= b0) by (unfold b0; nia).
  assert (1 * b0 <= (x + 1) * b0 <= bs * b0) by nia. assert (1 * b1 <= (y + 1) * b1 <= bs * b1) by nia. unfold b1 in *. lia.
Qed.
