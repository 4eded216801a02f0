(** Regression coefficients and the choice of the predictor in sz_compress_2d and sz_compress_3d
    (include/sz_regression_utils.hpp, include/sz_compress_block_processing.hpp:5-24,143-168), and the two compressors with the
    decisions they take: [Block] has them as arguments. *)
From Coq Require Import List ZArith Bool Lia.
From Verif Require Import Base BitPack Stream Arith Sync2D LinQuant Block BlockSync BlockTile BlockTotal Sample3D.
Import ListNotations.
Local Open Scope Z_scope.

Section Plan.
Context (A : Arith) (O : FOps A).
Notation T := (T A).
Notation D := (D A).
Notation F := (F O).

(** for-loop over [ks] with a state, stopping at an undefined step. *)
Fixpoint loop {S : Type} (f : S -> Z -> option S) (s : S) (ks : list Z) : option S :=
  match ks with
  | [] => Some s
  | k :: ks' => let* s' := f s k in loop f s' ks'
  end.

Definition f_of (n : Z) : F := fofZ O n.
Definition f0 : F := fofZ O 0.

(** include/sz_regression_utils.hpp:4-30 compute_regression_coeffcients_2d: sums fx, fy, f in float, the row sum in double.
    [dp] is the index of the first value of the block. *)
Definition fit_row2 (data : list T) (at_ : Z) (s : D * F) (j : Z) : option (D * F) :=
  let '(sum_x, fy) := s in
  let* x := aget data (at_ + j) in
  let c := t2f O x in
  Some (dadd A sum_x (f2d O c), fadd O fy (fmul O c (f_of j))).
Definition fit_sums2 (data : list T) (r2 dp sx sy : Z) : option (F * F * F) :=
  loop (fun '(fx, fy, f) i =>
          let* (sum_x, fy) := loop (fit_row2 data (dp + i * r2)) (dofZ A 0, fy) (zrange 0 sy) in
          Some (d2f O (dadd A (f2d O fx) (dmul A sum_x (dofZ A i))), fy, d2f O (dadd A (f2d O f) sum_x)))
       (f0, f0, f0) (zrange 0 sx).
(** Lines 27-28, 62-64: (2 * fx / (size_x - 1) - f) * 6 * coeff / (size_x + 1). *)
Definition slope (fx f coeff : F) (sx : Z) : F :=
  fdiv O (fmul O (fmul O (fsub O (fdiv O (fmul O (f_of 2) fx) (f_of (sx - 1))) f) (f_of 6)) coeff) (f_of (sx + 1)).
(** Lines 29, 65: (size_x - 1) * reg_params_pos[0] / 2. *)
Definition half_way (p : F) (sx : Z) : F := fdiv O (fmul O (f_of (sx - 1)) p) (f_of 2).
Definition fit2 (data : list T) (r2 dp sx sy : Z) : option (list F) :=
  let* (fx, fy, f) := fit_sums2 data r2 dp sx sy in
  let coeff := d2f O (ddiv A (dofZ A 1) (dofZ A (sx * sy))) in
  let p0 := slope fx f coeff sx in
  let p1 := slope fy f coeff sy in
  Some [p0; p1; fsub O (fmul O f coeff) (fadd O (half_way p0 sx) (half_way p1 sy))].

(** Lines 32-66 compute_regression_coeffcients_3d: all sums in float; a sum of a float and a T is done in T. *)
Definition fit_row3 (data : list T) (at_ : Z) (s : F * F) (k : Z) : option (F * F) :=
  let '(sum_y, fz) := s in
  let* x := aget data (at_ + k) in
  Some (t2f O (tadd A (f2t O sum_y) x), t2f O (tadd A (f2t O fz) (tmul A x (tofZ A k)))).
Definition fit_plane3 (data : list T) (r3 at_ sz : Z) (s : F * F * F) (j : Z) : option (F * F * F) :=
  let '(sum_x, fy, fz) := s in
  let* (sum_y, fz) := loop (fit_row3 data (at_ + j * r3)) (f0, fz) (zrange 0 sz) in
  Some (fadd O sum_x sum_y, fadd O fy (fmul O sum_y (f_of j)), fz).
Definition fit_sums3 (data : list T) (r2 r3 dp sx sy sz : Z) : option (F * F * F * F) :=
  loop (fun '(fx, fy, fz, f) i =>
          let* (sum_x, fy, fz) := loop (fit_plane3 data r3 (dp + i * (r2 * r3)) sz) (f0, fy, fz) (zrange 0 sy) in
          Some (fadd O fx (fmul O sum_x (f_of i)), fy, fz, fadd O f sum_x))
       (f0, f0, f0, f0) (zrange 0 sx).
Definition fit3 (data : list T) (r2 r3 dp sx sy sz : Z) : option (list F) :=
  let* (fx, fy, fz, f) := fit_sums3 data r2 r3 dp sx sy sz in
  let coeff := d2f O (ddiv A (dofZ A 1) (dofZ A (sx * sy * sz))) in
  let p0 := slope fx f coeff sx in
  let p1 := slope fy f coeff sy in
  let p2 := slope fz f coeff sz in
  Some [p0; p1; p2; fsub O (fmul O f coeff) (fadd O (fadd O (half_way p0 sx) (half_way p1 sy)) (half_way p2 sz))].

(** include/sz_compress_block_processing.hpp:4-11,142-149 sz_block_error_estimation_2d/_3d at index [p], block coordinates [crd]:
    adds the error of either predictor; [lor] is the Lorenzo prediction from the original data. *)
Definition estimate (lor : Z -> option T) (data : list T) (mean : option T) (noise : F) (coef : list F)
           (p : Z) (crd : list Z) (s : D * D) : option (D * D) :=
  let '(err_reg, err_lorenzo) := s in
  let* cur := aget data p in
  let* r := regression_predict A O coef crd in
  let* l := lor p in
  let e := tadd A (tabs A (tsub A cur l)) (f2t O noise) in
  let e := match mean with
           | Some m => let a := tabs A (tsub A cur m) in if tlt A a e then a else e
           | None => e
           end in
  Some (dadd A err_reg (t2d A (tabs A (tsub A cur r))), dadd A err_lorenzo (t2d A e)).

(** Lines 13-24 sz_blockwise_selection_2d. *)
Definition select2 (data : list T) (mean : option T) (r2 dp min_size : Z) (noise : F) (coef : list F) : option bool :=
  let est x y := estimate (lorenzo_predict2 A r2 data) data mean noise coef (dp + x * r2 + y) [x; y] in
  let* (er, el) := loop (fun s i => let bmi := min_size - i in let* s := est i i s in est i bmi s)
                        (dofZ A 0, dofZ A 0) (zrange 1 min_size) in
  Some (dlt A er el).

(** Lines 151-164 sz_blockwise_selection_3d. *)
Definition select3 (data : list T) (mean : option T) (r2 r3 dp min_size : Z) (noise : F) (coef : list F) : option bool :=
  let est x y z := estimate (lorenzo_predict3 A (r2 * r3) r3 data) data mean noise coef (dp + x * (r2 * r3) + y * r3 + z) [x; y; z] in
  let* (er, el) := loop (fun s i => let bmi := min_size - i in
                           let* s := est i i i s in let* s := est i i bmi s in let* s := est i bmi i s in est i bmi bmi s)
                        (dofZ A 0, dofZ A 0) (zrange 1 min_size) in
  Some (dlt A er el).

(** src/sz_compress_3d.cpp:42-50,281-290,354-363: the decision for one block (RegThresholdSize2d = 8, RegThresholdSize3d = 4). *)
Definition choose2 (data : list T) (mean : option T) (r2 : Z) (noise : F) (dp sx sy : Z) : option (option (list F)) :=
  let min_size := Z.min sx sy in
  if min_size <? 8 then Some None
  else let* coef := fit2 data r2 dp sx sy in
       let* b := select2 data mean r2 dp min_size noise coef in
       Some (if b then Some coef else None).
Definition choose3 (data : list T) (mean : option T) (r2 r3 : Z) (noise : F) (dp sx sy sz : Z) : option (option (list F)) :=
  let min_size := Z.min (Z.min sx sy) sz in
  if min_size <? 4 then Some None
  else let* coef := fit3 data r2 r3 dp sx sy sz in
       let* b := select3 data mean r2 r3 dp min_size noise coef in
       Some (if b then Some coef else None).

Fixpoint all_some {X Y} (f : X -> option Y) (l : list X) : option (list Y) :=
  match l with
  | [] => Some []
  | x :: l' => let* y := f x in let* ys := all_some f l' in Some (y :: ys)
  end.

(** src/sz_compress_3d.cpp:16,35-41 and 253,272-280 / 324,344-353: the decisions of all blocks in order; noise is
    precision * LorenzeNoise2d (0.81) or LorenzeNoise3d (1.22) converted to float. *)
Definition plan2 (r1 r2 bs : Z) (precision : D) (mean : option T) (data : list T) : option (list (option (list F))) :=
  let noise := d2f O (dmul A precision (ddiv A (dofZ A 81) (dofZ A 100))) in
  all_some (fun '(dp, sx, sy) => choose2 data mean r2 noise dp sx sy)
    (flat_map (fun '(i, x_pos) =>
        map (fun '(j, off) => (x_pos + off, block_extent r1 bs i, block_extent r2 bs j))
            (running (fun _ => bs) 0 (zrange 0 (num_blocks r2 bs))))
      (running (fun _ => bs * r2) 0 (zrange 0 (num_blocks r1 bs)))).
Definition plan3 (r1 r2 r3 bs : Z) (precision : D) (mean : option T) (data : list T) : option (list (option (list F))) :=
  let noise := d2f O (dmul A precision (ddiv A (dofZ A 122) (dofZ A 100))) in
  all_some (fun '(dp, sx, sy, sz) => choose3 data mean r2 r3 noise dp sx sy sz)
    (flat_map (fun '(i, x_pos) =>
        flat_map (fun '(j, y_off) =>
            map (fun '(k, z_off) => (x_pos + y_off + z_off, block_extent r1 bs i, block_extent r2 bs j, block_extent r3 bs k))
                (running (block_extent r3 bs) 0 (zrange 0 (num_blocks r3 bs))))
          (running (fun _ => bs * r3) 0 (zrange 0 (num_blocks r2 bs))))
      (running (fun _ => bs * (r2 * r3)) 0 (zrange 0 (num_blocks r1 bs)))).

(** src/sz_compress_3d.cpp:79-120 sz_compress_2d: meanInfo is the default (no mean). *)
Definition sz_compress_2d ord ub (r1 r2 bs : Z) (indep : bool) (precision : D) (pad : list Z) (data : list T) (junk : list Z)
  : option (list Z * nat) :=
  let* plan := plan2 r1 r2 bs precision None data in
  compress_2d A O ord ub r1 r2 bs indep precision plan pad data junk.

(** src/sz_compress_3d.cpp:395-436 sz_compress_3d. *)
Definition sz_compress_3d (to_size to_diff : D -> option Z) (fuel : nat) ord ub (r1 r2 r3 bs : Z) (indep : bool) (precision : D)
           (pad : list Z) (data : list T) (junk : list Z) : outcome (list Z * nat) :=
  match optimize_quant_invl_3d A O to_size to_diff fuel r1 r2 r3 precision data with
  | Done (capacity, mean) =>
      match (let* plan := plan3 r1 r2 r3 bs precision mean data in
             compress_3d A O ord ub r1 r2 r3 bs indep precision capacity mean plan pad data junk) with
      | Some r => Done r
      | None => Undef
      end
  | Undef => Undef
  | Looping => Looping
  end.

(** ** No access outside the data; one decision per block *)
Lemma loop_total {S} (f : S -> Z -> option S) : forall ks s, (forall k s, In k ks -> exists s', f s k = Some s') ->
  exists s', loop f s ks = Some s'.
Proof.
  induction ks as [|k ks IH]; intros s H; cbn [loop]; [eauto|].
  destruct (H k s) as [s' ->]; [left; auto|]. cbn [bind]. apply IH. intros k' s'' Hk. apply H. right. auto.
Qed.
Lemma all_some_total {X Y} (f : X -> option Y) (P : Y -> Prop) : forall l, (forall x, In x l -> exists y, f x = Some y /\ P y) ->
  exists ys, all_some f l = Some ys /\ length ys = length l /\ forall y, In y ys -> P y.
Proof.
  induction l as [|x l IH]; intros H; cbn [all_some]; [exists []; split; [reflexivity|split; [reflexivity|intros y []]]|].
  destruct (H x) as (y & -> & Py); [left; auto|]. cbn [bind]. destruct IH as (ys & -> & HL & HP); [intros; apply H; right; auto|].
  cbn [bind]. exists (y :: ys). split; [reflexivity|]. split; [cbn; lia|]. intros z [<-|Hz]; auto.
Qed.
Lemma in_range k lo hi : In k (zrange lo hi) -> lo <= k < hi.
Proof. intros H. apply in_zrange in H. lia. Qed.

Section Block2.
Context (data : list T) (mean : option T) (r2 dp sx sy : Z).
Hypothesis IN : forall x y, 0 <= x < sx -> 0 <= y < sy -> 0 <= dp + x * r2 + y < Z.of_nat (length data).
Lemma fit2_total : exists c, fit2 data r2 dp sx sy = Some c /\ length c = 3%nat.
Proof.
  unfold fit2. match goal with |- context [fit_sums2 ?a ?b ?c ?d ?e] => assert (H : exists s, fit_sums2 a b c d e = Some s) end.
  { unfold fit_sums2. apply loop_total. intros i [[fx fy] f] Hi. apply in_range in Hi.
    match goal with |- context [loop ?g ?s ?l] => destruct (loop_total g l s) as [[u w] E] end.
    { intros j [u w] Hj. apply in_range in Hj. unfold fit_row2. destruct (aget_ok data (dp + i * r2 + j)) as [x ->]; [apply IN; lia|]. cbn [bind]. eauto. }
    rewrite E. cbn [bind]. eauto. }
  destruct H as [[[fx fy] f] ->]. cbn [bind]. eauto.
Qed.
Lemma select2_total m noise coef : m <= sx -> m <= sy -> length coef = 3%nat -> exists b, select2 data mean r2 dp m noise coef = Some b.
Proof.
  intros M1 M2 HC. unfold select2.
  assert (E : forall x y s, 1 <= x < m -> 1 <= y < m ->
    exists s', estimate (lorenzo_predict2 A r2 data) data mean noise coef (dp + x * r2 + y) [x; y] s = Some s').
  { intros x y [er el] Hx Hy. unfold estimate. destruct (aget_ok data (dp + x * r2 + y)) as [c ->]; [apply IN; lia|]. cbn [bind].
    destruct coef as [|a [|b [|c' [|]]]]; try discriminate. cbn [regression_predict bind].
    unfold lorenzo_predict2.
    destruct (aget_ok data (dp + x * r2 + y - 1)) as [v1 ->]; [pose proof (IN x (y - 1) ltac:(lia) ltac:(lia)); lia|]. cbn [bind].
    destruct (aget_ok data (dp + x * r2 + y - r2)) as [v2 ->]; [pose proof (IN (x - 1) y ltac:(lia) ltac:(lia)); lia|]. cbn [bind].
    destruct (aget_ok data (dp + x * r2 + y - r2 - 1)) as [v3 ->]; [pose proof (IN (x - 1) (y - 1) ltac:(lia) ltac:(lia)); lia|]. cbn [bind]. eauto. }
  match goal with |- context [loop ?g ?s ?l] => destruct (loop_total g l s) as [[u w] ->] end; [|cbn [bind]; eauto].
  intros i s Hi. apply in_range in Hi. cbv zeta. destruct (E i i s) as [s1 ->]; [lia|lia|]. cbn [bind]. apply E; lia.
Qed.
Lemma choose2_total noise : exists o, choose2 data mean r2 noise dp sx sy = Some o /\ forall raw, o = Some raw -> length raw = 3%nat.
Proof.
  unfold choose2. destruct (Z.min sx sy <? 8); [eexists; split; [reflexivity|discriminate]|].
  destruct fit2_total as (c & -> & HC). cbn [bind].
  destruct (select2_total (Z.min sx sy) noise c ltac:(lia) ltac:(lia) HC) as [b ->]. cbn [bind].
  eexists. split; [reflexivity|]. intros raw E. destruct b; congruence.
Qed.
End Block2.

Section Block3.
Context (data : list T) (mean : option T) (r2 r3 dp sx sy sz : Z).
Hypothesis IN : forall x y z, 0 <= x < sx -> 0 <= y < sy -> 0 <= z < sz -> 0 <= dp + x * (r2 * r3) + y * r3 + z < Z.of_nat (length data).
Lemma fit3_total : exists c, fit3 data r2 r3 dp sx sy sz = Some c /\ length c = 4%nat.
Proof.
  unfold fit3. match goal with |- context [fit_sums3 ?a ?b ?c ?d ?e ?f ?g] => assert (H : exists s, fit_sums3 a b c d e f g = Some s) end.
  { unfold fit_sums3. apply loop_total. intros i [[[fx fy] fz] f] Hi. apply in_range in Hi.
    match goal with |- context [loop ?g ?s ?l] => destruct (loop_total g l s) as [[[u w] t] E] end.
    { intros j [[u w] t] Hj. apply in_range in Hj. unfold fit_plane3.
      match goal with |- context [loop ?g ?s ?l] => destruct (loop_total g l s) as [[u' w'] E] end.
      { intros k [u' w'] Hk. apply in_range in Hk. unfold fit_row3.
        destruct (aget_ok data (dp + i * (r2 * r3) + j * r3 + k)) as [x ->]; [apply IN; lia|]. cbn [bind]. eauto. }
      rewrite E. cbn [bind]. eauto. }
    rewrite E. cbn [bind]. eauto. }
  destruct H as [[[[fx fy] fz] f] ->]. cbn [bind]. eauto.
Qed.
Lemma select3_total m noise coef : m <= sx -> m <= sy -> m <= sz -> length coef = 4%nat -> exists b, select3 data mean r2 r3 dp m noise coef = Some b.
Proof.
  intros M1 M2 M3 HC. unfold select3.
  assert (E : forall x y z s, 1 <= x < m -> 1 <= y < m -> 1 <= z < m ->
    exists s', estimate (lorenzo_predict3 A (r2 * r3) r3 data) data mean noise coef (dp + x * (r2 * r3) + y * r3 + z) [x; y; z] s = Some s').
  { intros x y z [er el] Hx Hy Hz. unfold estimate. destruct (aget_ok data (dp + x * (r2 * r3) + y * r3 + z)) as [c ->]; [apply IN; lia|]. cbn [bind].
    destruct coef as [|a [|b [|c' [|d [|]]]]]; try discriminate. cbn [regression_predict bind].
    unfold lorenzo_predict3. set (p := dp + x * (r2 * r3) + y * r3 + z).
    pose proof (IN x y (z - 1) ltac:(lia) ltac:(lia) ltac:(lia)). pose proof (IN x (y - 1) z ltac:(lia) ltac:(lia) ltac:(lia)).
    pose proof (IN (x - 1) y z ltac:(lia) ltac:(lia) ltac:(lia)). pose proof (IN x (y - 1) (z - 1) ltac:(lia) ltac:(lia) ltac:(lia)).
    pose proof (IN (x - 1) y (z - 1) ltac:(lia) ltac:(lia) ltac:(lia)). pose proof (IN (x - 1) (y - 1) z ltac:(lia) ltac:(lia) ltac:(lia)).
    pose proof (IN (x - 1) (y - 1) (z - 1) ltac:(lia) ltac:(lia) ltac:(lia)).
    repeat match goal with |- context [aget data ?i] =>
      let v := fresh "v" in destruct (aget_ok data i) as [v ->]; [unfold p; lia|]; cbn [bind] end.
    eauto. }
  match goal with |- context [loop ?g ?s ?l] => destruct (loop_total g l s) as [[u w] ->] end; [|cbn [bind]; eauto].
  intros i s Hi. apply in_range in Hi. cbv zeta.
  destruct (E i i i s) as [s1 ->]; [lia|lia|lia|]. cbn [bind]. destruct (E i i (m - i) s1) as [s2 ->]; [lia|lia|lia|]. cbn [bind].
  destruct (E i (m - i) i s2) as [s3 ->]; [lia|lia|lia|]. cbn [bind]. apply E; lia.
Qed.
Lemma choose3_total noise : exists o, choose3 data mean r2 r3 noise dp sx sy sz = Some o /\ forall raw, o = Some raw -> length raw = 4%nat.
Proof.
  unfold choose3. destruct (Z.min (Z.min sx sy) sz <? 4); [eexists; split; [reflexivity|discriminate]|].
  destruct fit3_total as (c & -> & HC). cbn [bind].
  destruct (select3_total (Z.min (Z.min sx sy) sz) noise c ltac:(lia) ltac:(lia) ltac:(lia) HC) as [b ->]. cbn [bind].
  eexists. split; [reflexivity|]. intros raw E. destruct b; congruence.
Qed.
End Block3.

Lemma flat_map_len {X Y} (f : X -> list Y) n : forall l, (forall x, In x l -> length (f x) = n) -> length (flat_map f l) = (length l * n)%nat.
Proof.
  induction l as [|x l IH]; intros H; cbn [flat_map]; [reflexivity|]. rewrite app_length, H, IH; [cbn [length]; lia|intros; apply H; right; auto|left; auto].
Qed.

Theorem plan2_good r1 r2 bs precision mean data : 1 <= r1 -> 1 <= r2 -> 1 <= bs -> Z.of_nat (length data) = r1 * r2 ->
  exists plan, plan2 r1 r2 bs precision mean data = Some plan /\ good_plan 3 (num_blocks r1 bs * num_blocks r2 bs) plan.
Proof.
  intros H1 H2 HB HL. unfold plan2. pose proof (num_blocks_pos r1 bs H1 HB). pose proof (num_blocks_pos r2 bs H2 HB).
  rewrite !running_zrange.
  match goal with |- context [all_some ?f ?l] => destruct (all_some_total f (fun o => forall raw, o = Some raw -> length raw = 3%nat) l) as (ys & -> & LY & PY) end.
  { intros [[dp sx] sy] HI. apply in_flat_map in HI. destruct HI as ((i & xp) & Hi & HI). apply in_map_iff in Hi. destruct Hi as (i' & Ei & Hi).
    injection Ei as -> <-. apply in_map_iff in HI. destruct HI as ((j & off) & Ej & Hj). apply in_map_iff in Hj. destruct Hj as (j' & Ej' & Hj).
    injection Ej' as -> <-. injection Ej as <- <- <-. apply in_range in Hi, Hj.
    apply choose2_total. intros x y Hx Hy.
    pose proof (extent_range r1 bs H1 HB i Hi). pose proof (extent_range r2 bs H2 HB j Hj). rewrite HL.
    assert (i * bs + x <= r1 - 1) by lia. assert (j * bs + y <= r2 - 1) by lia.
    replace (i * (bs * r2) + j * bs + x * r2 + y) with ((i * bs + x) * r2 + (j * bs + y)) by ring. nia. }
  exists ys. split; [reflexivity|]. split; [|intros raw Hr; exact (PY _ Hr _ eq_refl)].
  rewrite LY. rewrite (flat_map_len _ (Z.to_nat (num_blocks r2 bs))).
  - rewrite map_length. pose proof (zrange_len 0 (num_blocks r1 bs)). nia.
  - intros [i xp] _. rewrite !map_length. pose proof (zrange_len 0 (num_blocks r2 bs)). lia.
Qed.

Theorem plan3_good r1 r2 r3 bs precision mean data : 1 <= r1 -> 1 <= r2 -> 1 <= r3 -> 1 <= bs -> Z.of_nat (length data) = r1 * r2 * r3 ->
  exists plan, plan3 r1 r2 r3 bs precision mean data = Some plan /\ good_plan 4 (num_blocks r1 bs * num_blocks r2 bs * num_blocks r3 bs) plan.
Proof.
  intros H1 H2 H3 HB HL. unfold plan3.
  pose proof (num_blocks_pos r1 bs H1 HB). pose proof (num_blocks_pos r2 bs H2 HB). pose proof (num_blocks_pos r3 bs H3 HB).
  rewrite !running_zrange, running_extent0 by auto.
  match goal with |- context [all_some ?f ?l] => destruct (all_some_total f (fun o => forall raw, o = Some raw -> length raw = 4%nat) l) as (ys & -> & LY & PY) end.
  { intros [[[dp sx] sy] sz] HI. apply in_flat_map in HI. destruct HI as ((i & xp) & Hi & HI). apply in_map_iff in Hi. destruct Hi as (i' & Ei & Hi).
    injection Ei as -> <-. apply in_flat_map in HI. destruct HI as ((j & yp) & Hj & HI). apply in_map_iff in Hj. destruct Hj as (j' & Ej & Hj).
    injection Ej as -> <-. apply in_map_iff in HI. destruct HI as ((k & off) & Ek & Hk). apply in_map_iff in Hk. destruct Hk as (k' & Ek' & Hk).
    injection Ek' as -> <-. injection Ek as <- <- <- <-. apply in_range in Hi, Hj, Hk.
    apply choose3_total. intros x y z Hx Hy Hz.
    pose proof (extent_range r1 bs H1 HB i Hi). pose proof (extent_range r2 bs H2 HB j Hj). pose proof (extent_range r3 bs H3 HB k Hk). rewrite HL.
    set (X := i * bs + x). set (Y := j * bs + y). set (Z' := k * bs + z).
    assert (0 <= X <= r1 - 1) by (unfold X; nia). assert (0 <= Y <= r2 - 1) by (unfold Y; nia). assert (0 <= Z' <= r3 - 1) by (unfold Z'; nia).
    replace (i * (bs * (r2 * r3)) + j * (bs * r3) + k * bs + x * (r2 * r3) + y * r3 + z) with ((X * r2 + Y) * r3 + Z') by (unfold X, Y, Z'; ring).
    clearbody X Y Z'. assert (0 <= X * r2 + Y <= r1 * r2 - 1) by nia. nia. }
  exists ys. split; [reflexivity|]. split; [|intros raw Hr; exact (PY _ Hr _ eq_refl)].
  rewrite LY. rewrite (flat_map_len _ (Z.to_nat (num_blocks r2 bs) * Z.to_nat (num_blocks r3 bs))%nat).
  - rewrite map_length, !Nat2Z.inj_mul, !Z2Nat.id, zrange_len by lia. rewrite Z.max_r by lia. ring.
  - intros [i xp] _. rewrite (flat_map_len _ (Z.to_nat (num_blocks r3 bs))).
    + rewrite map_length. pose proof (zrange_len 0 (num_blocks r2 bs)). f_equal. lia.
    + intros [j yp] _. rewrite !map_length. pose proof (zrange_len 0 (num_blocks r3 bs)). lia.
Qed.
End Plan.
