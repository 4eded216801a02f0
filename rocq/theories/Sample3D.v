(** How sz_compress_3d chooses the number of quantisation intervals and the mean: include/sz_optimize_quant_intervals.hpp.
    Loops carry fuel; running out of it is the outcome [Looping], an access outside the data or an undefined conversion is
    [Undef].  Sizes are below 2^63; counters ([size_t]) do not wrap. *)
From Coq Require Import List ZArith Bool Lia.
From Verif Require Import Base BitPack Arith Sync2D LinQuant Block BlockSync TotalAny.
Import ListNotations.
Local Open Scope Z_scope.

Inductive outcome (X : Type) : Type := Done (x : X) | Undef | Looping.
Arguments Done {_} _.
Arguments Undef {_}.
Arguments Looping {_}.

(** ** The positions visited *)

(** include/sz_optimize_quant_intervals.hpp:50-60, the body of the while loop without the sum: pointer offset, offset_count,
    offset_count_2. *)
Definition rough_step (r3 r23 d : Z) (s : Z * Z * Z) : Z * Z * Z :=
  let '(pos, o1, o2) := s in
  let pos := pos + d in
  let o1 := o1 + d in
  let o2 := o2 + d in
  let '(pos, o1) := if r3 <=? o1 then (pos - 1, 0) else (pos, o1) in
  let '(pos, o2) := if r23 <=? o2 then (pos - 1, 0) else (pos, o2) in
  (pos, o1, o2).

(** Lines 109-122: pointer offset, offset_count, n1_count, n2_count; sample_distance is QuantIntvSampleDistance = 100
    (include/sz_def.hpp:162). *)
Definition sample_step (r2 r3 : Z) (s : Z * Z * Z * Z) : Z * Z * Z * Z :=
  let '(pos, off, n1, n2) := s in
  let off := off + 100 in
  if r3 <=? off then
    let n2 := n2 + 1 in
    let '(n1, n2, pos) := if n2 =? r2 then (n1 + 1, 1, pos + r3) else (n1, n2, pos) in
    let off2 := (n1 + n2) mod 100 in
    let pos := pos + (r3 + 100 - off) + (100 - off2) in
    let off := 100 - off2 in
    let off := if off =? 0 then off + 1 else off in
    (pos, off, n1, n2)
  else (pos + 100, off, n1, n2).

(** Lines 47, 87: the comparison [data_pos - data < len]: ptrdiff_t against size_t, so the difference is taken modulo 2^64. *)
Definition inside (pos len : Z) : bool := pos mod 2 ^ 64 <? len.

(** Lines 95, 101, 104, 107: v[i] ++ on a vector; [None]: outside of it. *)
Definition bump (v : list Z) (i : Z) : option (list Z) := let* c := aget v i in aset v i (c + 1).

(** ** Lines 6-20 estimate_quantization_intervals.  [target] is (size_t)(sample_count * 0.999). *)
Fixpoint first_above (target sum i : Z) (v : list Z) : Z :=
  match v with
  | [] => i
  | x :: v' => if target <? sum + x then i else first_above target (sum + x) (i + 1) v'
  end.
Definition estimate_intervals (intervals : list Z) (target : Z) : Z :=
  let i := first_above target 0 0 intervals in
  let i := if i =? Z.of_nat (length intervals) then Z.of_nat (length intervals) - 1 else i in
  let acc := 2 * (i + 1) in
  let num := u32 (2 * round_up_power_of_2 (u32 acc)) in
  if 32 <? num then num else 32.

(** Lines 24-33: the loop of estimate_mean_freq_and_position, i from 1 to size - 3; returns max_sum and max_index. *)
Fixpoint best_pair (i ms mi : Z) (v : list Z) : Z * Z :=
  match v with
  | x :: ((y :: _ :: _) as v') => if ms <? x + y then best_pair (i + 1) (x + y) i v' else best_pair (i + 1) ms mi v'
  | _ => (ms, mi)
  end.

Section Sample.
Context (A : Arith) (O : FOps A).
(** Lines 8, 69, 91, 98-99: double -> size_t and double -> ptrdiff_t; [None]: undefined. *)
Context (to_size to_diff : D A -> option Z).
Notation T := (T A).
Notation D := (D A).

(** Lines 41-61 sample_rough_mean_3d: the sum and the count. *)
Fixpoint rough_loop (fuel : nat) (data : list T) (len r3 r23 d : Z) (s : Z * Z * Z) (mean : D) (count : Z) : outcome (D * Z) :=
  match fuel with
  | 0%nat => Looping
  | S fuel' =>
      if inside (fst (fst s)) len then
        match aget data (fst (fst s)) with
        | Some x => rough_loop fuel' data len r3 r23 d (rough_step r3 r23 d s) (dadd A mean (t2d A x)) (count + 1)
        | None => Undef
        end
      else Done (mean, count)
  end.

(** Lines 38-64; the distance is sqrt(r1*r2*r3) converted to size_t (line 69), the integer square root for lengths below
    2^52. *)
Definition rough_mean (fuel : nat) (r1 r2 r3 : Z) (data : list T) : outcome (F O) :=
  match rough_loop fuel data (r1 * r2 * r3) r3 (r2 * r3) (Z.sqrt (r1 * r2 * r3)) (0, 0, 0) (dofZ A 0) 0 with
  | Done (mean, count) => Done (d2f O (if 0 <? count then ddiv A mean (dofZ A count) else mean))
  | Undef => Undef
  | Looping => Looping
  end.

(** Lines 70-73: what the sampling loop counts: freq_count, sample_count, intervals, freq_intervals. *)
Record counts := { k_freq : Z; k_samples : Z; k_intv : list Z; k_mean : list Z }.

(** Lines 88-108: one sample. *)
Definition sample_point (r3 r23 : Z) (precision : D) (mean_rough : F O) (data : list T) (pos : Z) (k : counts) : option counts :=
  let* pred_value := lorenzo_predict3 A r23 r3 data pos in
  let* x := aget data pos in
  let pred_err := t2f O (tabs A (tsub A pred_value x)) in
  let freq := if dlt A (f2d O pred_err) precision then k_freq k + 1 else k_freq k in
  let* pi := to_size (ddiv A (dadd A (ddiv A (f2d O pred_err) precision) (dofZ A 1)) (dofZ A 2)) in
  let pi := if Z.of_nat (length (k_intv k)) <=? pi then Z.of_nat (length (k_intv k)) - 1 else pi in
  let mean_diff := t2d A (tsub A x (f2t O mean_rough)) in
  let* q := to_diff (ddiv A mean_diff precision) in
  let fi := if dlt A (dofZ A 0) mean_diff then q + 4096 else q - 1 + 4096 in
  let fi := if fi <=? 0 then 0
            else if Z.of_nat (length (k_mean k)) <=? fi then Z.of_nat (length (k_mean k)) - 1 else fi in
  let* intv := bump (k_intv k) pi in
  let* mean := bump (k_mean k) fi in
  Some {| k_freq := freq; k_samples := k_samples k + 1; k_intv := intv; k_mean := mean |}.

(** Lines 87-124. *)
Fixpoint sample_loop (fuel : nat) (data : list T) (len r2 r3 : Z) (precision : D) (mean_rough : F O)
         (s : Z * Z * Z * Z) (k : counts) : outcome counts :=
  match fuel with
  | 0%nat => Looping
  | S fuel' =>
      let '(pos, _, _, _) := s in
      if inside pos len then
        match sample_point r3 (r2 * r3) precision mean_rough data pos k with
        | Some k' => sample_loop fuel' data len r2 r3 precision mean_rough (sample_step r2 r3 s) k'
        | None => Undef
        end
      else Done k
  end.

(** Lines 130-139: the values within [precision] of the guess. *)
Definition mean_near (precision : D) (guess : F O) (data : list T) : T :=
  let '(sum, count) :=
    fold_left (fun '(s, c) x => if dle A (t2d A (tabs A (tsub A x (f2t O guess)))) precision then (dadd A s (t2d A x), c + 1) else (s, c))
              data (dofZ A 0, 0) in
  d2t A (if 0 <? count then ddiv A sum (dofZ A count) else dofZ A 0).

(** Lines 66-143 optimize_quant_invl_3d: capacity and meanInfo (QuantIntvSampleCapacity = 32768, QuantIntvMeanCapacity = 8192;
    QuantIntvAccThreshold = 0.999, the correctly rounded quotient). *)
Definition optimize_quant_invl_3d (fuel : nat) (r1 r2 r3 : Z) (precision : D) (data : list T) : outcome (Z * option T) :=
  match rough_mean fuel r1 r2 r3 data with
  | Done mean_rough =>
      let r23 := r2 * r3 in
      match sample_loop fuel data (r1 * r23) r2 r3 precision mean_rough (r23 + r3 + 98, 98, 1, 1)
              {| k_freq := 0; k_samples := 0; k_intv := repeat 0 (Z.to_nat 32768); k_mean := repeat 0 (Z.to_nat 8192) |} with
      | Done k =>
          let n := dofZ A (k_samples k) in
          let pred_freq := d2f O (ddiv A (dmul A (dofZ A (k_freq k)) (dofZ A 1)) n) in
          let '(max_sum, max_index) := best_pair 1 0 0 (tl (k_mean k)) in
          let guess := d2f O (dadd A (f2d O mean_rough) (dmul A precision (dofZ A (max_index + 1 - 4096)))) in
          let mean_freq := d2f O (ddiv A (dmul A (dofZ A max_sum) (dofZ A 1)) n) in
          match to_size (dmul A n (ddiv A (dofZ A 999) (dofZ A 1000))) with
          | Some target =>
              let capacity := estimate_intervals (k_intv k) target in
              if dlt A (ddiv A (dofZ A 1) (dofZ A 2)) (f2d O mean_freq) || dlt A (f2d O pred_freq) (f2d O mean_freq) then
                Done (capacity, Some (mean_near precision guess data))
              else Done (capacity, None)
          | None => Undef
          end
      | Undef => Undef
      | Looping => Looping
      end
  | Undef => Undef
  | Looping => Looping
  end.
End Sample.

(** ** The loops stay inside the data and end *)

Lemma inside_pos pos len : - 2 ^ 63 <= pos < 2 ^ 63 -> len < 2 ^ 63 -> inside pos len = true -> 0 <= pos < len.
Proof.
  intros H1 H2 H. unfold inside in H. apply Z.ltb_lt in H. destruct (Z.le_gt_cases 0 pos) as [L|L].
  - rewrite Z.mod_small in H by lia. lia.
  - rewrite <- (Z.mod_add pos 1) in H by lia. rewrite Z.mod_small in H by lia. lia.
Qed.

Lemma rough_step_pos r3 r23 d s : fst (fst s) + d - 2 <= fst (fst (rough_step r3 r23 d s)) <= fst (fst s) + d.
Proof.
  destruct s as [[pos o1] o2]. unfold rough_step. cbn [fst snd].
  destruct (r3 <=? o1 + d); destruct (r23 <=? o2 + d); cbn [fst snd]; lia.
Qed.

Lemma bump_ok v i : 0 <= i < Z.of_nat (length v) -> exists v', bump v i = Some v' /\ length v' = length v.
Proof.
  intros H. unfold bump. destruct (aget_ok v i H) as [c E]. rewrite E. cbn [bind].
  destruct (aset_ok v i (c + 1) H) as [v' E']. exists v'. split; auto. exact (aset_len _ _ _ _ E').
Qed.

Section Proofs.
Context (A : Arith) (O : FOps A) (to_size to_diff : D A -> option Z).

Lemma rough_defined : forall fuel (data : list (T A)) len r3 r23 d s mean count,
  Z.of_nat (length data) = len -> len < 2 ^ 61 -> 1 <= d <= len -> -1 <= fst (fst s) <= 2 * len ->
  rough_loop A fuel data len r3 r23 d s mean count <> Undef.
Proof.
  induction fuel as [|fuel IH]; intros data len r3 r23 d s mean count HL HB HD HP; cbn [rough_loop]; [discriminate|].
  destruct (inside (fst (fst s)) len) eqn:E; [|discriminate]. apply inside_pos in E; [|lia|lia].
  destruct (aget_ok data (fst (fst s)) ltac:(lia)) as [x Ex]. rewrite Ex.
  pose proof (rough_step_pos r3 r23 d s). apply IH; auto. lia.
Qed.

Lemma rough_ends : forall fuel (data : list (T A)) len r3 r23 d s mean count,
  Z.of_nat (length data) = len -> len < 2 ^ 61 -> 3 <= d <= len -> 0 <= fst (fst s) <= 2 * len ->
  (Z.to_nat (len - fst (fst s)) < fuel)%nat ->
  exists r, rough_loop A fuel data len r3 r23 d s mean count = Done r.
Proof.
  induction fuel as [|fuel IH]; intros data len r3 r23 d s mean count HL HB HD HP HF; [lia|]. cbn [rough_loop].
  destruct (inside (fst (fst s)) len) eqn:E; [|eauto]. apply inside_pos in E; [|lia|lia].
  destruct (aget_ok data (fst (fst s)) ltac:(lia)) as [x Ex]. rewrite Ex.
  pose proof (rough_step_pos r3 r23 d s). apply IH; auto; lia.
Qed.

(** The sampling positions: [pos = n1*r2*r3 + n2*r3 + off]. *)
Definition at_sample (r2 r3 : Z) (s : Z * Z * Z * Z) : Prop :=
  let '(pos, off, n1, n2) := s in pos = n1 * (r2 * r3) + n2 * r3 + off /\ 1 <= off < r3 + 100 /\ 1 <= n1 /\ 1 <= n2.

Definition sample_rank (r1 r2 r3 : Z) (s : Z * Z * Z * Z) : Z :=
  let '(pos, off, n1, n2) := s in (r1 * r2 - (n1 * r2 + n2)) * (r3 + 1) + Z.max 0 (r3 - off).

Lemma sample_step_at r1 r2 r3 s : 1 <= r1 -> 1 <= r2 -> 1 <= r3 -> at_sample r2 r3 s ->
  at_sample r2 r3 (sample_step r2 r3 s) /\ sample_rank r1 r2 r3 (sample_step r2 r3 s) < sample_rank r1 r2 r3 s.
Proof.
  destruct s as [[[pos off] n1] n2]. intros H1 H2 H3 (EP & HO & N1 & N2). unfold sample_step.
  destruct (r3 <=? off + 100) eqn:E; [apply Z.leb_le in E|apply Z.leb_gt in E].
  - assert (HM : forall x, 0 <= x mod 100 < 100) by (intros x; apply Z.mod_pos_bound; lia).
    destruct (n2 + 1 =? r2) eqn:E2; [apply Z.eqb_eq in E2|].
    + pose proof (HM (n1 + 1 + 1)). destruct (100 - (n1 + 1 + 1) mod 100 =? 0) eqn:E3; [lia|]. unfold at_sample, sample_rank. repeat split; try lia; nia.
    + pose proof (HM (n1 + (n2 + 1))). destruct (100 - (n1 + (n2 + 1)) mod 100 =? 0) eqn:E3; [lia|]. unfold at_sample, sample_rank. repeat split; try lia; nia.
  - unfold at_sample, sample_rank. repeat split; try lia.
Qed.

Lemma lorenzo_defined (data : list (T A)) o0 o1 p : 0 <= o0 -> 0 <= o1 -> o0 + o1 + 1 <= p < Z.of_nat (length data) ->
  exists x, lorenzo_predict3 A o0 o1 data p = Some x.
Proof.
  intros H0 H1 HP. unfold lorenzo_predict3.
  repeat match goal with |- context [aget data ?i] =>
    let x := fresh "x" in let E := fresh "E" in destruct (aget_ok data i ltac:(lia)) as [x E]; rewrite E; cbn [bind] end.
  eauto.
Qed.

Definition conversions_defined : Prop :=
  (forall x, exists z, to_size x = Some z /\ 0 <= z) /\ (forall x, exists z, to_diff x = Some z).

Definition good_counts (k : counts) : Prop :=
  length (k_intv k) = Z.to_nat 32768 /\ length (k_mean k) = Z.to_nat 8192.

Lemma sample_point_defined r3 r23 precision (m : F O) (data : list (T A)) pos k :
  conversions_defined -> good_counts k -> 1 <= r3 -> 1 <= r23 -> r23 + r3 + 1 <= pos < Z.of_nat (length data) ->
  exists k', sample_point A O to_size to_diff r3 r23 precision m data pos k = Some k'.
Proof.
  intros [C1 C2] [G1 G2] H3 H23 HP. unfold sample_point.
  destruct (lorenzo_defined data r23 r3 pos ltac:(lia) ltac:(lia) ltac:(lia)) as [l El]. rewrite El. cbn [bind].
  destruct (aget_ok data pos ltac:(lia)) as [x Ex]. rewrite Ex. cbn [bind].
  match goal with |- context [to_size ?e] => destruct (C1 e) as (z & Ez & Hz); rewrite Ez; cbn [bind] end.
  match goal with |- context [to_diff ?e] => destruct (C2 e) as (q & Eq); rewrite Eq; cbn [bind] end.
  match goal with |- context [bump (k_intv k) ?e] => destruct (bump_ok (k_intv k) e) as (v & Ev & _) end.
  { rewrite G1. destruct (_ <=? z) eqn:E; lia. }
  rewrite Ev. cbn [bind].
  match goal with |- context [bump (k_mean k) ?e] => destruct (bump_ok (k_mean k) e) as (w & Ew & _) end.
  { rewrite G2. set (fi := if dlt A _ _ then _ else _). destruct (fi <=? 0) eqn:E0; [lia|]. destruct (_ <=? fi) eqn:E; lia. }
  rewrite Ew. cbn [bind]. eauto.
Qed.

Lemma sample_point_good r3 r23 precision (m : F O) (data : list (T A)) pos k k' :
  good_counts k -> sample_point A O to_size to_diff r3 r23 precision m data pos k = Some k' -> good_counts k'.
Proof.
  intros [G1 G2] H. unfold sample_point in H.
  bind_as H l El. bind_as H x Ex. bind_as H z Ez. bind_as H q Eq. bind_as H v Ev. bind_as H w Ew. apply Some_inj in H. subst k'.
  assert (L : forall u i u', bump u i = Some u' -> length u' = length u).
  { intros u i u' E. unfold bump in E. bind_as E c Ec. exact (aset_len _ _ _ _ E). }
  split; cbn [k_intv k_mean]; [rewrite (L _ _ _ Ev)|rewrite (L _ _ _ Ew)]; auto.
Qed.

Lemma sample_loop_good : forall fuel data len r2 r3 precision (m : F O) s k k', good_counts k ->
  sample_loop A O to_size to_diff fuel data len r2 r3 precision m s k = Done k' -> good_counts k'.
Proof.
  induction fuel as [|fuel IH]; intros data len r2 r3 precision m s k k' G H; cbn [sample_loop] in H; [discriminate|].
  destruct s as [[[pos off] n1] n2]. destruct (inside pos len); [|injection H as <-; auto].
  destruct (sample_point _ _ _ _ _ _ _ _ _ _ _) as [k1|] eqn:E; [|discriminate].
  apply IH in H; auto. exact (sample_point_good _ _ _ _ _ _ _ _ G E).
Qed.

Lemma sample_defined : forall fuel (data : list (T A)) r1 r2 r3 precision (m : F O) s k,
  conversions_defined -> good_counts k -> 1 <= r1 -> 1 <= r2 -> 1 <= r3 -> r1 * (r2 * r3) < 2 ^ 61 -> Z.of_nat (length data) = r1 * (r2 * r3) ->
  at_sample r2 r3 s -> fst (fst (fst s)) < 2 ^ 63 ->
  sample_loop A O to_size to_diff fuel data (r1 * (r2 * r3)) r2 r3 precision m s k <> Undef.
Proof.
  induction fuel as [|fuel IH]; intros data r1 r2 r3 precision m s k HC HG H1 H2 H3 HB HL HA HP; cbn [sample_loop]; [discriminate|].
  pose proof (sample_step_at r1 r2 r3 s H1 H2 H3 HA) as [HA' _].
  destruct s as [[[pos off] n1] n2]. destruct HA as (EP & HO & N1 & N2). cbn [fst snd] in HP.
  assert (R1 : 0 < r2 * r3) by nia. assert (R2 : r2 * r3 <= n1 * (r2 * r3)) by nia. assert (R3 : r3 <= n2 * r3) by nia.
  destruct (inside pos _) eqn:E; [|discriminate]. apply inside_pos in E; [|lia|lia].
  destruct (sample_point_defined r3 (r2 * r3) precision m data pos k HC HG ltac:(lia) ltac:(lia) ltac:(lia)) as [k' Ek]. rewrite Ek.
  apply IH; auto; [exact (sample_point_good _ _ _ _ _ _ _ _ HG Ek)|].
  clear - E HB H1 H2 H3 HO R1. unfold sample_step.
  assert (HM : forall x, 0 <= x mod 100 < 100) by (intros x; apply Z.mod_pos_bound; lia).
  destruct (r3 <=? off + 100); [|cbn [fst]; lia]. assert (r3 <= r1 * (r2 * r3)) by nia.
  destruct (n2 + 1 =? r2); cbn [fst]; [pose proof (HM (n1 + 1 + 1))|pose proof (HM (n1 + (n2 + 1)))]; lia.
Qed.

Lemma sample_ends : forall fuel (data : list (T A)) r1 r2 r3 precision (m : F O) s k,
  conversions_defined -> good_counts k -> 1 <= r1 -> 1 <= r2 -> 1 <= r3 -> r1 * (r2 * r3) < 2 ^ 61 -> Z.of_nat (length data) = r1 * (r2 * r3) ->
  at_sample r2 r3 s -> fst (fst (fst s)) < 2 ^ 63 -> (Z.to_nat (sample_rank r1 r2 r3 s) < fuel)%nat ->
  exists k', sample_loop A O to_size to_diff fuel data (r1 * (r2 * r3)) r2 r3 precision m s k = Done k'.
Proof.
  induction fuel as [|fuel IH]; intros data r1 r2 r3 precision m s k HC HG H1 H2 H3 HB HL HA HP HF; [lia|]. cbn [sample_loop].
  pose proof (sample_step_at r1 r2 r3 s H1 H2 H3 HA) as [HA' HR].
  destruct s as [[[pos off] n1] n2]. destruct HA as (EP & HO & N1 & N2). cbn [fst snd] in HP.
  assert (R1 : 0 < r2 * r3) by nia. assert (R2 : r2 * r3 <= n1 * (r2 * r3)) by nia. assert (R3 : r3 <= n2 * r3) by nia.
  destruct (inside pos _) eqn:E; [|eauto]. apply inside_pos in E; [|lia|lia].
  destruct (sample_point_defined r3 (r2 * r3) precision m data pos k HC HG ltac:(lia) ltac:(lia) ltac:(lia)) as [k' Ek]. rewrite Ek.
  assert (0 < sample_rank r1 r2 r3 (pos, off, n1, n2)) as HR0.
  { unfold sample_rank. assert (G : (n1 * r2 + n2) * r3 < r1 * r2 * r3).
    { replace ((n1 * r2 + n2) * r3) with (pos - off) by (rewrite EP; ring). replace (r1 * r2 * r3) with (r1 * (r2 * r3)) by ring. lia. }
    apply Z.mul_lt_mono_pos_r in G; [|lia]. nia. }
  apply IH; auto; [exact (sample_point_good _ _ _ _ _ _ _ _ HG Ek)| |lia].
  clear - E HB H1 H2 H3 HO R1. unfold sample_step.
  assert (HM : forall x, 0 <= x mod 100 < 100) by (intros x; apply Z.mod_pos_bound; lia).
  destruct (r3 <=? off + 100); [|cbn [fst]; lia]. assert (r3 <= r1 * (r2 * r3)) by nia.
  destruct (n2 + 1 =? r2); cbn [fst]; [pose proof (HM (n1 + 1 + 1))|pose proof (HM (n1 + (n2 + 1)))]; lia.
Qed.

Lemma first_above_range : forall v target sum i, i <= first_above target sum i v <= i + Z.of_nat (length v).
Proof.
  induction v as [|x v IH]; intros target sum i; cbn [first_above length]; [lia|].
  destruct (target <? sum + x); [lia|]. specialize (IH target (sum + x) (i + 1)). lia.
Qed.

Lemma estimate_range intervals target : length intervals = Z.to_nat 32768 ->
  exists e, 5 <= e <= 17 /\ estimate_intervals intervals target = 2 ^ e.
Proof.
  intros HL. unfold estimate_intervals. rewrite HL. pose proof (first_above_range intervals target 0 0) as R. rewrite HL in R.
  set (i := if first_above target 0 0 intervals =? Z.of_nat (Z.to_nat 32768) then _ else _).
  assert (HI : 0 <= i <= 32767).
  { subst i. destruct (first_above target 0 0 intervals =? Z.of_nat (Z.to_nat 32768)) eqn:E; lia. }
  clearbody i. assert (U : u32 (2 * (i + 1)) = 2 * (i + 1)) by (unfold u32; apply Z.mod_small; lia). rewrite U.
  destruct (round_up_power_of_2_spec (2 * (i + 1)) ltac:(lia)) as (e & He & -> & HB & HM).
  assert (e <= 16).
  { destruct (Z.le_gt_cases e 16) as [|K]; auto. exfalso.
    specialize (HM 16 ltac:(lia) ltac:(lia)). assert (2 ^ 17 <= 2 ^ e) by (apply Z.pow_le_mono_r; lia). lia. }
  assert (P : 0 < 2 ^ e <= 2 ^ 16) by (split; [apply Z.pow_pos_nonneg; lia|apply Z.pow_le_mono_r; lia]).
  replace (u32 (2 * 2 ^ e)) with (2 ^ (e + 1)).
  2:{ rewrite Z.pow_add_r by lia. unfold u32. rewrite Z.mod_small; lia. }
  destruct (32 <? 2 ^ (e + 1)) eqn:E; [|exists 5; split; [lia|reflexivity]].
  apply Z.ltb_lt in E. exists (e + 1). split; auto. split; [|lia].
  destruct (Z.le_gt_cases 5 (e + 1)) as [|K]; auto. exfalso.
  assert (2 ^ (e + 1) <= 2 ^ 4) by (apply Z.pow_le_mono_r; lia). lia.
Qed.

(** Whatever the data and the conversions: a capacity that is returned is a power of two between 32 and 131072. *)
Theorem optimize_capacity fuel r1 r2 r3 precision data capacity mean :
  optimize_quant_invl_3d A O to_size to_diff fuel r1 r2 r3 precision data = Done (capacity, mean) ->
  exists e, 5 <= e <= 17 /\ capacity = 2 ^ e.
Proof.
  unfold optimize_quant_invl_3d. intros H. destruct (rough_mean _ _ _ _ _ _ _) as [m| |]; try discriminate.
  destruct (sample_loop _ _ _ _ _ _ _ _ _ _ _ _ _) as [k| |] eqn:E; try discriminate.
  apply sample_loop_good in E; [|split; apply repeat_length]. destruct E as [G _].
  destruct (best_pair _ _ _ _) as [ms mi].
  destruct (to_size _) as [t|]; [|discriminate].
  destruct (estimate_range (k_intv k) t G) as (e & He & Ee). rewrite Ee in H. exists e. split; auto.
  destruct (_ || _) in H; injection H as <- _; auto.
Qed.

Lemma sqrt_len n : 9 <= n -> 3 <= Z.sqrt n <= n.
Proof.
  intros H. split; [change 3 with (Z.sqrt 9); apply Z.sqrt_le_mono; lia|].
  apply Z.sqrt_le_lin. lia.
Qed.

(** Grids of at least nine values: both sampling loops end, without an access outside the data or the histograms. *)
Theorem optimize_terminates r1 r2 r3 precision data :
  conversions_defined -> 1 <= r1 -> 1 <= r2 -> 1 <= r3 -> 9 <= r1 * r2 * r3 < 2 ^ 61 -> Z.of_nat (length data) = r1 * r2 * r3 ->
  exists n, forall fuel, (n <= fuel)%nat ->
    exists capacity mean, optimize_quant_invl_3d A O to_size to_diff fuel r1 r2 r3 precision data = Done (capacity, mean).
Proof.
  intros HC H1 H2 H3 HB HL.
  set (s0 := (r2 * r3 + r3 + 98, 98, 1, 1) : Z * Z * Z * Z).
  exists (S (Nat.max (Z.to_nat (r1 * r2 * r3)) (Z.to_nat (sample_rank r1 r2 r3 s0)))). intros fuel HF.
  unfold optimize_quant_invl_3d, rough_mean. pose proof (sqrt_len _ (proj1 HB)) as HS.
  destruct (rough_ends fuel data (r1 * r2 * r3) r3 (r2 * r3) (Z.sqrt (r1 * r2 * r3)) (0, 0, 0) (dofZ A 0) 0 HL ltac:(lia) HS) as [[mean count] E];
    [cbn [fst]; lia|cbn [fst]; lia|]. rewrite E. clear E.
  assert (Q : r1 * (r2 * r3) = r1 * r2 * r3) by ring.
  assert (R : 1 <= r2 * r3 <= r1 * (r2 * r3)) by nia. assert (R' : r3 <= r2 * r3) by nia.
  edestruct (sample_ends fuel data r1 r2 r3 precision) with (s := s0) as [k Ek];
    [exact HC| |exact H1|exact H2|exact H3|lia|lia| | | |unfold s0 in Ek; rewrite Ek].
  - split; apply repeat_length.
  - unfold at_sample, s0. repeat split; lia.
  - unfold s0. cbn [fst]. lia.
  - lia.
  - destruct (best_pair _ _ _ _) as [ms mi]. destruct HC as [C1 _].
    match goal with |- context [to_size ?e] => destruct (C1 e) as (z & Ez & _); rewrite Ez end.
    destruct (_ || _); eauto.
Qed.

(** Any grid: no access outside the data or the histograms, however long the loops run. *)
Theorem optimize_in_bounds fuel r1 r2 r3 precision data :
  conversions_defined -> 1 <= r1 -> 1 <= r2 -> 1 <= r3 -> r1 * r2 * r3 < 2 ^ 61 -> Z.of_nat (length data) = r1 * r2 * r3 ->
  optimize_quant_invl_3d A O to_size to_diff fuel r1 r2 r3 precision data <> Undef.
Proof.
  intros HC H1 H2 H3 HB HL. unfold optimize_quant_invl_3d, rough_mean.
  assert (HP : 1 <= r1 * r2 * r3) by nia.
  assert (HS : 1 <= Z.sqrt (r1 * r2 * r3) <= r1 * r2 * r3).
  { split; [change 1 with (Z.sqrt 1) at 1; apply Z.sqrt_le_mono; lia|apply Z.sqrt_le_lin; lia]. }
  pose proof (rough_defined fuel data (r1 * r2 * r3) r3 (r2 * r3) (Z.sqrt (r1 * r2 * r3)) (0, 0, 0) (dofZ A 0) 0 HL ltac:(lia) HS ltac:(cbn [fst]; lia)) as HR.
  destruct (rough_loop _ _ _ _ _ _ _ _ _ _) as [[mean count]| |]; [|contradiction|discriminate]. clear HR.
  assert (Q : r1 * (r2 * r3) = r1 * r2 * r3) by ring.
  assert (R : 1 <= r2 * r3 <= r1 * (r2 * r3)) by nia. assert (R' : r3 <= r2 * r3) by nia.
  match goal with |- context [sample_loop ?a ?b ?c ?d ?e ?f ?g ?h ?i ?j ?k ?l ?m] =>
    assert (HN : sample_loop a b c d e f g h i j k l m <> Undef) end.
  { apply sample_defined; auto; try lia.
    - split; apply repeat_length.
    - unfold at_sample. repeat split; lia.
    - cbn [fst]. lia. }
  destruct (sample_loop _ _ _ _ _ _ _ _ _ _ _ _ _) as [k| |]; [|contradiction|discriminate].
  destruct (best_pair _ _ _ _) as [ms mi]. destruct HC as [C1 _].
  match goal with |- context [to_size ?e] => destruct (C1 e) as (z & Ez & _); rewrite Ez end.
  destruct (_ || _); discriminate.
Qed.

(** Two values in a row: the rough mean is sampled for ever. *)
Lemma rough_hangs : forall fuel (x y : T A) mean count pos o1 o2,
  (pos, o1, o2) = (0, 0, 0) \/ (pos, o1, o2) = (1, 1, 1) -> rough_loop A fuel [x; y] 2 2 2 1 (pos, o1, o2) mean count = Looping.
Proof.
  induction fuel as [|fuel IH]; intros x y mean count pos o1 o2 H; cbn [rough_loop]; [reflexivity|].
  destruct H as [H|H]; injection H as -> -> ->; cbn [fst].
  - change (inside 0 2) with true. change (aget [x; y] 0) with (Some x). cbn [bind]. apply IH. right. reflexivity.
  - change (inside 1 2) with true. change (aget [x; y] 1) with (Some y). cbn [bind]. apply IH. left. reflexivity.
Qed.
Theorem optimize_hangs fuel precision (x y : T A) :
  optimize_quant_invl_3d A O to_size to_diff fuel 1 1 2 precision [x; y] = Looping.
Proof.
  unfold optimize_quant_invl_3d, rough_mean. change (1 * 1 * 2) with 2. change (1 * 2) with 2. change (Z.sqrt 2) with 1.
  rewrite rough_hangs by auto. reflexivity.
Qed.
End Proofs.
