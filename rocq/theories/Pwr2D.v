(** Point-wise relative error compression: src/sz_compress_pwr.cpp and src/sz_decompress_pwr.cpp, for any arithmetic.
    The float overloads of log2 and exp2 (or the double ones with a final conversion; which are called depends on the C++
    headers) are the oracles [tlog2f], [texp2]. *)
From Coq Require Import List ZArith Lia Bool Arith.
From Coq Require Import ZifyBool ZifyNat.
From Verif Require Import Base Huffman HuffQueue HuffCode HuffRound HuffStream HuffProps BitPack Stream Arith Codec2D Sync2D Stream2D LinQuant Block
  BlockSync BlockTile BlockBytes Plan OffLog2D.
Import ListNotations.
Local Open Scope Z_scope.

Section Pwr.
Context (A : Arith) (O : FOps A).
Local Notation T := (T A). Local Notation D := (D A).

(** include/sz_def.hpp:147-148 MAX, MIN. *)
Definition t_max (a b : T) : T := if tlt A b a then a else b.
Definition t_min (a b : T) : T := if tlt A a b then a else b.
Definition d_max (a b : D) : D := if dlt A b a then a else b.
Definition d_min (a b : D) : D := if dlt A a b then a else b.
(** std::numeric_limits<float>::epsilon() (the functions are instantiated for float only). *)
Definition t_eps : T := d2t A (eps_float A).
(** The literals 2.0001 and 1.0001: correctly rounded quotients. *)
Definition c20001 : D := ddiv A (dofZ A 20001) (dofZ A 10000).
Definition c10001 : D := ddiv A (dofZ A 10001) (dofZ A 10000).

(** sz_compress_pwr.cpp:17-22: smallest and largest value. *)
Definition extremes (data : list T) : option (T * T) :=
  match data with
  | x :: l => Some (fold_left t_min l x, fold_left t_max l x)
  | [] => None
  end.
(** 23-27. *)
Definition first_max_abs (mn mx : T) : T :=
  let lo := tabs A (tlog2f A (tabs A mn)) in
  let hi := tabs A (tlog2f A (tabs A mx)) in
  if teq A mn (t0 A) then hi else if teq A mx (t0 A) then lo else if tlt A hi lo then lo else hi.
(** 29-34 (= 87-92): the magnitude and the sign flag of a value. *)
Definition magnitude (x : T) : T := if tlt A x (t0 A) then tneg A x else x.
Definition pwr_sign (x : T) : Z := if tlt A x (t0 A) then 1 else 0.
(** 35-36: the value in the log array before the zeros are filled in. *)
Definition pwr_log (x : T) : T := if tlt A (t0 A) (magnitude x) then tlog2f A (magnitude x) else magnitude x.
(** 35-40: largest and smallest logarithm. *)
Definition log_range (s : T * T) (x : T) : T * T :=
  let '(mx, mn) := s in
  if tlt A (t0 A) (magnitude x) then
    let l := pwr_log x in (if tlt A mx l then l else mx, if tlt A l mn then l else mn)
  else s.
(** 17-41: largest magnitude of a logarithm, smallest logarithm. *)
Definition pwr_range (data : list T) : option (T * T) :=
  let* (mn, mx) := extremes data in
  let m := first_max_abs mn mx in
  let '(mx', mn') := fold_left log_range data (m, m) in
  Some (if tlt A mx' (tabs A mn') then tabs A mn' else mx', mn').
(** 42. *)
Definition log_precision (precision : D) (mx : T) : D :=
  dsub A (dlog2 A (dadd A (dofZ A 1) precision)) (t2d A (tmul A mx t_eps)).
(** 45. *)
Definition zero_log (mn : T) (lp : D) : T := d2t A (dsub A (t2d A mn) (dmul A c20001 lp)).
(** 52. *)
Definition pwr_threshold (mn : T) (lp : D) : T := d2t A (dsub A (t2d A mn) (dmul A c10001 lp)).
(** 43-47: the log array. *)
Definition pwr_logs (data : list T) (z : T) : list T := map (fun x => if teq A x (t0 A) then z else pwr_log x) data.

(** 51-59: threshold, signs, stream of the logarithms; [junk] is the block malloc(compressed_size) returned. *)
Definition pwr_write ord ub (threshold : T) (signs : list Z) (log_stream junk : list Z) : option (list Z * nat) :=
  let size := (tsize_of A + length signs + length log_stream)%nat in
  check* (length junk =? size)%nat in
  let* (buf, _) := write_pieces ord ub (map Raw [tser A threshold; signs; log_stream]) junk 0 in
  Some (buf, size).

(** 8-63 sz_compress_2d_pwr; [pad], [jl]: as for sz_compress_2d. *)
Definition compress_pwr ord ub (r1 r2 bs : Z) (indep : bool) (precision : D) (pad : list Z) (data : list T) (jl junk : list Z) : option (list Z * nat) :=
  let* (mx, mn) := pwr_range data in
  let lp := log_precision precision mx in
  let* (bl, sl) := sz_compress_2d A O ord ub r1 r2 bs indep lp pad (pwr_logs data (zero_log mn lp)) jl in
  pwr_write ord ub (pwr_threshold mn lp) (pack_flags (map pwr_sign data)) (firstn sl bl) junk.

(** 85, 93-98: threshold and logarithmic bound after a value [x] with bound [e]. *)
Definition pwr_log_eb (x : T) (e : D) : D :=
  d_max (dsub A (dlog2 A (dadd A (dofZ A 1) e)) (t2d A (tmul A (pwr_log x) t_eps))) (dofZ A 0).
Definition lower_threshold (th : T) (xe : T * D) : T :=
  let '(x, e) := xe in
  if tlt A (t0 A) (magnitude x) then
    d2t A (d_min (t2d A th) (dsub A (t2d A (pwr_log x)) (dmul A c10001 (pwr_log_eb x e))))
  else th.
Definition eb_threshold (data : list T) (ebs : list D) : option T :=
  match data with
  | x :: _ => Some (fold_left lower_threshold (combine data ebs) (tlog2f A (tabs A x)))
  | [] => None
  end.
(** 93-105: the array of bounds returned to the caller.  A NaN leaves its entry unwritten: [None]. *)
Definition final_log_eb (xe : T * D) : option D :=
  let '(x, e) := xe in
  if teq A x (t0 A) then Some (dofZ A 0) else if tlt A (t0 A) (magnitude x) then Some (pwr_log_eb x e) else None.
(** 75-121 sz_compress_2d_pwr_with_eb: the stream, its size, the bounds. *)
Definition compress_pwr_eb ord ub (r1 r2 bs : Z) (indep : bool) (ebs : list D) (pad : list Z) (data : list T) (jl junk : list Z)
  : option (list Z * nat * list D) :=
  check* (length ebs =? length data)%nat in
  let* th := eb_threshold data ebs in
  let* lebs := all_some final_log_eb (combine data ebs) in
  let* (bl, sl) := compress_2d_eb A O ord ub r1 r2 bs indep lebs pad (pwr_logs data th) jl in
  let* (buf, size) := pwr_write ord ub th (pack_flags (map pwr_sign data)) (firstn sl bl) junk in
  Some (buf, size, lebs).

(** sz_decompress_pwr.cpp:18-20. *)
Definition pwr_value (th l : T) (s : Z) : T :=
  let y := if tlt A l th then t0 A else texp2 A l in if s =? 0 then y else tneg A y.
(** sz_decompress_pwr.cpp:41-43. *)
Definition pwr_eb_value (th l : T) (s : Z) : T :=
  let y := if teq A l th then t0 A else texp2 A l in if s =? 0 then y else tneg A y.
Definition restore_pwr (f : T -> T -> Z -> T) (th : T) (L : list (option T)) (S : list Z) : list (option T) :=
  map (fun ls => option_map (fun l => f th l (snd ls)) (fst ls)) (combine L S).
(** sz_decompress_pwr.cpp:7-24, 29-47; [dec]: the decompressor of the logarithms. *)
Definition decompress_pwr_with (f : T -> T -> Z -> T) (dec : list Z -> option (list (option T))) (r1 r2 : Z) (s : list Z) : option (list (option T)) :=
  let n := Z.to_nat (r1 * r2) in
  check* (1 <=? n)%nat in
  let* (tb, s1) := take_bytes (tsize_of A) s in
  let* (g, s2) := unpack_flags n (sign_map_size n) s1 in
  let* L := dec s2 in
  Some (restore_pwr f (tdes A tb) L g).
Definition decompress_pwr (r1 r2 : Z) (s : list Z) := decompress_pwr_with pwr_value (decompress_2d A O r1 r2) r1 r2 s.
Definition decompress_pwr_eb (r1 r2 : Z) (lebs : list D) (s : list Z) := decompress_pwr_with pwr_eb_value (decompress_2d_eb A O r1 r2 lebs) r1 r2 s.

(** ** Bytes *)
Lemma pwr_sign_flag x : is_flag (pwr_sign x).
Proof. unfold is_flag, pwr_sign. destruct (tlt A x (t0 A)); auto. Qed.

Lemma pwr_write_spec (HS : ser_ok A) ord ub th signs ls junk buf size : Z.of_nat (length junk) < 2 ^ 64 ->
  pwr_write ord ub th signs ls junk = Some (buf, size) -> firstn size buf = tser A th ++ signs ++ ls.
Proof.
  intros LJ H. unfold pwr_write in H. destruct (length junk =? _)%nat eqn:E; [|discriminate]. bind_as H [b q] EW. apply Some_inj in H. inversion H; subst.
  apply Nat.eqb_eq in E. rewrite <- E.
  pose proof (raw_chunks_ok ord ub junk LJ [tser A th; signs; ls] b q) as R. rewrite R.
  - cbn [concat]. rewrite app_nil_r. reflexivity.
  - cbn [concat]. rewrite !app_length, (tser_length A HS). cbn [length]. lia.
  - exact EW.
Qed.

Lemma decompress_pwr_with_app (HS : ser_ok A) f dec r1 r2 th data ls rest L : 1 <= r1 * r2 -> Z.of_nat (length data) = r1 * r2 ->
  dec (ls ++ rest) = Some L ->
  decompress_pwr_with f dec r1 r2 ((tser A th ++ pack_flags (map pwr_sign data) ++ ls) ++ rest) = Some (restore_pwr f th L (map pwr_sign data)).
Proof.
  intros HN HD HL. unfold decompress_pwr_with. replace (1 <=? Z.to_nat (r1 * r2))%nat with true by lia. rewrite <- !app_assoc.
  rewrite take_bytes_app by (apply tser_length; auto). cbn [bind].
  assert (NX : length (map pwr_sign data) = Z.to_nat (r1 * r2)) by (rewrite map_length; lia).
  assert (FX : Forall is_flag (map pwr_sign data)) by (apply Forall_map, Forall_forall; intros; apply pwr_sign_flag).
  pose proof (proj1 (flags_round_trip (map pwr_sign data) (ls ++ rest) ltac:(lia) FX)) as R. rewrite NX in R. rewrite R. cbn [bind].
  rewrite HL. cbn [bind]. rewrite (tdes_tser A HS). reflexivity.
Qed.
End Pwr.
