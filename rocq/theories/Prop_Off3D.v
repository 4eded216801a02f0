(** Property theorems about the offline 3D codec: C45 (bytes) and C46 (critical tetrahedra, exact arithmetic).  Conventions as in Prop_Log3D.
    [acbrt1] is the repository's own cube root; [offline3_ebs] gives the bounds computed before compression. *)
From Coq Require Import Reals Lra Lia ZArith List Bool.
From Flocq Require Import Core.Core IEEE754.BinarySingleNaN IEEE754.Binary IEEE754.Bits.
From Verif Require Import Base Huffman HuffStream Arith Mesh2D Mesh3D Codec2D Exact IEEE IEEELaws IEEEQuant IEEE2D Api2D LibmModel LogLibm Witness2D Examples2D
  RelaxApi2D Cells3D Geo3D Preserve3D Total3D IEEE3D Log2D LogSync2D LogErr2D LogCells2D LogApi2D LogCells3D Log3D LogApi3D LogRefute3D LinQuant BlockIEEE BlockRefute Offline2D OfflineField2D
  Off3D OffSound3D OffField3D OffCells3D Acbrt OffIEEE3D OffApi3D OffWitness3D.
Import ListNotations.
Local Open Scope Z_scope.

(** Every vertex comes back within its own bound, which is at most the requested one; a vertex whose bound is not positive comes back bit for bit. *)
Theorem C45_round_trip_bound_double : forall lm, libm_ok (DA lm) (DA_ieee lm) -> log_libm_ok (DA lm) (DA_ieee lm) ->
  forall max_eb ord ub r1 r2 r3 U V W junk buf size,
  0 <= r1 -> 0 < r2 -> 0 < r3 -> sized r1 r2 r3 U -> sized r1 r2 r3 V -> sized r1 r2 r3 W -> Z.of_nat (length junk) < 2 ^ 64 ->
  is_finite 53 1024 max_eb = true -> (0 <= B2R 53 1024 max_eb <= 5 / 2)%R -> (forall x, In x U \/ In x V \/ In x W -> zero_or_usual 38 x) ->
  compress_off3 (DA lm) (DO lm) acbrt1 max_eb ord ub r1 r2 r3 U V W junk = Some (buf, size) ->
  (forall eb, offline3_ebs (DA lm) (DO lm) acbrt1 max_eb r1 r2 r3 U V W = Some eb -> log3_short_with (DA lm) (stored_bound (DA lm) eb r2 r3) ord r1 r2 r3 U V W) ->
  exists eb U' V' W', offline3_ebs (DA lm) (DO lm) acbrt1 max_eb r1 r2 r3 U V W = Some eb /\ Z.of_nat (length eb) = r1 * r2 * r3 /\
    decompress_log3 (DA lm) r1 r2 r3 (firstn size buf) = Some (U', V', W') /\
    length U' = length U /\ length V' = length V /\ length W' = length W /\
    forall k e u v w u' v' w', aget eb k = Some e -> aget U k = Some u -> aget V k = Some v -> aget W k = Some w ->
      aget U' k = Some u' -> aget V' k = Some v' -> aget W' k = Some w' ->
      let b := (B2R 53 1024 e + bpow radix2 (-13))%R in
      (B2R 53 1024 e <= B2R 53 1024 max_eb)%R /\
      ((u' = u /\ v' = v /\ w' = w) \/ ((0 < B2R 53 1024 e)%R /\ comp_delivered b u u' /\ comp_delivered b v v' /\ comp_delivered b w w')).
Proof. exact off3_bound_double. Qed.
Print Assumptions C45_round_trip_bound_double.

Theorem C45_no_ub_double : forall lm, libm_ok (DA lm) (DA_ieee lm) -> log_libm_ok (DA lm) (DA_ieee lm) ->
  forall max_eb r1 r2 r3 U V W,
  0 <= r1 -> 0 < r2 -> 0 < r3 ->
  sized r1 r2 r3 U -> sized r1 r2 r3 V -> sized r1 r2 r3 W ->
  is_finite 53 1024 max_eb = true -> (0 <= B2R 53 1024 max_eb <= 5 / 2)%R -> (forall x, In x U \/ In x V \/ In x W -> zero_or_usual 38 x) ->
  exists eb s c, offline3_ebs (DA lm) (DO lm) acbrt1 max_eb r1 r2 r3 U V W = Some eb /\ enc_log3_with (DA lm) (stored_bound (DA lm) eb r2 r3) r1 r2 r3 U V W = Some (s, c).
Proof. exact off3_noub_double. Qed.
Print Assumptions C45_no_ub_double.

Theorem C45_machine_total_double : forall (lm : Libm _ _) max_eb r1 r2 r3 U V W,
  lm_x86 lm = true -> 0 <= r1 -> 0 < r2 -> 0 < r3 ->
  sized r1 r2 r3 U -> sized r1 r2 r3 V -> sized r1 r2 r3 W ->
  exists eb s c, offline3_ebs (DA lm) (DO lm) acbrt1 max_eb r1 r2 r3 U V W = Some eb /\ enc_log3_with (DA lm) (stored_bound (DA lm) eb r2 r3) r1 r2 r3 U V W = Some (s, c).
Proof. exact off3_machine_double. Qed.
Print Assumptions C45_machine_total_double.

Theorem C45_round_trip_bound_float : forall lm, libm_ok (FA lm) (FA_ieee lm) -> log_libm_ok (FA lm) (FA_ieee lm) ->
  forall max_eb ord ub r1 r2 r3 U V W junk buf size,
  0 <= r1 -> 0 < r2 -> 0 < r3 -> sized r1 r2 r3 U -> sized r1 r2 r3 V -> sized r1 r2 r3 W -> Z.of_nat (length junk) < 2 ^ 64 ->
  is_finite 53 1024 max_eb = true -> (0 <= B2R 53 1024 max_eb <= 5 / 2)%R -> (forall x, In x U \/ In x V \/ In x W -> zero_or_usual 38 x) ->
  compress_off3 (FA lm) (FO lm) acbrt1 max_eb ord ub r1 r2 r3 U V W junk = Some (buf, size) ->
  (forall eb, offline3_ebs (FA lm) (FO lm) acbrt1 max_eb r1 r2 r3 U V W = Some eb -> log3_short_with (FA lm) (stored_bound (FA lm) eb r2 r3) ord r1 r2 r3 U V W) ->
  exists eb U' V' W', offline3_ebs (FA lm) (FO lm) acbrt1 max_eb r1 r2 r3 U V W = Some eb /\ Z.of_nat (length eb) = r1 * r2 * r3 /\
    decompress_log3 (FA lm) r1 r2 r3 (firstn size buf) = Some (U', V', W') /\
    length U' = length U /\ length V' = length V /\ length W' = length W /\
    forall k e u v w u' v' w', aget eb k = Some e -> aget U k = Some u -> aget V k = Some v -> aget W k = Some w ->
      aget U' k = Some u' -> aget V' k = Some v' -> aget W' k = Some w' ->
      let b := (B2R 53 1024 e + bpow radix2 (-13))%R in
      (B2R 53 1024 e <= B2R 53 1024 max_eb)%R /\
      ((u' = u /\ v' = v /\ w' = w) \/ ((0 < B2R 53 1024 e)%R /\ comp_delivered b u u' /\ comp_delivered b v v' /\ comp_delivered b w w')).
Proof. exact off3_bound_float. Qed.
Print Assumptions C45_round_trip_bound_float.

Theorem C45_no_ub_float : forall lm, libm_ok (FA lm) (FA_ieee lm) -> log_libm_ok (FA lm) (FA_ieee lm) ->
  forall max_eb r1 r2 r3 U V W,
  0 <= r1 -> 0 < r2 -> 0 < r3 ->
  sized r1 r2 r3 U -> sized r1 r2 r3 V -> sized r1 r2 r3 W ->
  is_finite 53 1024 max_eb = true -> (0 <= B2R 53 1024 max_eb <= 5 / 2)%R -> (forall x, In x U \/ In x V \/ In x W -> zero_or_usual 38 x) ->
  exists eb s c, offline3_ebs (FA lm) (FO lm) acbrt1 max_eb r1 r2 r3 U V W = Some eb /\ enc_log3_with (FA lm) (stored_bound (FA lm) eb r2 r3) r1 r2 r3 U V W = Some (s, c).
Proof. exact off3_noub_float. Qed.
Print Assumptions C45_no_ub_float.

Theorem C45_machine_total_float : forall (lm : Libm _ _) max_eb r1 r2 r3 U V W,
  lm_x86 lm = true -> 0 <= r1 -> 0 < r2 -> 0 < r3 ->
  sized r1 r2 r3 U -> sized r1 r2 r3 V -> sized r1 r2 r3 W ->
  exists eb s c, offline3_ebs (FA lm) (FO lm) acbrt1 max_eb r1 r2 r3 U V W = Some eb /\ enc_log3_with (FA lm) (stored_bound (FA lm) eb r2 r3) r1 r2 r3 U V W = Some (s, c).
Proof. exact off3_machine_float. Qed.
Print Assumptions C45_machine_total_float.

(** The hypotheses hold: a 2 x 2 x 6 field of doubles and a 2 x 2 x 12 field of floats with vertices of bound 1 and vertices of bound 0. *)
Example C45_nonvacuous_double : (exists buf, compress_off3 (DA (lmlog64 false)) (DO (lmlog64 false)) acbrt1 (dy 1 0) ord0 ub0 2 2 6 f3U f3V f3W (repeat 0 576) = Some (buf, 481%nat)) /\
  libm_ok (DA (lmlog64 false)) (DA_ieee (lmlog64 false)) /\ log_libm_ok (DA (lmlog64 false)) (DA_ieee (lmlog64 false)) /\
  sized 2 2 6 f3U /\ sized 2 2 6 f3V /\ sized 2 2 6 f3W /\ (forall x, In x f3U \/ In x f3V \/ In x f3W -> zero_or_usual 38 x) /\
  is_finite 53 1024 (dy 1 0) = true /\ (0 <= B2R 53 1024 (dy 1 0) <= 5 / 2)%R /\
  offline3_ebs (DA (lmlog64 false)) (DO (lmlog64 false)) acbrt1 (dy 1 0) 2 2 6 f3U f3V f3W = Some f3E /\ In (dy 1 0) f3E /\ In (dy 0 0) f3E /\
  forall eb, offline3_ebs (DA (lmlog64 false)) (DO (lmlog64 false)) acbrt1 (dy 1 0) 2 2 6 f3U f3V f3W = Some eb -> log3_short_with (DA (lmlog64 false)) (stored_bound (DA (lmlog64 false)) eb 2 6) ord0 2 2 6 f3U f3V f3W.
Proof. exact f3_example. Qed.
Example C45_nonvacuous_float : (exists buf, compress_off3 (FA (lmlog32 false)) (FO (lmlog32 false)) acbrt1 (dy 1 0) ord0 ub0 2 2 12 h3U h3V h3W (repeat 0 576) = Some (buf, 345%nat)) /\
  libm_ok (FA (lmlog32 false)) (FA_ieee (lmlog32 false)) /\ log_libm_ok (FA (lmlog32 false)) (FA_ieee (lmlog32 false)) /\
  sized 2 2 12 h3U /\ sized 2 2 12 h3V /\ sized 2 2 12 h3W /\ (forall x, In x h3U \/ In x h3V \/ In x h3W -> zero_or_usual 38 x) /\
  offline3_ebs (FA (lmlog32 false)) (FO (lmlog32 false)) acbrt1 (dy 1 0) 2 2 12 h3U h3V h3W = Some h3E /\
  forall eb, offline3_ebs (FA (lmlog32 false)) (FO (lmlog32 false)) acbrt1 (dy 1 0) 2 2 12 h3U h3V h3W = Some eb -> log3_short_with (FA (lmlog32 false)) (stored_bound (FA (lmlog32 false)) eb 2 12) ord0 2 2 12 h3U h3V h3W.
Proof. exact h3_example. Qed.

(** Without the limit on the magnitudes (here: up to 2^45) the requested bound is not respected: at bound 0 a value changes.  A cell bound
    that overflows to NaN erases the bound of its vertices. *)
Theorem C45_large_refuted : exists U V W eb buf size U' V' W' x x',
  libm_ok (DA (lmlog64 false)) (DA_ieee (lmlog64 false)) /\ log_libm_ok (DA (lmlog64 false)) (DA_ieee (lmlog64 false)) /\
  sized 2 2 8 U /\ sized 2 2 8 V /\ sized 2 2 8 W /\ (forall y, In y U \/ In y V \/ In y W -> moderate y) /\
  offline3_ebs (DA (lmlog64 false)) (DO (lmlog64 false)) acbrt1 (dy 0 0) 2 2 8 U V W = Some eb /\ aget eb 0 = Some (dy 1 0) /\
  compress_off3 (DA (lmlog64 false)) (DO (lmlog64 false)) acbrt1 (dy 0 0) ord0 ub0 2 2 8 U V W (repeat 0 768) = Some (buf, size) /\
  decompress_log3 (DA (lmlog64 false)) 2 2 8 (firstn size buf) = Some (U', V', W') /\
  aget U 0 = Some x /\ aget U' 0 = Some x' /\ is_finite 53 1024 x' = true /\ B2R 53 1024 x' <> B2R 53 1024 x.
Proof. exact off3_large_refuted. Qed.
Print Assumptions C45_large_refuted.

Local Open Scope R_scope.
(** Exact arithmetic.  [cube_root0]: a cube root exact on positive numbers and positive at 0; [small_change e x y]: y = x or |y - x| < e |x|.
    Any field within the computed bounds has the critical tetrahedra of the original. *)
Theorem C46_bounds_keep_critical_tets : forall acbrt, cube_root0 acbrt -> forall max_eb r1 r2 r3 u v w,
  0 <= max_eb -> (0 <= r1)%Z -> (0 <= r2)%Z -> (0 <= r3)%Z ->
  Z.of_nat (length u) = (r1 * r2 * r3)%Z -> Z.of_nat (length v) = (r1 * r2 * r3)%Z -> Z.of_nat (length w) = (r1 * r2 * r3)%Z ->
  exists eb, offline3_ebs XA XO acbrt (Fin max_eb) r1 r2 r3 (map Fin u) (map Fin v) (map Fin w) = Some (map Fin eb) /\
  Z.of_nat (length eb) = (r1 * r2 * r3)%Z /\ Forall (fun e => 0 <= e <= max_eb) eb /\
  forall u' v' w', (forall k, small_change (nth k eb 0) (nth k u 0) (nth k u' 0)) ->
                   (forall k, small_change (nth k eb 0) (nth k v 0) (nth k v' 0)) ->
                   (forall k, small_change (nth k eb 0) (nth k w 0) (nth k w' 0)) ->
  forall t, tet r1 r2 r3 t -> (has_cp3 (map (vecR3 r2 r3 u v w) t) <-> has_cp3 (map (vecR3 r2 r3 u' v' w') t)).
Proof. exact offline3_bounds_keep. Qed.
Print Assumptions C46_bounds_keep_critical_tets.

(** The codec: it runs to the end and what it delivers has the critical tetrahedra of the original. *)
Theorem C46_codec_keeps_critical_tets : forall acbrt max_eb r1 r2 r3 u v w,
  cube_root0 acbrt -> 0 <= max_eb < 3 -> (0 <= r1)%Z -> (0 < r2)%Z -> (0 < r3)%Z ->
  Z.of_nat (length u) = (r1 * r2 * r3)%Z -> Z.of_nat (length v) = (r1 * r2 * r3)%Z -> Z.of_nat (length w) = (r1 * r2 * r3)%Z ->
  (forall x, In x u \/ In x v \/ In x w -> zero_or_large x) ->
  exists eb s c u' v' w', offline3_ebs XA XO acbrt (Fin max_eb) r1 r2 r3 (map Fin u) (map Fin v) (map Fin w) = Some eb /\
  enc_log3_with XA (stored_bound XA eb r2 r3) r1 r2 r3 (map Fin u) (map Fin v) (map Fin w) = Some (s, c) /\
  decode_log3 XA 2 intv_radius r1 r2 r3 (map (fun x => log_sign XA (Fin x)) u) (map (fun x => log_sign XA (Fin x)) v)
              (map (fun x => log_sign XA (Fin x)) w) c = Some (map Fin u', map Fin v', map Fin w') /\
  length u' = length u /\ length v' = length v /\ length w' = length w /\
  forall t, tet r1 r2 r3 t -> (has_cp3 (map (vecR3 r2 r3 u v w) t) <-> has_cp3 (map (vecR3 r2 r3 u' v' w') t)).
Proof. exact off3_preserves. Qed.
Print Assumptions C46_codec_keeps_critical_tets.

Local Open Scope Z_scope.
Example C46_nonvacuous : cube_root0 xcbrt /\ (0 <= 1 < 3)%R /\
  tet 5 2 2 [(0, 0, 0); (1, 0, 0); (1, 1, 0); (1, 1, 1)] /\ tet 5 2 2 [(1, 0, 0); (2, 0, 0); (2, 1, 0); (2, 1, 1)] /\
  tet 5 2 2 [(3, 0, 0); (4, 0, 0); (4, 1, 0); (4, 1, 1)] /\
  has_cp3 (map (vecR3 2 2 g4 g6 g6) [(0, 0, 0); (1, 0, 0); (1, 1, 0); (1, 1, 1)]) /\
  ~ has_cp3 (map (vecR3 2 2 g4 g6 g6) [(1, 0, 0); (2, 0, 0); (2, 1, 0); (2, 1, 1)]) /\
  vecR3 2 2 g4 g6 g6 (4, 0, 0) = (0, 2, 2)%R /\
  sized 5 2 2 g4 /\ sized 5 2 2 g6 /\ forall x, In x g4 \/ In x g6 \/ In x g6 -> zero_or_large x.
Proof. exact g56_ok. Qed.
