(** Property theorems about the 3D log-domain codec: C17, C37.  Conventions as in Prop_2D and Prop_Log2D. *)
From Coq Require Import Reals Lra Lia ZArith List Bool.
From Flocq Require Import Core.Core IEEE754.BinarySingleNaN IEEE754.Binary IEEE754.Bits.
From Verif Require Import Base Huffman HuffStream HuffProps Stream Arith Mesh2D Mesh3D Derive3D Codec2D Sync2D Scan Stream2D Exact IEEE IEEELaws IEEEQuant
  IEEE2D IEEEAbs2D Api2D LibmModel Witness2D Examples2D Refute2D RelaxApi2D Abs3D Sync3D Cells3D Geo3D Preserve3D Total3D IEEE3D Api3D Refute3D
  Log2D LogSync2D LogCells2D LogErr2D LogLibm LogApi2D LogRefute2D Log3D LogSync3D LogErr3D LogCells3D LogTotal3D LogApi3D LogRefute3D.
Import ListNotations.
Local Open Scope Z_scope.

(** Bytes.  A point comes back bit for bit, or each component x comes back as [comp_delivered] says: +0 for a zero, otherwise a value of the
    same sign with relative error at most the bound + 2^-13. *)
Theorem C17_round_trip_bound_double : forall lm, libm_ok (DA lm) (DA_ieee lm) -> log_libm_ok (DA lm) (DA_ieee lm) ->
  forall max_eb ord ub r1 r2 r3 U V W junk buf size,
  0 <= r1 -> 0 < r2 -> 0 < r3 -> sized r1 r2 r3 U -> sized r1 r2 r3 V -> sized r1 r2 r3 W -> Z.of_nat (length junk) < 2 ^ 64 ->
  is_finite 53 1024 max_eb = true -> (0 <= B2R 53 1024 max_eb <= 5 / 2)%R -> (forall x, In x U \/ In x V \/ In x W -> zero_or_usual 100 x) ->
  compress_log3 (DA lm) max_eb ord ub r1 r2 r3 U V W junk = Some (buf, size) -> log3_short (DA lm) max_eb ord r1 r2 r3 U V W ->
  exists U' V' W', decompress_log3 (DA lm) r1 r2 r3 (firstn size buf) = Some (U', V', W') /\
    length U' = length U /\ length V' = length V /\ length W' = length W /\
    forall k u v w u' v' w', aget U k = Some u -> aget V k = Some v -> aget W k = Some w ->
      aget U' k = Some u' -> aget V' k = Some v' -> aget W' k = Some w' ->
      let b := (B2R 53 1024 max_eb + bpow radix2 (-13))%R in
      (u' = u /\ v' = v /\ w' = w) \/ (comp_delivered b u u' /\ comp_delivered b v v' /\ comp_delivered b w w').
Proof. exact log3_bound_double. Qed.
Print Assumptions C17_round_trip_bound_double.

Theorem C17_round_trip_bound_float : forall lm, libm_ok (FA lm) (FA_ieee lm) -> log_libm_ok (FA lm) (FA_ieee lm) ->
  forall max_eb ord ub r1 r2 r3 U V W junk buf size,
  0 <= r1 -> 0 < r2 -> 0 < r3 -> sized r1 r2 r3 U -> sized r1 r2 r3 V -> sized r1 r2 r3 W -> Z.of_nat (length junk) < 2 ^ 64 ->
  is_finite 53 1024 max_eb = true -> (0 <= B2R 53 1024 max_eb <= 5 / 2)%R -> (forall x, In x U \/ In x V \/ In x W -> zero_or_usual 38 x) ->
  compress_log3 (FA lm) max_eb ord ub r1 r2 r3 U V W junk = Some (buf, size) -> log3_short (FA lm) max_eb ord r1 r2 r3 U V W ->
  exists U' V' W', decompress_log3 (FA lm) r1 r2 r3 (firstn size buf) = Some (U', V', W') /\
    length U' = length U /\ length V' = length V /\ length W' = length W /\
    forall k u v w u' v' w', aget U k = Some u -> aget V k = Some v -> aget W k = Some w ->
      aget U' k = Some u' -> aget V' k = Some v' -> aget W' k = Some w' ->
      let b := (B2R 53 1024 max_eb + bpow radix2 (-13))%R in
      (u' = u /\ v' = v /\ w' = w) \/ (comp_delivered b u u' /\ comp_delivered b v v' /\ comp_delivered b w w').
Proof. exact log3_bound_float. Qed.
Print Assumptions C17_round_trip_bound_float.

Theorem C17_no_ub_double : forall lm, libm_ok (DA lm) (DA_ieee lm) -> log_libm_ok (DA lm) (DA_ieee lm) ->
  forall max_eb r1 r2 r3 U V W, 0 <= r1 -> 0 < r2 -> 0 < r3 ->
  sized r1 r2 r3 U -> sized r1 r2 r3 V -> sized r1 r2 r3 W ->
  is_finite 53 1024 max_eb = true -> (0 <= B2R 53 1024 max_eb <= 5 / 2)%R -> (forall x, In x U \/ In x V \/ In x W -> zero_or_usual 100 x) ->
  exists s c, enc_log3 (DA lm) max_eb r1 r2 r3 U V W = Some (s, c).
Proof. exact log3_noub_double. Qed.
Print Assumptions C17_no_ub_double.
Theorem C17_machine_total_double : forall (lm : Libm _ _) max_eb r1 r2 r3 U V W, lm_x86 lm = true -> 0 <= r1 -> 0 < r2 -> 0 < r3 ->
  sized r1 r2 r3 U -> sized r1 r2 r3 V -> sized r1 r2 r3 W ->
  exists s c, enc_log3 (DA lm) max_eb r1 r2 r3 U V W = Some (s, c).
Proof. exact log3_machine_double. Qed.
Print Assumptions C17_machine_total_double.

Theorem C17_no_ub_float : forall lm, libm_ok (FA lm) (FA_ieee lm) -> log_libm_ok (FA lm) (FA_ieee lm) ->
  forall max_eb r1 r2 r3 U V W, 0 <= r1 -> 0 < r2 -> 0 < r3 ->
  sized r1 r2 r3 U -> sized r1 r2 r3 V -> sized r1 r2 r3 W ->
  is_finite 53 1024 max_eb = true -> (0 <= B2R 53 1024 max_eb <= 5 / 2)%R -> (forall x, In x U \/ In x V \/ In x W -> zero_or_usual 38 x) ->
  exists s c, enc_log3 (FA lm) max_eb r1 r2 r3 U V W = Some (s, c).
Proof. exact log3_noub_float. Qed.
Print Assumptions C17_no_ub_float.
Theorem C17_machine_total_float : forall (lm : Libm _ _) max_eb r1 r2 r3 U V W, lm_x86 lm = true -> 0 <= r1 -> 0 < r2 -> 0 < r3 ->
  sized r1 r2 r3 U -> sized r1 r2 r3 V -> sized r1 r2 r3 W ->
  exists s c, enc_log3 (FA lm) max_eb r1 r2 r3 U V W = Some (s, c).
Proof. exact log3_machine_float. Qed.
Print Assumptions C17_machine_total_float.

(** A run that codes points and stores others, with the hypotheses of the theorems above. *)
Example C17_nonvacuous :
  (exists buf, compress_log3 (DA (lmlog64 false)) one ord0 ub0 1 1 16 lgU lgV lgW (repeat 0 384) = Some (buf, 254%nat)) /\
  libm_ok (DA (lmlog64 false)) (DA_ieee (lmlog64 false)) /\ log_libm_ok (DA (lmlog64 false)) (DA_ieee (lmlog64 false)) /\
  log3_short (DA (lmlog64 false)) one ord0 1 1 16 lgU lgV lgW /\ (forall x, In x lgU \/ In x lgV \/ In x lgW -> zero_or_usual 100 x) /\
  sized 1 1 16 lgU /\ sized 1 1 16 lgV /\ sized 1 1 16 lgW /\
  is_finite 53 1024 one = true /\ (0 <= B2R 53 1024 one <= 5 / 2)%R.
Proof. exact (ex_log3_ok false). Qed.

(** At bound 3 the symbol of a predicted point is the symbol of a verbatim point; the stream of a constant field cannot be read back. *)
Theorem C17_bound_three_refuted : forall x86, exists max_eb U V W buf size,
  B2R 53 1024 max_eb = 3%R /\ sized 1 1 16 U /\ sized 1 1 16 V /\ sized 1 1 16 W /\
  (forall x, In x U \/ In x V \/ In x W -> zero_or_usual 100 x) /\
  log3_short (DA (lmlog64 x86)) max_eb ord0 1 1 16 U V W /\
  compress_log3 (DA (lmlog64 x86)) max_eb ord0 ub0 1 1 16 U V W (repeat 0 384) = Some (buf, size) /\
  decompress_log3 (DA (lmlog64 x86)) 1 1 16 (firstn size buf) = None.
Proof. exact log3_three_refuted. Qed.
Print Assumptions C17_bound_three_refuted.

(** Without a lower limit on the magnitudes nonzero values come back as zeros. *)
Theorem C17_tiny_refuted : forall x86, exists U buf size U' V' W',
  (forall x, In x U -> is_finite 53 1024 x = true /\ @is_zero 53 1024 x = false) /\ sized 1 1 16 U /\
  compress_log3 (DA (lmlog64 x86)) one ord0 ub0 1 1 16 U U U (repeat 0 384) = Some (buf, size) /\
  decompress_log3 (DA (lmlog64 x86)) 1 1 16 (firstn size buf) = Some (U', V', W') /\
  exists x, In x U' /\ @is_zero 53 1024 x = true.
Proof. exact log3_tiny_refuted. Qed.
Print Assumptions C17_tiny_refuted.

(** Exact arithmetic: critical tetrahedra.  [zero_or_large]: zero or of magnitude at least 2^-97; [null3] is the null vector and [full] a
    vector without zero components. Missing: tetrahedra with a vertex that has a zero and a nonzero component. *)
Theorem C37_keeps_critical_tets_partial : forall max_eb r1 r2 r3 u v w s c,
  (0 <= max_eb < 3)%R -> 0 <= r1 -> 0 < r2 -> 0 < r3 ->
  Z.of_nat (length u) = r1 * r2 * r3 -> Z.of_nat (length v) = r1 * r2 * r3 -> Z.of_nat (length w) = r1 * r2 * r3 ->
  (forall x, In x u \/ In x v \/ In x w -> zero_or_large x) ->
  enc_log3 XA (Fin max_eb) r1 r2 r3 (map Fin u) (map Fin v) (map Fin w) = Some (s, c) ->
  exists u' v' w', decode_log3 XA 2 intv_radius r1 r2 r3 (map (fun x => log_sign XA (Fin x)) u) (map (fun x => log_sign XA (Fin x)) v)
                     (map (fun x => log_sign XA (Fin x)) w) c = Some (map Fin u', map Fin v', map Fin w') /\
  forall t, tet r1 r2 r3 t -> (forall x, In x t -> vecR3 r2 r3 u v w x = null3 \/ full (vecR3 r2 r3 u v w x)) ->
    (has_cp3 (map (vecR3 r2 r3 u v w) t) <-> has_cp3 (map (vecR3 r2 r3 u' v' w') t)).
Proof. exact log3_preserves. Qed.
Print Assumptions C37_keeps_critical_tets_partial.

Theorem C37_exact_total : forall max_eb r1 r2 r3 u v w,
  (0 <= max_eb < 3)%R -> 0 <= r1 -> 0 < r2 -> 0 < r3 -> sized r1 r2 r3 u -> sized r1 r2 r3 v -> sized r1 r2 r3 w ->
  (forall x, In x u \/ In x v \/ In x w -> zero_or_large x) ->
  exists s c, enc_log3 XA (Fin max_eb) r1 r2 r3 (map Fin u) (map Fin v) (map Fin w) = Some (s, c).
Proof. exact log3_total. Qed.
Print Assumptions C37_exact_total.

Example C37_nonvacuous :
  tet 5 2 2 [(0, 0, 0); (1, 0, 0); (1, 1, 0); (1, 1, 1)] /\ tet 5 2 2 [(1, 0, 0); (2, 0, 0); (2, 1, 0); (2, 1, 1)] /\
  tet 5 2 2 [(3, 0, 0); (4, 0, 0); (4, 1, 0); (4, 1, 1)] /\
  has_cp3 (map (vecR3 2 2 g4 g4 g4) [(0, 0, 0); (1, 0, 0); (1, 1, 0); (1, 1, 1)]) /\
  ~ has_cp3 (map (vecR3 2 2 g4 g4 g4) [(1, 0, 0); (2, 0, 0); (2, 1, 0); (2, 1, 1)]) /\
  (forall t, In t [[(0, 0, 0); (1, 0, 0); (1, 1, 0); (1, 1, 1)]; [(1, 0, 0); (2, 0, 0); (2, 1, 0); (2, 1, 1)]; [(3, 0, 0); (4, 0, 0); (4, 1, 0); (4, 1, 1)]] ->
     pure_tet g4 g4 g4 2 2 t) /\
  vecR3 2 2 g4 g4 g4 (4, 0, 0) = null3 /\
  (forall x, In x g4 -> zero_or_large x) /\
  exists s c, enc_log3 XA (Fin 1) 5 2 2 (map Fin g4) (map Fin g4) (map Fin g4) = Some (s, c).
Proof. exact g4_ok. Qed.
