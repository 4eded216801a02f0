(** Property theorems about the unstructured codec: C18, C38.  Conventions as in Prop_2D and Prop_Log3D. *)
From Coq Require Import Reals Lra Lia ZArith List Bool.
From Flocq Require Import Core.Core IEEE754.BinarySingleNaN IEEE754.Binary IEEE754.Bits.
From Verif Require Import Base Huffman HuffStream HuffProps Stream Arith Mesh2D Mesh3D Derive3D Codec2D Sync2D Scan Stream2D Exact IEEE IEEELaws IEEEQuant
  IEEE2D IEEEAbs2D Api2D LibmModel Witness2D Examples2D Refute2D RelaxApi2D Abs3D Sync3D Cells3D Geo3D Preserve3D Total3D IEEE3D Api3D Refute3D
  Log2D LogSync2D LogCells2D LogErr2D LogLibm LogApi2D LogRefute2D Log3D LogSync3D LogErr3D LogCells3D LogTotal3D LogApi3D LogRefute3D
  Uns3D UnsSync UnsErr UnsCells UnsApi UnsRefute.
Import ListNotations.
Local Open Scope Z_scope.

(** Bytes, any mesh.  [nonzero_usual k]: finite, nonzero, of magnitude between 2^-97 and 2^k.  Each value comes back bit for bit or with the
    same sign and relative error at most the bound + 2^-13.  Missing: fields with zero components, for which the claim is false. *)
Theorem C18_round_trip_bound_double_partial : forall lm, libm_ok (DA lm) (DA_ieee lm) -> log_libm_ok (DA lm) (DA_ieee lm) ->
  forall max_eb ord ub n tets data junk buf size,
  Z.of_nat (length data) = 3 * n -> Z.of_nat (length junk) < 2 ^ 64 ->
  is_finite 53 1024 max_eb = true -> (0 <= B2R 53 1024 max_eb <= 5 / 2)%R -> (forall x, In x data -> nonzero_usual 100 x) ->
  compress_uns (DA lm) max_eb ord ub n tets data junk = Some (buf, size) -> uns_short (DA lm) max_eb ord n tets data ->
  exists data', decompress_uns (DA lm) n (firstn size buf) = Some data' /\ length data' = length data /\
    forall k x x', aget data k = Some x -> aget data' k = Some x' ->
      x' = x \/ rel_differs_le (B2R 53 1024 max_eb + bpow radix2 (-13)) x x'.
Proof. exact uns_bound_double. Qed.
Print Assumptions C18_round_trip_bound_double_partial.

Theorem C18_round_trip_bound_float_partial : forall lm, libm_ok (FA lm) (FA_ieee lm) -> log_libm_ok (FA lm) (FA_ieee lm) ->
  forall max_eb ord ub n tets data junk buf size,
  Z.of_nat (length data) = 3 * n -> Z.of_nat (length junk) < 2 ^ 64 ->
  is_finite 53 1024 max_eb = true -> (0 <= B2R 53 1024 max_eb <= 5 / 2)%R -> (forall x, In x data -> nonzero_usual 38 x) ->
  compress_uns (FA lm) max_eb ord ub n tets data junk = Some (buf, size) -> uns_short (FA lm) max_eb ord n tets data ->
  exists data', decompress_uns (FA lm) n (firstn size buf) = Some data' /\ length data' = length data /\
    forall k x x', aget data k = Some x -> aget data' k = Some x' ->
      x' = x \/ rel_differs_le (B2R 53 1024 max_eb + bpow radix2 (-13)) x x'.
Proof. exact uns_bound_float. Qed.
Print Assumptions C18_round_trip_bound_float_partial.

(** No conversion of the encoder is out of range (zeros allowed). *)
Theorem C18_no_ub_double : forall lm, libm_ok (DA lm) (DA_ieee lm) -> log_libm_ok (DA lm) (DA_ieee lm) ->
  forall max_eb n tets data, 0 <= n -> forallb (in_range n) tets = true -> Z.of_nat (length data) = 3 * n ->
  is_finite 53 1024 max_eb = true -> (0 <= B2R 53 1024 max_eb <= 5 / 2)%R -> (forall x, In x data -> zero_or_usual 100 x) ->
  exists s c, enc_uns (DA lm) max_eb tets n data = Some (s, c).
Proof. exact uns_noub_double. Qed.
Print Assumptions C18_no_ub_double.
Theorem C18_no_ub_float : forall lm, libm_ok (FA lm) (FA_ieee lm) -> log_libm_ok (FA lm) (FA_ieee lm) ->
  forall max_eb n tets data, 0 <= n -> forallb (in_range n) tets = true -> Z.of_nat (length data) = 3 * n ->
  is_finite 53 1024 max_eb = true -> (0 <= B2R 53 1024 max_eb <= 5 / 2)%R -> (forall x, In x data -> zero_or_usual 38 x) ->
  exists s c, enc_uns (FA lm) max_eb tets n data = Some (s, c).
Proof. exact uns_noub_float. Qed.
Print Assumptions C18_no_ub_float.
Theorem C18_machine_total_double : forall (lm : Libm _ _) max_eb n tets data, lm_x86 lm = true -> 0 <= n -> forallb (in_range n) tets = true ->
  Z.of_nat (length data) = 3 * n -> exists s c, enc_uns (DA lm) max_eb tets n data = Some (s, c).
Proof. exact uns_machine_double. Qed.
Print Assumptions C18_machine_total_double.
Theorem C18_machine_total_float : forall (lm : Libm _ _) max_eb n tets data, lm_x86 lm = true -> 0 <= n -> forallb (in_range n) tets = true ->
  Z.of_nat (length data) = 3 * n -> exists s c, enc_uns (FA lm) max_eb tets n data = Some (s, c).
Proof. exact uns_machine_float. Qed.
Print Assumptions C18_machine_total_float.

(** A run with coded points (symbol 23) and verbatim points (symbol 0), with the hypotheses of the theorems above. *)
Example C18_nonvacuous :
  (exists buf, compress_uns (DA (lmlog64 false)) one ord0 ub0 24 mesh24 ug (repeat 0 576) = Some (buf, 258%nat)) /\
  uns_symbols_of (DA (lmlog64 false)) one mesh24 24 ug =
    Some [0; 23; 23; 23; 23; 23; 23; 23; 23; 23; 23; 23; 0; 23; 23; 23; 23; 23; 23; 23; 0; 0; 0; 0] /\
  libm_ok (DA (lmlog64 false)) (DA_ieee (lmlog64 false)) /\ log_libm_ok (DA (lmlog64 false)) (DA_ieee (lmlog64 false)) /\
  uns_short (DA (lmlog64 false)) one ord0 24 mesh24 ug /\ (forall x, In x ug -> nonzero_usual 100 x) /\
  Z.of_nat (length ug) = 3 * 24 /\ forallb (in_range 24) mesh24 = true /\
  is_finite 53 1024 one = true /\ (0 <= B2R 53 1024 one <= 5 / 2)%R.
Proof. exact (ex_uns_ok false). Qed.

(** A zero component shifts the signs of the values after it: 1 comes back as -1. *)
Theorem C18_zero_component_refuted : forall x86, exists n tets data buf size data' k x x',
  Z.of_nat (length data) = 3 * n /\ forallb (in_range n) tets = true /\ (forall x, In x data -> zero_or_usual 100 x) /\
  uns_short (DA (lmlog64 x86)) one ord0 n tets data /\
  compress_uns (DA (lmlog64 x86)) one ord0 ub0 n tets data (repeat 0 576) = Some (buf, size) /\
  decompress_uns (DA (lmlog64 x86)) n (firstn size buf) = Some data' /\
  aget data k = Some x /\ aget data' k = Some x' /\ B2R 53 1024 x = 1%R /\ B2R 53 1024 x' = (-1)%R.
Proof. exact uns_drift_refuted. Qed.
Print Assumptions C18_zero_component_refuted.

(** At bound 3 a stream cannot be read back. *)
Theorem C18_bound_three_refuted : forall x86, exists max_eb n tets data buf size,
  B2R 53 1024 max_eb = 3%R /\ Z.of_nat (length data) = 3 * n /\ forallb (in_range n) tets = true /\ (forall x, In x data -> nonzero_usual 100 x) /\
  compress_uns (DA (lmlog64 x86)) max_eb ord0 ub0 n tets data (repeat 0 576) = Some (buf, size) /\
  decompress_uns (DA (lmlog64 x86)) n (firstn size buf) = None.
Proof. exact uns_three_refuted. Qed.
Print Assumptions C18_bound_three_refuted.

(** Exact arithmetic: every tetrahedron of the mesh with four different vertices contains a zero of the linear interpolant after the round
    trip if and only if it did before.  [vecI data p] is the vector at point p. *)
Theorem C38_keeps_critical_tets : forall max_eb tets n data s c,
  (0 <= max_eb < 3)%R -> 0 <= n -> Z.of_nat (length data) = 3 * n -> forallb (in_range n) tets = true ->
  (forall x, In x data -> x <> 0 /\ powerRZ 2 (-97) <= Rabs x)%R ->
  enc_uns XA (Fin max_eb) tets n (map Fin data) = Some (s, c) ->
  exists data', decode_uns XA 2 intv_radius n (map (fun x => log_sign XA (Fin x)) data) c = Some (map Fin data') /\ length data' = length data /\
  forall t, In t tets -> NoDup (corners t) -> (has_cp3 (map (vecI data) (corners t)) <-> has_cp3 (map (vecI data') (corners t))).
Proof. exact uns_preserves. Qed.
Print Assumptions C38_keeps_critical_tets.

Theorem C38_exact_total : forall max_eb tets n data,
  (0 <= max_eb < 3)%R -> 0 <= n -> Z.of_nat (length data) = 3 * n -> forallb (in_range n) tets = true ->
  (forall x, In x data -> x <> 0 /\ powerRZ 2 (-97) <= Rabs x)%R ->
  exists s c, enc_uns XA (Fin max_eb) tets n (map Fin data) = Some (s, c).
Proof. exact uns_total. Qed.
Print Assumptions C38_exact_total.

Example C38_nonvacuous :
  has_cp3 (map (vecI ur) (corners (0, 1, 2, 3))) /\ ~ has_cp3 (map (vecI ur) (corners (4, 1, 2, 3))) /\
  (forall t, In t mesh5 -> NoDup (corners t)) /\ forallb (in_range 5) mesh5 = true /\ Z.of_nat (length ur) = 3 * 5 /\
  (forall x, In x ur -> (x <> 0 /\ powerRZ 2 (-97) <= Rabs x)%R) /\
  exists s c, enc_uns XA (Fin 1) mesh5 5 (map Fin ur) = Some (s, c).
Proof. exact ur_ok. Qed.
