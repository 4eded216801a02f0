(** Property theorems C52: what the entries of the extraction programs say.  [meaning2], [meaning3]: position and type of an entry.  [weights2], [lerps2],
    [eigen2] ([weights3], [lerps3], [roots_ok]): the FTK functions on exact data; [exact2]: the test finds every zero. *)
From Coq Require Import Reals Lra Lia ZArith List Bool.
From Flocq Require Import Core.Core.
From Verif Require Import Base Arith Mesh2D Derive2D Codec2D Exact Cells2D Geo2D Preserve2D Type2D Mesh3D Derive3D Cells3D Geo3D Preserve3D Sz3
  CpTool CpToolApi CpToolCodec CpToolSem CpToolEx.
Import ListNotations.
Local Open Scope Z_scope.

(** Position and type of the entries, two dimensions. *)
Theorem C52_entries_2d : forall s inv2 lerp2 eig2 u v u' v' r1 r2 r, weights2 inv2 -> lerps2 lerp2 -> eigen2 s eig2 ->
  tool2 XA inv2 lerp2 eig2 (map Fin u) (map Fin v) (map Fin u') (map Fin v') r1 r2 = Some r ->
  (forall e, In e (r_origin r) -> meaning2 r1 r2 u v e) /\ (forall e, In e (r_decompressed r) -> meaning2 r1 r2 u' v' e).
Proof. exact tool2_entries. Qed.
Print Assumptions C52_entries_2d.

Example C52_oracles_2d : weights2 mid2 /\ lerps2 wsum /\ eigen2 1 eig_ex.
Proof. exact (conj mid2_weights (conj wsum_lerps eig_ex_ok)). Qed.

Example C52_entries_2d_nonvacuous : exists r e, tool2 XA mid2 wsum eig_ex (map Fin u4) (map Fin v4) (map Fin u4) (map Fin v4) 4 4 = Some r /\ In e (r_origin r) /\
  e_type e = 2%Z /\ e_pos e = (Fin (4 / 3)%R, Fin (5 / 3)%R).
Proof. exact run_source. Qed.

(** Three dimensions, for grids whose tetrahedra have different keys. *)
Theorem C52_entries_3d : forall dsc inv3 lerp3 roots3 u v w u' v' w' r1 r2 r3 r, weights3 inv3 -> lerps3 lerp3 -> roots_ok dsc roots3 -> 6 * (r1 * r2 * r3) <= 2 ^ 31 ->
  tool3 XA inv3 lerp3 roots3 (map Fin u) (map Fin v) (map Fin w) (map Fin u') (map Fin v') (map Fin w') r1 r2 r3 = Some r ->
  (forall e, In e (r_origin r) -> meaning3 dsc r1 r2 r3 u v w e) /\ (forall e, In e (r_decompressed r) -> meaning3 dsc r1 r2 r3 u' v' w' e).
Proof. exact tool3_entries. Qed.
Print Assumptions C52_entries_3d.

Example C52_oracles_3d : weights3 mid3 /\ lerps3 wsum3 /\ roots_ok dsc_ex roots_ex.
Proof. exact (conj mid3_weights (conj wsum3_lerps roots_ex_spec)). Qed.

Example C52_entries_3d_nonvacuous : exists r e, tool3 XA mid3 wsum3 roots_ex (map Fin u8) (map Fin v8) (map Fin w8) (map Fin u8) (map Fin v8) (map Fin w8) 2 2 2 = Some r /\ In e (r_origin r) /\
  e_pos e = (Fin (1 / 4)%R, Fin (1 / 2)%R, Fin (3 / 4)%R).
Proof. exact run_source3. Qed.

(** TP and FT: entries of the decompressed field whose triangle has an entry of the same, of another type in the original.  Any arithmetic, any FTK functions. *)
Theorem C52_types_2d : forall A inv2 lerp2 eig2 U V U' V' r1 r2 r, tool2 A inv2 lerp2 eig2 U V U' V' r1 r2 = Some r ->
  (forall e, In e (r_tp r) -> In e (r_decompressed r) /\ exists e0, In e0 (r_origin r) /\ e_id e0 = e_id e /\ e_type e0 = e_type e) /\
  (forall e, In e (r_ft r) -> In e (r_decompressed r) /\ exists e0, In e0 (r_origin r) /\ e_id e0 = e_id e /\ e_type e0 <> e_type e).
Proof. exact tool2_types. Qed.
Print Assumptions C52_types_2d.

(** The same for tetrahedra. *)
Theorem C52_types_3d : forall A inv3 lerp3 roots3 U V W U' V' W' r1 r2 r3 r, tool3 A inv3 lerp3 roots3 U V W U' V' W' r1 r2 r3 = Some r ->
  (forall e, In e (r_tp r) -> In e (r_decompressed r) /\ exists e0, In e0 (r_origin r) /\ e_id e0 = e_id e /\ e_type e0 = e_type e) /\
  (forall e, In e (r_ft r) -> In e (r_decompressed r) /\ exists e0, In e0 (r_origin r) /\ e_id e0 = e_id e /\ e_type e0 <> e_type e).
Proof. exact tool3_types. Qed.
Print Assumptions C52_types_3d.

(** After the relative codec: no point lost, none added; the type differs only where the Jacobian is singular. *)
Theorem C52_relative_report : forall max_eb r1 r2 u v U' V' c, (max_eb <= 1)%R -> 0 <= r1 -> 0 < r2 -> Z.of_nat (length u) = r1 * r2 -> Z.of_nat (length v) = r1 * r2 ->
  enc_online XA (Fin max_eb) r1 r2 (map Fin u) (map Fin v) = Some (U', V', c) ->
  exists u' v', decode r1 r2 c = Some (map Fin u', map Fin v') /\ forall s inv2 lerp2 eig2 r, exact2 inv2 -> eigen2 s eig2 ->
    tool2 XA inv2 lerp2 eig2 (map Fin u) (map Fin v) (map Fin u') (map Fin v') r1 r2 = Some r ->
    r_fn r = [] /\ r_fp r = [] /\
    forall e, In e (r_ft r) -> exists a b d J, examined2 r1 r2 a b d (e_id e) /\ has_cp (vecR r2 u v a) (vecR r2 u v b) (vecR r2 u v d) /\
      linear_part (vecR r2 u v) [a; b; d] J /\ jdet J = 0%R.
Proof. exact tool2_relative. Qed.
Print Assumptions C52_relative_report.

Example C52_relative_report_nonvacuous : exact2 test2 /\ eigen2 1 eig_ex /\ exists r, enc_online XA (Fin 1) 4 4 (map Fin u4) (map Fin v4) = Some r.
Proof. exact run_rel. Qed.

