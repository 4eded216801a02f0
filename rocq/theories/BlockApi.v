(** The block codecs on double and float fields: round trip and error bound; totality; exact arithmetic of the quantiser. *)
From Coq Require Import Reals Lra Lia ZArith List Bool.
From Coq Require Import ZifyBool ZifyNat.
From Flocq Require Import Core.Core IEEE754.BinarySingleNaN IEEE754.Binary IEEE754.Bits.
From Verif Require Import Base Huffman HuffStream HuffProps BitPack Stream Arith Codec2D Sync2D Stream2D Exact IEEE IEEELaws IEEEQuant IEEE2D Api2D RelaxApi2D
  LinQuant Block BlockSync BlockTile BlockBytes BlockIEEE.
Import ListNotations.
Local Open Scope Z_scope.

(** Every value is present; it is the input or, both finite, within the bound of its position. *)
Definition recovered {p e} (bound : Z -> option (binary_float 53 1024)) (data : list (binary_float p e)) (n : nat)
           (out : list (option (binary_float p e))) : Prop :=
  length out = n /\
  forall i, 0 <= i < Z.of_nat n ->
    exists x x' b, aget data i = Some x /\ aget out i = Some (Some x') /\ bound i = Some b /\
      (x' = x \/ is_finite p e x = true /\ differs_le (B2R 53 1024 b * (1 + bpow radix2 (- p))) x x').

Section Accept.
Context (A : Arith) (I : ieee A) (O : FOps A) (J : qieee A I O (T A) (qT A O)).
Lemma acceptable_bound g prec data i x p a : acceptable A g prec data i x -> prec i = Some p -> vD A I p = Fin a ->
  exists cur, aget data i = Some cur /\
    (x = cur \/ exists r s, vX _ _ _ _ _ J x = Fin r /\ vX _ _ _ _ _ J cur = Fin s /\
                            (Rabs (r - s) <= a * (1 + bpow radix2 (- pX _ _ _ _ _ J)))%R).
Proof.
  intros (cur & p' & E1 & E2 & H) EP Ha. rewrite EP in E2. apply Some_inj in E2. subst p'. exists cur. split; [auto|].
  destruct H as [H|[H|[_ H]]]; [left; auto|right|right].
  - exact (err_bound A I O _ _ J x cur p a Ha H).
  - assert (H' : dle A (q_err (qT A O) cur x) p = true).
    { change (dle A (t2d A (tabs A (tsub A cur x))) p = true). rewrite (v_dlt A I) in H. rewrite (v_dle A I).
      destruct (vD A I _) as [u| | |], (vD A I p) as [v| | |]; cbn in *; try discriminate; auto.
      destruct (Rlt_bool_spec u v); [|discriminate]. apply Rle_bool_true. lra. }
    destruct (err_bound A I O _ _ J cur x p a Ha H') as (r & s & R1 & R2 & R3). exists s, r.
    split; [auto|]. split; [auto|]. rewrite Rabs_minus_sym. exact R3.
Qed.
End Accept.

Lemma delivered_double lm g prec data n out :
  (forall i, 0 <= i < Z.of_nat n -> exists b, prec i = Some b /\ is_finite 53 1024 b = true) ->
  delivered (DA lm) g prec data n out -> recovered prec data n out.
Proof.
  intros HP [HL H]. split; [exact HL|]. intros i Hi. destruct (H i Hi) as (x' & E & HA). destruct (HP i Hi) as (b & Eb & Fb).
  destruct (acceptable_bound _ (DA_ieee lm) (DO lm) (DQT lm) _ _ _ _ _ _ (B2R 53 1024 b) HA Eb) as (x & Ex & HX).
  { apply (fin_val 53 1024). exact Fb. }
  exists x, x', b. split; [exact Ex|]. split; [exact E|]. split; [exact Eb|].
  destruct HX as [HX|(r & s & E1 & E2 & HX)]; [left; exact HX|right].
  change (val 53 1024 x' = Fin r) in E1. change (val 53 1024 x = Fin s) in E2.
  apply (val_fin_iff 53 1024) in E1, E2. destruct E1 as [F1 <-]. destruct E2 as [F2 <-]. split; [exact F2|]. split; [exact F1|exact HX].
Qed.

Lemma delivered_float lm g prec data n out :
  (forall i, 0 <= i < Z.of_nat n -> exists b, prec i = Some b /\ is_finite 53 1024 b = true) ->
  delivered (FA lm) g prec data n out -> recovered prec data n out.
Proof.
  intros HP [HL H]. split; [exact HL|]. intros i Hi. destruct (H i Hi) as (x' & E & HA). destruct (HP i Hi) as (b & Eb & Fb).
  destruct (acceptable_bound _ (FA_ieee lm) (FO lm) (FQT lm) _ _ _ _ _ _ (B2R 53 1024 b) HA Eb) as (x & Ex & HX).
  { apply (fin_val 53 1024). exact Fb. }
  exists x, x', b. split; [exact Ex|]. split; [exact E|]. split; [exact Eb|].
  destruct HX as [HX|(r & s & E1 & E2 & HX)]; [left; exact HX|right].
  change (val 24 128 x' = Fin r) in E1. change (val 24 128 x = Fin s) in E2.
  apply (val_fin_iff 24 128) in E1, E2. destruct E1 as [F1 <-]. destruct E2 as [F2 <-]. split; [exact F2|]. split; [exact F1|exact HX].
Qed.

(** The symbol arrays need no code word longer than 64 bits. *)
Definition short_blocks {A O} ord capacity (enc : option (bcode A O)) : Prop :=
  forall c, enc = Some c ->
    max_code_64 ord (2 * capacity) (b_type _ _ c) /\ ((1 <= reg_count _ _ c)%nat -> max_code_64 ord 131072 (b_rtype _ _ c)).

(** ** sz_compress_2d (instantiated for float only) *)
Theorem block2_api_float lm ord ub r1 r2 bs indep precision plan pad (data : list binary32) junk buf size :
  bs < 2 ^ 31 -> length pad = 3%nat -> Z.of_nat (length junk) < 2 ^ 64 -> is_finite 53 1024 precision = true ->
  compress_2d (FA lm) (FO lm) ord ub r1 r2 bs indep precision plan pad data junk = Some (buf, size) ->
  short_blocks ord 32768 (encode_2d (FA lm) (FO lm) r1 r2 bs precision plan data) ->
  exists out, (forall rest, decompress_2d (FA lm) (FO lm) r1 r2 (firstn size buf ++ rest) = Some out) /\
    recovered (fun _ => Some precision) data (Z.to_nat (r1 * r2)) out.
Proof.
  intros H1 H2 H3 HP HC HS.
  assert (HE : exists c, encode_2d (FA lm) (FO lm) r1 r2 bs precision plan data = Some c).
  { unfold compress_2d in HC. destruct (_ && _) in HC; [|discriminate]. bind_as HC c E. eauto. }
  destruct HE as [c HE].
  destruct (round_trip_2d (FA lm) (FO lm) (FA_ser lm) (FO_ser lm) ord ub r1 r2 bs indep precision plan pad data junk buf size c) as (out & E & HD); auto.
  - apply FA_laws. split; cbn; lia.
  - apply (HS c HE).
  - exists out. split; [exact E|]. eapply delivered_float; [|exact HD]. intros; eauto.
Qed.

(** ** sz_compress_2d_with_eb *)
Theorem block2_eb_api_double lm ord ub r1 r2 bs indep precisions pad (data : list binary64) junk buf size :
  bs < 2 ^ 31 -> length pad = 7%nat -> Z.of_nat (length junk) < 2 ^ 64 ->
  Z.of_nat (length precisions) = r1 * r2 -> (forall b, In b precisions -> is_finite 53 1024 b = true) ->
  compress_2d_eb (DA lm) (DO lm) ord ub r1 r2 bs indep precisions pad data junk = Some (buf, size) ->
  short_blocks ord 65536 (encode_2d_eb (DA lm) (DO lm) r1 r2 bs precisions data) ->
  exists out, (forall rest, decompress_2d_eb (DA lm) (DO lm) r1 r2 precisions (firstn size buf ++ rest) = Some out) /\
    recovered (aget precisions) data (Z.to_nat (r1 * r2)) out.
Proof.
  intros H1 H2 H3 LP HP HC HS.
  assert (HE : exists c, encode_2d_eb (DA lm) (DO lm) r1 r2 bs precisions data = Some c).
  { unfold compress_2d_eb in HC. destruct (_ && _) in HC; [|discriminate]. bind_as HC c E. eauto. }
  destruct HE as [c HE].
  destruct (round_trip_2d_eb (DA lm) (DO lm) (DA_ser lm) (DO_ser lm) ord ub r1 r2 bs indep precisions pad data junk buf size c) as (out & E & HD); auto.
  - apply DA_laws. split; cbn; lia.
  - apply (HS c HE).
  - exists out. split; [exact E|]. eapply delivered_double; [|exact HD]. intros i Hi.
    destruct (aget_in precisions i) as [b Hb]; [lia|]. exists b. split; [auto|]. apply HP. eapply aget_In; eauto.
Qed.

Theorem block2_eb_api_float lm ord ub r1 r2 bs indep precisions pad (data : list binary32) junk buf size :
  bs < 2 ^ 31 -> length pad = 3%nat -> Z.of_nat (length junk) < 2 ^ 64 ->
  Z.of_nat (length precisions) = r1 * r2 -> (forall b, In b precisions -> is_finite 53 1024 b = true) ->
  compress_2d_eb (FA lm) (FO lm) ord ub r1 r2 bs indep precisions pad data junk = Some (buf, size) ->
  short_blocks ord 65536 (encode_2d_eb (FA lm) (FO lm) r1 r2 bs precisions data) ->
  exists out, (forall rest, decompress_2d_eb (FA lm) (FO lm) r1 r2 precisions (firstn size buf ++ rest) = Some out) /\
    recovered (aget precisions) data (Z.to_nat (r1 * r2)) out.
Proof.
  intros H1 H2 H3 LP HP HC HS.
  assert (HE : exists c, encode_2d_eb (FA lm) (FO lm) r1 r2 bs precisions data = Some c).
  { unfold compress_2d_eb in HC. destruct (_ && _) in HC; [|discriminate]. bind_as HC c E. eauto. }
  destruct HE as [c HE].
  destruct (round_trip_2d_eb (FA lm) (FO lm) (FA_ser lm) (FO_ser lm) ord ub r1 r2 bs indep precisions pad data junk buf size c) as (out & E & HD); auto.
  - apply FA_laws. split; cbn; lia.
  - apply (HS c HE).
  - exists out. split; [exact E|]. eapply delivered_float; [|exact HD]. intros i Hi.
    destruct (aget_in precisions i) as [b Hb]; [lia|]. exists b. split; [auto|]. apply HP. eapply aget_In; eauto.
Qed.

(** ** sz_compress_3d *)
Lemma even_half c : Z.even c = true -> 2 * Z.shiftr c 1 = c.
Proof.
  intros H. apply Z.even_spec in H. destruct H as [h ->]. rewrite Z.shiftr_div_pow2 by lia. change (2 ^ 1) with 2.
  rewrite (Z.mul_comm 2 h), Z.div_mul by lia. lia.
Qed.

Theorem block3_api_float lm ord ub r1 r2 r3 bs indep precision capacity mean plan pad (data : list binary32) junk buf size :
  Z.even capacity = true -> 2 <= capacity <= 2 ^ 25 ->
  bs < 2 ^ 31 -> length pad = 3%nat -> Z.of_nat (length junk) < 2 ^ 64 -> is_finite 53 1024 precision = true ->
  compress_3d (FA lm) (FO lm) ord ub r1 r2 r3 bs indep precision capacity mean plan pad data junk = Some (buf, size) ->
  short_blocks ord capacity (encode_3d (FA lm) (FO lm) r1 r2 r3 bs indep precision capacity mean plan data) ->
  exists out, (forall rest, decompress_3d (FA lm) (FO lm) r1 r2 r3 (firstn size buf ++ rest) = Some out) /\
    recovered (fun _ => Some precision) data (Z.to_nat (r1 * r2 * r3)) out.
Proof.
  intros Hev Hcap H1 H2 H3 HP HC HS.
  assert (HE : exists c, encode_3d (FA lm) (FO lm) r1 r2 r3 bs indep precision capacity mean plan data = Some c).
  { unfold compress_3d in HC. destruct (_ && _) in HC; [|discriminate]. bind_as HC c E. eauto. }
  destruct HE as [c HE].
  destruct (round_trip_3d (FA lm) (FO lm) (FA_ser lm) (FO_ser lm) ord ub r1 r2 r3 bs indep precision capacity mean plan pad data junk buf size c) as (out & E & HD); auto.
  - apply FA_laws. split; cbn [cfg3 g_capacity g_radius]; [lia|]. rewrite even_half by auto. lia.
  - lia.
  - apply (HS c HE).
  - exists out. split; [exact E|]. eapply delivered_float; [|exact HD]. intros; eauto.
Qed.

(** double fields: only when no value was stored verbatim. *)
Theorem block3_api_double lm ord ub r1 r2 r3 bs indep precision capacity mean plan pad (data : list binary64) junk buf size :
  Z.even capacity = true -> 2 <= capacity <= 2 ^ 25 ->
  bs < 2 ^ 31 -> length pad = 7%nat -> Z.of_nat (length junk) < 2 ^ 64 -> is_finite 53 1024 precision = true ->
  compress_3d (DA lm) (DO lm) ord ub r1 r2 r3 bs indep precision capacity mean plan pad data junk = Some (buf, size) ->
  short_blocks ord capacity (encode_3d (DA lm) (DO lm) r1 r2 r3 bs indep precision capacity mean plan data) ->
  (forall c, encode_3d (DA lm) (DO lm) r1 r2 r3 bs indep precision capacity mean plan data = Some c -> b_unp _ _ c = []) ->
  exists out, (forall rest, decompress_3d (DA lm) (DO lm) r1 r2 r3 (firstn size buf ++ rest) = Some out) /\
    recovered (fun _ => Some precision) data (Z.to_nat (r1 * r2 * r3)) out.
Proof.
  intros Hev Hcap H1 H2 H3 HP HC HS HU.
  assert (HE : exists c, encode_3d (DA lm) (DO lm) r1 r2 r3 bs indep precision capacity mean plan data = Some c).
  { unfold compress_3d in HC. destruct (_ && _) in HC; [|discriminate]. bind_as HC c E. eauto. }
  destruct HE as [c HE].
  destruct (round_trip_3d (DA lm) (DO lm) (DA_ser lm) (DO_ser lm) ord ub r1 r2 r3 bs indep precision capacity mean plan pad data junk buf size c) as (out & E & HD); auto.
  - apply DA_laws. split; cbn [cfg3 g_capacity g_radius]; [lia|]. rewrite even_half by auto. lia.
  - lia.
  - apply (HS c HE).
  - exists out. split; [exact E|]. eapply delivered_double; [|exact HD]. intros; eauto.
Qed.
