(** The block decompressors follow the compressors, for every arithmetic: joint induction over the traversal. *)
From Coq Require Import List ZArith Lia Bool Arith.
From Coq Require Import ZifyBool ZifyNat.
From Verif Require Import Base Huffman HuffStream HuffProps BitPack Stream Arith Sync2D LinQuant Block.
Import ListNotations.
Local Open Scope Z_scope.

(** The quantiser never returns a reserved index as a prediction. *)
Definition index_law {A : Arith} {O : FOps A} {X} (Q : qops A O X) (capacity radius lo : Z) : Prop :=
  forall pred cur p q x, lin_quantize Q pred cur p capacity radius = Some (Predicted q x) -> lo < q.

Lemma lin_quantize_inv {A O X} (Q : qops A O X) pred cur p cap rad q x :
  lin_quantize Q pred cur p cap rad = Some (Predicted q x) ->
  x = dequantise Q pred p q rad /\ dle A (q_err Q x cur) p = true.
Proof.
  unfold lin_quantize. destruct dlt; [|discriminate]. intros H. bind_as H k E.
  destruct (dle A _ p) eqn:EL in H; [|discriminate].
  apply Some_inj in H. injection H as E1 E2. subst. auto.
Qed.

Section Sync.
Context (A : Arith) (O : FOps A).
Notation T := (T A).
Notation D := (D A).

(** A decompressed value is the original, or passed the error test, or is the mean and passed the mean test. *)
Definition acceptable (g : cfg A) (prec : Z -> option D) (data : list T) (i : Z) (x : T) : Prop :=
  exists cur p, aget data i = Some cur /\ prec i = Some p /\
    (x = cur \/ dle A (t2d A (tabs A (tsub A x cur))) p = true
     \/ (g_mean A g = Some x /\ dlt A (t2d A (tabs A (tsub A cur x))) p = true)).

Context (g : cfg A) (prec : Z -> option D) (data : list T) (L n : nat).

Definition site_ok (s : site) : Prop :=
  (forall buf, length buf = L -> exists l, g_lor A g buf (s_buf s) = Some l) /\
  0 <= s_buf s < Z.of_nat L /\ 0 <= s_at s < Z.of_nat n.

Definition laws : Prop :=
  index_law (qT A O) (g_capacity A g) (g_radius A g) 0 /\
  index_law (qT A O) (capacity_lorenzo A g) (g_radius A g) (match g_mean A g with Some _ => 1 | None => 0 end) /\
  index_law (qF A O) 65536 32768 0.

Definition out_ok (out : list (option T)) : Prop :=
  length out = n /\ forall i x, aget out i = Some (Some x) -> acceptable g prec data i x.
Definition filled (out : list (option T)) (i : Z) : Prop := exists x, aget out i = Some (Some x).

Lemma aset_in {X} (l : list X) i x : 0 <= i < Z.of_nat (length l) -> exists l', aset l i x = Some l'.
Proof. intros H. unfold aset. replace (i <? 0) with false by lia. rewrite upd_setn by lia. eauto. Qed.

Lemma aset_len {X} (l l' : list X) i x : aset l i x = Some l' -> length l' = length l.
Proof. intros H. destruct (aset_Some _ _ _ _ H) as (_ & E & _). exact E. Qed.

Lemma aset_get {X} (l l' : list X) i x j : aset l i x = Some l' ->
  aget l' j = if j =? i then Some x else aget l j.
Proof.
  unfold aset, aget. destruct (i <? 0) eqn:E; [discriminate|]. intros H. apply upd_Some in H. destruct H as [H ->].
  destruct (j <? 0) eqn:E1; [replace (j =? i) with false by lia; reflexivity|].
  destruct (j =? i) eqn:E2.
  - replace j with i by lia. apply nth_error_setn_eq. exact H.
  - apply nth_error_setn_ne. lia.
Qed.

Lemma out_ok_set out out' i x : out_ok out -> aset out i (Some x) = Some out' -> acceptable g prec data i x ->
  out_ok out' /\ filled out' i /\ (forall j, filled out j -> filled out' j).
Proof.
  intros [HL HO] HS HA. split; [|split].
  - split; [rewrite (aset_len _ _ _ _ HS); exact HL|]. intros j y. rewrite (aset_get _ _ _ _ _ HS).
    destruct (j =? i) eqn:E; [|apply HO]. intros H. assert (x = y) by congruence. subst. replace j with i by lia. exact HA.
  - exists x. rewrite (aset_get _ _ _ _ _ HS), Z.eqb_refl. reflexivity.
  - intros j [y Hy]. destruct (j =? i) eqn:E; [exists x|exists y]; rewrite (aset_get _ _ _ _ _ HS), E; auto.
Qed.

Lemma recover_unp mean pred p q rad (x : T) us : q = 0 -> recover (qT A O) mean pred p q rad (x :: us) = Some (x, us).
Proof. intros ->. reflexivity. Qed.

Lemma site_sync rg buf buf' s q u : laws -> site_ok s -> length buf = L ->
  (rg <> None -> g_zero A g = false) ->
  enc_site A O g prec data rg buf s = Some (buf', q, u) ->
  length buf' = L /\ (length u <= 1)%nat /\
  exists x, acceptable g prec data (s_at s) x /\
    forall out ts us, length out = n ->
      exists out', aset out (s_at s) (Some x) = Some out' /\
        dec_site A O g prec rg s buf out (q :: ts) (u ++ us) = Some (buf', out', ts, us).
Proof.
  intros (L1 & L2 & _) (SL & SB & SA) HL HZ HE. unfold enc_site in HE.
  bind_as HE cur EC. bind_as HE p EP.
  assert (OUT : forall x (out : list (option T)), length out = n -> exists out', aset out (s_at s) (Some x) = Some out')
    by (intros; apply aset_in; lia).
  destruct (g_zero A g && deq A p (dofZ A 0)) eqn:EZ.
  - bind_as HE b EB. apply Some_inj in HE. inversion HE; subst buf' q u; clear HE.
    split; [rewrite (aset_len _ _ _ _ EB); auto|]. split; [simpl; lia|]. exists cur. split; [exists cur, p; auto|].
    intros out ts us HO. destruct (OUT cur out HO) as [out' EO]. exists out'. split; [auto|].
    unfold dec_site. rewrite EP. cbn [bind app].
    destruct rg as [co|]; [rewrite HZ in EZ by discriminate; discriminate|].
    destruct (SL buf HL) as [l El]. rewrite El. cbn [bind]. rewrite recover_unp by reflexivity. cbn [bind].
    rewrite EO. cbn [bind]. rewrite EB. reflexivity.
  - destruct rg as [co|].
    + bind_as HE l EL. bind_as HE r EQ.
      assert (HX : exists x, quant_out cur r = (q, x, u) /\
                   (if g_wide A g then aset buf (s_buf s) x = Some buf' else buf' = buf)).
      { destruct r as [|q0 x0]; cbn [quant_out] in HE |- *; destruct (g_wide A g).
        - bind_as HE b EB. apply Some_inj in HE. inversion HE; subst buf' q u. eauto.
        - apply Some_inj in HE. inversion HE; subst buf' q u. eauto.
        - bind_as HE b EB. apply Some_inj in HE. inversion HE; subst buf' q u. eauto.
        - apply Some_inj in HE. inversion HE; subst buf' q u. eauto. }
      clear HE. destruct HX as (x & HQ & HB).
      split; [destruct (g_wide A g); [rewrite (aset_len _ _ _ _ HB); auto|subst buf'; auto]|].
      assert (HU : (length u <= 1)%nat /\ acceptable g prec data (s_at s) x /\
                   forall us, recover (qT A O) None (t2f O l) p q (g_radius A g) (u ++ us) = Some (x, us)).
      { destruct r as [|q0 x0]; cbn [quant_out] in HQ; injection HQ as Q1 Q2 Q3.
        - subst q x u. split; [simpl; lia|]. split; [exists cur, p; auto|]. intros us. apply recover_unp. reflexivity.
        - subst q0 x0 u. pose proof (L1 _ _ _ _ _ EQ) as HI. destruct (lin_quantize_inv _ _ _ _ _ _ _ _ EQ) as [EX ED].
          split; [simpl; lia|]. split; [exists cur, p; auto|]. intros us. unfold recover.
          replace (q =? 0) with false by lia. cbn [app]. rewrite <- EX. reflexivity. }
      destruct HU as (HU & HA & HR). split; [auto|]. exists x. split; [auto|].
      intros out ts us HO. destruct (OUT x out HO) as [out' EO]. exists out'. split; [auto|].
      unfold dec_site. rewrite EP. cbn [bind]. rewrite EL. cbn [bind]. rewrite HR. cbn [bind]. rewrite EO. cbn [bind].
      destruct (g_wide A g); [rewrite HB|subst buf']; reflexivity.
    + destruct (SL buf HL) as [l El].
      destruct (near_mean A g cur p) as [m|] eqn:EM.
      * bind_as HE b EB. apply Some_inj in HE. inversion HE; subst buf' q u; clear HE.
        split; [rewrite (aset_len _ _ _ _ EB); auto|]. split; [simpl; lia|].
        unfold near_mean in EM. destruct (g_mean A g) as [m0|] eqn:EG; [|discriminate].
        destruct (dlt A _ p) eqn:ED in EM; [|discriminate]. apply Some_inj in EM. subst m0.
        exists m. split; [exists cur, p; split; [assumption|]; split; [assumption|]; right; right; split; assumption|].
        intros out ts us HO. destruct (OUT m out HO) as [out' EO]. exists out'. split; [auto|].
        unfold dec_site. rewrite EP. cbn [bind]. rewrite El. cbn [bind]. rewrite EG. cbn. rewrite EO. cbn. rewrite EB. reflexivity.
      * rewrite El in HE. cbn [bind] in HE. bind_as HE r EQ.
        assert (HX : exists x, quant_out cur r = (q, x, u) /\ aset buf (s_buf s) x = Some buf').
        { destruct r as [|q0 x0]; cbn [quant_out] in HE |- *; bind_as HE b EB; apply Some_inj in HE; inversion HE; subst buf' q u; eauto. }
        clear HE. destruct HX as (x & HQ & HB). split; [rewrite (aset_len _ _ _ _ HB); auto|].
        assert (HU : (length u <= 1)%nat /\ acceptable g prec data (s_at s) x /\
                     forall us, recover (qT A O) (g_mean A g) (t2f O l) p q (g_radius A g) (u ++ us) = Some (x, us)).
        { destruct r as [|q0 x0]; cbn [quant_out] in HQ; injection HQ as Q1 Q2 Q3.
          - subst q x u. split; [simpl; lia|]. split; [exists cur, p; auto|]. intros us. apply recover_unp. reflexivity.
          - subst q0 x0 u. pose proof (L2 _ _ _ _ _ EQ) as HI. destruct (lin_quantize_inv _ _ _ _ _ _ _ _ EQ) as [EX ED].
            split; [simpl; lia|]. split; [exists cur, p; auto|]. intros us. unfold recover. cbn [app]. rewrite <- EX.
            destruct (g_mean A g); [replace (q =? 1) with false by lia|]; replace (q =? 0) with false by lia; reflexivity. }
        destruct HU as (HU & HA & HR). split; [auto|]. exists x. split; [auto|].
        intros out ts us HO. destruct (OUT x out HO) as [out' EO]. exists out'. split; [auto|].
        unfold dec_site. rewrite EP. cbn [bind]. rewrite El. cbn [bind]. rewrite HR. cbn [bind]. rewrite EO. cbn [bind].
        rewrite HB. reflexivity.
Qed.

Lemma sites_sync rg : laws -> (rg <> None -> g_zero A g = false) -> forall ss buf buf' qs u,
  Forall site_ok ss -> length buf = L ->
  enc_sites A O g prec data rg ss buf = Some (buf', qs, u) ->
  length buf' = L /\ length qs = length ss /\ (length u <= length ss)%nat /\
  forall out ts us, out_ok out ->
    exists out', out_ok out' /\ (forall s, In s ss -> filled out' (s_at s)) /\ (forall j, filled out j -> filled out' j) /\
      dec_sites A O g prec rg ss buf out (qs ++ ts) (u ++ us) = Some (buf', out', ts, us).
Proof.
  intros HLaw HZ. induction ss as [|s ss IH]; intros buf buf' qs u HF HL HE; cbn [enc_sites] in HE.
  - apply Some_inj in HE. inversion HE; subst buf' qs u. repeat (split; [auto|]). intros out ts us HO. exists out.
    split; [auto|]. split; [intros s []|]. split; auto.
  - apply Forall_cons_iff in HF. destruct HF as [HS HF']. bind_as HE [[b1 q] u1] E1. bind_as HE [[b2 qs'] u2] E2.
    apply Some_inj in HE. inversion HE; subst b2 qs u; clear HE.
    destruct (site_sync _ _ _ _ _ _ HLaw HS HL HZ E1) as (HL1 & HU1 & x & HA & HD).
    destruct (IH _ _ _ _ HF' HL1 E2) as (HL2 & HQ & HU2 & HD2).
    split; [auto|]. split; [simpl; auto|]. split; [rewrite app_length; simpl; lia|].
    intros out ts us HO. destruct (HD out (qs' ++ ts) (u2 ++ us) (proj1 HO)) as (o1 & EO & ED).
    destruct (out_ok_set _ _ _ _ HO EO HA) as (HO1 & HF1 & HK1).
    destruct (HD2 o1 ts us HO1) as (o2 & HO2 & HF2 & HK2 & ED2). exists o2.
    split; [auto|]. split; [|split; [auto|]].
    + intros s0 [<-|Hs0]; auto.
    + cbn [dec_sites app]. rewrite <- app_assoc. rewrite ED. cbn [bind]. exact ED2.
Qed.

Lemma coefs_sync (H : index_law (qF A O) 65536 32768 0) : forall precs prev raw xs qs u,
  enc_coefs A O precs prev raw = Some (xs, qs, u) ->
  length xs = length precs /\ length qs = length precs /\
  forall ts us, dec_coefs A O precs prev (qs ++ ts) (u ++ us) = Some (xs, ts, us).
Proof.
  induction precs as [|p precs IH]; intros prev raw xs qs u HE; cbn [enc_coefs] in HE.
  - destruct prev, raw; try discriminate. apply Some_inj in HE. inversion HE; subst. auto.
  - destruct prev as [|a prev]; [discriminate|]. destruct raw as [|c raw]; [discriminate|].
    bind_as HE r EQ. destruct (quant_out c r) as [[q x] u1] eqn:EO. bind_as HE [[xs' qs'] u2] E2.
    apply Some_inj in HE. inversion HE; subst; clear HE. destruct (IH _ _ _ _ _ E2) as (H1 & H2 & H3).
    split; [simpl; auto|]. split; [simpl; auto|]. intros ts us. cbn [dec_coefs app].
    assert (HR : recover (qF A O) None a p q 32768 ((u1 ++ u2) ++ us) = Some (x, u2 ++ us)).
    { rewrite <- app_assoc. destruct r as [|q0 x0]; cbn [quant_out] in EO; injection EO as Q1 Q2 Q3; subst.
      - reflexivity.
      - pose proof (H _ _ _ _ _ EQ) as HI. destruct (lin_quantize_inv _ _ _ _ _ _ _ _ EQ) as [EX _].
        unfold recover. replace (q =? 0) with false by lia. rewrite <- EX. reflexivity. }
    rewrite HR. cbn [bind]. rewrite H3. reflexivity.
Qed.

Definition act_ok (a : act) : Prop := match a with Block ss => Forall site_ok ss | Shift _ _ => True end.
Definition act_sites (a : act) : list site := match a with Block ss => ss | Shift _ _ => [] end.
Definition act_block (a : act) : bool := match a with Block _ => true | Shift _ _ => false end.

Lemma shift_len src len buf buf' : shift_buf A src len buf = Some buf' -> length buf' = length buf.
Proof.
  unfold shift_buf. destruct (_ && _) eqn:E; [|discriminate]. intros H. apply Some_inj in H. subst.
  rewrite app_length, firstn_length, !skipn_length. lia.
Qed.

Lemma acts_sync precs (HLaw : laws) : forall acts plan buf prev c,
  Forall act_ok acts -> length buf = L -> (g_zero A g = true -> Forall (eq None) plan) ->
  enc_acts A O g prec precs data acts plan buf prev = Some c ->
  Forall is_flag (b_ind _ _ c) /\ length (b_ind _ _ c) = length (filter act_block acts) /\
  length (b_type _ _ c) = length (flat_map act_sites acts) /\
  (length (b_unp _ _ c) <= length (flat_map act_sites acts))%nat /\
  length (b_rtype _ _ c) = (length precs * reg_count _ _ c)%nat /\
  exists coefs,
    (forall ts us, dec_coef_array A O precs (reg_count _ _ c) prev (b_rtype _ _ c ++ ts) (b_runp _ _ c ++ us) = Some coefs) /\
    forall out ts us ind cf, out_ok out ->
      exists out', out_ok out' /\ (forall s, In s (flat_map act_sites acts) -> filled out' (s_at s)) /\
        (forall j, filled out j -> filled out' j) /\
        dec_acts A O g prec acts (b_ind _ _ c ++ ind) (coefs ++ cf) buf out (b_type _ _ c ++ ts) (b_unp _ _ c ++ us) = Some out'.
Proof.
  induction acts as [|a acts IH]; intros plan buf prev c HF HL HZ HE; cbn [enc_acts] in HE.
  - apply Some_inj in HE. subst c. cbn. split; [constructor|]. repeat (split; [lia|]). exists [].
    split; [reflexivity|]. intros out ts us ind cf HO. exists out. split; [auto|]. split; [intros s []|]. split; auto.
  - apply Forall_cons_iff in HF. destruct HF as [HA HF']. destruct a as [ss|src len].
    + cbn [act_ok] in HA. destruct plan as [|[raw|] plan]; [discriminate| |].
      * bind_as HE [[coef rq] ru] EC. bind_as HE [[b1 qs] u1] E1. bind_as HE c' E2. apply Some_inj in HE. subst c.
        destruct (coefs_sync (proj2 (proj2 HLaw)) _ _ _ _ _ _ EC) as (C1 & C2 & C3).
        assert (HZ0 : g_zero A g = false).
        { destruct (g_zero A g); [|reflexivity]. specialize (HZ eq_refl). inversion HZ; discriminate. }
        destruct (sites_sync _ HLaw (fun _ => HZ0) _ _ _ _ _ HA HL E1) as (S1 & S2 & S3 & S4).
        destruct (IH plan b1 coef c' HF' S1) as (I1 & I2 & I3 & I4 & I5 & coefs & I6 & I7);
          [intros; congruence|exact E2|].
        cbn [bcode_app b_ind b_type b_unp b_rtype b_runp filter act_block flat_map act_sites length app].
        split; [constructor; [right; reflexivity|auto]|]. split; [lia|].
        split; [rewrite !app_length; lia|]. split; [rewrite !app_length; lia|].
        assert (RC : reg_count A O (bcode_app A O {| b_ind := [1]; b_type := qs; b_unp := u1; b_rtype := rq; b_runp := ru |} c') = S (reg_count _ _ c')).
        { unfold reg_count, bcode_app; cbn. reflexivity. }
        rewrite RC. split; [rewrite app_length; lia|]. exists (coef :: coefs). split.
        -- intros ts us. cbn [dec_coef_array]. rewrite <- !app_assoc. rewrite C3. cbn [bind]. rewrite I6. reflexivity.
        -- intros out ts us ind cf HO.
           destruct (S4 out (b_type _ _ c' ++ ts) (b_unp _ _ c' ++ us) HO) as (o1 & O1 & F1 & K1 & D1).
           destruct (I7 o1 ts us ind cf O1) as (o2 & O2 & F2 & K2 & D2). exists o2.
           split; [auto|]. split; [|split; [auto|]].
           ++ intros s Hs. apply in_app_or in Hs. destruct Hs; auto.
           ++ cbn [dec_acts app]. change (1 =? 0) with false. cbn iota. rewrite <- !app_assoc. rewrite D1. cbn [bind]. exact D2.
      * bind_as HE [[b1 qs] u1] E1. bind_as HE c' E2. apply Some_inj in HE. subst c.
        destruct (sites_sync None HLaw ltac:(congruence) _ _ _ _ _ HA HL E1) as (S1 & S2 & S3 & S4).
        destruct (IH plan b1 prev c' HF' S1) as (I1 & I2 & I3 & I4 & I5 & coefs & I6 & I7);
          [intros Hz; specialize (HZ Hz); inversion HZ; auto|exact E2|].
        cbn [bcode_app b_ind b_type b_unp b_rtype b_runp filter act_block flat_map act_sites length app].
        split; [constructor; [left; reflexivity|auto]|]. split; [lia|].
        split; [rewrite !app_length; lia|]. split; [rewrite !app_length; lia|].
        assert (RC : reg_count A O (bcode_app A O {| b_ind := [0]; b_type := qs; b_unp := u1; b_rtype := []; b_runp := [] |} c') = reg_count _ _ c')
          by reflexivity.
        rewrite RC. split; [lia|]. exists coefs. split; [exact I6|].
        intros out ts us ind cf HO.
        destruct (S4 out (b_type _ _ c' ++ ts) (b_unp _ _ c' ++ us) HO) as (o1 & O1 & F1 & K1 & D1).
        destruct (I7 o1 ts us ind cf O1) as (o2 & O2 & F2 & K2 & D2). exists o2.
        split; [auto|]. split; [|split; [auto|]].
        -- intros s Hs. apply in_app_or in Hs. destruct Hs; auto.
        -- cbn [dec_acts app]. change (0 =? 0) with true. cbn iota. rewrite <- !app_assoc. rewrite D1. cbn [bind]. exact D2.
    + bind_as HE b ES. pose proof (shift_len _ _ _ _ ES) as HB.
      destruct (IH plan b prev c HF' ltac:(congruence) HZ HE) as (I1 & I2 & I3 & I4 & I5 & coefs & I6 & I7).
      cbn [filter act_block flat_map act_sites app]. repeat (split; [auto|]). exists coefs. split; [auto|].
      intros out ts us ind cf HO. destruct (I7 out ts us ind cf HO) as (o2 & O2 & F2 & K2 & D2). exists o2.
      repeat (split; [auto|]). cbn [dec_acts]. rewrite ES. cbn [bind]. exact D2.
Qed.
End Sync.
