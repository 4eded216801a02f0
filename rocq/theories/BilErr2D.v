(** Error bound of the bilinear codec in IEEE arithmetic, and that its encoder does not fail on the machine.
    Nothing of /repo is modelled here. *)
From Coq Require Import Reals Lra Lia ZArith List Bool.
From Coq Require Import ZifyBool ZifyNat.
From Flocq Require Import Core.Core IEEE754.BinarySingleNaN IEEE754.Binary IEEE754.Bits.
From Verif Require Import Base Huffman HuffStream HuffProps Stream Arith Mesh2D Derive2D Codec2D Sync2D Trace2D Scan Stream2D Exact IEEE IEEELaws IEEEQuant
  IEEE2D IEEEAbs2D IEEERel2D TotalAny Api2D RelaxApi2D Log2D LogSync2D LogCells2D LogTotal2D LogErr2D LogApi2D Bil2D BilSync2D.
Import ListNotations.
Local Open Scope R_scope.

Section B.
Context (A : Arith) (I : ieee A).
Local Notation vD := (vD A I).
Local Notation bndD := (bndD A I).

(** ** No NaN in the derived bound *)
Lemma minf_notnan_r x y : vD y <> NaN -> vD (minf A x y) <> NaN.
Proof.
  intros Hy. unfold minf. destruct (dlt A x y) eqn:E; auto. rewrite (v_dlt A I) in E. intros X. rewrite X in E. discriminate.
Qed.
Lemma dmax_notnan_r x y : vD y <> NaN -> vD (dmax A x y) <> NaN.
Proof.
  intros Hy. unfold dmax. destruct (dlt A y x) eqn:E; auto. rewrite (v_dlt A I) in E. intros X. rewrite X in E. destruct (vD y); discriminate.
Qed.
Lemma const_notnan z : (Z.abs z <= 2 ^ 53)%Z -> vD (dofZ A z) <> NaN.
Proof. intros H. rewrite (vD_const A I z H). discriminate. Qed.

Lemma root_min_notnan x eb : vD eb <> NaN -> vD (root_min A x eb) <> NaN.
Proof.
  intros H. unfold root_min. destruct (dlt A (dofZ A 0) x) eqn:E; auto. apply minf_notnan_r.
  rewrite (v_dlt A I), vD_0 in E. intros X. rewrite X in E. discriminate.
Qed.
Lemma quadratic_notnan a b c : vD (keep_sign_quadratic A a b c) <> NaN.
Proof. unfold keep_sign_quadratic. destruct (dlt A _ _); apply root_min_notnan, const_notnan; lia. Qed.
Lemma eb2_notnan ok e a b c : vD e <> NaN -> vD (edge_eb2 A ok e a b c) <> NaN.
Proof. intros H. unfold edge_eb2. destruct ok; auto. apply quadratic_notnan. Qed.

(** A bounded value. *)
Definition fin (x : D A) : Prop := exists r, vD x = Fin r.
Lemma bndD_fin k x : bndD k x -> fin x. Proof. intros (r & E & _). exists r. auto. Qed.

Lemma keep_notnan k a b c : (0 <= k)%Z -> (k + 2 < 1024)%Z -> bndD k a -> bndD k b -> bndD k c -> vD (keep_sign A a b c) <> NaN.
Proof.
  intros H0 H Ba Bb Bc. unfold keep_sign.
  destruct (bndD_add A I k (dabs A a) (dabs A b)) as (s & Es & _); auto using bndD_abs; try lia.
  destruct (bndD_add A I (k + 1) (dadd A a b) c) as (n & En & _); try lia; auto.
  { apply bndD_add; auto. lia. }
  { eapply bndD_mono; [|exact Bc]. lia. }
  destruct (deq A _ _) eqn:E; [rewrite vD_0; discriminate|].
  rewrite (v_deq A I), Es, vD_0 in E. apply xeq_fin_false in E.
  rewrite v_ddiv by (rewrite Es; congruence). rewrite v_dabs, En, Es. cbn [xabs].
  rewrite xdiv_fin by auto. apply rndx_notnan. discriminate.
Qed.
Lemma cylinder_notnan k a b c d e f : (0 <= k)%Z -> (k + 1 < 1024)%Z -> bndD k d -> bndD k e -> bndD k f -> vD (cylinder A a b c d e f) <> NaN.
Proof.
  intros H0 H Bd Be Bf. unfold cylinder. destruct (dlt A (dofZ A 0) f) eqn:E.
  - apply minf_notnan_r.
    destruct (bndD_add A I k (dabs A d) (dabs A e)) as (s & Es & _); auto using bndD_abs.
    destruct Bf as (r & Er & _). rewrite (v_dlt A I), vD_0, Er in E. apply xlt_fin in E.
    destruct (Req_dec s 0) as [->|N].
    + destruct (v_ddiv0 A I f _ Es) as [[_ [X|X]]|[[X|X] _]]; rewrite X in *; try discriminate. injection Er as Er. lra.
    + rewrite v_ddiv by (rewrite Es; congruence). rewrite Er, Es, xdiv_fin by auto. apply rndx_notnan. discriminate.
  - apply minf_notnan_r. unfold corners_lt0. do 4 apply root_min_notnan. apply const_notnan; lia.
Qed.
Lemma general_notnan k a b c d e f : (0 <= k)%Z -> (k + 1 < 1024)%Z -> bndD k d -> bndD k e -> bndD k f -> vD (general A a b c d e f) <> NaN.
Proof.
  intros H0 H Bd Be Bf. pose proof (cylinder_notnan k a b c d e f H0 H Bd Be Bf) as HC.
  assert (Z0 : vD (dofZ A 0) <> NaN) by (apply const_notnan; lia).
  unfold general. destruct (dle A _ _); auto.
  destruct (dlt A (dofZ A 0) f); repeat match goal with |- vD (if ?b then _ else _) <> NaN => destruct b end;
    auto; apply minf_notnan_r, dmax_notnan_r; repeat apply eb2_notnan; auto.
Qed.

(** ** Magnitudes of the coefficients *)
Definition small (k l : Z) : bool := ((0 <=? k) && (0 <=? l) && (k + l <? 1000))%Z.
Lemma addD k l x y : bndD k x -> bndD l y -> small k l = true -> bndD (Z.max k l + 1) (dadd A x y).
Proof.
  unfold small. intros Bx By H. apply bndD_add; try lia; eapply bndD_mono; try eassumption; lia.
Qed.
Lemma subD k l x y : bndD k x -> bndD l y -> small k l = true -> bndD (Z.max k l + 1) (dsub A x y).
Proof.
  unfold small. intros Bx By H. apply bndD_sub; try lia; eapply bndD_mono; try eassumption; lia.
Qed.
Lemma mulD k l x y : bndD k x -> bndD l y -> small k l = true -> bndD (k + l) (dmul A x y).
Proof. unfold small. intros Bx By H. apply bndD_mul; auto; lia. Qed.
Lemma negD k x : bndD k x -> bndD k (dneg A x).
Proof. intros (r & E & B). exists (- r). rewrite v_dneg, E. split; auto. rewrite Rabs_Ropp. auto. Qed.
Lemma constD z : (Z.abs z <=? 4)%Z = true -> bndD 2 (dofZ A z).
Proof. intros H. apply bndD_const; lia. Qed.
End B.

Ltac bd := lazymatch goal with
  | |- IEEE2D.bndD _ _ _ (dadd _ _ _) => eapply addD; [bd|bd|reflexivity]
  | |- IEEE2D.bndD _ _ _ (dsub _ _ _) => eapply subD; [bd|bd|reflexivity]
  | |- IEEE2D.bndD _ _ _ (dmul _ _ _) => eapply mulD; [bd|bd|reflexivity]
  | |- IEEE2D.bndD _ _ _ (dneg _ _) => eapply negD; bd
  | |- IEEE2D.bndD _ _ _ (dofZ _ _) => apply constD; reflexivity
  | |- _ => eassumption
  end.
Ltac bds := eapply bndD_mono; [|bd]; cbn; lia.

Section C.
Context (A : Arith) (I : ieee A).
Local Notation vD := (vD A I).
Local Notation bndD := (bndD A I 102).

(** The derived bound is a number on values up to 2^102. *)
Lemma derive_bil_notnan u0 u1 u2 u3 v0 v1 v2 v3 :
  bndD u0 -> bndD u1 -> bndD u2 -> bndD u3 -> bndD v0 -> bndD v1 -> bndD v2 -> bndD v3 -> vD (derive_bil A u0 u1 u2 u3 v0 v1 v2 v3) <> NaN.
Proof.
  intros.
  assert (Z0 : vD (dofZ A 0) <> NaN) by (apply const_notnan; lia).
  assert (K1 : vD (eb_delta A u0 u1 u2 u3 v0 v1 v2 v3) <> NaN) by (apply (cylinder_notnan A I 900); [lia|lia|bds..]).
  assert (K2 : vD (eb_det A u0 u1 u2 u3 v0 v1 v2 v3) <> NaN) by (apply (keep_notnan A I 900); [lia|lia|bds..]).
  assert (K3 : vD (eb_f0 A u0 u1 u2 u3 v0 v1 v2 v3) <> NaN) by (apply (keep_notnan A I 900); [lia|lia|bds..]).
  assert (K4 : vD (eb_f1 A u0 u1 u2 u3 v0 v1 v2 v3) <> NaN) by (apply (general_notnan A I 900); [lia|lia|bds..]).
  assert (K5 : vD (eb_tr2 A u0 u1 u2 u3 v0 v1 v2 v3) <> NaN) by (apply (keep_notnan A I 900); [lia|lia|unfold tr_a, tr_b, tr_c; bds..]).
  unfold derive_bil. repeat match goal with |- vD (if ?b then _ else _) <> NaN => destruct b end; auto;
    repeat (apply minf_notnan_r || apply dmax_notnan_r || assumption).
Qed.
End C.

(** ** The bound of a point *)
Section Req.
Context (A : Arith) (I : ieee A).
Local Notation vD := (vD A I).
Local Open Scope Z_scope.

Lemma bil_loop_atmost U V r1 r2 i j m : all_bnd A I 102 U -> all_bnd A I 102 V -> forall ks eb r,
  atmost m (vD eb) -> bil_loop A U V r1 r2 i j ks eb = Some r -> atmost m (vD r).
Proof.
  intros BU BV. assert (G : forall W n x, all_bnd A I 102 W -> option_map (t2d A) (aget W n) = Some x -> bndD A I 102 x).
  { intros W n x BW E. destruct (aget W n) as [y|] eqn:Ey; [|discriminate]. cbn [option_map] in E. apply Some_inj in E. subst x.
    apply bnd_t2d. eauto. }
  induction ks as [|k ks IH]; intros eb r Hb H; cbn [bil_loop] in H; [apply Some_inj in H; subst; auto|].
  destruct (sq_in_mesh r1 r2 i j k); [|eauto].
  bind_as H u0 E0. bind_as H u1 E1. bind_as H u2 E2. bind_as H u3 E3. bind_as H v0 E4. bind_as H v1 E5. bind_as H v2 E6. bind_as H v3 E7.
  refine (IH _ _ _ H). apply minf_atmost; auto. apply derive_bil_notnan; eauto.
Qed.

Lemma bil_required max_eb m U V r1 r2 i j eb : all_bnd A I 102 U -> all_bnd A I 102 V -> vD max_eb = Fin m ->
  required_eb_bil A max_eb U V r1 r2 i j = Some eb -> dlt A (dofZ A 0) eb = true -> exists e, vD eb = Fin e /\ (0 < e <= m)%R.
Proof.
  intros BU BV Em Er Hp. rewrite (v_dlt A I), vD_0 in Hp.
  assert (Hat : atmost m (vD eb)); [|exact (atmost_pos _ _ Hat Hp)].
  unfold required_eb_bil in Er. eapply bil_loop_atmost in Er; eauto. right. exists m. split; auto. lra.
Qed.

Theorem bil_bound (L : libm_ok A I) (LL : log_libm_ok A I) (Hp24 : 24 <= pT A I) cs max_eb m r1 r2 U V U' V' LU LV c :
  vD max_eb = Fin m -> (0 <= m <= 1)%R ->
  0 <= r1 -> 0 < r2 -> Z.of_nat (length U) = r1 * r2 -> Z.of_nat (length V) = r1 * r2 ->
  (forall n x, aget U n = Some x -> usual A I 100 x) -> (forall n x, aget V n = Some x -> usual A I 100 x) ->
  enc_bil A cs max_eb r1 r2 U V = Some (U', V', LU, LV, c) ->
  log_finals A (c_eb c) U LU = U' /\ log_finals A (c_eb c) V LV = V' /\
  forall n u v u' v', aget U n = Some u -> aget V n = Some v -> aget U' n = Some u' -> aget V' n = Some v' ->
     (u' = u /\ v' = v) \/ (rel_close A I m u u' /\ rel_close A I m v v').
Proof.
  intros Em Hm. apply (gen_bound A I L LL Hp24 100 ltac:(lia) max_eb m Hm (fun U V i j => required_eb_bil A max_eb U V r1 r2 i j) r2
    (bil_point A cs max_eb r1 r2) (bil_step A cs max_eb r1 r2)).
  intros U0 V0 i j u v eb BU BV _ _ _ _ _ _ Er Hp. exact (bil_required max_eb m U0 V0 r1 r2 i j eb BU BV Em Er Hp).
Qed.
End Req.

(** ** Totality *)
Local Open Scope Z_scope.
Section Any.
Context (A : Arith) (cs : D A -> D A).

Lemma mesh_bounds r1 r2 i j k : In k four -> 0 <= i < r1 -> 0 <= j < r2 -> sq_in_mesh r1 r2 i j k = true ->
  0 <= cell_i i k < r1 - 1 /\ 0 <= cell_j j k < r2 - 1.
Proof.
  intros Hk Hi Hj H. cbn [four In] in Hk. destruct Hk as [<-|[<-|[<-|[<-|[]]]]];
    unfold sq_in_mesh, in_range, sq_off_y, sq_off_x, tab in H; cbn in H; cbn; lia.
Qed.

Lemma bil_loop_any U V r1 r2 i j : 0 <= i < r1 -> 0 <= j < r2 -> Z.of_nat (length U) = r1 * r2 -> Z.of_nat (length V) = r1 * r2 ->
  forall ks eb, incl ks four -> exists r, bil_loop A U V r1 r2 i j ks eb = Some r.
Proof.
  intros Hi Hj LU LV. induction ks as [|k ks IH]; intros eb HI; cbn [bil_loop]; [eauto|].
  assert (Hk : In k four) by (apply HI; left; auto). assert (HI' : incl ks four) by (intros x Hx; apply HI; right; auto).
  destruct (sq_in_mesh r1 r2 i j k) eqn:EM; [|auto].
  destruct (mesh_bounds r1 r2 i j k Hk Hi Hj EM) as [H1 H2].
  assert (G : forall W : list (T A), Z.of_nat (length W) = r1 * r2 -> forall n, In n [2 * k; 2 * k + 1; 2 * k + 2]%nat ->
     exists x, option_map (t2d A) (aget W (i * r2 + j + sq_offset r2 n)) = Some x).
  { intros W LW n Hn. destruct (aget_ok W (i * r2 + j + sq_offset r2 n)) as [x ->]; [|eexists; reflexivity]. rewrite LW.
    cbn [four In] in Hk. destruct Hk as [<-|[<-|[<-|[<-|[]]]]]; cbn [cell_i cell_j nth Nat.mul Nat.add In] in *;
      destruct Hn as [<-|[<-|[<-|[]]]]; cbn [sq_offset nth]; nia. }
  assert (G0 : forall W : list (T A), Z.of_nat (length W) = r1 * r2 -> exists x, option_map (t2d A) (aget W (i * r2 + j)) = Some x).
  { intros W LW. destruct (aget_ok W (i * r2 + j)) as [x ->]; [rewrite LW; nia|eexists; reflexivity]. }
  destruct (G U LU (2 * k)%nat) as [a0 ->]; [cbn; auto|]. destruct (G U LU (2 * k + 1)%nat) as [a1 ->]; [cbn; auto|].
  destruct (G U LU (2 * k + 2)%nat) as [a2 ->]; [cbn; auto|]. destruct (G0 U LU) as [a3 ->].
  destruct (G V LV (2 * k)%nat) as [b0 ->]; [cbn; auto|]. destruct (G V LV (2 * k + 1)%nat) as [b1 ->]; [cbn; auto|].
  destruct (G V LV (2 * k + 2)%nat) as [b2 ->]; [cbn; auto|]. destruct (G0 V LV) as [b3 ->].
  cbn [bind]. apply IH. auto.
Qed.

Lemma corner_any U V u v r1 r2 i j k : 0 <= i < r1 -> 0 <= j < r2 -> Z.of_nat (length U) = r1 * r2 -> Z.of_nat (length V) = r1 * r2 ->
  In k four -> sq_in_mesh r1 r2 i j k = true -> exists l, corner_roots A cs U V u v r2 (i * r2 + j) k = Some l.
Proof.
  intros Hi Hj LU LV Hk EM. destruct (mesh_bounds r1 r2 i j k Hk Hi Hj EM) as [H1 H2].
  assert (G : forall (W : list (T A)) x, Z.of_nat (length W) = r1 * r2 -> forall c, (c < 4)%nat ->
     exists y, corner_value A W x r2 (i * r2 + j) k c = Some y).
  { intros W x LW c Hc. unfold corner_value. destruct (Nat.eqb c (cur_corner k)) eqn:EC; [eauto|].
    destruct (aget_ok W (i * r2 + j + corner r2 k c)) as [y ->]; [|eexists; reflexivity]. rewrite LW.
    cbn [four In] in Hk. destruct Hk as [<-|[<-|[<-|[<-|[]]]]]; cbn [cell_i cell_j nth] in *;
      destruct c as [|[|[|[|c]]]]; try lia; cbn [corner nth]; nia. }
  unfold corner_roots.
  destruct (G U u LU 0%nat) as [? ->]; [lia|]. destruct (G U u LU 1%nat) as [? ->]; [lia|].
  destruct (G U u LU 2%nat) as [? ->]; [lia|]. destruct (G U u LU 3%nat) as [? ->]; [lia|].
  destruct (G V v LV 0%nat) as [? ->]; [lia|]. destruct (G V v LV 1%nat) as [? ->]; [lia|].
  destruct (G V v LV 2%nat) as [? ->]; [lia|]. destruct (G V v LV 3%nat) as [? ->]; [lia|]. cbn [bind]. eauto.
Qed.

Lemma verify_any U V u v u' v' r1 r2 i j : 0 <= i < r1 -> 0 <= j < r2 -> Z.of_nat (length U) = r1 * r2 -> Z.of_nat (length V) = r1 * r2 ->
  forall ks, incl ks four -> exists b, verify A cs U V u v u' v' r1 r2 i j ks = Some b.
Proof.
  intros Hi Hj LU LV. induction ks as [|k ks IH]; intros HI; cbn [verify]; [eauto|].
  assert (Hk : In k four) by (apply HI; left; auto). assert (HI' : incl ks four) by (intros x Hx; apply HI; right; auto).
  destruct (sq_in_mesh r1 r2 i j k) eqn:EM; [|auto].
  destruct (corner_any U V u v r1 r2 i j k Hi Hj LU LV Hk EM) as [l ->].
  destruct (corner_any U V u' v' r1 r2 i j k Hi Hj LU LV Hk EM) as [l' ->]. cbn [bind].
  destruct (list_eq_dec Z.eq_dec l l'); eauto.
Qed.

Lemma bil_point_any max_eb r1 r2 U V LU LV i j :
  0 <= i < r1 -> 0 <= j < r2 -> Z.of_nat (length U) = r1 * r2 -> Z.of_nat (length V) = r1 * r2 ->
  length LU = length U -> length LV = length V ->
  (forall u v lu lv eb, aget U (i * r2 + j) = Some u -> aget V (i * r2 + j) = Some v -> aget LU (i * r2 + j) = Some lu -> aget LV (i * r2 + j) = Some lv ->
     required_eb_bil A max_eb U V r1 r2 i j = Some eb -> dlt A (dofZ A 0) eb = true -> teq A u (t0 A) = false -> teq A v (t0 A) = false ->
     (exists t, try_component A 2 (eps_float A) LU r2 i j lu (log_eb A eb) = Some t) /\
     (exists t, try_component A 2 (eps_float A) LV r2 i j lv (log_eb A eb) = Some t)) ->
  exists s' c, bil_point A cs max_eb r1 r2 (U, V, LU, LV) (i, j) = Some (s', c).
Proof.
  intros Hi Hj H1 H2 H3 H4 HT. assert (Hp : 0 <= i * r2 + j < r1 * r2) by nia.
  destruct (aget_ok U (i * r2 + j)) as [u Eu]; [lia|]. destruct (aget_ok V (i * r2 + j)) as [v Ev]; [lia|].
  destruct (aget_ok LU (i * r2 + j)) as [lu El]; [lia|]. destruct (aget_ok LV (i * r2 + j)) as [lv Em]; [lia|].
  destruct (bil_loop_any U V r1 r2 i j Hi Hj H1 H2 four max_eb (incl_refl _)) as [eb Er]. fold (required_eb_bil A max_eb U V r1 r2 i j) in Er.
  cbn [bil_point]. rewrite Eu, Ev, Er. cbn [bind].
  destruct (dlt A (dofZ A 0) eb) eqn:D1; [|cbn [andb]; eauto]. destruct (teq A u (t0 A)) eqn:Zu; [cbn [andb negb]; eauto|].
  destruct (teq A v (t0 A)) eqn:Zv; [cbn [andb negb]; eauto|]. cbn [andb negb].
  destruct (HT u v lu lv eb Eu Ev El Em Er D1 Zu Zv) as [[w0 T0] [w1 T1]].
  unfold try_component in T0, T1. fold (log_eb A eb).
  destruct (eb_exponential_quantize A 2 (eps_float A) (log_eb A eb)) as [[id ab]|]; [|discriminate]. cbn [bind] in *.
  destruct (0 <? id); [|eauto]. rewrite El. cbn [bind].
  destruct (lorenzo A LU r2 i j) as [p0|]; [|discriminate]. cbn [bind] in *.
  destruct (quantise A p0 lu ab) as [[|q0 x0]|]; [cbn [bind]; eauto| |discriminate]. cbn [bind] in *. rewrite Em. cbn [bind] in *.
  destruct (lorenzo A LV r2 i j) as [p1|]; [|discriminate]. cbn [bind] in *.
  destruct (quantise A p1 lv ab) as [[|q1 x1]|]; [cbn [bind]; eauto| |discriminate]. cbn [bind].
  destruct (verify_any U V (t2d A u) (t2d A v) (t2d A (unlog A u x0)) (t2d A (unlog A v x1)) r1 r2 i j Hi Hj H1 H2 four (incl_refl _)) as [[|] ->];
    cbn [bind]; [|eauto].
  destruct (aset_ok LU (i * r2 + j) x0) as [a ->]; [lia|]. destruct (aset_ok LV (i * r2 + j) x1) as [b ->]; [lia|].
  destruct (aset_ok U (i * r2 + j) (unlog A u x0)) as [a' ->]; [lia|]. destruct (aset_ok V (i * r2 + j) (unlog A v x1)) as [b' ->]; [lia|].
  cbn [bind]. eauto.
Qed.

Lemma bil_lens_step max_eb r1 r2 s ij s' c n k k' : log_lens A n k s -> bil_point A cs max_eb r1 r2 s ij = Some (s', c) -> log_lens A n k' s'.
Proof.
  destruct s as [[[U V] LU] LV], s' as [[[U' V'] LU'] LV'], ij as [i j]. intros (L1 & L2 & L3 & L4) H. apply bil_step in H.
  destruct H as [|u v lu lv eb id q0 q1 x0 x1 U2 V2 LU2 LV2 ? ? ? ? ? ? ? ? ? ? X1 X2 X3 X4]; [cbn; auto|].
  apply aset_Some in X1, X2, X3, X4. cbn. repeat split; lia.
Qed.

Theorem bil_machine_total max_eb r1 r2 U V : (forall x, exists z, dtoint A x = Some z) ->
  0 <= r1 -> 0 < r2 -> Z.of_nat (length U) = r1 * r2 -> Z.of_nat (length V) = r1 * r2 ->
  exists s c, enc_bil A cs max_eb r1 r2 U V = Some (s, c).
Proof.
  intros conv H1 H2 LU LV. unfold enc_bil. eapply (scan_total _ (log_lens A (Z.to_nat (r1 * r2))) _ 0%nat).
  - intros m [i j] s Hm HL. destruct (scan2_nth _ _ _ _ H1 H2 Hm) as (Hi & Hj & Hp). cbn [fst snd] in *.
    destruct s as [[[U1 V1] LU1] LV1]. pose proof HL as (L1 & L2 & L3 & L4).
    destruct (bil_point_any max_eb r1 r2 U1 V1 LU1 LV1 i j) as (s' & c & E); try lia.
    + intros. split; apply try_any2; try lia; auto; nia.
    + exists s', c. split; auto. eapply bil_lens_step; eauto.
  - cbn [log_lens]. rewrite !map_length. lia.
Qed.
End Any.
