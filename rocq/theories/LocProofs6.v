(** C105, C106: spaces that were built. *)
From Coq Require Import Reals List Arith ZArith Bool Lia Lra.
Import ListNotations.
From Verif Require Import Base Scalars MeshModel MeshView DofModel DofSpec RefPatModel GeoModel GeoSpec FlagModel LagrModel FeModel QuadModel FeSpec QuadSpec LagrProofs LagrProofs2 PolyProofs QuadProofs
  HierProofs AssembleModel AssembleSpec ElemModel ElemSpec ElemProofs7 DpgModel DpgSpec DpgProofs3 DpgProofs4 ProdModel ProdSpec ProdProofs ProdProofs2 ProdProofs5 ProdProofs8 NormalModel NormalSpec NormalProofs5 NormalProofs7 LocModel LocSpec LocProofs LocProofs2 LocProofs3 LocProofs4 LocProofs5 GeoProofs2.
Local Open Scope R_scope.

(** *** Functions of the components *)
Definition good (t : refel) (f : srfe) : Prop :=
  fe_el f = t /\ counts f /\ gradients_ok f /\ (fe_degree f <= 3)%nat /\ contained f (exponents t (fe_degree f)).
Lemma good_polynomials : forall d t, (d <= 3)%nat -> t <> kPoint -> good t (polynomials d t) /\ uniform_counts (polynomials d t).
Proof.
  intros d t Hd Ht. destruct d as [|d].
  - destruct (constant_ok t Ht) as (E & D & C & U & _ & _ & Cn & _ & G & _). split; [|exact U]. split; [exact E|]. split; [exact C|]. split; [exact G|].
    cbn [polynomials]. cbv zeta in *. rewrite D. split; [lia|exact Cn].
  - assert (X : exists k, polynomials (S d) t = lagrange k t). { destruct d as [|[|[|?]]]; try lia; cbn [polynomials]; eauto. }
    destruct X as [k ->]. destruct (lagrange_describes k t) as (E & D & C & U). split; [|apply U, Ht]. split; [exact E|]. split; [exact C|]. split; [apply lagrange_gradients, Ht|].
    rewrite D. split; [destruct k; cbn; lia|apply lagrange_contained].
Qed.
Lemma trace_contained : forall f es, counts f -> contained f es -> contained (trace_element f) es.
Proof.
  intros f es C Cn i Hi. cbn [fe_total trace_element] in Hi. destruct (Cn i ltac:(lia)) as [c H]. exists c. intros x Lx. cbn [fe_el trace_element] in Lx.
  destruct (H x Lx) as [v [Ev Vv]]. destruct (co_eval f C x Lx) as [v' [Ev' Lv]]. rewrite Ev in Ev'. injection Ev' as <-.
  exists (firstn (fe_total f - interior_num f) v). split.
  - cbn [fe_eval trace_element]. rewrite Ev. cbn [bind]. unfold top. rewrite (proj2 (Nat.leb_le _ _)) by lia. reflexivity.
  - rewrite <- Vv. clear - Hi. revert i v Hi. generalize (fe_total f - interior_num f)%nat. induction n as [|n IH]; intros i v Hi; [lia|].
    destruct v as [|a v]; [destruct i; reflexivity|]. destruct i as [|i]; cbn; [reflexivity|apply IH; lia].
Qed.
Lemma good_functions : forall k t f, offered k -> functions k t = Some f -> t <> kPoint /\ good t f.
Proof.
  intros k t f O H. assert (Ht : t <> kPoint) by (intros ->; destruct k; discriminate H). split; [exact Ht|].
  assert (Disc : forall d, (d <= 3)%nat -> good t (discontinuous_element (polynomials d t))).
  { intros d Hd. destruct (good_polynomials d t Hd Ht) as [(E & C & G & D & Cn) _].
    destruct (discontinuous_ok (polynomials d t)) as (E1 & E2 & _ & _ & _ & _ & _ & _ & C1 & _ & _ & Cn1 & _ & G1 & _).
    split; [rewrite E1; exact E|]. split; [exact (C1 C)|]. split; [exact (G1 G)|]. rewrite E2. split; [exact D|exact (Cn1 _ Cn)]. }
  assert (Tr : forall d, (d <= 3)%nat -> good t (trace_element (polynomials d t))).
  { intros d Hd. destruct (good_polynomials d t Hd Ht) as [(E & C & G & D & Cn) U].
    destruct (trace_ok' (polynomials d t) C U) as (E1 & E2 & C1 & _ & _ & _ & _ & G1 & _).
    split; [rewrite E1; exact E|]. split; [exact C1|]. split; [exact (G1 G)|]. rewrite E2. split; [exact D|]. apply trace_contained; assumption. }
  destruct k as [d|d|d|d]; cbn in O, H.
  - replace f with (polynomials d t) by (destruct t; congruence). apply good_polynomials; [lia|exact Ht].
  - replace f with (discontinuous_element (polynomials d t)) by (destruct t; congruence). apply Disc. lia.
  - replace f with (discontinuous_element (polynomials d t)) by (destruct t; congruence). apply Disc. lia.
  - destruct t; try congruence; injection H as <-; [apply good_polynomials; [lia|discriminate]|apply Tr; lia|apply Tr; lia].
Qed.
Lemma good_evaluable : forall t k f q, good t f -> (forall p, In p (qr_points q) -> length p = dimension t) -> rule_for t k q -> evaluable f q.
Proof.
  intros t k f q (E & C & G & _) HP _ p Hp. destruct (co_eval f C p ltac:(rewrite E; apply HP, Hp)) as [v [Ev _]].
  destruct (G p ltac:(rewrite E; apply HP, Hp)) as [w [Ew _]]. eauto.
Qed.
(** A component of a built space *)
Lemma built_layout : forall m ks s c k, wf_mesh m -> ProdSpec.built m ks s -> nth_error ks c = Some k ->
  offered k /\ ps_mesh s = m /\ forall t, ShapeFunctionLayout s t c = Ok (functions k t).
Proof.
  intros m ks s c k W B E. pose proof (built_ok _ _ _ W B) as K. destruct (built_inv _ _ _ B) as (_ & F & _).
  assert (Hc : (c < length ks)%nat) by (apply nth_error_Some; congruence).
  split; [rewrite Forall_forall in F; exact (F _ (nth_error_In _ _ E))|]. split; [exact (hc_mesh _ _ _ _ _ K)|].
  intros t. rewrite (hc_layout _ _ _ _ _ K c t Hc), (nth_error_nth ks c (L2 0) E). reflexivity.
Qed.

(** *** Construction *)
Lemma boundary_precomputed : forall el k q f, el = kTria \/ el = kQuad -> rule_for kSegment k q -> good el f ->
  exists L ps, BoundaryQuadRule el q = Ok L /\ length L = num_nodes el /\ traverse (precompute f) L = Ok ps.
Proof.
  intros el k q f Hel Rq Gf. destruct (boundary_rules el k q Hel Rq) as [L [HL [LL H]]]. exists L.
  destruct (traverse_all _ _ (precompute f) L) as [ps Hps].
  - intros r Hr. apply In_nth_error in Hr. destruct Hr as [i Hi]. destruct (H i r Hi) as [_ [Pts _]]. apply precompute_exists.
    intros p Hp. rewrite Pts in Hp. apply in_map_iff in Hp. destruct Hp as [x [<- _]].
    assert (Hi' : (i < num_nodes el)%nat) by (rewrite <- LL; apply nth_error_Some; congruence).
    destruct Gf as (E & C & G & _). assert (Ln : length (on_edge el i (nth 0 x 0)) = dimension (fe_el f)) by (rewrite E, (on_edge_len el i _ Hel Hi'); destruct Hel as [-> | ->]; reflexivity).
    destruct (co_eval f C _ Ln) as [v [Ev _]]. destruct (G _ Ln) as [w [Ew _]]. eauto.
  - exists ps. auto.
Qed.
Theorem terms_constructed : forall make geom m ks ls trial test tc vc kt kv t, wf_mesh m -> ProdSpec.built m ks trial -> ProdSpec.built m ls test ->
  nth_error ks tc = Some kt -> nth_error ls vc = Some kv -> provides_rules make -> term_fits t kt kv ->
  exists s, provider make geom trial test tc vc t = Ok s.
Proof.
  intros make geom m ks ls trial test tc vc kt kv t W B1 B2 E1 E2 Rules [Fv Ft].
  destruct (built_layout _ _ _ _ _ W B1 E1) as (O1 & M1 & L1). destruct (built_layout _ _ _ _ _ W B2 E2) as (O2 & M2 & L2').
  assert (Deg : forall a b, (fe_degree a <= 3)%nat -> (fe_degree b <= 3)%nat -> (fe_degree a + fe_degree b <= 6)%nat) by lia.
  assert (Vol : constructible make trial test tc vc).
  { intros t' Ht'. exists (functions kt t'), (functions kv t'). split; [apply L1|]. split; [apply L2'|]. intros ft fv X Y.
    destruct (good_functions _ _ _ O1 X) as [Hp Gt]. destruct (good_functions _ _ _ O2 Y) as [_ Gv].
    destruct (Rules t' (fe_degree ft + fe_degree fv)%nat Hp ltac:(apply Deg; [apply Gt|apply Gv])) as [q [Mk Rq]]. exists q. split; [exact Mk|].
    pose proof (rf_points _ _ _ Rq) as RP. split; eapply good_evaluable; eassumption. }
  destruct t as [al|ga|b1 b2|al|be].
  - apply volume_constructed; [exact I|exact Vol].
  - apply volume_constructed; [exact I|exact Vol].
  - apply volume_constructed; [exact I|exact Vol].
  - destruct kt as [d|d|d|d]; try contradiction. unfold provider, precompute_flux. cbv beta zeta. rewrite M1.
    destruct (provider_ok m W) as [sp [-> _]]. cbn [bind]. rewrite (L1 kSegment). cbn [functions bind]. set (ft := discontinuous_element (polynomials d kSegment)).
    change (fe_num1 ft 1) with (Ok 0%nat). cbn [Nat.eqb bind lf_assert].
    assert (Gt : good kSegment ft) by (apply (good_functions (Flux d) kSegment ft O1 eq_refl)).
    assert (One : forall t', t' = kTria \/ t' = kQuad -> exists c, (do fe_test <- ShapeFunctionLayout test t' vc;
      match fe_test with
      | None => Ok (None, [])
      | Some fv =>
        do segment_qr <- make kSegment (fe_degree ft + fe_degree fv)%nat;
        do pt <- precompute ft segment_qr;
        do boundaryQr <- BoundaryQuadRule t' segment_qr;
        do _ <- lf_assert (length boundaryQr =? num_sub_entities t' 1)%nat;
        do pvs <- traverse (precompute fv) boundaryQr;
        Ok (Some pt, pvs)
      end) = Ok c).
    { intros t' Ht'. rewrite (L2' t'). cbn [bind]. destruct (functions kv t') as [fv|] eqn:Hf; [|eauto].
      destruct (good_functions _ _ _ O2 Hf) as [_ Gv].
      destruct (Rules kSegment (fe_degree ft + fe_degree fv)%nat ltac:(discriminate) ltac:(apply Deg; [apply Gt|apply Gv])) as [q [-> Rq]]. cbn [bind].
      destruct (precompute_exists ft q (good_evaluable _ _ _ _ Gt (rf_points _ _ _ Rq) Rq)) as [pt ->]. cbn [bind].
      destruct (boundary_precomputed t' _ q fv Ht' Rq Gv) as [L [ps [-> [LL Hps]]]]. cbn [bind]. rewrite LL, (nsub t' Ht'), Nat.eqb_refl. cbn [lf_assert bind].
      rewrite Hps. cbn [bind]. eauto. }
    destruct (One kTria (or_introl eq_refl)) as [a Ha]. destruct (One kQuad (or_intror eq_refl)) as [b Hb].
    rewrite Ha. cbn [bind]. rewrite Hb. cbn [bind]. eauto.
  - unfold provider, precompute_trace. cbv beta zeta.
    assert (One : forall t', t' = kTria \/ t' = kQuad -> exists c, (do fe_trial <- ShapeFunctionLayout trial t' tc;
      do fe_test <- ShapeFunctionLayout test t' vc;
      match fe_trial, fe_test with
      | Some ft, Some fv =>
        do segment_qr <- make kSegment (fe_degree ft + fe_degree fv)%nat;
        do boundary_qr <- BoundaryQuadRule t' segment_qr;
        do _ <- lf_assert (length boundary_qr =? num_sub_entities t' 1)%nat;
        do pts <- traverse (precompute ft) boundary_qr;
        do pvs <- traverse (precompute fv) boundary_qr;
        Ok (pts, pvs, segment_qr)
      | _, _ => Ok ([], [], empty_rule kPoint)
      end) = Ok c).
    { intros t' Ht'. rewrite (L1 t'), (L2' t'). cbn [bind]. destruct (functions kt t') as [ft|] eqn:Hft; [|eauto]. destruct (functions kv t') as [fv|] eqn:Hf; [|eauto].
      destruct (good_functions _ _ _ O1 Hft) as [_ Gt]. destruct (good_functions _ _ _ O2 Hf) as [_ Gv].
      destruct (Rules kSegment (fe_degree ft + fe_degree fv)%nat ltac:(discriminate) ltac:(apply Deg; [apply Gt|apply Gv])) as [q [-> Rq]]. cbn [bind].
      destruct (boundary_precomputed t' _ q ft Ht' Rq Gt) as [L [ps [HL [LL Hps]]]]. destruct (boundary_precomputed t' _ q fv Ht' Rq Gv) as [L' [ps' [HL' [_ Hps']]]].
      rewrite HL in HL'. injection HL' as <-. rewrite HL. cbn [bind]. rewrite LL, (nsub t' Ht'), Nat.eqb_refl. cbn [lf_assert bind].
      rewrite Hps. cbn [bind]. rewrite Hps'. cbn [bind]. eauto. }
    destruct (One kTria (or_introl eq_refl)) as [a ->]. cbn [bind]. destruct (One kQuad (or_intror eq_refl)) as [b ->]. cbn [bind]. eauto.
Qed.
Theorem loads_constructed : forall make geom m ls test vc kv f b, wf_mesh m -> ProdSpec.built m ls test -> vb_test b = test ->
  nth_error ls vc = Some kv -> provides_rules make -> exists b', AddLoad make geom b vc f = Ok b'.
Proof.
  intros make geom m ls test vc kv f b W B Eb E Rules. apply load_constructed. rewrite Eb. destruct (built_layout _ _ _ _ _ W B E) as (O & _ & L).
  intros t Ht. exists (functions kv t). split; [apply L|]. intros fv Hf. destruct (good_functions _ _ _ O Hf) as [Hp Gv].
  destruct (Rules t (2 * fe_degree fv)%nat Hp) as [q [Mk Rq]]; [destruct Gv as (_ & _ & _ & D & _); lia|]. exists q. split; [exact Mk|].
  eapply good_evaluable; [exact Gv|exact (rf_points _ _ _ Rq)|exact Rq].
Qed.

(** *** The hypotheses about cells are met *)
Theorem built_exact_cell : forall make m ks ls trial test tc vc kt kv g ft fv, wf_mesh m -> ProdSpec.built m ks trial -> ProdSpec.built m ls test ->
  nth_error ks tc = Some kt -> nth_error ls vc = Some kv -> provides_rules make ->
  constructed g -> exact_parallelogram g -> go_kind g = GTriaO1 \/ go_kind g = GParallelogram ->
  functions kt (kind_el (go_kind g)) = Some ft -> functions kv (kind_el (go_kind g)) = Some fv ->
  exists vol u G b H, exact_cell make g trial test tc vc ft fv vol /\ everywhere (shape_at ft u) /\ everywhere (gradient_at g ft G) /\
    everywhere (shape_at fv b) /\ everywhere (gradient_at g fv H).
Proof.
  intros make m ks ls trial test tc vc kt kv g ft fv W B1 B2 E1 E2 Rules C Ex K Hft Hfv.
  destruct (built_layout _ _ _ _ _ W B1 E1) as (O1 & _ & L1). destruct (built_layout _ _ _ _ _ W B2 E2) as (O2 & _ & L2').
  destruct (good_functions _ _ _ O1 Hft) as [Hp (Et & Ct & Gt & Dt & Cnt)]. destruct (good_functions _ _ _ O2 Hfv) as [_ (Ev & Cv & Gv & Dv & Cnv)].
  destruct (data_exist g ft C Ex K Et Ct Gt) as (vol & u & G & X). destruct (data_exist g fv C Ex K Ev Cv Gv) as (vol' & b & H & Y).
  exists vol, u, G, b, H. split; [|repeat split; intros p L; first [apply (X p L)|apply (Y p L)]].
  assert (Aff : forall f, fe_el f = kind_el (go_kind g) -> contained f (exponents (kind_el (go_kind g)) (fe_degree f)) -> affine_cell g f (fe_degree f) vol).
  { intros f E Cn. constructor; auto.
    - destruct K as [K | K]; unfold isAffine; rewrite K; reflexivity.
    - destruct K as [K | K]; rewrite K; reflexivity.
    - destruct K as [K | K]; rewrite K; reflexivity.
    - intros p L. apply (X p L). }
  constructor; [rewrite L1, Hft; reflexivity|rewrite L2', Hfv; reflexivity|apply Aff; assumption|apply Aff; assumption|].
  apply Rules; [exact Hp|lia].
Qed.
Theorem built_flux_cell : forall make m ks ls trial test tc vc d kv g ft fv, wf_mesh m -> ProdSpec.built m ks trial -> ProdSpec.built m ls test ->
  nth_error ks tc = Some (Flux d) -> nth_error ls vc = Some kv -> provides_rules make -> dim_local (go_kind g) = 2%nat ->
  functions (Flux d) kSegment = Some ft -> functions kv (kind_el (go_kind g)) = Some fv ->
  (exists q, flux_cell make g trial test tc vc ft fv q) /\
  fe_el ft = kSegment /\ contained ft (exponents kSegment (fe_degree ft)) /\ fe_el fv = kind_el (go_kind g) /\ contained fv (exponents (kind_el (go_kind g)) (fe_degree fv)) /\
  exists psi b, (forall t, shape_at ft psi [t]) /\ everywhere (shape_at fv b).
Proof.
  intros make m ks ls trial test tc vc d kv g ft fv W B1 B2 E1 E2 Rules D Hft Hfv.
  destruct (built_layout _ _ _ _ _ W B1 E1) as (O1 & _ & L1). destruct (built_layout _ _ _ _ _ W B2 E2) as (O2 & _ & L2').
  destruct (good_functions _ _ _ O1 Hft) as [Hp (Et & Ct & Gt & Dt & Cnt)]. destruct (good_functions _ _ _ O2 Hfv) as [_ (Ev & Cv & Gv & Dv & Cnv)].
  destruct (Rules kSegment (fe_degree ft + fe_degree fv)%nat ltac:(discriminate) ltac:(lia)) as [q [Mk Rq]].
  split. { exists q. constructor; [exact D|rewrite L1, Hft; reflexivity|rewrite L2', Hfv; reflexivity|exact Mk|exact Rq]. }
  split; [exact Et|]. split; [exact Cnt|]. split; [exact Ev|]. split; [exact Cnv|].
  exists (fun i p => match fe_eval ft p with Ok v => nth i v 0 | _ => 0 end), (fun i p => match fe_eval fv p with Ok v => nth i v 0 | _ => 0 end). split.
  - intros t. destruct (co_eval ft Ct [t] ltac:(rewrite Et; reflexivity)) as [v [E L]]. exists v. rewrite E. auto.
  - intros p Lp. destruct (co_eval fv Cv p) as [v [E L]]; [rewrite Ev, Lp; destruct (go_kind g); try discriminate D; reflexivity|]. exists v. rewrite E. auto.
Qed.
Theorem built_trace_cell : forall make m ks ls trial test tc vc kt kv g ft fv, wf_mesh m -> ProdSpec.built m ks trial -> ProdSpec.built m ls test ->
  nth_error ks tc = Some kt -> nth_error ls vc = Some kv -> provides_rules make -> straight g ->
  functions kt (kind_el (go_kind g)) = Some ft -> functions kv (kind_el (go_kind g)) = Some fv ->
  (exists q, trace_cell make g trial test tc vc ft fv q) /\
  fe_el ft = kind_el (go_kind g) /\ contained ft (exponents (kind_el (go_kind g)) (fe_degree ft)) /\ fe_el fv = kind_el (go_kind g) /\ contained fv (exponents (kind_el (go_kind g)) (fe_degree fv)) /\
  exists u b, everywhere (shape_at ft u) /\ everywhere (shape_at fv b).
Proof.
  intros make m ks ls trial test tc vc kt kv g ft fv W B1 B2 E1 E2 Rules St Hft Hfv. destruct (straight_facts g St) as [D _].
  destruct (built_layout _ _ _ _ _ W B1 E1) as (O1 & _ & L1). destruct (built_layout _ _ _ _ _ W B2 E2) as (O2 & _ & L2').
  destruct (good_functions _ _ _ O1 Hft) as [Hp (Et & Ct & Gt & Dt & Cnt)]. destruct (good_functions _ _ _ O2 Hfv) as [_ (Ev & Cv & Gv & Dv & Cnv)].
  destruct (Rules kSegment (fe_degree ft + fe_degree fv)%nat ltac:(discriminate) ltac:(lia)) as [q [Mk Rq]].
  split. { exists q. constructor; [exact St|rewrite L1, Hft; reflexivity|rewrite L2', Hfv; reflexivity|exact Mk|exact Rq]. }
  split; [exact Et|]. split; [exact Cnt|]. split; [exact Ev|]. split; [exact Cnv|].
  exists (fun i p => match fe_eval ft p with Ok v => nth i v 0 | _ => 0 end), (fun i p => match fe_eval fv p with Ok v => nth i v 0 | _ => 0 end).
  split; intros p Lp.
  - destruct (co_eval ft Ct p) as [v [E L]]; [rewrite Et, Lp; destruct (go_kind g); try discriminate D; reflexivity|]. exists v. rewrite E. auto.
  - destruct (co_eval fv Cv p) as [v [E L]]; [rewrite Ev, Lp; destruct (go_kind g); try discriminate D; reflexivity|]. exists v. rewrite E. auto.
Qed.

(** *** Global matrices *)
Lemma built_product : forall m ks s, ProdSpec.built m ks s -> exists dm, product m dm = Ok (ps_dofs s) /\ ps_mesh s = m.
Proof.
  intros m ks s B. destruct (built_inv _ _ _ B) as (_ & _ & H). unfold factory_space, ProductUniformFESpace in H. cbv zeta in H.
  apply bind_ok in H. destruct H as [? [_ H]]. apply bind_ok in H. destruct H as [? [_ H]]. apply bind_ok in H. destruct H as [nums [_ H]].
  apply bind_ok in H. destruct H as [d [Hd H]]. injection H as <-. cbn [ps_dofs ps_mesh]. eauto.
Qed.
Lemma built_count : forall m ks s c k i v, wf_mesh m -> ProdSpec.built m ks s -> nth_error ks c = Some k -> nth_error (mv_cells m) i = Some v ->
  (exists d, p_ComponentDofHandler (ps_dofs s) c = Ok d) /\ p_NumLocalC (ps_dofs s) (ECell i) c = Ok (cell_functions k (cv_type v)).
Proof.
  intros m ks s c k i v W B E Hv. pose proof (built_ok _ _ _ W B) as K. assert (Hc : (c < length ks)%nat) by (apply nth_error_Some; congruence).
  destruct (hc_dofs _ _ _ _ _ K) as (ds & _ & St & Pv). destruct (Pv c Hc) as (d & Nd & P). rewrite (nth_error_nth _ _ (L2 0) E) in P.
  destruct (sk_component_handler _ _ _ St c d Nd) as (Ed & _ & X). split; [eauto|]. rewrite (proj1 (X (ECell i))).
  assert (V : valid m (ECell i)) by (cbn; apply nth_error_Some; congruence).
  assert (T : ent_type m (ECell i) = cv_type v) by (cbn [ent_type]; unfold cell_at; rewrite (nth_error_nth _ _ _ Hv); reflexivity).
  assert (Tv : cv_type v = kTria \/ cv_type v = kQuad) by (unfold cv_type, cell_type; destruct (_ =? 4)%nat; auto).
  assert (Gen : forall f, functions k (cv_type v) = Some f -> NumLocalDofs d (ECell i) = Ok (fe_total f)).
  { intros f Hf. eapply built_local; try eassumption. rewrite T. exact Hf. }
  assert (Def : ~ is_flux k -> exists f, functions k (cv_type v) = Some f).
  { intros NF. destruct k, Tv as [Tv|Tv]; rewrite Tv; cbn in *; try tauto; eauto. }
  destruct k as [x|x|x|x].
  1,2,4: destruct (Def ltac:(cbn; tauto)) as [f Hf]; rewrite (Gen f Hf); cbn [cell_functions]; rewrite Hf; reflexivity.
  pose proof (pv_cell _ _ _ P i V) as N. cbv zeta in N. rewrite T in N. rewrite N. cbn [own_functions cell_functions]. f_equal. destruct Tv as [-> | ->]; cbn; lia.
Qed.
Theorem built_assembly : forall make geom m ks ls trial test ts b, wf_mesh m -> ProdSpec.built m ks trial -> ProdSpec.built m ls test ->
  add_terms make geom (NewBuilder trial test) ts = Ok b ->
  exists ev subs, BuildMat b = (ev, NewBuilder trial test) /\ Forall2 (provides_term make geom trial test) ts subs /\
  ((forall s, In s subs -> exists kt kv, nth_error ks (sm_trial s) = Some kt /\ nth_error ls (sm_test s) = Some kv /\
      forall i v, nth_error (mv_cells m) i = Some v -> sized (sm_eval s (ECell i)) (cell_functions kv (cv_type v)) (cell_functions kt (cv_type v))) ->
   exists A D bs, AssembleMat Rring m (p_handler (ps_dofs trial)) (p_handler (ps_dofs test)) (fun _ => true) ev = Ok A /\
     AssembleSpec.is_matrix Rring A (NumDofs (p_handler (ps_dofs test))) (NumDofs (p_handler (ps_dofs trial))) D /\
     Forall2 (global_block Rring m (ps_dofs trial) (ps_dofs test)) subs bs /\
     sum_of_blocks Rring (NumDofs (p_handler (ps_dofs test))) (NumDofs (p_handler (ps_dofs trial))) D bs).
Proof.
  intros make geom m ks ls trial test ts b W B1 B2 H. destruct (add_terms_ok _ _ _ _ _ H) as [E1 [E2 [subs [E3 F]]]]. cbn [NewBuilder bl_trial bl_test bl_subs app] in *.
  unfold BuildMat. rewrite E1, E2, E3. eexists. exists subs. split; [reflexivity|]. split; [exact F|]. intros Sz.
  destruct (built_product _ _ _ B1) as [dmu [P1 _]]. destruct (built_product _ _ _ B2) as [dmv [P2 _]].
  apply (product_matrix_global Rring m dmu dmv _ _ W P1 P2 subs). apply Forall_forall. intros s Hs. destruct (Sz s Hs) as (kt & kv & Kt & Kv & SS).
  pose proof (built_ok _ _ _ W B1) as K1. pose proof (built_ok _ _ _ W B2) as K2.
  split; [|split].
  - destruct (hc_dofs _ _ _ _ _ K1) as (ds & _ & St & Pv). destruct (Pv (sm_trial s)) as (d & Nd & _); [apply nth_error_Some; congruence|].
    exists d. apply (sk_component_handler _ _ _ St _ _ Nd).
  - destruct (hc_dofs _ _ _ _ _ K2) as (ds & _ & St & Pv). destruct (Pv (sm_test s)) as (d & Nd & _); [apply nth_error_Some; congruence|].
    exists d. apply (sk_component_handler _ _ _ St _ _ Nd).
  - intros cell Hc _. unfold AssembleModel.entities in Hc. apply in_map_iff in Hc. destruct Hc as [i [<- Hi]]. apply in_seq in Hi. cbn [mv_count] in Hi.
    destruct (nth_error (mv_cells m) i) as [v|] eqn:Hv; [|apply nth_error_None in Hv; lia].
    destruct (SS i v Hv) as [N [EN [N1 N2]]]. exists N. split; [exact EN|]. rewrite N1, N2.
    split; [exact (proj2 (built_count _ _ _ _ _ _ _ W B2 Kv Hv))|exact (proj2 (built_count _ _ _ _ _ _ _ W B1 Kt Hv))].
Qed.
