(** C106: straight cells, traces. *)
From Coq Require Import Reals List Arith ZArith Bool Lia Lra.
From Coquelicot Require Import Coquelicot.
Import ListNotations.
From Verif Require Import Base Scalars MeshModel MeshView DofModel RefPatModel GeoModel GeoSpec GeoProofs GeoProofs2 GeoProofs3 FlagModel FlagSpec FeModel QuadModel FeSpec QuadSpec
  HierProofs HierProofs3 PolyProofs QuadProofs AssembleModel ElemModel ElemSpec ElemProofs ElemProofs2 ElemProofs3 ElemProofs4 ElemProofs5 DpgModel ProdModel NormalModel NormalSpec NormalProofs3 NormalProofs4 NormalProofs5 NormalProofs7 LocModel LocSpec LocProofs LocProofs3.
Local Open Scope R_scope.

(** *** Straight edges *)
Lemma straight_facts : forall g, straight g -> dim_local (go_kind g) = 2%nat /\ go_dim g = 2%nat /\ is_o2 (go_kind g) = false /\
  length (go_cols g) = num_nodes (kind_el (go_kind g)) /\ num_cols (go_kind g) = num_nodes (kind_el (go_kind g)).
Proof.
  intros g [K [D [C _]]]. pose proof (constructed_cols g C) as L. rewrite L. destruct K as [-> | [-> | ->]]; auto.
Qed.
Lemma straight_sub : forall g s, straight g -> (s < num_nodes (kind_el (go_kind g)))%nat ->
  SubGeometry g 1 s = Ok (mkGeo GSegmentO1 2 [start (go_cols g) s; stop (go_cols g) s]).
Proof.
  intros g s St Hs. destruct (straight_facts g St) as [D [D2 [_ [L N]]]]. destruct St as [K _]. unfold SubGeometry. cbv zeta. rewrite D2, N.
  unfold start, stop. rewrite L.
  assert (B : (s <? num_nodes (kind_el (go_kind g)))%nat = true) by (apply Nat.ltb_lt; exact Hs).
  destruct K as [K | [K | K]]; rewrite K in *; rewrite B; reflexivity.
Qed.
Lemma straight_elements : forall g k q, straight g -> rule_for kSegment k q -> edge_elements q g (fun s _ => side_length g s).
Proof.
  intros g k q St Rq s Hs. eexists. split; [exact (straight_sub g s St Hs)|]. split; [apply Rq|]. split; intros p Hp.
  - split; [|discriminate]. rewrite (rf_points _ _ _ Rq p Hp). reflexivity.
  - pose proof (rf_points _ _ _ Rq p Hp) as Lp. destruct p as [|x [|? ?]]; try discriminate Lp.
    eexists. split; [reflexivity|]. unfold side_length, distance, gramian_det. cbn. f_equal. unfold vsub. ring.
Qed.

(** *** Polynomials along edges *)
Lemma seg_poly_mono : forall k c, mono (xdeg k) (fun x _ => poly (exponents kSegment k) c [x]).
Proof.
  intros k c. cbn [exponents]. assert (H : forall a, In a (seq 0 (k + 1)) -> (a <= k)%nat) by (intros a Ha; apply in_seq in Ha; lia).
  revert H. generalize (seq 0 (k + 1)). intros l H. induction l as [|a l IH]; cbn [map].
  - eapply mono_eq; [|apply mono_zero]. reflexivity.
  - eapply mono_eq; [|apply (mono_plus (xdeg k) _ _ (mono_one (xdeg k) a 0 (c [a]) ltac:(split; [apply H; left; reflexivity|reflexivity])) (IH (fun b Hb => H b (or_intror Hb))))].
    intros x y. cbn beta. rewrite poly_cons, mono1. cbn [pow]. ring.
Qed.
Lemma edge_comp : forall el f k b i s, el = kTria \/ el = kQuad -> fe_el f = el -> contained f (exponents el k) -> everywhere (shape_at f b) ->
  (i < fe_total f)%nat -> (s < num_nodes el)%nat -> exists F, mono (xdeg k) F /\ forall t, b i (on_edge el s t) = F t 0.
Proof.
  intros el f k b i s Hel Ef Cn HB Hi Hs. destruct (Cn i Hi) as [c H]. destruct (edge_poly el s k c Hel Hs) as [c' E].
  exists (fun x _ => poly (exponents kSegment k) c' [x]). split; [apply seg_poly_mono|]. intros t. rewrite <- E.
  assert (L : length (on_edge el s t) = 2%nat) by (apply on_edge_len; assumption).
  destruct (HB _ L) as [v [Ev [_ Vv]]]. destruct (H (on_edge el s t)) as [v' [Ev' Vv']]; [rewrite L, Ef; destruct Hel as [-> | ->]; reflexivity|].
  rewrite <- (Vv i Hi). rewrite Ev in Ev'. injection Ev' as <-. exact Vv'.
Qed.
Lemma segment_comp : forall f k psi j, fe_el f = kSegment -> contained f (exponents kSegment k) -> (forall t, shape_at f psi [t]) ->
  (j < fe_total f)%nat -> exists F, mono (xdeg k) F /\ forall t, psi j [t] = F t 0.
Proof.
  intros f k psi j Ef Cn HP Hj. destruct (Cn j Hj) as [c H]. exists (fun x _ => poly (exponents kSegment k) c [x]). split; [apply seg_poly_mono|].
  intros t. destruct (HP t) as [v [Ev [_ Vv]]]. destruct (H [t]) as [v' [Ev' Vv']]; [rewrite Ef; reflexivity|].
  rewrite <- (Vv j Hj). rewrite Ev in Ev'. injection Ev' as <-. exact Vv'.
Qed.
Lemma mono_along : forall k l F G, mono (xdeg k) F -> mono (xdeg l) G -> mono (xdeg (k + l)) (fun x y => F x y * G x y).
Proof. intros k l F G. apply mono_mult. intros a b a' b'. apply xdeg_add. Qed.
Lemma edge_exact : forall q k (h : R) (H : list R -> R) F, rule_for kSegment k q -> mono (xdeg k) F -> (forall t, H [t] = F t 0) ->
  quadrature q (fun x => h * H x) = h * RInt (fun t => H [t]) 0 1.
Proof.
  intros q k h H F Rq M E. rewrite quadrature_scal. f_equal. rewrite (RInt_ext (fun t => H [t]) (fun t => F t 0)) by (intros; apply E).
  rewrite <- (exact_one q k F Rq M). apply quadrature_ext. intros p Hp. pose proof (rf_points _ _ _ Rq p Hp) as L.
  destruct p as [|t [|? ?]]; try discriminate L. apply E.
Qed.

(** *** Fluxes *)
Theorem flux_integrals : forall make geom trial test tc vc c ft fv q v s alpha psi b A,
  let cell := DofModel.ECell c in let g := geom cell in let el := kind_el (go_kind g) in let m := ps_mesh trial in
  flux_cell make g trial test tc vc ft fv q -> straight g -> wf_mesh m -> nth_error (mv_cells m) c = Some v -> cv_type v = el ->
  fe_el ft = kSegment -> contained ft (exponents kSegment (fe_degree ft)) -> fe_el fv = el -> contained fv (exponents el (fe_degree fv)) ->
  provider make geom trial test tc vc (FluxTerm alpha) = Ok s ->
  (forall t, shape_at ft psi [t]) -> everywhere (shape_at fv b) -> everywhere (value_at (alpha cell) (fun _ => A)) ->
  exists sg, (forall i e, edge_of m c i e -> sign_of m c e (sg i)) /\ placed s tc vc /\
  is_by_edges (sm_eval s cell) (fe_total fv) (fe_total ft) (num_nodes el) (fun i k j =>
    side_length g k * RInt (fun t => sg k * A * psi j [t] * b i (on_edge el k t)) 0 1).
Proof.
  intros make geom trial test tc vc c ft fv q v s alpha psi b A cell g el m FC St W HC HT Et Ct Ev Cv Pr HPsi HB HA.
  pose proof (fc_rule _ _ _ _ _ _ _ _ _ FC) as Rq. destruct (straight_facts g St) as [D _]. pose proof (cell_el g D) as Hel. fold el in Hel.
  assert (L2 : forall k, (k < num_nodes el)%nat -> forall x, length (boundary_point el k x) = 2%nat) by (intros k Hk x; apply on_edge_len; assumption).
  assert (P1 : at_points q (shape_at ft psi)).
  { intros p Hp. pose proof (rf_points _ _ _ Rq p Hp) as L. destruct p as [|t [|? ?]]; try discriminate L. apply HPsi. }
  assert (P2 : boundary_shapes el fv b q) by (intros k Hk x _; apply HB, L2, Hk).
  assert (P3 : boundary_values el (alpha cell) (fun _ => A) q) by (intros k Hk x _; apply HA, L2, Hk).
  destruct (flux_term make geom trial test tc vc c ft fv q FC (fun k _ => side_length g k) v (straight_elements g _ q St Rq) W HC HT s alpha psi b (fun _ => A) Pr P1 P2 P3)
    as [sg [S1 [S2 [M [E [N1 [N2 EM]]]]]]].
  exists sg. split; [exact S1|]. split; [exact S2|]. exists M. split; [exact E|]. split; [exact N1|]. split; [exact N2|]. intros i k j Hi Hk Hj.
  etransitivity; [exact (EM i k j Hi Hk Hj)|].
  destruct (segment_comp ft _ psi j Et Ct HPsi Hj) as [F [MF EF]]. destruct (edge_comp el fv _ b i k Hel Ev Cv HB Hi Hk) as [F' [MF' EF']].
  apply (edge_exact q _ (side_length g k) (fun x => sg k * A * psi j x * b i (boundary_point el k x)) (fun x y => (sg k * A) * (F x y * F' x y)) Rq).
  - apply (mono_scale _ (fun x y => F x y * F' x y)), mono_along; assumption.
  - intros t. unfold boundary_point. cbn [nth]. rewrite EF, EF'. ring.
Qed.
Theorem flux_missing : forall make geom trial test tc vc s alpha cell, provider make geom trial test tc vc (FluxTerm alpha) = Ok s ->
  ShapeFunctionLayout test (kind_el (go_kind (geom cell))) vc = Ok None -> sm_eval s cell = Assert.
Proof.
  intros make geom trial test tc vc s alpha cell Pr Miss. destruct (flux_parts _ _ _ _ _ _ _ _ Pr) as [P [HP [_ ->]]].
  destruct (flux_get _ _ _ _ _ _ HP) as [_ [ft [_ [_ X]]]]. unfold FluxMat. cbv zeta.
  destruct (kind_el (go_kind (geom cell))) eqn:El; try reflexivity.
  - destruct (X kTria (or_introl eq_refl)) as [ov [X1 Y]]. rewrite Miss in X1. injection X1 as <-. rewrite Y. reflexivity.
  - destruct (X kQuad (or_intror eq_refl)) as [ov [X1 Y]]. rewrite Miss in X1. injection X1 as <-. rewrite Y. reflexivity.
Qed.

(** *** Traces *)
Lemma trace_get : forall make trial test tc vc P el, precompute_trace make trial test tc vc = Ok P -> el = kTria \/ el = kQuad ->
  exists ot ov, ShapeFunctionLayout trial el tc = Ok ot /\ ShapeFunctionLayout test el vc = Ok ov /\
  match ot, ov with
  | Some ft, Some fv => exists q L pts pvs, make kSegment (fe_degree ft + fe_degree fv)%nat = Ok q /\
      BoundaryQuadRule el q = Ok L /\ traverse (precompute ft) L = Ok pts /\ traverse (precompute fv) L = Ok pvs /\
      type_get P el ([], [], empty_rule kPoint) = (pts, pvs, q)
  | _, _ => type_get P el ([], [], empty_rule kPoint) = ([], [], empty_rule kPoint)
  end.
Proof.
  intros make trial test tc vc P el H Hel. unfold precompute_trace in H. cbv beta zeta in H.
  apply bind_ok in H. destruct H as [a [Ha H]]. apply bind_ok in H. destruct H as [b [Hb H]]. injection H as <-.
  assert (One : forall t c, (do fe_trial <- ShapeFunctionLayout trial t tc;
    do fe_test <- ShapeFunctionLayout test t vc;
    match fe_trial, fe_test with
    | Some ft, Some fv =>
        do segment_qr <- make kSegment (fe_degree ft + fe_degree fv)%nat;
        do boundary_qr <- BoundaryQuadRule t segment_qr;
        do _ <- lf_assert (length boundary_qr =? num_sub_entities t 1)%nat;
        do pts <- traverse (precompute ft) boundary_qr;
        do pvs <- traverse (precompute fv) boundary_qr;
        Ok (pts, pvs, segment_qr)
    | _, _ => Ok ([], [], empty_rule kPoint)
    end) = Ok c -> exists ot ov, ShapeFunctionLayout trial t tc = Ok ot /\ ShapeFunctionLayout test t vc = Ok ov /\
    match ot, ov with
    | Some ft, Some fv => exists q L pts pvs, make kSegment (fe_degree ft + fe_degree fv)%nat = Ok q /\
        BoundaryQuadRule t q = Ok L /\ traverse (precompute ft) L = Ok pts /\ traverse (precompute fv) L = Ok pvs /\ c = (pts, pvs, q)
    | _, _ => c = ([], [], empty_rule kPoint)
    end).
  { intros t c X. apply bind_ok in X. destruct X as [ot [X0 X]]. apply bind_ok in X. destruct X as [ov [X1 X]]. exists ot, ov. do 2 (split; [assumption|]).
    destruct ot as [ft|], ov as [fv|]; try congruence.
    apply bind_ok in X. destruct X as [q [X2 X]]. apply bind_ok in X. destruct X as [L [X4 X]].
    apply bind_ok in X. destruct X as [u' [_ X]]. apply bind_ok in X. destruct X as [pts [X5 X]]. apply bind_ok in X. destruct X as [pvs [X6 X]]. injection X as <-.
    exists q, L, pts, pvs. auto. }
  destruct Hel as [-> | ->]; cbn [type_get on_tria on_quad]; apply One; assumption.
Qed.
Lemma trace_parts : forall make geom trial test tc vc beta s, provider make geom trial test tc vc (TraceTerm beta) = Ok s ->
  exists P, precompute_trace make trial test tc vc = Ok P /\ placed s tc vc /\ sm_eval s = TraceMat geom P beta.
Proof.
  intros make geom trial test tc vc beta s H. unfold provider in H. cbv beta zeta in H. apply bind_ok in H. destruct H as [P [H1 H]]. injection H as <-.
  exists P. split; [exact H1|]. split; [split; [reflexivity|split; reflexivity]|reflexivity].
Qed.
Theorem trace_missing : forall make geom trial test tc vc s beta cell, provider make geom trial test tc vc (TraceTerm beta) = Ok s ->
  let el := kind_el (go_kind (geom cell)) in el = kTria \/ el = kQuad ->
  ShapeFunctionLayout trial el tc = Ok None \/ ShapeFunctionLayout test el vc = Ok None -> sm_eval s cell = Assert.
Proof.
  intros make geom trial test tc vc s beta cell Pr el Hel Miss. destruct (trace_parts _ _ _ _ _ _ _ _ Pr) as [P [HP [_ ->]]]. unfold TraceMat. cbv zeta.
  destruct (trace_get _ _ _ _ _ _ el HP Hel) as [ot [ov [X1 [X2 X]]]].
  assert (Y : type_get P el ([], [], empty_rule kPoint) = ([], [], empty_rule kPoint)).
  { destruct Miss as [Q|Q]; rewrite Q in *; [injection X1 as <-; exact X|injection X2 as <-; destruct ot; exact X]. }
  fold el. rewrite Y. destruct Hel as [-> | ->]; reflexivity.
Qed.
Section Trace.
Variables (make : refel -> nat -> res quadrule) (geom : ent -> geo) (trial test : product_space) (tc vc : nat).
Variables (cell : ent) (ft fv : srfe) (q : quadrule).
Let g := geom cell.
Let el := kind_el (go_kind g).
Hypothesis TC : trace_cell make g trial test tc vc ft fv q.
Theorem trace_term : forall s beta u b bt n, provider make geom trial test tc vc (TraceTerm beta) = Ok s ->
  boundary_shapes el ft u q -> boundary_shapes el fv b q -> boundary_values el (beta cell) bt q ->
  (forall k, (k < num_nodes el)%nat -> outer_normal (go_cols g) k (n k)) ->
  placed s tc vc /\ is_dense (sm_eval s cell) (fe_total fv) (fe_total ft) (fun i j => sum_to (num_nodes el) (fun k =>
    quadrature q (fun x => side_length g k *
      (u j (boundary_point el k x) * inner 2 (n k) (bt (boundary_point el k x)) * b i (boundary_point el k x))))).
Proof.
  intros s beta u b bt n Pr HU HB HBt HN. destruct (trace_parts _ _ _ _ _ _ _ _ Pr) as [P [HP [Pl ->]]]. split; [exact Pl|].
  destruct TC as [St Ht Hv Mk Rq]. destruct (straight_facts g St) as [D [D2 [_ [LC NC]]]]. pose proof (cell_el g D) as Hel. fold el in Hel, Ht, Hv, LC, NC.
  destruct (trace_get _ _ _ _ _ _ el HP Hel) as [ot [ov [X1 [X2 X]]]]. rewrite Ht in X1. injection X1 as <-. rewrite Hv in X2. injection X2 as <-.
  destruct X as [q' [L [pts [pvs [Y1 [Y2 [Y3 [Y4 Y5]]]]]]]]. rewrite Mk in Y1. injection Y1 as <-.
  unfold is_dense, TraceMat. cbv zeta. fold g el. rewrite Y5, (nsub el Hel).
  assert (Hb : forall f ps s0, traverse (precompute f) L = Ok ps -> (s0 < num_nodes el)%nat -> exists p, nth_error ps s0 = Some p /\ elem_at ps s0 = Ok p /\ pc_fe p = f /\
    qr_points (pc_qr p) = map (boundary_point el s0) (qr_points q) /\ NumPoints (pc_qr p) = NumPoints q /\
    traverse (fe_eval f) (map (boundary_point el s0) (qr_points q)) = Ok (pc_shap p)).
  { intros f ps s0 HF Hs0. destruct (on_boundary_rule el _ q Hel Rq L f ps s0 Y2 HF Hs0) as [_ Q]. exact Q. }
  assert (N0 : (0 < num_nodes el)%nat) by (destruct Hel as [-> | ->]; cbn; lia).
  assert (LT : length pts = num_nodes el) by (destruct (on_boundary_rule el _ q Hel Rq L ft pts 0 Y2 Y3 N0) as [Q _]; exact Q).
  assert (LV : length pvs = num_nodes el) by (destruct (on_boundary_rule el _ q Hel Rq L fv pvs 0 Y2 Y4 N0) as [Q _]; exact Q).
  rewrite LT, LV, Nat.eqb_refl. cbn [lf_assert bind].
  rewrite (lf_true (forallb _ (combine pts pvs))).
  2: { apply forallb_forall. intros [p p'] Hp. apply In_nth_error in Hp. destruct Hp as [s0 Hs0]. cbn [fst snd].
       assert (E1 : nth_error pts s0 = Some p /\ nth_error pvs s0 = Some p').
       { clear - Hs0. revert pvs s0 Hs0. induction pts as [|x xs IH]; intros [|y ys] [|s0] H; cbn in H |- *; try discriminate; [injection H as -> ->; auto|]. exact (IH ys s0 H). }
       destruct E1 as [E1 E2]. destruct (traverse_nth_error _ _ _ _ _ _ _ Y3 E1) as [r [Er Pr1]]. destruct (traverse_nth_error _ _ _ _ _ _ _ Y4 E2) as [r' [Er' Pr2]].
       rewrite Er in Er'. injection Er' as <-. destruct (precompute_ok _ _ _ Pr1) as [_ [-> _]]. destruct (precompute_ok _ _ _ Pr2) as [_ [-> _]]. apply same_rule_refl. }
  cbn [bind]. destruct (Hb ft pts 0%nat Y3 N0) as [p0 [_ [F0 [F1 [_ [F2 _]]]]]]. destruct (Hb fv pvs 0%nat Y4 N0) as [p0' [_ [F0' [F1' _]]]].
  rewrite F0. cbn [bind]. rewrite F0'. cbn [bind]. rewrite F2, Nat.eqb_refl, D. cbn [Nat.eqb lf_assert bind].
  destruct (outer_normals g St) as [Ns [EN [LN HNs]]]. rewrite EN. cbn [bind]. rewrite LN, LC, Nat.eqb_refl. cbn [lf_assert bind]. rewrite F1, F1'.
  set (sh := fun (ps : list precomp) s0 => nth s0 (map pc_shap ps) []).
  set (w := fun (s0 k : nat) => nth k (qr_weights q) 0 * nth k (map (fun _ => side_length g s0) (qr_points q)) 0).
  set (Z := fun s0 k i j => nth i (nth k (sh pvs s0) []) 0 * nth j (nth k (sh pts s0) []) 0 *
    GeoModel.dot 2 (nth s0 Ns vzero) (nth k (map (fun x => bt (boundary_point el s0 x)) (qr_points q)) vzero)).
  set (F := fun s0 mat => fold_left (fun mat k => dadd mat (w s0 k) (Z s0 k)) (seq 0 (NumPoints q)) mat).
  rewrite (each_fold _ _ _ F (fun _ => True)); [| |auto|exact I].
  2: { intros s0 mat Hs0 _. apply in_seq in Hs0. destruct (straight_elements g _ q St Rq s0 ltac:(fold el; lia)) as [e [HS [R1 [R2 R3]]]]. rewrite HS. cbn [bind].
       destruct (Hb ft pts s0 Y3 ltac:(lia)) as [p [G1 [G2 [G3 [G4 [G5 G6]]]]]]. destruct (Hb fv pvs s0 Y4 ltac:(lia)) as [p' [G1' [G2' [G3' [G4' [G5' G6']]]]]].
       rewrite G2. cbn [bind]. rewrite G2'. cbn [bind].
       rewrite (dets q e R2 _ R3). cbn [bind]. rewrite G5. rewrite (assert_len q _ (map (fun _ => side_length g s0) (qr_points q))) by apply map_length. cbn [bind]. rewrite G4.
       rewrite (boundary_traverse el q _ (beta cell) bt s0 (HBt s0 ltac:(lia))). cbn [bind].
       rewrite (nth_in_range _ Ns s0 vzero) by lia. cbn [bind]. unfold F, w, Z, sh.
       rewrite (nth_error_nth (map pc_shap pvs) s0 [] (map_nth_error pc_shap s0 pvs G1')), (nth_error_nth (map pc_shap pts) s0 [] (map_nth_error pc_shap s0 pts G1)). reflexivity. }
  eexists. split; [reflexivity|].
  assert (Fold : forall l mat, d_rows Rring (fold_left (fun m s => F s m) l mat) = d_rows Rring mat /\ d_cols Rring (fold_left (fun m s => F s m) l mat) = d_cols Rring mat /\
     forall i j, (d_coef Rring (fold_left (fun m s => F s m) l mat) i j : R) =
       (d_coef Rring mat i j : R) + rsum (map (fun s0 => rsum (map (fun k => w s0 k * Z s0 k i j) (seq 0 (NumPoints q)))) l)).
  { intros l. induction l as [|s0 l IH]; intros mat; cbn [fold_left map].
    - split; [reflexivity|]. split; [reflexivity|]. intros. cbn [rsum fold_right]. symmetry. apply Rplus_0_r.
    - destruct (dacc_entry (w s0) (Z s0) (seq 0 (NumPoints q)) mat) as [B1 [B2 B3]]. fold (F s0 mat) in B1, B2, B3.
      destruct (IH (F s0 mat)) as [C1 [C2 C3]]. split; [congruence|]. split; [congruence|]. intros i j. rewrite C3, B3.
      change (rsum (?x :: ?y)) with (x + rsum y). cbn [car Rring]. lra. }
  destruct (Fold (seq 0 (num_nodes el)) (dzero (fe_total fv) (fe_total ft))) as [C1 [C2 C3]].
  split; [exact C1|]. split; [exact C2|]. intros i j Hi Hj. rewrite C3. cbn [dzero d_coef]. rewrite Rplus_0_l, sum_to_rsum. apply rs_ext. intros s0 Hs0. apply in_seq in Hs0.
  rewrite (quad_idx q _ (rf_weights _ _ _ Rq)). apply rs_ext. intros k Hk. apply in_seq in Hk. unfold w, Z, sh. rewrite !(nth_map_in q) by lia.
  destruct (Hb ft pts s0 Y3 ltac:(lia)) as [p [G1 [G2 [G3 [G4 [G5 G6]]]]]]. destruct (Hb fv pvs s0 Y4 ltac:(lia)) as [p' [G1' [G2' [G3' [G4' [G5' G6']]]]]].
  rewrite (nth_error_nth (map pc_shap pvs) s0 [] (map_nth_error pc_shap s0 pvs G1')), (nth_error_nth (map pc_shap pts) s0 [] (map_nth_error pc_shap s0 pts G1)).
  rewrite (boundary_shape_each el q fv b s0 (pc_shap p') k i (HB s0 ltac:(lia)) G6') by lia.
  rewrite (boundary_shape_each el q ft u s0 (pc_shap p) k j (HU s0 ltac:(lia)) G6) by lia.
  assert (Si : simple (go_cols g)). { destruct (straight_oriented g St) as [sg O]. exact (or_simple g sg O). }
  assert (EI : GeoModel.dot 2 (nth s0 Ns vzero) (bt (boundary_point el s0 (nth k (qr_points q) []))) = inner 2 (n s0) (bt (boundary_point el s0 (nth k (qr_points q) [])))).
  { change (inner 2 (nth s0 Ns vzero) (bt (boundary_point el s0 (nth k (qr_points q) []))) = inner 2 (n s0) (bt (boundary_point el s0 (nth k (qr_points q) [])))).
    apply inner_ext; [|reflexivity]. intros d Hd. symmetry. apply (outer_unique (go_cols g) s0 (nth s0 Ns vzero) (n s0) Si); [lia|apply HNs; lia|apply HN; lia|exact Hd]. }
  rewrite EI. ring.
Qed.
Theorem trace_integrals : forall s beta u b B n, provider make geom trial test tc vc (TraceTerm beta) = Ok s ->
  fe_el ft = el -> contained ft (exponents el (fe_degree ft)) -> fe_el fv = el -> contained fv (exponents el (fe_degree fv)) ->
  everywhere (shape_at ft u) -> everywhere (shape_at fv b) -> everywhere (value_at (beta cell) (fun _ => B)) ->
  (forall k, (k < num_nodes el)%nat -> outer_normal (go_cols g) k (n k)) ->
  is_dense (sm_eval s cell) (fe_total fv) (fe_total ft) (fun i j => sum_to (num_nodes el) (fun k =>
    side_integral g k (fun p => u j p * inner 2 (n k) B * b i p))).
Proof.
  intros s beta u b B n Pr Et Ct Ev Cv HU HB HBt HN.
  pose proof (tc_rule _ _ _ _ _ _ _ _ _ TC) as Rq. destruct (straight_facts g (tc_straight _ _ _ _ _ _ _ _ _ TC)) as [D _]. pose proof (cell_el g D) as Hel. fold el in Hel.
  assert (L2 : forall k, (k < num_nodes el)%nat -> forall x, length (boundary_point el k x) = 2%nat) by (intros k Hk x; apply on_edge_len; assumption).
  destruct (trace_term s beta u b (fun _ => B) n Pr) as [_ [M [E [N1 [N2 EM]]]]]; try assumption.
  - intros k Hk x _; apply HU, L2, Hk.
  - intros k Hk x _; apply HB, L2, Hk.
  - intros k Hk x _; apply HBt, L2, Hk.
  - exists M. split; [exact E|]. split; [exact N1|]. split; [exact N2|]. intros i j Hi Hj. rewrite EM by assumption. rewrite !sum_to_rsum. apply rs_ext. intros k Hk. apply in_seq in Hk.
    destruct (edge_comp el ft _ u j k Hel Et Ct HU Hj ltac:(lia)) as [F [MF EF]]. destruct (edge_comp el fv _ b i k Hel Ev Cv HB Hi ltac:(lia)) as [F' [MF' EF']].
    apply (edge_exact q _ (side_length g k) (fun x => u j (boundary_point el k x) * inner 2 (n k) B * b i (boundary_point el k x)) (fun x y => inner 2 (n k) B * (F x y * F' x y)) Rq).
    + apply (mono_scale _ (fun x y => F x y * F' x y)), mono_along; assumption.
    + intros t. unfold boundary_point. cbn [nth]. rewrite EF, EF'. ring.
Qed.
End Trace.
