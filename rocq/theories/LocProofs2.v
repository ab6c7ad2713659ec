(** C105: loads; exact integrals on affine cells. *)
From Coq Require Import Reals List Arith ZArith Bool Lia Lra.
Import ListNotations.
From Verif Require Import Base Scalars MeshModel MeshView DofModel RefPatModel GeoModel GeoSpec GeoProofs GeoProofs2 GeoProofs3 FeModel QuadModel FeSpec QuadSpec
  HierProofs HierProofs3 PolyProofs TriaSpec AssembleModel ElemModel ElemSpec ElemProofs ElemProofs2 ElemProofs4 ElemProofs5 ElemProofs8 DpgModel ProdModel LocModel LocSpec LocProofs.
Local Open Scope R_scope.

(** *** Loads *)
Lemma load_get : forall make test vc P el, precompute_load make test vc = Ok P -> el = kTria \/ el = kQuad ->
  exists ov, ShapeFunctionLayout test el vc = Ok ov /\
  match ov with
  | Some fv => exists q pv, make el (2 * fe_degree fv)%nat = Ok q /\ precompute fv q = Ok pv /\ pcs_get P el = Some pv
  | None => pcs_get P el = None
  end.
Proof.
  intros make test vc P el H E. unfold precompute_load in H. cbv beta zeta in H.
  apply bind_ok in H. destruct H as [a [H1 H]]. apply bind_ok in H. destruct H as [b [H2 H]]. injection H as <-.
  assert (One : forall t c, (do fe_test <- ShapeFunctionLayout test t vc;
       match fe_test with
       | None => Ok None
       | Some fv => do qr <- make t (2 * fe_degree fv)%nat; do p <- precompute fv qr; Ok (Some p)
       end) = Ok c -> exists ov, ShapeFunctionLayout test t vc = Ok ov /\
     match ov with
     | Some fv => exists q pv, make t (2 * fe_degree fv)%nat = Ok q /\ precompute fv q = Ok pv /\ c = Some pv
     | None => c = None
     end).
  { intros t c X. apply bind_ok in X. destruct X as [ov [X2 X]]. exists ov. split; [assumption|].
    destruct ov as [fv|]; [|congruence].
    apply bind_ok in X. destruct X as [q [X3 X]]. apply bind_ok in X. destruct X as [pv [X5 X]].
    injection X as <-. eauto. }
  destruct E as [-> | ->]; cbn [pcs_get pcs_tria pcs_quad]; apply One; assumption.
Qed.
Lemma load_vec : forall make geom test vc P cell fv q vol f d h, load_cell make (geom cell) test vc fv q vol -> precompute_load make test vc = Ok P ->
  at_points q (shape_at fv d) -> at_points q (value_at (f cell) h) ->
  is_vector (LoadVec geom P f cell) (fe_total fv) (fun i => quadrature q (fun p => vol p * (h p * d i p))).
Proof.
  intros make geom test vc P cell fv q vol f d h [D Hv Mk [HW [HA HV]]] HP HD HF.
  destruct (load_get _ _ _ _ _ HP (cell_el _ D)) as [ov [X1 X]]. rewrite Hv in X1. injection X1 as <-.
  destruct X as [q' [pv [Y1 [Y2 Y3]]]]. rewrite Mk in Y1. injection Y1 as <-. destruct (precompute_ok _ _ _ Y2) as [E1 [E2 [E3 _]]].
  unfold is_vector, LoadVec. cbv zeta. rewrite Y3, D. cbn [Nat.eqb lf_assert bind]. rewrite E1, E2.
  rewrite (dets q (geom cell) HA vol HV). cbn [bind]. rewrite (assert_len q _ (map vol (qr_points q))) by apply map_length. cbn [bind].
  rewrite (traverse_map _ _ (f cell) h) by exact HF. cbn [bind].
  destruct (shapes q fv d HD) as [rsf [Er [L V]]]. assert (rsf = pc_shap pv) by congruence. subst rsf.
  eexists. split; [reflexivity|].
  destruct (acc_vec (fun k => nth k (map h (qr_points q)) 0 * (nth k (qr_weights q) 0 * nth k (map vol (qr_points q)) 0))
     (fun k => nth k (pc_shap pv) []) (seq 0 (NumPoints q)) (fe_total fv) (repeat 0 (fe_total fv))) as [L1 N1].
  { apply repeat_length. } { intros k Hk. apply in_seq in Hk. apply V. lia. }
  split; [exact L1|]. intros i Hi. rewrite N1 by exact Hi. rewrite nth_repeat, Rplus_0_l, (quad_idx q _ HW). apply rs_ext.
  intros k Hk. apply in_seq in Hk. rewrite !(nth_map_in q) by lia. destruct (V k ltac:(lia)) as [_ EV]. rewrite !EV by assumption. ring.
Qed.
Lemma add_load_parts : forall make geom b b' vc f, AddLoad make geom b vc f = Ok b' ->
  exists P, precompute_load make (vb_test b) vc = Ok P /\ one_more b b' vc (LoadVec geom P f).
Proof.
  intros make geom b b' vc f H. unfold AddLoad in H. apply bind_ok in H. destruct H as [P [H1 H]]. injection H as <-.
  exists P. split; [exact H1|]. split; [reflexivity|]. eexists. split; [reflexivity|]. split; [reflexivity|]. split; reflexivity.
Qed.
Theorem load_added : forall make geom b b' vc f, AddLoad make geom b vc f = Ok b' -> exists ev, one_more b b' vc ev /\
  (forall cell fv q vol d h, load_cell make (geom cell) (vb_test b) vc fv q vol -> at_points q (shape_at fv d) -> at_points q (value_at (f cell) h) ->
     is_vector (ev cell) (fe_total fv) (fun i => quadrature q (fun p => vol p * (h p * d i p)))) /\
  (forall cell, ShapeFunctionLayout (vb_test b) (kind_el (go_kind (geom cell))) vc = Ok None -> ev cell = Assert).
Proof.
  intros make geom b b' vc f H. destruct (add_load_parts _ _ _ _ _ _ H) as [P [HP O]]. exists (LoadVec geom P f). split; [exact O|]. split.
  - intros cell fv q vol d h LC HD HF. exact (load_vec make geom _ vc P cell fv q vol f d h LC HP HD HF).
  - intros cell Miss. unfold LoadVec. cbv zeta. destruct (kind_el (go_kind (geom cell))) eqn:El; try reflexivity.
    + destruct (load_get _ _ _ _ kTria HP (or_introl eq_refl)) as [ov [X1 X]]. rewrite Miss in X1. injection X1 as <-. rewrite X. reflexivity.
    + destruct (load_get _ _ _ _ kQuad HP (or_intror eq_refl)) as [ov [X1 X]]. rewrite Miss in X1. injection X1 as <-. rewrite X. reflexivity.
Qed.
Theorem load_constructed : forall make geom b vc f, load_constructible make (vb_test b) vc -> exists b', AddLoad make geom b vc f = Ok b'.
Proof.
  intros make geom b vc f C. unfold AddLoad, precompute_load. cbv beta zeta.
  assert (One : forall t, t = kTria \/ t = kQuad -> exists c, (do fe_test <- ShapeFunctionLayout (vb_test b) t vc;
       match fe_test with
       | None => Ok None
       | Some fv => do qr <- make t (2 * fe_degree fv)%nat; do p <- precompute fv qr; Ok (Some p)
       end) = Ok c).
  { intros t Ht. destruct (C t Ht) as [ov [X2 X]]. rewrite X2. cbn [bind].
    destruct ov as [fv|]; eauto. destruct (X fv eq_refl) as [q [X3 E2]].
    destruct (precompute_exists fv q E2) as [p HB]. rewrite X3. cbn [bind]. rewrite HB. cbn [bind]. eauto. }
  destruct (One kTria (or_introl eq_refl)) as [x ->]. cbn [bind]. destruct (One kQuad (or_intror eq_refl)) as [y ->]. cbn [bind]. eauto.
Qed.

(** *** Exact integrals *)
Lemma mono_times : forall t k l f g, mono (deg t k) f -> mono (deg t l) g -> mono (deg t (k + l)) (fun x y => f x y * g x y).
Proof. intros t k l f g. apply mono_mult. intros a b a' b' X Y. apply deg_add; assumption. Qed.
Lemma exact_fun : forall t k F H q, t = kTria \/ t = kQuad -> mono (deg t k) F -> (forall x y, H [x; y] = F x y) -> rule_for t k q ->
  quadrature q H = integral t H.
Proof.
  intros t k F H q Ht M E Rq. destruct (close_fun t k F H Ht M E) as [C [_ X]]. apply (zero_err _ _ C). apply X. apply within_zero. exact Rq.
Qed.
Lemma affine_rule : forall g f k n vol q, affine_cell g f k vol -> rule_for (kind_el (go_kind g)) n q -> rule_on q g vol.
Proof.
  intros g f k n vol q [Aff No2 Dl Ef Dg Cn HV] Rq.
  assert (L2 : forall p, In p (qr_points q) -> length p = 2%nat).
  { intros p I. rewrite (rf_points _ _ _ Rq p I). destruct (cell_el g Dl) as [-> | ->]; reflexivity. }
  split; [apply Rq|]. split; intros p I; [apply (adm2 g No2 Dl); auto|apply HV, L2, I].
Qed.
Lemma affine_points : forall g f k n vol q (P : list R -> Prop), affine_cell g f k vol -> rule_for (kind_el (go_kind g)) n q -> everywhere P -> at_points q P.
Proof.
  intros g f k n vol q P AC Rq H p I. apply H. rewrite (rf_points _ _ _ Rq p I). destruct (cell_el g (ac_dim _ _ _ _ AC)) as [-> | ->]; reflexivity.
Qed.
Lemma shape_comp : forall g f k vol b i, affine_cell g f k vol -> everywhere (shape_at f b) -> (i < fe_total f)%nat ->
  exists F, mono (deg (kind_el (go_kind g)) k) F /\ forall x y, b i [x; y] = F x y.
Proof.
  intros g f k vol b i AC HB Hi. destruct AC as [Aff No2 Dl Ef Dg Cn HV].
  destruct (shape_mono f _ k (cell_el g Dl) Ef Cn i Hi) as [F [M E]]. exists F. split; [exact M|]. intros x y.
  destruct (HB [x; y] eq_refl) as [v [Ev [_ Vv]]]. destruct (E x y) as [v' [Ev' F']]. rewrite <- (Vv i Hi). rewrite Ev in Ev'. injection Ev' as <-. exact F'.
Qed.
Lemma grad_comp : forall g f k vol G u, affine_cell g f k vol -> gradients_ok f -> everywhere (gradient_at g f G) -> (u < fe_total f)%nat ->
  exists T, (forall m, mono (deg (kind_el (go_kind g)) k) (T m)) /\ forall x y m, (m < go_dim g)%nat -> G u [x; y] m = T m x y.
Proof.
  intros g f k vol G u AC Gr HG Hu. destruct AC as [Aff No2 Dl Ef Dg Cn HV]. pose proof (cell_el g Dl) as El.
  destruct (HG [0; 0] eq_refl) as [J [gr0 [HJ [ND _]]]].
  destruct (inverse_gramian g [0; 0] J (adm2 g No2 Dl [0; 0] eq_refl) HJ ltac:(lia) ND) as [W [_ IW]].
  pose proof (jacobian_cols g [0; 0] J (adm2 g No2 Dl [0; 0] eq_refl) HJ) as LJ. rewrite Dl in LJ.
  destruct (grad_mono f _ k El Ef Cn Gr u 0 Hu ltac:(lia)) as [F0 [M0 E0]].
  destruct (grad_mono f _ k El Ef Cn Gr u 1 Hu ltac:(lia)) as [F1 [M1 E1]].
  exists (fun m x y => nth 0 W vzero m * F0 x y + nth 1 W vzero m * F1 x y). split.
  - intros m. apply (mono_plus _ (fun x y => nth 0 W vzero m * F0 x y) (fun x y => nth 1 W vzero m * F1 x y)); apply mono_scale; assumption.
  - intros x y m Hm. destruct (HG [x; y] eq_refl) as [J' [gr [HJ' [_ [Eg HW]]]]].
    rewrite (same_jac g Aff No2 Dl [x; y] [0; 0] eq_refl eq_refl), HJ in HJ'. injection HJ' as <-.
    rewrite (world_unique (go_dim g) J (nth u gr []) _ (trf_grad W gr u) LJ ND (HW u Hu) (trf_world (go_dim g) J W gr u LJ ND IW) m Hm).
    destruct (E0 x y) as [g0 [G0 C0]]. destruct (E1 x y) as [g1 [G1 C1]].
    assert (g0 = gr) by congruence. assert (g1 = gr) by congruence. subst g0 g1.
    unfold trf_grad. cbn [seq map]. unfold rsum. cbn [fold_right]. rewrite C0, C1. ring.
Qed.
Lemma vol_const : forall g f k vol x y, affine_cell g f k vol -> vol [x; y] = vol [0; 0].
Proof. intros g f k vol x y [Aff No2 Dl Ef Dg Cn HV]. apply (same_vol g vol Aff No2 Dl HV). reflexivity. Qed.

Section Exact.
Variables (make : refel -> nat -> res quadrule) (geom : ent -> geo) (trial test : product_space) (tc vc : nat).
Variables (cell : ent) (ft fv : srfe) (vol : list R -> R) (s : sub_mat Rring).
Let g := geom cell.
Let el := kind_el (go_kind g).
Hypothesis EC : exact_cell make g trial test tc vc ft fv vol.
Lemma ec_on_cell : exists q, rule_for el (fe_degree ft + fe_degree fv) q /\ on_cell make g trial test tc vc ft fv q vol.
Proof.
  destruct EC as [Ht Hv At Av [q [Mk Rq]]]. exists q. split; [exact Rq|]. constructor; auto; [apply At|]. exact (affine_rule _ _ _ _ _ _ At Rq).
Qed.
Theorem reaction_integrals : forall gamma b d c, provider make geom trial test tc vc (Reaction gamma) = Ok s ->
  everywhere (shape_at ft b) -> everywhere (shape_at fv d) -> everywhere (value_at (gamma cell) (fun _ => c)) ->
  is_dense (sm_eval s cell) (fe_total fv) (fe_total ft) (fun i j => integral el (fun p => vol p * (c * b j p * d i p))).
Proof.
  intros gamma b d c Pr HB HD HC. destruct ec_on_cell as [q [Rq OC]]. pose proof (ec_affine_trial _ _ _ _ _ _ _ _ _ EC) as At. pose proof (ec_affine_test _ _ _ _ _ _ _ _ _ EC) as Av.
  assert (Pts : forall P, everywhere P -> at_points q P) by (intros P; exact (affine_points _ _ _ _ _ _ P At Rq)).
  destruct (reaction_term make geom trial test tc vc cell ft fv q vol s OC gamma b d (fun _ => c) Pr (Pts _ HB) (Pts _ HD) (Pts _ HC)) as [_ [M [E [N1 [N2 EM]]]]].
  exists M. do 3 (split; [assumption|]). intros i j Hi Hj. rewrite EM by assumption.
  destruct (shape_comp _ _ _ _ b j At HB Hj) as [F [MF EF]]. destruct (shape_comp _ _ _ _ d i Av HD Hi) as [F' [MF' EF']].
  apply (exact_fun el (fe_degree ft + fe_degree fv) (fun x y => (vol [0; 0] * c) * (F x y * F' x y))); [apply cell_el, At| | |exact Rq].
  - apply (mono_scale _ (fun x y => F x y * F' x y)), mono_times; assumption.
  - intros x y. rewrite (vol_const _ _ _ _ x y At), EF, EF'. ring.
Qed.
Theorem diffusion_integrals : forall alpha G H A, provider make geom trial test tc vc (Diffusion alpha) = Ok s ->
  gradients_ok ft -> gradients_ok fv -> everywhere (gradient_at g ft G) -> everywhere (gradient_at g fv H) -> everywhere (value_at (alpha cell) (fun _ => A)) ->
  is_dense (sm_eval s cell) (fe_total fv) (fe_total ft)
    (fun i j => integral el (fun p => vol p * inner (go_dim g) (H i p) (flux (go_dim g) A (G j p)))).
Proof.
  intros alpha G H A Pr Gt Gv HG HH HA. destruct ec_on_cell as [q [Rq OC]]. pose proof (ec_affine_trial _ _ _ _ _ _ _ _ _ EC) as At. pose proof (ec_affine_test _ _ _ _ _ _ _ _ _ EC) as Av.
  assert (Pts : forall P, everywhere P -> at_points q P) by (intros P; exact (affine_points _ _ _ _ _ _ P At Rq)).
  destruct (diffusion_term make geom trial test tc vc cell ft fv q vol s OC alpha G H (fun _ => A) Pr (Pts _ HG) (Pts _ HH) (Pts _ HA)) as [_ [M [E [N1 [N2 EM]]]]].
  exists M. do 3 (split; [assumption|]). intros i j Hi Hj. rewrite EM by assumption.
  destruct (grad_comp _ _ _ _ G j At Gt HG Hj) as [T [MT ET]]. destruct (grad_comp _ _ _ _ H i Av Gv HH Hi) as [T' [MT' ET']].
  apply (exact_fun el (fe_degree ft + fe_degree fv)
    (fun x y => vol [0; 0] * rsum (map (fun m => flux (go_dim g) A (fun l => T l x y) m * T' m x y) (seq 0 (go_dim g))))); [apply cell_el, At| | |exact Rq].
  - apply mono_scale. apply (mono_sum _ (fun m x y => flux (go_dim g) A (fun l => T l x y) m * T' m x y)).
    intros m _. apply (mono_times _ _ _ (fun x y => flux (go_dim g) A (fun l => T l x y) m) (T' m)); [|apply MT'].
    apply flux_mono, MT.
  - intros x y. rewrite (vol_const _ _ _ _ x y At). f_equal. rewrite inner_rsum. apply rs_ext. intros m Hm. apply in_seq in Hm.
    rewrite ET' by lia. rewrite Rmult_comm. f_equal. apply flux_ext; [|lia]. intros l Hl. apply ET. exact Hl.
Qed.
Theorem convection_integrals : forall beta_1 beta_2 b d G H b1 b2, provider make geom trial test tc vc (Convection beta_1 beta_2) = Ok s ->
  gradients_ok ft -> gradients_ok fv -> everywhere (shape_at ft b) -> everywhere (shape_at fv d) ->
  everywhere (gradient_at g ft G) -> everywhere (gradient_at g fv H) ->
  everywhere (value_at (beta_1 cell) (fun _ => b1)) -> everywhere (value_at (beta_2 cell) (fun _ => b2)) ->
  is_dense (sm_eval s cell) (fe_total fv) (fe_total ft) (fun i j => integral el (fun p =>
    vol p * (b j p * inner (go_dim g) b1 (H i p) + d i p * inner (go_dim g) b2 (G j p)))).
Proof.
  intros beta_1 beta_2 b d G H b1 b2 Pr Gt Gv HB HD HG HH H1 H2. destruct ec_on_cell as [q [Rq OC]]. pose proof (ec_affine_trial _ _ _ _ _ _ _ _ _ EC) as At. pose proof (ec_affine_test _ _ _ _ _ _ _ _ _ EC) as Av.
  assert (Pts : forall P, everywhere P -> at_points q P) by (intros P; exact (affine_points _ _ _ _ _ _ P At Rq)).
  destruct (convection_term make geom trial test tc vc cell ft fv q vol s OC beta_1 beta_2 b d G H (fun _ => b1) (fun _ => b2) Pr (Pts _ HB) (Pts _ HD) (Pts _ HG) (Pts _ HH) (Pts _ H1) (Pts _ H2)) as [_ [M [E [N1 [N2 EM]]]]].
  exists M. do 3 (split; [assumption|]). intros i j Hi Hj. rewrite EM by assumption.
  destruct (grad_comp _ _ _ _ G j At Gt HG Hj) as [T [MT ET]]. destruct (grad_comp _ _ _ _ H i Av Gv HH Hi) as [T' [MT' ET']].
  destruct (shape_comp _ _ _ _ b j At HB Hj) as [F [MF EF]]. destruct (shape_comp _ _ _ _ d i Av HD Hi) as [F' [MF' EF']].
  apply (exact_fun el (fe_degree ft + fe_degree fv)
    (fun x y => vol [0; 0] * (F x y * rsum (map (fun m => b1 m * T' m x y) (seq 0 (go_dim g))) + rsum (map (fun m => b2 m * T m x y) (seq 0 (go_dim g))) * F' x y)));
    [apply cell_el, At| | |exact Rq].
  - apply mono_scale. apply (mono_plus _ (fun x y => F x y * rsum (map (fun m => b1 m * T' m x y) (seq 0 (go_dim g)))) (fun x y => rsum (map (fun m => b2 m * T m x y) (seq 0 (go_dim g))) * F' x y)).
    + apply (mono_times _ _ _ F (fun x y => rsum (map (fun m => b1 m * T' m x y) (seq 0 (go_dim g))))); [exact MF|].
      apply (mono_sum _ (fun m x y => b1 m * T' m x y)). intros m _. apply mono_scale, MT'.
    + apply (mono_times _ _ _ (fun x y => rsum (map (fun m => b2 m * T m x y) (seq 0 (go_dim g)))) F'); [|exact MF'].
      apply (mono_sum _ (fun m x y => b2 m * T m x y)). intros m _. apply mono_scale, MT.
  - intros x y. rewrite (vol_const _ _ _ _ x y At), EF, EF'. f_equal. rewrite !inner_rsum, (Rmult_comm _ (F' x y)). f_equal; f_equal; apply rs_ext; intros m Hm; apply in_seq in Hm.
    + rewrite ET' by lia. reflexivity.
    + rewrite ET by lia. reflexivity.
Qed.
End Exact.
Theorem load_integrals : forall make geom b b' vc f cell fv vol q d h c, AddLoad make geom b vc f = Ok b' ->
  let g := geom cell in let el := kind_el (go_kind g) in
  ShapeFunctionLayout (vb_test b) el vc = Ok (Some fv) -> affine_cell g fv (fe_degree fv) vol ->
  make el (2 * fe_degree fv)%nat = Ok q -> rule_for el (2 * fe_degree fv) q ->
  everywhere (shape_at fv d) -> everywhere (fun p => h p = poly (exponents el (fe_degree fv)) c p) -> everywhere (value_at (f cell) h) ->
  exists ev, one_more b b' vc ev /\ is_vector (ev cell) (fe_total fv) (fun i => integral el (fun p => vol p * (h p * d i p))).
Proof.
  intros make geom b b' vc f cell fv vol q d h c HA g el Hv Av Mk Rq HD HP HF.
  assert (Pts : forall P, everywhere P -> at_points q P) by (intros P; exact (affine_points _ _ _ _ _ _ P Av Rq)).
  destruct (load_added _ _ _ _ _ _ HA) as [ev [O [X _]]]. exists ev. split; [exact O|].
  destruct (X cell fv q vol d h) as [v [E [N V]]]; [constructor; auto; [apply Av|exact (affine_rule _ _ _ _ _ _ Av Rq)]|apply Pts; assumption|apply Pts; assumption|].
  exists v. do 2 (split; [assumption|]). intros i Hi. rewrite V by exact Hi.
  destruct (shape_comp _ _ _ _ d i Av HD Hi) as [F [MF EF]].
  apply (exact_fun el (2 * fe_degree fv) (fun x y => vol [0; 0] * (poly (exponents el (fe_degree fv)) c [x; y] * F x y))); [apply cell_el, Av| | |exact Rq].
  - apply mono_scale. apply mono_prod; [|exact MF]. apply poly_mono; [apply cell_el, Av|auto].
  - intros x y. rewrite (vol_const _ _ _ _ x y Av), EF, (HP [x; y] eq_refl). ring.
Qed.
