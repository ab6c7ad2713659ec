(** Properties C105 and C106: terms of variational formulations on product spaces, their builders
    (projects/dpg/loc_comp_dpg, product_element_matrix_provider_builder, product_element_vector_provider_builder). *)
From Coq Require Import Reals List Arith ZArith Lia Lra Bool.
From Coquelicot Require Import Hierarchy RInt.
Import ListNotations.
From Verif Require Import Base Scalars MeshModel MeshView DofModel DofSpec RefPatModel GeoModel GeoSpec FeModel QuadModel FeSpec QuadSpec AssembleModel AssembleSpec
  ElemModel ElemSpec DpgModel DpgSpec ProdModel ProdSpec ProdProofs8 NormalSpec NormalProofs8 LocModel LocSpec LocProofs LocProofs2 LocProofs3 LocProofs4 LocProofs5 LocProofs6 LocProofs7 PropMeshView.
Local Open Scope R_scope.

(** C105: terms with integrals over cells. Row i belongs to function i of the test component, column j to
    function j of the trial component. With the quadrature rule for the sum of the degrees: *)
Theorem C105_diffusion : forall make geom trial test tc vc cell ft fv q vol s, on_cell make (geom cell) trial test tc vc ft fv q vol ->
  forall alpha G H a, provider make geom trial test tc vc (Diffusion alpha) = Ok s ->
  at_points q (gradient_at (geom cell) ft G) -> at_points q (gradient_at (geom cell) fv H) -> at_points q (value_at (alpha cell) a) ->
  placed s tc vc /\ is_dense (sm_eval s cell) (fe_total fv) (fe_total ft)
    (fun i j => quadrature q (fun p => vol p * inner (go_dim (geom cell)) (H i p) (ElemSpec.flux (go_dim (geom cell)) (a p) (G j p)))).
Proof. exact diffusion_term. Qed.
Print Assumptions C105_diffusion.

(** The documented form, for symmetric coefficients *)
Theorem C105_diffusion_symmetric : forall make geom trial test tc vc cell ft fv q vol s, on_cell make (geom cell) trial test tc vc ft fv q vol ->
  forall alpha G H a, provider make geom trial test tc vc (Diffusion alpha) = Ok s ->
  at_points q (gradient_at (geom cell) ft G) -> at_points q (gradient_at (geom cell) fv H) -> at_points q (value_at (alpha cell) a) ->
  at_points q (fun p => symmetric_coeff (go_dim (geom cell)) (a p)) ->
  is_dense (sm_eval s cell) (fe_total fv) (fe_total ft)
    (fun i j => quadrature q (fun p => vol p * inner (go_dim (geom cell)) (G j p) (ElemSpec.flux (go_dim (geom cell)) (a p) (H i p)))).
Proof. exact diffusion_symmetric. Qed.
Print Assumptions C105_diffusion_symmetric.

(** It does not hold for all coefficients. *)
Theorem C105_diffusion_refuted : exists make geom m ks trial s alpha A G H vol cell ft,
  wf_mesh m /\ ProdSpec.built m ks trial /\ exact_cell make (geom cell) trial trial 0 0 ft ft vol /\
  provider make geom trial trial 0 0 (Diffusion alpha) = Ok s /\ gradients_ok ft /\
  everywhere (gradient_at (geom cell) ft G) /\ everywhere (gradient_at (geom cell) ft H) /\ everywhere (value_at (alpha cell) (fun _ => A)) /\
  ~ is_dense (sm_eval s cell) (fe_total ft) (fe_total ft)
      (fun i j => integral (kind_el (go_kind (geom cell))) (fun p => vol p * inner (go_dim (geom cell)) (G j p) (ElemSpec.flux (go_dim (geom cell)) A (H i p)))).
Proof. exact diffusion_refuted. Qed.
Print Assumptions C105_diffusion_refuted.

Theorem C105_reaction : forall make geom trial test tc vc cell ft fv q vol s, on_cell make (geom cell) trial test tc vc ft fv q vol ->
  forall gamma b d c, provider make geom trial test tc vc (Reaction gamma) = Ok s ->
  at_points q (shape_at ft b) -> at_points q (shape_at fv d) -> at_points q (value_at (gamma cell) c) ->
  placed s tc vc /\ is_dense (sm_eval s cell) (fe_total fv) (fe_total ft) (fun i j => quadrature q (fun p => vol p * (c p * b j p * d i p))).
Proof. exact reaction_term. Qed.
Print Assumptions C105_reaction.

Theorem C105_convection : forall make geom trial test tc vc cell ft fv q vol s, on_cell make (geom cell) trial test tc vc ft fv q vol ->
  forall beta_1 beta_2 b d G H b1 b2, provider make geom trial test tc vc (Convection beta_1 beta_2) = Ok s ->
  at_points q (shape_at ft b) -> at_points q (shape_at fv d) -> at_points q (gradient_at (geom cell) ft G) -> at_points q (gradient_at (geom cell) fv H) ->
  at_points q (value_at (beta_1 cell) b1) -> at_points q (value_at (beta_2 cell) b2) ->
  placed s tc vc /\ is_dense (sm_eval s cell) (fe_total fv) (fe_total ft) (fun i j => quadrature q (fun p =>
    vol p * (b j p * inner (go_dim (geom cell)) (b1 p) (H i p) + d i p * inner (go_dim (geom cell)) (b2 p) (G j p)))).
Proof. exact convection_term. Qed.
Print Assumptions C105_convection.

(** On affine cells with constant coefficients these are the integrals. *)
Theorem C105_diffusion_integrals : forall make geom trial test tc vc cell ft fv vol s, exact_cell make (geom cell) trial test tc vc ft fv vol ->
  forall alpha G H A, provider make geom trial test tc vc (Diffusion alpha) = Ok s ->
  gradients_ok ft -> gradients_ok fv -> everywhere (gradient_at (geom cell) ft G) -> everywhere (gradient_at (geom cell) fv H) -> everywhere (value_at (alpha cell) (fun _ => A)) ->
  is_dense (sm_eval s cell) (fe_total fv) (fe_total ft)
    (fun i j => integral (kind_el (go_kind (geom cell))) (fun p => vol p * inner (go_dim (geom cell)) (H i p) (ElemSpec.flux (go_dim (geom cell)) A (G j p)))).
Proof. exact diffusion_integrals. Qed.
Print Assumptions C105_diffusion_integrals.

Theorem C105_reaction_integrals : forall make geom trial test tc vc cell ft fv vol s, exact_cell make (geom cell) trial test tc vc ft fv vol ->
  forall gamma b d c, provider make geom trial test tc vc (Reaction gamma) = Ok s ->
  everywhere (shape_at ft b) -> everywhere (shape_at fv d) -> everywhere (value_at (gamma cell) (fun _ => c)) ->
  is_dense (sm_eval s cell) (fe_total fv) (fe_total ft) (fun i j => integral (kind_el (go_kind (geom cell))) (fun p => vol p * (c * b j p * d i p))).
Proof. exact reaction_integrals. Qed.
Print Assumptions C105_reaction_integrals.

Theorem C105_convection_integrals : forall make geom trial test tc vc cell ft fv vol s, exact_cell make (geom cell) trial test tc vc ft fv vol ->
  forall beta_1 beta_2 b d G H b1 b2, provider make geom trial test tc vc (Convection beta_1 beta_2) = Ok s ->
  gradients_ok ft -> gradients_ok fv -> everywhere (shape_at ft b) -> everywhere (shape_at fv d) ->
  everywhere (gradient_at (geom cell) ft G) -> everywhere (gradient_at (geom cell) fv H) ->
  everywhere (value_at (beta_1 cell) (fun _ => b1)) -> everywhere (value_at (beta_2 cell) (fun _ => b2)) ->
  is_dense (sm_eval s cell) (fe_total fv) (fe_total ft) (fun i j => integral (kind_el (go_kind (geom cell))) (fun p =>
    vol p * (b j p * inner (go_dim (geom cell)) b1 (H i p) + d i p * inner (go_dim (geom cell)) b2 (G j p)))).
Proof. exact convection_integrals. Qed.
Print Assumptions C105_convection_integrals.

(** A component without functions on cells of this type *)
Theorem C105_missing : forall make geom trial test tc vc t s cell, volume_term t -> provider make geom trial test tc vc t = Ok s ->
  let el := kind_el (go_kind (geom cell)) in
  ShapeFunctionLayout trial el tc = Ok None \/ ShapeFunctionLayout test el vc = Ok None -> sm_eval s cell = Assert.
Proof. exact volume_missing. Qed.
Print Assumptions C105_missing.

(** Loads *)
Theorem C105_load : forall make geom b b' vc f, AddLoad make geom b vc f = Ok b' -> exists ev, one_more b b' vc ev /\
  (forall cell fv q vol d h, load_cell make (geom cell) (vb_test b) vc fv q vol -> at_points q (shape_at fv d) -> at_points q (value_at (f cell) h) ->
     is_vector (ev cell) (fe_total fv) (fun i => quadrature q (fun p => vol p * (h p * d i p)))) /\
  (forall cell, ShapeFunctionLayout (vb_test b) (kind_el (go_kind (geom cell))) vc = Ok None -> ev cell = Assert).
Proof. exact load_added. Qed.
Print Assumptions C105_load.

Theorem C105_load_integrals : forall make geom b b' vc f cell fv vol q d h c, AddLoad make geom b vc f = Ok b' ->
  let g := geom cell in let el := kind_el (go_kind g) in
  ShapeFunctionLayout (vb_test b) el vc = Ok (Some fv) -> affine_cell g fv (fe_degree fv) vol ->
  make el (2 * fe_degree fv)%nat = Ok q -> rule_for el (2 * fe_degree fv) q ->
  everywhere (shape_at fv d) -> everywhere (fun p => h p = poly (exponents el (fe_degree fv)) c p) -> everywhere (value_at (f cell) h) ->
  exists ev, one_more b b' vc ev /\ is_vector (ev cell) (fe_total fv) (fun i => integral el (fun p => vol p * (h p * d i p))).
Proof. exact load_integrals. Qed.
Print Assumptions C105_load_integrals.

(** The builder: the element matrix is the sum of the matrices of the terms, each at the place of its
    components; the builder is empty afterwards. *)
Theorem C105_build : forall make geom trial test ts b, add_terms make geom (NewBuilder trial test) ts = Ok b ->
  exists ev subs, BuildMat b = (ev, NewBuilder trial test) /\ Forall2 (provides_term make geom trial test) ts subs /\
  forall m dmu dmv cell bs, wf_mesh m -> product m dmu = Ok (ps_dofs trial) -> product m dmv = Ok (ps_dofs test) -> valid m cell ->
    Forall2 (local_block Rring (ps_dofs trial) (ps_dofs test) cell) subs bs ->
    exists M, ev cell = Ok M /\ p_NumLocal (ps_dofs test) cell = Ok (d_rows Rring M) /\ p_NumLocal (ps_dofs trial) cell = Ok (d_cols Rring M) /\
      sum_of_blocks Rring (d_rows Rring M) (d_cols Rring M) (d_coef Rring M) bs.
Proof. exact builder_matrix. Qed.
Print Assumptions C105_build.

Theorem C105_build_load : forall make geom test fs b, add_loads make geom (NewVBuilder test) fs = Ok b ->
  exists ev subs, BuildVec b = (ev, NewVBuilder test) /\ Forall2 (provides_load make geom test) fs subs /\
  forall m dmv cell bs, wf_mesh m -> product m dmv = Ok (ps_dofs test) -> valid m cell ->
    Forall2 (local_segment Rring (ps_dofs test) cell) subs bs ->
    exists w, ev cell = Ok w /\ p_NumLocal (ps_dofs test) cell = Ok (length w) /\ sum_of_segments Rring (length w) (comp Rring w) bs.
Proof. exact builder_vector. Qed.
Print Assumptions C105_build_load.

(** For spaces built by the factory, all terms and loads that fit the components can be added, the
    hypotheses about cells are met, and the global matrix is the sum of the matrices of the terms. *)
Theorem C105_constructed : forall make geom m ks ls trial test tc vc kt kv t, wf_mesh m -> ProdSpec.built m ks trial -> ProdSpec.built m ls test ->
  nth_error ks tc = Some kt -> nth_error ls vc = Some kv -> provides_rules make -> term_fits t kt kv ->
  exists s, provider make geom trial test tc vc t = Ok s.
Proof. exact terms_constructed. Qed.
Print Assumptions C105_constructed.

Theorem C105_load_constructed : forall make geom m ls test vc kv f b, wf_mesh m -> ProdSpec.built m ls test -> vb_test b = test ->
  nth_error ls vc = Some kv -> provides_rules make -> exists b', AddLoad make geom b vc f = Ok b'.
Proof. exact loads_constructed. Qed.
Print Assumptions C105_load_constructed.

Theorem C105_cells : forall make m ks ls trial test tc vc kt kv g ft fv, wf_mesh m -> ProdSpec.built m ks trial -> ProdSpec.built m ls test ->
  nth_error ks tc = Some kt -> nth_error ls vc = Some kv -> provides_rules make ->
  constructed g -> exact_parallelogram g -> go_kind g = GTriaO1 \/ go_kind g = GParallelogram ->
  functions kt (kind_el (go_kind g)) = Some ft -> functions kv (kind_el (go_kind g)) = Some fv ->
  exists vol u G b H, exact_cell make g trial test tc vc ft fv vol /\ everywhere (shape_at ft u) /\ everywhere (gradient_at g ft G) /\
    everywhere (shape_at fv b) /\ everywhere (gradient_at g fv H).
Proof. exact built_exact_cell. Qed.
Print Assumptions C105_cells.

Theorem C105_assembly : forall make geom m ks ls trial test ts b, wf_mesh m -> ProdSpec.built m ks trial -> ProdSpec.built m ls test ->
  add_terms make geom (NewBuilder trial test) ts = Ok b ->
  exists ev subs, BuildMat b = (ev, NewBuilder trial test) /\ Forall2 (provides_term make geom trial test) ts subs /\
  ((forall s, In s subs -> exists kt kv, nth_error ks (sm_trial s) = Some kt /\ nth_error ls (sm_test s) = Some kv /\
      forall i v, nth_error (mv_cells m) i = Some v -> sized (sm_eval s (DofModel.ECell i)) (cell_functions kv (cv_type v)) (cell_functions kt (cv_type v))) ->
   exists A D bs, AssembleMat Rring m (p_handler (ps_dofs trial)) (p_handler (ps_dofs test)) (fun _ => true) ev = Ok A /\
     AssembleSpec.is_matrix Rring A (NumDofs (p_handler (ps_dofs test))) (NumDofs (p_handler (ps_dofs trial))) D /\
     Forall2 (global_block Rring m (ps_dofs trial) (ps_dofs test)) subs bs /\
     sum_of_blocks Rring (NumDofs (p_handler (ps_dofs test))) (NumDofs (p_handler (ps_dofs trial))) D bs).
Proof. exact built_assembly. Qed.
Print Assumptions C105_assembly.

Example C105_example : exists make trial test b, provides_rules make /\ ProdSpec.built example_mesh ultraweak trial /\ ProdSpec.built example_mesh [H1 2; L2 3] test /\
  add_terms make ex_geom (NewBuilder trial test) ex_terms = Ok b /\ straight_cells example_mesh ex_geom.
Proof. exact ex_terms_added. Qed.
Example C105_example_cell : constructed ex_tria /\ exact_parallelogram ex_tria /\ go_kind ex_tria = GTriaO1.
Proof. exact (conj (proj1 tria_constructed) (conj (proj2 tria_constructed) eq_refl)). Qed.

(** C106: terms with integrals over the boundary of cells. Fluxes: the columns belong to the functions
    of the edges of the cell, in their order; each edge has a prescribed sign. *)
Theorem C106_flux : forall make geom trial test tc vc c ft fv q, flux_cell make (geom (DofModel.ECell c)) trial test tc vc ft fv q ->
  forall ell v, edge_elements q (geom (DofModel.ECell c)) ell -> wf_mesh (ps_mesh trial) ->
  nth_error (mv_cells (ps_mesh trial)) c = Some v -> cv_type v = kind_el (go_kind (geom (DofModel.ECell c))) ->
  forall s alpha psi b a, provider make geom trial test tc vc (FluxTerm alpha) = Ok s ->
  at_points q (shape_at ft psi) -> boundary_shapes (kind_el (go_kind (geom (DofModel.ECell c)))) fv b q ->
  boundary_values (kind_el (go_kind (geom (DofModel.ECell c)))) (alpha (DofModel.ECell c)) a q ->
  exists sg, (forall i e, edge_of (ps_mesh trial) c i e -> sign_of (ps_mesh trial) c e (sg i)) /\ placed s tc vc /\
  is_by_edges (sm_eval s (DofModel.ECell c)) (fe_total fv) (fe_total ft) (num_nodes (kind_el (go_kind (geom (DofModel.ECell c))))) (fun i k j =>
    quadrature q (fun x => ell k x * (sg k * a (boundary_point (kind_el (go_kind (geom (DofModel.ECell c)))) k x) * psi j x *
                                      b i (boundary_point (kind_el (go_kind (geom (DofModel.ECell c)))) k x)))).
Proof. exact flux_term. Qed.
Print Assumptions C106_flux.

(** Straight cells, constant coefficients *)
Theorem C106_flux_integrals : forall make geom trial test tc vc c ft fv q v s alpha psi b A,
  let cell := DofModel.ECell c in let g := geom cell in let el := kind_el (go_kind g) in let m := ps_mesh trial in
  flux_cell make g trial test tc vc ft fv q -> straight g -> wf_mesh m -> nth_error (mv_cells m) c = Some v -> cv_type v = el ->
  fe_el ft = kSegment -> contained ft (exponents kSegment (fe_degree ft)) -> fe_el fv = el -> contained fv (exponents el (fe_degree fv)) ->
  provider make geom trial test tc vc (FluxTerm alpha) = Ok s ->
  (forall t, shape_at ft psi [t]) -> everywhere (shape_at fv b) -> everywhere (value_at (alpha cell) (fun _ => A)) ->
  exists sg, (forall i e, edge_of m c i e -> sign_of m c e (sg i)) /\ placed s tc vc /\
  is_by_edges (sm_eval s cell) (fe_total fv) (fe_total ft) (num_nodes el) (fun i k j =>
    side_length g k * RInt (fun t => sg k * A * psi j [t] * b i (on_edge el k t)) 0 1).
Proof. exact flux_integrals. Qed.
Print Assumptions C106_flux_integrals.

Theorem C106_flux_missing : forall make geom trial test tc vc s alpha cell, provider make geom trial test tc vc (FluxTerm alpha) = Ok s ->
  ShapeFunctionLayout test (kind_el (go_kind (geom cell))) vc = Ok None -> sm_eval s cell = Assert.
Proof. exact flux_missing. Qed.
Print Assumptions C106_flux_missing.

(** Degrees 0 and 1: the two cells at an edge see the same function for each dof of the edge. *)
Theorem C106_flux_single_valued_partial : forall m ks s c k d f, wf_mesh m -> ProdSpec.built m ks s -> nth_error ks c = Some (Flux k) -> (k <= 1)%nat ->
  p_ComponentDofHandler (ps_dofs s) c = Ok d -> functions (Flux k) kSegment = Some f -> single_valued m d f.
Proof. exact flux_single_valued. Qed.
Print Assumptions C106_flux_single_valued_partial.
(** Not so for degrees 2 and 3, which the factory offers. *)
Theorem C106_flux_single_valued_refuted : forall k, k = 2%nat \/ k = 3%nat -> exists m ks s c d f, wf_mesh m /\ ProdSpec.built m ks s /\ nth_error ks c = Some (Flux k) /\
  p_ComponentDofHandler (ps_dofs s) c = Ok d /\ functions (Flux k) kSegment = Some f /\ ~ single_valued m d f.
Proof. exact flux_single_valued_refuted. Qed.
Print Assumptions C106_flux_single_valued_refuted.

(** Traces on straight cells; [n k] is the outer normal of edge [k]. *)
Theorem C106_trace : forall make geom trial test tc vc cell ft fv q, trace_cell make (geom cell) trial test tc vc ft fv q ->
  forall s beta u b bt n, provider make geom trial test tc vc (TraceTerm beta) = Ok s ->
  let g := geom cell in let el := kind_el (go_kind g) in
  boundary_shapes el ft u q -> boundary_shapes el fv b q -> boundary_values el (beta cell) bt q ->
  (forall k, (k < num_nodes el)%nat -> outer_normal (go_cols g) k (n k)) ->
  placed s tc vc /\ is_dense (sm_eval s cell) (fe_total fv) (fe_total ft) (fun i j => sum_to (num_nodes el) (fun k =>
    quadrature q (fun x => side_length g k *
      (u j (boundary_point el k x) * inner 2 (n k) (bt (boundary_point el k x)) * b i (boundary_point el k x))))).
Proof. exact trace_term. Qed.
Print Assumptions C106_trace.

Theorem C106_trace_integrals : forall make geom trial test tc vc cell ft fv q, trace_cell make (geom cell) trial test tc vc ft fv q ->
  forall s beta u b B n, provider make geom trial test tc vc (TraceTerm beta) = Ok s ->
  let g := geom cell in let el := kind_el (go_kind g) in
  fe_el ft = el -> contained ft (exponents el (fe_degree ft)) -> fe_el fv = el -> contained fv (exponents el (fe_degree fv)) ->
  everywhere (shape_at ft u) -> everywhere (shape_at fv b) -> everywhere (value_at (beta cell) (fun _ => B)) ->
  (forall k, (k < num_nodes el)%nat -> outer_normal (go_cols g) k (n k)) ->
  is_dense (sm_eval s cell) (fe_total fv) (fe_total ft) (fun i j => sum_to (num_nodes el) (fun k =>
    side_integral g k (fun p => u j p * inner 2 (n k) B * b i p))).
Proof. exact trace_integrals. Qed.
Print Assumptions C106_trace_integrals.

Theorem C106_trace_missing : forall make geom trial test tc vc s beta cell, provider make geom trial test tc vc (TraceTerm beta) = Ok s ->
  let el := kind_el (go_kind (geom cell)) in el = kTria \/ el = kQuad ->
  ShapeFunctionLayout trial el tc = Ok None \/ ShapeFunctionLayout test el vc = Ok None -> sm_eval s cell = Assert.
Proof. exact trace_missing. Qed.
Print Assumptions C106_trace_missing.

(** The hypotheses about cells and functions are met for spaces built by the factory. *)
Theorem C106_flux_cells : forall make m ks ls trial test tc vc d kv g ft fv, wf_mesh m -> ProdSpec.built m ks trial -> ProdSpec.built m ls test ->
  nth_error ks tc = Some (Flux d) -> nth_error ls vc = Some kv -> provides_rules make -> dim_local (go_kind g) = 2%nat ->
  functions (Flux d) kSegment = Some ft -> functions kv (kind_el (go_kind g)) = Some fv ->
  (exists q, flux_cell make g trial test tc vc ft fv q) /\
  fe_el ft = kSegment /\ contained ft (exponents kSegment (fe_degree ft)) /\ fe_el fv = kind_el (go_kind g) /\ contained fv (exponents (kind_el (go_kind g)) (fe_degree fv)) /\
  exists psi b, (forall t, shape_at ft psi [t]) /\ everywhere (shape_at fv b).
Proof. exact built_flux_cell. Qed.
Print Assumptions C106_flux_cells.
Theorem C106_trace_cells : forall make m ks ls trial test tc vc kt kv g ft fv, wf_mesh m -> ProdSpec.built m ks trial -> ProdSpec.built m ls test ->
  nth_error ks tc = Some kt -> nth_error ls vc = Some kv -> provides_rules make -> straight g ->
  functions kt (kind_el (go_kind g)) = Some ft -> functions kv (kind_el (go_kind g)) = Some fv ->
  (exists q, trace_cell make g trial test tc vc ft fv q) /\
  fe_el ft = kind_el (go_kind g) /\ contained ft (exponents (kind_el (go_kind g)) (fe_degree ft)) /\ fe_el fv = kind_el (go_kind g) /\ contained fv (exponents (kind_el (go_kind g)) (fe_degree fv)) /\
  exists u b, everywhere (shape_at ft u) /\ everywhere (shape_at fv b).
Proof. exact built_trace_cell. Qed.
Print Assumptions C106_trace_cells.
Example C106_example : straight_cells example_mesh ex_geom /\ exists s, ProdSpec.built example_mesh ultraweak s /\ nth_error ultraweak 4 = Some (Flux 1) /\ nth_error ultraweak 3 = Some (Trace 2).
Proof. split; [exact example_straight|]. destruct ex_terms_added as (_ & s & _ & _ & _ & B & _). exists s. auto. Qed.
