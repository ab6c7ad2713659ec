(** C74-C76: Galerkin matrices and load vectors, gradients of finite element functions,
    boundary value problems. *)
From Coq Require Import Reals List Arith Bool.
Import ListNotations.
From Verif Require Import Base Scalars MeshModel MeshView DofModel DofSpec RefPatModel GeoModel GeoSpec GeoProofs PropGeo FeModel LagrModel QuadModel AssembleModel AssembleSpec
  FeSpec LagrProofs LagrProofs2 QuadSpec GaussSpec TriaTab TriaSpec QuadRuleModel ElemModel ElemSpec FeToolsModel FeToolsSpec FeToolsProofs5 ProlongSpec
  GalerkinModel GalerkinSpec GalerkinProofs4 GalerkinProofs5 GalerkinProofs6 GalerkinProofs7 GalerkinProofs8 GalerkinProofs9 GalerkinProofs10 GalerkinProofs11 GalerkinProofs12.
Local Open Scope R_scope.

(** *** C74 *)
(** Galerkin matrices: assembling the element matrices of the library over the active cells
    or edges gives the matrix A with v^T A u = a (u, v) for all coefficient vectors u and v,
    where a is the bilinear form, computed with the quadrature rules, of the finite element
    functions with these coefficients.  Providers of fe/loc_comp_ellbvp.h: *)
Theorem C74_diffusion : forall V geom get q vol codim sel, let es := filter sel (entities (sp_mesh V) codim) in
  prepared V geom get q vol es -> forall alpha a, of_dim geom 2 es -> regular V geom q es -> given_by alpha a q es ->
  galerkin_matrix V (AssembleMatrixWith (sp_mesh V) codim (sp_dofs V) (sp_dofs V) sel (diffusion_provider get V geom alpha))
    (diffusion_form V geom q vol es a).
Proof. exact diffusion_assembled. Qed.
Print Assumptions C74_diffusion.
Theorem C74_mass : forall V geom get q vol codim sel, let es := filter sel (entities (sp_mesh V) codim) in
  prepared V geom get q vol es -> forall gamma c, of_dim geom 2 es -> given_by gamma c q es ->
  galerkin_matrix V (AssembleMatrixWith (sp_mesh V) codim (sp_dofs V) (sp_dofs V) sel (mass_provider get V geom gamma)) (mass_form V q vol es c).
Proof. exact mass_assembled. Qed.
Print Assumptions C74_mass.
Theorem C74_mass_edge : forall V geom get q vol codim sel, let es := filter sel (entities (sp_mesh V) codim) in
  prepared V geom get q vol es -> forall gamma c, given_by gamma c q es ->
  galerkin_matrix V (AssembleMatrixWith (sp_mesh V) codim (sp_dofs V) (sp_dofs V) sel (mass_edge_provider get V geom gamma)) (mass_form V q vol es c).
Proof. exact mass_edge_assembled. Qed.
Print Assumptions C74_mass_edge.
(** Load vectors: b^T v = l (v). *)
Theorem C74_load : forall V geom get q vol codim sel, let es := filter sel (entities (sp_mesh V) codim) in
  prepared V geom get q vol es -> forall src h, of_dim geom 2 es -> given_by src h q es ->
  galerkin_vector V (AssembleVectorWith (sp_mesh V) codim (sp_dofs V) sel (load_provider get V geom src)) (load_form V q vol es h).
Proof. exact load_assembled. Qed.
Print Assumptions C74_load.
Theorem C74_load_edge : forall V geom get q vol codim sel, let es := filter sel (entities (sp_mesh V) codim) in
  prepared V geom get q vol es -> forall src h, of_dim geom 1 es -> given_by src h q es ->
  galerkin_vector V (AssembleVectorWith (sp_mesh V) codim (sp_dofs V) sel (load_edge_provider get V geom src)) (load_form V q vol es h).
Proof. exact load_edge_assembled. Qed.
Print Assumptions C74_load_edge.
(** Providers of uscalfe/loc_comp_ellbvp.h, with default rules and with given rules. *)
Theorem C74_reaction_diffusion : forall V geom make q vol codim sel layout P alpha gamma a c, let es := filter sel (entities (sp_mesh V) codim) in
  prepared V geom make q vol es -> uniform_layout V layout -> precompute_default make layout = Ok P -> of_dim geom 2 es -> regular V geom q es ->
  given_by alpha a q es -> given_by gamma c q es ->
  galerkin_matrix V (AssembleMatrixWith (sp_mesh V) codim (sp_dofs V) (sp_dofs V) sel (rd_provider P geom alpha gamma))
    (sum_form (diffusion_form V geom q vol es a) (mass_form V q vol es c)).
Proof. exact rd_assembled. Qed.
Print Assumptions C74_reaction_diffusion.
Theorem C74_reaction_diffusion_rules : forall V geom coll q vol codim sel layout P alpha gamma a c, let es := filter sel (entities (sp_mesh V) codim) in
  prepared V geom (chosen coll) q vol es -> uniform_layout V layout -> precompute_given false coll layout = Ok P -> of_dim geom 2 es -> regular V geom q es ->
  given_by alpha a q es -> given_by gamma c q es ->
  galerkin_matrix V (AssembleMatrixWith (sp_mesh V) codim (sp_dofs V) (sp_dofs V) sel (rd_provider P geom alpha gamma))
    (sum_form (diffusion_form V geom q vol es a) (mass_form V q vol es c)).
Proof. exact rd_given_assembled. Qed.
Print Assumptions C74_reaction_diffusion_rules.
Theorem C74_uload : forall V geom make q vol codim sel layout P src h, let es := filter sel (entities (sp_mesh V) codim) in
  prepared V geom make q vol es -> uniform_layout V layout -> precompute_default make layout = Ok P -> of_dim geom 2 es -> given_by src h q es ->
  galerkin_vector V (AssembleVectorWith (sp_mesh V) codim (sp_dofs V) sel (uload_provider P geom src)) (load_form V q vol es h).
Proof. exact uload_assembled. Qed.
Print Assumptions C74_uload.
Theorem C74_uload_rules : forall V geom coll q vol codim sel layout P src h, let es := filter sel (entities (sp_mesh V) codim) in
  prepared V geom (chosen coll) q vol es -> uniform_layout V layout -> precompute_given true coll layout = Ok P -> of_dim geom 2 es -> given_by src h q es ->
  galerkin_vector V (AssembleVectorWith (sp_mesh V) codim (sp_dofs V) sel (uload_provider P geom src)) (load_form V q vol es h).
Proof. exact uload_given_assembled. Qed.
Print Assumptions C74_uload_rules.
Theorem C74_umass_edge : forall V geom make rule q vol codim sel layout pfe gamma c, let es := filter sel (entities (sp_mesh V) codim) in
  prepared V geom (edge_rule make rule) q vol es -> uniform_layout V layout -> precompute_edge make layout rule = Ok pfe -> of_dim geom 1 es -> given_by gamma c q es ->
  galerkin_matrix V (AssembleMatrixWith (sp_mesh V) codim (sp_dofs V) (sp_dofs V) sel (umass_edge_provider pfe geom gamma)) (mass_form V q vol es c).
Proof. exact umass_edge_assembled. Qed.
Print Assumptions C74_umass_edge.
Theorem C74_uload_edge : forall V geom make rule q vol codim sel layout pfe src h, let es := filter sel (entities (sp_mesh V) codim) in
  prepared V geom (edge_rule make rule) q vol es -> uniform_layout V layout -> precompute_edge make layout rule = Ok pfe -> of_dim geom 1 es -> given_by src h q es ->
  galerkin_vector V (AssembleVectorWith (sp_mesh V) codim (sp_dofs V) sel (uload_edge_provider pfe geom src)) (load_form V q vol es h).
Proof. exact uload_edge_assembled. Qed.
Print Assumptions C74_uload_edge.

(** The forms have values for all coefficient vectors. *)
Theorem C74_diffusion_defined : forall V geom get q vol codim sel a u v, let es := filter sel (entities (sp_mesh V) codim) in
  prepared V geom get q vol es -> of_dim geom 2 es -> regular V geom q es -> length u = NumDofs (sp_dofs V) -> length v = NumDofs (sp_dofs V) ->
  exists x, diffusion_form V geom q vol es a u v x.
Proof. exact diffusion_defined. Qed.
Print Assumptions C74_diffusion_defined.
Theorem C74_mass_defined : forall V geom get q vol codim sel c u v, let es := filter sel (entities (sp_mesh V) codim) in
  prepared V geom get q vol es -> length u = NumDofs (sp_dofs V) -> length v = NumDofs (sp_dofs V) -> exists x, mass_form V q vol es c u v x.
Proof. exact mass_defined. Qed.
Print Assumptions C74_mass_defined.
Theorem C74_load_defined : forall V geom get q vol codim sel h v, let es := filter sel (entities (sp_mesh V) codim) in
  prepared V geom get q vol es -> length v = NumDofs (sp_dofs V) -> exists x, load_form V q vol es h v x.
Proof. exact load_defined. Qed.
Print Assumptions C74_load_defined.

(** Galerkin matrices of symmetric forms are symmetric, of nonnegative forms positive
    semidefinite. *)
Theorem C74_symmetric : forall V r a A D, galerkin_matrix V r a -> r = Ok A -> AssembleSpec.is_matrix Rring A (NumDofs (sp_dofs V)) (NumDofs (sp_dofs V)) D ->
  (forall u v, length u = NumDofs (sp_dofs V) -> length v = NumDofs (sp_dofs V) -> exists x, a u v x) -> (forall u v x, a u v x -> a v u x) ->
  forall i j, (i < NumDofs (sp_dofs V))%nat -> (j < NumDofs (sp_dofs V))%nat -> D i j = D j i.
Proof. exact symmetric_matrix. Qed.
Print Assumptions C74_symmetric.
Theorem C74_nonnegative : forall V r a A D, galerkin_matrix V r a -> r = Ok A -> AssembleSpec.is_matrix Rring A (NumDofs (sp_dofs V)) (NumDofs (sp_dofs V)) D ->
  (forall u v, length u = NumDofs (sp_dofs V) -> length v = NumDofs (sp_dofs V) -> exists x, a u v x) -> (forall u x, a u u x -> 0 <= x) ->
  forall u, length u = NumDofs (sp_dofs V) -> 0 <= form Rring (NumDofs (sp_dofs V)) (NumDofs (sp_dofs V)) D (comp Rring u) (comp Rring u).
Proof. exact nonneg_matrix. Qed.
Print Assumptions C74_nonnegative.
Theorem C74_form_symmetric : forall V geom q vol es a u v x, (forall e p, In e es -> In p (qr_points (q e)) -> symmetric_coeff (go_dim (geom e)) (a e p)) ->
  diffusion_form V geom q vol es a u v x -> diffusion_form V geom q vol es a v u x.
Proof. exact diffusion_symmetric. Qed.
Print Assumptions C74_form_symmetric.
Theorem C74_mass_form_symmetric : forall V q vol es c u v x, mass_form V q vol es c u v x -> mass_form V q vol es c v u x.
Proof. exact mass_symmetric. Qed.
Print Assumptions C74_mass_form_symmetric.
Theorem C74_form_nonnegative : forall V geom get q vol es a u x, prepared V geom get q vol es ->
  (forall e, In e es -> nonnegative_weights (q e)) -> (forall e p, In e es -> In p (qr_points (q e)) -> nonnegative_coeff (go_dim (geom e)) (a e p)) ->
  diffusion_form V geom q vol es a u u x -> 0 <= x.
Proof. exact diffusion_nonneg. Qed.
Print Assumptions C74_form_nonnegative.
Theorem C74_mass_form_nonnegative : forall V geom get q vol es c u x, prepared V geom get q vol es ->
  (forall e, In e es -> nonnegative_weights (q e)) -> (forall e p, In e es -> In p (qr_points (q e)) -> 0 <= c e p) ->
  mass_form V q vol es c u u x -> 0 <= x.
Proof. exact mass_nonneg. Qed.
Print Assumptions C74_mass_form_nonnegative.
(** Constants are in the kernel of the diffusion form. *)
Theorem C74_constants : forall V geom get q vol codim sel a c v x, let es := filter sel (entities (sp_mesh V) codim) in
  prepared V geom get q vol es -> of_dim geom 2 es -> regular V geom q es ->
  (forall e f, In e es -> sp_layout V e = Some f -> counts f /\ partition_of_unity f /\ gradients_ok f /\ fe_el f = kind_el (go_kind (geom e))) ->
  diffusion_form V geom q vol es a (repeat c (NumDofs (sp_dofs V))) v x -> x = 0.
Proof. exact diffusion_constants. Qed.
Print Assumptions C74_constants.

(** Lagrangian spaces on any mesh meet the hypotheses, if the geometries fit the cells, the
    rules lie in the reference elements and cells do not degenerate there. *)
Theorem C74_lagrange : forall k m V, wf_mesh m -> lagrange_space k m = Ok V -> forall c sel geom get q, (c = 0 \/ c = 1)%nat -> let es := filter sel (entities m c) in
  (forall e, In e es -> kind_el (go_kind (geom e)) = ent_type m e /\ get (ent_type m e) (2 * ord k)%nat = Ok (q e) /\
     length (qr_weights (q e)) = length (qr_points (q e)) /\ at_points (q e) (admissible (geom e))) ->
  exists vol, (forall e p, In e es -> admissible (geom e) p -> volume_at (geom e) (vol e) p) /\ prepared V geom get q vol es /\
    ((forall e, In e es -> at_points (q e) (nondegenerate (geom e))) -> regular V geom q es).
Proof. exact lagrange_prepared. Qed.
Print Assumptions C74_lagrange.

(** On straight triangles and parallelograms and for coefficients that are constant on
    cells, the form with the exact integrals is met up to the accuracy of the rules. *)
Theorem C74_diffusion_accuracy : forall k m V geom sel, wf_mesh m -> lagrange_space k m = Ok V ->
  let es := filter sel (entities (sp_mesh V) 0) in let N := NumDofs (sp_dofs V) in flat_cells V geom es ->
  forall vol u v, all_over es (fun e => volume_at (geom e) (vol e)) -> length u = N -> length v = N ->
  forall U X (A : ent -> coeff), all_over es (fun e => has_gradient V geom u e (U e)) -> all_over es (fun e => has_gradient V geom v e (X e)) ->
  exists C, 0 <= C /\ forall tol get q alpha Mat D, rules_within V tol get (2 * ord k) q es -> all_over es (fun e => value_at (alpha e) (fun _ => A e)) ->
    AssembleMatrixWith (sp_mesh V) 0 (sp_dofs V) (sp_dofs V) sel (diffusion_provider get V geom alpha) = Ok Mat -> AssembleSpec.is_matrix Rring Mat N N D ->
    Rabs (form Rring N N D (comp Rring v) (comp Rring u) -
      sum_over es (fun e => integral (ent_type m e) (fun p => vol e p * inner (go_dim (geom e)) (X e p) (flux (go_dim (geom e)) (A e) (U e p))))) <= tol * C.
Proof. exact diffusion_galerkin_accuracy. Qed.
Print Assumptions C74_diffusion_accuracy.
Theorem C74_mass_accuracy : forall k m V geom sel, wf_mesh m -> lagrange_space k m = Ok V ->
  let es := filter sel (entities (sp_mesh V) 0) in let N := NumDofs (sp_dofs V) in flat_cells V geom es ->
  forall vol u v, all_over es (fun e => volume_at (geom e) (vol e)) -> length u = N -> length v = N ->
  forall U X (c : ent -> R), all_over es (fun e p => fe_value V u e p = Ok (U e p)) -> all_over es (fun e p => fe_value V v e p = Ok (X e p)) ->
  exists C, 0 <= C /\ forall tol get q gamma Mat D, rules_within V tol get (2 * ord k) q es -> all_over es (fun e => value_at (gamma e) (fun _ => c e)) ->
    AssembleMatrixWith (sp_mesh V) 0 (sp_dofs V) (sp_dofs V) sel (mass_provider get V geom gamma) = Ok Mat -> AssembleSpec.is_matrix Rring Mat N N D ->
    Rabs (form Rring N N D (comp Rring v) (comp Rring u) -
      sum_over es (fun e => integral (ent_type m e) (fun p => vol e p * (c e * X e p * U e p)))) <= tol * C.
Proof. exact mass_galerkin_accuracy. Qed.
Print Assumptions C74_mass_accuracy.
Theorem C74_load_accuracy : forall k m V geom sel, wf_mesh m -> lagrange_space k m = Ok V ->
  let es := filter sel (entities (sp_mesh V) 0) in let N := NumDofs (sp_dofs V) in flat_cells V geom es ->
  forall vol v, all_over es (fun e => volume_at (geom e) (vol e)) -> length v = N ->
  forall X h (c : ent -> list nat -> R), all_over es (fun e p => fe_value V v e p = Ok (X e p)) ->
  all_over es (fun e p => h e p = poly (exponents (ent_type m e) (ord k)) (c e) p) ->
  exists C, 0 <= C /\ forall tol get q src b, rules_within V tol get (2 * ord k) q es -> all_over es (fun e => value_at (src e) (h e)) ->
    AssembleVectorWith (sp_mesh V) 0 (sp_dofs V) sel (load_provider get V geom src) = Ok b ->
    Rabs (sum_to N (fun i => nth i b 0 * nth i v 0) - sum_over es (fun e => integral (ent_type m e) (fun p => vol e p * (h e p * X e p)))) <= tol * C.
Proof. exact load_galerkin_accuracy. Qed.
Print Assumptions C74_load_accuracy.
(** Values, gradients and volume elements exist on all of such cells, and the rules of the
    library are accurate. *)
Theorem C74_data : forall k m V geom sel, wf_mesh m -> lagrange_space k m = Ok V ->
  let es := filter sel (entities (sp_mesh V) 0) in let N := NumDofs (sp_dofs V) in flat_cells V geom es ->
  forall u, length u = N -> exists vol U G, all_over es (fun e => volume_at (geom e) (vol e)) /\
  all_over es (fun e p => fe_value V u e p = Ok (U e p)) /\ all_over es (fun e => has_gradient V geom u e (G e)).
Proof. exact flat_data. Qed.
Print Assumptions C74_data.
Theorem C74_rules : forall k m V stop stopj sel, wf_mesh m -> lagrange_space k m = Ok V -> finds_legendre_zeros stop (ord k + 1) -> finds_jacobi_zeros stopj (ord k + 1) ->
  exists q, rules_within V (1 / 10 ^ 15) (make_QuadRule (GaussLegendre stop) (GaussJacobi stopj) HardcodedQuadRule) (2 * ord k) q (filter sel (entities (sp_mesh V) 0)) /\
    forall e, In e (filter sel (entities (sp_mesh V) 0)) -> nonnegative_weights (q e).
Proof. exact library_rules. Qed.
Print Assumptions C74_rules.
Example C74_example : wf_mesh one_mesh /\
  forall k V, lagrange_space k one_mesh = Ok V -> flat_cells V (fun _ => tri) (filter (fun _ => true) (entities (sp_mesh V) 0)).
Proof. split; [apply one_wf|exact example_flat]. Qed.

(** *** C75 *)
(** MeshFunctionGradFE: the vector it returns is the gradient in world coordinates of the
    function that MeshFunctionFE evaluates. *)
Theorem C75_gradient : forall V geom e f l u p, element_of V e f l -> counts f -> gradients_ok f ->
  fe_el f = kind_el (go_kind (geom e)) -> kind_el (go_kind (geom e)) = ent_type (sp_mesh V) e -> dim_local (go_kind (geom e)) <> 0%nat ->
  length u = NumDofs (sp_dofs V) -> admissible (geom e) p -> nondegenerate (geom e) p ->
  exists w, fe_grad_value V geom u e p = Ok w /\ world_gradient_of (geom e) (fe_value V u e) p w.
Proof. exact gradient_correct. Qed.
Print Assumptions C75_gradient.
(** Cells and edges of any mesh, Lagrangian elements. *)
Theorem C75_lagrange : forall k m V, wf_mesh m -> lagrange_space k m = Ok V -> forall c e geom u p, (c = 0 \/ c = 1)%nat -> In e (entities m c) ->
  kind_el (go_kind (geom e)) = ent_type m e -> length u = NumDofs (sp_dofs V) -> admissible (geom e) p -> nondegenerate (geom e) p ->
  exists w, fe_grad_value V geom u e p = Ok w /\ world_gradient_of (geom e) (fe_value V u e) p w.
Proof. exact lagrange_gradient_correct. Qed.
Print Assumptions C75_lagrange.
Example C75_example : wf_mesh one_mesh /\ In (ECell 0) (entities one_mesh 0) /\ kind_el (go_kind tri) = ent_type one_mesh (ECell 0) /\
  admissible tri [1 / 3; 1 / 3] /\ nondegenerate tri [1 / 3; 1 / 3].
Proof. exact gradient_example. Qed.

(** *** C76 *)
(** The solutions of the linear system after the essential conditions have been imposed are
    the coefficient vectors of the finite element functions u with the values g at the nodes
    of the selected edges and a (u, v) = l (v) for all finite element functions v that vanish
    on the selected edges. *)
Theorem C76_essential : forall k m V g, wf_mesh m -> lagrange_space k m = Ok V -> continuous_function m g ->
  forall sel rA rb a l, let N := NumDofs (sp_dofs V) in
  galerkin_matrix V rA a -> galerkin_vector V rb l -> defined_forms V a l ->
  exists A b fv A' b' D', rA = Ok A /\ rb = Ok b /\ InitEssentialConditionFromFunction V sel g = Ok fv /\
    FixFlaggedSolutionComponents Rring (fun i => nth i fv (false, 0)) A b = Ok (A', b') /\
    AssembleSpec.is_matrix Rring A' N N D' /\ length b' = N /\
    forall mu, length mu = N -> (solves Rring N D' (comp Rring b') (comp Rring mu) <-> weak_solution V sel g a l mu).
Proof. exact lagrange_dirichlet. Qed.
Print Assumptions C76_essential.
(** - div (a grad u) + c u = h with u = g on the selected edges: providers of
    uscalfe/loc_comp_ellbvp.h with default rules. *)
Theorem C76_boundary_value_problem : forall k m V geom make P q bd g alpha gamma src a c h, let es := filter (fun _ => true) (entities (sp_mesh V) 0) in
  wf_mesh m -> lagrange_space k m = Ok V -> continuous_function m g -> precompute_default make (fun t => Some (lagrange k t)) = Ok P ->
  (forall e, In e es -> kind_el (go_kind (geom e)) = ent_type m e /\ make (ent_type m e) (2 * ord k)%nat = Ok (q e) /\
     length (qr_weights (q e)) = length (qr_points (q e)) /\ at_points (q e) (fun p => admissible (geom e) p /\ nondegenerate (geom e) p)) ->
  given_by alpha a q es -> given_by gamma c q es -> given_by src h q es -> let N := NumDofs (sp_dofs V) in
  exists vol, (forall e p, In e es -> admissible (geom e) p -> volume_at (geom e) (vol e) p) /\
  exists A b fv A' b' D',
    AssembleMatrixWith (sp_mesh V) 0 (sp_dofs V) (sp_dofs V) (fun _ => true) (rd_provider P geom alpha gamma) = Ok A /\
    AssembleVectorWith (sp_mesh V) 0 (sp_dofs V) (fun _ => true) (uload_provider P geom src) = Ok b /\
    InitEssentialConditionFromFunction V bd g = Ok fv /\
    FixFlaggedSolutionComponents Rring (fun i => nth i fv (false, 0)) A b = Ok (A', b') /\
    AssembleSpec.is_matrix Rring A' N N D' /\ length b' = N /\
    forall mu, length mu = N -> (solves Rring N D' (comp Rring b') (comp Rring mu) <->
      weak_solution V bd g (sum_form (diffusion_form V geom q vol es a) (mass_form V q vol es c)) (load_form V q vol es h) mu).
Proof. exact boundary_value_problem. Qed.
Print Assumptions C76_boundary_value_problem.
Example C76_example : wf_mesh one_mesh /\ continuous_function one_mesh (fun _ _ => Ok 1) /\ (exists V, lagrange_space O2 one_mesh = Ok V) /\
  exists P q, precompute_default (fun _ _ => Ok q) (fun t => Some (lagrange O2 t)) = Ok P /\ length (qr_weights q) = length (qr_points q) /\
    qr_points q <> [] /\ at_points q (fun p => admissible tri p /\ nondegenerate tri p).
Proof. exact bvp_example. Qed.
