(** C76: boundary value problems with exactly one solution. *)
From Coq Require Import Reals List Arith Bool.
Import ListNotations.
From Verif Require Import Base Scalars MeshModel MeshView DofModel DofSpec RefPatModel GeoModel GeoSpec PropGeo FeModel LagrModel QuadModel TriaTab QuadRuleModel AssembleModel AssembleSpec
  FeSpec QuadSpec GaussSpec ElemModel ElemSpec FeToolsModel FeToolsSpec FeToolsProofs5 ProlongSpec GalerkinModel GalerkinSpec DirichletSpec StokesSpec RectSpec
  GalerkinProofs13 GalerkinProofs14 GalerkinProofs15 GalerkinProofs16 GalerkinProofs20 GalerkinProofs21 GalerkinProofs24 FisherModel2 GalerkinProofs25 GalerkinProofs26.
Local Open Scope R_scope.

(** If a (v, v) = 0 only for v = 0, among the functions that vanish on the selected edges, then the
    linear system after the essential conditions have been imposed has exactly one solution; it is the
    only solution of the variational problem. *)
Theorem C76_unique : forall k m V g, wf_mesh m -> lagrange_space k m = Ok V -> continuous_function m g ->
  forall sel rA rb a l, let N := NumDofs (sp_dofs V) in
  galerkin_matrix V rA a -> galerkin_vector V rb l -> defined_forms V a l ->
  (forall v, length v = N -> vanishes_on V v sel -> a v v 0 -> v = repeat 0 N) ->
  exists A b fv A' b' D', rA = Ok A /\ rb = Ok b /\ InitEssentialConditionFromFunction V sel g = Ok fv /\
    FixFlaggedSolutionComponents Rring (fun i => nth i fv (false, 0)) A b = Ok (A', b') /\
    AssembleSpec.is_matrix Rring A' N N D' /\ length b' = N /\
    exists mu, length mu = N /\ solves Rring N D' (comp Rring b') (comp Rring mu) /\ weak_solution V sel g a l mu /\
      forall mu', length mu' = N -> solves Rring N D' (comp Rring b') (comp Rring mu') \/ weak_solution V sel g a l mu' -> mu' = mu.
Proof. exact lagrange_unique. Qed.
Print Assumptions C76_unique.

(** - div (a grad u) + c u = h with u = g on the selected edges, elements of order 1 to 3 on triangles
    and quadrilaterals: exactly one solution if a is positive definite and c is not negative at the points
    of the rules, cells do not degenerate, the rules settle the elements (see C76_rules), and every node
    is linked to a selected edge by a chain of cells. *)
Theorem C76_unique_problem : forall k m V geom make P q bd g alpha gamma src a c h, let es := filter (fun _ => true) (entities (sp_mesh V) 0) in
  wf_mesh m -> complete_mesh m -> all_held m bd -> lagrange_space k m = Ok V -> continuous_function m g -> precompute_default make (fun t => Some (lagrange k t)) = Ok P ->
  (forall e, In e es -> kind_el (go_kind (geom e)) = ent_type m e /\ make (ent_type m e) (2 * ord k)%nat = Ok (q e) /\
     length (qr_weights (q e)) = length (qr_points (q e)) /\ nonnegative_weights (q e) /\ settles (q e) (lagrange k (ent_type m e)) /\
     at_points (q e) (fun p => admissible (geom e) p /\ nondegenerate (geom e) p /\ positive_coeff (go_dim (geom e)) (a e p) /\ 0 <= c e p)) ->
  given_by alpha a q es -> given_by gamma c q es -> given_by src h q es -> let N := NumDofs (sp_dofs V) in
  exists vol, (forall e p, In e es -> admissible (geom e) p -> volume_at (geom e) (vol e) p) /\
  let form := sum_form (diffusion_form V geom q vol es a) (mass_form V q vol es c) in let load := load_form V q vol es h in
  exists A b fv A' b' D',
    AssembleMatrixWith (sp_mesh V) 0 (sp_dofs V) (sp_dofs V) (fun _ => true) (rd_provider P geom alpha gamma) = Ok A /\
    AssembleVectorWith (sp_mesh V) 0 (sp_dofs V) (fun _ => true) (uload_provider P geom src) = Ok b /\
    InitEssentialConditionFromFunction V bd g = Ok fv /\
    FixFlaggedSolutionComponents Rring (fun i => nth i fv (false, 0)) A b = Ok (A', b') /\
    AssembleSpec.is_matrix Rring A' N N D' /\ length b' = N /\
    exists mu, length mu = N /\ solves Rring N D' (comp Rring b') (comp Rring mu) /\ weak_solution V bd g form load mu /\
      forall mu', length mu' = N -> solves Rring N D' (comp Rring b') (comp Rring mu') \/ weak_solution V bd g form load mu' -> mu' = mu.
Proof. exact settled_problem. Qed.
Print Assumptions C76_unique_problem.

(** The rules that the library takes by default settle the elements: a finite element function whose
    gradient vanishes at their points is constant on the cell. *)
Theorem C76_rules : forall stop jac k, let make := make_QuadRule (GaussLegendre stop) jac HardcodedQuadRule in finds_legendre_zeros stop (ord k + 1) ->
  exists P q, precompute_default make (fun t => Some (lagrange k t)) = Ok P /\ forall t, t = kTria \/ t = kQuad ->
    make t (2 * ord k)%nat = Ok (q t) /\ qr_el (q t) = t /\ length (qr_weights (q t)) = length (qr_points (q t)) /\ nonnegative_weights (q t) /\ settles (q t) (lagrange k t) /\
    at_points (q t) (in_ref t).
Proof. exact library_rules. Qed.
Print Assumptions C76_rules.

(** Hence with the rules of the library exactly one solution exists, on all meshes of triangles and
    quadrilaterals whose cells do not degenerate. *)
Theorem C76_unique_library : forall stop jac k m V geom bd g a c h, let es := filter (fun _ => true) (entities (sp_mesh V) 0) in let make := make_QuadRule (GaussLegendre stop) jac HardcodedQuadRule in
  finds_legendre_zeros stop (ord k + 1) -> wf_mesh m -> complete_mesh m -> all_held m bd -> lagrange_space k m = Ok V -> continuous_function m g ->
  (forall e, In e es -> kind_el (go_kind (geom e)) = ent_type m e) ->
  (forall e p, In e es -> in_ref (ent_type m e) p -> admissible (geom e) p /\ nondegenerate (geom e) p /\ positive_coeff (go_dim (geom e)) (a e p) /\ 0 <= c e p) ->
  exists P q, precompute_default make (fun t => Some (lagrange k t)) = Ok P /\ (forall e, In e es -> make (ent_type m e) (2 * ord k)%nat = Ok (q e)) /\
  forall alpha gamma src, given_by alpha a q es -> given_by gamma c q es -> given_by src h q es -> let N := NumDofs (sp_dofs V) in
  exists vol, (forall e p, In e es -> admissible (geom e) p -> volume_at (geom e) (vol e) p) /\
  let form := sum_form (diffusion_form V geom q vol es a) (mass_form V q vol es c) in let load := load_form V q vol es h in
  exists A b fv A' b' D',
    AssembleMatrixWith (sp_mesh V) 0 (sp_dofs V) (sp_dofs V) (fun _ => true) (rd_provider P geom alpha gamma) = Ok A /\
    AssembleVectorWith (sp_mesh V) 0 (sp_dofs V) (fun _ => true) (uload_provider P geom src) = Ok b /\
    InitEssentialConditionFromFunction V bd g = Ok fv /\
    FixFlaggedSolutionComponents Rring (fun i => nth i fv (false, 0)) A b = Ok (A', b') /\
    AssembleSpec.is_matrix Rring A' N N D' /\ length b' = N /\
    exists mu, length mu = N /\ solves Rring N D' (comp Rring b') (comp Rring mu) /\ weak_solution V bd g form load mu /\
      forall mu', length mu' = N -> solves Rring N D' (comp Rring b') (comp Rring mu') \/ weak_solution V bd g form load mu' -> mu' = mu.
Proof. exact library_problem. Qed.
Print Assumptions C76_unique_library.

(** With all boundary edges selected this applies to the meshes of C107: the triangular meshes of
    rectangles and all their uniform refinements. *)
Theorem C76_unique_triangulation : forall m geom pos, fit_for_stokes m geom pos -> forall k V make P q bd g alpha gamma src a c h, let es := filter (fun _ => true) (entities (sp_mesh V) 0) in
  lagrange_space k m = Ok V -> continuous_function m g -> (forall e, boundary_edge m e = true -> bd (EEdge e) = true) ->
  precompute_default make (fun t => Some (lagrange k t)) = Ok P -> make kTria (2 * ord k)%nat = Ok q -> tria_rule q -> nonnegative_weights q -> settles q (lagrange k kTria) ->
  given_by alpha a (fun _ => q) es -> given_by gamma c (fun _ => q) es -> given_by src h (fun _ => q) es ->
  (forall e p, In e es -> In p (qr_points q) -> positive_coeff 2 (a e p) /\ 0 <= c e p) -> let N := NumDofs (sp_dofs V) in
  exists vol, (forall e p, In e es -> length p = 2%nat -> volume_at (geom e) (vol e) p) /\
  let form := sum_form (diffusion_form V geom (fun _ => q) vol es a) (mass_form V (fun _ => q) vol es c) in let load := load_form V (fun _ => q) vol es h in
  exists A b fv A' b' D',
    AssembleMatrixWith (sp_mesh V) 0 (sp_dofs V) (sp_dofs V) (fun _ => true) (rd_provider P geom alpha gamma) = Ok A /\
    AssembleVectorWith (sp_mesh V) 0 (sp_dofs V) (fun _ => true) (uload_provider P geom src) = Ok b /\
    InitEssentialConditionFromFunction V bd g = Ok fv /\
    FixFlaggedSolutionComponents Rring (fun i => nth i fv (false, 0)) A b = Ok (A', b') /\
    AssembleSpec.is_matrix Rring A' N N D' /\ length b' = N /\
    exists mu, length mu = N /\ solves Rring N D' (comp Rring b') (comp Rring mu) /\ weak_solution V bd g form load mu /\
      forall mu', length mu' = N -> solves Rring N D' (comp Rring b') (comp Rring mu') \/ weak_solution V bd g form load mu' -> mu' = mu.
Proof. exact fit_problem. Qed.
Print Assumptions C76_unique_triangulation.

Example C76_unique_example : wf_mesh one_mesh /\ complete_mesh one_mesh /\ all_held one_mesh (fun e => match e with EEdge 0 => true | _ => false end) /\
  continuous_function one_mesh (fun _ _ => Ok 1) /\ (exists V, lagrange_space O1 one_mesh = Ok V) /\
  exists P q, precompute_default (fun _ _ => Ok q) (fun t => Some (lagrange O1 t)) = Ok P /\ tria_rule q /\ nonnegative_weights q /\ settles q (lagrange O1 kTria) /\
    at_points q (fun p => admissible tri p /\ nondegenerate tri p /\ positive_coeff 2 (Scal 1)).
Proof. exact dirichlet_example. Qed.
Example C76_library_example : (exists stop, finds_legendre_zeros stop (ord O3 + 1)) /\
  (forall e, In e (entities one_mesh 0) -> kind_el (go_kind tri) = ent_type one_mesh e) /\
  forall p, in_ref kTria p -> admissible tri p /\ nondegenerate tri p /\ positive_coeff (go_dim tri) (Scal 1) /\ 0 <= 1.
Proof. exact library_example. Qed.

(** If c is positive, a need not be, and no condition on the boundary is needed: exactly one solution for
    every selection of edges, if the rules pin the elements. *)
Theorem C76_reaction : forall k m V geom make P q bd g alpha gamma src a c h, let es := filter (fun _ => true) (entities (sp_mesh V) 0) in
  wf_mesh m -> complete_mesh m -> lagrange_space k m = Ok V -> continuous_function m g -> precompute_default make (fun t => Some (lagrange k t)) = Ok P ->
  (forall e, In e es -> kind_el (go_kind (geom e)) = ent_type m e /\ make (ent_type m e) (2 * ord k)%nat = Ok (q e) /\
     length (qr_weights (q e)) = length (qr_points (q e)) /\ nonnegative_weights (q e) /\ pins (q e) (lagrange k (ent_type m e)) /\
     at_points (q e) (fun p => admissible (geom e) p /\ nondegenerate (geom e) p /\ nonnegative_coeff (go_dim (geom e)) (a e p) /\ 0 < c e p)) ->
  given_by alpha a q es -> given_by gamma c q es -> given_by src h q es -> let N := NumDofs (sp_dofs V) in
  exists vol, (forall e p, In e es -> admissible (geom e) p -> volume_at (geom e) (vol e) p) /\
  let form := sum_form (diffusion_form V geom q vol es a) (mass_form V q vol es c) in let load := load_form V q vol es h in
  exists A b fv A' b' D',
    AssembleMatrixWith (sp_mesh V) 0 (sp_dofs V) (sp_dofs V) (fun _ => true) (rd_provider P geom alpha gamma) = Ok A /\
    AssembleVectorWith (sp_mesh V) 0 (sp_dofs V) (fun _ => true) (uload_provider P geom src) = Ok b /\
    InitEssentialConditionFromFunction V bd g = Ok fv /\
    FixFlaggedSolutionComponents Rring (fun i => nth i fv (false, 0)) A b = Ok (A', b') /\
    AssembleSpec.is_matrix Rring A' N N D' /\ length b' = N /\
    exists mu, length mu = N /\ solves Rring N D' (comp Rring b') (comp Rring mu) /\ weak_solution V bd g form load mu /\
      forall mu', length mu' = N -> solves Rring N D' (comp Rring b') (comp Rring mu') \/ weak_solution V bd g form load mu' -> mu' = mu.
Proof. exact reaction_problem. Qed.
Print Assumptions C76_reaction.

(** The rules that the library takes by default do, on triangles for order 1 and on quadrilaterals for all
    orders: a finite element function that vanishes at their points is zero on the cell. *)
Theorem C76_rules_reaction : forall stop jac k t q, finds_legendre_zeros stop (ord k + 1) -> k = O1 /\ t = kTria \/ t = kQuad ->
  make_QuadRule (GaussLegendre stop) jac HardcodedQuadRule t (2 * ord k) = Ok q -> pins q (lagrange k t).
Proof. exact library_pins. Qed.
Print Assumptions C76_rules_reaction.

Theorem C76_reaction_library : forall stop jac k m V geom bd g a c h, let es := filter (fun _ => true) (entities (sp_mesh V) 0) in let make := make_QuadRule (GaussLegendre stop) jac HardcodedQuadRule in
  finds_legendre_zeros stop (ord k + 1) -> wf_mesh m -> complete_mesh m -> lagrange_space k m = Ok V -> continuous_function m g -> (forall e, In e es -> k = O1 \/ ent_type m e = kQuad) ->
  (forall e, In e es -> kind_el (go_kind (geom e)) = ent_type m e) ->
  (forall e p, In e es -> in_ref (ent_type m e) p -> admissible (geom e) p /\ nondegenerate (geom e) p /\ nonnegative_coeff (go_dim (geom e)) (a e p) /\ 0 < c e p) ->
  exists P q, precompute_default make (fun t => Some (lagrange k t)) = Ok P /\ (forall e, In e es -> make (ent_type m e) (2 * ord k)%nat = Ok (q e)) /\
  forall alpha gamma src, given_by alpha a q es -> given_by gamma c q es -> given_by src h q es -> let N := NumDofs (sp_dofs V) in
  exists vol, (forall e p, In e es -> admissible (geom e) p -> volume_at (geom e) (vol e) p) /\
  let form := sum_form (diffusion_form V geom q vol es a) (mass_form V q vol es c) in let load := load_form V q vol es h in
  exists A b fv A' b' D',
    AssembleMatrixWith (sp_mesh V) 0 (sp_dofs V) (sp_dofs V) (fun _ => true) (rd_provider P geom alpha gamma) = Ok A /\
    AssembleVectorWith (sp_mesh V) 0 (sp_dofs V) (fun _ => true) (uload_provider P geom src) = Ok b /\
    InitEssentialConditionFromFunction V bd g = Ok fv /\
    FixFlaggedSolutionComponents Rring (fun i => nth i fv (false, 0)) A b = Ok (A', b') /\
    AssembleSpec.is_matrix Rring A' N N D' /\ length b' = N /\
    exists mu, length mu = N /\ solves Rring N D' (comp Rring b') (comp Rring mu) /\ weak_solution V bd g form load mu /\
      forall mu', length mu' = N -> solves Rring N D' (comp Rring b') (comp Rring mu') \/ weak_solution V bd g form load mu' -> mu' = mu.
Proof. exact library_reaction. Qed.
Print Assumptions C76_reaction_library.

Example C76_reaction_example : (exists stop, finds_legendre_zeros stop (ord O1 + 1)) /\ wf_mesh one_mesh /\ complete_mesh one_mesh /\
  (exists V, lagrange_space O1 one_mesh = Ok V) /\ (forall e, In e (entities one_mesh 0) -> kind_el (go_kind tri) = ent_type one_mesh e) /\
  forall p, in_ref kTria p -> admissible tri p /\ nondegenerate tri p /\ nonnegative_coeff (go_dim tri) (Scal 0) /\ 0 < 1.
Proof. exact reaction_example. Qed.

(** Impedance conditions a grad u . n + eta u = 0 on some edges, boundary values on others: the matrix of the
    edges is added to the matrix of the cells, and there is exactly one solution if eta is positive and every
    node is linked to an edge of either kind. *)
Theorem C76_robin : forall k m V geom make P pfe q qb bd rob g alpha gamma eta src a c h et, let es := filter (fun _ => true) (entities (sp_mesh V) 0) in let eb := filter rob (entities (sp_mesh V) 1) in
  wf_mesh m -> complete_mesh m -> all_held m (fun e => bd e || rob e) -> lagrange_space k m = Ok V -> continuous_function m g ->
  precompute_default make (fun t => Some (lagrange k t)) = Ok P -> precompute_edge make (fun t => Some (lagrange k t)) None = Ok pfe ->
  (forall e, In e es -> kind_el (go_kind (geom e)) = ent_type m e /\ make (ent_type m e) (2 * ord k)%nat = Ok (q e) /\
     length (qr_weights (q e)) = length (qr_points (q e)) /\ nonnegative_weights (q e) /\ settles (q e) (lagrange k (ent_type m e)) /\
     at_points (q e) (fun p => admissible (geom e) p /\ nondegenerate (geom e) p /\ positive_coeff (go_dim (geom e)) (a e p) /\ 0 <= c e p)) ->
  (forall e, In e eb -> kind_el (go_kind (geom e)) = kSegment /\ make kSegment (2 * ord k)%nat = Ok (qb e) /\
     length (qr_weights (qb e)) = length (qr_points (qb e)) /\ nonnegative_weights (qb e) /\ pins (qb e) (lagrange k kSegment) /\
     at_points (qb e) (fun p => admissible (geom e) p /\ nondegenerate (geom e) p /\ 0 < et e p)) ->
  given_by alpha a q es -> given_by gamma c q es -> given_by src h q es -> given_by eta et qb eb -> let N := NumDofs (sp_dofs V) in
  exists vol, (forall e p, In e es \/ In e eb -> admissible (geom e) p -> volume_at (geom e) (vol e) p) /\
  let form := sum_form (sum_form (diffusion_form V geom q vol es a) (mass_form V q vol es c)) (mass_form V qb vol eb et) in let load := load_form V q vol es h in
  exists A0 A b fv A' b' D',
    AssembleMatrixWith (sp_mesh V) 0 (sp_dofs V) (sp_dofs V) (fun _ => true) (rd_provider P geom alpha gamma) = Ok A0 /\
    assemble_onto (sp_mesh V) 1 (sp_dofs V) rob (umass_edge_provider pfe geom eta) A0 = Ok A /\
    AssembleVectorWith (sp_mesh V) 0 (sp_dofs V) (fun _ => true) (uload_provider P geom src) = Ok b /\
    InitEssentialConditionFromFunction V bd g = Ok fv /\
    FixFlaggedSolutionComponents Rring (fun i => nth i fv (false, 0)) A b = Ok (A', b') /\
    AssembleSpec.is_matrix Rring A' N N D' /\ length b' = N /\
    exists mu, length mu = N /\ solves Rring N D' (comp Rring b') (comp Rring mu) /\ weak_solution V bd g form load mu /\
      forall mu', length mu' = N -> solves Rring N D' (comp Rring b') (comp Rring mu') \/ weak_solution V bd g form load mu' -> mu' = mu.
Proof. exact robin_problem. Qed.
Print Assumptions C76_robin.

(** With the rules of the library. *)
Theorem C76_rules_robin : forall stop jac tab k q, finds_legendre_zeros stop (ord k + 1) -> make_QuadRule (GaussLegendre stop) jac tab kSegment (2 * ord k) = Ok q ->
  pins q (lagrange k kSegment).
Proof. exact library_pins_segment. Qed.
Print Assumptions C76_rules_robin.

Theorem C76_robin_library : forall stop jac k m V geom bd rob g a c h et, let es := filter (fun _ => true) (entities (sp_mesh V) 0) in let eb := filter rob (entities (sp_mesh V) 1) in
  let make := make_QuadRule (GaussLegendre stop) jac HardcodedQuadRule in
  finds_legendre_zeros stop (ord k + 1) -> wf_mesh m -> complete_mesh m -> all_held m (fun e => bd e || rob e) -> lagrange_space k m = Ok V -> continuous_function m g ->
  (forall e, In e es \/ In e eb -> kind_el (go_kind (geom e)) = ent_type m e) ->
  (forall e p, In e es -> in_ref (ent_type m e) p -> admissible (geom e) p /\ nondegenerate (geom e) p /\ positive_coeff (go_dim (geom e)) (a e p) /\ 0 <= c e p) ->
  (forall e p, In e eb -> in_ref kSegment p -> admissible (geom e) p /\ nondegenerate (geom e) p /\ 0 < et e p) ->
  exists P pfe q qb, precompute_default make (fun t => Some (lagrange k t)) = Ok P /\ precompute_edge make (fun t => Some (lagrange k t)) None = Ok pfe /\
  (forall e, In e es -> make (ent_type m e) (2 * ord k)%nat = Ok (q e)) /\ (forall e, In e eb -> make kSegment (2 * ord k)%nat = Ok (qb e)) /\
  forall alpha gamma eta src, given_by alpha a q es -> given_by gamma c q es -> given_by src h q es -> given_by eta et qb eb -> let N := NumDofs (sp_dofs V) in
  exists vol, (forall e p, In e es \/ In e eb -> admissible (geom e) p -> volume_at (geom e) (vol e) p) /\
  let form := sum_form (sum_form (diffusion_form V geom q vol es a) (mass_form V q vol es c)) (mass_form V qb vol eb et) in let load := load_form V q vol es h in
  exists A0 A b fv A' b' D',
    AssembleMatrixWith (sp_mesh V) 0 (sp_dofs V) (sp_dofs V) (fun _ => true) (rd_provider P geom alpha gamma) = Ok A0 /\
    assemble_onto (sp_mesh V) 1 (sp_dofs V) rob (umass_edge_provider pfe geom eta) A0 = Ok A /\
    AssembleVectorWith (sp_mesh V) 0 (sp_dofs V) (fun _ => true) (uload_provider P geom src) = Ok b /\
    InitEssentialConditionFromFunction V bd g = Ok fv /\
    FixFlaggedSolutionComponents Rring (fun i => nth i fv (false, 0)) A b = Ok (A', b') /\
    AssembleSpec.is_matrix Rring A' N N D' /\ length b' = N /\
    exists mu, length mu = N /\ solves Rring N D' (comp Rring b') (comp Rring mu) /\ weak_solution V bd g form load mu /\
      forall mu', length mu' = N -> solves Rring N D' (comp Rring b') (comp Rring mu') \/ weak_solution V bd g form load mu' -> mu' = mu.
Proof. exact library_robin. Qed.
Print Assumptions C76_robin_library.

Example C76_robin_example : (exists stop, finds_legendre_zeros stop (ord O2 + 1)) /\ wf_mesh one_mesh /\ complete_mesh one_mesh /\
  all_held one_mesh (fun e => (fun _ => false) e || (fun e => match e with DofModel.EEdge 0 => true | _ => false end) e) /\ (exists V, lagrange_space O2 one_mesh = Ok V) /\
  (forall e, In e (entities one_mesh 0) \/ In e (filter (fun e => match e with DofModel.EEdge 0 => true | _ => false end) (entities one_mesh 1)) -> kind_el (go_kind (one_geom e)) = ent_type one_mesh e) /\
  (forall e p, In e (entities one_mesh 0) -> in_ref kTria p -> admissible (one_geom e) p /\ nondegenerate (one_geom e) p /\ positive_coeff (go_dim (one_geom e)) (Scal 1)) /\
  forall e p, In e (entities one_mesh 1) -> in_ref kSegment p -> admissible (one_geom e) p /\ nondegenerate (one_geom e) p.
Proof. exact robin_example. Qed.
