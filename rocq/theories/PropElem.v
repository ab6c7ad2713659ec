(** Properties C55, C56 and C65: element matrices and element vectors. *)
From Coq Require Import Reals List Arith Lia Lra Bool.
Import ListNotations.
From Verif Require Import Base MeshModel MeshView DofModel RefPatModel GeoModel GeoSpec PropGeo FeModel LagrModel FeSpec LagrProofs LagrProofs2
  QuadModel QuadSpec GaussSpec TriaTab TriaSpec QuadRuleModel PropQuad ElemModel ElemSpec
  ElemProofs6 ElemProofs7 ElemProofs8 ElemProofs9.
Local Open Scope R_scope.

(** *** C55: lf::fe providers.  With the quadrature rule [q] for twice the polynomial
    degree, the entries are the values of the rule for the integrals of the bilinear
    form; [vol] is the volume element, [G i] and [b i] are gradient (in world
    coordinates) and value of shape function [i]. *)
Theorem C55_diffusion : forall q g f vol, rule_on q g vol -> forall get alpha G a, dim_local (go_kind g) = 2%nat ->
  get (kind_el (go_kind g)) (2 * fe_degree f)%nat = Ok q -> at_points q (gradient_at g f G) -> at_points q (value_at alpha a) ->
  is_matrix (DiffusionEval get g f alpha) (fe_total f)
    (fun i j => quadrature q (fun p => vol p * inner (go_dim g) (G i p) (flux (go_dim g) (a p) (G j p)))).
Proof. exact diffusion_matrix. Qed.
Print Assumptions C55_diffusion.
Theorem C55_mass : forall q g f vol, rule_on q g vol -> forall b, at_points q (shape_at f b) -> forall get gamma c, dim_local (go_kind g) = 2%nat ->
  get (kind_el (go_kind g)) (2 * fe_degree f)%nat = Ok q -> at_points q (value_at gamma c) ->
  is_matrix (MassEval get g f gamma) (fe_total f) (fun i j => quadrature q (fun p => vol p * (c p * b i p * b j p))).
Proof. exact mass_matrix. Qed.
Print Assumptions C55_mass.
Theorem C55_mass_edge : forall q g f vol, rule_on q g vol -> forall b, at_points q (shape_at f b) -> forall get gamma c,
  get (kind_el (go_kind g)) (2 * fe_degree f)%nat = Ok q -> at_points q (value_at gamma c) ->
  is_matrix (MassEdgeEval get g f gamma) (fe_total f) (fun i j => quadrature q (fun p => vol p * (c p * b i p * b j p))).
Proof. exact mass_edge_matrix. Qed.
Print Assumptions C55_mass_edge.
Theorem C55_load : forall q g f vol, rule_on q g vol -> forall b, at_points q (shape_at f b) -> forall get src h, dim_local (go_kind g) = 2%nat ->
  get (kind_el (go_kind g)) (2 * fe_degree f)%nat = Ok q -> at_points q (value_at src h) ->
  is_vector (LoadEval get g f src) (fe_total f) (fun i => quadrature q (fun p => vol p * (h p * b i p))).
Proof. exact load_vector. Qed.
Print Assumptions C55_load.
Theorem C55_load_edge : forall q g f vol, rule_on q g vol -> forall b, at_points q (shape_at f b) -> forall get src h, dim_local (go_kind g) = 1%nat ->
  get (kind_el (go_kind g)) (2 * fe_degree f)%nat = Ok q -> at_points q (value_at src h) ->
  is_vector (LoadEdgeEval get g f src) (fe_total f) (fun i => quadrature q (fun p => vol p * (h p * b i p))).
Proof. exact load_edge_vector. Qed.
Print Assumptions C55_load_edge.

(** C55: symmetric for symmetric coefficients, positive semi-definite for
    non-negative ones, and the diffusion matrix maps constants to zero. *)
Theorem C55_diffusion_energy : forall q g f vol, rule_on q g vol -> forall get alpha G a M, dim_local (go_kind g) = 2%nat ->
  get (kind_el (go_kind g)) (2 * fe_degree f)%nat = Ok q -> at_points q (gradient_at g f G) -> at_points q (value_at alpha a) ->
  DiffusionEval get g f alpha = Ok M ->
  (forall u, quadratic_form M u = quadrature q (fun p => vol p *
     inner (go_dim g) (fe_gradient (fe_total f) u G p) (flux (go_dim g) (a p) (fe_gradient (fe_total f) u G p)))) /\
  (at_points q (fun p => symmetric_coeff (go_dim g) (a p)) -> symmetric M) /\
  (nonnegative_weights q -> at_points q (fun p => nonnegative_coeff (go_dim g) (a p)) -> positive_semidefinite M) /\
  (counts f -> partition_of_unity f -> gradients_ok f -> fe_el f = kind_el (go_kind g) ->
     forall i, (i < fe_total f)%nat -> image M (fun _ => 1) i = 0).
Proof. exact diffusion_props. Qed.
Print Assumptions C55_diffusion_energy.
(** The matrices of C55_mass, C55_mass_edge and C65_mass_edge. *)
Theorem C55_mass_energy : forall q g f vol, rule_on q g vol -> forall b r c M,
  is_matrix r (fe_total f) (fun i j => quadrature q (fun p => vol p * (c p * b i p * b j p))) -> r = Ok M ->
  (forall u, quadratic_form M u = quadrature q (fun p => vol p * (c p * fe_fun (fe_total f) u b p ^ 2))) /\
  symmetric M /\
  (nonnegative_weights q -> at_points q (fun p => 0 <= c p) -> positive_semidefinite M).
Proof. exact mass_props_of. Qed.
Print Assumptions C55_mass_energy.
(** The sum of all entries is the integral of the coefficient; likewise for vectors. *)
Theorem C55_mass_total : forall q g f vol, rule_on q g vol -> forall b, at_points q (shape_at f b) -> forall r c M,
  is_matrix r (fe_total f) (fun i j => quadrature q (fun p => vol p * (c p * b i p * b j p))) -> r = Ok M ->
  counts f -> partition_of_unity f -> fe_el f = kind_el (go_kind g) ->
  sum_to (em_n M) (fun i => sum_to (em_n M) (em_at M i)) = quadrature q (fun p => vol p * c p).
Proof. exact mass_total. Qed.
Print Assumptions C55_mass_total.
Theorem C55_load_total : forall q g f vol, rule_on q g vol -> forall b, at_points q (shape_at f b) -> forall r h v,
  is_vector r (fe_total f) (fun i => quadrature q (fun p => vol p * (h p * b i p))) -> r = Ok v ->
  counts f -> partition_of_unity f -> fe_el f = kind_el (go_kind g) -> rsum v = quadrature q (fun p => vol p * h p).
Proof. exact load_total. Qed.
Print Assumptions C55_load_total.

(** C55: on affine cells and for constant coefficients (polynomial source functions
    of degree [k]) the entries are the exact integrals, if the rule is exact; for a rule
    that is exact up to [tol] the error is at most [tol] times a constant that does not
    depend on the rule. *)
Theorem C55_diffusion_exact : forall g f k vol, affine_cell g f k vol -> let el := kind_el (go_kind g) in
  forall get q alpha G A, rule_for el (2 * k) q -> get el (2 * k)%nat = Ok q -> gradients_ok f -> everywhere (gradient_at g f G) ->
  everywhere (value_at alpha (fun _ => A)) ->
  is_matrix (DiffusionEval get g f alpha) (fe_total f) (fun i j => integral el (fun p => vol p * inner (go_dim g) (G i p) (flux (go_dim g) A (G j p)))).
Proof. exact diffusion_exact. Qed.
Print Assumptions C55_diffusion_exact.
Theorem C55_mass_exact : forall g f k vol, affine_cell g f k vol -> let el := kind_el (go_kind g) in
  forall get q gamma b c, rule_for el (2 * k) q -> get el (2 * k)%nat = Ok q -> everywhere (shape_at f b) -> everywhere (value_at gamma (fun _ => c)) ->
  is_matrix (MassEval get g f gamma) (fe_total f) (fun i j => integral el (fun p => vol p * (c * b i p * b j p))).
Proof. exact mass_exact. Qed.
Print Assumptions C55_mass_exact.
Theorem C55_load_exact : forall g f k vol, affine_cell g f k vol -> let el := kind_el (go_kind g) in
  forall get q src b h c, rule_for el (2 * k) q -> get el (2 * k)%nat = Ok q -> everywhere (shape_at f b) ->
  everywhere (fun p => h p = poly (exponents el k) c p) -> everywhere (value_at src h) ->
  is_vector (LoadEval get g f src) (fe_total f) (fun i => integral el (fun p => vol p * (h p * b i p))).
Proof. exact load_exact. Qed.
Print Assumptions C55_load_exact.
Theorem C55_diffusion_accuracy : forall g f k vol, affine_cell g f k vol -> let el := kind_el (go_kind g) in
  forall G A i j, gradients_ok f -> everywhere (gradient_at g f G) -> (i < fe_total f)%nat -> (j < fe_total f)%nat ->
  exists C, 0 <= C /\ forall get q tol alpha M, rule_within tol el (2 * k) q -> get el (2 * k)%nat = Ok q ->
    everywhere (value_at alpha (fun _ => A)) -> DiffusionEval get g f alpha = Ok M ->
    Rabs (em_at M i j - integral el (fun p => vol p * inner (go_dim g) (G i p) (flux (go_dim g) A (G j p)))) <= tol * C.
Proof. exact diffusion_accuracy. Qed.
Print Assumptions C55_diffusion_accuracy.
Theorem C55_mass_accuracy : forall g f k vol, affine_cell g f k vol -> let el := kind_el (go_kind g) in
  forall b c i j, everywhere (shape_at f b) -> (i < fe_total f)%nat -> (j < fe_total f)%nat ->
  exists C, 0 <= C /\ forall get q tol gamma M, rule_within tol el (2 * k) q -> get el (2 * k)%nat = Ok q ->
    everywhere (value_at gamma (fun _ => c)) -> MassEval get g f gamma = Ok M ->
    Rabs (em_at M i j - integral el (fun p => vol p * (c * b i p * b j p))) <= tol * C.
Proof. exact mass_accuracy. Qed.
Print Assumptions C55_mass_accuracy.
Theorem C55_load_accuracy : forall g f k vol, affine_cell g f k vol -> let el := kind_el (go_kind g) in
  forall b h c i, everywhere (shape_at f b) -> everywhere (fun p => h p = poly (exponents el k) c p) -> (i < fe_total f)%nat ->
  exists C, 0 <= C /\ forall get q tol src v, rule_within tol el (2 * k) q -> get el (2 * k)%nat = Ok q ->
    everywhere (value_at src h) -> LoadEval get g f src = Ok v ->
    Rabs (nth i v 0 - integral el (fun p => vol p * (h p * b i p))) <= tol * C.
Proof. exact load_accuracy. Qed.
Print Assumptions C55_load_accuracy.
(** The rules that the library uses. *)
Theorem C55_rules :
  (forall leg jac k, (1 <= k <= 25)%nat ->
     exists q, make_QuadRule leg jac HardcodedQuadRule kTria (2 * k) = Ok q /\ rule_within (1 / 10 ^ 15) kTria (2 * k) q /\ nonnegative_weights q) /\
  (forall stop stopj hard k, finds_legendre_zeros stop (k + 1) -> finds_jacobi_zeros stopj (k + 1) ->
     exists q, make_QuadRule (GaussLegendre stop) (GaussJacobi stopj) hard kQuad (2 * k) = Ok q /\ rule_within 0 kQuad (2 * k) q /\ nonnegative_weights q).
Proof. exact (conj library_tria library_quad). Qed.
Print Assumptions C55_rules.
(** Lagrangian elements of any of the three degrees on straight triangles and on
    parallelograms meet the hypotheses of the theorems above. *)
Theorem C55_lagrange : forall g k, constructed g -> exact_parallelogram g -> go_kind g = GTriaO1 \/ go_kind g = GParallelogram ->
  exists vol b G, affine_cell g (lagrange k (kind_el (go_kind g))) (ord k) vol /\
    everywhere (shape_at (lagrange k (kind_el (go_kind g))) b) /\ everywhere (gradient_at g (lagrange k (kind_el (go_kind g))) G).
Proof. exact lagrange_affine. Qed.
Print Assumptions C55_lagrange.
Example C55_tri : constructed tri /\ exact_parallelogram tri /\ go_kind tri = GTriaO1 /\
  (exists q, make_TriaQR_EdgeMidpointRule = Ok q /\ rule_for kTria (2 * 1) q).
Proof.
  split; [exact tri_constructed|]. split; [discriminate|]. split; [reflexivity|].
  destruct C53_elementary as (_ & (q & E & _ & H & _) & _). exists q. split; [exact E|exact H].
Qed.

(** *** C65: lf::uscalfe providers.  Default quadrature rules, or rules chosen by the user. *)
Theorem C65_reaction_diffusion : forall q g f vol, rule_on q g vol -> forall b, at_points q (shape_at f b) ->
  forall make layout P alpha gamma G a c, precompute_default make layout = Ok P ->
  layout (kind_el (go_kind g)) = Some f -> make (kind_el (go_kind g)) (2 * fe_degree f)%nat = Ok q ->
  dim_local (go_kind g) = 2%nat ->
  at_points q (gradient_at g f G) -> at_points q (value_at alpha a) -> at_points q (value_at gamma c) ->
  is_matrix (ReactionDiffusionEval P g alpha gamma) (fe_total f)
    (fun i j => quadrature q (fun p => vol p * (inner (go_dim g) (G i p) (flux (go_dim g) (a p) (G j p)) + c p * b i p * b j p))).
Proof. exact rd_default. Qed.
Print Assumptions C65_reaction_diffusion.
Theorem C65_reaction_diffusion_given : forall q g f vol, rule_on q g vol -> forall b, at_points q (shape_at f b) ->
  forall coll layout P alpha gamma G a c, precompute_given false coll layout = Ok P ->
  layout (kind_el (go_kind g)) = Some f -> coll (kind_el (go_kind g)) = Some q ->
  dim_local (go_kind g) = 2%nat ->
  at_points q (gradient_at g f G) -> at_points q (value_at alpha a) -> at_points q (value_at gamma c) ->
  is_matrix (ReactionDiffusionEval P g alpha gamma) (fe_total f)
    (fun i j => quadrature q (fun p => vol p * (inner (go_dim g) (G i p) (flux (go_dim g) (a p) (G j p)) + c p * b i p * b j p))).
Proof. exact rd_given. Qed.
Print Assumptions C65_reaction_diffusion_given.
Theorem C65_energy : forall q g f vol, rule_on q g vol -> forall b r G a c M,
  is_matrix r (fe_total f)
    (fun i j => quadrature q (fun p => vol p * (inner (go_dim g) (G i p) (flux (go_dim g) (a p) (G j p)) + c p * b i p * b j p))) -> r = Ok M ->
  (forall u, quadratic_form M u = quadrature q (fun p => vol p *
     (inner (go_dim g) (fe_gradient (fe_total f) u G p) (flux (go_dim g) (a p) (fe_gradient (fe_total f) u G p)) +
      c p * fe_fun (fe_total f) u b p ^ 2))) /\
  (at_points q (fun p => symmetric_coeff (go_dim g) (a p)) -> symmetric M) /\
  (nonnegative_weights q -> at_points q (fun p => nonnegative_coeff (go_dim g) (a p)) -> at_points q (fun p => 0 <= c p) -> positive_semidefinite M).
Proof. exact rd_props. Qed.
Print Assumptions C65_energy.
(** Cells without an element or without a rule are rejected. *)
Theorem C65_missing : forall P g alpha gamma make coll layout,
  (precompute_default make layout = Ok P /\ layout (kind_el (go_kind g)) = None) \/
  (precompute_given false coll layout = Ok P /\ (layout (kind_el (go_kind g)) = None \/ coll (kind_el (go_kind g)) = None)) ->
  dim_local (go_kind g) = 2%nat -> ReactionDiffusionEval P g alpha gamma = Throw.
Proof. exact rd_missing. Qed.
Print Assumptions C65_missing.
Theorem C65_load : forall q g f vol, rule_on q g vol -> forall b, at_points q (shape_at f b) ->
  forall make layout P src h, precompute_default make layout = Ok P ->
  layout (kind_el (go_kind g)) = Some f -> make (kind_el (go_kind g)) (2 * fe_degree f)%nat = Ok q ->
  dim_local (go_kind g) = 2%nat -> at_points q (value_at src h) ->
  is_vector (ULoadEval P g src) (fe_total f) (fun i => quadrature q (fun p => vol p * (h p * b i p))).
Proof. exact uload_default. Qed.
Print Assumptions C65_load.
Theorem C65_load_given : forall q g f vol, rule_on q g vol -> forall b, at_points q (shape_at f b) ->
  forall coll layout P src h, precompute_given true coll layout = Ok P ->
  layout (kind_el (go_kind g)) = Some f -> coll (kind_el (go_kind g)) = Some q ->
  dim_local (go_kind g) = 2%nat -> at_points q (value_at src h) ->
  is_vector (ULoadEval P g src) (fe_total f) (fun i => quadrature q (fun p => vol p * (h p * b i p))).
Proof. exact uload_given. Qed.
Print Assumptions C65_load_given.
Theorem C65_mass_edge : forall q g f vol, rule_on q g vol -> forall b, at_points q (shape_at f b) ->
  forall make layout rule pfe gamma c, precompute_edge make layout rule = Ok pfe -> layout kSegment = Some f ->
  match rule with None => make kSegment (2 * fe_degree f)%nat = Ok q | Some q' => q' = q end ->
  kind_el (go_kind g) = kSegment -> at_points q (value_at gamma c) ->
  is_matrix (UMassEdgeEval pfe g gamma) (fe_total f) (fun i j => quadrature q (fun p => vol p * (c p * b i p * b j p))).
Proof. exact umass_edge. Qed.
Print Assumptions C65_mass_edge.
Theorem C65_load_edge : forall q g f vol, rule_on q g vol -> forall b, at_points q (shape_at f b) ->
  forall make layout rule pfe src h, precompute_edge make layout rule = Ok pfe -> layout kSegment = Some f ->
  match rule with None => make kSegment (2 * fe_degree f)%nat = Ok q | Some q' => q' = q end ->
  kind_el (go_kind g) = kSegment -> at_points q (value_at src h) ->
  is_vector (ULoadEdgeEval pfe g src) (fe_total f) (fun i => quadrature q (fun p => vol p * (h p * b i p))).
Proof. exact uload_edge. Qed.
Print Assumptions C65_load_edge.

(** *** C56: linear elements *)
Theorem C56_laplace_tria : forall g c gr, kind_el (go_kind g) = kTria -> go_dim g = 2%nat -> constructed g ->
  barycentric (col g) c gr ->
  exists M, LinearFELaplaceEval g = Ok M /\ em_n M = 4%nat /\
    (forall i j, (i < 3)%nat -> (j < 3)%nat -> em_at M i j = polygon_area [col g 0; col g 1; col g 2] * inner 2 (gr i) (gr j)) /\
    (forall i j, (3 <= i \/ 3 <= j)%nat -> em_at M i j = 0).
Proof. exact laplace_tria_ok. Qed.
Print Assumptions C56_laplace_tria.
(** Triangles with positive area have barycentric coordinates. *)
Theorem C56_barycentric : forall v, polygon_area [v 0%nat; v 1%nat; v 2%nat] <> 0 -> exists c gr, barycentric v c gr.
Proof. exact bary_exists. Qed.
Print Assumptions C56_barycentric.
Theorem C56_laplace_tria_energy : forall g M, kind_el (go_kind g) = kTria -> go_dim g = 2%nat -> constructed g ->
  polygon_area [col g 0; col g 1; col g 2] <> 0 -> LinearFELaplaceEval g = Ok M ->
  symmetric M /\ positive_semidefinite M /\ (forall i, image M (fun _ => 1) i = 0).
Proof. exact laplace_tria_props. Qed.
Print Assumptions C56_laplace_tria_energy.
Theorem C56_laplace_quad : forall g vol G, go_kind g = GQuadO1 \/ go_kind g = GParallelogram -> go_dim g = 2%nat -> constructed g ->
  exact_parallelogram g -> at_points gauss4 (volume_at g vol) -> at_points gauss4 (gradient_at g o1_quad G) ->
  is_matrix (LinearFELaplaceEval g) 4 (fun i j => quadrature gauss4 (fun p => vol p * inner 2 (G i p) (G j p))).
Proof. exact laplace_quad_ok. Qed.
Print Assumptions C56_laplace_quad.
Theorem C56_gauss4 : rule_for kQuad 3 gauss4 /\ nonnegative_weights gauss4.
Proof. exact (conj gauss4_exact gauss4_nonneg). Qed.
Print Assumptions C56_gauss4.
Theorem C56_laplace_quad_energy : forall g vol G M, go_kind g = GQuadO1 \/ go_kind g = GParallelogram -> go_dim g = 2%nat -> constructed g ->
  exact_parallelogram g -> at_points gauss4 (volume_at g vol) -> at_points gauss4 (gradient_at g o1_quad G) ->
  LinearFELaplaceEval g = Ok M ->
  symmetric M /\ positive_semidefinite M /\ (forall i, (i < 4)%nat -> image M (fun _ => 1) i = 0).
Proof. exact laplace_quad_props. Qed.
Print Assumptions C56_laplace_quad_energy.
(** The element vector: the rule whose points are the midpoints of the edges. *)
Theorem C56_load : forall g src area h w, kind_el (go_kind g) = kTria \/ kind_el (go_kind g) = kQuad -> go_dim g = 2%nat ->
  Volume g = Ok area -> (forall m, (m < num_nodes (kind_el (go_kind g)))%nat -> src (midpoint (kind_el (go_kind g)) m) = Ok (h m)) ->
  (kind_el (go_kind g) = kTria -> src [-1; -1] = Ok w) ->
  let n := num_nodes (kind_el (go_kind g)) in
  exists v, LinearFELoadEval g src = Ok v /\ length v = 4%nat /\
    (forall i, (i < n)%nat -> nth i v 0 = area / INR n * sum_to n (fun m => h m * hat (kind_el (go_kind g)) i (midpoint (kind_el (go_kind g)) m))) /\
    (forall i, (n <= i)%nat -> nth i v 0 = 0).
Proof. exact linear_load. Qed.
Print Assumptions C56_load.
(** The last hypothesis cannot be dropped: for triangles the source function is
    evaluated at (-1, -1) too.  On triangles with six nodes a source function given in world
    coordinates is not defined there and no vector is returned. *)
Theorem C56_load_outside_refuted : forall g (F : vec -> R), go_kind g = GTriaO2 -> go_dim g = 2%nat ->
  let src := fun p => do x <- Global g p; Ok (F x) in
  (exists area, Volume g = Ok area) /\ (forall m, (m < 3)%nat -> exists h, src (midpoint kTria m) = Ok h) /\
  LinearFELoadEval g src = Throw.
Proof. exact load_outside. Qed.
Print Assumptions C56_load_outside_refuted.
Example C56_tri : polygon_area [col tri 0; col tri 1; col tri 2] <> 0 /\
  exists M, LinearFELaplaceEval tri = Ok M /\ em_at M 0 0 = 5 / 6 /\ em_at M 0 1 = - 2 / 3.
Proof. split; [|exact tri_laplace]. assert (E := C63_example). change (go_cols tri) with [col tri 0; col tri 1; col tri 2] in E. lra. Qed.
Example C56_tri6 : constructed tri6 /\ go_kind tri6 = GTriaO2 /\ go_dim tri6 = 2%nat.
Proof. split; [exact tri6_constructed|split; reflexivity]. Qed.
