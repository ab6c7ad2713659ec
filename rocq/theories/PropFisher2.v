(** C103: the integrals and the Galerkin matrices of the Fisher-KPP project. *)
From Coq Require Import Reals List Arith Bool.
Import ListNotations.
From Verif Require Import Base Scalars MeshModel MeshView DofModel GeoModel GeoSpec FeModel LagrModel QuadModel AssembleModel QuadSpec GaussSpec QuadRuleModel TriaTab ElemModel ElemSpec
  FeToolsModel FeToolsSpec FeToolsProofs5 GalerkinSpec FisherModel FisherSpec FisherModel2 FisherSpec2 FisherProofs8 FisherProofs9.
From Verif Require FisherProofs FisherProofs2 FisherProofs3 FisherProofs4.
Local Open Scope R_scope.

(** assembleGalerkinMatrices returns the matrices of the bilinear forms
      a(u, v) = int c grad u . grad v + int over the boundary of h u v - L(u, v)   and   m(u, v) = int u v,
    the integrals being computed with the rules of degree 2; the boundary consists of the edges with one cell. *)
Theorem C103_matrices : forall m V geom make rule c h L cc hh vol, fisher_data m V geom make rule c h L cc hh vol ->
  exists A M, assembleGalerkinMatrices make m geom (sp_dofs V) c h L = Ok (A, M) /\
  d_rows Rring A = NumDofs (sp_dofs V) /\ d_cols Rring A = NumDofs (sp_dofs V) /\ d_rows Rring M = NumDofs (sp_dofs V) /\ d_cols Rring M = NumDofs (sp_dofs V) /\
  forall u v, length u = NumDofs (sp_dofs V) -> length v = NumDofs (sp_dofs V) -> exists x y z,
    diffusion_form V geom (fun e => rule (ent_type m e)) vol (entities m 0) (fun e p => Scal (cc e p)) u v x /\
    mass_form V (fun e => rule (ent_type m e)) vol (filter (boundary_edge m) (entities m 1)) hh u v y /\
    mass_form V (fun e => rule (ent_type m e)) vol (entities m 0) (fun _ _ => 1) u v z /\
    pairing (NumDofs (sp_dofs V)) (d_coef Rring A) (vector v) (vector u) = x + y - pairing (NumDofs (sp_dofs V)) (d_coef Rring L) (vector v) (vector u) /\
    pairing (NumDofs (sp_dofs V)) (d_coef Rring M) (vector v) (vector u) = z.
Proof. exact galerkin_matrices. Qed.
Print Assumptions C103_matrices.
(** Everything that is assumed in this file holds for one triangle with the rules of the library. *)
Example C103_example : exists V make rule cc hh vol, let L := mkDense Rring 3 3 (fun _ _ => 0) in
  fisher_data one_mesh V one_geom make rule (fun x => 1 + x 0%nat ^ 2) (fun _ => 1) L cc hh vol /\ determining rule /\ positive_weights rule /\
  complete_mesh one_mesh /\ dissipative (fun x => 1 + x 0%nat ^ 2) (fun _ => 1) 3 L /\ NumDofs (sp_dofs V) = 3%nat /\ boundary_edge one_mesh (EEdge 0) = true.
Proof. exact fisher_example. Qed.
(** The rules of the library have positive weights, and their points determine (bi)linear functions. *)
Theorem C103_rules : forall stop stopj, finds_legendre_zeros stop 2 -> finds_jacobi_zeros stopj 2 -> exists rule,
  rules_for (make_QuadRule (GaussLegendre stop) (GaussJacobi stopj) HardcodedQuadRule) rule /\ determining rule /\ positive_weights rule.
Proof. exact library_rules_ok. Qed.
Print Assumptions C103_rules.

(** The matrices are symmetric if L is, *)
Theorem C103_symmetric : forall m V geom make rule c h L cc hh vol, fisher_data m V geom make rule c h L cc hh vol ->
  forall A M, assembleGalerkinMatrices make m geom (sp_dofs V) c h L = Ok (A, M) -> symmetric (NumDofs (sp_dofs V)) (d_coef Rring L) ->
  symmetric (NumDofs (sp_dofs V)) (d_coef Rring A) /\ symmetric (NumDofs (sp_dofs V)) (d_coef Rring M).
Proof. exact galerkin_symmetric. Qed.
Print Assumptions C103_symmetric.
(** they are positive semidefinite if the coefficients are nonnegative and L takes away, *)
Theorem C103_nonnegative : forall m V geom make rule c h L cc hh vol, fisher_data m V geom make rule c h L cc hh vol ->
  forall A M, assembleGalerkinMatrices make m geom (sp_dofs V) c h L = Ok (A, M) -> positive_weights rule -> dissipative c h (NumDofs (sp_dofs V)) L ->
  nonnegative_form (NumDofs (sp_dofs V)) (d_coef Rring A) /\ nonnegative_form (NumDofs (sp_dofs V)) (d_coef Rring M).
Proof. exact galerkin_nonneg. Qed.
Print Assumptions C103_nonnegative.
(** and the mass matrix is positive definite. *)
Theorem C103_positive : forall m V geom make rule c h L cc hh vol, fisher_data m V geom make rule c h L cc hh vol ->
  forall A M, assembleGalerkinMatrices make m geom (sp_dofs V) c h L = Ok (A, M) -> positive_weights rule -> determining rule -> complete_mesh m ->
  positive_form (NumDofs (sp_dofs V)) (d_coef Rring M).
Proof. exact galerkin_positive. Qed.
Print Assumptions C103_positive.
(** Without transport over the boundary, the diffusion part maps constants to zero, *)
Theorem C103_constants : forall m V geom make rule c h L cc hh vol, fisher_data m V geom make rule c h L cc hh vol ->
  forall A M, assembleGalerkinMatrices make m geom (sp_dofs V) c h L = Ok (A, M) -> (forall x, h x = 0) ->
  (forall i, (i < NumDofs (sp_dofs V))%nat ->
    sum_to (NumDofs (sp_dofs V)) (fun j => d_coef Rring A i j) = - sum_to (NumDofs (sp_dofs V)) (fun j => d_coef Rring L i j)) /\
  (forall j, (j < NumDofs (sp_dofs V))%nat ->
    sum_to (NumDofs (sp_dofs V)) (fun i => d_coef Rring A i j) = - sum_to (NumDofs (sp_dofs V)) (fun i => d_coef Rring L i j)).
Proof. exact galerkin_constants. Qed.
Print Assumptions C103_constants.
(** the mass matrix computes the population, *)
Theorem C103_total : forall m V geom make rule c h L cc hh vol, fisher_data m V geom make rule c h L cc hh vol ->
  forall A M, assembleGalerkinMatrices make m geom (sp_dofs V) c h L = Ok (A, M) ->
  forall u x, length u = NumDofs (sp_dofs V) -> total m V rule vol u x -> pairing (NumDofs (sp_dofs V)) (d_coef Rring M) (fun _ => 1) (vector u) = x.
Proof. exact galerkin_total. Qed.
Print Assumptions C103_total.
(** and diffusion does not change it. *)
Theorem C103_population : forall m V geom make rule c h L cc hh vol, fisher_data m V geom make rule c h L cc hh vol ->
  forall A M, assembleGalerkinMatrices make m geom (sp_dofs V) c h L = Ok (A, M) ->
  (forall x, h x = 0) -> (forall j, (j < NumDofs (sp_dofs V))%nat -> sum_to (NumDofs (sp_dofs V)) (fun i => d_coef Rring L i j) = 0) ->
  forall t u v x y, length u = NumDofs (sp_dofs V) -> length v = NumDofs (sp_dofs V) ->
  sdirk_step (NumDofs (sp_dofs V)) (d_coef Rring M) (d_coef Rring A) t (vector u) (vector v) ->
  total m V rule vol u x -> total m V rule vol v y -> y = x.
Proof. exact galerkin_population. Qed.
Print Assumptions C103_population.
(** With these matrices StrangSplit meets the conditions of C102: steps do not increase the L2 norm, and Evolution
    does what C102 says. *)
Theorem C103_evolution : forall m V geom make rule c h L cc hh vol, fisher_data m V geom make rule c h L cc hh vol ->
  positive_weights rule -> determining rule -> complete_mesh m -> dissipative c h (NumDofs (sp_dofs V)) L -> symmetric (NumDofs (sp_dofs V)) (d_coef Rring L) ->
  exists A M, assembleGalerkinMatrices make m geom (sp_dofs V) c h L = Ok (A, M) /\
  (forall t u v, 0 <= t -> sdirk_step (NumDofs (sp_dofs V)) (d_coef Rring M) (d_coef Rring A) t u v ->
    pairing (NumDofs (sp_dofs V)) (d_coef Rring M) v v <= pairing (NumDofs (sp_dofs V)) (d_coef Rring M) u u) /\
  forall lu T steps lambda cap mu, exact_lu lu -> 0 <= T -> (0 < steps)%nat -> 0 <= lambda ->
  length cap = NumDofs (sp_dofs V) -> (forall i, (i < NumDofs (sp_dofs V))%nat -> 0 < nth i cap 0) ->
  length mu = NumDofs (sp_dofs V) -> nonnegative (NumDofs (sp_dofs V)) (vector mu) ->
  (forall t u v, t = T / INR steps / 2 \/ t = T / INR steps -> nonnegative (NumDofs (sp_dofs V)) u ->
    sdirk_step (NumDofs (sp_dofs V)) (d_coef Rring M) (d_coef Rring A) t u v -> nonnegative (NumDofs (sp_dofs V)) v) ->
  exists self sol, StrangSplit lu (NumDofs (sp_dofs V)) T steps lambda A M = Ok self /\ Evolution self cap mu = Ok (map Fin sol) /\
    run (NumDofs (sp_dofs V)) (d_coef Rring M) (d_coef Rring A) (vector cap) lambda (schedule steps (T / INR steps)) (vector mu) (vector sol).
Proof. exact galerkin_evolution. Qed.
Print Assumptions C103_evolution.

(** localQuadFunction integrates the function over the selected entities by the given rules. *)
Theorem C103_integral : forall m geom rules f codim pred q vol h, (codim <= 2)%nat ->
  (forall e, In e (filter pred (entities m codim)) -> rules (ent_type m e) = Some (q e) /\ rule_on (q e) (geom e) (vol e)) -> values_at_points geom f h ->
  localQuadFunction m geom rules f codim pred = Ok (sum_over (filter pred (entities m codim)) (fun e => quadrature (q e) (fun p => vol e p * h e p))).
Proof. exact local_quad. Qed.
Print Assumptions C103_integral.
(** It fails if a rule is missing. *)
Theorem C103_integral_missing : forall m geom rules f codim pred e q vol h l1 l2, (codim <= 2)%nat -> entities m codim = l1 ++ e :: l2 -> pred e = true ->
  rules (ent_type m e) = None -> (forall e, In e (filter pred l1) -> rules (ent_type m e) = Some (q e) /\ rule_on (q e) (geom e) (vol e)) ->
  values_at_points geom f h -> localQuadFunction m geom rules f codim pred = Throw.
Proof. exact local_quad_missing. Qed.
Print Assumptions C103_integral_missing.
Example C103_integral_example : exists q vol h, forall e, In e (filter (fun _ => true) (entities one_mesh 0)) ->
  rule_on (q e) (one_geom e) (vol e) /\ values_at_points one_geom (fun x => x 0%nat * x 1%nat) h /\ qr_points (q e) <> [].
Proof. exact integral_example. Qed.
