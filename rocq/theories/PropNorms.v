(** C101: norms of discontinuous vector fields (projects/ipdg_stokes/post_processing/norms.h). *)
From Coq Require Import Reals List Arith Bool.
Import ListNotations.
From Verif Require Import Base MeshModel MeshView RefPatModel GeoModel GeoSpec DofModel FlagSpec RefineSpec FeModel QuadModel FeSpec ElemSpec FeToolsModel MfModel NormalSpec StokesSpec StokesProofs11 NormsModel NormsSpec
  NormsProofs NormsProofs4.
Local Open Scope R_scope.

(** The L2 norm: quadrature of |u|^2 over all cells. *)
Theorem C101_l2 : forall m geom pos q f U, triangulation m geom pos -> (0 < size m 0)%nat -> cell_rules m q -> vector_field m geom f U ->
  L2norm m geom f q = Ok (sqrt (cell_quadrature m geom q (fun c x => square (U c x)))).
Proof. exact l2_norm. Qed.
Print Assumptions C101_l2.
(** It is exact for fields that are constant on each cell, if the weights add up to the area of the reference triangle. *)
Theorem C101_l2_constant : forall m geom pos q f w, triangulation m geom pos -> (0 < size m 0)%nat -> cell_rules m q -> vector_field m geom f (fun c _ => w c) ->
  (forall c, (c < size m 0)%nat -> fold_right Rplus 0 (qr_weights (q (DofModel.ECell c))) = 1 / 2) ->
  L2norm m geom f q = Ok (sqrt (sum_to (size m 0) (fun c => triangle_det geom c / 2 * square (w c)))).
Proof. exact l2_constant. Qed.
Print Assumptions C101_l2_constant.
(** The DG norm with the midpoint rule on the edges, for gradients of type MatrixXd (missing: gradients of
    type Matrix2d and other rules, for which it fails, see C101_dg_fixed, C101_points_refuted): quadrature of
    |grad u|^2 over the cells, and the squared jumps at all edges that are not at the boundary. *)
Theorem C101_dg_partial : forall m geom pos q f f_grad U G, triangulation m geom pos -> manifold m -> no_overlap m geom -> (0 < size m 0)%nat -> cell_rules m q -> midpoint_rules m q ->
  vector_field m geom f U -> (forall c, of_points (U c)) -> matrix_field m geom MatrixXd f_grad G ->
  exists J, squared_jumps m pos U J /\
    DGnorm m geom f f_grad q = Ok (sqrt (cell_quadrature m geom q (fun c x => square_norm (G c x)) + sum_to (size m 1) J)).
Proof. exact dg_norm. Qed.
Print Assumptions C101_dg_partial.
(** For gradients of type Matrix2d the gradient has no influence. *)
Theorem C101_dg_fixed : forall m geom pos q f f_grad U G, triangulation m geom pos -> manifold m -> no_overlap m geom -> (0 < size m 0)%nat -> cell_rules m q -> midpoint_rules m q ->
  vector_field m geom f U -> (forall c, of_points (U c)) -> matrix_field m geom Matrix2d f_grad G ->
  exists J, squared_jumps m pos U J /\ DGnorm m geom f f_grad q = Ok (sqrt (sum_to (size m 1) J)).
Proof. exact dg_fixed. Qed.
Print Assumptions C101_dg_fixed.
Example C101_example : triangulation sq_mesh sq_geom sq_pos /\ manifold sq_mesh /\ no_overlap sq_mesh sq_geom /\ (0 < size sq_mesh 0)%nat /\
  cell_rules sq_mesh one_point_rules /\ midpoint_rules sq_mesh one_point_rules /\
  (forall U, vector_field sq_mesh sq_geom (field_fun sq_geom U) U) /\ (forall t G, matrix_field sq_mesh sq_geom t (matrix_fun sq_geom t G) G).
Proof.
  exact (conj sq_triangulation (conj sq_manifold (conj sq_apart (conj (Nat.lt_0_succ 3) (conj (proj1 (one_point_cells sq_mesh)) (conj (proj2 (one_point_cells sq_mesh))
    (conj (field_fun_ok sq_mesh sq_geom) (matrix_fun_ok sq_mesh sq_geom)))))))).
Qed.
(** The continuous field x on a square of area 4 has the norm 0 instead of 8^(1/2). *)
Theorem C101_gradient_refuted : exists m geom pos q f f_grad U G, triangulation m geom pos /\ manifold m /\ no_overlap m geom /\ (0 < size m 0)%nat /\ cell_rules m q /\ midpoint_rules m q /\
  vector_field m geom f U /\ (forall c, of_points (U c)) /\ matrix_field m geom Matrix2d f_grad G /\
  (forall c x, U c x = x) /\ (forall c x, G c x = unit_matrix) /\
  DGnorm m geom f f_grad q = Ok 0 /\ cell_quadrature m geom q (fun c x => square_norm (G c x)) = 8.
Proof. exact gradient_lost. Qed.
Print Assumptions C101_gradient_refuted.
(** Rules with more than one point on the edges are not accepted. *)
Theorem C101_points_refuted : forall m geom pos q f f_grad x, triangulation m geom pos -> (0 < size m 0)%nat ->
  (forall e, (e < size m 1)%nat -> length (qr_points (q (EEdge e))) <> 1%nat) ->
  IntegrateMeshFunction m geom (scalar_fun (squaredNorm f_grad)) q (fun _ => true) 0 = Ok x ->
  DGnorm m geom f f_grad q = Assert.
Proof. exact dg_points. Qed.
Print Assumptions C101_points_refuted.
