(** Properties C87-C90: outer normals, prescribed signs, in- and outflow boundary, quadrature on
    the boundary of reference elements (projects/dpg/dpg_tools). *)
From Coq Require Import Reals List Arith ZArith Lia Lra Bool.
Import ListNotations.
From Verif Require Import Base MeshModel MeshView RefPatModel GeoModel GeoSpec DofModel FlagModel FlagSpec FeModel QuadModel FeSpec QuadSpec DpgModel PropMeshView
  NormalModel NormalSpec NormalProofs3 NormalProofs4 NormalProofs5 NormalProofs6 NormalProofs7 NormalProofs8 NormalProofs9.
Local Open Scope R_scope.

(** C87: for triangles and quadrilaterals with straight edges, convex or not and of either
    orientation, the columns are the outer normals of the edges in their order. *)
Theorem C87_outer_normals : forall g, straight g -> exists N, OuterNormals g = Ok N /\ length N = length (go_cols g) /\
  forall i, (i < length (go_cols g))%nat -> outer_normal (go_cols g) i (nth i N vzero).
Proof. exact outer_normals. Qed.
Print Assumptions C87_outer_normals.

(** There are no others. *)
Theorem C87_unique : forall P i n n', simple P -> (i < length P)%nat -> outer_normal P i n -> outer_normal P i n' ->
  forall k, (k < 2)%nat -> n' k = n k.
Proof. exact outer_unique. Qed.
Print Assumptions C87_unique.

(** The divergence theorem for linear vector fields holds with these normals. *)
Theorem C87_divergence : forall g N f c0 c1, straight g -> OuterNormals g = Ok N ->
  fold_right Rplus 0 (map (fun i => flux f c0 c1 (start (go_cols g) i) (stop (go_cols g) i) (nth i N vzero)) (seq 0 (length (go_cols g))))
  = (c0 0%nat + c1 1%nat) * polygon_area (go_cols g).
Proof. exact gauss. Qed.
Print Assumptions C87_divergence.

(** Cells with curved edges are accepted, but the columns are not perpendicular to their edges. *)
Theorem C87_curved_refuted : exists g N J, constructed g /\ go_dim g = 2%nat /\ OuterNormals g = Ok N /\ Jacobian g [0; 0] = Ok J /\
  inner 2 (nth 0 N vzero) (nth 0 J vzero) <> 0.
Proof. exact curved_edges. Qed.
Print Assumptions C87_curved_refuted.

Example C87_example : straight ex_tria /\ straight ex_dart.
Proof. exact (conj tria_straight dart_straight). Qed.

(** C88: the sign is 1 for exactly one of the cells at an edge, the one with the largest index. *)
Theorem C88_signs : forall m, wf_mesh m -> exists d, SignProvider m = Ok d /\
  (forall c e, (e < size m 1)%nat -> PrescribedSign d c e = Ok 1%Z \/ PrescribedSign d c e = Ok (-1)%Z) /\
  (forall c e, cell_at_edge m e c ->
     (PrescribedSign d c e = Ok 1%Z <-> forall c', cell_at_edge m e c' -> (c' <= c)%nat)).
Proof. exact prescribed_signs. Qed.
Print Assumptions C88_signs.
Theorem C88_one : forall m d e c, wf_mesh m -> SignProvider m = Ok d -> cell_at_edge m e c ->
  exists c0, cell_at_edge m e c0 /\ PrescribedSign d c0 e = Ok 1%Z /\
    forall c', cell_at_edge m e c' -> c' <> c0 -> PrescribedSign d c' e = Ok (-1)%Z.
Proof. exact one_sign. Qed.
Print Assumptions C88_one.

(** The prescribed normal of a boundary edge points outwards. *)
Theorem C88_boundary : forall m d e c, wf_mesh m -> SignProvider m = Ok d -> one_cell_at m e -> cell_at_edge m e c ->
  PrescribedSign d c e = Ok 1%Z.
Proof. exact boundary_sign. Qed.
Print Assumptions C88_boundary.

(** The two cells at an inner edge agree about the prescribed normal of the edge. *)
Theorem C88_prescribed_normal : forall m geom d e c i N c' i' N', wf_mesh m -> straight_cells m geom -> SignProvider m = Ok d ->
  c <> c' -> edge_of m c i e -> edge_of m c' i' e -> (forall c2, cell_at_edge m e c2 -> c2 = c \/ c2 = c') ->
  common_edge (polygon geom c) i (polygon geom c') i' -> disjoint_interiors (polygon geom c) (polygon geom c') ->
  OuterNormals (geom (DofModel.ECell c)) = Ok N -> OuterNormals (geom (DofModel.ECell c')) = Ok N' ->
  exists s s', PrescribedSign d c e = Ok s /\ PrescribedSign d c' e = Ok s' /\ (s' = - s)%Z /\ (s = 1 \/ s = -1)%Z /\
    forall k, (k < 2)%nat -> nth i' N' vzero k = - nth i N vzero k /\ IZR s' * nth i' N' vzero k = IZR s * nth i N vzero k.
Proof. exact mesh_normals. Qed.
Print Assumptions C88_prescribed_normal.

Example C88_example : edge_of example_mesh 0 1 3 /\ edge_of example_mesh 1 0 3 /\
  (forall c, cell_at_edge example_mesh 3 c -> c = 0%nat \/ c = 1%nat) /\
  common_edge (polygon ex_geom 0) 1 (polygon ex_geom 1) 0 /\ disjoint_interiors (polygon ex_geom 0) (polygon ex_geom 1).
Proof. exact example_neighbours. Qed.

(** C89: an edge is flagged iff it is a boundary edge and the velocity at its midpoint points into
    the domain; for the outflow boundary, iff it does not. *)
Theorem C89_inflow : forall m geom beta, wf_mesh m -> straight_cells m geom ->
  (forall e, (e < size m 1)%nat -> exists b, beta (EEdge e) [1 / 2] = Ok b) ->
  exists d, flagEntitiesOnInflowBoundary m geom beta = Ok d /\ d_codim d = 1%nat /\ length (d_data d) = size m 1 /\
  forall e x, nth_error (d_data d) e = Some x ->
    (x = true <-> one_cell_at m e /\ exists c i n b, edge_of m c i e /\ outer_normal (polygon geom c) i n /\
       beta (EEdge e) [1 / 2] = Ok b /\ inner 2 n b < 0).
Proof. exact inflow. Qed.
Print Assumptions C89_inflow.
Theorem C89_outflow : forall m geom beta, wf_mesh m -> straight_cells m geom ->
  (forall e, (e < size m 1)%nat -> exists b, beta (EEdge e) [1 / 2] = Ok b) ->
  exists d, flagEntitiesOnOutflowBoundary m geom beta = Ok d /\ d_codim d = 1%nat /\ length (d_data d) = size m 1 /\
  forall e x, nth_error (d_data d) e = Some x ->
    (x = true <-> one_cell_at m e /\ exists c i n b, edge_of m c i e /\ outer_normal (polygon geom c) i n /\
       beta (EEdge e) [1 / 2] = Ok b /\ 0 <= inner 2 n b).
Proof. exact outflow. Qed.
Print Assumptions C89_outflow.

(** Every boundary edge belongs to exactly one of the two parts, and no other edge to any. *)
Theorem C89_partition : forall m geom beta, wf_mesh m -> straight_cells m geom ->
  (forall e, (e < size m 1)%nat -> exists b, beta (EEdge e) [1 / 2] = Ok b) ->
  forall di do_, flagEntitiesOnInflowBoundary m geom beta = Ok di -> flagEntitiesOnOutflowBoundary m geom beta = Ok do_ ->
  forall e, (e < size m 1)%nat -> exists x y, nth_error (d_data di) e = Some x /\ nth_error (d_data do_) e = Some y /\
    (x = true \/ y = true <-> one_cell_at m e) /\ ~ (x = true /\ y = true).
Proof. exact flow_partition. Qed.
Print Assumptions C89_partition.

Example C89_example : straight_cells example_mesh ex_geom.
Proof. exact example_straight. Qed.

(** C90: rule [i] has its points on edge [i] and integrates polynomials along that edge exactly, if
    the given rule is exact for polynomials of that degree. *)
Theorem C90_boundary_rules : forall el k qr, el = kTria \/ el = kQuad -> rule_for kSegment k qr ->
  exists L, BoundaryQuadRule el qr = Ok L /\ length L = num_nodes el /\
  forall i q, nth_error L i = Some q -> qr_el q = el /\
    qr_points q = map (fun p => on_edge el i (nth 0 p 0)) (qr_points qr) /\ length (qr_weights q) = length (qr_points q) /\
    forall c, quadrature q (poly (exponents el k) c) = edge_integral el i (poly (exponents el k) c).
Proof. exact boundary_rules. Qed.
Print Assumptions C90_boundary_rules.

Example C90_example : forall degree, exists k q, (degree <= k)%nat /\ rule_for kSegment k q.
Proof. exact rules_exist. Qed.
