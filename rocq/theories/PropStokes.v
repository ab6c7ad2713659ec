(** C96-C98: the interior penalty method for the Stokes problem (projects/ipdg_stokes). *)
From Coq Require Import Reals List Arith Bool.
Import ListNotations.
From Verif Require Import Base Scalars MeshModel MeshView RefPatModel GeoModel GeoSpec DofModel FlagSpec FlagModel RefineSpec FeModel QuadModel LagrModel AssembleModel AssembleSpec
  NormalSpec StokesModel StokesSpec StokesProofs StokesProofs2 StokesProofs7 StokesProofs8 StokesProofs9 StokesProofs10 StokesProofs11.
Local Open Scope R_scope.

(** C96: outward normals and tangentials of triangles; neighbours have opposite ones. *)
Theorem C96_normals : forall g, go_kind g = GTriaO1 -> go_dim g = 2%nat -> constructed g ->
  exists N, computeOutwardNormals g = Ok N /\ length N = 3%nat /\
    forall i, (i < 3)%nat -> outer_normal (go_cols g) i (nth i N vzero).
Proof. exact outward_normals. Qed.
Print Assumptions C96_normals.

Theorem C96_tangentials : forall g, go_kind g = GTriaO1 -> go_dim g = 2%nat -> constructed g ->
  exists N T, computeOutwardNormals g = Ok N /\ computeTangentials g = Ok T /\ length T = 3%nat /\
    forall i, (i < 3)%nat -> same_points (nth i T vzero) (turn (nth i N vzero)).
Proof. exact tangentials. Qed.
Print Assumptions C96_tangentials.

Theorem C96_neighbours : forall g g' N N' T T' i i', go_kind g = GTriaO1 -> go_dim g = 2%nat -> constructed g ->
  go_kind g' = GTriaO1 -> go_dim g' = 2%nat -> constructed g' ->
  computeOutwardNormals g = Ok N -> computeOutwardNormals g' = Ok N' -> computeTangentials g = Ok T -> computeTangentials g' = Ok T' ->
  (i < 3)%nat -> (i' < 3)%nat -> common_edge (go_cols g) i (go_cols g') i' -> disjoint_interiors (go_cols g) (go_cols g') ->
  forall k, (k < 2)%nat -> nth i' N' vzero k = - nth i N vzero k /\ nth i' T' vzero k = - nth i T vzero k.
Proof. exact neighbours. Qed.
Print Assumptions C96_neighbours.

Theorem C96_all_cells : forall m geom pos, triangulation m geom pos -> exists n, normals_of m geom n /\
  forall c, (c < size m 0)%nat -> exists L, computeOutwardNormals (geom (DofModel.ECell c)) = Ok L /\ forall i, (i < 3)%nat -> nth i L vzero = n c i.
Proof. exact normals_exist. Qed.
Print Assumptions C96_all_cells.

(** A square of four triangles that meet in its centre. *)
Example C96_example : triangulation sq_mesh sq_geom sq_pos /\ no_overlap sq_mesh sq_geom.
Proof. exact (conj sq_triangulation sq_apart). Qed.

(** C97: the system without flow across the boundary.  [stokes_map] gives one unknown to each node
    and to each edge, as in the constructors of the callers. *)
Theorem C97_no_flow : forall m geom pos n, triangulation m geom pos -> normals_of m geom n -> manifold m ->
  forall sigma modified q f g check, sigma <> 0 -> tria_rule q -> of_points f ->
  let N := (size m 2 + size m 1)%nat in
  exists A b D, buildSystemMatrixNoFlow m geom (u_handler (uniform m stokes_map check)) f g sigma q modified = Ok (A, b) /\
  AssembleSpec.is_matrix Rring A N N D /\ length b = N /\ (forall i j, (i < N)%nat -> (j < N)%nat -> D i j = D j i) /\
  forall x : nat -> R, solves Rring N D (comp Rring b) x <->
    (forall v, boundary_node m v -> x v = 0) /\
    exists w, curl_of m pos x w /\
      (forall e, (e < size m 1)%nat -> x (size m 2 + e)%nat = StokesSpec.edge_length m pos e * penalty m pos sigma modified e *
         (jump m n w e - (if boundary_edge m e then tangential_part m n e (g (EEdge e)) else 0))) /\
      (forall y z, (forall v, boundary_node m v -> y v = 0) -> curl_of m pos y z ->
         stokes_form m pos n sigma modified w z = stokes_load m geom pos n sigma modified q f (fun e => g (EEdge e)) z).
Proof. exact no_flow. Qed.
Print Assumptions C97_no_flow.

Theorem C97_one_solution : forall m geom pos n, triangulation m geom pos -> normals_of m geom n -> manifold m ->
  forall sigma modified q check, 0 < sigma -> all_reached m -> complete_mesh m -> forall f g, tria_rule q -> of_points f ->
  let N := (size m 2 + size m 1)%nat in
  exists A b D, buildSystemMatrixNoFlow m geom (u_handler (uniform m stokes_map check)) f g sigma q modified = Ok (A, b) /\
  AssembleSpec.is_matrix Rring A N N D /\ length b = N /\
  exists x, solves Rring N D (comp Rring b) x /\ forall y, solves Rring N D (comp Rring b) y -> forall i, (i < N)%nat -> y i = x i.
Proof. exact no_flow_solution. Qed.
Print Assumptions C97_one_solution.

Example C97_example : triangulation sq_mesh sq_geom sq_pos /\ manifold sq_mesh /\ all_reached sq_mesh /\ complete_mesh sq_mesh.
Proof. exact (conj sq_triangulation (conj sq_manifold (conj sq_reached (proj2 sq_wf)))). Qed.
Example C97_data_example : tria_rule centre_rule /\ of_points (fun x => x) /\ exists n, normals_of sq_mesh sq_geom n.
Proof. exact data_example. Qed.

(** C98: velocities. *)
Theorem C98_coefficients : forall m geom pos, triangulation m geom pos -> forall check sol, length sol = (size m 2 + size m 1)%nat ->
  exists s, extractBasisFunctionCoefficients m (u_handler (uniform m stokes_map check)) sol = Ok s /\
    forall v, (v < size m 2)%nat -> dget s 2 v = Ok (nth v sol 0).
Proof. exact coefficients. Qed.
Print Assumptions C98_coefficients.

Theorem C98_velocity : forall m geom pos, triangulation m geom pos -> forall check sol, length sol = (size m 2 + size m 1)%nat ->
  exists s w, extractVelocity m geom (u_handler (uniform m stokes_map check)) sol = Ok s /\
    (forall c, (c < size m 0)%nat -> dget s 0 c = Ok (w c)) /\ curl_of m pos (fun v => nth v sol 0) w.
Proof. exact velocity. Qed.
Print Assumptions C98_velocity.

Theorem C98_function : forall m geom pos, triangulation m geom pos -> forall V u w c p, lagrange_space O1 m = Ok V -> length u = size m 2 ->
  curl_of m pos (fun v => nth v u 0) w -> (c < size m 0)%nat -> length p = 2%nat ->
  exists x, MeshFunctionVelocity geom V u (DofModel.ECell c) p = Ok x /\ same_points x (w c).
Proof. exact velocity_function. Qed.
Print Assumptions C98_function.

(** A curl conserves; the flow through an edge is the difference of the potential at its ends. *)
Theorem C98_flow : forall m geom pos n, triangulation m geom pos -> normals_of m geom n -> forall psi w, curl_of m pos psi w ->
  (no_overlap m geom -> conserved m pos n w) /\
  forall c i e a b, edge_of m c i e -> nth_error (mv_edges m) e = Some (a, b) -> Rabs (outflow m pos n w c i) = Rabs (psi b - psi a).
Proof. exact flow. Qed.
Print Assumptions C98_flow.

Theorem C98_no_flow : forall m geom pos n sigma modified q f g check, triangulation m geom pos -> normals_of m geom n -> manifold m -> no_overlap m geom ->
  sigma <> 0 -> tria_rule q -> of_points f ->
  let N := (size m 2 + size m 1)%nat in let d := u_handler (uniform m stokes_map check) in
  exists A b D, buildSystemMatrixNoFlow m geom d f g sigma q modified = Ok (A, b) /\ AssembleSpec.is_matrix Rring A N N D /\
    forall sol, length sol = N -> solves Rring N D (comp Rring b) (comp Rring sol) ->
      exists s w, extractVelocity m geom d sol = Ok s /\ (forall c, (c < size m 0)%nat -> dget s 0 c = Ok (w c)) /\
        conserved m pos n w /\ confined m pos n w.
Proof. exact no_flow_velocity. Qed.
Print Assumptions C98_no_flow.
