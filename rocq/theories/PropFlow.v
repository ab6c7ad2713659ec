(** C100: the Stokes problem with flow across the boundary (projects/ipdg_stokes). *)
From Coq Require Import Reals List Arith Bool.
Import ListNotations.
From Verif Require Import Base Scalars MeshModel MeshView RefPatModel GeoModel GeoSpec DofModel FlagSpec FlagModel RefineSpec FeModel QuadModel LagrModel AssembleModel AssembleSpec
  NormalSpec StokesModel StokesSpec StokesProofs2 StokesProofs11 FlowSpec StokesProofs16 StokesProofs17.
Local Open Scope R_scope.

(** The system and the offset function.  The offset prescribes the flow across the boundary up to its mean. *)
Theorem C100_system : forall m geom pos n, triangulation m geom pos -> normals_of m geom n -> manifold m -> no_overlap m geom ->
  (exists v, boundary_node m v) -> closed_curves m -> connected_boundary m -> forall solver, exact_solver solver ->
  forall sigma modified q f g check, sigma <> 0 -> tria_rule q -> of_points f ->
  let N := (size m 2 + size m 1)%nat in
  let flow e := normal_part m n e (g (EEdge e)) - mean_flow m pos n (fun e => g (EEdge e)) in
  exists A b D off, buildSystemMatrixInOutFlow m geom solver (u_handler (uniform m stokes_map check)) f g sigma q modified = Ok (A, b, off) /\
  AssembleSpec.is_matrix Rring A N N D /\ length b = N /\ length off = N /\ (forall i j, (i < N)%nat -> (j < N)%nat -> D i j = D j i) /\
  ((forall v, (v < size m 2)%nat -> ~ boundary_node m v -> nth v off 0 = 0) /\
   exists w, curl_of m pos (fun v => nth v off 0) w /\
     (forall e, (e < size m 1)%nat -> boundary_edge m e = true -> through m n w e = flow e) /\
     (forall e, (e < size m 1)%nat -> nth (size m 2 + e) off 0 = jump m n w e)) /\
  forall x : nat -> R, solves Rring N D (comp Rring b) x <->
    (forall v, boundary_node m v -> x v = 0) /\
    exists w, curl_of m pos (fun v => x v + nth v off 0) w /\
      (forall e, (e < size m 1)%nat -> x (size m 2 + e)%nat = StokesSpec.edge_length m pos e * penalty m pos sigma modified e *
         (jump m n w e - (if boundary_edge m e then tangential_part m n e (g (EEdge e)) else 0))) /\
      (forall y z, (forall v, boundary_node m v -> y v = 0) -> curl_of m pos y z ->
         stokes_form m pos n sigma modified w z = stokes_load m geom pos n sigma modified q f (fun e => g (EEdge e)) z).
Proof. exact in_out_flow. Qed.
Print Assumptions C100_system.

Theorem C100_one_solution : forall m geom pos n, triangulation m geom pos -> normals_of m geom n -> manifold m -> no_overlap m geom ->
  (exists v, boundary_node m v) -> closed_curves m -> connected_boundary m -> forall solver, exact_solver solver ->
  forall sigma modified q f g check, sigma <> 0 -> tria_rule q -> of_points f -> 0 < sigma -> all_reached m -> complete_mesh m ->
  let N := (size m 2 + size m 1)%nat in
  exists A b D off, buildSystemMatrixInOutFlow m geom solver (u_handler (uniform m stokes_map check)) f g sigma q modified = Ok (A, b, off) /\
  AssembleSpec.is_matrix Rring A N N D /\ length b = N /\
  exists x, solves Rring N D (comp Rring b) x /\ forall y, solves Rring N D (comp Rring b) y -> forall i, (i < N)%nat -> y i = x i.
Proof. exact in_out_solution. Qed.
Print Assumptions C100_one_solution.

(** The velocity of solution plus offset. *)
Theorem C100_velocity : forall m geom pos n, triangulation m geom pos -> normals_of m geom n -> manifold m -> no_overlap m geom ->
  (exists v, boundary_node m v) -> closed_curves m -> connected_boundary m -> forall solver, exact_solver solver ->
  forall sigma modified q f g check, sigma <> 0 -> tria_rule q -> of_points f ->
  let N := (size m 2 + size m 1)%nat in let d := u_handler (uniform m stokes_map check) in
  let flow e := normal_part m n e (g (EEdge e)) - mean_flow m pos n (fun e => g (EEdge e)) in
  exists A b D off, buildSystemMatrixInOutFlow m geom solver d f g sigma q modified = Ok (A, b, off) /\
  AssembleSpec.is_matrix Rring A N N D /\ length off = N /\
  forall sol total, length sol = N -> length total = N -> solves Rring N D (comp Rring b) (comp Rring sol) ->
    (forall i, (i < N)%nat -> nth i total 0 = nth i sol 0 + nth i off 0) ->
    exists s w, extractVelocity m geom d total = Ok s /\ (forall c, (c < size m 0)%nat -> dget s 0 c = Ok (w c)) /\
      conserved m pos n w /\ (forall e, (e < size m 1)%nat -> boundary_edge m e = true -> through m n w e = flow e) /\
      (forall y z, (forall v, boundary_node m v -> y v = 0) -> curl_of m pos y z ->
         stokes_form m pos n sigma modified w z = stokes_load m geom pos n sigma modified q f (fun e => g (EEdge e)) z).
Proof. exact in_out_velocity. Qed.
Print Assumptions C100_velocity.

Example C100_example : triangulation sq_mesh sq_geom sq_pos /\ manifold sq_mesh /\ no_overlap sq_mesh sq_geom /\ all_reached sq_mesh /\ complete_mesh sq_mesh /\
  (exists v, boundary_node sq_mesh v) /\ closed_curves sq_mesh /\ connected_boundary sq_mesh.
Proof. exact (conj sq_triangulation (conj sq_manifold (conj sq_apart (conj sq_reached (conj (proj2 sq_wf) sq_curves))))). Qed.
Example C100_solver : exists solver, exact_solver solver.
Proof. exact (ex_intro _ eliminate eliminate_exact). Qed.

(** If the boundary consists of several curves, as around a hole, the system for the offset is singular. *)
Theorem C100_several_curves : forall m geom pos n, triangulation m geom pos -> normals_of m geom n -> manifold m ->
  forall (part : nat -> bool) v0 v1, boundary_node m v0 -> boundary_node m v1 -> part v0 = true -> part v1 = false ->
  (forall e v w, ends_in m v e -> ends_in m w e -> part v = part w) -> closed_curves m ->
  exists bd J k D, flag_boundary_all m = Ok bd /\ jump_matrix m geom bd = Ok J /\ AssembleSpec.is_matrix Rring J k k D /\ ~ regular k D.
Proof. exact several_curves. Qed.
Print Assumptions C100_several_curves.

Theorem C100_hole_refuted : exists m geom pos, triangulation m geom pos /\ manifold m /\ closed_curves m /\
  exists bd J k D, flag_boundary_all m = Ok bd /\ jump_matrix m geom bd = Ok J /\ AssembleSpec.is_matrix Rring J k k D /\ ~ regular k D.
Proof. exact hole_refuted. Qed.
Print Assumptions C100_hole_refuted.
