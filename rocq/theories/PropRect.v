(** C107: the meshes of the structured builders can be refined and carry the Stokes method. *)
From Coq Require Import Reals Lra List Arith Lia Bool.
Import ListNotations.
From Verif Require Import Base Scalars MeshModel MeshSpec MeshView RefPatModel RefineModel RefineSpec
  BuilderModel BuilderSpec BuilderProofs3 BuilderProofs5 GeoModel GeoSpec DofModel FlagSpec FlagModel FeModel QuadModel LagrModel
  AssembleModel AssembleSpec NormalSpec StokesModel StokesSpec FlowSpec StokesProofs2 StokesProofs11 StokesProofs16 StokesProofs17 TransferModel TransferSpec ConformSpec
  RectSpec RectProofs3 RectProofs9.
Local Open Scope R_scope.

Example C107_example : proper (mkParams 0 0 1 2 3 4) /\ well_shaped (mkParams 0 0 1 2 3 4).
Proof. split; [unfold proper; simpl; repeat split; try lia; lra|exact shaped_example]. Qed.
Example C107_torus : proper (mkParams 0 0 1 2 3 3) /\ torus_shaped (mkParams 0 0 1 2 3 3).
Proof. split; [unfold proper; simpl; repeat split; try lia; lra|exact (proj1 torus_example)]. Qed.

(** The three structured builders return meshes that a hierarchy may start with (C31). *)
Theorem C107_structured : (forall p check, proper p ->
  (well_shaped p -> exists M g, tp_triag_build p check = Ok (Some (M, g)) /\ valid_mesh (view M)) /\
  (well_shaped p -> exists M g, tp_quad_build p check = Ok (Some (M, g)) /\ valid_mesh (view M)) /\
  (torus_shaped p -> 3 <= p_nx p -> 3 <= p_ny p -> exists M g, torus_build p check = Ok (Some (M, g)) /\ valid_mesh (view M)))%nat.
Proof. exact structured_valid. Qed.
Print Assumptions C107_structured.

(** From such a mesh, every sequence of refinements runs through, all levels are again such meshes, and
    the hierarchy is one of those C60 and C66 speak of. *)
Theorem C107_refined : (forall m, valid_mesh m -> forall ops longest check, (forall i, longest i < 3) -> Forall good_hop ops ->
  exists H, run_hops ops (new_hierarchy longest m (new_factory check)) = Ok H /\
    length (levels H) = S (length (filter is_refinement ops)) /\
    (exists L0, nth_error (levels H) 0 = Some L0 /\ l_mesh L0 = m) /\
    (forall L, In L (levels H) -> valid_mesh (l_mesh L)) /\ TransferSpec.reached H)%nat.
Proof. exact valid_refined. Qed.
Print Assumptions C107_refined.

(** The triangular mesh of a rectangle, with the geometries that the builder hands over, meets every
    hypothesis of C96 to C100. *)
Theorem C107_triangulation : (forall p check, proper p -> well_shaped p -> exists M g, tp_triag_build p check = Ok (Some (M, g)) /\
  (exists geom, given g geom) /\ forall geom, given g geom ->
  let m := view M in triangulation m geom (position g) /\ manifold m /\ no_overlap m geom /\ all_reached m /\ complete_mesh m /\
  (exists v, boundary_node m v) /\ closed_curves m /\ connected_boundary m)%nat.
Proof. exact rect_mesh. Qed.
Print Assumptions C107_triangulation.

(** Hence the Stokes systems on it have exactly one solution. *)
Theorem C107_no_flow : forall p check, proper p -> well_shaped p -> exists M g, tp_triag_build p check = Ok (Some (M, g)) /\ forall geom, given g geom ->
  let m := view M in let N := (size m 2 + size m 1)%nat in
  forall sigma modified q check' f b, 0 < sigma -> tria_rule q -> of_points f ->
  exists A rhs D, buildSystemMatrixNoFlow m geom (u_handler (uniform m stokes_map check')) f b sigma q modified = Ok (A, rhs) /\
  AssembleSpec.is_matrix Rring A N N D /\ length rhs = N /\
  exists x, solves Rring N D (comp Rring rhs) x /\ forall y, solves Rring N D (comp Rring rhs) y -> forall i, (i < N)%nat -> y i = x i.
Proof. exact rect_no_flow. Qed.
Print Assumptions C107_no_flow.

(** With flow across the boundary. *)
Theorem C107_in_out_flow : forall p check, proper p -> well_shaped p -> exists M g, tp_triag_build p check = Ok (Some (M, g)) /\ forall geom, given g geom ->
  let m := view M in let N := (size m 2 + size m 1)%nat in
  forall solver, exact_solver solver -> forall sigma modified q check' f b, 0 < sigma -> tria_rule q -> of_points f ->
  exists A rhs D off, buildSystemMatrixInOutFlow m geom solver (u_handler (uniform m stokes_map check')) f b sigma q modified = Ok (A, rhs, off) /\
  AssembleSpec.is_matrix Rring A N N D /\ length rhs = N /\
  exists x, solves Rring N D (comp Rring rhs) x /\ forall y, solves Rring N D (comp Rring rhs) y -> forall i, (i < N)%nat -> y i = x i.
Proof. exact rect_in_out_flow. Qed.
Print Assumptions C107_in_out_flow.

(** Uniform refinement keeps all of this: if straight triangles meet the hypotheses of C96 to C100 then the meshes of all levels do,
    with the geometries that the refinement creates. *)
Theorem C107_levels : (forall m geom0 pos, valid_mesh m -> straight_at m 2 pos geom0 -> (forall c, In c (mv_cells m) -> length (cv_nodes c) = 3) -> fit_for_stokes m geom0 pos ->
  forall lgs longest check, (forall i, longest i < 3) -> Forall (fun lg => forall i, lg i < 3) lgs ->
  exists H, run_hops (uniformly lgs) (new_hierarchy longest m (new_factory check)) = Ok H /\ length (levels H) = S (length lgs) /\
    (exists geom, geom 0 = geom0 /\ geometric (levels H) geom) /\
    forall geom, geom 0 = geom0 -> geometric (levels H) geom -> forall l L, nth_error (levels H) l = Some L -> fit_for_stokes (l_mesh L) (geom l) (at_node (geom l)))%nat.
Proof. exact levels_fit. Qed.
Print Assumptions C107_levels.

(** This applies to the triangular mesh of a rectangle. *)
Theorem C107_rectangle_levels : forall p check, proper p -> well_shaped p -> exists M g, tp_triag_build p check = Ok (Some (M, g)) /\ forall geom0, given g geom0 ->
  forall lgs longest check', (forall i, longest i < 3)%nat -> Forall (fun lg => forall i, lg i < 3)%nat lgs ->
  exists H, run_hops (uniformly lgs) (new_hierarchy longest (view M) (new_factory check')) = Ok H /\ length (levels H) = S (length lgs) /\
    (exists geom, geom 0%nat = geom0 /\ geometric (levels H) geom) /\
    forall geom, geom 0%nat = geom0 -> geometric (levels H) geom -> forall l L, nth_error (levels H) l = Some L -> fit_for_stokes (l_mesh L) (geom l) (at_node (geom l)).
Proof. exact rect_levels. Qed.
Print Assumptions C107_rectangle_levels.

(** Hence the Stokes systems have exactly one solution on every level. *)
Theorem C107_fit_no_flow : forall m geom pos, fit_for_stokes m geom pos -> let N := (size m 2 + size m 1)%nat in
  forall sigma modified q check f b, 0 < sigma -> tria_rule q -> of_points f ->
  exists A rhs D, buildSystemMatrixNoFlow m geom (u_handler (uniform m stokes_map check)) f b sigma q modified = Ok (A, rhs) /\
  AssembleSpec.is_matrix Rring A N N D /\ length rhs = N /\
  exists x, solves Rring N D (comp Rring rhs) x /\ forall y, solves Rring N D (comp Rring rhs) y -> forall i, (i < N)%nat -> y i = x i.
Proof. exact fit_no_flow. Qed.
Print Assumptions C107_fit_no_flow.
Theorem C107_fit_in_out_flow : forall m geom pos, fit_for_stokes m geom pos -> let N := (size m 2 + size m 1)%nat in
  forall solver, exact_solver solver -> forall sigma modified q check f b, 0 < sigma -> tria_rule q -> of_points f ->
  exists A rhs D off, buildSystemMatrixInOutFlow m geom solver (u_handler (uniform m stokes_map check)) f b sigma q modified = Ok (A, rhs, off) /\
  AssembleSpec.is_matrix Rring A N N D /\ length rhs = N /\
  exists x, solves Rring N D (comp Rring rhs) x /\ forall y, solves Rring N D (comp Rring rhs) y -> forall i, (i < N)%nat -> y i = x i.
Proof. exact fit_in_out_flow. Qed.
Print Assumptions C107_fit_in_out_flow.

Example C107_solver : exists solver, exact_solver solver.
Proof. exact (ex_intro _ eliminate eliminate_exact). Qed.
Example C107_data : tria_rule centre_rule /\ of_points (fun x => x).
Proof. exact (conj (proj1 data_example) (proj1 (proj2 data_example))). Qed.
Example C107_history : Forall good_hop [Regular (fun _ => 0%nat) rp_regular; Mark (fun e => Nat.eqb e 1); Marked (fun _ => 2%nat)].
Proof. repeat apply Forall_cons; try apply Forall_nil; cbn; auto with arith. Qed.
