(** Property C60: transfer of mesh functions to finer levels. *)
From Coq Require Import Reals List Arith Bool Lia.
Import ListNotations.
From Verif Require Import Base MeshModel MeshView RefPatModel RefPatSpec RefineModel RefineSpec PropRefine PropRefine2
  DofModel DofSpec GeoModel GeoSpec FeModel FeToolsModel TransferModel TransferSpec TransferProofs4 TransferProofs5 TransferProofs6 TransferProofs7.
Local Open Scope R_scope.

(** Every history of refinements also succeeds with the computation of the relative
    geometries, with the same result. *)
Theorem C60_history : forall ops longest check m, wf_mesh m -> simple_mesh m -> (check = true -> complete_mesh m) -> (forall i, longest i < 3)%nat ->
  Forall good_hop ops -> exists H, run_hops_geo ops (new_hierarchy longest m (new_factory check)) = Ok H /\
    run_hops ops (new_hierarchy longest m (new_factory check)) = Ok H /\ length (levels H) = S (length (filter is_refinement ops)).
Proof. exact geo_history. Qed.
Print Assumptions C60_history.

(** ParentEntity and GeometryInParent: an entity of level l+1 lies inside a valid
    entity of level l, and the relative geometry maps reference coordinates to the
    interpolation of the places of its nodes. *)
Theorem C60_relative_geometry : forall H l L L' e, reached H -> nth_error (levels H) l = Some L -> nth_error (levels H) (S l) = Some L' -> valid (l_mesh L') e ->
  exists p w g, valid (l_mesh L) p /\ (ent_codim p <= ent_codim e)%nat /\ inside L L' e p w /\
    GeometryInParent H (S l) e = Ok g /\ ParentEntity H (S l) e = Ok p /\
    go_dim g = ent_dim p /\ forall x, length x = ent_dim e -> exists v, Global g x = Ok v /\ to_local g v = onto w x.
Proof. intros H l L L' e RE. apply up, reached_levels, RE. Qed.
Print Assumptions C60_relative_geometry.

(** The constructor's checks. *)
Theorem C60_constructor : forall H mf_level lc lf,
  (transfer_checks H mf_level lc lf = Ok tt <-> (lc < lf < length (levels H))%nat /\ (forall l, mf_level = Some l -> l = lc)) /\
  (transfer_checks H mf_level lc lf = Ok tt \/ transfer_checks H mf_level lc lf = Assert).
Proof. exact constructor_checks. Qed.
Print Assumptions C60_constructor.

(** The value at a point of the reference element of an entity of the fine level is
    the value of the coarse function at the image of that point, which is a point of
    the reference element of an entity of the coarse level. *)
Theorem C60_transfer : forall H mf lc lf L e x, reached H -> (lc < lf)%nat -> nth_error (levels H) lf = Some L -> valid (l_mesh L) e ->
  in_ref (ent_type (l_mesh L) e) x ->
  exists Lc q y, nth_error (levels H) lc = Some Lc /\ valid (l_mesh Lc) q /\ in_ref (ent_type (l_mesh Lc) q) y /\
    image (levels H) lf e x lc q y /\ transfer_eval H mf lc lf e x = mf q y.
Proof. exact transfer_at_image. Qed.
Print Assumptions C60_transfer.
(** There is only one image. *)
Theorem C60_image_unique : forall H l e x k q y q' y', reached H ->
  image (levels H) l e x k q y -> image (levels H) l e x k q' y' -> q = q' /\ y = y'.
Proof. intros H l e x k q y q' y' RE. apply image_unique, reached_levels, RE. Qed.
Print Assumptions C60_image_unique.

(** If no quadrilateral with a map that is not affine is divided into triangles, the
    image is the same point of the world, and a function of the world coordinates is
    transferred to itself. *)
Theorem C60_same_point : forall H geom l e x k q y L, reached H -> geometric (levels H) geom -> quads_kept (levels H) geom ->
  image (levels H) l e x k q y -> nth_error (levels H) l = Some L -> valid (l_mesh L) e -> in_ref (ent_type (l_mesh L) e) x ->
  same_point (geom l e) x (geom k q) y.
Proof. exact same_point_image. Qed.
Print Assumptions C60_same_point.
Theorem C60_world_function : forall H geom f lc lf L e x, reached H -> geometric (levels H) geom -> quads_kept (levels H) geom ->
  (lc < lf)%nat -> nth_error (levels H) lf = Some L -> valid (l_mesh L) e -> in_ref (ent_type (l_mesh L) e) x ->
  depends_on (go_dim (geom lf e)) f ->
  exists r, transfer_eval H (world_function f (geom lc)) lc lf e x = Ok r /\ world_function f (geom lf) e x = Ok r.
Proof. exact world_function_transfer. Qed.
Print Assumptions C60_world_function.

(** Such geometries exist, for instance if all cells of the coarsest mesh are of second
    order, or if there are only straight triangles and parallelograms and they are only copied or
    refined regularly (cf. C42_barycentric_refuted). *)
Theorem C60_geometries : forall H g0, reached H ->
  (forall L e, nth_error (levels H) 0 = Some L -> valid (l_mesh L) e ->
     constructed (g0 e) /\ exact_parallelogram (g0 e) /\ kind_el (go_kind (g0 e)) = ent_type (l_mesh L) e /\ tame (g0 e)) ->
  (forall L e, nth_error (levels H) 0 = Some L -> valid (l_mesh L) e -> is_o2 (go_kind (g0 e)) = true \/ go_kind (g0 e) = GPoint) \/
  (forall l L ci, (S l < length (levels H))%nat -> nth_error (levels H) l = Some L -> In ci (l_cells L) -> cc_pat ci = rp_copy \/ cc_pat ci = rp_regular) ->
  exists geom, geom 0%nat = g0 /\ geometric (levels H) geom.
Proof. intros H g0 RE. apply geometries_exist, reached_levels, RE. Qed.
Print Assumptions C60_geometries.

(** getMesh() returns the mesh of the fine level if the levels are neighbours, *)
Theorem C60_getMesh_partial : forall lc lf, (lc < lf)%nat -> (transfer_getMesh lc lf = lf <-> lf = (lc + 1)%nat).
Proof. exact getMesh_neighbours. Qed.
Print Assumptions C60_getMesh_partial.
(** otherwise it does not, although the constructor accepts them. *)
Theorem C60_getMesh_refuted : exists H lc lf, reached H /\ transfer_checks H (Some lc) lc lf = Ok tt /\ transfer_getMesh lc lf <> lf.
Proof. exact getMesh_wrong. Qed.
Print Assumptions C60_getMesh_refuted.

(** ** Examples *)
Example C60_example : exists H, reached H /\
  map (fun L => (mv_nodes (l_mesh L), length (mv_edges (l_mesh L)), length (mv_cells (l_mesh L)))) (levels H) =
    [(6, 8, 3); (9, 17, 9); (26, 61, 36)]%nat.
Proof. exact reached_example. Qed.
(** Geometries for this hierarchy: second-order cells whose nodes are at arbitrary places. *)
Example C60_geometries_example : forall pos, exists H geom, reached H /\ length (levels H) = 3%nat /\ geometric (levels H) geom /\
  forall L, nth_error (levels H) 0 = Some L -> geom 0%nat = curved pos (l_mesh L).
Proof. exact geometric_example. Qed.
