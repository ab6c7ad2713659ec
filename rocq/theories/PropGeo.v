(** Properties C40-C44, C63 and C64: geometry objects. *)
From Coq Require Import Reals Lra List Arith ZArith.
Import ListNotations.
From Verif Require Import Base MeshModel RefPatModel GeoModel GeoSpec GeoProofs GeoProofs2 GeoProofs3 GeoProofs4
  GeoProofs5 GeoProofs6 GeoProofs7.
Local Open Scope R_scope.

(** *** C40 *)
Theorem C40_jacobian_is_derivative : forall g x, admissible g x ->
  exists J, Jacobian g x = Ok J /\ derivative (go_dim g) (Global g) x J.
Proof. exact jacobian_derivative. Qed.
Print Assumptions C40_jacobian_is_derivative.

(** A triangle in the plane, used in the examples. *)
Definition tri : geo :=
  mkGeo GTriaO1 2 [(fun _ => 0); (fun k => match k with 0%nat => 2 | _ => 0 end); (fun k => match k with 0%nat => 1 | _ => 3 end)].
Example tri_constructed : constructed tri.
Proof.
  left. exists GTriaO1, 2%nat, (go_cols tri). unfold new_geo, check_tria, tol.
  cbv [tri go_cols length num_cols Nat.eqb lf_assert bind nth sqnorm dot vsub map seq fold_right cross2].
  repeat match goal with |- context [gtb ?a ?b] =>
    replace (gtb a b) with true; [cbv beta iota delta [verify]|symmetry; apply gtb_true] end; try reflexivity; try lra.
  rewrite Rabs_right; lra.
Qed.
(** A curved quadrilateral in space. *)
Definition cushion : geo :=
  mkGeo GQuadO2 3 [(fun _ => 0); (fun k => match k with 0%nat => 2 | _ => 0 end);
    (fun k => match k with 2%nat => 0 | _ => 2 end); (fun k => match k with 1%nat => 2 | _ => 0 end);
    (fun k => match k with 1%nat => 0 | _ => 1 end); (fun k => match k with 0%nat => 2 | _ => 1 end);
    (fun k => match k with 1%nat => 2 | _ => 1 end); (fun k => match k with 0%nat => 0 | _ => 1 end)].
Example cushion_constructed : constructed cushion /\ exact_parallelogram cushion /\ admissible cushion [1 / 2; 1 / 3].
Proof.
  split; [left; exists GQuadO2, 3%nat, (go_cols cushion); reflexivity|]. split; [intros K; discriminate K|].
  split; [reflexivity|]. intros _ t [<-|[<-|[]]]; lra.
Qed.

(** *** C41 *)
(** Edges of two-dimensional cells. *)
Theorem C41_edges : forall g i, constructed g -> exact_parallelogram g -> dim_local (go_kind g) = 2%nat ->
  (i < num_nodes (kind_el (go_kind g)))%nat ->
  exists s, SubGeometry g 1 i = Ok s /\ go_dim s = go_dim g /\ dim_local (go_kind s) = 1%nat /\
    forall t, same_outcome (go_dim g) (Global s [t]) (Global g (on_edge (kind_el (go_kind g)) i t)).
Proof. exact edge_geometry. Qed.
Print Assumptions C41_edges.
(** Nodes (and the further control points of second-order geometries). *)
Theorem C41_nodes : forall g i x, constructed g -> exact_parallelogram g ->
  nth_error (control_points (go_kind g)) i = Some x ->
  exists s, SubGeometry g (dim_local (go_kind g)) i = Ok s /\ go_kind s = GPoint /\ go_dim s = go_dim g /\
    same_outcome (go_dim g) (Global s []) (Global g x).
Proof. exact node_geometry. Qed.
Print Assumptions C41_nodes.
(** The entity itself. *)
Theorem C41_self : forall g, constructed g -> SubGeometry g 0 0 = Ok g.
Proof. exact self_geometry. Qed.
Print Assumptions C41_self.
(** There are no other sub-geometries. *)
Theorem C41_no_others : forall g c i s, constructed g -> SubGeometry g c i = Ok s ->
  (c <= dim_local (go_kind g))%nat /\
  (i < if (c =? 0)%nat then 1 else if (c =? dim_local (go_kind g))%nat then num_cols (go_kind g)
       else num_nodes (kind_el (go_kind g)))%nat.
Proof. exact sub_bounds. Qed.
Print Assumptions C41_no_others.
(** The hypothesis [exact_parallelogram] cannot be dropped: Parallelogram accepts
    four points that form a parallelogram up to a tolerance only. *)
Theorem C41_tolerance_refuted :
  exists g s p q, constructed g /\ SubGeometry g 1 1 = Ok s /\ Global s [1] = Ok p /\
    Global g (on_edge (kind_el (go_kind g)) 1 1) = Ok q /\ p 0%nat <> q 0%nat.
Proof. exact nearly_parallelogram. Qed.
Print Assumptions C41_tolerance_refuted.
(** Objects of other classes, and those from three points, are exact. *)
Example C41_exact : exact_parallelogram tri /\
  (forall d p0 p1 p2 g, new_parallelogram3 d p0 p1 p2 = Ok g -> exact_parallelogram g).
Proof.
  split; [intros K; discriminate K|]. intros d p0 p1 p2 g H. unfold new_parallelogram3 in H.
  destruct (check_quad _ _); try discriminate H. injection H as <-. intros _ k. cbn. unfold vadd, vsub. ring.
Qed.

(** *** C42 *)
Theorem C42_children : forall g P codim cs, exact_parallelogram g -> go_kind g <> GPoint ->
  ChildGeometry g P codim = Ok cs ->
  p_el P = kind_el (go_kind g) /\
  exists polys, ChildPolygons P codim = Ok polys /\ NumChildren P codim = Ok (length cs) /\
  Forall2 (fun poly c => child_of g codim (corners (p_lc P) poly) c) polys cs.
Proof. exact children_geometry. Qed.
Print Assumptions C42_children.
Theorem C42_point : forall g P codim cs, constructed g -> go_kind g = GPoint ->
  ChildGeometry g P codim = Ok cs -> p_el P = kPoint /\ codim = 0%nat /\ cs = [g].
Proof. exact point_child. Qed.
Print Assumptions C42_point.
(** Hence children that share an edge agree on it, also if they run through it in
    opposite directions, and edges on which the parent's map is of the right
    class (all edges but interior ones of non-affine quadrilaterals) are exact. *)
Theorem C42_shared_edges : forall g a b t q, curve g a b t q ->
  curve g b a (1 - t) q /\
  (forall q', curve g a b t q' -> forall k, (k < go_dim g)%nat -> q k = q' k) /\
  (go_kind g <> GPoint -> closed_class g [a; b] -> (is_o2 (go_kind g) = true -> 0 <= t <= 1) ->
   exists p, Global g (between a b t) = Ok p /\ forall k, (k < go_dim g)%nat -> q k = p k).
Proof.
  intros g a b t q H. split; [apply curve_reverse, H|]. split.
  - intros q'. apply curve_unique, H.
  - intros NP CC Ht. apply curve_exact; assumption.
Qed.
Print Assumptions C42_shared_edges.
Example C42_example : exists P cs, new_pattern kTria rp_regular None = Ok P /\ ChildGeometry tri P 1 = Ok cs /\ length cs = 3%nat.
Proof. do 2 eexists. split; [reflexivity|]. split; [reflexivity|]. reflexivity. Qed.

(** *** C43 *)
Theorem C43_inverse_gramian : forall g x J, admissible g x -> Jacobian g x = Ok J -> dim_local (go_kind g) <> 0%nat ->
  gramian_det (go_dim g) J <> 0 ->
  exists M, JacobianInverseGramian g x = Ok M /\ is_inverse_gramian (go_dim g) J M.
Proof. exact inverse_gramian. Qed.
Print Assumptions C43_inverse_gramian.
Theorem C43_integration_element : forall g x J, admissible g x -> Jacobian g x = Ok J ->
  IntegrationElement g x = Ok (sqrt (gramian_det (go_dim g) J)).
Proof. exact integration_element. Qed.
Print Assumptions C43_integration_element.
(** Affine cells that the constructors accept are never degenerate. *)
Theorem C43_affine_cells_regular : forall g x J, constructed g -> exact_parallelogram g ->
  go_kind g = GTriaO1 \/ go_kind g = GParallelogram -> admissible g x -> Jacobian g x = Ok J ->
  0 < gramian_det (go_dim g) J.
Proof. exact affine_nondegenerate. Qed.
Print Assumptions C43_affine_cells_regular.
Example C43_example : exists J, Jacobian tri [1 / 2; 1 / 4] = Ok J /\ gramian_det 2 J <> 0.
Proof. eexists. split; [reflexivity|]. cbn. unfold vsub. lra. Qed.

(** *** C44 *)
Theorem C44_control_points : forall g i x, constructed g -> exact_parallelogram g ->
  nth_error (control_points (go_kind g)) i = Some x ->
  exists p, Global g x = Ok p /\ forall k, p k = col g i k.
Proof. exact control_images. Qed.
Print Assumptions C44_control_points.

(** *** C63 *)
Theorem C63_length : forall g, go_kind g = GSegmentO1 -> Volume g = Ok (distance (go_dim g) (col g 0) (col g 1)).
Proof. exact volume_segment. Qed.
Print Assumptions C63_length.
Theorem C63_area : forall g, go_dim g = 2%nat -> length (go_cols g) = num_cols (go_kind g) -> exact_parallelogram g ->
  go_kind g = GTriaO1 \/ go_kind g = GQuadO1 \/ go_kind g = GParallelogram ->
  Volume g = Ok (polygon_area (go_cols g)).
Proof. exact volume_plane. Qed.
Print Assumptions C63_area.
Theorem C63_area_in_space : forall g, go_dim g = 3%nat ->
  (go_kind g = GTriaO1 -> Volume g = Ok (/ 2 * sqrt (sqnorm 3 (cross (vsub (col g 1) (col g 0)) (vsub (col g 2) (col g 0)))))) /\
  (go_kind g = GParallelogram -> Volume g = Ok (sqrt (sqnorm 3 (cross (vsub (col g 1) (col g 0)) (vsub (col g 3) (col g 0)))))).
Proof. exact volume_space. Qed.
Print Assumptions C63_area_in_space.
Example C63_example : polygon_area (go_cols tri) = 3.
Proof. unfold polygon_area. cbn. rewrite Rabs_right; lra. Qed.

(** *** C64 *)
Theorem C64_affine : forall g, isAffine g = true -> is_o2 (go_kind g) = false ->
  affine_map (go_dim g) (Global g) /\
  (forall x y, length x = dim_local (go_kind g) -> length y = dim_local (go_kind g) -> Jacobian g x = Jacobian g y).
Proof. exact affine_true. Qed.
Print Assumptions C64_affine.
(** SegmentO2, TriaO2 and QuadO2 inherit [isAffine() = true]. *)
Theorem C64_second_order_refuted : exists g, constructed g /\ isAffine g = true /\ ~ affine_map (go_dim g) (Global g) /\
  exists x y, admissible g x /\ admissible g y /\ Jacobian g x <> Jacobian g y.
Proof. exact affine_wrong. Qed.
Print Assumptions C64_second_order_refuted.
