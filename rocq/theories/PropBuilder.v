(** Properties C33-C35: structured mesh builders. *)
From Coq Require Import Reals Lra List Arith Lia Bool.
Import ListNotations.
From Verif Require Import Base MeshModel MeshSpec MeshView RefineSpec BuilderModel BuilderSpec
  BuilderProofs3 BuilderProofs4 BuilderProofs5.

Example unit_square_proper : proper (mkParams 0 0 1 2 3 4) /\ well_shaped (mkParams 0 0 1 2 3 4).
Proof. split; [unfold proper; simpl; repeat split; try lia; lra|exact shaped_example]. Qed.

(** C33: TPTriagMeshBuilder on every rectangle and for all numbers of cells whose
    sides do not differ by a factor of several thousand. *)
Theorem C33_triangular_tensor_product_mesh : forall p check, proper p -> well_shaped p -> exists M g,
  tp_triag_build p check = Ok (Some (M, g)) /\ (exists h, built check h M) /\
  num_entities 2 M = (p_nx p + 1) * (p_ny p + 1) /\
  num_entities 1 M = p_nx p * p_ny p + (p_nx p + 1) * p_ny p + p_nx p * (p_ny p + 1) /\
  num_entities_of_type kTria M = 2 * p_nx p * p_ny p /\ num_entities_of_type kQuad M = 0 /\
  (forall i j, i <= p_nx p -> j <= p_ny p ->
     nth_error (g_points g) (i + j * (p_nx p + 1)) = Some (grid_point p i j)) /\
  geometry_matches M g /\ length (g_edges g) = num_entities 1 M /\
  (forall cs, In cs (g_cells g) -> signed_area cs =
     ((p_x1 p - p_x0 p) / INR (p_nx p) * ((p_y1 p - p_y0 p) / INR (p_ny p)) / 2)%R) /\
  tiles p (g_cells g) /\
  (forall e a b, nth_error (mv_edges (view M)) e = Some (a, b) ->
     (adjacent (view M) e = 1 \/ adjacent (view M) e = 2) /\
     (adjacent (view M) e = 1 <-> on_common_side p (place g a) (place g b))).
Proof. exact (fun p check H W => triag_mesh p H W check). Qed.

(** C34: TPQuadMeshBuilder. *)
Theorem C34_quadrilateral_tensor_product_mesh : forall p check, proper p -> well_shaped p -> exists M g,
  tp_quad_build p check = Ok (Some (M, g)) /\ (exists h, built check h M) /\
  num_entities 2 M = (p_nx p + 1) * (p_ny p + 1) /\
  num_entities 1 M = (p_nx p + 1) * p_ny p + p_nx p * (p_ny p + 1) /\
  num_entities_of_type kTria M = 0 /\ num_entities_of_type kQuad M = p_nx p * p_ny p /\
  (forall i j, i <= p_nx p -> j <= p_ny p ->
     nth_error (g_points g) (i + j * (p_nx p + 1)) = Some (grid_point p i j)) /\
  geometry_matches M g /\
  (forall cs, In cs (g_cells g) -> signed_area cs =
     ((p_x1 p - p_x0 p) / INR (p_nx p) * ((p_y1 p - p_y0 p) / INR (p_ny p)))%R) /\
  tiles p (g_cells g) /\
  (forall e a b, nth_error (mv_edges (view M)) e = Some (a, b) ->
     (adjacent (view M) e = 1 \/ adjacent (view M) e = 2) /\
     (adjacent (view M) e = 1 <-> on_common_side p (place g a) (place g b))).
Proof. exact (fun p check H W => quad_mesh p H W check). Qed.

(** C33, C34, finding: on all other rectangles, for example on the unit square cut into
    1 times 10000 cells, Build throws an exception, because the constructors of the
    geometries take the cells for degenerate ones. *)
Theorem C33_C34_thin_cells_refuted : forall p check, proper p -> ~ well_shaped p ->
  tp_triag_build p check = Throw /\ tp_quad_build p check = Throw.
Proof. exact (fun p check H W => thin_throw p H W check). Qed.
Example C33_thin_example : proper (mkParams 0 0 1 1 1 (100 * 100)) /\ ~ well_shaped (mkParams 0 0 1 1 1 (100 * 100)).
Proof. split; [unfold proper; cbn [p_x0 p_x1 p_y0 p_y1 p_nx p_ny]; repeat split; try lia; lra|exact thin_example]. Qed.

(** Without cells or on an empty rectangle all three builders return a null pointer. *)
Theorem C33_C34_C35_nothing_to_build : forall p check,
  p_nx p = 0 \/ p_ny p = 0 \/ (p_x1 p <= p_x0 p)%R \/ (p_y1 p <= p_y0 p)%R ->
  tp_triag_build p check = Ok None /\ tp_quad_build p check = Ok None /\ torus_build p check = Ok None.
Proof. exact improper_null. Qed.

(** C35: TorusMeshBuilder with at least three cells in both directions: a closed
    surface with the documented numbers of entities. *)
Theorem C35_torus_mesh : forall p check, proper p -> torus_shaped p -> 3 <= p_nx p -> 3 <= p_ny p -> exists M g,
  torus_build p check = Ok (Some (M, g)) /\ (exists h, built check h M) /\
  num_entities 2 M = p_nx p * p_ny p /\ num_entities 1 M = 2 * p_nx p * p_ny p /\
  num_entities_of_type kTria M = 0 /\ num_entities_of_type kQuad M = p_nx p * p_ny p /\
  (forall i j, i < p_nx p -> j < p_ny p ->
     nth_error (g_points g) (i + j * p_nx p) = Some (torus_point p i j)) /\
  geometry_matches M g /\
  (forall e, e < num_entities 1 M -> adjacent (view M) e = 2).
Proof. exact torus_mesh. Qed.

(** C35, finding: with a single cell in one direction or two in both Build throws an
    exception, with two cells around the tube the mesh has fewer edges than documented. *)
Theorem C35_small_torus_refuted : forall p check, proper p ->
  (p_nx p = 1 \/ p_ny p = 1 -> torus_build p check = Throw) /\
  (p_nx p = 2 -> p_ny p = 2 -> torus_build p check = Throw) /\
  (p_nx p = 2 -> 3 <= p_ny p -> torus_shaped p -> exists M g,
     torus_build p check = Ok (Some (M, g)) /\ num_entities 1 M < 2 * p_nx p * p_ny p).
Proof. exact torus_small. Qed.
(** The same with two cells along the tube: 9 edges instead of 2 * 3 * 2. *)
Theorem C35_two_along_refuted : forall check, proper (mkParams 0 0 1 2 3 2) /\ exists M g,
  torus_build (mkParams 0 0 1 2 3 2) check = Ok (Some (M, g)) /\ num_entities 1 M = 9.
Proof. exact torus_stubby. Qed.
(** C35, finding: on a square, such as the default unit square, and with an even number
    of cells around the tube Build throws: the tube touches the axis of the torus. *)
Theorem C35_square_refuted : forall p check, proper p -> (p_x1 p - p_x0 p = p_y1 p - p_y0 p)%R ->
  Nat.Even (p_nx p) -> torus_build p check = Throw.
Proof. exact torus_square. Qed.

Example C35_example : proper (mkParams 0 0 1 1 1 1) /\ proper (mkParams 0 0 1 1 2 2) /\
  proper (mkParams 0 0 1 1 4 4) /\
  proper (mkParams 0 0 1 2 2 3) /\ torus_shaped (mkParams 0 0 1 2 2 3) /\
  proper (mkParams 0 0 1 2 3 3) /\ torus_shaped (mkParams 0 0 1 2 3 3).
Proof.
  assert (P : forall y n m, (0 < y)%R -> 1 <= n -> 1 <= m -> proper (mkParams 0 0 1 y n m)).
  { intros. unfold proper; cbn [p_x0 p_x1 p_y0 p_y1 p_nx p_ny]. auto using Rlt_0_1. }
  do 3 (split; [apply P; try lia; lra|]). split; [apply P; try lia; lra|]. split; [apply torus_example|].
  split; [apply P; try lia; lra|apply torus_example].
Qed.
Print Assumptions C33_triangular_tensor_product_mesh.
Print Assumptions C34_quadrilateral_tensor_product_mesh.
Print Assumptions C33_C34_C35_nothing_to_build.
Print Assumptions C35_torus_mesh.
Print Assumptions C35_small_torus_refuted.
Print Assumptions C35_two_along_refuted.
Print Assumptions C35_square_refuted.
Print Assumptions C33_C34_thin_cells_refuted.
