(** Properties C71, C72, C73: files for VTK. *)
From Coq Require Import Reals String List Arith Bool.
Import ListNotations.
From Verif Require Import Base PropRefine MeshModel MeshView DofModel DofSpec RefineModel RefineSpec TransferModel GeoModel GeoSpec FeModel FeSpec FeToolsModel TransferSpec LagrModel
  ConformSpec VtkModel VtkSpec VtkProofs7 VtkProofs8 VtkProofs9.
Local Open Scope R_scope.

(** C71: the constructor succeeds; there is one cell per entity of the chosen codimension, of the right type, at the index of
    the entity; its points are numbered such that entities share exactly the points on their common nodes and edges; every point has
    the position, in the entity's own geometry, which VTK expects at this place of the cell.
    For triangles of order 7 and more: only on the boundary and the first triangle inside. *)
Theorem C71_grid_partial : forall m d geom cast codim n, writable m d geom codim n -> exists w idx, new_writer m geom d cast codim n = Ok w /\
  let g := vf_grid (vw_file w) in
  numbering m codim n (length (g_points g)) idx /\ length (g_cells g) = mv_count m codim /\ length (g_types g) = mv_count m codim /\
  (forall e, written m codim e -> nth_error (g_cells g) (ent_index e) = Some (map (fun r => idx (ent_location m n e r)) (seq 0 (vtk_size (ent_type m e) n))) /\
     nth_error (g_types g) (ent_index e) = Some (vtk_type (ent_type m e) n)) /\
  complete (length (g_points g)) (g_points g) /\ samples m codim n (g_cells g) (g_points g) (place d cast geom) /\
  vf_point (vw_file w) = [] /\ vf_cell (vw_file w) = [] /\ vf_field (vw_file w) = [].
Proof. exact grid_ok. Qed.
Print Assumptions C71_grid_partial.
(** Order 7: point 33 of a triangle is not at its place. *)
Theorem C71_order7_refuted : exists m d geom w c p v, writable m d geom 0 7 /\ new_writer m geom d (fun x => x) 0 7 = Ok w /\ written m 0 (ECell 0) /\ ent_type m (ECell 0) = kTria /\
  (33 < vtk_size kTria 7)%nat /\ nth_error (g_cells (vf_grid (vw_file w))) 0 = Some c /\ nth_error c 33 = Some p /\
  place d (fun x => x) geom (ECell 0) (vtk_position kTria 7 33) = Ok v /\ nth_error (g_points (vf_grid (vw_file w))) p <> Some (Some v).
Proof. exact order7. Qed.
Print Assumptions C71_order7_refuted.
(** All meshes of a hierarchy can be written. *)
Theorem C71_levels : forall H geom d L0 codim n, reached H -> geometric (levels H) geom -> nth_error (levels H) 0 = Some L0 -> watertight (l_mesh L0) d (geom 0%nat) ->
  (1 <= d <= 3)%nat -> (codim < 2)%nat -> (1 <= n <= 10)%nat -> forall l L, nth_error (levels H) l = Some L -> writable (l_mesh L) d (geom l) codim n.
Proof. exact levels_writable. Qed.
Print Assumptions C71_levels.
(** The grid never changes. *)
Theorem C71_grid_kept : forall m d geom cast codim n w w0, writable m d geom codim n -> made m d geom cast codim n w -> new_writer m geom d cast codim n = Ok w0 -> vf_grid (vw_file w) = vf_grid (vw_file w0).
Proof. exact grid_kept. Qed.
Print Assumptions C71_grid_kept.

(** C72: values of continuous functions at the points of the cells (in triangles of order 7 and more only at those described
    for C71), *)
Theorem C72_point_function_partial : forall m d geom cast codim n w name t u, writable m d geom codim n -> made m d geom cast codim n w -> agreeing m codim u -> acceptable (point_names w) name ->
  exists w' data, vtk_step m w (PointFunction name t u) = Ok w' /\ more_point_data w w' (ScalarData name t data) /\
    complete (length (g_points (vf_grid (vw_file w)))) data /\ samples m codim n (g_cells (vf_grid (vw_file w))) data u.
Proof. exact point_function. Qed.
Print Assumptions C72_point_function_partial.
Theorem C72_point_vector_function_partial : forall m d geom cast codim n w name t u, writable m d geom codim n -> made m d geom cast codim n w -> agreeing m codim u ->
  (forall e x v, u e x = Ok v -> small v) -> acceptable (point_names w) name ->
  exists w' data, vtk_step m w (PointVectorFunction name t u) = Ok w' /\ more_point_data w w' (VectorData name t data) /\
    complete (length (g_points (vf_grid (vw_file w)))) data /\ samples m codim n (g_cells (vf_grid (vw_file w))) data (fun e x => do v <- u e x; Ok (in_three v)).
Proof. exact point_vector_function. Qed.
Print Assumptions C72_point_vector_function_partial.
(** for example finite element functions; *)
Theorem C72_fe_function : forall k m V coef codim, wf_mesh m -> lagrange_space k m = Ok V -> length coef = NumDofs (sp_dofs V) -> agreeing m codim (fe_value V coef).
Proof. exact fe_agrees. Qed.
Print Assumptions C72_fe_function.
(** values of data sets at the corners of the cells and at cells; *)
Theorem C72_point_scalars : forall m d geom cast codim w name t ds u, writable m d geom codim 1 -> made m d geom cast codim 1 w -> acceptable (point_names w) name ->
  exists w' data, vtk_step m w (PointScalars name t ds u) = Ok w' /\ more_point_data w w' (ScalarData name t data) /\ complete (mv_nodes m) data /\
    forall e r nd, written m codim e -> nth_error (ent_nodes m e) r = Some nd -> exists c p, nth_error (g_cells (vf_grid (vw_file w))) (ent_index e) = Some c /\ nth_error c r = Some p /\
      nth_error data p = Some (Some (match ds (ENode nd) with Some v => v | None => u end)).
Proof. exact point_scalars. Qed.
Print Assumptions C72_point_scalars.
Theorem C72_point_vectors : forall m d geom cast codim w name t ds u, writable m d geom codim 1 -> made m d geom cast codim 1 w -> acceptable (point_names w) name ->
  small u -> (forall e v, ds e = Some v -> small v) ->
  exists w' data, vtk_step m w (PointVectors name t ds u) = Ok w' /\ more_point_data w w' (VectorData name t data) /\ complete (mv_nodes m) data /\
    forall e r nd, written m codim e -> nth_error (ent_nodes m e) r = Some nd -> exists c p, nth_error (g_cells (vf_grid (vw_file w))) (ent_index e) = Some c /\ nth_error c r = Some p /\
      nth_error data p = Some (Some (in_three (match ds (ENode nd) with Some v => v | None => u end))).
Proof. exact point_vectors. Qed.
Print Assumptions C72_point_vectors.
Theorem C72_cell_scalars : forall m d geom cast codim n w name t ds u, writable m d geom codim n -> made m d geom cast codim n w -> acceptable (cell_names w) name ->
  exists w' data, vtk_step m w (CellScalars name t ds u) = Ok w' /\ more_cell_data w w' (ScalarData name t data) /\ complete (mv_count m codim) data /\
    forall e, written m codim e -> nth_error data (ent_index e) = Some (Some (match ds e with Some v => v | None => u end)).
Proof. exact cell_scalars. Qed.
Print Assumptions C72_cell_scalars.
Theorem C72_cell_vectors : forall m d geom cast codim n w name t ds u, writable m d geom codim n -> made m d geom cast codim n w -> acceptable (cell_names w) name ->
  small u -> (forall e v, ds e = Some v -> small v) ->
  exists w' data, vtk_step m w (CellVectors name t ds u) = Ok w' /\ more_cell_data w w' (VectorData name t data) /\ complete (mv_count m codim) data /\
    forall e, written m codim e -> nth_error data (ent_index e) = Some (Some (in_three (match ds e with Some v => v | None => u end))).
Proof. exact cell_vectors. Qed.
Print Assumptions C72_cell_vectors.
(** values of functions at the centres of edges and triangles, *)
Theorem C72_cell_function_partial : forall m d geom cast codim n w name t u, writable m d geom codim n -> made m d geom cast codim n w -> acceptable (cell_names w) name ->
  (forall e x, written m codim e -> in_ref (ent_type m e) x -> exists v, u e x = Ok v) ->
  exists w' data, vtk_step m w (CellFunction name t u) = Ok w' /\ more_cell_data w w' (ScalarData name t data) /\ complete (mv_count m codim) data /\
    forall e, written m codim e -> ent_type m e <> kQuad -> exists v, u e (centre (ent_type m e)) = Ok v /\ nth_error data (ent_index e) = Some (Some v).
Proof. exact cell_function. Qed.
Print Assumptions C72_cell_function_partial.
Theorem C72_cell_vector_function_partial : forall m d geom cast codim n w name t u, writable m d geom codim n -> made m d geom cast codim n w -> acceptable (cell_names w) name ->
  (forall e x, written m codim e -> in_ref (ent_type m e) x -> exists v, u e x = Ok v /\ small v) ->
  exists w' data, vtk_step m w (CellVectorFunction name t u) = Ok w' /\ more_cell_data w w' (VectorData name t data) /\ complete (mv_count m codim) data /\
    forall e, written m codim e -> ent_type m e <> kQuad -> exists v, u e (centre (ent_type m e)) = Ok v /\ nth_error data (ent_index e) = Some (Some (in_three v)).
Proof. exact cell_vector_function. Qed.
Print Assumptions C72_cell_vector_function_partial.
(** but not at those of quadrilaterals. *)
Theorem C72_centre_refuted : exists m d geom w w' u data, writable m d geom 0 1 /\ new_writer m geom d (fun x => x) 0 1 = Ok w /\ agreeing m 1 u /\ (forall e x, written m 0 e -> in_ref (ent_type m e) x -> exists v, u e x = Ok v) /\
  vtk_step m w (CellFunction "f" TDouble u) = Ok w' /\ vf_cell (vw_file w') = [ScalarData "f" TDouble data] /\ written m 0 (ECell 2) /\
  exists v, u (ECell 2) (centre (ent_type m (ECell 2))) = Ok v /\ nth_error data 2 <> Some (Some v).
Proof. exact quad_centre. Qed.
Print Assumptions C72_centre_refuted.
(** Vectors with four components are not accepted, contrary to the documentation. *)
Theorem C72_long_vectors_refuted : exists m d geom w, writable m d geom 0 1 /\ new_writer m geom d (fun x => x) 0 1 = Ok w /\ acceptable (point_names w) "v" /\
  forall t ds, vtk_step m w (PointVectors "v" t ds [1; 2; 3; 4]) = Assert.
Proof. exact long_vector. Qed.
Print Assumptions C72_long_vectors_refuted.

(** C73: after any sequence of calls the file is accepted by the validation before output, all arrays are complete, names are unique
    and free of spaces. *)
Theorem C73_valid_file : forall m d geom cast codim n w, writable m d geom codim n -> made m d geom cast codim n w ->
  let f := vw_file w in
  ValidateVtkFile f = Ok tt /\ vf_header f = EmptyString /\
  Forall (complete_attribute (length (g_points (vf_grid f)))) (vf_point f) /\ Forall (complete_attribute (length (g_cells (vf_grid f)))) (vf_cell f) /\
  NoDup (point_names w) /\ NoDup (cell_names w) /\ NoDup (map fd_name (vf_field f)) /\
  forall s, In s (point_names w ++ cell_names w ++ map fd_name (vf_field f)) -> contains space s = false.
Proof. exact valid_file. Qed.
Print Assumptions C73_valid_file.
(** Calls with names in use or names with spaces are rejected by an exception. *)
Theorem C73_rejected : forall m d geom cast codim n w op name, writable m d geom codim n -> made m d geom cast codim n w -> harmless m n op -> op_name op = Some name ->
  ~ acceptable (names_for w op) name -> vtk_step m w op = Throw.
Proof. exact rejected. Qed.
Print Assumptions C73_rejected.
(** Harmless calls never violate an assertion. *)
Theorem C73_no_assertion : forall m d geom cast codim n ops, writable m d geom codim n -> Forall (harmless m n) ops -> exists w0 w, new_writer m geom d cast codim n = Ok w0 /\ run_vtk m w0 ops = Ok w.
Proof. exact no_assertion. Qed.
Print Assumptions C73_no_assertion.

(** Nothing that has been written is ever changed or removed; calls for global data and for the format do exactly that. *)
Theorem C73_nothing_lost : forall m ops w w', run_vtk m w ops = Ok w' -> nothing_lost w w'.
Proof. exact lost_run. Qed.
Print Assumptions C73_nothing_lost.
Theorem C73_global_data : forall m w name t data, acceptable (map fd_name (vf_field (vw_file w))) name ->
  vtk_step m w (GlobalData name t data) =
  Ok (mkWriter (vw_codim w) (vw_order w) (vw_off1 w) (vw_off0 w) (mkFile (vf_header (vw_file w)) (vf_binary (vw_file w)) (vf_grid (vw_file w))
    (vf_field (vw_file w) ++ [mkField name t data]) (vf_point (vw_file w)) (vf_cell (vw_file w)))).
Proof. exact global_data. Qed.
Print Assumptions C73_global_data.
Theorem C73_set_binary : forall m w b, vtk_step m w (SetBinary b) =
  Ok (mkWriter (vw_codim w) (vw_order w) (vw_off1 w) (vw_off0 w) (mkFile (vf_header (vw_file w)) b (vf_grid (vw_file w)) (vf_field (vw_file w)) (vf_point (vw_file w)) (vf_cell (vw_file w)))).
Proof. exact set_binary. Qed.
Print Assumptions C73_set_binary.

(** ** Examples *)
Example C71_example : forall codim n, (codim < 2)%nat -> (1 <= n <= 10)%nat -> writable closure_mesh 2 flat codim n.
Proof. exact closure_writable. Qed.
Example C72_example : forall codim, agreeing closure_mesh codim (fun e x => sum_of (flat e) x).
Proof. exact sum_agrees. Qed.
Example C73_example : exists w0 w, writable closure_mesh 2 flat 0 3 /\ new_writer closure_mesh flat 2 (fun x => x) 0 3 = Ok w0 /\ run_vtk closure_mesh w0 history = Ok w /\
  length (g_points (vf_grid (vw_file w))) = 28%nat /\ point_names w = ["u"%string] /\ cell_names w = ["index"; "v"]%string /\ map fd_name (vf_field (vw_file w)) = ["time"%string] /\ vf_binary (vw_file w) = true.
Proof. exact history_example. Qed.
Example C73_harmless_example : Forall (harmless closure_mesh 3) history.
Proof. exact history_harmless. Qed.
