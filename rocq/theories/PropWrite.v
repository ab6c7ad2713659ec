(** C85: text files for MATLAB; C86: text files for plot_mesh.py. *)
From Coq Require Import String Ascii List Arith NArith ZArith QArith Bool.
Import ListNotations.
From Verif Require Import Base MeshView MshModel RefineModel WriteModel WriteSpec WriteProofs5 WriteProofs6 WriteProofs7.
Local Open Scope list_scope.
Local Open Scope nat_scope.

(** For every mesh of triangles and quadrilaterals and every file name that is a MATLAB name
    (with .m, or without and not ending in m), writeMatlab writes the file name.m, and the
    function in this file has this name and returns the mesh: x, y, TRI, QUAD, EDS. *)
Theorem C85_matlab : forall (m : mesh) (xy : nat -> Q * Q) (filename f : chars),
  Forall tri_or_quad (mv_cells m) -> matlab_name filename f ->
  exists text out, writeMatlab m xy filename = Ok (f ++ str ".m", text) /\ run text = Some (f, out) /\ matlab_mesh m xy out.
Proof. exact matlab_ok. Qed.
Print Assumptions C85_matlab.
Example C85_matlab_example : Forall tri_or_quad (mv_cells two_cells) /\ matlab_name (str "mesh") (str "mesh") /\ matlab_name (str "team.m") (str "team").
Proof. exact (conj two_cells_shapes mesh_name). Qed.

(** The file written for a level of a hierarchy returns the parents of all entities and the
    refinement edges of the cells. *)
Theorem C85_level : forall (L : level) (filename f : chars), filled_level L -> matlab_name filename f ->
  exists text, WriteMatlabLevel L filename = Ok (f ++ str ".m", text) /\ run text = Some (f, matlab_parents L).
Proof. exact level_runs. Qed.
Print Assumptions C85_level.
Example C85_level_example : filled_level a_level.
Proof. exact a_level_filled. Qed.

(** WriteMatlab writes two files for every level, whose names are all different. *)
Theorem C85_hierarchy : forall (H : hierarchy) (xy : nat -> nat -> Q * Q) (base : chars), identifier base ->
  Forall (fun L => filled_level L /\ Forall tri_or_quad (mv_cells (l_mesh L))) (h_coarser H ++ [h_finest H]) ->
  exists fs, WriteMatlab H xy base = Ok fs /\ NoDup (map fst fs) /\ length fs = 2 * length (h_coarser H ++ [h_finest H]) /\
    forall k L, nth_error (h_coarser H ++ [h_finest H]) k = Some L -> exists t1 t2 out,
      nth_error fs (2 * k) = Some (base ++ str "_L" ++ show k ++ str ".m", t1) /\
      nth_error fs (2 * k + 1) = Some (base ++ str "_L" ++ show k ++ str "_pi.m", t2) /\
      run t1 = Some (base ++ str "_L" ++ show k, out) /\ matlab_mesh (l_mesh L) (xy k) out /\
      run t2 = Some (base ++ str "_L" ++ show k ++ str "_pi", matlab_parents L).
Proof. exact hierarchy_ok. Qed.
Print Assumptions C85_hierarchy.

(** The suffix .m is not appended to a name that ends in m; names of one letter are undefined
    behaviour. *)
Theorem C85_names_refuted : exists filename xy, identifier filename /\ 2 <= length filename /\
  (exists text out, writeMatlab two_cells xy filename = Ok (filename, text) /\ run text = Some (firstn 2 filename, out)) /\
  exists c, identifier [c] /\ writeMatlab two_cells xy [c] = Assert.
Proof. exact names_refuted. Qed.
Print Assumptions C85_names_refuted.

(** A file in another directory is not a MATLAB function. *)
Theorem C85_directory_refuted : exists m xy filename text, Forall tri_or_quad (mv_cells m) /\ writeMatlab m xy filename = Ok (filename, text) /\ run text = None.
Proof. exact directory_refuted. Qed.
Print Assumptions C85_directory_refuted.

(** Six digits are not enough: different meshes have the same file, distinct nodes coincide. *)
Theorem C85_precision_refuted : exists m xy xy' filename r, Forall tri_or_quad (mv_cells m) /\
  ~ (fst (xy O) == fst (xy' O))%Q /\ (fst (xy O) == fst (xy' 1%nat))%Q /\ writeMatlab m xy filename = Ok r /\ writeMatlab m xy' filename = Ok r.
Proof. exact precision_refuted. Qed.
Print Assumptions C85_precision_refuted.

(** For every mesh and every file name of at least four characters writeMatplotlib writes a
    file from which plot_mesh.py gets all nodes, edges and cells of the mesh. *)
Theorem C86_plot : forall (m : mesh) (xy : nat -> Q * Q) (filename : chars), 4 <= length filename -> Forall good_cell (mv_cells m) ->
  exists text p, writeMatplotlib m xy filename = Ok (csv_name filename, text) /\ plot_mesh text = Some p /\ plotted m xy p.
Proof. exact writeMatplotlib_plots. Qed.
Print Assumptions C86_plot.
Example C86_plot_example : Forall good_cell (mv_cells two_cells).
Proof. exact two_cells_good. Qed.

(** With a shorter name it throws. *)
Theorem C86_short_refuted : exists m xy filename, Forall good_cell (mv_cells m) /\ filename <> [] /\ writeMatplotlib m xy filename = Throw.
Proof. exact short_refuted. Qed.
Print Assumptions C86_short_refuted.
