(** Vocabulary for C107: the geometries that a builder hands over. *)
From Coq Require Import Reals List Arith Bool.
Import ListNotations.
From Verif Require Import Base MeshModel MeshView RefPatModel RefineModel RefineSpec GeoModel DofModel BuilderModel BuilderSpec StokesSpec FlowSpec.
Local Open Scope R_scope.

(** The meshes that hierarchies may start with. *)
Definition valid_mesh (m : mesh) : Prop := wf_mesh m /\ simple_mesh m /\ complete_mesh m.
(** Coordinates as a vector. *)
Definition as_vec (c : coords) : vec := fun k => nth k c 0.
(** [geom] consists of the objects that the constructors of TriaO1, SegmentO1 and Point return for the
    corners that the builder hands over. *)
Record given (g : sites) (geom : ent -> geo) : Prop := {
  gv_cell : forall k cs, nth_error (g_cells g) k = Some cs -> new_geo GTriaO1 2 (map as_vec cs) = Ok (geom (DofModel.ECell k));
  gv_edge : forall k cs, nth_error (g_edges g) k = Some cs -> new_geo GSegmentO1 2 (map as_vec cs) = Ok (geom (EEdge k));
  gv_node : forall k c, nth_error (g_points g) k = Some c -> new_geo GPoint 2 [as_vec c] = Ok (geom (ENode k))
}.
(** The position of a node. *)
Definition position (g : sites) (v : nat) : vec := as_vec (place g v).
(** Hierarchies with uniform regular refinement in all steps (MeshHierarchy::RefineRegular with the default argument, and
    GenerateMeshHierarchyByUniformRefinemnt). *)
Definition uniformly (lgs : list (nat -> nat)) : list hop := map (fun lg => Regular lg rp_regular) lgs.
(** The position of a node according to its geometry. *)
Definition at_node (geom : ent -> geo) (n : nat) : vec := global_at (geom (ENode n)) 0 0.
(** What C96 to C100 ask of a mesh and its geometries: straight triangles with their corners at the positions of the nodes, at most
    two cells at every edge, cells that do not overlap, each of which is reached from the boundary, no unused edges and nodes, and
    a boundary that is one closed curve. *)
Definition fit_for_stokes (m : mesh) (geom : ent -> geo) (pos : nat -> vec) : Prop :=
  triangulation m geom pos /\ manifold m /\ no_overlap m geom /\ all_reached m /\ complete_mesh m /\
  (exists v, boundary_node m v) /\ closed_curves m /\ connected_boundary m.
