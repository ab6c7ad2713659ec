(** Specification vocabulary for C66: continuity of mesh functions. *)
From Coq Require Import Reals List Arith Bool.
Import ListNotations.
From Verif Require Import Base MeshModel MeshView DofModel DofSpec RefPatModel GeoModel GeoSpec FeModel FeSpec FeToolsModel.
Local Open Scope R_scope.

(** The function has a value at every point of every entity; from a cell it takes the
    same value at a point of one of its edges as from the edge, and at a corner the
    same value as from the node; similarly at the end points of an edge. *)
Record continuous_function (m : mesh) (u : meshfun) : Prop := {
  ct_value : forall e x, valid m e -> in_ref (ent_type m e) x -> exists w, u e x = Ok w;
  ct_edge : forall i c j e o t, nth_error (mv_cells m) i = Some c -> nth_error (cv_edges c) j = Some e ->
     nth_error (cv_ori c) j = Some o -> 0 <= t <= 1 -> u (ECell i) (edge_point (cv_type c) j o t) = u (EEdge e) [t];
  ct_node : forall i c j n, nth_error (mv_cells m) i = Some c -> nth_error (cv_nodes c) j = Some n ->
     u (ECell i) (ref_node (cv_type c) j) = u (ENode n) [];
  ct_ends : forall e a b, nth_error (mv_edges m) e = Some (a, b) -> u (EEdge e) [0] = u (ENode a) [] /\ u (EEdge e) [1] = u (ENode b) []
}.
