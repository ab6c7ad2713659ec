(** Specification vocabulary for C70: the geometries of neighbouring entities fit together. *)
From Coq Require Import Reals List Arith Bool.
Import ListNotations.
From Verif Require Import Base MeshModel MeshView RefPatModel RefineModel DofModel DofSpec GeoModel GeoSpec FeModel FeSpec FeToolsModel TransferModel TransferSpec.
Local Open Scope R_scope.

(** All entities live in the same world; a cell takes every point of one of its edges to
    the same point of the world as the edge itself, in the direction of the edge; corners of cells and end points of edges are
    at the places of the nodes. *)
Record watertight (m : mesh) (d : nat) (geom : ent -> geo) : Prop := {
  wt_dim : forall e, valid m e -> go_dim (geom e) = d;
  wt_edge : forall i c j e o t, nth_error (mv_cells m) i = Some c -> nth_error (cv_edges c) j = Some e ->
     nth_error (cv_ori c) j = Some o -> 0 <= t <= 1 -> same_point (geom (ECell i)) (edge_point (cv_type c) j o t) (geom (EEdge e)) [t];
  wt_corner : forall i c j n, nth_error (mv_cells m) i = Some c -> nth_error (cv_nodes c) j = Some n ->
     same_point (geom (ECell i)) (ref_node (cv_type c) j) (geom (ENode n)) [];
  wt_ends : forall e a b, nth_error (mv_edges m) e = Some (a, b) ->
     same_point (geom (EEdge e)) [0] (geom (ENode a)) [] /\ same_point (geom (EEdge e)) [1] (geom (ENode b)) []
}.
(** Straight geometries whose corners are at the places [pos] of the nodes. *)
Definition straight_at (m : mesh) (d : nat) (pos : nat -> vec) (geom : ent -> geo) : Prop :=
  forall e, valid m e -> constructed (geom e) /\ exact_parallelogram (geom e) /\ kind_el (go_kind (geom e)) = ent_type m e /\
    is_o2 (go_kind (geom e)) = false /\ go_dim (geom e) = d /\
    Forall2 (fun n c => forall k, (k < d)%nat -> c k = pos n k) (ent_nodes m e) (go_cols (geom e)).
(** Second-order geometries, with the corners at the places [pos] of the nodes and the additional points at the places [mid] of the
    edges. *)
Definition second_order_at (m : mesh) (d : nat) (pos mid : nat -> vec) (geom : ent -> geo) : Prop :=
  (forall e, valid m e -> constructed (geom e) /\ kind_el (go_kind (geom e)) = ent_type m e /\
    (is_o2 (go_kind (geom e)) = true \/ go_kind (geom e) = GPoint) /\ go_dim (geom e) = d) /\
  let same (p c : vec) := forall k, (k < d)%nat -> c k = p k in
  (forall i c, nth_error (mv_cells m) i = Some c -> Forall2 same (map pos (cv_nodes c) ++ map mid (cv_edges c)) (go_cols (geom (ECell i)))) /\
  (forall e a b, nth_error (mv_edges m) e = Some (a, b) -> Forall2 same [pos a; pos b; mid e] (go_cols (geom (EEdge e)))) /\
  (forall n, (n < mv_nodes m)%nat -> Forall2 same [pos n] (go_cols (geom (ENode n)))).
