(** Vocabulary for C96-C100: triangulations of the plane, piecewise constant velocities, their jumps,
    the interior penalty method. *)
From Coq Require Import Reals List Arith Bool.
Import ListNotations.
From Verif Require Import Base MeshModel MeshView RefPatModel GeoModel GeoSpec DofModel FlagSpec RefineSpec FeModel QuadModel FeSpec ElemSpec NormalSpec.
Local Open Scope R_scope.

(** * Triangulations *)

(** The mesh consists of triangles with straight edges that are not flat; node [v] is at [pos v]. *)
Record triangulation (m : mesh) (geom : ent -> geo) (pos : nat -> vec) : Prop := {
  tr_wf : wf_mesh m;
  tr_cell : forall c v, nth_error (mv_cells m) c = Some v ->
    cv_type v = kTria /\ go_kind (geom (DofModel.ECell c)) = GTriaO1 /\ go_dim (geom (DofModel.ECell c)) = 2%nat /\
    constructed (geom (DofModel.ECell c)) /\
    forall i p, nth_error (cv_nodes v) i = Some p -> same_points (nth i (polygon geom c) vzero) (pos p);
  tr_edge : forall e a b, nth_error (mv_edges m) e = Some (a, b) ->
    go_kind (geom (EEdge e)) = GSegmentO1 /\ go_dim (geom (EEdge e)) = 2%nat /\
    same_points (nth 0 (go_cols (geom (EEdge e))) vzero) (pos a) /\
    same_points (nth 1 (go_cols (geom (EEdge e))) vzero) (pos b)
}.
(** At every edge there are one or two cells. *)
Definition manifold (m : mesh) : Prop := forall e, (e < size m 1)%nat -> adjacent m e = 1%nat \/ adjacent m e = 2%nat.
(** The boundary: edges with one cell, and their end points. *)
Definition boundary_edge (m : mesh) (e : nat) : bool := (adjacent m e =? 1)%nat.
Definition boundary_node (m : mesh) (v : nat) : Prop :=
  exists e a b, nth_error (mv_edges m) e = Some (a, b) /\ boundary_edge m e = true /\ (v = a \/ v = b).
(** Length of an edge. *)
Definition edge_length (m : mesh) (pos : nat -> vec) (e : nat) : R :=
  match nth_error (mv_edges m) e with Some (a, b) => distance 2 (pos a) (pos b) | None => 0 end.
(** [n c i] is the outer unit normal of cell [c] on its edge number [i]. *)
Definition normals_of (m : mesh) (geom : ent -> geo) (n : nat -> nat -> vec) : Prop :=
  forall c i e, edge_of m c i e -> outer_normal (polygon geom c) i (n c i).

(** * Velocities: one vector for each cell *)

(** [w] is the curl (d/dx_1, - d/dx_0) of the function that is affine on each cell and has the
    values [psi] at the nodes. *)
Definition curl_of (m : mesh) (pos : nat -> vec) (psi : nat -> R) (w : nat -> vec) : Prop :=
  forall c v, nth_error (mv_cells m) c = Some v -> exists r g0 g1,
    (forall p, In p (cv_nodes v) -> psi p = r + g0 * pos p 0%nat + g1 * pos p 1%nat) /\
    w c 0%nat = g1 /\ w c 1%nat = - g0.
(** Quarter turn to the left. *)
Definition turn (n : vec) : vec := fun k => match k with 0%nat => - n 1%nat | _ => n 0%nat end.
Definition side (m : mesh) (c i : nat) : option nat :=
  match nth_error (mv_cells m) c with Some v => nth_error (cv_edges v) i | None => None end.
Definition is_side (m : mesh) (c i e : nat) : bool :=
  match side m c i with Some e' => (e' =? e)%nat | None => false end.
(** The tangential jump at edge [e]: the sum of  w_K . t_K,e  over the cells K at [e], where t_K,e is
    the outer normal turned by a quarter. *)
Definition jump (m : mesh) (n : nat -> nat -> vec) (w : nat -> vec) (e : nat) : R :=
  sum_to (size m 0) (fun c => sum_to 3 (fun i => if is_side m c i e then inner 2 (w c) (turn (n c i)) else 0)).

(** * The interior penalty method *)

Section Method.
Variables (m : mesh) (geom : ent -> geo) (pos : nat -> vec) (n : nat -> nat -> vec).
(** The factor in front of the jumps: sigma / |e|, or sigma for the modified penalty. *)
Definition penalty (sigma : R) (modified : bool) (e : nat) : R :=
  if modified then sigma else sigma / edge_length m pos e.
(** The sum over all edges of the integral of  penalty [u.t] [w.t] *)
Definition stokes_form (sigma : R) (modified : bool) (u w : nat -> vec) : R :=
  sum_to (size m 1) (fun e => edge_length m pos e * (penalty sigma modified e * jump m n u e * jump m n w e)).
(** Tangential component of a vector at a boundary edge, where there is only one cell. *)
Definition tangential_part (e : nat) (x : vec) : R := jump m n (fun _ => x) e.
(** The sum over all cells of the quadrature of  f.w,  and over all boundary edges of the integral of
    penalty (g.t) [w.t] *)
Definition triangle_det (c : nat) : R :=
  let P := polygon geom c in Rabs (area2 (nth 0 P vzero) (nth 1 P vzero) (nth 2 P vzero)).
Definition point_of (c : nat) (p : list R) : vec :=
  let P := polygon geom c in
  fun k => (1 - nth 0 p 0 - nth 1 p 0) * nth 0 P vzero k + nth 0 p 0 * nth 1 P vzero k + nth 1 p 0 * nth 2 P vzero k.
Definition stokes_load (sigma : R) (modified : bool) (q : quadrule) (f : vec -> vec) (g : nat -> vec) (w : nat -> vec) : R :=
  sum_to (size m 0) (fun c => sum_to (length (qr_points q)) (fun k =>
    nth k (qr_weights q) 0 * triangle_det c * inner 2 (f (point_of c (nth k (qr_points q) []))) (w c))) +
  sum_to (size m 1) (fun e => if boundary_edge m e
    then edge_length m pos e * (penalty sigma modified e * tangential_part e (g e) * jump m n w e) else 0).
End Method.
(** A rule for triangles; a function that depends only on the point. *)
Definition tria_rule (q : quadrule) : Prop :=
  length (qr_weights q) = length (qr_points q) /\ forall p, In p (qr_points q) -> length p = 2%nat.
Definition of_points (f : vec -> vec) : Prop := forall x y, same_points x y -> same_points (f x) (f y).

(** Every cell is reached from a boundary edge by passing from cell to cell across edges. *)
Inductive reached (m : mesh) : nat -> Prop :=
| reached_boundary : forall c i e, edge_of m c i e -> boundary_edge m e = true -> reached m c
| reached_across : forall c i c' i' e, reached m c -> edge_of m c i e -> edge_of m c' i' e -> reached m c'.
Definition all_reached (m : mesh) : Prop := forall c, (c < size m 0)%nat -> reached m c.

(** * Flow *)

Section Flow.
Variables (m : mesh) (geom : ent -> geo) (pos : nat -> vec) (n : nat -> nat -> vec) (w : nat -> vec).
(** What flows out of cell [c] through its edge number [i]. *)
Definition outflow (c i : nat) : R :=
  match side m c i with Some e => edge_length m pos e * inner 2 (w c) (n c i) | None => 0 end.
(** Nothing is produced in a cell, and what leaves a cell enters its neighbour. *)
Definition conserved : Prop :=
  (forall c, (c < size m 0)%nat -> sum_to 3 (outflow c) = 0) /\
  (forall c i c' i' e, edge_of m c i e -> edge_of m c' i' e -> c <> c' -> outflow c' i' = - outflow c i).
(** Nothing leaves the domain. *)
Definition confined : Prop :=
  forall c i e, edge_of m c i e -> boundary_edge m e = true -> outflow c i = 0.
End Flow.
(** Different cells do not overlap. *)
Definition no_overlap (m : mesh) (geom : ent -> geo) : Prop :=
  forall c c', (c < size m 0)%nat -> (c' < size m 0)%nat -> c <> c' -> disjoint_interiors (polygon geom c) (polygon geom c').
