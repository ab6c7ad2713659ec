(** Vocabulary for C87-C89: cells of the plane with straight edges, their outer normals. *)
From Coq Require Import Reals List Arith.
From Coquelicot Require Import Hierarchy RInt.
Import ListNotations.
From Verif Require Import Base MeshModel MeshView RefPatModel GeoModel GeoSpec DofModel FlagSpec.
Local Open Scope R_scope.

(** * Polygons *)

(** Twice the signed area of the triangle a, b, c: positive if c lies to the left of the line
    from a to b. *)
Definition area2 (a b c : vec) : R :=
  (b 0%nat - a 0%nat) * (c 1%nat - a 1%nat) - (b 1%nat - a 1%nat) * (c 0%nat - a 0%nat).
(** The points b and d lie on different sides of the line through a and c. *)
Definition separates (a c b d : vec) : Prop := area2 a c b * area2 a c d < 0.
(** The points of the (closed) triangle. *)
Definition in_triangle (a b c x : vec) : Prop :=
  exists r s t, 0 <= r /\ 0 <= s /\ 0 <= t /\ r + s + t = 1 /\
  forall k, (k < 2)%nat -> x k = r * a k + s * b k + t * c k.
(** The points of a polygon.  A quadrilateral consists of the two triangles that arise when it is
    cut along a diagonal with the other two corners on different sides. *)
Inductive region : list vec -> vec -> Prop :=
| region_tria : forall a b c x, in_triangle a b c x -> region [a; b; c] x
| region_ac : forall a b c d x, separates a c b d -> in_triangle a b c x \/ in_triangle c d a x -> region [a; b; c; d] x
| region_bd : forall a b c d x, separates b d a c -> in_triangle d a b x \/ in_triangle b c d x -> region [a; b; c; d] x.
(** Triangles that are not flat; quadrilaterals, convex or not, with a diagonal as above. *)
Definition simple (P : list vec) : Prop :=
  match P with
  | [a; b; c] => area2 a b c <> 0
  | [a; b; c; d] => separates a c b d \/ separates b d a c
  | _ => False
  end.

(** A small square around the point lies in the polygon. *)
Definition inside (P : list vec) (x : vec) : Prop :=
  exists r, 0 < r /\ forall y, (forall k, (k < 2)%nat -> Rabs (y k - x k) < r) -> region P y.
(** First and last corner of edge [i]; the point with parameter s. *)
Definition start (P : list vec) (i : nat) : vec := nth i P vzero.
Definition stop (P : list vec) (i : nat) : vec := nth ((i + 1) mod length P) P vzero.
Definition along (p q : vec) (s : R) : vec := fun k => (1 - s) * p k + s * q k.
Definition shifted (x : vec) (t : R) (n : vec) : vec := fun k => x k + t * n k.
(** [n] is a unit vector perpendicular to edge [i]; from any point of the edge other than a corner
    a small step along [n] leads out of the polygon, a small step backwards into it. *)
Definition outer_normal (P : list vec) (i : nat) (n : vec) : Prop :=
  inner 2 n n = 1 /\ inner 2 n (vsub (stop P i) (start P i)) = 0 /\
  forall s, 0 < s < 1 -> exists eps, 0 < eps /\ forall t, 0 < t < eps ->
    ~ region P (shifted (along (start P i) (stop P i) s) t n) /\
    inside P (shifted (along (start P i) (stop P i) s) (- t) n).

(** Triangles and quadrilaterals in the plane with straight edges, as constructed by the library. *)
Definition straight (g : geo) : Prop :=
  (go_kind g = GTriaO1 \/ go_kind g = GQuadO1 \/ go_kind g = GParallelogram) /\
  go_dim g = 2%nat /\ constructed g /\ exact_parallelogram g /\
  (go_kind g = GQuadO1 -> simple (go_cols g)).

(** Flux of the vector field x -> f + (first column) x_0 + (second column) x_1 through the edge from
    p to q: its value at the midpoint, times the length of the edge. *)
Definition field (f c0 c1 : vec) (x : vec) : vec := fun k => f k + c0 k * x 0%nat + c1 k * x 1%nat.
Definition flux (f c0 c1 : vec) (p q n : vec) : R :=
  distance 2 p q * inner 2 n (field f c0 c1 (along p q (1 / 2))).

(** * Meshes with geometry *)

(** Cell [c] has [e] as its edge number [i]. *)
Definition edge_of (m : mesh) (c i e : nat) : Prop :=
  exists v, nth_error (mv_cells m) c = Some v /\ nth_error (cv_edges v) i = Some e.
(** The corners of a cell, by its geometry. *)
Definition polygon (geom : ent -> geo) (c : nat) : list vec := go_cols (geom (DofModel.ECell c)).
(** All cells are straight triangles or quadrilaterals, as their topology says. *)
Definition straight_cells (m : mesh) (geom : ent -> geo) : Prop :=
  forall c v, nth_error (mv_cells m) c = Some v ->
    straight (geom (DofModel.ECell c)) /\ kind_el (go_kind (geom (DofModel.ECell c))) = cv_type v.
(** Cell [c] lies at edge [e]. *)
Definition cell_at_edge (m : mesh) (e c : nat) : Prop := exists i, edge_of m c i e.
(** Edge [i] of one polygon and edge [i'] of another one have the same end points. *)
Definition same_points (p q : vec) : Prop := forall k, (k < 2)%nat -> p k = q k.
Definition common_edge (P : list vec) (i : nat) (P' : list vec) (i' : nat) : Prop :=
  (same_points (start P i) (start P' i') /\ same_points (stop P i) (stop P' i')) \/
  (same_points (start P i) (stop P' i') /\ same_points (stop P i) (start P' i')).
(** Two polygons do not overlap. *)
Definition disjoint_interiors (P P' : list vec) : Prop := forall x, ~ (inside P x /\ inside P' x).

(** * Edges of reference elements *)

(** Length of edge [i]. *)
Definition edge_size (el : refel) (i : nat) : R :=
  let a := ref_node el i in let b := ref_node el ((i + 1) mod num_nodes el) in
  sqrt ((nth 0 b 0 - nth 0 a 0) ^ 2 + (nth 1 b 0 - nth 1 a 0) ^ 2).
(** The integral along edge [i]. *)
Definition edge_integral (el : refel) (i : nat) (f : list R -> R) : R :=
  edge_size el i * RInt (fun s => f (on_edge el i s)) 0 1.
