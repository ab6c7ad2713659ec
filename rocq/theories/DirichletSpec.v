(** Vocabulary for boundary value problems with exactly one solution. *)
From Coq Require Import Reals List Arith.
Import ListNotations.
From Verif Require Import Base Scalars MeshModel MeshView RefPatModel GeoModel GeoSpec DofModel DofSpec FeModel QuadModel ElemModel ElemSpec.
Local Open Scope R_scope.

(** A coefficient that is positive definite on vectors with [d] components. *)
Definition positive_coeff (d : nat) (a : coeff) : Prop := forall v k, (k < d)%nat -> v k <> 0 -> 0 < inner d v (flux d a v).
(** The rule settles the element: a combination of the shape functions whose derivatives vanish at the
    points with positive weights has equal coefficients (it is constant). *)
Definition settles (q : quadrule) (f : srfe) : Prop := forall x : nat -> R,
  (forall j p w gr, nth_error (qr_points q) j = Some p -> nth_error (qr_weights q) j = Some w -> 0 < w -> fe_grad f p = Ok gr ->
     forall c, (c < 2)%nat -> sum_to (fe_total f) (fun i => x i * nth c (nth i gr []) 0) = 0) ->
  forall i, (i < fe_total f)%nat -> x i = x 0%nat.
(** The node is linked to a selected edge by a chain of cells. *)
Inductive held (m : mesh) (sel : ent -> bool) : nat -> Prop :=
| held_first : forall i a b, nth_error (mv_edges m) i = Some (a, b) -> sel (EEdge i) = true -> held m sel a
| held_second : forall i a b, nth_error (mv_edges m) i = Some (a, b) -> sel (EEdge i) = true -> held m sel b
| held_cell : forall c v v', In c (mv_cells m) -> In v (cv_nodes c) -> In v' (cv_nodes c) -> held m sel v -> held m sel v'.
Definition all_held (m : mesh) (sel : ent -> bool) : Prop := forall v, (v < mv_nodes m)%nat -> held m sel v.
(** The rule pins the element: a combination of the shape functions that vanishes at the points with
    positive weights has coefficients zero. *)
Definition pins (q : quadrule) (f : srfe) : Prop := forall x : nat -> R,
  (forall j p w v, nth_error (qr_points q) j = Some p -> nth_error (qr_weights q) j = Some w -> 0 < w -> fe_eval f p = Ok v ->
     sum_to (fe_total f) (fun i => x i * nth i v 0) = 0) ->
  forall i, (i < fe_total f)%nat -> x i = 0.
