(** Vocabulary for C101: vector fields on the cells of a triangulation, quadrature, jumps. *)
From Coq Require Import Reals List Arith Bool.
Import ListNotations.
From Verif Require Import Base MeshModel MeshView RefPatModel GeoModel GeoSpec DofModel FlagSpec RefineSpec FeModel QuadModel FeSpec ElemSpec MfModel NormalSpec StokesSpec NormsModel.
Local Open Scope R_scope.

Section Fields.
Variables (m : mesh) (geom : ent -> geo) (pos : nat -> vec).
(** On cell [c] the mesh function is the vector field [U c]: its values are of type Vector2d. *)
Definition vector_field (f : valuefun) (U : nat -> vec -> vec) : Prop :=
  forall c pts, (c < size m 0)%nat -> (forall p, In p pts -> length p = 2%nat) ->
  f (DofModel.ECell c) pts = Ok (Mats R unit false (plain_ety (Some 2%nat) (Some 1%nat))
    (map (fun p => let u := U c (point_of geom c p) in mkMat R 2 1 [u 0%nat; u 1%nat]) pts)).
(** On cell [c] it is the field [G c] of 2 x 2 matrices: values of Eigen's type [t]. *)
Definition matrix_field (t : ety) (f : valuefun) (G : nat -> vec -> nat -> nat -> R) : Prop :=
  forall c pts, (c < size m 0)%nat -> (forall p, In p pts -> length p = 2%nat) ->
  f (DofModel.ECell c) pts = Ok (Mats R unit false t
    (map (fun p => let g := G c (point_of geom c p) in
      mkMat R 2 2 [g 0%nat 0%nat; g 1%nat 0%nat; g 0%nat 1%nat; g 1%nat 1%nat]) pts)).
(** Matrix2d, and MatrixXd. *)
Definition Matrix2d : ety := plain_ety (Some 2%nat) (Some 2%nat).
Definition MatrixXd : ety := plain_ety None None.
(** Quadrature of [h] over all cells. *)
Definition cell_quadrature (q : ent -> quadrule) (h : nat -> vec -> R) : R :=
  sum_to (size m 0) (fun c => let r := q (DofModel.ECell c) in sum_to (length (qr_points r)) (fun k =>
    nth k (qr_weights r) 0 * triangle_det geom c * h c (point_of geom c (nth k (qr_points r) [])))).
Definition cell_rules (q : ent -> quadrule) : Prop :=
  forall c, (c < size m 0)%nat -> tria_rule (q (DofModel.ECell c)) /\ qr_points (q (DofModel.ECell c)) <> [].
(** The midpoint rule on all edges. *)
Definition midpoint_rules (q : ent -> quadrule) : Prop :=
  forall e, (e < size m 1)%nat -> qr_points (q (EEdge e)) = [[1 / 2]] /\ qr_weights (q (EEdge e)) = [1].
Definition square (u : vec) : R := inner 2 u u.
Definition square_norm (g : nat -> nat -> R) : R := sum_to 2 (fun i => sum_to 2 (fun j => g i j * g i j)).
Definition difference (u v : vec) : vec := fun k => u k - v k.
(** The middle of an edge. *)
Definition middle (e : nat) : vec :=
  match nth_error (mv_edges m) e with Some (a, b) => fun k => (pos a k + pos b k) / 2 | None => vzero end.
(** [J e] is the square of the jump of the field at the middle of edge [e]; zero at the boundary. *)
Definition squared_jumps (U : nat -> vec -> vec) (J : nat -> R) : Prop :=
  (forall e, (e < size m 1)%nat -> boundary_edge m e = true -> J e = 0) /\
  (forall c i c' i' e, edge_of m c i e -> edge_of m c' i' e -> c <> c' ->
     J e = square (difference (U c (middle e)) (U c' (middle e)))).
End Fields.
