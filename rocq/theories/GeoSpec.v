(** Vocabulary for properties of geometry objects. *)
From Coq Require Import Reals List Arith ZArith.
Import ListNotations.
From Verif Require Import Base MeshModel RefPatModel GeoModel.
Local Open Scope R_scope.

(** A geometry that one of the constructors returned. *)
Definition constructed (g : geo) : Prop :=
  (exists k d cs, new_geo k d cs = Ok g) \/
  (exists d p0 p1 p2, new_parallelogram3 d p0 p1 p2 = Ok g).
(** For objects of class Parallelogram: the four points are those of a parallelogram. *)
Definition exact_parallelogram (g : geo) : Prop :=
  go_kind g = GParallelogram -> forall k, col g 0 k + col g 2 k = col g 1 k + col g 3 k.

(** *** The reference element *)
Definition ref_nodes (t : refel) : list (list R) :=
  match t with
  | kPoint => [[]]
  | kSegment => [[0]; [1]]
  | kTria => [[0; 0]; [1; 0]; [0; 1]]
  | kQuad => [[0; 0]; [1; 0]; [1; 1]; [0; 1]]
  end.
Definition ref_node (t : refel) (i : nat) : list R := nth i (ref_nodes t) [].
(** (1-t) a + t b *)
Definition between (a b : list R) (t : R) : list R :=
  map (fun p => (1 - t) * fst p + t * snd p) (combine a b).
(** The point with parameter [t] on edge [i] of a two-dimensional reference element;
    the edge runs from node [i] to the next one. *)
Definition on_edge (el : refel) (i : nat) (t : R) : list R :=
  between (ref_node el i) (ref_node el ((i + 1) mod num_nodes el)) t.
(** Reference points that the constructor's columns are the images of. *)
Definition control_points (k : gkind) : list (list R) :=
  ref_nodes (kind_el k) ++
  match k with
  | GSegmentO2 => [[1 / 2]]
  | GTriaO2 => [on_edge kTria 0 (1 / 2); on_edge kTria 1 (1 / 2); on_edge kTria 2 (1 / 2)]
  | GQuadO2 => [on_edge kQuad 0 (1 / 2); on_edge kQuad 1 (1 / 2); on_edge kQuad 2 (1 / 2);
                on_edge kQuad 3 (1 / 2)]
  | _ => []
  end.

(** Reference points at which the methods may be called: right number of
    coordinates; in the unit interval or square for second-order geometries. *)
Definition admissible (g : geo) (x : list R) : Prop :=
  length x = dim_local (go_kind g) /\
  (is_o2 (go_kind g) = true -> forall t, In t x -> 0 <= t <= 1).

(** Both computations give a vector, the same one, or both are rejected. *)
Definition same_outcome (d : nat) (r r' : res vec) : Prop :=
  match r, r' with
  | Ok p, Ok q => forall k, (k < d)%nat -> p k = q k
  | Throw, Throw => True
  | _, _ => False
  end.

(** *** Derivatives *)
Definition plus (x h : list R) : list R := map (fun p => fst p + snd p) (combine x h).
(** Component [k] of matrix times vector. *)
Definition apply (J : list vec) (h : list R) (k : nat) : R :=
  fold_right Rplus 0 (map (fun p => fst p k * snd p) (combine J h)).
Definition length1 (h : list R) : R := fold_right Rplus 0 (map Rabs h).
(** [J] is the (total) derivative at [x] of the partial function [F]. *)
Definition derivative (d : nat) (F : list R -> res vec) (x : list R) (J : list vec) : Prop :=
  exists p, F x = Ok p /\ length J = length x /\
  forall k, (k < d)%nat -> forall eps, 0 < eps -> exists delta, 0 < delta /\
  forall h q, length h = length x -> (forall e, In e h -> Rabs e < delta) -> F (plus x h) = Ok q ->
    Rabs (q k - p k - apply J h k) <= eps * length1 h.

(** *** Metric quantities *)
Definition inner (d : nat) (a b : vec) : R := fold_right Rplus 0 (map (fun k => a k * b k) (seq 0 d)).
(** Entry (i,j) of the Gramian J^T J. *)
Definition gramian (d : nat) (J : list vec) (i j : nat) : R := inner d (nth i J vzero) (nth j J vzero).
(** Its determinant for matrices with one or two columns. *)
Definition gramian_det (d : nat) (J : list vec) : R :=
  match length J with
  | 1%nat => gramian d J 0 0
  | 2%nat => gramian d J 0 0 * gramian d J 1 1 - gramian d J 0 1 * gramian d J 1 0
  | _ => 1
  end.
(** M = J (J^T J)^-1, that is M (J^T J) = J. *)
Definition is_inverse_gramian (d : nat) (J M : list vec) : Prop :=
  length M = length J /\
  forall j k, (j < length J)%nat -> (k < d)%nat ->
    fold_right Rplus 0 (map (fun i => nth i M vzero k * gramian d J i j) (seq 0 (length J)))
    = nth j J vzero k.

(** Euclidean distance, and the area of the polygon with given corners in the plane. *)
Definition distance (d : nat) (a b : vec) : R :=
  sqrt (fold_right Rplus 0 (map (fun k => (b k - a k) ^ 2) (seq 0 d))).
Definition polygon_area (l : list vec) : R :=
  / 2 * Rabs (fold_right Rplus 0 (map (fun i =>
    let p := nth i l vzero in let q := nth ((i + 1) mod length l) l vzero in
    p 0%nat * q 1%nat - q 0%nat * p 1%nat) (seq 0 (length l)))).
(** The map takes segments to segments, with the same ratio. *)
Definition affine_map (d : nat) (F : list R -> res vec) : Prop :=
  forall x y t p q r, F x = Ok p -> F y = Ok q -> F (between x y t) = Ok r ->
    forall k, (k < d)%nat -> r k = (1 - t) * p k + t * q k.

(** *** Children *)
(** Reference coordinates of the corners of a lattice polygon. *)
Definition corners (lc : Z) (poly : lpoly) : list (list R) := map (map (fun z => IZR z / IZR lc)) poly.
(** The affine or bilinear map of a reference element onto a polygon with corners [w]. *)
Definition onto (w : list (list R)) (x : list R) : list R :=
  let s := nth 0 x 0 in let t := nth 1 x 0 in
  let comb c := map (fun j => fold_right Rplus 0
                  (map (fun p => fst p * nth j (snd p) 0) (combine c w))) (seq 0 (length (nth 0 w []))) in
  match length w with
  | 1%nat => comb [1]
  | 2%nat => comb [1 - s; s]
  | 3%nat => comb [1 - s - t; s; t]
  | _ => comb [(1 - s) * (1 - t); s * (1 - t); s * t; (1 - s) * t]
  end.
(** The curve that a geometry gives to a reference segment from [a] to [b]: straight
    for first order, the parabola through the images of end points and midpoint for
    second order. *)
Definition curve (g : geo) (a b : list R) (t : R) (q : vec) : Prop :=
  exists pa pb pm, Global g a = Ok pa /\ Global g b = Ok pb /\ Global g (between a b (1 / 2)) = Ok pm /\
  forall k, (k < go_dim g)%nat -> q k =
    if is_o2 (go_kind g) then (1 - t) * (1 - 2 * t) * pa k + t * (2 * t - 1) * pb k + 4 * t * (1 - t) * pm k
    else (1 - t) * pa k + t * pb k.
(** Points, and segments and rectangles with sides parallel to the axes. *)
Definition axis_parallel (w : list (list R)) : Prop :=
  (exists p, w = [p]) \/
  (exists x0 x1 y0 y1, w = [[x0; y0]; [x1; y0]] \/ w = [[x0; y0]; [x0; y1]] \/
    w = [[x0; y0]; [x1; y0]; [x1; y1]; [x0; y1]] \/ w = [[x0; y0]; [x0; y1]; [x1; y1]; [x1; y0]]).
(** Shapes onto which the reference element is mapped such that composing with
    the geometry's map gives a map of the same class: all of them, except for
    bilinear and biquadratic maps. *)
Definition closed_class (g : geo) (w : list (list R)) : Prop :=
  match go_kind g with GQuadO1 | GQuadO2 => axis_parallel w | _ => True end.
(** The point lies in the reference element. *)
Definition in_ref (t : refel) (x : list R) : Prop :=
  match t, x with
  | kPoint, [] => True
  | kSegment, [s] => 0 <= s <= 1
  | kTria, [s; t] => 0 <= s /\ 0 <= t /\ s + t <= 1
  | kQuad, [s; t] => 0 <= s <= 1 /\ 0 <= t <= 1
  | _, _ => False
  end.
(** What [c] has to be as the child of [g] with reference corners [w]. *)
Definition child_of (g : geo) (codim : nat) (w : list (list R)) (c : geo) : Prop :=
  let el := kind_el (go_kind c) in
  constructed c /\ exact_parallelogram c /\ go_dim c = go_dim g /\
  (dim_local (go_kind c) + codim = dim_local (go_kind g))%nat /\ num_nodes el = length w /\
  (** interpolation at all points that determine the child *)
  (forall x, In x (control_points (go_kind c)) -> same_outcome (go_dim g) (Global c x) (Global g (onto w x))) /\
  (** equality if the composition is of the right class *)
  (closed_class g w -> forall x,
     (if is_o2 (go_kind g) then in_ref el x else length x = dim_local (go_kind c)) ->
     exists p q, Global c x = Ok p /\ Global g (onto w x) = Ok q /\ forall k, (k < go_dim g)%nat -> p k = q k) /\
  (** edges depend on their end points only *)
  (dim_local (go_kind c) = 1%nat -> forall t q, Global c [t] = Ok q -> curve g (nth 0 w []) (nth 1 w []) t q) /\
  (dim_local (go_kind c) = 2%nat -> forall i t q, (i < length w)%nat -> Global c (on_edge el i t) = Ok q ->
     curve g (nth i w []) (nth ((i + 1) mod length w) w []) t q).
(** Straight quadrilaterals only in the shape of a parallelogram. *)
Definition tame (g : geo) : Prop :=
  go_kind g = GQuadO1 \/ go_kind g = GParallelogram -> forall k, col g 0 k + col g 2 k = col g 1 k + col g 3 k.
