(** Vocabulary for the mesh of an annulus. *)
From Coq Require Import Reals List Arith Lia Bool.
Import ListNotations.
From Verif Require Import Base MeshModel MeshView BuilderModel BuilderSpec AnnulusModel.
Local Open Scope R_scope.

(** A disk with a hole, at least one layer of cells and three cells around. *)
Definition proper_annulus (p : annulus) : Prop :=
  0 < an_inner p < an_outer p /\ (1 <= an_radial p)%nat /\ (3 <= an_angular p)%nat.

(** The cells are not too thin: [h] is the thickness of a layer, the chords around
    have lengths between [lo] and [hi]. *)
Definition annulus_shaped (p : annulus) : Prop :=
  let h := (an_outer p - an_inner p) / INR (an_radial p) in
  let lo := 2 * an_inner p * sin (PI / INR (an_angular p)) in
  let hi := 2 * an_outer p * sin (PI / INR (an_angular p)) in
  4 * (h ^ 2 + hi ^ 2) < 10 ^ 8 * h ^ 2 /\ 4 * (h ^ 2 + hi ^ 2) < 10 ^ 8 * lo ^ 2.

(** The point at [k/n] of the way around on the i-th circle about the origin. *)
Definition circle_point (p : annulus) (i k : nat) : coords :=
  let rho := an_inner p + INR i * ((an_outer p - an_inner p) / INR (an_radial p)) in
  let alpha := 2 * PI * INR k / INR (an_angular p) in
  [rho * cos alpha; rho * sin alpha].

(** The region between the regular polygons with [n] corners on the inner and on the
    outer circle: in the sector between the directions to the corners k and k+1, the
    points [s] times a point of the side of the unit polygon, [s] between the radii. *)
Definition between_polygons (p : annulus) (x y : R) : Prop :=
  exists (k : nat) s t, (k < an_angular p)%nat /\ an_inner p <= s <= an_outer p /\ 0 <= t <= 1 /\
    let c (j : nat) := cos (2 * PI * INR j / INR (an_angular p)) in
    let d (j : nat) := sin (2 * PI * INR j / INR (an_angular p)) in
    x = s * ((1 - t) * c k + t * c (k + 1)%nat) /\ y = s * ((1 - t) * d k + t * d (k + 1)%nat).

(** Cells with these corners tile the region. *)
Definition tiles_ring (p : annulus) (cells : list (list coords)) : Prop :=
  (forall x y, between_polygons p x y <-> exists cs, In cs cells /\ covers cs x y) /\
  (forall k l cs cs' x y, nth_error cells k = Some cs -> nth_error cells l = Some cs' ->
     covers_inside cs x y -> covers_inside cs' x y -> k = l).

Definition on_circle (r : R) (a : coords) : Prop := nth 0 a 0 ^ 2 + nth 1 a 0 ^ 2 = r ^ 2.
(** Both points lie on the inner circle or both on the outer one. *)
Definition on_common_circle (p : annulus) (a b : coords) : Prop :=
  (on_circle (an_inner p) a /\ on_circle (an_inner p) b) \/
  (on_circle (an_outer p) a /\ on_circle (an_outer p) b).
