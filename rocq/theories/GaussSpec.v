(** What the Newton iterations for the points of Gaussian quadrature rules are to find,
    and where quadrature points and weights should be. *)
From Coq Require Import Reals List Arith.
Import ListNotations.
From Verif Require Import Base MeshModel MeshView DofModel FeModel QuadModel HierModel.
Local Open Scope R_scope.

(** The iterations for degree [n] end at the non-negative zeros of the Legendre
    polynomial, in decreasing order.  [legendre] and [jacobi] are shifted from [-1, 1]
    to [0, 1]. *)
Definition finds_legendre_zeros (stop : nat -> nat -> R) (n : nat) : Prop :=
  (forall i, (i < (n + 1) / 2)%nat -> 0 <= stop n i /\ legendre n ((1 + stop n i) / 2) 1 = 0) /\
  (forall i j, (i < j)%nat -> (j < (n + 1) / 2)%nat -> stop n j < stop n i).
(** They end at zeros of the Jacobi polynomial for alpha = 1, beta = 0, a different one
    each time. *)
Definition finds_jacobi_zeros (stopj : nat -> nat -> R) (n : nat) : Prop :=
  (forall i, (i < n)%nat -> jacobi n 1 ((1 + stopj n i) / 2) = 0) /\
  NoDup (map (stopj n) (seq 0 n)).
(** The interior of the reference element. *)
Definition inside (t : refel) (x : list R) : Prop :=
  match t, x with
  | kPoint, [] => True
  | kSegment, [x] => 0 < x < 1
  | kTria, [x; y] => 0 < x /\ 0 < y /\ x + y < 1
  | kQuad, [x; y] => 0 < x < 1 /\ 0 < y < 1
  | _, _ => False
  end.
Definition positive_inside (q : quadrule) : Prop :=
  (forall w, In w (qr_weights q) -> 0 < w) /\ (forall x, In x (qr_points q) -> inside (qr_el q) x).
