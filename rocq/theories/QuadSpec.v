(** Integrals over reference elements and exactness of quadrature rules. *)
From Coq Require Import Reals List Arith.
From Coquelicot Require Import Hierarchy RInt.
Import ListNotations.
From Verif Require Import Base MeshModel MeshView DofModel RefPatModel GeoModel GeoSpec FeModel QuadModel FeSpec.
Local Open Scope R_scope.

(** The integral over the reference element: unit interval, triangle with corners
    (0,0), (1,0), (0,1), unit square. *)
Definition integral (t : refel) (f : list R -> R) : R :=
  match t with
  | kPoint => f []
  | kSegment => RInt (fun x => f [x]) 0 1
  | kTria => RInt (fun y => RInt (fun x => f [x; y]) 0 (1 - y)) 0 1
  | kQuad => RInt (fun y => RInt (fun x => f [x; y]) 0 1) 0 1
  end.
(** The value of a quadrature rule for a function. *)
Definition quadrature (q : quadrule) (f : list R -> R) : R := dot (qr_weights q) (map f (qr_points q)).
(** The rule integrates all polynomials of P_k, or Q_k for the square, exactly. *)
Definition exact_to (q : quadrule) (k : nat) : Prop :=
  forall c, quadrature q (poly (exponents (qr_el q) k) c) = integral (qr_el q) (poly (exponents (qr_el q) k) c).
(** A rule for the reference element [t] that is exact to degree [k]. *)
Record rule_for (t : refel) (k : nat) (q : quadrule) : Prop := {
  rf_el : qr_el q = t;
  rf_points : forall p, In p (qr_points q) -> length p = dimension t;
  rf_weights : length (qr_weights q) = length (qr_points q);
  rf_exact : exact_to q k
}.
(** A rule on the interval from [lo] to [hi] for integrals with weight function [wt],
    given by points and weights, exact for polynomials of degree [k]. *)
Definition exact_weighted (lo hi : R) (wt : R -> R) (k : nat) (pw : list R * list R) : Prop :=
  length (snd pw) = length (fst pw) /\
  forall c, dot (snd pw) (map (fun x => poly (exponents kSegment k) c [x]) (fst pw)) =
            RInt (fun x => poly (exponents kSegment k) c [x] * wt x) lo hi.
(** Not exact for degree [k + 1]: [k] is the degree of exactness. *)
Definition degree_of_exactness (q : quadrule) (k : nat) : Prop := exact_to q k /\ ~ exact_to q (k + 1).
(** The rule returned by a function that should return one for the reference element
    [t], with advertised degree of exactness [k]. *)
Definition rule_ok (r : res quadrule) (t : refel) (k : nat) : Prop :=
  exists q, r = Ok q /\ qr_degree q = k /\ rule_for t k q.
Definition rule_max (r : res quadrule) (t : refel) (k : nat) : Prop :=
  exists q, r = Ok q /\ qr_degree q = k /\ rule_for t k q /\ degree_of_exactness q k.
