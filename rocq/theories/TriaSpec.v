(** Rules that are exact up to rounding of their tabulated points and weights. *)
From Coq Require Import Reals List Arith.
Import ListNotations.
From Verif Require Import Base MeshModel MeshView DofModel RefPatModel GeoModel GeoSpec FeModel QuadModel FeSpec QuadSpec GaussSpec.
Local Open Scope R_scope.

(** The error for a polynomial of P_k is at most [tol] times the sum of the absolute
    values of its coefficients. *)
Definition exact_within (tol : R) (q : quadrule) (k : nat) : Prop :=
  forall c, Rabs (quadrature q (poly (exponents (qr_el q) k) c) - integral (qr_el q) (poly (exponents (qr_el q) k) c))
    <= tol * rsum (map (fun e => Rabs (c e)) (exponents (qr_el q) k)).
(** A rule for the triangle with advertised degree [k], within the tolerance. *)
Record table_rule (tol : R) (k : nat) (q : quadrule) : Prop := {
  tr_el : qr_el q = kTria;
  tr_degree : qr_degree q = k;
  tr_some : (0 < NumPoints q)%nat;
  tr_weights : length (qr_weights q) = length (qr_points q);
  tr_inside : positive_inside q;
  tr_exact : exact_within tol q k
}.
(** A rule for the reference element [t] that is exact to degree [k] up to [tol]. *)
Record rule_within (tol : R) (t : refel) (k : nat) (q : quadrule) : Prop := {
  rw_el : qr_el q = t;
  rw_points : forall p, In p (qr_points q) -> length p = dimension t;
  rw_weights : length (qr_weights q) = length (qr_points q);
  rw_exact : exact_within tol q k
}.
