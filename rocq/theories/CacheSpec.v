(** Histories of a QuadRuleCache. *)
From Coq Require Import Reals List Arith.
Import ListNotations.
From Verif Require Import Base MeshModel MeshView DofModel FeModel QuadModel QuadRuleModel.

(** A sequence of calls of Get takes the cache from one state to another. *)
Inductive calls leg jac hard : cache -> cache -> Prop :=
| calls_none : forall c, calls leg jac hard c c
| calls_get : forall c c' c'' el degree q, calls leg jac hard c c' ->
    Get leg jac hard c' el degree = Ok (c'', q) -> calls leg jac hard c c''
| calls_failed : forall c c' el degree, calls leg jac hard c c' ->
    (forall r, Get leg jac hard c' el degree <> Ok r) -> calls leg jac hard c (after_failure c' el degree).
(** The rule a reference refers to that Get returned for these arguments. *)
Definition stored (c : cache) (el : refel) (degree : nat) : option quadrule := nth_error (c el) degree.
