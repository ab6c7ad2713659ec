(** Model of quadrature rules, lib/lf/quad/quad_rule.h. *)
From Coq Require Import Reals List Arith Bool.
Import ListNotations.
From Verif Require Import Base MeshModel MeshView DofModel FeModel.
Local Open Scope R_scope.

(** quad_rule.h:184-187: points (one list per column), weights, degree.
    Simplification: exact real numbers. *)
Record quadrule := mkQr {
  qr_el : refel; qr_points : list (list R); qr_weights : list R; qr_degree : nat
}.
(** quad_rule.h:93-101: the constructor with its two assertions. *)
Definition QuadRule (el : refel) (pts : list (list R)) (w : list R) (deg : nat) : res quadrule :=
  do _ <- lf_assert (forallb (fun p => length p =? dimension el) pts);
  do _ <- lf_assert (length w =? length pts);
  Ok (mkQr el pts w deg).
(** quad_rule.h:152 *)
Definition NumPoints (q : quadrule) : nat := length (qr_points q).
(** quad_rule.h:76: the default constructor *)
Definition invalid_rule : quadrule := mkQr kPoint [] [] 0.
