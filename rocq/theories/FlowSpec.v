(** Vocabulary for C100: flow across the boundary, boundaries that are closed curves, solvers. *)
From Coq Require Import Reals List Arith Bool.
Import ListNotations.
From Verif Require Import Base Scalars MeshModel MeshView GeoModel GeoSpec DofModel AssembleModel AssembleSpec FlagSpec RefineSpec ElemSpec NormalSpec StokesSpec.
Local Open Scope R_scope.

(** The normal jump at edge [e]: the sum of  w_K . n_K,e  over the cells K at [e].  At a boundary edge
    it is the component of the velocity that points out of the domain. *)
Definition through (m : mesh) (n : nat -> nat -> vec) (w : nat -> vec) (e : nat) : R :=
  sum_to (size m 0) (fun c => sum_to 3 (fun i => if is_side m c i e then inner 2 (w c) (n c i) else 0)).
Definition normal_part (m : mesh) (n : nat -> nat -> vec) (e : nat) (x : vec) : R := through m n (fun _ => x) e.
(** Sum over the boundary edges. *)
Definition on_boundary_edges (m : mesh) (F : nat -> R) : R := sum_to (size m 1) (fun e => if boundary_edge m e then F e else 0).
(** The mean over the boundary of the flow that the data [g] prescribe. *)
Definition mean_flow (m : mesh) (pos : nat -> vec) (n : nat -> nat -> vec) (g : nat -> vec) : R :=
  on_boundary_edges m (fun e => StokesSpec.edge_length m pos e * normal_part m n e (g e)) / on_boundary_edges m (StokesSpec.edge_length m pos).

(** Boundary edge [e] ends in [v]. *)
Definition ends_in (m : mesh) (v e : nat) : Prop :=
  boundary_edge m e = true /\ exists a b, nth_error (mv_edges m) e = Some (a, b) /\ (v = a \/ v = b).
(** Reached along boundary edges. *)
Inductive linked (m : mesh) (v : nat) : nat -> Prop :=
| linked_here : linked m v v
| linked_on : forall x y e, linked m v x -> ends_in m x e -> ends_in m y e -> linked m v y.
(** The boundary consists of closed curves; it consists of one curve. *)
Definition closed_curves (m : mesh) : Prop := forall v, boundary_node m v -> has_size (ends_in m v) 2.
Definition connected_boundary (m : mesh) : Prop := forall v w, boundary_node m v -> boundary_node m w -> linked m v w.

(** Square matrices for which only zero is mapped to zero. *)
Definition regular (k : nat) (D : nat -> nat -> R) : Prop :=
  forall x : nat -> R, (forall i, (i < k)%nat -> mv Rring k D x i = 0) -> forall i, (i < k)%nat -> x i = 0.
(** A solver for linear systems: it solves those with regular matrices. *)
Definition exact_solver (solver : dense Rring -> list R -> res (list R)) : Prop :=
  forall k J b, d_rows Rring J = k -> d_cols Rring J = k -> length b = k -> regular k (d_coef Rring J) ->
    exists x, solver J b = Ok x /\ length x = k /\ solves Rring k (d_coef Rring J) (comp Rring b) (comp Rring x).
