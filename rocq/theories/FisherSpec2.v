(** Vocabulary for C103: the integrals of the Fisher-KPP project. *)
From Coq Require Import Reals List Arith Bool.
Import ListNotations.
From Verif Require Import Base Scalars MeshModel MeshView DofModel GeoModel GeoSpec FeModel LagrModel QuadModel AssembleModel QuadSpec ElemModel ElemSpec FeToolsModel FeToolsSpec GalerkinSpec FisherSpec.
From Verif Require RefineSpec.
Local Open Scope R_scope.

(** Rules for degree 2 with points in the reference elements. *)
Definition rules_for (make : refel -> nat -> res quadrule) (rule : refel -> quadrule) : Prop :=
  forall t, t <> kPoint -> make t 2%nat = Ok (rule t) /\ length (qr_weights (rule t)) = length (qr_points (rule t)) /\ at_points (rule t) (GeoSpec.in_ref t).
(** An edge with exactly one cell. *)
Definition boundary_edge (m : mesh) (e : ent) : bool := match e with EEdge i => (RefineSpec.adjacent m i =? 1)%nat | _ => false end.
(** [h] has the values of the function [f] of points of the plane. *)
Definition values_at_points {A} (geom : ent -> geo) (f : vec -> A) (h : ent -> list R -> A) : Prop := forall e p x, Global (geom e) p = Ok x -> h e p = f x.
(** Shapes fit, and the cells do not degenerate at the points of the rules. *)
Definition proper_geometry (m : mesh) (geom : ent -> geo) (rule : refel -> quadrule) : Prop :=
  (forall e, In e (entities m 0) -> kind_el (go_kind (geom e)) = ent_type m e /\ at_points (rule (ent_type m e)) (nondegenerate (geom e))) /\
  (forall e, In e (filter (boundary_edge m) (entities m 1)) -> kind_el (go_kind (geom e)) = ent_type m e).
(** Volume elements of the geometries. *)
Definition volumes (geom : ent -> geo) (vol : ent -> list R -> R) (es : list ent) : Prop :=
  forall e p, In e es -> GeoSpec.admissible (geom e) p -> volume_at (geom e) (vol e) p.
(** The vector as a function of the index. *)
Definition vector (u : list R) (i : nat) : R := nth i u 0.
(** A function that is linear (bilinear) on the reference triangle (square) and vanishes at the points of the rule is zero. *)
Definition determining (rule : refel -> quadrule) : Prop := forall t, t = kTria \/ t = kQuad -> forall a : nat -> R,
  (forall p v, In p (qr_points (rule t)) -> fe_eval (lagrange O1 t) p = Ok v -> sum_to (fe_total (lagrange O1 t)) (fun i => a i * nth i v 0) = 0) ->
  forall i, (i < fe_total (lagrange O1 t))%nat -> a i = 0.
Definition positive_weights (rule : refel -> quadrule) : Prop := forall t, t <> kPoint -> forall w, In w (qr_weights (rule t)) -> 0 < w.
(** What assembleGalerkinMatrices is called with: the mesh and its space of piecewise linear functions, geometries, rules of degree 2, an
    N x N matrix; [cc] and [hh] are the values of the coefficients, [vol] the volume elements on cells and boundary edges. *)
Record fisher_data (m : mesh) (V : fe_space) (geom : ent -> geo) (make : refel -> nat -> res quadrule) (rule : refel -> quadrule) (c h : vec -> R) (L : dense Rring)
    (cc hh vol : ent -> list R -> R) : Prop := {
  fd_mesh : wf_mesh m;
  fd_space : lagrange_space O1 m = Ok V;
  fd_some : (0 < NumDofs (sp_dofs V))%nat;
  fd_rules : rules_for make rule;
  fd_geometry : proper_geometry m geom rule;
  fd_rows : d_rows Rring L = NumDofs (sp_dofs V);
  fd_cols : d_cols Rring L = NumDofs (sp_dofs V);
  fd_c : values_at_points geom c cc;
  fd_h : values_at_points geom h hh;
  fd_cells : volumes geom vol (entities m 0);
  fd_edges : volumes geom vol (filter (boundary_edge m) (entities m 1))
}.
(** Diffusion and boundary coefficients are nonnegative, and L is negative semidefinite. *)
Definition dissipative (c h : vec -> R) (N : nat) (L : dense Rring) : Prop :=
  (forall x, 0 <= c x) /\ (forall x, 0 <= h x) /\ forall u, pairing N (d_coef Rring L) u u <= 0.
(** The integral of the finite element function with coefficients [u], by the rules. *)
Definition total (m : mesh) (V : fe_space) (rule : refel -> quadrule) (vol : ent -> list R -> R) (u : list R) (x : R) : Prop :=
  exists U, values_of V u (fun e => rule (ent_type m e)) (entities m 0) U /\
    x = sum_over (entities m 0) (fun e => quadrature (rule (ent_type m e)) (fun p => vol e p * U e p)).
