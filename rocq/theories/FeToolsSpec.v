(** Vocabulary for nodal projection, essential conditions and integration. *)
From Coq Require Import Reals List Arith Bool.
Import ListNotations.
From Verif Require Import Base Scalars MeshModel MeshView DofModel DofSpec RefPatModel GeoModel FeModel QuadModel AssembleModel
  FeSpec HierSpec QuadSpec ElemModel ElemSpec FeToolsModel.
Local Open Scope R_scope.

(** The dofs of an entity, as told by the dof handler. *)
Definition has_dofs (V : fe_space) (e : ent) (l : list nat) : Prop := GlobalDofIndices (sp_dofs V) e = Ok l.
Definition touches (V : fe_space) (e : ent) (k : nat) : Prop := exists l, has_dofs V e l /\ In k l.
(** NumLocalDofs is the number of these dofs. *)
Definition consistent (V : fe_space) (es : list ent) : Prop :=
  forall e l n, In e es -> has_dofs V e l -> NumLocalDofs (sp_dofs V) e = Ok n -> n = length l.
(** The local coefficients of the function [u] on [e]: the degrees of freedom of its
    values at the evaluation nodes. *)
Definition local_coefficients (V : fe_space) (u : meshfun) (e : ent) (c : list R) : Prop :=
  exists f vals, sp_layout V e = Some f /\ Forall2 (fun p v => u e p = Ok v) (fe_nodes f) vals /\ fe_n2d f vals = Ok c.
(** Dof [k] gets the value [w] from the selected entities among [es]: from the last
    of those to which the dof belongs; zero, if it belongs to none. *)
Definition prescribed_by (V : fe_space) (u : meshfun) (sel : ent -> bool) (es : list ent) (k : nat) (w : R) : Prop :=
  exists before e after l c j, es = before ++ e :: after /\ sel e = true /\ has_dofs V e l /\
    local_coefficients V u e c /\ length c = length l /\ nth_error l j = Some k /\ nth_error c j = Some w /\
    (forall j', (j < j')%nat -> nth_error l j' <> Some k) /\
    (forall e', In e' after -> sel e' = true -> ~ touches V e' k).
Definition untouched (V : fe_space) (sel : ent -> bool) (es : list ent) (k : nat) : Prop :=
  forall e, In e es -> sel e = true -> ~ touches V e k.

(** The space offers on [e] an element with at least one node whose degrees of freedom
    are dual to the shape functions, and as many dofs. *)
Definition element_ok (V : fe_space) (e : ent) : Prop :=
  exists f l, sp_layout V e = Some f /\ has_dofs V e l /\ NumLocalDofs (sp_dofs V) e = Ok (length l) /\
    (forall g, In g l -> g < NumDofs (sp_dofs V))%nat /\ length l = fe_total f /\ fe_nodes f <> [] /\
    (forall p, In p (fe_nodes f) -> exists v, fe_eval f p = Ok v /\ length v = fe_total f) /\ dual f.
(** [u] coincides on [e] with the finite element function with coefficients [coef]. *)
Definition coincides (V : fe_space) (coef : list R) (u : meshfun) (e : ent) : Prop :=
  forall f p, sp_layout V e = Some f -> In p (fe_nodes f) -> u e p = fe_value V coef e p.

(** Quadrature rules for segments and triangles that are exact for all degrees up to
    [n]; on triangles without points on the line y = 1. *)
Definition exact_rules (get : refel -> nat -> quadrule) (n : nat) : Prop :=
  forall k, (k <= n)%nat -> rule_for kSegment k (get kSegment k) /\ rule_for kTria k (get kTria k) /\
    forall x, In x (qr_points (get kTria k)) -> nth 1 x 0 <> 1.

(** *** Integration *)
(** A straight affine segment or cell with volume elements [vol]. *)
Record flat (g : geo) (vol : list R -> R) : Prop := {
  fl_affine : isAffine g = true;
  fl_straight : is_o2 (go_kind g) = false;
  fl_volume : forall p, length p = dim_local (go_kind g) -> volume_at g vol p
}.
Definition sum_over (es : list ent) (F : ent -> R) : R := fold_right Rplus 0 (map F es).
(** The rule has points, and the function has values there, the geometry volume elements. *)
Definition integrable (g : geo) (q : quadrule) (vol h : list R -> R) (u : list R -> res R) : Prop :=
  rule_on q g vol /\ (0 < NumPoints q)%nat /\ at_points q (fun p => u p = Ok (h p)).
Definition first_accepted (es : list ent) (ep : ent -> bool) : Prop := exists e r, es = e :: r /\ ep e = true.
