(** Vocabulary for Galerkin matrices, load vectors and gradients of finite element
    functions. *)
From Coq Require Import Reals List Arith Bool.
Import ListNotations.
From Verif Require Import Base Scalars MeshModel MeshView DofModel DofSpec RefPatModel GeoModel GeoSpec FeModel QuadModel AssembleModel AssembleSpec
  FeSpec QuadSpec TriaSpec ElemModel ElemSpec FeToolsModel FeToolsSpec GalerkinModel.
Local Open Scope R_scope.

(** [f] is the element of [V] on [e], and [l] are the dofs of [e]: as many as shape
    functions. *)
Record element_of (V : fe_space) (e : ent) (f : srfe) (l : list nat) : Prop := {
  eo_layout : sp_layout V e = Some f;
  eo_dofs : has_dofs V e l;
  eo_num : NumLocalDofs (sp_dofs V) e = Ok (length l);
  eo_range : forall g, In g l -> (g < NumDofs (sp_dofs V))%nat;
  eo_total : length l = fe_total f
}.
(** Shape functions, and their gradients, can be evaluated at [p]. *)
Definition evaluates (f : srfe) (p : list R) : Prop := exists v, fe_eval f p = Ok v /\ length v = fe_total f.
Definition differentiates (f : srfe) (p : list R) : Prop := exists gr, fe_grad f p = Ok gr /\ length gr = fe_total f.
(** On every entity of [es] the space offers an element, and [q e] is the quadrature rule
    that [get] gives for twice its degree; [vol e] are the volume elements. *)
Record prepared (V : fe_space) (geom : ent -> geo) (get : refel -> nat -> res quadrule) (q : ent -> quadrule)
    (vol : ent -> list R -> R) (es : list ent) : Prop := {
  pr_element : forall e, In e es -> exists f l, element_of V e f l /\
     get (kind_el (go_kind (geom e))) (2 * fe_degree f)%nat = Ok (q e) /\ at_points (q e) (evaluates f);
  pr_shape : forall e, In e es -> kind_el (go_kind (geom e)) = ent_type (sp_mesh V) e;
  pr_rule : forall e, In e es -> rule_on (q e) (geom e) (vol e)
}.
(** Cells that do not degenerate at [p]; gradients can be computed at the points of the
    rules. *)
Definition nondegenerate (g : geo) (p : list R) : Prop := exists J, Jacobian g p = Ok J /\ gramian_det (go_dim g) J <> 0.
Definition regular (V : fe_space) (geom : ent -> geo) (q : ent -> quadrule) (es : list ent) : Prop :=
  forall e f, In e es -> sp_layout V e = Some f -> at_points (q e) (fun p => nondegenerate (geom e) p /\ differentiates f p).
(** The values of the finite element function with coefficients [u] (MeshFunctionFE) at
    the points of the rules are [U], its gradients (MeshFunctionGradFE) are [G]. *)
Definition values_of (V : fe_space) (u : list R) (q : ent -> quadrule) (es : list ent) (U : ent -> list R -> R) : Prop :=
  forall e, In e es -> at_points (q e) (fun p => fe_value V u e p = Ok (U e p)).
Definition has_gradient (V : fe_space) (geom : ent -> geo) (u : list R) (e : ent) (G : list R -> vec) (p : list R) : Prop :=
  exists w, fe_grad_value V geom u e p = Ok w /\ forall k, (k < go_dim (geom e))%nat -> w k = G p k.
Definition gradients_of (V : fe_space) (geom : ent -> geo) (u : list R) (q : ent -> quadrule) (es : list ent) (G : ent -> list R -> vec) : Prop :=
  forall e, In e es -> at_points (q e) (has_gradient V geom u e (G e)).
(** A mesh function has the values [h]. *)
Definition given_by {A} (mf : ent -> mesh_fun A) (h : ent -> list R -> A) (q : ent -> quadrule) (es : list ent) : Prop :=
  forall e, In e es -> at_points (q e) (value_at (mf e) (h e)).

(** [A] is the matrix of the bilinear form [a]: assembling succeeds, and v^T A u = a (u, v)
    for all coefficient vectors. *)
Definition galerkin_matrix (V : fe_space) (r : res (coo Rring)) (a : list R -> list R -> R -> Prop) : Prop :=
  let N := NumDofs (sp_dofs V) in
  exists A D, r = Ok A /\ AssembleSpec.is_matrix Rring A N N D /\
    forall u v x, length u = N -> length v = N -> a u v x -> form Rring N N D (comp Rring v) (comp Rring u) = x.
(** [b] is the vector of the linear form [l]: b^T v = l (v). *)
Definition galerkin_vector (V : fe_space) (r : res (list R)) (l : list R -> R -> Prop) : Prop :=
  let N := NumDofs (sp_dofs V) in
  exists b, r = Ok b /\ length b = N /\
    forall v x, length v = N -> l v x -> sum_to N (fun i => nth i b 0 * nth i v 0) = x.
(** All entities are cells, or edges. *)
Definition of_dim (geom : ent -> geo) (d : nat) (es : list ent) : Prop := forall e, In e es -> dim_local (go_kind (geom e)) = d.
(** The element depends only on the type of the entity. *)
Definition uniform_layout (V : fe_space) (layout : refel -> option srfe) : Prop :=
  forall e, sp_layout V e = layout (ent_type (sp_mesh V) e).
(** The rules of a collection chosen by the user. *)
Definition chosen (coll : refel -> option quadrule) (t : refel) (_ : nat) : res quadrule :=
  match coll t with Some r => Ok r | None => Assert end.
(** The rule for edges: chosen, or made for twice the degree. *)
Definition edge_rule (make : refel -> nat -> res quadrule) (rule : option quadrule) (t : refel) (n : nat) : res quadrule :=
  match rule with Some r => Ok r | None => make t n end.

(** *** The forms *)
(** sum over the entities of the quadrature of  grad v . (a grad u),  c u v,  h v, all times
    the volume element *)
Section Forms.
Variable (V : fe_space) (geom : ent -> geo) (q : ent -> quadrule) (vol : ent -> list R -> R) (es : list ent).
Definition diffusion_form (a : ent -> list R -> coeff) (u v : list R) (x : R) : Prop :=
  exists U W, gradients_of V geom u q es U /\ gradients_of V geom v q es W /\
    x = sum_over es (fun e => quadrature (q e) (fun p =>
          vol e p * inner (go_dim (geom e)) (W e p) (flux (go_dim (geom e)) (a e p) (U e p)))).
Definition mass_form (c : ent -> list R -> R) (u v : list R) (x : R) : Prop :=
  exists U W, values_of V u q es U /\ values_of V v q es W /\
    x = sum_over es (fun e => quadrature (q e) (fun p => vol e p * (c e p * W e p * U e p))).
Definition load_form (h : ent -> list R -> R) (v : list R) (x : R) : Prop :=
  exists W, values_of V v q es W /\
    x = sum_over es (fun e => quadrature (q e) (fun p => vol e p * (h e p * W e p))).
End Forms.
Definition sum_form (a b : list R -> list R -> R -> Prop) (u v : list R) (x : R) : Prop :=
  exists y z, a u v y /\ b u v z /\ x = y + z.

(** *** Boundary value problems *)
(** The forms have a value for all coefficient vectors. *)
Definition defined_forms (V : fe_space) (a : list R -> list R -> R -> Prop) (l : list R -> R -> Prop) : Prop :=
  (forall u v, length u = NumDofs (sp_dofs V) -> length v = NumDofs (sp_dofs V) -> exists x, a u v x) /\
  (forall v, length v = NumDofs (sp_dofs V) -> exists x, l v x).
(** The finite element function vanishes on the selected edges. *)
Definition vanishes_on (V : fe_space) (v : list R) (sel : ent -> bool) : Prop :=
  forall e x, In e (entities (sp_mesh V) 1) -> sel e = true -> in_ref (ent_type (sp_mesh V) e) x -> fe_value V v e x = Ok 0.
(** [mu] are coefficients of a finite element function with the values of [g] at the nodes
    of the selected edges such that a (u, v) = l (v) for all finite element functions v
    that vanish on the selected edges. *)
Definition weak_solution (V : fe_space) (sel : ent -> bool) (g : meshfun) (a : list R -> list R -> R -> Prop) (l : list R -> R -> Prop) (mu : list R) : Prop :=
  (forall e, In e (entities (sp_mesh V) 1) -> sel e = true -> coincides V mu g e) /\
  (forall v x y, length v = NumDofs (sp_dofs V) -> vanishes_on V v sel -> a mu v x -> l v y -> x = y).

(** *** Gradients *)
Definition scalar (F : list R -> res R) (x : list R) : res vec := do v <- F x; Ok (fun _ => v).
(** [w] is the gradient in world coordinates of the function [F] on a cell or edge with
    geometry [g] at [x]: the total derivative of [F] with respect to reference coordinates,
    transformed with the Jacobian of the geometry. *)
Definition world_gradient_of (g : geo) (F : list R -> res R) (x : list R) (w : vec) : Prop :=
  exists J r, Jacobian g x = Ok J /\ length r = length J /\ derivative 1 (scalar F) x (map (fun c _ => c) r) /\
    world_gradient (go_dim g) J r w.

(** *** Straight cells *)
(** Triangles with straight sides and parallelograms. *)
Definition flat_cells (V : fe_space) (geom : ent -> geo) (es : list ent) : Prop :=
  forall e, In e es -> GeoSpec.constructed (geom e) /\ exact_parallelogram (geom e) /\
    (go_kind (geom e) = GTriaO1 \/ go_kind (geom e) = GParallelogram) /\ kind_el (go_kind (geom e)) = ent_type (sp_mesh V) e.
(** A property that holds at all points of all entities. *)
Definition all_over (es : list ent) (P : ent -> list R -> Prop) : Prop := forall e, In e es -> everywhere (P e).
(** The rules are those of [get] for degree [n], and are exact up to [tol]. *)
Definition rules_within (V : fe_space) (tol : R) (get : refel -> nat -> res quadrule) (n : nat) (q : ent -> quadrule) (es : list ent) : Prop :=
  forall e, In e es -> get (ent_type (sp_mesh V) e) n = Ok (q e) /\ rule_within tol (ent_type (sp_mesh V) e) n (q e).
