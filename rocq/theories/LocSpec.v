(** Vocabulary for C105 and C106: element matrices for components of product spaces. *)
From Coq Require Import Reals List Arith ZArith.
From Coquelicot Require Import Hierarchy RInt.
Import ListNotations.
From Verif Require Import Base Scalars MeshModel MeshView DofModel RefPatModel GeoModel GeoSpec FeModel QuadModel FeSpec QuadSpec AssembleModel ElemModel ElemSpec DpgModel DpgSpec ProdModel ProdSpec NormalSpec LocModel.
Local Open Scope R_scope.

(** The outcome is a matrix with [n] rows, [k] columns and entries [h]. *)
Definition is_dense (r : res (dense Rring)) (n k : nat) (h : nat -> nat -> R) : Prop :=
  exists M, r = Ok M /\ d_rows Rring M = n /\ d_cols Rring M = k /\
    forall i j, (i < n)%nat -> (j < k)%nat -> d_coef Rring M i j = h i j.
(** The provider belongs to component [tc] of the trial and [vc] of the test space, and is active
    on every cell. *)
Definition placed (s : sub_mat Rring) (tc vc : nat) : Prop :=
  sm_trial s = tc /\ sm_test s = vc /\ forall cell, sm_active s cell = true.

(** * Integrals over cells *)

(** The cell with geometry [g] has two dimensions; on cells of its type component [tc] of the trial
    space has the element [ft], component [vc] of the test space the element [fv]; [q] is the
    rule for the sum of their degrees, with as many weights as points, all of them reference points of
    the cell, with volume elements [vol]. *)
Record on_cell (make : refel -> nat -> res quadrule) (g : geo) (trial test : product_space) (tc vc : nat)
    (ft fv : srfe) (q : quadrule) (vol : list R -> R) : Prop := {
  oc_dim : dim_local (go_kind g) = 2%nat;
  oc_trial : ShapeFunctionLayout trial (kind_el (go_kind g)) tc = Ok (Some ft);
  oc_test : ShapeFunctionLayout test (kind_el (go_kind g)) vc = Ok (Some fv);
  oc_make : make (kind_el (go_kind g)) (fe_degree ft + fe_degree fv)%nat = Ok q;
  oc_rule : rule_on q g vol
}.
(** An affine cell with elements of degrees [k] and [l] with polynomial shape functions, and a rule
    that is exact for polynomials of degree [k + l]. *)
Record exact_cell (make : refel -> nat -> res quadrule) (g : geo) (trial test : product_space) (tc vc : nat)
    (ft fv : srfe) (vol : list R -> R) : Prop := {
  ec_trial : ShapeFunctionLayout trial (kind_el (go_kind g)) tc = Ok (Some ft);
  ec_test : ShapeFunctionLayout test (kind_el (go_kind g)) vc = Ok (Some fv);
  ec_affine_trial : affine_cell g ft (fe_degree ft) vol;
  ec_affine_test : affine_cell g fv (fe_degree fv) vol;
  ec_rule : exists q, make (kind_el (go_kind g)) (fe_degree ft + fe_degree fv)%nat = Ok q /\
    rule_for (kind_el (go_kind g)) (fe_degree ft + fe_degree fv) q
}.
(** Construction: there are the components; if both have an element for a type of cells there is
    a rule, at whose points the elements have values and gradients. *)
Definition evaluable (f : srfe) (q : quadrule) : Prop :=
  at_points q (fun p => exists v w, fe_eval f p = Ok v /\ fe_grad f p = Ok w).
Definition constructible (make : refel -> nat -> res quadrule) (trial test : product_space) (tc vc : nat) : Prop :=
  forall t, t = kTria \/ t = kQuad -> exists ot ov,
    ShapeFunctionLayout trial t tc = Ok ot /\ ShapeFunctionLayout test t vc = Ok ov /\
    forall ft fv, ot = Some ft -> ov = Some fv ->
      exists q, make t (fe_degree ft + fe_degree fv)%nat = Ok q /\ evaluable ft q /\ evaluable fv q.
(** Terms with integrals over cells. *)
Definition volume_term (t : term) : Prop := match t with Diffusion _ | Reaction _ | Convection _ _ => True | _ => False end.

(** The same for loads: the rule for twice the degree of the element. *)
Record load_cell (make : refel -> nat -> res quadrule) (g : geo) (test : product_space) (vc : nat)
    (fv : srfe) (q : quadrule) (vol : list R -> R) : Prop := {
  lc_dim : dim_local (go_kind g) = 2%nat;
  lc_test : ShapeFunctionLayout test (kind_el (go_kind g)) vc = Ok (Some fv);
  lc_make : make (kind_el (go_kind g)) (2 * fe_degree fv)%nat = Ok q;
  lc_rule : rule_on q g vol
}.
Definition load_constructible (make : refel -> nat -> res quadrule) (test : product_space) (vc : nat) : Prop :=
  forall t, t = kTria \/ t = kQuad -> exists ov, ShapeFunctionLayout test t vc = Ok ov /\
    forall fv, ov = Some fv -> exists q, make t (2 * fe_degree fv)%nat = Ok q /\ evaluable fv q.
(** [b'] has one provider more than [b], at the end: for component [vc], active on every cell,
    with element vectors [ev]. *)
Definition one_more (b b' : vbuilder) (vc : nat) (ev : ent -> res (list R)) : Prop :=
  vb_test b' = vb_test b /\ exists sv, vb_subs b' = vb_subs b ++ [sv] /\ sv_test sv = vc /\
    (forall cell, sv_active sv cell = true) /\ forall cell, sv_eval sv cell = ev cell.

(** * Integrals over the boundary of cells *)

(** The point of the boundary of the cell that belongs to parameter [x] of edge [s]. *)
Definition boundary_point (el : refel) (s : nat) (x : list R) : list R := on_edge el s (nth 0 x 0).
(** [ell s] is the length element of edge [s]; the points of the rule on the unit interval are
    reference points of the edges. *)
Definition edge_elements (q : quadrule) (g : geo) (ell : nat -> list R -> R) : Prop :=
  forall s, (s < num_nodes (kind_el (go_kind g)))%nat -> exists e, SubGeometry g 1 s = Ok e /\ rule_on q e (ell s).
(** Length of edge [s] of a straight cell. *)
Definition side_length (g : geo) (s : nat) : R := distance 2 (start (go_cols g) s) (stop (go_cols g) s).
(** A cell with two dimensions, a component of fluxes, i.e. an element on edges, and a
    component with an element on cells; [q] is the rule on the unit interval for the sum of their degrees. *)
Record flux_cell (make : refel -> nat -> res quadrule) (g : geo) (trial test : product_space) (tc vc : nat)
    (ft fv : srfe) (q : quadrule) : Prop := {
  fc_dim : dim_local (go_kind g) = 2%nat;
  fc_trial : ShapeFunctionLayout trial kSegment tc = Ok (Some ft);
  fc_test : ShapeFunctionLayout test (kind_el (go_kind g)) vc = Ok (Some fv);
  fc_make : make kSegment (fe_degree ft + fe_degree fv)%nat = Ok q;
  fc_rule : rule_for kSegment (fe_degree ft + fe_degree fv) q
}.
Record trace_cell (make : refel -> nat -> res quadrule) (g : geo) (trial test : product_space) (tc vc : nat)
    (ft fv : srfe) (q : quadrule) : Prop := {
  tc_straight : straight g;
  tc_trial : ShapeFunctionLayout trial (kind_el (go_kind g)) tc = Ok (Some ft);
  tc_test : ShapeFunctionLayout test (kind_el (go_kind g)) vc = Ok (Some fv);
  tc_make : make kSegment (fe_degree ft + fe_degree fv)%nat = Ok q;
  tc_rule : rule_for kSegment (fe_degree ft + fe_degree fv) q
}.
(** Shape functions, and values of a mesh function, at the points of the boundary. *)
Definition boundary_shapes (el : refel) (f : srfe) (b : nat -> list R -> R) (q : quadrule) : Prop :=
  forall s, (s < num_nodes el)%nat -> at_points q (fun x => shape_at f b (boundary_point el s x)).
Definition boundary_values {A} (el : refel) (m : mesh_fun A) (h : list R -> A) (q : quadrule) : Prop :=
  forall s, (s < num_nodes el)%nat -> at_points q (fun x => value_at m h (boundary_point el s x)).
(** +1 for the last of the cells at the edge, -1 for the others. *)
Definition sign_of (m : mesh) (c e : nat) (z : R) : Prop :=
  (z = 1 /\ forall c', cell_at_edge m e c' -> (c' <= c)%nat) \/ (z = -1 /\ exists c', cell_at_edge m e c' /\ (c < c')%nat).
(** The outcome is a matrix with [n] rows and [k] columns for each of [N] edges: column [j] for edge
    [s] is column [s * k + j] and has the entries [h i s j]. *)
Definition is_by_edges (r : res (dense Rring)) (n k N : nat) (h : nat -> nat -> nat -> R) : Prop :=
  exists M, r = Ok M /\ d_rows Rring M = n /\ d_cols Rring M = (k * N)%nat /\
    forall i s j, (i < n)%nat -> (s < N)%nat -> (j < k)%nat -> d_coef Rring M i (s * k + j)%nat = h i s j.
(** Integral over the edge with number [s] of a straight cell, of a function given on its boundary. *)
Definition side_integral (g : geo) (s : nat) (f : list R -> R) : R :=
  side_length g s * RInt (fun t => f (on_edge (kind_el (go_kind g)) s t)) 0 1.
(** The parameter that the cell gives to the point with parameter [t] of an edge. *)
Definition along_cell (o : bool) (t : R) : R := if o then t else 1 - t.
(** Number the functions on the edges of a cell as in [is_by_edges], and take their dofs in the order in
    which the dof handler [d] tells them: functions of two cells with the same dof agree on their common edge. *)
Definition single_valued (m : mesh) (d : dofh) (f : srfe) : Prop :=
  forall c c' v v' l l' i i' e o o' j j' x,
    nth_error (mv_cells m) c = Some v -> nth_error (mv_cells m) c' = Some v' ->
    GlobalDofIndices d (DofModel.ECell c) = Ok l -> GlobalDofIndices d (DofModel.ECell c') = Ok l' ->
    nth_error (cv_edges v) i = Some e -> nth_error (cv_ori v) i = Some o ->
    nth_error (cv_edges v') i' = Some e -> nth_error (cv_ori v') i' = Some o' ->
    (j < fe_total f)%nat -> (j' < fe_total f)%nat ->
    nth_error l (i * fe_total f + j)%nat = Some x -> nth_error l' (i' * fe_total f + j')%nat = Some x ->
    forall t, exists w w', fe_eval f [along_cell o t] = Ok w /\ fe_eval f [along_cell o' t] = Ok w' /\ nth j w 0 = nth j' w' 0.

(** * Builders *)

(** Adds a list of terms (trial component, test component, term), or of loads. *)
Fixpoint add_terms make geom (b : builder) (ts : list (nat * nat * term)) : res builder :=
  match ts with
  | [] => Ok b
  | (tc, vc, t) :: ts => do b' <- AddTerm make geom b tc vc t; add_terms make geom b' ts
  end.
Fixpoint add_loads make geom (b : vbuilder) (fs : list (nat * coefficient R)) : res vbuilder :=
  match fs with
  | [] => Ok b
  | (vc, f) :: fs => do b' <- AddLoad make geom b vc f; add_loads make geom b' fs
  end.
(** [s] is a provider for the term, at its components. *)
Definition provides_term make geom (trial test : product_space) (t : nat * nat * term) (s : sub_mat Rring) : Prop :=
  let '(tc, vc, t) := t in provider make geom trial test tc vc t = Ok s /\ placed s tc vc.
(** [s] is the provider that a single AddLoad call adds. *)
Definition provides_load make geom (test : product_space) (f : nat * coefficient R) (s : sub_vec Rring) : Prop :=
  let '(vc, f) := f in exists b', AddLoad make geom (NewVBuilder test) vc f = Ok b' /\ vb_subs b' = [s] /\
    sv_test s = vc /\ forall cell, sv_active s cell = true.

(** * Spaces that were built *)

(** [make] provides exact rules, as far as they are needed for components of degree up to 3. *)
Definition provides_rules (make : refel -> nat -> res quadrule) : Prop :=
  forall t k, t <> kPoint -> (k <= 6)%nat -> exists q, make t k = Ok q /\ rule_for t k q.
(** Flux terms are for flux components, the others for all other components; the test space has
    functions on the cells. *)
Definition term_fits (t : term) (kt kv : component) : Prop :=
  ~ is_flux kv /\ match t with FluxTerm _ => is_flux kt | _ => ~ is_flux kt end.
(** Number of functions of a component on a cell: those of its edges for fluxes. *)
Definition cell_functions (k : component) (t : refel) : nat :=
  match k with
  | Flux d => (d + 1) * num_nodes t
  | _ => match functions k t with Some f => fe_total f | None => 0 end
  end%nat.
(** The outcome is a matrix with [n] rows and [k] columns. *)
Definition sized (r : res (dense Rring)) (n k : nat) : Prop := exists M, r = Ok M /\ d_rows Rring M = n /\ d_cols Rring M = k.
