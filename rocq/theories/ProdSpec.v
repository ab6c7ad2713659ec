(** Vocabulary for C91-C93: components of product spaces, traces. *)
From Coq Require Import Reals List Arith.
Import ListNotations.
From Verif Require Import Base MeshModel MeshView DofModel DofSpec RefPatModel GeoModel GeoSpec FeModel LagrModel FeSpec AssembleModel FeToolsModel FeToolsSpec DpgModel DpgSpec ProdModel.
Local Open Scope R_scope.

(** The components offered by the factory, by degree. *)
Inductive component := H1 (degree : nat) | L2 (degree : nat) | Flux (degree : nat) | Trace (degree : nat).
Definition offered (k : component) : Prop :=
  match k with H1 d | Trace d => (1 <= d <= 3)%nat | L2 d | Flux d => (d <= 3)%nat end.
(** Number of functions that belong to a node, an edge, a triangle, a quadrilateral. *)
Definition own_functions (k : component) (t : refel) : nat :=
  match k, t with
  | H1 d, kPoint => 1
  | H1 d, kSegment => d - 1
  | H1 d, kTria => (d - 1) * (d - 2) / 2
  | H1 d, kQuad => (d - 1) * (d - 1)
  | L2 d, kTria => (d + 1) * (d + 2) / 2
  | L2 d, kQuad => (d + 1) * (d + 1)
  | L2 d, _ => 0
  | Flux d, kSegment => d + 1
  | Flux d, _ => 0
  | Trace d, kPoint => 1
  | Trace d, kSegment => d - 1
  | Trace d, _ => 0
  end%nat.
(** Polynomials of degree [d]. *)
Definition polynomials (d : nat) (t : refel) : srfe :=
  match d with 0 => constant_element t | 1 => lagrange O1 t | 2 => lagrange O2 t | _ => lagrange O3 t end%nat.
(** Shape functions of a component. *)
Definition functions (k : component) (t : refel) : option srfe :=
  match k, t with
  | _, kPoint => None
  | H1 d, _ => Some (polynomials d t)
  | L2 d, kSegment => None
  | L2 d, _ => Some (discontinuous_element (polynomials d t))
  | Flux d, kSegment => Some (discontinuous_element (polynomials d t))
  | Flux d, _ => None
  | Trace d, kSegment => Some (polynomials d t)
  | Trace d, _ => Some (trace_element (polynomials d t))
  end.

(** The calls. *)
Definition add (fa : factory) (k : component) : res (nat * factory) :=
  match k with
  | H1 d => AddH1Component fa d | L2 d => AddL2Component fa d
  | Flux d => AddFluxComponent fa d | Trace d => AddTraceComponent fa d
  end.
Fixpoint add_all (fa : factory) (ks : list component) : res (list nat * factory) :=
  match ks with
  | [] => Ok ([], fa)
  | k :: ks => do r <- add fa k; do rs <- add_all (snd r) ks; Ok (fst r :: fst rs, snd rs)
  end.

(** The element [f] for cells or edges of type [t] has [n t'] functions on each sub-entity of type t'. *)
Definition has_numbers (f : srfe) (t : refel) (n : refel -> nat) : Prop :=
  fe_el f = t /\
  match t with
  | kTria | kQuad => fe_num1 f 2 = Ok (n kPoint) /\ fe_num1 f 1 = Ok (n kSegment) /\ fe_num1 f 0 = Ok (n t)
  | kSegment => fe_num1 f 1 = Ok (n kPoint) /\ fe_num1 f 0 = Ok (n kSegment)
  | kPoint => True
  end.

(** The function has one value on every edge and at every node, which it takes from every cell there. *)
Record skeleton_continuous (V : fe_space) (u : list R) : Prop := {
  sc_edge : forall i c j e o t, nth_error (mv_cells (sp_mesh V)) i = Some c ->
     nth_error (cv_edges c) j = Some e -> nth_error (cv_ori c) j = Some o ->
     exists w, fe_value V u (EEdge e) [t] = Ok w /\
               fe_value V u (ECell i) (edge_point (cv_type c) j o t) = Ok w;
  sc_node : forall n, valid (sp_mesh V) (ENode n) -> exists w, forall i c j,
     nth_error (mv_cells (sp_mesh V)) i = Some c -> nth_error (cv_nodes c) j = Some n ->
     fe_value V u (ECell i) (ref_node (cv_type c) j) = Ok w
}.

(** The boundary of a reference element. *)
Definition on_boundary (t : refel) (x : list R) : Prop :=
  exists j s, (j < num_nodes t)%nat /\ 0 <= s <= 1 /\ x = on_edge t j s.

(** All functions of the element belong to the interior. *)
Definition interior_only (f : srfe) : Prop :=
  fe_num1 f 0 = Ok (fe_total f) /\ fe_num2 f 0 0 = Ok (fe_total f) /\
  forall c i, (0 < c)%nat -> fe_num1 f c = Ok 0%nat /\ fe_num2 f c i = Ok 0%nat.
Definition no_interior (f : srfe) : Prop := fe_num1 f 0 = Ok 0%nat /\ fe_num2 f 0 0 = Ok 0%nat.

(** An entry of the essential conditions is that of the component: flagged, if and only if the dof
    belongs to a selected edge, with the value prescribed by the last of these edges; zero otherwise. *)
Definition condition (V : fe_space) (sel : ent -> bool) (g : meshfun) (k : nat) (entry : bool * R) : Prop :=
  (untouched V sel (AssembleModel.entities (sp_mesh V) 1) k /\ entry = (false, 0)) \/
  exists w, prescribed_by V g sel (AssembleModel.entities (sp_mesh V) 1) k w /\ entry = (true, w).

(** Number of entities of a type. *)
Definition number_of (m : mesh) (t : refel) : nat :=
  match t with
  | kPoint => mv_nodes m
  | kSegment => length (mv_edges m)
  | _ => length (filter (fun c => refel_eqb (cv_type c) t) (mv_cells m))
  end.
(** The dof handler gives [n t] dofs to every entity of type [t]. *)
Record provides (m : mesh) (n : refel -> nat) (d : dofh) : Prop := {
  pv_partition : partitions m (fun e => n (ent_type m e)) d;
  pv_canonical : canonical m true d;
  pv_total : NumDofs d = (n kPoint * number_of m kPoint + n kSegment * number_of m kSegment +
                          n kTria * number_of m kTria + n kQuad * number_of m kQuad)%nat;
  pv_edge : forall i, valid m (EEdge i) -> NumLocalDofs d (EEdge i) = Ok (2 * n kPoint + n kSegment)%nat;
  pv_cell : forall i, valid m (ECell i) -> let t := ent_type m (ECell i) in
     NumLocalDofs d (ECell i) = Ok (num_nodes t * n kPoint + num_nodes t * n kSegment + n t)%nat
}.
(** The elements of component [c] in four lists. *)
Definition element_in (T Q E P : list (option srfe)) (c : nat) (t : refel) : option srfe :=
  nth c (match t with kPoint => P | kSegment => E | kTria => T | kQuad => Q end) None.
(** Numbers of functions that all elements for edges and cells agree on. *)
Definition agree (fs : refel -> option srfe) (n : refel -> nat) : Prop :=
  forall t f, t <> kPoint -> fs t = Some f -> has_numbers f t n.
(** Entities of types without elements have no functions. *)
Definition absent (fs : refel -> option srfe) (n : refel -> nat) : Prop :=
  (fs kTria = None -> n kTria = 0%nat) /\ (fs kQuad = None -> n kQuad = 0%nat) /\
  (fs kTria = None -> fs kQuad = None -> fs kSegment = None -> n kPoint = 0%nat /\ n kSegment = 0%nat).

(** The space has the components described by the elements [fs c], c = 0, ..., N-1; [n c t]
    functions of component c belong to an entity of type t; its dof handler stacks those
    of the components. *)
Record has_components (m : mesh) (N : nat) (fs : nat -> refel -> option srfe) (n : nat -> refel -> nat)
    (s : product_space) : Prop := {
  hc_mesh : ps_mesh s = m;
  hc_count : NumComponents s = N;
  hc_layout : forall c t, (c < N)%nat -> ShapeFunctionLayout s t c = Ok (fs c t);
  hc_number : forall c t, (c < N)%nat -> NumRefShapeFunctions s t c = Ok (n c t);
  hc_beyond : forall c t, (N <= c)%nat -> ShapeFunctionLayout s t c = Assert /\ NumRefShapeFunctions s t c = Assert;
  hc_dofs : exists ds, length ds = N /\ stacked m ds (ps_dofs s) /\
     forall c, (c < N)%nat -> exists d, nth_error ds c = Some d /\ provides m (n c) d
}.
(** [s] was built by the factory after the components [ks] were added. *)
Definition built (m : mesh) (ks : list component) (s : product_space) : Prop :=
  exists idx fa fa', add_all (ProductUniformFESpaceFactory m) ks = Ok (idx, fa) /\ Build fa = Ok (s, fa').
(** Components whose functions are continuous; components of fluxes. *)
Definition continuous_component (k : component) : Prop := match k with H1 _ | Trace _ => True | _ => False end.
Definition is_flux (k : component) : Prop := match k with Flux _ => True | _ => False end.
