(** Properties C91-C93: product spaces, their factory, essential conditions on product spaces,
    elements for traces and for discontinuous functions (projects/dpg). *)
From Coq Require Import Reals List Arith Lia Bool.
Import ListNotations.
From Verif Require Import Base MeshModel MeshView DofModel DofSpec RefPatModel GeoModel GeoSpec FeModel LagrModel FeSpec HierSpec LagrProofs AssembleModel FeToolsModel FeToolsSpec DpgModel DpgSpec PropMeshView
  ProdModel ProdSpec ProdProofs ProdProofs2 ProdProofs4 ProdProofs5 ProdProofs8.
Local Open Scope nat_scope.

(** C91: a product space is accepted exactly if there is a component, there are as many elements
    of every kind, and the elements of each component agree on numbers of functions. *)
Theorem C91_accepts : forall m T Q E P, wf_mesh m ->
  (exists s, ProductUniformFESpace m T Q E P = Ok s) <->
  (T <> [] /\ length Q = length T /\ length E = length T /\ length P = length T /\
   forall c, c < length T -> exists n, agree (element_in T Q E P c) n).
Proof. exact space_accepts. Qed.
Print Assumptions C91_accepts.

(** It then has these components, with the numbers of functions the elements agree on; its dof
    handler stacks the dofs of the components. *)
Theorem C91_space : forall m T Q E P s, wf_mesh m -> ProductUniformFESpace m T Q E P = Ok s -> exists n,
  has_components m (length T) (element_in T Q E P) n s /\
  forall c, c < length T -> agree (element_in T Q E P c) (n c) /\ absent (element_in T Q E P c) (n c).
Proof. exact space_ok. Qed.
Print Assumptions C91_space.

(** The space of a component has its elements and its dof handler; it exists if and only if there
    is at most one function per node and there is an element for every type of cell in the mesh,
    and at least one. *)
Theorem C91_component_space : forall m T Q E P s c, wf_mesh m -> ProductUniformFESpace m T Q E P = Ok s ->
  (forall V, ComponentFESpace s c = Ok V -> c < length T /\ sp_mesh V = m /\ p_ComponentDofHandler (ps_dofs s) c = Ok (sp_dofs V) /\
     forall e, sp_layout V e = element_in T Q E P c (ent_type m e)) /\
  ((exists V, ComponentFESpace s c = Ok V) <->
   (c < length T /\ (exists k, NumRefShapeFunctions s kPoint c = Ok k /\ k <= 1) /\
    (element_in T Q E P c kTria <> None \/ element_in T Q E P c kQuad <> None) /\
    (forall t, t = kTria \/ t = kQuad -> 0 < number_of m t -> element_in T Q E P c t <> None))).
Proof. exact component_space. Qed.
Print Assumptions C91_component_space.

(** The factory numbers the components as they are added, and builds the space of these components. *)
Theorem C91_factory : forall m ks, wf_mesh m -> ks <> [] -> Forall offered ks -> exists fa s fa',
  add_all (ProductUniformFESpaceFactory m) ks = Ok (seq 0 (length ks), fa) /\ Build fa = Ok (s, fa') /\
  has_components m (length ks) (fun c => functions (nth c ks (L2 0))) (fun c => own_functions (nth c ks (L2 0))) s.
Proof. exact factory_ok. Qed.
Print Assumptions C91_factory.

(** It refuses all others, at the latest when it is asked to build the space. *)
Theorem C91_rejected : forall m ks, ks = [] \/ ~ Forall offered ks ->
  (do r <- add_all (ProductUniformFESpaceFactory m) ks; Build (snd r)) = Assert.
Proof. exact factory_rejects. Qed.
Print Assumptions C91_rejected.

(** On every entity there are as many dofs as functions. *)
Theorem C91_local : forall m ks s c k d e f, wf_mesh m -> built m ks s -> nth_error ks c = Some k -> p_ComponentDofHandler (ps_dofs s) c = Ok d ->
  valid m e -> functions k (ent_type m e) = Some f -> NumLocalDofs d e = Ok (fe_total f).
Proof. exact built_local. Qed.
Print Assumptions C91_local.

(** Spaces of components: all but fluxes have one. *)
Theorem C91_components : forall m ks s c k, wf_mesh m -> built m ks s -> nth_error ks c = Some k ->
  (~ is_flux k -> exists V, ComponentFESpace s c = Ok V /\ sp_mesh V = m /\ p_ComponentDofHandler (ps_dofs s) c = Ok (sp_dofs V) /\
     provides m (own_functions k) (sp_dofs V) /\ forall e, sp_layout V e = functions k (ent_type m e)) /\
  (is_flux k -> ComponentFESpace s c = Throw).
Proof. exact built_components. Qed.
Print Assumptions C91_components.

(** Functions in H1 and trace components are continuous across edges and at nodes. *)
Theorem C91_continuous : forall m ks s c k V u, wf_mesh m -> built m ks s -> nth_error ks c = Some k -> continuous_component k ->
  ComponentFESpace s c = Ok V -> length u = NumDofs (sp_dofs V) -> skeleton_continuous V u.
Proof. exact built_continuous. Qed.
Print Assumptions C91_continuous.

(** Not every component the factory offers has a space. *)
Theorem C91_flux_refuted : exists m ks s c d, wf_mesh m /\ built m ks s /\ nth_error ks c = Some (Flux d) /\ offered (Flux d) /\ ComponentFESpace s c = Throw.
Proof. exact flux_refuted. Qed.
Print Assumptions C91_flux_refuted.

(** After a space was built, the factory starts anew, but the indices it returns do not belong to
    the components of the next space. *)
Theorem C91_reuse_refuted : exists m fa s fa' i fa'' s' f, wf_mesh m /\ AddH1Component (ProductUniformFESpaceFactory m) 1 = Ok (0, fa) /\ Build fa = Ok (s, fa') /\
  AddH1Component fa' 1 = Ok (i, fa'') /\ Build fa'' = Ok (s', f) /\ NumComponents s' = 1 /\ ~ i < NumComponents s'.
Proof. exact reuse_refuted. Qed.
Print Assumptions C91_reuse_refuted.

Example C91_example : exists s, built example_mesh ultraweak s /\ NumComponents s = 5 /\
  NumRefShapeFunctions s kQuad 0 = Ok 4 /\ NumRefShapeFunctions s kSegment 3 = Ok 1 /\ NumRefShapeFunctions s kSegment 4 = Ok 2 /\
  exists V, ComponentFESpace s 3 = Ok V /\ 0 < NumDofs (sp_dofs V).
Proof. exact built_example. Qed.

(** C92: the conditions of the two components appear at their dofs; there are no others. *)
Theorem C92_conditions : forall m ks s tc fc sd sn g h v, wf_mesh m -> built m ks s ->
  InitEssentialConditionsFromFunctions s tc fc sd sn g h = Ok v ->
  tc <> fc /\ exists Vt Vf ot of, ComponentFESpace s tc = Ok Vt /\ ComponentFESpace s fc = Ok Vf /\
    p_Offset (ps_dofs s) tc = Ok ot /\ p_Offset (ps_dofs s) fc = Ok of /\ length v = NumDofs (p_handler (ps_dofs s)) /\
    (forall k, k < NumDofs (sp_dofs Vt) -> exists x, nth_error v (ot + k) = Some x /\ condition Vt sd g k x) /\
    (forall k, k < NumDofs (sp_dofs Vf) -> exists x, nth_error v (of + k) = Some x /\ condition Vf sn h k x) /\
    (forall i c, p_Component (ps_dofs s) i = Ok c -> c <> tc -> c <> fc -> nth_error v i = Some (false, 0%R)).
Proof. exact built_conditions. Qed.
Print Assumptions C92_conditions.

(** They are found for any two continuous components and functions with values on the selected edges. *)
Theorem C92_accepted : forall m ks s tc fc k k' sd sn g h, wf_mesh m -> built m ks s -> tc <> fc ->
  nth_error ks tc = Some k -> nth_error ks fc = Some k' -> continuous_component k -> continuous_component k' ->
  (forall e p, sd e = true -> exists y, g e p = Ok y) -> (forall e p, sn e = true -> exists y, h e p = Ok y) ->
  exists v, InitEssentialConditionsFromFunctions s tc fc sd sn g h = Ok v.
Proof. exact built_accepts. Qed.
Print Assumptions C92_accepted.

(** They are found for no flux component of the factory, for which the function is meant. *)
Theorem C92_flux_refuted : exists m ks s, wf_mesh m /\ built m ks s /\ nth_error ks 3 = Some (Trace 2) /\ nth_error ks 4 = Some (Flux 1) /\
  forall sd sn g h, InitEssentialConditionsFromFunctions s 3 4 sd sn g h = Throw.
Proof. exact conditions_refuted. Qed.
Print Assumptions C92_flux_refuted.

Theorem C92_flux_fails : forall m ks s tc fc d sd sn g h, wf_mesh m -> built m ks s -> tc < length ks -> tc <> fc ->
  nth_error ks fc = Some (Flux d) -> InitEssentialConditionsFromFunctions s tc fc sd sn g h = Throw.
Proof. exact built_flux_fails. Qed.
Print Assumptions C92_flux_fails.

Example C92_example : exists s v, built example_mesh [L2 1; Trace 2; Trace 1] s /\
  InitEssentialConditionsFromFunctions s 1 2 (fun e => match e with EEdge 0 => true | _ => false end) (fun e => match e with EEdge 3 => true | _ => false end)
    (fun _ p => Ok (nth 0 p 0%R)) (fun _ _ => Ok 1%R) = Ok v /\ length v = NumDofs (p_handler (ps_dofs s)) /\ 0 < length v.
Proof. exact conditions_example. Qed.

(** C93: the element for constants has the one constant function 1, which belongs to the interior. *)
Theorem C93_constant : forall t, t <> kPoint -> let f := constant_element t in
  fe_el f = t /\ fe_degree f = 0%nat /\ counts f /\ uniform_counts f /\ cardinal f /\ partition_of_unity f /\
  contained f (exponents t 0) /\ reproduces f (exponents t 0) /\ gradients_ok f /\
  fe_num1 f 0 = Ok 1%nat /\ (forall v, length v = 1%nat -> fe_n2d f v = Ok v).
Proof. exact constant_ok. Qed.
Print Assumptions C93_constant.

(** A discontinuous element has the functions of the element it decorates; all belong to the interior. *)
Theorem C93_discontinuous : forall f, let g := discontinuous_element f in
  fe_el g = fe_el f /\ fe_degree g = fe_degree f /\ fe_total g = fe_total f /\ interior_only g /\ uniform_counts g /\
  (forall x, fe_eval g x = fe_eval f x /\ fe_grad g x = fe_grad f x) /\ fe_nodes g = fe_nodes f /\ (forall v, fe_n2d g v = fe_n2d f v) /\
  (counts f -> counts g) /\ (cardinal f -> cardinal g) /\ (partition_of_unity f -> partition_of_unity g) /\
  (forall es, contained f es -> contained g es) /\ (forall es, reproduces f es -> reproduces g es) /\
  (gradients_ok f -> gradients_ok g) /\ (dual f -> dual g).
Proof. exact discontinuous_ok. Qed.
Print Assumptions C93_discontinuous.

(** A trace element drops the functions of the interior, and these only. *)
Theorem C93_trace : forall f, counts f -> uniform_counts f -> let g := trace_element f in
  fe_el g = fe_el f /\ fe_degree g = fe_degree f /\ counts g /\ uniform_counts g /\ no_interior g /\
  (forall c i, (0 < c)%nat -> fe_num1 g c = fe_num1 f c /\ fe_num2 g c i = fe_num2 f c i) /\
  (forall x v, length x = dimension (fe_el f) -> fe_eval f x = Ok v -> exists w z, fe_eval g x = Ok w /\ v = w ++ z /\ fe_num1 f 0 = Ok (length z)) /\
  (gradients_ok f -> gradients_ok g) /\
  ((forall p, In p (fe_nodes f) -> length p = dimension (fe_el f)) -> cardinal f -> cardinal g).
Proof. exact trace_ok'. Qed.
Print Assumptions C93_trace.

(** Traces of Lagrange elements: nodes lie on the boundary, dofs are dual to the functions. *)
Theorem C93_lagrange_traces : forall k t, t = kTria \/ t = kQuad -> let g := trace_element (lagrange k t) in
  fe_el g = t /\ fe_degree g = ord k /\ counts g /\ uniform_counts g /\ no_interior g /\ cardinal g /\ gradients_ok g /\ dual g /\
  forall p, In p (fe_nodes g) -> on_boundary t p.
Proof. exact lagrange_traces. Qed.
Print Assumptions C93_lagrange_traces.

(** On the boundary nothing is lost: the dropped functions vanish there, the others are a partition
    of unity and reproduce all polynomials of the degree. *)
Theorem C93_boundary : forall k t x, t = kTria \/ t = kQuad -> on_boundary t x ->
  exists w n, fe_eval (trace_element (lagrange k t)) x = Ok w /\ fe_num1 (lagrange k t) 0 = Ok n /\
    fe_eval (lagrange k t) x = Ok (w ++ repeat 0%R n) /\ rsum w = 1%R /\
    forall c, poly (exponents t (ord k)) c x = dot (map (poly (exponents t (ord k)) c) (fe_nodes (trace_element (lagrange k t)))) w.
Proof. exact trace_boundary. Qed.
Print Assumptions C93_boundary.

Example C93_example : counts (lagrange O3 kTria) /\ uniform_counts (lagrange O3 kTria) /\ fe_total (trace_element (lagrange O3 kTria)) = 9 /\ on_boundary kTria [1 / 2; 1 / 2]%R.
Proof. exact elements_example. Qed.
