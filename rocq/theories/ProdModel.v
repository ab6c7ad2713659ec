(** Model of projects/dpg: reference elements for traces and discontinuous functions
    (trace_scalar_reference_finite_element.h, discontinuous_scalar_reference_finite_element.h,
    discontinuous_fe_constant.h), product spaces (product_fe_space.h), their factory
    (product_fe_space_factory.h) and essential conditions on product spaces (dpg_tools.h).
    Simplifications: those of FeModel; pointers to decorated elements and meshes are not null;
    access to a vector out of range, which is undefined, is [Assert]. *)
From Coq Require Import Reals List Arith Bool.
Import ListNotations.
From Verif Require Import Base MeshModel MeshView DofModel FeModel LagrModel AssembleModel FeToolsModel DpgModel.
Local Open Scope R_scope.

(** * Reference elements *)

(** discontinuous_fe_constant.h:33-111 (triangle), 125-201 (square), 214-293 (segment).
    NodalValuesToDofs is inherited.  There is no such class for points. *)
Definition constant_element (t : refel) : srfe :=
  let d := match t with kPoint => 0 | kSegment => 1 | _ => 2 end%nat in
  let num c := do _ <- lf_assert (c <=? 2)%nat; Ok (if (c =? 0)%nat then 1%nat else 0%nat) in
  {| fe_el := t; fe_degree := 0; fe_total := 1;
     fe_num1 := num; fe_num2 := fun c _ => num c;
     fe_eval := fun x => do _ <- lf_assert (length x =? d)%nat; Ok [1];
     fe_grad := fun x => do _ <- lf_assert (length x =? d)%nat; Ok [repeat 0 d];
     fe_nodes := [match t with kPoint => [] | kSegment => [1 / 2] | kTria => [1 / 3; 1 / 3] | kQuad => [1 / 2; 1 / 2] end];
     fe_num_nodes := 1; fe_n2d := identity_n2d 1 |}.
(** discontinuous_scalar_reference_finite_element.h:60-131 *)
Definition discontinuous_element (f : srfe) : srfe :=
  {| fe_el := fe_el f; fe_degree := fe_degree f; fe_total := fe_total f;
     fe_num1 := fun c => Ok (if (c =? 0)%nat then fe_total f else 0%nat);
     fe_num2 := fun c _ => Ok (if (c =? 0)%nat then fe_total f else 0%nat);
     fe_eval := fe_eval f; fe_grad := fe_grad f;
     fe_nodes := fe_nodes f; fe_num_nodes := fe_num_nodes f; fe_n2d := fe_n2d f |}.
(** Eigen: topRows(n), leftCols(n). *)
Definition top {A} (n : nat) (l : list A) : res (list A) :=
  do _ <- lf_assert (n <=? length l)%nat; Ok (firstn n l).
(** NumRefShapeFunctions(0) of the decorated element; it succeeds for all elements of the library. *)
Definition interior_num (f : srfe) : nat := match fe_num1 f 0 with Ok n => n | _ => 0%nat end.
(** trace_scalar_reference_finite_element.h:63-144 *)
Definition trace_element (f : srfe) : srfe :=
  let total := (fe_total f - interior_num f)%nat in
  let num_nodes := (fe_num_nodes f - interior_num f)%nat in
  {| fe_el := fe_el f; fe_degree := fe_degree f; fe_total := total;
     fe_num1 := fun c => if (c =? 0)%nat then Ok 0%nat else fe_num1 f c;
     fe_num2 := fun c i => if (c =? 0)%nat then Ok 0%nat else fe_num2 f c i;
     fe_eval := fun x => do v <- fe_eval f x; top total v;
     fe_grad := fun x => do g <- fe_grad f x; top total g;
     fe_nodes := firstn total (fe_nodes f); fe_num_nodes := num_nodes;
     fe_n2d := fun v =>
       do _ <- lf_assert (length v =? num_nodes)%nat;
       do w <- fe_n2d f (v ++ repeat 0 (fe_num_nodes f - num_nodes));
       top total w |}.

(** * ProductUniformFESpace *)

(** product_fe_space.h:172-205: the members; [ps_num]: numbers of shape functions of the
    components for points, segments, triangles, squares. *)
Record product_space := mkProductSpace {
  ps_mesh : mesh;
  ps_tria : list (option srfe); ps_quad : list (option srfe);
  ps_edge : list (option srfe); ps_point : list (option srfe);
  ps_num : list (nat * nat * nat * nat);
  ps_dofs : pdofh
}.
(** product_fe_space.h:242-265: triangle and square; node and edge numbers, own number. *)
Definition ps_probe_cell (o : option srfe) (t : refel) (dflt : nat * nat) : res (nat * nat * nat) :=
  match o with
  | None => Ok (fst dflt, snd dflt, 0)%nat
  | Some f =>
      do _ <- lf_assert (refel_eqb (fe_el f) t);
      do n2 <- fe_num1 f 2; do n1 <- fe_num1 f 1; do n0 <- fe_num1 f 0; Ok (n2, n1, n0)
  end.
(** product_fe_space.h:266-274 *)
Definition ps_probe_edge (o : option srfe) (dflt : nat * nat) : res (nat * nat) :=
  match o with
  | None => Ok dflt
  | Some f =>
      do _ <- lf_assert (refel_eqb (fe_el f) kSegment);
      do n1 <- fe_num1 f 1; do n0 <- fe_num1 f 0; Ok (n1, n0)
  end.
(** product_fe_space.h:236-330: one component; the comparisons are those of FeModel.compare_nums. *)
Definition ps_component (tria quad edge : option srfe) : res (nat * nat * nat * nat) :=
  do t <- ps_probe_cell tria kTria (0, 0)%nat;
  do q <- ps_probe_cell quad kQuad (fst t);
  do e <- ps_probe_edge edge (fst q);
  do _ <- compare_nums tria quad (2, 1)%nat (2, 1)%nat;
  do _ <- compare_nums tria edge (2, 1)%nat (1, 0)%nat;
  do _ <- compare_nums quad edge (2, 1)%nat (1, 0)%nat;
  Ok (fst e, snd e, snd t, snd q).
(** product_fe_space.h:335-342 *)
Definition ps_layout (n : nat * nat * nat * nat) : dof_map :=
  let '(p, s, t, q) := n in [(kPoint, p); (kSegment, s); (kTria, t); (kQuad, q)].
(** product_fe_space.h:92-112, 210-344: constructor and init(); the mesh has dimension 2. *)
Definition ProductUniformFESpace (m : mesh) (tria quad edge point : list (option srfe)) : res product_space :=
  let n := length tria in
  do _ <- lf_assert (negb (n =? 0)%nat);
  do _ <- lf_assert ((n =? length quad) && (n =? length edge) && (n =? length point))%nat;
  do nums <- traverse (fun c =>
    do t <- elem_at tria c; do q <- elem_at quad c; do e <- elem_at edge c; ps_component t q e) (seq 0 n);
  do d <- product m (map ps_layout nums);
  Ok (mkProductSpace m tria quad edge point nums d).
(** product_fe_space.h:346-377 *)
Definition ShapeFunctionLayout (s : product_space) (t : refel) (c : nat) : res (option srfe) :=
  elem_at (match t with kPoint => ps_point s | kSegment => ps_edge s | kTria => ps_tria s | kQuad => ps_quad s end) c.
(** product_fe_space.h:379-402 *)
Definition NumRefShapeFunctions (s : product_space) (t : refel) (c : nat) : res nat :=
  do n <- elem_at (ps_num s) c;
  let '(p, g, tr, q) := n in
  Ok (match t with kPoint => p | kSegment => g | kTria => tr | kQuad => q end).
(** product_fe_space.h:152 *)
Definition NumComponents (s : product_space) : nat := length (ps_tria s).
(** product_fe_space.h:162-167 *)
Definition ComponentFESpace (s : product_space) (c : nat) : res fe_space :=
  do t <- elem_at (ps_tria s) c; do q <- elem_at (ps_quad s) c;
  do e <- elem_at (ps_edge s) c; do p <- elem_at (ps_point s) c;
  uniform_space (ps_mesh s) t q e p.

(** * ProductUniformFESpaceFactory *)

(** product_fe_space_factory.h:134-153: the members. *)
Record factory := mkFactory {
  fa_mesh : mesh;
  fa_tria : list (option srfe); fa_quad : list (option srfe);
  fa_edge : list (option srfe); fa_point : list (option srfe);
  fa_num : nat
}.
(** product_fe_space_factory.h:49-51 *)
Definition ProductUniformFESpaceFactory (m : mesh) : factory := mkFactory m [] [] [] [] 0.
(** product_fe_space_factory.h:156-217 *)
Definition ReferenceFiniteElement (t : refel) (degree : nat) : res srfe :=
  match t, degree with
  | kPoint, _ => Ok (fe_point degree)
  | _, 0%nat => Ok (constant_element t)
  | _, 1%nat => Ok (lagrange O1 t)
  | _, 2%nat => Ok (lagrange O2 t)
  | _, 3%nat => Ok (lagrange O3 t)
  | _, _ => Assert
  end.
(** The push_back calls and the return value of the following functions. *)
Definition push (fa : factory) (t q e : option srfe) : nat * factory :=
  (fa_num fa, mkFactory (fa_mesh fa) (fa_tria fa ++ [t]) (fa_quad fa ++ [q]) (fa_edge fa ++ [e])
                        (fa_point fa ++ [None]) (fa_num fa + 1)).
(** product_fe_space_factory.h:219-234 *)
Definition AddH1Component (fa : factory) (degree : nat) : res (nat * factory) :=
  do _ <- lf_assert (0 <? degree)%nat;
  do t <- ReferenceFiniteElement kTria degree;
  do q <- ReferenceFiniteElement kQuad degree;
  do e <- ReferenceFiniteElement kSegment degree;
  Ok (push fa (Some t) (Some q) (Some e)).
(** product_fe_space_factory.h:236-249 *)
Definition AddL2Component (fa : factory) (degree : nat) : res (nat * factory) :=
  do t <- ReferenceFiniteElement kTria degree;
  do q <- ReferenceFiniteElement kQuad degree;
  Ok (push fa (Some (discontinuous_element t)) (Some (discontinuous_element q)) None).
(** product_fe_space_factory.h:251-262 *)
Definition AddFluxComponent (fa : factory) (degree : nat) : res (nat * factory) :=
  do e <- ReferenceFiniteElement kSegment degree;
  Ok (push fa None None (Some (discontinuous_element e))).
(** product_fe_space_factory.h:264-279 *)
Definition AddTraceComponent (fa : factory) (degree : nat) : res (nat * factory) :=
  do t <- ReferenceFiniteElement kTria degree;
  do q <- ReferenceFiniteElement kQuad degree;
  do e <- ReferenceFiniteElement kSegment degree;
  Ok (push fa (Some (trace_element t)) (Some (trace_element q)) (Some e)).
(** product_fe_space_factory.h:281-295: num_components_ keeps its value. *)
Definition Build (fa : factory) : res (product_space * factory) :=
  do s <- ProductUniformFESpace (fa_mesh fa) (fa_tria fa) (fa_quad fa) (fa_edge fa) (fa_point fa);
  Ok (s, mkFactory (fa_mesh fa) [] [] [] [] (fa_num fa)).

(** * Essential conditions *)

(** [v[offset + k] = l[k]] for k, ..., k+n-1. *)
Fixpoint copy_from {A} (n offset k : nat) (l v : list A) : res (list A) :=
  match n with
  | 0%nat => Ok v
  | S n =>
      do x <- elem_at l k;
      do _ <- lf_assert (offset + k <? length v)%nat;
      copy_from n offset (S k) l (upd (offset + k) x v)
  end.
(** dpg_tools.h:269-310 *)
Definition InitEssentialConditionsFromFunctions (fes : product_space) (trace_component flux_component : nat)
    (dirichlet neumann : ent -> bool) (g h : meshfun) : res (list (bool * R)) :=
  do _ <- lf_assert (negb (trace_component =? flux_component)%nat);
  do trace_fes <- ComponentFESpace fes trace_component;
  do flux_fes <- ComponentFESpace fes flux_component;
  do trace <- InitEssentialConditionFromFunction trace_fes dirichlet g;
  do flux <- InitEssentialConditionFromFunction flux_fes neumann h;
  do trace_offset <- p_Offset (ps_dofs fes) trace_component;
  do flux_offset <- p_Offset (ps_dofs fes) flux_component;
  do v <- copy_from (NumDofs (sp_dofs trace_fes)) trace_offset 0 trace (repeat (false, 0) (p_NumDofs (ps_dofs fes)));
  copy_from (NumDofs (sp_dofs flux_fes)) flux_offset 0 flux v.
