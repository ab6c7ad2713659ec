(** Model of lib/lf/fe/fe_tools.h: integration of mesh functions, nodal projection,
    essential boundary conditions.
    Simplifications: real scalars, exact arithmetic; a mesh function maps an entity
    and one reference point to a value (matrices of points are treated column by
    column); shape function layouts and geometries are functions of the entity. *)
From Coq Require Import Reals List Arith Bool.
Import ListNotations.
From Verif Require Import Base Scalars MeshModel MeshView DofModel RefPatModel GeoModel FeModel QuadModel AssembleModel.
Local Open Scope R_scope.

Definition meshfun := ent -> list R -> res R.

(** fe_tools.h:36-72: LocalIntegral.  [&values[0]] and [weights_ie(0)] need at least
    one quadrature point. *)
Definition LocalIntegral (geom : ent -> geo) (qr_selector : ent -> quadrule) (mf : meshfun) (e : ent) : res R :=
  let qr := qr_selector e in
  do values <- traverse (mf e) (qr_points qr);
  do ie <- traverse (IntegrationElement (geom e)) (qr_points qr);
  do _ <- lf_assert (length (qr_weights qr) =? length ie)%nat;
  do _ <- lf_assert (length values =? NumPoints qr)%nat;
  do _ <- lf_assert (0 <? length values)%nat;
  let weights_ie := map (fun p => fst p * snd p) (combine (qr_weights qr) ie) in
  Ok (dot values weights_ie).
(** fe_tools.h:106-125: the first entity is integrated over before the loop, without
    asking the predicate; dereferencing begin() of an empty range is undefined. *)
Fixpoint integrate_loop (loc : ent -> res R) (ep : ent -> bool) (es : list ent) (result : R) : res R :=
  match es with
  | [] => Ok result
  | e :: r => if ep e then do x <- loc e; integrate_loop loc ep r (result + x) else integrate_loop loc ep r result
  end.
Definition IntegrateMeshFunction (m : mesh) (geom : ent -> geo) (mf : meshfun) (qr_selector : ent -> quadrule)
    (ep : ent -> bool) (codim : nat) : res R :=
  match entities m codim with
  | [] => Assert
  | e :: r => do x <- LocalIntegral geom qr_selector mf e; integrate_loop (LocalIntegral geom qr_selector mf) ep r x
  end.
(** quad_rule.h:75: the default constructor. *)
Definition invalid_rule : quadrule := mkQr kPoint [] [] 0.
(** fe_tools.h:150-167: rules of the same degree for segments, triangles and
    quadrilaterals; the entry for points is left default-constructed. *)
Definition IntegrateMeshFunctionDegree (make : refel -> nat -> res quadrule) (m : mesh) (geom : ent -> geo) (mf : meshfun)
    (quad_degree : nat) (ep : ent -> bool) (codim : nat) : res R :=
  do qs <- make kSegment quad_degree;
  do qt <- make kTria quad_degree;
  do qq <- make kQuad quad_degree;
  IntegrateMeshFunction m geom mf
    (fun e => match ent_type m e with kPoint => invalid_rule | kSegment => qs | kTria => qt | kQuad => qq end) ep codim.

(** fe_tools.h:218-255: the coefficients for one cell.  [&uvalvec[0]] needs at least
    one evaluation node. *)
Definition local_projection (V : fe_space) (u : meshfun) (cell : ent) : res (list R) :=
  match sp_layout V cell with
  | None => Assert
  | Some f =>
      do uvalvec <- traverse (u cell) (fe_nodes f);
      do _ <- lf_assert (0 <? length uvalvec)%nat;
      fe_n2d f uvalvec
  end.
(** glob[idx[j]] = vals[j] for j = 0, 1, ...; access out of range is undefined. *)
Fixpoint set_all {A} (idx : list nat) (vals : list A) (glob : list A) : res (list A) :=
  match idx, vals with
  | [], _ => Ok glob
  | g :: idx, v :: vals =>
      do _ <- lf_assert (g <? length glob)%nat; set_all idx vals (upd g v glob)
  | _ :: _, [] => Assert
  end.
Fixpoint projection_loop (V : fe_space) (u : meshfun) (pred : ent -> bool) (cells : list ent) (glob : list R) : res (list R) :=
  match cells with
  | [] => Ok glob
  | cell :: r =>
      if pred cell then
        do dofvec <- local_projection V u cell;
        do n <- NumLocalDofs (sp_dofs V) cell;
        do _ <- lf_assert (length dofvec =? n)%nat;
        do idx <- GlobalDofIndices (sp_dofs V) cell;
        do _ <- lf_assert (n <=? length idx)%nat;
        do glob' <- set_all (firstn n idx) dofvec glob;
        projection_loop V u pred r glob'
      else projection_loop V u pred r glob
  end.
(** fe_tools.h:196-259 *)
Definition NodalProjection (V : fe_space) (u : meshfun) (pred : ent -> bool) : res (list R) :=
  projection_loop V u pred (entities (sp_mesh V) 0) (repeat 0 (NumDofs (sp_dofs V))).

(** fe_tools.h:319-354 *)
Fixpoint essential_loop (V : fe_space) (sel : ent -> bool) (g : meshfun) (edges : list ent) (fv : list (bool * R)) : res (list (bool * R)) :=
  match edges with
  | [] => Ok fv
  | edge :: r =>
      if sel edge then
        match sp_layout V edge with
        | None => Assert
        | Some f =>
            do g_vals <- traverse (g edge) (fe_nodes f);
            do _ <- lf_assert (0 <? length g_vals)%nat;
            do dof_vals <- fe_n2d f g_vals;
            do _ <- lf_assert (length dof_vals =? fe_total f)%nat;
            do n <- NumLocalDofs (sp_dofs V) edge;
            do _ <- lf_assert (n =? length dof_vals)%nat;
            do idx <- GlobalDofIndices (sp_dofs V) edge;
            do fv' <- set_all idx (map (pair true) dof_vals) fv;
            essential_loop V sel g r fv'
        end
      else essential_loop V sel g r fv
  end.
(** fe_tools.h:301-356 *)
Definition InitEssentialConditionFromFunction (V : fe_space) (sel : ent -> bool) (g : meshfun) : res (list (bool * R)) :=
  essential_loop V sel g (entities (sp_mesh V) 1) (repeat (false, 0) (NumDofs (sp_dofs V))).
