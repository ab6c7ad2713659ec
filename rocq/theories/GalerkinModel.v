(** Model of the assembly of Galerkin matrices and load vectors from the providers of lf::fe and
    lf::uscalfe, and of lib/lf/fe/mesh_function_grad_fe.h.
    Simplifications: real scalars, exact arithmetic; mesh functions map an entity and one
    reference point to a value. *)
From Coq Require Import Reals List Arith Bool.
Import ListNotations.
From Verif Require Import Base Scalars MeshModel MeshView DofModel RefPatModel GeoModel FeModel QuadModel AssembleModel ElemModel.
Local Open Scope R_scope.

(** mesh_function_grad_fe.h:93-117: operator() at one point.  Taking a block of a matrix
    with too few columns is an assertion failure of Eigen. *)
Definition fe_grad_value (V : fe_space) (geom : ent -> geo) (coef : list R) (e : ent) (x : list R) : res vec :=
  match sp_layout V e with
  | None => Assert
  | Some f =>
      do grad_sf_eval <- fe_grad f x;
      do global_dofs <- GlobalDofIndices (sp_dofs V) e;
      do local_dofs <- traverse (fun i => do g <- entry global_dofs i; entry coef g) (seq 0 (length grad_sf_eval));
      let local_grad := fun c => FeModel.dot local_dofs (map (fun r => nth c r 0) grad_sf_eval) in
      do jac_t <- JacobianInverseGramian (geom e) x;
      let dim_local := dimension (ent_type (sp_mesh V) e) in
      do _ <- lf_assert (dim_local <=? length jac_t)%nat;
      Ok (fun k => rsum (map (fun c => nth c jac_t vzero k * local_grad c) (seq 0 dim_local)))
  end.

(** An element matrix as the matrix that the assembler reads. *)
Definition to_dense (M : emat) : dense Rring := mkDense Rring (em_n M) (em_n M) (em_at M).
(** assembler.h:124-185 for a provider that may fail, see [AssembleModel.assemble_entity]. *)
Definition assemble_with (trial test : dofh) (active : ent -> bool) (eval : ent -> res emat) (e : ent) (A : coo Rring) : res (coo Rring) :=
  if active e then
    do nr <- NumLocalDofs test e;
    do nc <- NumLocalDofs trial e;
    do rows <- GlobalDofIndices test e;
    do cols <- GlobalDofIndices trial e;
    do M <- eval e;
    do _ <- lf_assert (nr <=? em_n M)%nat;
    do _ <- lf_assert (nc <=? em_n M)%nat;
    do _ <- lf_assert ((nr <=? length rows) && (nc <=? length cols))%nat;
    Ok (add_local Rring rows cols nr nc (to_dense M) A)
  else Ok A.
Fixpoint assemble_with_loop (trial test : dofh) (active : ent -> bool) (eval : ent -> res emat) (es : list ent) (A : coo Rring) : res (coo Rring) :=
  match es with
  | [] => Ok A
  | e :: r => do A' <- assemble_with trial test active eval e A; assemble_with_loop trial test active eval r A'
  end.
(** assembler.h:114-186, 209-220 *)
Definition AssembleMatrixWith (m : mesh) (codim : nat) (trial test : dofh) (active : ent -> bool) (eval : ent -> res emat) : res (coo Rring) :=
  assemble_with_loop trial test active eval (entities m codim) (setZero Rring (coo_new Rring (NumDofs test) (NumDofs trial))).
(** assembler.h:298-327, see [AssembleModel.assemble_vec_entity]. *)
Definition assemble_vec_with (d : dofh) (active : ent -> bool) (eval : ent -> res (list R)) (e : ent) (r : list R) : res (list R) :=
  if active e then
    do n <- NumLocalDofs d e;
    do idx <- GlobalDofIndices d e;
    do v <- eval e;
    do _ <- lf_assert (n <=? length v)%nat;
    do _ <- lf_assert (n <=? length idx)%nat;
    add_vec_local Rring idx v (seq 0 n) r
  else Ok r.
Fixpoint assemble_vec_with_loop (d : dofh) (active : ent -> bool) (eval : ent -> res (list R)) (es : list ent) (r : list R) : res (list R) :=
  match es with
  | [] => Ok r
  | e :: t => do r' <- assemble_vec_with d active eval e r; assemble_vec_with_loop d active eval t r'
  end.
(** assembler.h:354-365 *)
Definition AssembleVectorWith (m : mesh) (codim : nat) (d : dofh) (active : ent -> bool) (eval : ent -> res (list R)) : res (list R) :=
  assemble_vec_with_loop d active eval (entities m codim) (repeat 0 (NumDofs d)).

(** *** The providers as functions of the entity *)
Definition on_layout {A} (V : fe_space) (F : srfe -> res A) (e : ent) : res A :=
  match sp_layout V e with Some f => F f | None => Assert end.
Section FeProviders.
Variable get : refel -> nat -> res quadrule.
Variable V : fe_space.
Variable geom : ent -> geo.
(** fe/loc_comp_ellbvp.h:116, 168-219: isActive is true for all cells. *)
Definition diffusion_provider (alpha : ent -> mesh_fun coeff) (e : ent) : res emat := on_layout V (fun f => DiffusionEval get (geom e) f (alpha e)) e.
(** fe/loc_comp_ellbvp.h:295, 349-384 *)
Definition mass_provider (gamma : ent -> mesh_fun R) (e : ent) : res emat := on_layout V (fun f => MassEval get (geom e) f (gamma e)) e.
(** fe/loc_comp_ellbvp.h:450-456, 500-532: isActive is the edge selector. *)
Definition mass_edge_provider (gamma : ent -> mesh_fun R) (e : ent) : res emat := on_layout V (fun f => MassEdgeEval get (geom e) f (gamma e)) e.
(** fe/loc_comp_ellbvp.h:600, 642-694 *)
Definition load_provider (src : ent -> mesh_fun R) (e : ent) : res (list R) := on_layout V (fun f => LoadEval get (geom e) f (src e)) e.
(** fe/loc_comp_ellbvp.h:763, 798-836 *)
Definition load_edge_provider (src : ent -> mesh_fun R) (e : ent) : res (list R) := on_layout V (fun f => LoadEdgeEval get (geom e) f (src e)) e.
End FeProviders.
(** uscalfe/loc_comp_ellbvp.h:155, 265-339 *)
Definition rd_provider (P : precomps) (geom : ent -> geo) (alpha : ent -> mesh_fun coeff) (gamma : ent -> mesh_fun R) (e : ent) : res emat :=
  ReactionDiffusionEval P (geom e) (alpha e) (gamma e).
(** uscalfe/loc_comp_ellbvp.h:607, 691-746 *)
Definition uload_provider (P : precomps) (geom : ent -> geo) (src : ent -> mesh_fun R) (e : ent) : res (list R) := ULoadEval P (geom e) (src e).
(** uscalfe/loc_comp_ellbvp.h:441-447, 491-529 *)
Definition umass_edge_provider (pfe : precomp) (geom : ent -> geo) (gamma : ent -> mesh_fun R) (e : ent) : res emat := UMassEdgeEval pfe (geom e) (gamma e).
(** uscalfe/loc_comp_ellbvp.h:847-853, 882-921 *)
Definition uload_edge_provider (pfe : precomp) (geom : ent -> geo) (src : ent -> mesh_fun R) (e : ent) : res (list R) := ULoadEdgeEval pfe (geom e) (src e).
