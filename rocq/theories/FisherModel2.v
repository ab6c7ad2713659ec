(** Model of the functions of projects/fisher_kpp/strangsplitting.h that compute integrals and Galerkin
    matrices.  Simplifications: real scalars, exact arithmetic; coefficients are functions of the point. *)
From Coq Require Import Reals List Arith Bool.
Import ListNotations.
From Verif Require Import Base Scalars MeshModel MeshView DofModel RefPatModel GeoModel FeModel LagrModel QuadModel AssembleModel FlagModel ElemModel GalerkinModel.
Local Open Scope R_scope.

(** strangsplitting.h:75-115, for functions with values of type double *)
Definition localQuadFunction (m : mesh) (geom : ent -> geo) (quadrules : refel -> option quadrule) (f : vec -> R) (codim : nat)
    (pred : ent -> bool) : res R :=
  do _ <- lf_assert (codim <=? 2)%nat;
  each (entities m codim) (fun entity sum_var =>
    if pred entity then
      match quadrules (ent_type m entity) with
      | Some qr =>
          do zeta <- traverse (Global (geom entity)) (qr_points qr);
          do gram_dets <- traverse (IntegrationElement (geom entity)) (qr_points qr);
          Ok (fold_left (fun s l => s + nth l (qr_weights qr) 0 * f (nth l zeta vzero) * nth l gram_dets 0) (seq 0 (NumPoints qr)) sum_var)
      | None => Throw
      end
    else Ok sum_var) 0.

(** MeshFunctionGlobal, at one point. *)
Definition mf_global {A} (geom : ent -> geo) (f : vec -> A) (e : ent) : mesh_fun A := fun local => do x <- Global (geom e) local; Ok (f x).
(** strangsplitting.h:130-133 *)
Definition edges_predicate (bd_flags : dset bool) (e : ent) : bool :=
  match e with EEdge i => match dget bd_flags 1 i with Ok b => b | _ => false end | _ => false end.
(** assembler.h:114-186: AssembleMatrixLocally adds to the matrix it is given. *)
Definition assemble_onto (m : mesh) (codim : nat) (dofh : dofh) (active : ent -> bool) (eval : ent -> res emat) (A : coo Rring) : res (coo Rring) :=
  assemble_with_loop dofh dofh active eval (entities m codim) A.
(** strangsplitting.h:119-174.  [make] stands for make_QuadRule.  The space of the providers is always
    FeSpaceLagrangeO1.  sparseView drops zeros only. *)
Definition assembleGalerkinMatrices (make : refel -> nat -> res quadrule) (m : mesh) (geom : ent -> geo) (dofh : dofh)
    (c h : vec -> R) (L : dense Rring) : res (dense Rring * dense Rring) :=
  let N := NumDofs dofh in
  let layout := fun t => Some (lagrange O1 t) in
  do bd_flags <- flag_boundary m 1;
  let zero := fun _ : vec => 0 in
  let one := fun _ : vec => 1 in
  do elMat <- precompute_default make layout;
  do elMat_Edge <- precompute_edge make layout None;
  do A_COO <- assemble_onto m 0 dofh (fun _ => true) (rd_provider elMat geom (mf_global geom (fun x => Scal (c x))) (mf_global geom zero)) (coo_new Rring N N);
  do M_COO <- assemble_onto m 0 dofh (fun _ => true) (rd_provider elMat geom (mf_global geom (fun x => Scal (zero x))) (mf_global geom one)) (coo_new Rring N N);
  do A_COO <- assemble_onto m 1 dofh (edges_predicate bd_flags) (umass_edge_provider elMat_Edge geom (mf_global geom h)) A_COO;
  do A_sps <- makeSparse Rring A_COO;
  do M <- makeSparse Rring M_COO;
  do _ <- lf_assert ((d_rows Rring L =? d_rows Rring A_sps) && (d_cols Rring L =? d_cols Rring A_sps))%nat;
  Ok (mkDense Rring (d_rows Rring A_sps) (d_cols Rring A_sps) (fun i j => d_coef Rring A_sps i j - d_coef Rring L i j), M).
