(** Model of projects/ipdg_stokes/post_processing/norms.h: the L2 norm and the DG norm of vector
    valued mesh functions.
    Simplifications: exact arithmetic; integrals over the cells evaluate the mesh function point by
    point (FeToolsModel.v). *)
From Coq Require Import Reals List Arith Bool.
Import ListNotations.
From Verif Require Import Base Scalars MeshModel MeshView RefPatModel GeoModel DofModel FlagModel FeModel QuadModel AssembleModel ElemModel
  GalerkinModel DpgModel FeToolsModel MfModel NormalModel StokesModel.
Local Open Scope R_scope.

(** What mesh functions with real coefficients return. *)
Definition values : Type := vals R unit.
Definition valuefun : Type := mfun R unit.
(** lf::mesh::utils::squaredNorm, mesh_function_unary.h:133-175, 277-281. *)
Definition squaredNorm (f : valuefun) : valuefun :=
  MeshFunctionUnary R unit (op_squaredNorm R unit 0 Rplus Rmult (fun x => x)) f.
(** A mesh function with real values, evaluated at one point. *)
Definition scalar_fun (f : valuefun) : meshfun := fun e p =>
  do v <- f e [p];
  match v with Scals _ _ [x] => Ok x | _ => Assert end.

Section Norms.
Variable m : mesh.
Variable geom : ent -> geo.

(** norms.h:39-44; fe_tools.h:76-78: all cells are selected. *)
Definition L2norm (f : valuefun) (qr_selector : ent -> quadrule) : res R :=
  do x <- IntegrateMeshFunction m geom (scalar_fun (squaredNorm f)) qr_selector (fun _ => true) 0;
  Ok (sqrt x).

(** norms.h:86-98: the points on local edge [i].  [Points()] is a row of NumPoints() entries, Zero(n)
    and Ones(n) are columns: filling in the matrix, or the difference, is an assertion failure of
    Eigen unless there is exactly one point. *)
Definition edge_points (i : nat) (q : quadrule) : res (list (list R)) :=
  match qr_points q with
  | [[t]] => Ok [match i with 0%nat => [t; 0] | 1%nat => [1 - t; t] | _ => [0; 1 - t] end]
  | _ => Assert
  end.
(** The product  value * normal.transpose()  exists for column vectors. *)
Definition column_vectors (v : values) : res (list (list R)) :=
  match v with
  | Mats _ _ false _ l => traverse (fun x => do _ <- lf_assert (m_cols R x =? 1)%nat; Ok (m_data R x)) l
  | _ => Throw
  end.
(** The coefficients of  v n^T,  column by column. *)
Definition outer (v : list R) (n : vec) : list R := map (fun x => x * n 0%nat) v ++ map (fun x => x * n 1%nat) v.
(** norms.h:103-112, 114-125: if there are no values for the edge yet they are stored, otherwise added. *)
Definition add_jump (y x : list R) : res (list R) :=
  do _ <- lf_assert (length x =? length y)%nat; Ok (map (fun p => fst p + snd p) (combine x y)).
Definition add_jumps (old new : list (list R)) : res (list (list R)) :=
  match old with
  | [] => Ok new
  | _ => do s <- loop2 add_jump new old; Ok (s ++ skipn (length new) old)
  end.
(** norms.h:99-127: local edge [i].  For negative orientation the order of the values is reversed. *)
Definition edge_jump (f : valuefun) (c : nat) (normals : list vec) (quadpoints : list (list (list R))) (i : nat)
    (eval : dset (list (list R))) : res (dset (list (list R))) :=
  do edge <- elem_at (cv_edges (cell_at m c)) i;
  do points <- elem_at quadpoints i;
  do v <- f (DofModel.ECell c) points;
  do segment_eval <- column_vectors v;
  do positive <- elem_at (cv_ori (cell_at m c)) i;
  let new := map (fun x => outer x (nth i normals vzero)) (if positive then segment_eval else rev segment_eval) in
  do old <- dget eval 1 edge;
  do s <- add_jumps old new;
  dset_at eval 1 edge (fun _ => s).
(** norms.h:81-128: one cell *)
Definition cell_jumps (f : valuefun) (qr_selector : ent -> quadrule) (c : nat) (eval : dset (list (list R))) : res (dset (list (list R))) :=
  do normals <- computeOutwardNormals (geom (DofModel.ECell c));
  do quadpoints <- traverse (fun i => do edge <- elem_at (cv_edges (cell_at m c)) i; edge_points i (qr_selector (EEdge edge))) (seq 0 3);
  each (seq 0 3) (edge_jump f c normals quadpoints) eval.
(** norms.h:129-142: one edge.  The coefficient-wise product requires vectors of equal length. *)
Definition edge_term (boundary : dset bool) (qr_selector : ent -> quadrule) (eval : dset (list (list R))) (edge : nat) (norm2 : R) : res R :=
  do b <- dget boundary 1 edge;
  if b : bool then Ok norm2 else
  let qr := qr_selector (EEdge edge) in
  do ie <- traverse (IntegrationElement (geom (EEdge edge))) (qr_points qr);
  do _ <- lf_assert (length (qr_weights qr) =? length ie)%nat;
  do vol <- Volume (geom (EEdge edge));
  let weights := map (fun p => fst p * snd p / vol) (combine (qr_weights qr) ie) in
  do p <- dget eval 1 edge;
  each (seq 0 (length p)) (fun i norm2 =>
    do w <- elem_at weights i;
    do x <- elem_at p i;
    Ok (norm2 + w * fold_right Rplus 0 (map (fun y => y * y) x))) norm2.
(** norms.h:67-144 *)
Definition DGnorm (f f_grad : valuefun) (qr_selector : ent -> quadrule) : res R :=
  do x <- IntegrateMeshFunction m geom (scalar_fun (squaredNorm f_grad)) qr_selector (fun _ => true) 0;
  do boundary <- flag_boundary m 1;
  do eval <- each (seq 0 (mv_count m 0)) (cell_jumps f qr_selector) (new_dset m 1 []);
  do norm2 <- each (seq 0 (mv_count m 1)) (edge_term boundary qr_selector eval) (0 + x);
  Ok (sqrt norm2).
End Norms.
