(** Model of projects/ipdg_stokes: outward normals and tangentials of triangles (mesh/utils.cc),
    the element matrix and vector (assemble/piecewise_const_element_{matrix,vector}_provider.cc), the
    offset function (assemble/offset_function.cc), the linear systems
    (assemble/build_system_matrix.cc) and the velocity (post_processing/).
    Simplifications: exact arithmetic; std::function arguments are total functions; the geometry
    pointers are not null. *)
From Coq Require Import Reals List Arith Bool.
Import ListNotations.
From Verif Require Import Base Scalars MeshModel MeshView RefPatModel GeoModel DofModel FlagModel FeModel QuadModel LagrModel AssembleModel ElemModel
  GalerkinModel DpgModel NormalModel.
Local Open Scope R_scope.

(** * mesh/utils.cc *)

(** The vector with these two components. *)
Definition vec2 (x y : R) : vec := fun k => match k with 0%nat => x | _ => y end.
(** utils.cc:17-25: one column per vertex; the last edge leads back to the first vertex. *)
Definition raw_normal (vertices : list vec) (vert : nat) : vec :=
  let v i k := nth i vertices vzero k in
  let n := length vertices in
  if (vert <? n - 1)%nat
  then vec2 (v (vert + 1)%nat 1%nat - v (vert + 0)%nat 1%nat) (v (vert + 0)%nat 0%nat - v (vert + 1)%nat 0%nat)
  else vec2 (v 0%nat 1%nat - v (n - 1)%nat 1%nat) (v (n - 1)%nat 0%nat - v 0%nat 0%nat).
(** utils.cc:26-29 *)
Definition test_vector (vertices : list vec) (i : nat) : vec :=
  let v j := nth j vertices vzero in
  match i with
  | 0%nat => vsub (v 2%nat) (v 0%nat)
  | 1%nat => vsub (v 0%nat) (v 1%nat)
  | _ => vsub (v 1%nat) (v 2%nat)
  end.
(** utils.cc:30-35.  VectorwiseOp::normalized() divides by the norm without a test for zero; the
    result for flat triangles, NaN in the code, is not described. *)
Definition outward (vertices : list vec) (i : nat) : vec :=
  let normal := raw_normal vertices i in
  let flip := GeoModel.dot 2 normal (test_vector vertices i) in
  let w := fun k => normal k * flip in
  fun k => - (w k / sqrt (sqnorm 2 w)).
(** utils.cc:7-37.  Constructing the fixed-size matrix [normals] requires the dimensions 2 and 3. *)
Definition computeOutwardNormals (g : geo) : res (list vec) :=
  do vertices <- Corners g;
  do _ <- lf_assert ((go_dim g =? 2) && (length vertices =? 3))%nat;
  Ok (map (outward vertices) (seq 0 3)).
(** utils.cc:42-43, and piecewise_const_element_matrix_provider.cc:44-45,
    piecewise_const_element_vector_provider.cc:61-62: a quarter turn. *)
Definition tangential (n : vec) : vec := vec2 (- n 1%nat) (n 0%nat).
(** utils.cc:39-45 *)
Definition computeTangentials (g : geo) : res (list vec) :=
  do normals <- computeOutwardNormals g;
  Ok (map tangential normals).

(** * Basis functions *)

(** piecewise_const_element_matrix_provider.cc:27-36, piecewise_const_element_vector_provider.cc:28-36,
    offset_function.cc:30-39, solution_to_mesh_data_set.cc:24-33: the same lines four times; one
    vector per vertex.  basis_funct has two rows. *)
Definition curl (grad : vec) : vec := vec2 (grad 1%nat) (- grad 0%nat).
Definition basis_functions (g : geo) : res (list vec) :=
  do ref_grads <- fe_grad o1_tria [0; 0];
  do J_inv_trans <- JacobianInverseGramian g [0; 0];
  do _ <- lf_assert ((go_dim g =? 2) && (length J_inv_trans =? 2))%nat;
  Ok (map (fun i => curl (trf_grad J_inv_trans ref_grads i)) (seq 0 3)).

(** Reading a flag of AllCodimMeshDataSet<bool>. *)
Definition adget (d : adset) (cd i : nat) : res bool :=
  do l <- elem_at d cd; elem_at l i.

Section Stokes.
Variable m : mesh.
Variable geom : ent -> geo.

(** * assemble/piecewise_const_element_matrix_provider.cc *)

(** 51-68: one diagonal entry *)
Definition penalty_entry (sigma : R) (boundary : adset) (modified : bool) (edge : nat) : res R :=
  let x := - 1 / sigma in
  do y <- (if modified then do v <- Volume (geom (EEdge edge)); Ok (x / v) else Ok x);
  do b <- adget boundary 1 edge;
  Ok (if b then y else y / 2).
(** 38-50: the lower left block *)
Definition jump_entry (normals basis : list vec) (edge_idx basis_func_idx : nat) : R :=
  GeoModel.dot 2 (nth basis_func_idx basis vzero) (tangential (nth edge_idx normals vzero)).
(** 17-71 *)
Definition StokesMatrixEval (sigma : R) (boundary : adset) (modified : bool) (entity : ent) : res emat :=
  match entity with
  | DofModel.ECell c =>
      do normals <- computeOutwardNormals (geom entity);
      do basis_funct <- basis_functions (geom entity);
      do edges <- sub_entities m 0 c 1;
      do diag <- traverse (fun i => do edge <- elem_at edges i; penalty_entry sigma boundary modified edge) (seq 0 3);
      Ok (mkEmat 6 (fun i j =>
        if (i <? 3)%nat then
          if (j <? 3)%nat then 0 else jump_entry normals basis_funct (j - 3) i
        else
          if (j <? 3)%nat then jump_entry normals basis_funct (i - 3) j
          else if (i =? j)%nat then nth (i - 3) diag 0 else 0))
  | _ => Assert
  end.

(** * assemble/piecewise_const_element_vector_provider.cc *)

(** 43-46: the loop over the quadrature points *)
Definition load_entries (f : vec -> vec) (basis points : list vec) (weights : list R) : list R :=
  fold_left (fun v n =>
    let f_eval := f (nth n points vzero) in
    map (fun i => nth i v 0 + GeoModel.dot 2 (fun k => nth i basis vzero k * nth n weights 0) f_eval) (seq 0 3))
  (seq 0 (length points)) [0; 0; 0].
(** 54-65: one entry of the lower half *)
Definition dirichlet_entry (boundary : adset) (dirichlet_data : dset vec) (normals : list vec) (edges : list nat) (edge_idx : nat) : res R :=
  do edge <- elem_at edges edge_idx;
  do b <- adget boundary 1 edge;
  if b then
    do g <- dget dirichlet_data 1 edge;
    Ok (GeoModel.dot 2 g (tangential (nth edge_idx normals vzero)))
  else Ok 0.
(** 23-67.  The coefficient-wise product requires vectors of equal length. *)
Definition StokesVectorEval (f : vec -> vec) (quadrule : quadrule) (boundary : adset) (dirichlet_data : dset vec) (entity : ent) : res (list R) :=
  match entity with
  | DofModel.ECell c =>
      let g := geom entity in
      do basis_funct <- basis_functions g;
      do points <- traverse (Global g) (qr_points quadrule);
      do ie <- traverse (IntegrationElement g) (qr_points quadrule);
      do _ <- lf_assert (length ie =? length (qr_weights quadrule))%nat;
      let weights := map (fun p => fst p * snd p) (combine ie (qr_weights quadrule)) in
      do normals <- computeOutwardNormals g;
      do edges <- sub_entities m 0 c 1;
      do tail <- traverse (dirichlet_entry boundary dirichlet_data normals edges) (seq 0 3);
      Ok (load_entries f basis_funct points weights ++ tail)
  | _ => Assert
  end.

(** * assemble/build_system_matrix.cc *)

(** 29-32, 73-76: the data are evaluated on all edges. *)
Definition dirichlet_set (dirichlet_data : ent -> vec) : res (dset vec) :=
  each (seq 0 (mv_count m 1)) (fun e d => dset_at d 1 e (fun _ => dirichlet_data (EEdge e)))
    (new_dset m 1 vzero).
(** 48-51, 95-98: the selector, evaluated for the numbers of the unknowns. *)
Definition flagged (dofh : dofh) (boundary : adset) (idx : nat) : res (bool * R) :=
  do e <- Entity dofh idx;
  match e with
  | ENode v => do b <- adget boundary 2 v; Ok (b, 0)
  | _ => Ok (false, 0)
  end.
Definition fix_boundary (dofh : dofh) (boundary : adset) (A : coo Rring) (rhs : list R) : res (coo Rring * list R) :=
  do sel <- traverse (flagged dofh boundary) (seq 0 (NumDofs dofh));
  FixFlaggedSolutionComponents Rring (fun i => nth i sel (false, 0)) A rhs.
(** 19-56 *)
Definition buildSystemMatrixNoFlow (dofh : dofh) (f : vec -> vec) (dirichlet_data : ent -> vec)
    (sigma : R) (quadrule : quadrule) (modified_penalty : bool) : res (coo Rring * list R) :=
  do boundary <- flag_boundary_all m;
  do dirichlet <- dirichlet_set dirichlet_data;
  do A <- AssembleMatrixWith m 0 dofh dofh (fun _ => true) (StokesMatrixEval sigma boundary modified_penalty);
  do rhs <- AssembleVectorWith m 0 dofh (fun _ => true) (StokesVectorEval f quadrule boundary dirichlet);
  fix_boundary dofh boundary A rhs.

(** * assemble/offset_function.cc *)

(** 23-77: rows for the boundary edges, columns for the boundary nodes of the triangle, in their
    local order. *)
Definition on_boundary (boundary : adset) (cd : nat) (subs : list nat) : res (list nat) :=
  do flags <- traverse (adget boundary cd) subs;
  Ok (filter (fun i => nth i flags false) (seq 0 (length subs))).
Definition NormalJumpEval (boundary : adset) (entity : ent) : res (dense Rring) :=
  match entity with
  | DofModel.ECell c =>
      do normals <- computeOutwardNormals (geom entity);
      do basis_funct <- basis_functions (geom entity);
      do nodes <- sub_entities m 0 c 2;
      do edges <- sub_entities m 0 c 1;
      do bn <- on_boundary boundary 2 nodes;
      do be <- on_boundary boundary 1 edges;
      Ok (mkDense Rring (Nat.max 1 (length be)) (Nat.max 1 (length bn)) (fun i j =>
        match nth_error be i, nth_error bn j with
        | Some edge_idx, Some node_idx => GeoModel.dot 2 (nth edge_idx normals vzero) (nth node_idx basis_funct vzero)
        | _, _ => 0
        end))
  | _ => Assert
  end.
(** lib/lf/assemble/assembler.h:124-185 for a provider of rectangular matrices that may fail, see
    [GalerkinModel.assemble_with]. *)
Definition assemble_rect (trial test : dofh) (eval : ent -> res (dense Rring)) (e : ent) (A : coo Rring) : res (coo Rring) :=
  do nr <- NumLocalDofs test e;
  do nc <- NumLocalDofs trial e;
  do rows <- GlobalDofIndices test e;
  do cols <- GlobalDofIndices trial e;
  do M <- eval e;
  do _ <- lf_assert (nr <=? d_rows Rring M)%nat;
  do _ <- lf_assert (nc <=? d_cols Rring M)%nat;
  do _ <- lf_assert ((nr <=? length rows) && (nc <=? length cols))%nat;
  Ok (add_local Rring rows cols nr nc M A).
(** 86-101: the two handlers *)
Definition boundary_dofs (boundary : adset) (cd : nat) : dofh :=
  dy_handler (dynamic m (fun e =>
    match e, cd with
    | ENode v, 2%nat => match adget boundary 2 v with Ok true => 1 | _ => 0 end
    | EEdge s, 1%nat => match adget boundary 1 s with Ok true => 1 | _ => 0 end
    | _, _ => 0
    end)%nat).
(** 102-117: the matrix *)
Definition jump_matrix (boundary : adset) : res (coo Rring) :=
  let nodes := boundary_dofs boundary 2 in
  let edges := boundary_dofs boundary 1 in
  do J <- each (entities m 0) (assemble_rect nodes edges (NormalJumpEval boundary))
            (coo_new Rring (NumDofs edges + 1) (NumDofs nodes + 1));
  let J1 := fold_left (fun J i => AddToEntry Rring (NumDofs edges) i 1 J) (seq 0 (NumDofs nodes)) J in
  Ok (fold_left (fun J i => AddToEntry Rring i (NumDofs nodes) 1 J) (seq 0 (NumDofs edges)) J1).
(** 119-132: the right hand side.  An assignment outside the vector is undefined. *)
Definition jump_rhs (boundary : adset) (dirichlet_data : ent -> vec) : res (list R) :=
  let edofs := boundary_dofs boundary 1 in
  each (seq 0 (mv_count m 0)) (fun c rhs =>
    do normals <- computeOutwardNormals (geom (DofModel.ECell c));
    do edges <- sub_entities m 0 c 1;
    each (seq 0 3) (fun edge_idx rhs =>
      do edge <- elem_at edges edge_idx;
      do b <- adget boundary 1 edge;
      if b then
        do idx <- GlobalDofIndices edofs (EEdge edge);
        do i <- elem_at idx 0;
        do _ <- lf_assert (i <? length rhs)%nat;
        Ok (upd i (GeoModel.dot 2 (nth edge_idx normals vzero) (dirichlet_data (EEdge edge))) rhs)
      else Ok rhs) rhs)
  (repeat 0 (NumDofs edofs + 1)).
(** Block of rows times vector: [A.block(r, 0, n, length x) * x]. *)
Definition block_times (A : dense Rring) (r n : nat) (x : list R) : list R :=
  map (fun i => rsum (map (fun j => d_coef Rring A (r + i) j * nth j x 0) (seq 0 (length x)))) (seq 0 n).
(** 79-149.  [solver] stands for SparseLU.  offset_function.tail is the last part of the vector,
    whatever its unknowns belong to. *)
Definition createOffsetFunction (solver : dense Rring -> list R -> res (list R)) (boundary : adset) (dofh : dofh)
    (dirichlet_data : ent -> vec) (A : dense Rring) : res (list R) :=
  let nodes := boundary_dofs boundary 2 in
  do J <- jump_matrix boundary;
  do Js <- makeSparse Rring J;
  do rhs <- jump_rhs boundary dirichlet_data;
  do sol <- solver Js rhs;
  do _ <- lf_assert (NumDofs nodes <=? length sol)%nat;
  let offset_function_local := firstn (NumDofs nodes) sol in
  do offset <- each (seq 0 (NumDofs nodes)) (fun node_idx x =>
      do e <- Entity nodes node_idx;
      do idx <- GlobalDofIndices dofh e;
      do i <- elem_at idx 0;
      do _ <- lf_assert (i <? length x)%nat;
      Ok (upd i (nth node_idx offset_function_local 0) x)) (repeat 0 (NumDofs dofh));
  let ne := mv_count m 1 in
  let nv := mv_count m 2 in
  do _ <- lf_assert ((ne <=? length offset) && (nv + ne <=? d_rows Rring A) && (d_cols Rring A =? length offset))%nat;
  Ok (firstn (length offset - ne) offset ++ block_times A nv ne offset).

(** build_system_matrix.cc:62-103 *)
Definition buildSystemMatrixInOutFlow (solver : dense Rring -> list R -> res (list R)) (dofh : dofh) (f : vec -> vec)
    (dirichlet_data : ent -> vec) (sigma : R) (quadrule : quadrule) (modified_penalty : bool)
  : res (coo Rring * list R * list R) :=
  do boundary <- flag_boundary_all m;
  do dirichlet <- dirichlet_set dirichlet_data;
  do A <- AssembleMatrixWith m 0 dofh dofh (fun _ => true) (StokesMatrixEval sigma boundary modified_penalty);
  do rhs <- AssembleVectorWith m 0 dofh (fun _ => true) (StokesVectorEval f quadrule boundary dirichlet);
  do As <- makeSparse Rring A;
  do offset_function <- createOffsetFunction solver boundary dofh dirichlet_data As;
  let nv := mv_count m 2 in
  do _ <- lf_assert ((nv <=? d_cols Rring As) && (nv <=? length offset_function))%nat;
  let shift := block_times As 0 (NumDofs dofh) (firstn nv offset_function) in
  let rhs' := map (fun p => fst p - snd p) (combine rhs shift) in
  do r <- fix_boundary dofh boundary A rhs';
  Ok (fst r, snd r, offset_function).

(** * post_processing *)

(** solution_to_mesh_data_set.cc:7-16 *)
Definition extractBasisFunctionCoefficients (dofh : dofh) (solution : list R) : res (dset R) :=
  each (seq 0 (mv_count m 2)) (fun v d =>
    do idx <- GlobalDofIndices dofh (ENode v);
    do i <- elem_at idx 0;
    do x <- elem_at solution i;
    dset_at d 2 v (fun _ => x)) (new_dset m 2 0).
(** solution_to_mesh_data_set.cc:18-42 *)
Definition extractVelocity (dofh : dofh) (solution : list R) : res (dset vec) :=
  each (seq 0 (mv_count m 0)) (fun c d =>
    do basis_funct <- basis_functions (geom (DofModel.ECell c));
    do idx <- GlobalDofIndices dofh (DofModel.ECell c);
    do xs <- traverse (fun k => do i <- elem_at idx k; elem_at solution i) (seq 0 3);
    let b k := nth k basis_funct vzero in
    dset_at d 0 c (fun _ k => nth 0 xs 0 * b 0%nat k + nth 1 xs 0 * b 1%nat k + nth 2 xs 0 * b 2%nat k))
  (new_dset m 0 vzero).
(** mesh_function_velocity.h:42-53, at one point *)
Definition MeshFunctionVelocity (V : fe_space) (dof_vector : list R) (e : ent) (x : list R) : res vec :=
  do g <- fe_grad_value V geom dof_vector e x;
  Ok (vec2 (0 * g 0%nat + 1 * g 1%nat) (- 1 * g 0%nat + 0 * g 1%nat)).
End Stokes.
