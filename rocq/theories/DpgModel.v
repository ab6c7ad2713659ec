(** Model of projects/dpg: degrees of freedom of product spaces (product_dofhandler.h/.cc),
    element matrices and vectors of product spaces (product_element_matrix_provider.h,
    product_element_vector_provider.h), DPG element matrices and vectors
    (dpg_element_matrix_provider.h, dpg_element_vector_provider.h) and the DPG error
    estimators (dpg_tools.h).
    Simplifications: indices are unbounded, exact arithmetic; isActive of product providers is
    the default implementation, which is always true; null pointers are not modelled. *)
From Coq Require Import List Arith Bool Reals.
Import ListNotations.
From Verif Require Import Base Scalars MeshModel MeshView DofModel FeModel AssembleModel.

(** * ProductUniformFEDofHandler *)

(** product_dofhandler.h:226-243: component_dof_handlers_, offsets_; dofs_ and internal_dofs_
    by co-dimension and index of the entity. *)
Record pdofh := mkPdofh {
  p_mesh : mesh;
  p_comps : list udofh;
  p_offs : list nat;
  p_dofs : nat -> list (list nat);
  p_int : nat -> list (list nat)
}.
Definition elem_at {A} (l : list A) (i : nat) : res A :=
  match nth_error l i with Some x => Ok x | None => Assert end.

(** product_dofhandler.cc:18-30: component handlers and offsets; the last offset is the total
    number of dofs. *)
Fixpoint p_make (m : mesh) (dofmaps : list dof_map) (offset : nat) : list udofh * list nat :=
  match dofmaps with
  | [] => ([], [offset])
  | dm :: r =>
      let u := uniform m dm true in
      let (us, os) := p_make m r (offset + NumDofs (u_handler u)) in
      (u :: us, offset :: os)
  end.
(** product_dofhandler.cc:48-61: one entity; all components push their indices. *)
Fixpoint p_entity (e : ent) (us : list udofh) (os : list nat) (st : list nat * list nat) : res (list nat * list nat) :=
  match us, os with
  | [], _ => Ok st
  | u :: us, o :: os =>
      do g <- GlobalDofIndices (u_handler u) e;
      do i <- InteriorGlobalDofIndices (u_handler u) e;
      p_entity e us os (fold_left (fun a x => a ++ [x + o]) g (fst st), fold_left (fun a x => a ++ [x + o]) i (snd st))
  | _ :: _, [] => Assert
  end.
(** product_dofhandler.cc:38-63: the entities of one co-dimension. *)
Definition p_codim (m : mesh) (us : list udofh) (os : list nat) (codim : nat) : res (list (list nat * list nat)) :=
  traverse (fun e => p_entity e us os ([], [])) (entities m codim).
(** product_dofhandler.cc:8-33: the constructor. *)
Definition product (m : mesh) (dofmaps : list dof_map) : res pdofh :=
  do _ <- lf_assert (negb (length dofmaps =? 0));
  let (us, os) := p_make m dofmaps 0 in
  do a0 <- p_codim m us os 0;
  do a1 <- p_codim m us os 1;
  do a2 <- p_codim m us os 2;
  let arr := fun codim => match codim with 0 => a0 | 1 => a1 | _ => a2 end in
  Ok (mkPdofh m us os (fun c => map fst (arr c)) (fun c => map snd (arr c))).

Section Queries.
Variable p : pdofh.
Definition p_codim_of (e : ent) : nat := codim_of (ent_type (p_mesh p) e).
(** product_dofhandler.cc:67-69 *)
Definition p_NumDofs : nat := nth (length (p_comps p)) (p_offs p) 0.
(** product_dofhandler.cc:71-73 *)
Definition p_NumDofsC (c : nat) : res nat := do u <- elem_at (p_comps p) c; Ok (NumDofs (u_handler u)).
(** product_dofhandler.cc:102-121 *)
Definition p_Global (e : ent) : res (list nat) := elem_at (p_dofs p (p_codim_of e)) (ent_index e).
Definition p_Interior (e : ent) : res (list nat) := elem_at (p_int p (p_codim_of e)) (ent_index e).
(** product_dofhandler.cc:75-81, 88-94 *)
Definition p_NumLocal (e : ent) : res nat := do l <- p_Global e; Ok (length l).
Definition p_NumInterior (e : ent) : res nat := do l <- p_Interior e; Ok (length l).
(** product_dofhandler.cc:83-86, 96-99 *)
Definition p_NumLocalC (e : ent) (c : nat) : res nat := do u <- elem_at (p_comps p) c; NumLocalDofs (u_handler u) e.
Definition p_NumInteriorC (e : ent) (c : nat) : res nat := do u <- elem_at (p_comps p) c; NumInteriorDofs (u_handler u) e.
(** product_dofhandler.cc:134-141 *)
Fixpoint p_start_loop (e : ent) (comp n : nat) (local_offset : nat) : res nat :=
  match n with
  | 0 => Ok local_offset
  | S n => do k <- p_NumLocalC e comp; p_start_loop e (S comp) n (local_offset + k)
  end.
Definition p_LocalStartIndex (e : ent) (c : nat) : res nat := p_start_loop e 0 c 0.
(** product_dofhandler.cc:143-154 *)
Fixpoint p_comp_loop (dof comp n : nat) : res nat :=
  match n with
  | 0 => Assert
  | S n => do o <- elem_at (p_offs p) (comp + 1); if dof <? o then Ok comp else p_comp_loop dof (S comp) n
  end.
Definition p_Component (dof : nat) : res nat :=
  do _ <- lf_assert (dof <? p_NumDofs);
  p_comp_loop dof 0 (length (p_comps p)).
(** product_dofhandler.h:208-211 *)
Definition p_Offset (c : nat) : res nat := elem_at (p_offs p) c.
(** product_dofhandler.cc:127-132 *)
Definition p_Entity (dof : nat) : res ent :=
  do c <- p_Component dof;
  do o <- p_Offset c;
  do u <- elem_at (p_comps p) c;
  Entity (u_handler u) (dof - o).
(** The inherited interface. *)
Definition p_handler : dofh := {|
  NumDofs := p_NumDofs;
  NumLocalDofs := p_NumLocal;
  NumInteriorDofs := p_NumInterior;
  GlobalDofIndices := p_Global;
  InteriorGlobalDofIndices := p_Interior;
  Entity := p_Entity
|}.
(** product_dofhandler.h:159-162 *)
Definition p_ComponentDofHandler (c : nat) : res dofh := do u <- elem_at (p_comps p) c; Ok (u_handler u).
End Queries.

(** * Element matrices and vectors of product spaces *)
Section Product.
Variable K : cring.
Open Scope K_scope.

(** sub_element_matrix_provider.h, sub_element_vector_provider.h: isActive, TrialComponent,
    TestComponent, Eval. *)
Record sub_mat := mkSubMat { sm_active : ent -> bool; sm_trial : nat; sm_test : nat; sm_eval : ent -> res (dense K) }.
Record sub_vec := mkSubVec { sv_active : ent -> bool; sv_test : nat; sv_eval : ent -> res (list K) }.

(** [mat.block(r, c, sub.rows(), sub.cols()) += sub]: Eigen asserts that the block lies in the
    matrix. *)
Definition add_block (M : dense K) (r c : nat) (N : dense K) : res (dense K) :=
  do _ <- lf_assert ((r + d_rows K N <=? d_rows K M) && (c + d_cols K N <=? d_cols K M))%nat;
  Ok (mkDense K (d_rows K M) (d_cols K M) (fun a b =>
    if ((r <=? a) && (a <? r + d_rows K N) && (c <=? b) && (b <? c + d_cols K N))%nat
    then d_coef K M a b + d_coef K N (a - r)%nat (b - c)%nat else d_coef K M a b)).
(** product_element_matrix_provider.h:146-159 *)
Fixpoint product_mat_loop (trial test : pdofh) (subs : list sub_mat) (cell : ent) (M : dense K) : res (dense K) :=
  match subs with
  | [] => Ok M
  | s :: subs =>
      if sm_active s cell then
        do N <- sm_eval s cell;
        do r <- p_LocalStartIndex test cell (sm_test s);
        do c <- p_LocalStartIndex trial cell (sm_trial s);
        do M <- add_block M r c N;
        product_mat_loop trial test subs cell M
      else product_mat_loop trial test subs cell M
  end.
(** product_element_matrix_provider.h:131-161: Eval. *)
Definition ProductMatEval (trial test : pdofh) (subs : list sub_mat) (cell : ent) : res (dense K) :=
  do nr <- p_NumLocal test cell;
  do nc <- p_NumLocal trial cell;
  product_mat_loop trial test subs cell (mkDense K nr nc (fun _ _ => 0)).

(** [vec.segment(r, sub.size()) += sub]. *)
Definition add_segment (v : list K) (r : nat) (w : list K) : res (list K) :=
  do _ <- lf_assert (r + length w <=? length v)%nat;
  Ok (map (fun a => if ((r <=? a) && (a <? r + length w))%nat then nth a v 0 + nth (a - r) w 0 else nth a v 0) (seq 0 (length v))).
(** product_element_vector_provider.h:136-148 *)
Fixpoint product_vec_loop (test : pdofh) (subs : list sub_vec) (cell : ent) (v : list K) : res (list K) :=
  match subs with
  | [] => Ok v
  | s :: subs =>
      if sv_active s cell then
        do w <- sv_eval s cell;
        do r <- p_LocalStartIndex test cell (sv_test s);
        do v <- add_segment v r w;
        product_vec_loop test subs cell v
      else product_vec_loop test subs cell v
  end.
(** product_element_vector_provider.h:123-150: Eval. *)
Definition ProductVecEval (test : pdofh) (subs : list sub_vec) (cell : ent) : res (list K) :=
  do n <- p_NumLocal test cell;
  product_vec_loop test subs cell (repeat 0 n).

(** lib/lf/assemble/assembler.h:124-186, 209-220 for a provider whose Eval may fail, see
    [AssembleModel.assemble_entity]. *)
Definition assemble_cell (trial test : dofh) (active : ent -> bool) (eval : ent -> res (dense K)) (e : ent) (A : coo K) : res (coo K) :=
  if active e then
    do nr <- NumLocalDofs test e;
    do nc <- NumLocalDofs trial e;
    do rows <- GlobalDofIndices test e;
    do cols <- GlobalDofIndices trial e;
    do M <- eval e;
    do _ <- lf_assert (nr <=? d_rows K M);
    do _ <- lf_assert (nc <=? d_cols K M);
    do _ <- lf_assert ((nr <=? length rows) && (nc <=? length cols));
    Ok (add_local K rows cols nr nc M A)
  else Ok A.
Fixpoint assemble_cells (trial test : dofh) (active : ent -> bool) (eval : ent -> res (dense K)) (es : list ent) (A : coo K) : res (coo K) :=
  match es with
  | [] => Ok A
  | e :: r => do A' <- assemble_cell trial test active eval e A; assemble_cells trial test active eval r A'
  end.
Definition AssembleMat (m : mesh) (trial test : dofh) (active : ent -> bool) (eval : ent -> res (dense K)) : res (coo K) :=
  assemble_cells trial test active eval (entities m 0) (setZero K (coo_new K (NumDofs test) (NumDofs trial))).
(** assembler.h:298-327, 354-365 *)
Definition assemble_vec_cell (d : dofh) (active : ent -> bool) (eval : ent -> res (list K)) (e : ent) (r : list K) : res (list K) :=
  if active e then
    do n <- NumLocalDofs d e;
    do idx <- GlobalDofIndices d e;
    do v <- eval e;
    do _ <- lf_assert (n <=? length v);
    do _ <- lf_assert (n <=? length idx);
    add_vec_local K idx v (seq 0 n) r
  else Ok r.
Fixpoint assemble_vec_cells (d : dofh) (active : ent -> bool) (eval : ent -> res (list K)) (es : list ent) (r : list K) : res (list K) :=
  match es with
  | [] => Ok r
  | e :: t => do r' <- assemble_vec_cell d active eval e r; assemble_vec_cells d active eval t r'
  end.
Definition AssembleVec (m : mesh) (d : dofh) (active : ent -> bool) (eval : ent -> res (list K)) : res (list K) :=
  assemble_vec_cells d active eval (entities m 0) (repeat 0 (NumDofs d)).
End Product.
Arguments sm_active {K}. Arguments sm_trial {K}. Arguments sm_test {K}. Arguments sm_eval {K}.
Arguments sv_active {K}. Arguments sv_test {K}. Arguments sv_eval {K}.

(** * DPG element matrices *)
Local Open Scope R_scope.

(** Eigen's LDLT reads the lower triangle only. *)
Definition lower (G : nat -> nat -> R) (i j : nat) : R := G (Nat.max i j) (Nat.min i j).
(** [G.ldlt().solve(b)]: elimination of the first unknown, the same for the Schur complement,
    back substitution.  Simplification: Eigen permutes the unknowns symmetrically to choose the
    pivots; in exact arithmetic this does not change the solution. *)
Fixpoint ldlt (n : nat) (G : nat -> nat -> R) (b : nat -> R) : nat -> R :=
  match n with
  | O => fun _ => 0
  | S n =>
      let d := G 0%nat 0%nat in
      let l := fun i => G (S i) 0%nat / d in
      let y := ldlt n (fun i j => G (S i) (S j) - l i * d * l j) (fun i => b (S i) - l i * b 0%nat) in
      fun i => match i with
               | O => b 0%nat / d - @sumn Rring n (fun j => l j * y j)
               | S i => y i
               end
  end.
Definition ldlt_solve (n : nat) (G : nat -> nat -> R) (b : nat -> R) : nat -> R := ldlt n (lower G) b.

Section Dpg.
Variables stiffness gramian : ent -> res (dense Rring).
Variable load : ent -> res (list R).

(** dpg_element_matrix_provider.h:114-144: Eval, [B^T * G.ldlt().solve(B)]. *)
Definition DpgMatEval (cell : ent) : res (dense Rring) :=
  do B <- stiffness cell;
  do G <- gramian cell;
  do _ <- lf_assert (d_rows Rring G =? d_cols Rring G)%nat;
  do _ <- lf_assert (d_rows Rring B =? d_cols Rring G)%nat;
  let n := d_rows Rring G in
  let X := fun i j => ldlt_solve n (d_coef Rring G) (fun k => d_coef Rring B k j) i in
  Ok (mkDense Rring (d_cols Rring B) (d_cols Rring B) (fun i j =>
    @sumn Rring n (fun k => d_coef Rring B k i * X k j))).
(** dpg_element_vector_provider.h:130-159: Eval, [B^T * G.ldlt().solve(l)]; Eigen asserts that
    the sizes fit. *)
Definition DpgVecEval (cell : ent) : res (list R) :=
  do l <- load cell;
  do B <- stiffness cell;
  do G <- gramian cell;
  do _ <- lf_assert (d_rows Rring G =? d_cols Rring G)%nat;
  do _ <- lf_assert (length l =? d_rows Rring G)%nat;
  do _ <- lf_assert (d_rows Rring B =? d_rows Rring G)%nat;
  let n := d_rows Rring G in
  let x := ldlt_solve n (d_coef Rring G) (fun k => nth k l 0) in
  Ok (map (fun i => @sumn Rring n (fun k => d_coef Rring B k i * x k)) (seq 0 (d_cols Rring B))).

(** dpg_tools.h:336-360: the error estimate for one cell. *)
Definition element_error (trial : dofh) (sol_vec : list R) (cell : ent) : res R :=
  do G <- gramian cell;
  do B <- stiffness cell;
  do l <- load cell;
  do n <- NumLocalDofs trial cell;
  do global_dofs <- GlobalDofIndices trial cell;
  do local_solution <- traverse (fun i => do g <- elem_at global_dofs i; elem_at sol_vec g) (seq 0 n);
  do _ <- lf_assert ((d_cols Rring B =? n) && (length l =? d_rows Rring B))%nat;
  do _ <- lf_assert ((d_rows Rring G =? d_cols Rring G) && (d_rows Rring B =? d_rows Rring G))%nat;
  let r := fun i => nth i l 0 - @sumn Rring n (fun j => d_coef Rring B i j * nth j local_solution 0) in
  let x := ldlt_solve (d_rows Rring G) (d_coef Rring G) r in
  Ok (sqrt (@sumn Rring (d_rows Rring G) (fun i => r i * x i))).
(** dpg_tools.h:326-362: the data set of the estimates, by index of the cell. *)
Definition ElementErrorEstimators (m : mesh) (trial : dofh) (sol_vec : list R) : res (list R) :=
  traverse (element_error trial sol_vec) (entities m 0).
End Dpg.
(** dpg_tools.h:373-382 *)
Definition EvalPosteriorError (local_errors : list R) : R :=
  sqrt (fold_left (fun error e => error + e * e) local_errors 0).
