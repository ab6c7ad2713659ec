(** Vocabulary for C82-C84: product spaces and the DPG method. *)
From Coq Require Import List Arith Bool Reals.
Import ListNotations.
From Verif Require Import Base Scalars MeshModel MeshView DofModel DofSpec AssembleModel AssembleSpec DpgModel.
Local Open Scope nat_scope.

(** * Product spaces U_0 x U_1 x ... *)

(** Number of dofs of a list of spaces. *)
Definition total (ds : list dofh) : nat := list_sum (map NumDofs ds).
(** Indices [ls] told by the handlers [ds], shifted behind those of the previous handlers;
    the first handler starts at [o]. *)
Fixpoint stack (o : nat) (ds : list dofh) (ls : list (list nat)) : list nat :=
  match ds, ls with
  | d :: ds, l :: ls => map (Nat.add o) l ++ stack (o + NumDofs d) ds ls
  | _, _ => []
  end.

(** The handler numbers the dofs of the first component first, then those of the second, ...;
    both globally and on each entity; within a component it agrees with the handler [ds[c]]. *)
Record stacked (m : mesh) (ds : list dofh) (p : pdofh) : Prop := {
  sk_component_handler : forall c d, nth_error ds c = Some d ->
     p_ComponentDofHandler p c = Ok d /\ p_NumDofsC p c = Ok (NumDofs d) /\
     forall e, p_NumLocalC p e c = NumLocalDofs d e /\ p_NumInteriorC p e c = NumInteriorDofs d e;
  sk_total : NumDofs (p_handler p) = total ds;
  sk_offset : forall c, c <= length ds -> p_Offset p c = Ok (total (firstn c ds));
  sk_component : forall c d x, nth_error ds c = Some d -> x < NumDofs d ->
     p_Component p (total (firstn c ds) + x) = Ok c;
  sk_beyond : forall x, total ds <= x -> p_Component p x = Assert /\ Entity (p_handler p) x = Assert;
  sk_entity : forall c d x, nth_error ds c = Some d -> x < NumDofs d ->
     Entity (p_handler p) (total (firstn c ds) + x) = Entity d x;
  sk_global : forall e ls, valid m e -> Forall2 (fun d l => GlobalDofIndices d e = Ok l) ds ls ->
     GlobalDofIndices (p_handler p) e = Ok (stack 0 ds ls) /\ NumLocalDofs (p_handler p) e = Ok (length (concat ls));
  sk_interior : forall e ls, valid m e -> Forall2 (fun d l => InteriorGlobalDofIndices d e = Ok l) ds ls ->
     InteriorGlobalDofIndices (p_handler p) e = Ok (stack 0 ds ls) /\ NumInteriorDofs (p_handler p) e = Ok (length (concat ls));
  sk_start : forall e ls c, valid m e -> Forall2 (fun d l => GlobalDofIndices d e = Ok l) ds ls -> c <= length ds ->
     p_LocalStartIndex p e c = Ok (length (concat (firstn c ls)))
}.

(** Every dof 0..N-1 belongs to exactly one entity, the one Entity() reports; an entity owns as
    many dofs as are prescribed. *)
Record distributes (m : mesh) (cnt : ent -> nat) (d : dofh) : Prop := {
  di_total : NumDofs d = list_sum (map cnt (all_entities m));
  di_own : forall e, valid m e -> exists l, own d e l /\ length l = cnt e /\ NoDup l /\
             NumInteriorDofs d e = Ok (cnt e) /\
             forall x, In x l <-> (x < NumDofs d /\ Entity d x = Ok e);
  di_entity : forall x, x < NumDofs d -> exists e, Entity d x = Ok e /\ valid m e
}.

(** Entries of a coefficient vector (global or local) from position [o] on. *)
Definition part {A} (u : nat -> A) (o : nat) : nat -> A := fun a => u (o + a).

Section Forms.
Variable K : cring.
Open Scope K_scope.

(** A block of a matrix: size, position, coefficients. *)
Record block := mkBlock { b_rows : nat; b_cols : nat; b_row0 : nat; b_col0 : nat; b_coef : nat -> nat -> K }.
(** Its entry at (i, j), zero outside. *)
Definition b_entry (b : block) (i j : nat) : K :=
  if ((b_row0 b <=? i) && (i <? b_row0 b + b_rows b) && (b_col0 b <=? j) && (j <? b_col0 b + b_cols b))%nat
  then b_coef b (i - b_row0 b)%nat (j - b_col0 b)%nat else 0.
(** Its bilinear form, applied to the respective parts of two vectors. *)
Definition b_form (b : block) (v u : nat -> K) : K :=
  form K (b_rows b) (b_cols b) (b_coef b) (part v (b_row0 b)) (part u (b_col0 b)).
(** The n x k matrix [D] is the sum of the blocks. *)
Definition sum_of_blocks (n k : nat) (D : nat -> nat -> K) (bs : list block) : Prop :=
  (forall i j, i < n -> j < k -> D i j = suml (map (fun b => b_entry b i j) bs))%nat /\
  (forall v u, form K n k D v u = suml (map (fun b => b_form b v u) bs)).

(** The same for vectors. *)
Record segment := mkSegment { g_size : nat; g_at : nat; g_coef : nat -> K }.
Definition g_entry (b : segment) (i : nat) : K :=
  if ((g_at b <=? i) && (i <? g_at b + g_size b))%nat then g_coef b (i - g_at b)%nat else 0.
(** sum_i l_i v_i *)
Definition linear (n : nat) (l v : nat -> K) : K := sumn n (fun i => l i * v i).
Definition g_form (b : segment) (v : nat -> K) : K := linear (g_size b) (g_coef b) (part v (g_at b)).
Definition sum_of_segments (n : nat) (l : nat -> K) (bs : list segment) : Prop :=
  (forall i, i < n -> l i = suml (map (fun b => g_entry b i) bs))%nat /\
  (forall v, linear n l v = suml (map (fun b => g_form b v) bs)).

(** The contribution of a sub-provider to the matrix of a cell: its matrix, which has the size
    of its components, at the place of these components among the local dofs. *)
Definition local_block (trial test : pdofh) (cell : ent) (s : sub_mat K) (b : block) : Prop :=
  exists N, sm_eval s cell = Ok N /\ b_coef b = d_coef K N /\ b_rows b = d_rows K N /\ b_cols b = d_cols K N /\
    p_NumLocalC test cell (sm_test s) = Ok (b_rows b) /\ p_NumLocalC trial cell (sm_trial s) = Ok (b_cols b) /\
    p_LocalStartIndex test cell (sm_test s) = Ok (b_row0 b) /\ p_LocalStartIndex trial cell (sm_trial s) = Ok (b_col0 b).
Definition local_segment (test : pdofh) (cell : ent) (s : sub_vec K) (b : segment) : Prop :=
  exists w, sv_eval s cell = Ok w /\ g_coef b = comp K w /\ g_size b = length w /\
    p_NumLocalC test cell (sv_test s) = Ok (g_size b) /\ p_LocalStartIndex test cell (sv_test s) = Ok (g_at b).
(** The contribution of a sub-provider to the global matrix: the matrix assembled from it on the
    component spaces, at the place of these components among all dofs. *)
Definition global_block (m : mesh) (trial test : pdofh) (s : sub_mat K) (b : block) : Prop :=
  exists du dv A, p_ComponentDofHandler trial (sm_trial s) = Ok du /\ p_ComponentDofHandler test (sm_test s) = Ok dv /\
    p_Offset trial (sm_trial s) = Ok (b_col0 b) /\ p_Offset test (sm_test s) = Ok (b_row0 b) /\
    b_cols b = NumDofs du /\ b_rows b = NumDofs dv /\
    AssembleMat K m du dv (sm_active s) (sm_eval s) = Ok A /\ is_matrix K A (b_rows b) (b_cols b) (b_coef b).
Definition global_segment (m : mesh) (test : pdofh) (s : sub_vec K) (b : segment) : Prop :=
  exists dv w, p_ComponentDofHandler test (sv_test s) = Ok dv /\ p_Offset test (sv_test s) = Ok (g_at b) /\
    g_size b = NumDofs dv /\ AssembleVec K m dv (sv_active s) (sv_eval s) = Ok w /\ length w = g_size b /\ g_coef b = comp K w.

(** The components of the sub-provider exist, and on every cell where it is active it delivers a
    matrix (vector) of their size. *)
Definition fits (m : mesh) (trial test : pdofh) (s : sub_mat K) : Prop :=
  (exists du, p_ComponentDofHandler trial (sm_trial s) = Ok du) /\
  (exists dv, p_ComponentDofHandler test (sm_test s) = Ok dv) /\
  forall cell, In cell (entities m 0) -> sm_active s cell = true ->
    exists N, sm_eval s cell = Ok N /\ p_NumLocalC test cell (sm_test s) = Ok (d_rows K N) /\
      p_NumLocalC trial cell (sm_trial s) = Ok (d_cols K N).
Definition fits_vec (m : mesh) (test : pdofh) (s : sub_vec K) : Prop :=
  (exists dv, p_ComponentDofHandler test (sv_test s) = Ok dv) /\
  forall cell, In cell (entities m 0) -> sv_active s cell = true ->
    exists w, sv_eval s cell = Ok w /\ p_NumLocalC test cell (sv_test s) = Ok (length w).
End Forms.
Arguments mkBlock {K}. Arguments b_rows {K}. Arguments b_cols {K}. Arguments b_row0 {K}. Arguments b_col0 {K}. Arguments b_coef {K}.
Arguments mkSegment {K}. Arguments g_size {K}. Arguments g_at {K}. Arguments g_coef {K}.

(** * The DPG method *)
Local Open Scope R_scope.
(** An inner product on R^n. *)
Definition spd (n : nat) (G : nat -> nat -> R) : Prop :=
  (forall i j, (i < n)%nat -> (j < n)%nat -> G i j = G j i) /\
  (forall x, (exists i, (i < n)%nat /\ x i <> 0) -> 0 < form Rring n n G x x).
(** sqrt (v, v)_G *)
Definition norm_of (n : nat) (G : nat -> nat -> R) (v : nat -> R) : R := sqrt (form Rring n n G v v).
(** [e] is the norm of the functional v -> sum_i r_i v_i with respect to the norm given by [G]. *)
Definition dual_norm (n : nat) (G : nat -> nat -> R) (r : nat -> R) (e : R) : Prop :=
  0 <= e /\ (forall v, linear Rring n r v <= e * norm_of n G v) /\
  (forall e', 0 <= e' -> (forall v, linear Rring n r v <= e' * norm_of n G v) -> e <= e').
(** [t] represents the functional b(w, .) in the test space: (t, v)_G = b(w, v) for all v: the
    optimal test function for the trial function [w]. *)
Definition optimal_test (n k : nat) (G B : nat -> nat -> R) (w t : nat -> R) : Prop :=
  forall v, form Rring n n G v t = form Rring n k B v w.

(** On every cell the extended stiffness matrix, the Gramian of the broken test space and the load
    vector have matching sizes, and the Gramian is an inner product. *)
Definition dpg_data (m : mesh) (trial : dofh) (stiffness gramian : ent -> res (dense Rring)) (load : ent -> res (list R)) : Prop :=
  forall cell, In cell (entities m 0) -> exists B G l,
    stiffness cell = Ok B /\ gramian cell = Ok G /\ load cell = Ok l /\
    d_rows Rring G = d_cols Rring G /\ d_rows Rring B = d_rows Rring G /\ length l = d_rows Rring G /\
    NumLocalDofs trial cell = Ok (d_cols Rring B) /\ spd (d_rows Rring G) (d_coef Rring G).
(** The error estimate for the coefficient vector [u]. *)
Definition error_of (stiffness gramian : ent -> res (dense Rring)) (load : ent -> res (list R)) (m : mesh) (trial : dofh) (u : list R) (e : R) : Prop :=
  exists est, ElementErrorEstimators stiffness gramian load m trial u = Ok est /\ e = EvalPosteriorError est.
(** [u] takes the prescribed values at the selected dofs. *)
Definition obeys (sel : nat -> bool * R) (N : nat) (u : list R) : Prop :=
  length u = N /\ forall i, (i < N)%nat -> fst (sel i) = true -> nth i u 0 = snd (sel i).
