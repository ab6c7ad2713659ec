(** Specification vocabulary for C14-C20. *)
From Coq Require Import List Arith Lia Bool Permutation Reals.
Import ListNotations.
From Verif Require Import Base Scalars MeshModel MeshView DofModel AssembleModel.

Section Spec.
Variable K : cring.
Open Scope K_scope.
Notation coo := (coo K).

(** * Histories of a COOMatrix *)
Inductive coo_op :=
| OpAdd (i j : nat) (v : K)
| OpZero
| OpZeroIf (pred : nat -> nat -> bool).
Definition coo_step (A : coo) (o : coo_op) : coo :=
  match o with
  | OpAdd i j v => AddToEntry K i j v A
  | OpZero => setZero K A
  | OpZeroIf p => setZeroIf K p A
  end.
(** The object after a sequence of calls. *)
Definition coo_after (n m : nat) (h : list coo_op) : coo := fold_left coo_step h (coo_new K n m).

(** The mathematical matrix after the same sequence. *)
Definition math_step (D : nat -> nat -> K) (o : coo_op) : nat -> nat -> K :=
  match o with
  | OpAdd i j v => fun a b => if (a =? i) && (b =? j) then D a b + v else D a b
  | OpZero => fun _ _ => 0
  | OpZeroIf p => fun a b => if p a b then 0 else D a b
  end.
Definition math_after (h : list coo_op) : nat -> nat -> K := fold_left math_step h (fun _ _ => 0).
(** Row (column) indices that occurred. *)
Definition row_uses (h : list coo_op) : list nat :=
  flat_map (fun o => match o with OpAdd i _ _ => [i] | _ => [] end) h.
Definition col_uses (h : list coo_op) : list nat :=
  flat_map (fun o => match o with OpAdd _ j _ => [j] | _ => [] end) h.
(** Smallest size >= n that makes room for all of them. *)
Definition size_for (n : nat) (l : list nat) : nat := fold_left Nat.max (map S l) n.

(** [A] is an n x m matrix object with coefficients [D] (as told by makeDense). *)
Definition is_matrix (A : coo) (n m : nat) (D : nat -> nat -> K) : Prop :=
  c_rows K A = n /\ c_cols K A = m /\
  exists M, makeDense K A = Ok M /\ d_rows K M = n /\ d_cols K M = m /\
    forall i j, i < n -> j < m -> d_coef K M i j = D i j.

(** (D x)_i for an n x m matrix. *)
Definition mv (m : nat) (D : nat -> nat -> K) (x : nat -> K) (i : nat) : K :=
  sumn m (fun j => D i j * x j).
(** Components of a vector. *)
Definition comp (v : list K) (i : nat) : K := nth i v 0.
(** x solves the n x n system D x = b. *)
Definition solves (n : nat) (D : nat -> nat -> K) (b x : nat -> K) : Prop :=
  forall i, i < n -> mv n D x i = b i.

(** * Assembly *)

(** The handler tells the dofs [idx e] for the entities [es]. *)
Definition serves (d : dofh) (es : list ent) (idx : ent -> list nat) : Prop :=
  forall e, In e es ->
    GlobalDofIndices d e = Ok (idx e) /\ NumLocalDofs d e = Ok (length (idx e)) /\
    Forall (fun g => g < NumDofs d) (idx e).

(** Matrix entries (vector components) delivered by the provider are sufficient. *)
Definition big_enough (p : mat_provider K) (es : list ent) (rows cols : ent -> list nat) : Prop :=
  forall e, In e es -> mp_active K p e = true ->
    length (rows e) <= d_rows K (mp_eval K p e) /\ length (cols e) <= d_cols K (mp_eval K p e).
Definition vec_big_enough (p : vec_provider K) (es : list ent) (idx : ent -> list nat) : Prop :=
  forall e, In e es -> vp_active K p e = true -> length (idx e) <= length (vp_eval K p e).

(** [sum_K [K active] sum_{a,b} [row dof a of K = i][column dof b of K = j] M_K(a,b)]. *)
Definition local_sum (p : mat_provider K) (es : list ent) (rows cols : ent -> list nat) (i j : nat) : K :=
  suml (map (fun e =>
    if mp_active K p e then
      sumn (length (rows e)) (fun a => sumn (length (cols e)) (fun b =>
        if (nth a (rows e) 0%nat =? i) && (nth b (cols e) 0%nat =? j)
        then d_coef K (mp_eval K p e) a b else 0))
    else 0) es).
Definition vec_sum (p : vec_provider K) (es : list ent) (idx : ent -> list nat) (i : nat) : K :=
  suml (map (fun e =>
    if vp_active K p e then
      sumn (length (idx e)) (fun a => if nth a (idx e) 0%nat =? i then comp (vp_eval K p e) a else 0)
    else 0) es).
(** v^T D u for an n x m matrix. *)
Definition form (n m : nat) (D : nat -> nat -> K) (v u : nat -> K) : K :=
  sumn n (fun i => v i * mv m D u i).
(** Restriction of a coefficient vector to the dofs of an entity. *)
Definition restrict (u : nat -> K) (idx : list nat) (a : nat) : K := u (nth a idx 0%nat).
End Spec.
Arguments OpAdd {K}. Arguments OpZero {K}. Arguments OpZeroIf {K}.
