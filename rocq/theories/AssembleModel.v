(** Model of lf::assemble: COOMatrix (lib/lf/assemble/coomatrix.h), assembly
    (lib/lf/assemble/assembler.h), elimination of fixed unknowns
    (lib/lf/assemble/fix_dof.h). *)
From Coq Require Import List Arith Lia Bool.
Import ListNotations.
From Verif Require Import Base Scalars MeshModel MeshView DofModel.

Section Model.
Variable K : cring.
Open Scope K_scope.

(** coomatrix.h:51-60, members rows_, cols_, triplets_. *)
Record coo := mkCoo { c_rows : nat; c_cols : nat; c_trip : list (nat * nat * K) }.

(** coomatrix.h:60-61: the constructor. *)
Definition coo_new (r c : nat) : coo := mkCoo r c [].

(** coomatrix.h:87-91. *)
Definition AddToEntry (i j : nat) (v : K) (A : coo) : coo :=
  mkCoo (if c_rows A <? i + 1 then i + 1 else c_rows A)
        (if c_cols A <? j + 1 then j + 1 else c_cols A)
        (c_trip A ++ [(i, j, v)]).
(** coomatrix.h:98. *)
Definition setZero (A : coo) : coo := mkCoo (c_rows A) (c_cols A) [].
(** coomatrix.h:109-115 (erase-remove idiom). *)
Definition setZeroIf (pred : nat -> nat -> bool) (A : coo) : coo :=
  mkCoo (c_rows A) (c_cols A)
        (filter (fun t => let '(i, j, _) := t in negb (pred i j)) (c_trip A)).

(** A dense Eigen matrix: dimensions and coefficients. *)
Record dense := mkDense { d_rows : nat; d_cols : nat; d_coef : nat -> nat -> K }.
(** [mat(i,j) += v]. *)
Definition coef_add (i j : nat) (v : K) (f : nat -> nat -> K) : nat -> nat -> K :=
  fun a b => if (a =? i) && (b =? j) then f a b + v else f a b.

(** coomatrix.h:187-198. *)
Fixpoint dense_loop (r c : nat) (ts : list (nat * nat * K)) (f : nat -> nat -> K)
  : res (nat -> nat -> K) :=
  match ts with
  | [] => Ok f
  | (i, j, v) :: t =>
      do _ <- lf_assert ((j <? c) && (i <? r));
      dense_loop r c t (coef_add i j v f)
  end.
Definition makeDense (A : coo) : res dense :=
  do f <- dense_loop (c_rows A) (c_cols A) (c_trip A) (fun _ _ => 0);
  Ok (mkDense (c_rows A) (c_cols A) f).
(** coomatrix.h:172-180.  Eigen::SparseMatrix::setFromTriplets is documented to
    sum duplicate triplets and requires the indices to be in range; the result is
    represented by its coefficients. *)
Definition makeSparse (A : coo) : res dense :=
  do _ <- verify ((0 <? c_rows A) && (0 <? c_cols A));
  makeDense A.

(** Vectors with size() and operator[]: lists.  [v[i] += x]; an index outside
    the vector is undefined behaviour. *)
Definition vec_add (i : nat) (x : K) (v : list K) : res (list K) :=
  do _ <- lf_assert (i <? length v);
  Ok (upd i (nth i v 0 + x) v).
Definition vec_get (i : nat) (v : list K) : res K :=
  match nth_error v i with Some x => Ok x | None => Assert end.

(** coomatrix.h:247-260 (second MatVecMult). *)
Fixpoint mult_loop (alpha : K) (vec : list K) (ts : list (nat * nat * K)) (r : list K)
  : res (list K) :=
  match ts with
  | [] => Ok r
  | (i, j, v) :: t =>
      do x <- vec_get j vec;
      do r' <- vec_add i (v * (alpha * x)) r;
      mult_loop alpha vec t r'
  end.
Definition MatVecMultAdd (A : coo) (alpha : K) (vec r : list K) : res (list K) :=
  do _ <- lf_assert (c_cols A <=? length vec);
  do _ <- lf_assert (c_rows A <=? length r);
  mult_loop alpha vec (c_trip A) r.
(** coomatrix.h:232-244 (first MatVecMult). *)
Definition MatVecMult (A : coo) (alpha : K) (vec : list K) : res (list K) :=
  do _ <- lf_assert (c_cols A <=? length vec);
  mult_loop alpha vec (c_trip A) (repeat 0 (c_rows A)).

(** * Assembly *)

(** Mesh::Entities(codim) (lib/lf/mesh/hybrid2d/mesh.cc:49-60, entity_pointers_):
    the entities in the order of their indices. *)
Definition entities (m : mesh) (codim : nat) : list ent :=
  map (match codim with 0 => ECell | 1%nat => EEdge | _ => ENode end) (seq 0 (mv_count m codim)).

(** assemble/assembly_types.h, concept EntityMatrixProvider: isActive and Eval.
    Simplification: both are functions of the entity only (no internal state). *)
Record mat_provider := mkMP { mp_active : ent -> bool; mp_eval : ent -> dense }.
Record vec_provider := mkVP { vp_active : ent -> bool; vp_eval : ent -> list K }.

(** assembler.h:160-177: the double loop. *)
Definition add_local (rows cols : list nat) (nr nc : nat) (M : dense) (A : coo) : coo :=
  fold_left (fun A i =>
    fold_left (fun A j => AddToEntry (nth i rows 0%nat) (nth j cols 0%nat) (d_coef M i j) A)
              (seq 0 nc) A)
    (seq 0 nr) A.

(** assembler.h:124-185: one entity of the main loop. *)
Definition assemble_entity (trial test : dofh) (p : mat_provider) (e : ent) (A : coo) : res coo :=
  if mp_active p e then
    do nr <- NumLocalDofs test e;
    do nc <- NumLocalDofs trial e;
    do rows <- GlobalDofIndices test e;
    do cols <- GlobalDofIndices trial e;
    let M := mp_eval p e in
    do _ <- lf_assert (nr <=? d_rows M);
    do _ <- lf_assert (nc <=? d_cols M);
    do _ <- lf_assert ((nr <=? length rows) && (nc <=? length cols));
    Ok (add_local rows cols nr nc M A)
  else Ok A.
Fixpoint assemble_loop (trial test : dofh) (p : mat_provider) (es : list ent) (A : coo) : res coo :=
  match es with
  | [] => Ok A
  | e :: r => do A' <- assemble_entity trial test p e A; assemble_loop trial test p r A'
  end.
(** assembler.h:114-186. *)
Definition AssembleMatrixInto (m : mesh) (codim : nat) (trial test : dofh) (p : mat_provider) (A : coo)
  : res coo := assemble_loop trial test p (entities m codim) A.
(** assembler.h:209-220, 243-249. *)
Definition AssembleMatrix (m : mesh) (codim : nat) (trial test : dofh) (p : mat_provider) : res coo :=
  AssembleMatrixInto m codim trial test p (setZero (coo_new (NumDofs test) (NumDofs trial))).

(** assembler.h:320-323. *)
Fixpoint add_vec_local (idx : list nat) (v : list K) (js : list nat) (r : list K) : res (list K) :=
  match js with
  | [] => Ok r
  | j :: t => do x <- vec_get j v;
              do r' <- vec_add (nth j idx 0%nat) x r;
              add_vec_local idx v t r'
  end.
(** assembler.h:298-327. *)
Definition assemble_vec_entity (d : dofh) (p : vec_provider) (e : ent) (r : list K) : res (list K) :=
  if vp_active p e then
    do n <- NumLocalDofs d e;
    do idx <- GlobalDofIndices d e;
    do _ <- lf_assert (n <=? length (vp_eval p e));
    do _ <- lf_assert (n <=? length idx);
    add_vec_local idx (vp_eval p e) (seq 0 n) r
  else Ok r.
Fixpoint assemble_vec_loop (d : dofh) (p : vec_provider) (es : list ent) (r : list K) : res (list K) :=
  match es with
  | [] => Ok r
  | e :: t => do r' <- assemble_vec_entity d p e r; assemble_vec_loop d p t r'
  end.
Definition AssembleVectorInto (m : mesh) (codim : nat) (d : dofh) (p : vec_provider) (r : list K)
  : res (list K) := assemble_vec_loop d p (entities m codim) r.
(** assembler.h:354-365. *)
Definition AssembleVector (m : mesh) (codim : nat) (d : dofh) (p : vec_provider) : res (list K) :=
  AssembleVectorInto m codim d p (repeat 0 (NumDofs d)).

(** * Fixing unknowns *)

(** fix_dof.h: the SELECTOR functor. *)
Definition selector := nat -> bool * K.

(** fix_dof.h:107-112, 191-197: [if selected: b[k] = value]. *)
Definition set_fixed (sel : selector) (b : list K) (ks : list nat) : list K :=
  fold_left (fun b k => if fst (sel k) then upd k (snd (sel k)) b else b) ks b.
(** fix_dof.h:132-137, 212-218: unit diagonal entries. *)
Definition add_unit (sel : selector) (A : coo) (ks : list nat) : coo :=
  fold_left (fun A k => if fst (sel k) then AddToEntry k k 1 A else A) ks A.

(** fix_dof.h:86-138. *)
Definition FixFlaggedSolutionComponents (sel : selector) (A : coo) (b : list K)
  : res (coo * list K) :=
  let N := c_cols A in
  do _ <- lf_assert (c_rows A =? N);
  do _ <- lf_assert (N =? length b);
  let tmp := map (fun k => if fst (sel k) then snd (sel k) else 0) (seq 0 N) in
  do b1 <- MatVecMultAdd A (- (1)) tmp b;
  let b2 := set_fixed sel b1 (seq 0 N) in
  let A1 := setZeroIf (fun i j => fst (sel i) || fst (sel j)) A in
  Ok (add_unit sel A1 (seq 0 N), b2).

(** fix_dof.h:184-219. *)
Definition FixFlaggedSolutionCompAlt (sel : selector) (A : coo) (b : list K)
  : res (coo * list K) :=
  let N := c_cols A in
  do _ <- lf_assert (c_rows A =? N);
  do _ <- lf_assert (N =? length b);
  let b2 := set_fixed sel b (seq 0 N) in
  let A1 := setZeroIf (fun i _ => fst (sel i)) A in
  Ok (add_unit sel A1 (seq 0 N), b2).

(** fix_dof.h:258-268: the loop over the prescribed components. *)
Fixpoint collect_fixed (N : nat) (l : list (nat * K)) (vec : list K) (flags : list bool)
  : res (list K * list bool) :=
  match l with
  | [] => Ok (vec, flags)
  | (i, x) :: t =>
      do _ <- lf_assert (i <? N);
      do vec' <- vec_add i x vec;
      collect_fixed N t vec' (upd i true flags)
  end.
(** fix_dof.h:250-280. *)
Definition FixSolutionComponentsLse (l : list (nat * K)) (A : coo) (b : list K)
  : res (coo * list K) :=
  let N := c_cols A in
  do _ <- lf_assert (c_rows A =? N);
  do _ <- lf_assert (N =? length b);
  do vf <- collect_fixed N l (repeat 0 (length b)) (repeat false N);
  FixFlaggedSolutionCompAlt (fun i => (nth i (snd vf) false, nth i (fst vf) 0)) A b.
End Model.
