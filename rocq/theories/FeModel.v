(** Model of scalar reference finite elements and finite element spaces.

    Models lib/lf/fe/scalar_reference_finite_element.h, lib/lf/fe/fe_point.h,
    lib/lf/uscalfe/uniform_scalar_fe_space.h and lib/lf/fe/mesh_function_fe.h.
    Simplifications: exact real arithmetic; the scalar type is R; methods that take
    a matrix of points are modelled for one point (they treat columns separately). *)
From Coq Require Import Reals List Arith Bool.
Import ListNotations.
From Verif Require Import Base MeshModel MeshView DofModel.
Local Open Scope R_scope.

(** Finite sums (Eigen dot products). *)
Definition rsum (l : list R) : R := fold_right Rplus 0 l.
Definition dot (a b : list R) : R := rsum (map (fun p => fst p * snd p) (combine a b)).

(** lib/lf/base/ref_el.h:308-328: NumSubEntities *)
Definition num_sub_entities (t : refel) (codim : nat) : nat :=
  match t, codim with
  | _, 0 => 1
  | kSegment, 1 => 2
  | kTria, 1 | kTria, 2 => 3
  | kQuad, 1 | kQuad, 2 => 4
  | _, _ => 0
  end%nat.

(** Interface scalar_reference_finite_element.h:88-317.  [fe_eval] and [fe_grad]
    give one column of EvalReferenceShapeFunctions and one chunk of
    GradientsReferenceShapeFunctions: one number / one gradient per shape function.
    [fe_n2d] is NodalValuesToDofs. *)
Record srfe := mkSrfe {
  fe_el : refel;
  fe_degree : nat;
  fe_total : nat;
  fe_num1 : nat -> res nat;
  fe_num2 : nat -> nat -> res nat;
  fe_eval : list R -> res (list R);
  fe_grad : list R -> res (list (list R));
  fe_nodes : list (list R);
  fe_num_nodes : nat;
  fe_n2d : list R -> res (list R)
}.
(** The default implementation of NodalValuesToDofs,
    scalar_reference_finite_element.h:310-316. *)
Definition identity_n2d (n : nat) (v : list R) : res (list R) :=
  do _ <- lf_assert (length v =? n); Ok v.

(** lib/lf/fe/fe_point.h:25-61; NumRefShapeFunctions() and (codim) are inherited from
    scalar_reference_finite_element.h:122-132, 147-150. *)
Definition fe_point (p : nat) : srfe := {|
  fe_el := kPoint; fe_degree := p; fe_total := 1;
  fe_num1 := fun _ => Throw;
  fe_num2 := fun c i => do _ <- lf_assert (c =? 0); do _ <- lf_assert (i =? 0); Ok 1%nat;
  fe_eval := fun x => do _ <- lf_assert (length x =? 0); Ok [1];
  fe_grad := fun _ => Throw;
  fe_nodes := [[]]; fe_num_nodes := 1; fe_n2d := identity_n2d 1
|}.

(** A finite element space: interface lib/lf/fe/scalar_fe_space.h.
    ShapeFunctionLayout (None = nullptr) and LocGlobMap. *)
Record fe_space := mkSpace { sp_mesh : mesh; sp_layout : ent -> option srfe; sp_dofs : dofh }.

(** *** UniformScalarFESpace *)
Definition num_cells (m : mesh) (t : refel) : nat :=
  length (filter (fun c => refel_eqb (cv_type c) t) (mv_cells m)).
Definition none {A} (o : option A) : bool := match o with None => true | Some _ => false end.
(** uniform_scalar_fe_space.h:262-285: the cell types; returns the three counts. *)
Definition probe_cell (o : option srfe) (t : refel) (dflt : nat * nat) : res (nat * nat * nat) :=
  match o with
  | None => Ok (fst dflt, snd dflt, 0)%nat
  | Some f =>
      do _ <- verify (refel_eqb (fe_el f) t);
      do n2 <- fe_num1 f 2; do _ <- verify (n2 <=? 1)%nat;
      do n1 <- fe_num1 f 1; do n0 <- fe_num1 f 0; Ok (n2, n1, n0)
  end.
(** 286-293 *)
Definition probe_edge (o : option srfe) (dflt : nat * nat) : res (nat * nat) :=
  match o with
  | None => Ok dflt
  | Some f =>
      do _ <- verify (refel_eqb (fe_el f) kSegment);
      do n1 <- fe_num1 f 1; do _ <- verify (n1 <=? 1)%nat;
      do n0 <- fe_num1 f 0; Ok (n1, n0)
  end.
(** 295-331: pairwise comparison *)
Definition compare_nums (f g : option srfe) (cf cg : nat * nat) : res unit :=
  match f, g with
  | Some f, Some g =>
      do a <- fe_num1 f (fst cf); do b <- fe_num1 g (fst cg); do _ <- lf_assert (a =? b);
      do a <- fe_num1 f (snd cf); do b <- fe_num1 g (snd cg); lf_assert (a =? b)
  | _, _ => Ok tt
  end.
(** uniform_scalar_fe_space.h:241-342: InitDofHandler.  The mesh pointer is not null
    and the mesh two-dimensional. *)
Definition init_dofs (m : mesh) (tria quad edge : option srfe) : res dofh :=
  do _ <- verify (negb (none quad) || negb (none tria));
  do _ <- verify ((num_cells m kTria =? 0) || negb (none tria));
  do _ <- verify ((num_cells m kQuad =? 0) || negb (none quad));
  do t <- probe_cell tria kTria (0, 0)%nat;
  do q <- probe_cell quad kQuad (fst t);
  do e <- probe_edge edge (fst q);
  do _ <- compare_nums tria quad (2, 1)%nat (2, 1)%nat;
  do _ <- compare_nums tria edge (2, 1)%nat (1, 0)%nat;
  do _ <- compare_nums quad edge (2, 1)%nat (1, 0)%nat;
  Ok (u_handler (uniform m [(kPoint, fst e); (kSegment, snd e); (kTria, snd t); (kQuad, snd q)] true)).
(** uniform_scalar_fe_space.h:344-383 and the constructor 83-98. *)
Definition uniform_space (m : mesh) (tria quad edge point : option srfe) : res fe_space :=
  do d <- init_dofs m tria quad edge;
  Ok (mkSpace m (fun e => match ent_type m e with
                          | kPoint => point | kSegment => edge | kTria => tria | kQuad => quad
                          end) d).

(** *** MeshFunctionFE *)
(** Read access to a vector; out of range is undefined behaviour. *)
Definition entry {A} (l : list A) (i : nat) : res A :=
  match nth_error l i with Some a => Ok a | None => Assert end.
Fixpoint traverse {A B} (f : A -> res B) (l : list A) : res (list B) :=
  match l with
  | [] => Ok []
  | a :: l => do b <- f a; do bs <- traverse f l; Ok (b :: bs)
  end.
(** mesh_function_fe.h:72-91: operator() at one point. *)
Definition fe_value (V : fe_space) (coef : list R) (e : ent) (x : list R) : res R :=
  match sp_layout V e with
  | None => Assert
  | Some f =>
      do sf <- fe_eval f x;
      do gd <- GlobalDofIndices (sp_dofs V) e;
      do loc <- traverse (fun i => do g <- entry gd i; entry coef g) (seq 0 (length sf));
      Ok (dot loc sf)
  end.
