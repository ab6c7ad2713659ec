(** Model of mesh data sets and of lib/lf/mesh/utils/special_entity_sets.cc. *)
From Coq Require Import List Arith Lia Bool.
Import ListNotations.
From Verif Require Import Base MeshModel MeshView DofModel.

(** SubEntities(rel) of the entity with co-dimension [cd] and index [i], as
    indices (hybrid2d/triangle.h, quad.h, segment.h, point.h: SubEntities); asking
    for sub-entities of a dimension below 0 is an error. *)
Definition sub_entities (m : mesh) (cd i rel : nat) : res (list nat) :=
  match cd, rel with
  | 0, 0 | 1, 0 | 2, 0 => Ok [i]
  | 0, 1 => Ok (cv_edges (cell_at m i))
  | 0, 2 => Ok (cv_nodes (cell_at m i))
  | 1, 1 => Ok [fst (edge_at m i); snd (edge_at m i)]
  | _, _ => Assert
  end.

(** lib/lf/mesh/utils/codim_mesh_data_set.h:27-96 (CodimMeshDataSet): the constructor
    with initial value, and operator() used to modify an entry; DefinedOn becomes
    the comparison of co-dimensions and the range check. *)
Record dset (A : Type) := mkDset { d_codim : nat; d_data : list A }.
Arguments mkDset {A}. Arguments d_codim {A}. Arguments d_data {A}.
Definition new_dset {A} (m : mesh) (cd : nat) (init : A) : dset A :=
  mkDset cd (repeat init (mv_count m cd)).
Definition dget {A} (d : dset A) (cd i : nat) : res A :=
  do _ <- lf_assert (cd =? d_codim d);
  match nth_error (d_data d) i with Some x => Ok x | None => Assert end.
Definition dset_at {A} (d : dset A) (cd i : nat) (f : A -> A) : res (dset A) :=
  do x <- dget d cd i; Ok (mkDset (d_codim d) (upd i (f x) (d_data d))).

(** A range-based for loop. *)
Definition each {A S} (l : list A) (body : A -> S -> res S) (s : S) : res S :=
  fold_left (fun r x => do s <- r; body x s) l (Ok s).

(** special_entity_sets.cc:18-40 (CountNumSuperEntities). *)
Definition count_super (m : mesh) (codim_sub codim_super : nat) : res (dset nat) :=
  do _ <- verify (codim_sub <=? 2);
  do _ <- verify (codim_super <=? codim_sub);
  let super_codim := codim_sub - codim_super in
  each (seq 0 (mv_count m super_codim)) (fun e d =>
    do subs <- sub_entities m super_codim e codim_super;
    each subs (fun s d => dset_at d codim_sub s (fun n => n + 1)) d)
  (new_dset m codim_sub 0).

(** special_entity_sets.cc:42-64 (flagEntitiesOnBoundary for one co-dimension). *)
Definition flag_boundary (m : mesh) (codim : nat) : res (dset bool) :=
  do _ <- lf_assert ((0 <? codim) && (codim <=? 2));
  do cnt <- count_super m 1 1;
  let rel_codim := codim - 1 in
  each (seq 0 (mv_count m 1)) (fun e d =>
    do n <- dget cnt 1 e;
    if n =? 1 then
      do subs <- sub_entities m 1 e rel_codim;
      each subs (fun s d => dset_at d codim s (fun _ => true)) d
    else Ok d)
  (new_dset m codim false).

(** all_codim_mesh_data_set.h:34-106 (AllCodimMeshDataSet): one vector for each
    co-dimension. *)
Definition adset := list (list bool).
Definition new_adset (m : mesh) : adset :=
  map (fun cd => repeat false (mv_count m cd)) [0; 1; 2].
Definition adset_at (d : adset) (cd i : nat) (b : bool) : res adset :=
  match nth_error d cd with
  | Some l => do _ <- lf_assert (i <? length l); Ok (upd cd (upd i b l) d)
  | None => Assert
  end.

(** special_entity_sets.cc:66-89 (flagEntitiesOnBoundary for all co-dimensions);
    rel_codim runs through 0 .. DimMesh()-1 = 0, 1. *)
Definition flag_boundary_all (m : mesh) : res adset :=
  do cnt <- count_super m 1 1;
  each (seq 0 (mv_count m 1)) (fun e d =>
    do n <- dget cnt 1 e;
    if n =? 1 then
      each (seq 0 2) (fun rel d =>
        do subs <- sub_entities m 1 e rel;
        each subs (fun s d => adset_at d (1 + rel) s true) d) d
    else Ok d)
  (new_adset m).
