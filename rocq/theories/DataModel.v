(** Model of mesh data sets: lib/lf/mesh/utils/{mesh_data_set,codim_mesh_data_set,
    all_codim_mesh_data_set}.h.
    Simplification: an entity is known by its mesh (a number that stands for the address of
    the mesh object) and its co-dimension and index; references that operator() returns are
    used at once, to read or to write. *)
From Coq Require Import List Arith Bool.
Import ListNotations.
From Verif Require Import Base MeshModel MeshView DofModel TransferModel.

(** An entity of a mesh; a mesh object. *)
Record handle := mkHandle { h_mesh : nat; h_ent : ent }.
Record mesh_ref := mkMeshRef { mr_id : nat; mr_mesh : mesh }.
(** hybrid2d/mesh.cc:49-60: NumEntities(codim) *)
Definition NumEntities (m : mesh_ref) (codim : nat) : res nat :=
  do _ <- verify (codim <=? 2); Ok (mv_count (mr_mesh m) codim).
(** hybrid2d/mesh.cc:113-126: Contains; the address lies within the storage of the mesh. *)
Definition Contains (m : mesh_ref) (e : handle) : bool :=
  (h_mesh e =? mr_id m) && (ent_index (h_ent e) <? mv_count (mr_mesh m) (ent_codim (h_ent e))).

Section Data.
Variable A : Type.
(** codim_mesh_data_set.h:72-79 *)
Record codim_ds := mkCds { cd_mesh : mesh_ref; cd_data : list A; cd_codim : nat }.
(** codim_mesh_data_set.h:32-36, 45-50, 91-113 *)
Definition CodimMeshDataSet (m : mesh_ref) (codim : nat) (init : A) : res codim_ds :=
  do n <- NumEntities m codim; Ok (mkCds m (repeat init n) codim).
(** codim_mesh_data_set.h:68-70 *)
Definition cd_DefinedOn (d : codim_ds) (e : handle) : bool := (ent_codim (h_ent e) =? cd_codim d) && Contains (cd_mesh d) e.
(** codim_mesh_data_set.h:64-67 *)
Definition cd_get (d : codim_ds) (e : handle) : res A :=
  do _ <- lf_assert (cd_DefinedOn d e);
  match nth_error (cd_data d) (ent_index (h_ent e)) with Some x => Ok x | None => Assert end.
(** codim_mesh_data_set.h:59-62, assigned to *)
Definition cd_set (d : codim_ds) (e : handle) (x : A) : res codim_ds :=
  do _ <- lf_assert (cd_DefinedOn d e);
  do _ <- lf_assert (ent_index (h_ent e) <? length (cd_data d));
  Ok (mkCds (cd_mesh d) (upd (ent_index (h_ent e)) x (cd_data d)) (cd_codim d)).

(** all_codim_mesh_data_set.h:101-109 *)
Record all_ds := mkAds { ad_mesh : mesh_ref; ad_data : list (list A) }.
(** all_codim_mesh_data_set.h:67-99; DimMesh() is 2. *)
Definition AllCodimMeshDataSet (m : mesh_ref) (init : A) : res all_ds :=
  do a <- NumEntities m 0; do b <- NumEntities m 1; do c <- NumEntities m 2;
  Ok (mkAds m [repeat init a; repeat init b; repeat init c]).
(** all_codim_mesh_data_set.h:56-58 *)
Definition ad_DefinedOn (d : all_ds) (e : handle) : bool := Contains (ad_mesh d) e.
(** all_codim_mesh_data_set.h:52-55 *)
Definition ad_get (d : all_ds) (e : handle) : res A :=
  do _ <- lf_assert (ad_DefinedOn d e);
  match nth_error (ad_data d) (ent_codim (h_ent e)) with
  | Some l => match nth_error l (ent_index (h_ent e)) with Some x => Ok x | None => Assert end
  | None => Assert
  end.
(** all_codim_mesh_data_set.h:47-50, assigned to *)
Definition ad_set (d : all_ds) (e : handle) (x : A) : res all_ds :=
  do _ <- lf_assert (ad_DefinedOn d e);
  match nth_error (ad_data d) (ent_codim (h_ent e)) with
  | Some l =>
      do _ <- lf_assert (ent_index (h_ent e) <? length l);
      Ok (mkAds (ad_mesh d) (upd (ent_codim (h_ent e)) (upd (ent_index (h_ent e)) x l) (ad_data d)))
  | None => Assert
  end.
End Data.
