(** Specification for C78: mesh data sets as maps from entities to values. *)
From Coq Require Import List Arith Bool.
Import ListNotations.
From Verif Require Import Base MeshModel MeshView DofModel DofSpec TransferModel DataModel.

(** The entity belongs to the mesh. *)
Definition belongs (m : mesh_ref) (e : handle) : Prop := h_mesh e = mr_id m /\ valid (mr_mesh m) (h_ent e).
(** The value after a history of assignments, the latest one first. *)
Fixpoint latest {A} (init : A) (e : handle) (h : list (handle * A)) : A -> Prop :=
  match h with
  | [] => fun x => x = init
  | (e', y) :: r => fun x => (e = e' /\ x = y) \/ (e <> e' /\ latest init e r x)
  end.
(** States reached by assignments to a new data set; the latest one first.  Rejected
    assignments have no effect. *)
Inductive reached {D A} (set : D -> handle -> A -> res D) (start : D) : list (handle * A) -> D -> Prop :=
| re_start : reached set start [] start
| re_set : forall h d e x d', reached set start h d -> set d e x = Ok d' -> reached set start ((e, x) :: h) d'.
