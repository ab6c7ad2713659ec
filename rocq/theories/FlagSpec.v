(** Vocabulary for boundary flags and numbers of super-entities. *)
From Coq Require Import List Arith.
Import ListNotations.
From Verif Require Import Base MeshModel MeshView.

(** The [k]-th part of relative co-dimension [rel] of an entity is entity [s]. *)
Definition part (m : mesh) (cd e rel k s : nat) : Prop :=
  match cd, rel with
  | 0, 1 => exists c, nth_error (mv_cells m) e = Some c /\ nth_error (cv_edges c) k = Some s
  | 0, 2 => exists c, nth_error (mv_cells m) e = Some c /\ nth_error (cv_nodes c) k = Some s
  | 1, 1 => exists a b, nth_error (mv_edges m) e = Some (a, b) /\
              ((k = 0 /\ s = a) \/ (k = 1 /\ s = b))
  | _, 0 => k = 0 /\ s = e
  | _, _ => False
  end.

(** Number of entities of co-dimension [cd]. *)
Definition size (m : mesh) (cd : nat) : nat :=
  match cd with
  | 0 => length (mv_cells m)
  | 1 => length (mv_edges m)
  | 2 => mv_nodes m
  | _ => 0
  end.

(** [n] is the number of elements of a set. *)
Definition has_size {A} (P : A -> Prop) (n : nat) : Prop :=
  exists l, NoDup l /\ length l = n /\ forall x, In x l <-> P x.

(** Exactly one cell lies at edge [e]. *)
Definition one_cell_at (m : mesh) (e : nat) : Prop :=
  has_size (fun ck => fst ck < size m 0 /\ part m 0 (fst ck) 1 (snd ck) e) 1.
