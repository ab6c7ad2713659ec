(** What a user of a DofHandler relies on, stated through its public interface
    only (numbering rules documented in lib/lf/assemble/dofhandler.h:44-66, 95-106). *)
From Coq Require Import List Arith Lia Bool.
Import ListNotations.
From Verif Require Import Base MeshModel MeshView DofModel.

(** The entity belongs to the mesh. *)
Definition valid (m : mesh) (e : ent) : Prop :=
  match e with
  | ENode i => i < mv_nodes m
  | EEdge i => i < length (mv_edges m)
  | ECell i => i < length (mv_cells m)
  end.

Definition all_entities (m : mesh) : list ent :=
  map ENode (seq 0 (mv_nodes m)) ++ map EEdge (seq 0 (length (mv_edges m))) ++
  map ECell (seq 0 (length (mv_cells m))).

(** [e] comes before [e'] in the order in which dofs are numbered: points, then
    edges, then cells; by index among entities of the same kind. *)
Definition before (e e' : ent) : Prop :=
  match e, e' with
  | ENode i, ENode j => i < j
  | ENode _, _ => True
  | EEdge i, EEdge j => i < j
  | EEdge _, ECell _ => True
  | ECell i, ECell j => i < j
  | _, _ => False
  end.

(** [l] are the dofs belonging to the interior of [e]. *)
Definition own (d : dofh) (e : ent) (l : list nat) : Prop :=
  InteriorGlobalDofIndices d e = Ok l.

(** Every dof 0..N-1 belongs to exactly one entity, the one Entity() reports;
    an entity owns as many dofs as were requested for it. *)
Record partitions (m : mesh) (cnt : ent -> nat) (d : dofh) : Prop := {
  pa_total : NumDofs d = list_sum (map cnt (all_entities m));
  pa_own : forall e, valid m e -> exists l, own d e l /\ length l = cnt e /\ NoDup l /\
             NumInteriorDofs d e = Ok (cnt e) /\
             forall x, In x l <-> (x < NumDofs d /\ Entity d x = Ok e);
  pa_entity : forall x, x < NumDofs d -> exists e, Entity d x = Ok e /\ valid m e;
  pa_beyond : forall x, NumDofs d <= x -> Entity d x = Throw
}.

(** Order of the indices returned for an entity: those of its vertices, of its
    edges, its own; the indices of an edge are reversed as a block if [flip] is
    set and the edge runs against the cell. *)
Record canonical (m : mesh) (flip : bool) (d : dofh) : Prop := {
  ca_node : forall i, valid m (ENode i) ->
     exists l, own d (ENode i) l /\ GlobalDofIndices d (ENode i) = Ok l;
  ca_edge : forall i a b, nth_error (mv_edges m) i = Some (a, b) ->
     exists la lb l, own d (ENode a) la /\ own d (ENode b) lb /\ own d (EEdge i) l /\
       GlobalDofIndices d (EEdge i) = Ok (la ++ lb ++ l);
  ca_cell : forall i c, nth_error (mv_cells m) i = Some c ->
     exists lv le l,
       Forall2 (fun v x => own d (ENode v) x) (cv_nodes c) lv /\
       Forall2 (fun eo x => exists y, own d (EEdge (fst eo)) y /\
                  x = if flip && negb (snd eo) then rev y else y)
               (combine (cv_edges c) (cv_ori c)) le /\
       length le = length (cv_edges c) /\
       own d (ECell i) l /\
       GlobalDofIndices d (ECell i) = Ok (concat lv ++ concat le ++ l);
  ca_count : forall e, valid m e -> exists l,
     GlobalDofIndices d e = Ok l /\ NumLocalDofs d e = Ok (length l)
}.

(** Numbering: consecutive within an entity, increasing along [before]. *)
Record numbered (m : mesh) (d : dofh) : Prop := {
  nu_consecutive : forall e l k x, valid m e -> own d e l -> nth_error l k = Some x ->
     exists x0, nth_error l 0 = Some x0 /\ x = x0 + k;
  nu_before : forall e e' l l' x x', valid m e -> valid m e' -> before e e' ->
     own d e l -> own d e' l' -> In x l -> In x' l' -> x < x'
}.

(** Number of interior dofs prescribed for the type of an entity; types not
    mentioned have none. *)
Definition prescribed (dm : dof_map) (m : mesh) (e : ent) : nat :=
  match dmap_find (ent_type m e) dm with Some n => n | None => 0 end.
