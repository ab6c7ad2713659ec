(** Vocabulary for stating properties of mesh construction: a history of calls
    to a mesh factory and what a user expects from it.  Nothing in this file
    refers to the internals of the Mesh constructor. *)
From Coq Require Import List Arith Lia Bool.
Import ListNotations.
From Verif Require Import Base MeshModel.

(** A call made to a factory; [geo] = a non-null geometry is passed along. *)
Inductive call :=
| CPoint (geo : bool)
| CEntity (t : refel) (nodes : list nat) (geo : bool).

(** Issue the calls one after the other, collecting the returned numbers. *)
Definition issue (c : call) (f : factory) : res (nat * factory) :=
  match c with
  | CPoint g => add_point g f
  | CEntity t ns g => add_entity t ns g f
  end.
Fixpoint run (h : list call) (f : factory) : res (list nat * factory) :=
  match h with
  | [] => Ok ([], f)
  | c :: r => do x <- issue c f;
              do y <- run r (snd x);
              Ok (fst x :: fst y, snd y)
  end.

(** What the history supplies, in the order of the calls. *)
Definition is_point_call (c : call) : bool :=
  match c with CPoint _ => true | _ => false end.
Definition is_segment_call (c : call) : bool :=
  match c with CEntity kSegment _ _ => true | _ => false end.
Definition is_cell_call (c : call) : bool :=
  match c with CEntity kTria _ _ => true | CEntity kQuad _ _ => true | _ => false end.

Definition count_calls (p : call -> bool) (h : list call) : nat :=
  length (filter p h).
Definition points_of (h : list call) : nat := count_calls is_point_call h.
Definition entity_data (c : call) : list nat * bool :=
  match c with CPoint g => ([], g) | CEntity _ ns g => (ns, g) end.
Definition segments_of (h : list call) : list (list nat * bool) :=
  map entity_data (filter is_segment_call h).
Definition cells_of (h : list call) : list (list nat * bool) :=
  map entity_data (filter is_cell_call h).

(** Two calls are of the same kind if they add entities of the same
    co-dimension; the kind determines the numbering the call takes part in. *)
Definition same_kind (a b : call) : bool :=
  (is_point_call a && is_point_call b) ||
  (is_segment_call a && is_segment_call b) ||
  (is_cell_call a && is_cell_call b).

(** Side [j] of a polygon with corners [ns]: from corner [j] to the next one. *)
Definition side (ns : list nat) (j : nat) : nat * nat :=
  (nth j ns 0, nth (S j mod length ns) ns 0).

(** Equality of unordered pairs. *)
Definition same_pair (a b : nat * nat) : Prop :=
  (fst a = fst b /\ snd a = snd b) \/ (fst a = snd b /\ snd a = fst b).

Definition ends (s : segment) : nat * nat := (s_p0 s, s_p1 s).

(** [a,b] is a side of some cell of the history / a supplied segment. *)
Definition is_side (h : list call) (p : nat * nat) : Prop :=
  exists ns g j, In (ns, g) (cells_of h) /\ j < length ns /\ same_pair p (side ns j).
Definition is_supplied (h : list call) (p : nat * nat) : Prop :=
  exists a b g, In ([a; b], g) (segments_of h) /\ same_pair p (a, b).

(** A call is legal after [np] points have been added. *)
Definition legal_call (np : nat) (c : call) : Prop :=
  match c with
  | CPoint g => g = true
  | CEntity t ns _ =>
      t <> kPoint /\ length ns = num_nodes t /\ Forall (fun n => n < np) ns
  end.
(** A legal history: every call is legal after the points added before it. *)
Definition legal (h : list call) : Prop :=
  forall i c, nth_error h i = Some c -> legal_call (points_of (firstn i h)) c.

(** Consistent input: supplied segments have a geometry and two different
    endpoints, no two of them have the same endpoints, and neighbouring corners
    of cells are different. *)
Definition consistent (h : list call) : Prop :=
  (forall a b g, In ([a; b], g) (segments_of h) -> g = true /\ a <> b) /\
  (forall k l a b g a' b' g',
     nth_error (segments_of h) k = Some ([a; b], g) ->
     nth_error (segments_of h) l = Some ([a'; b'], g') ->
     same_pair (a, b) (a', b') -> k = l) /\
  (forall ns g j, In (ns, g) (cells_of h) -> j < length ns ->
     fst (side ns j) <> snd (side ns j)).

(** A complete mesh: every supplied segment is a side of a cell and every point
    is an endpoint of an edge (supplied segment or side of a cell). *)
Definition complete (h : list call) : Prop :=
  (forall a b g, In ([a; b], g) (segments_of h) -> is_side h (a, b)) /\
  (forall v, v < points_of h ->
     exists p, (is_supplied h p \/ is_side h p) /\ fst p = v).

(** The mesh a history leads to. *)
Definition built (check : bool) (h : list call) (m : mesh_obj) : Prop :=
  exists rets f, run h (new_factory check) = Ok (rets, f) /\ fst (build f) = Ok m.

(** Using one factory for several meshes in a row. *)
Fixpoint session (hs : list (list call)) (f : factory) : list (res mesh_obj) :=
  match hs with
  | [] => []
  | h :: r =>
      match run h f with
      | Ok (_, f') => fst (build f') :: session r (snd (build f'))
      | _ => [Assert]
      end
  end.
(** The mesh obtained from a new factory of its own. *)
Definition alone (check : bool) (h : list call) : res mesh_obj :=
  match run h (new_factory check) with
  | Ok (_, f) => fst (build f)
  | _ => Assert
  end.
