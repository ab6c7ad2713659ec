(** Properties C01-C06: construction of a mesh from a history of factory calls. *)
From Coq Require Import List Arith Lia Bool.
Import ListNotations.
From Verif Require Import Base MeshModel MeshSpec MeshProofs5.

(** A concrete history: five points, one supplied edge, a triangle with its own
    geometry and a quadrilateral without one, sharing the edge 1-2. *)
Definition example_history : list call :=
  [CPoint true; CPoint true; CPoint true; CEntity kTria [0;1;2] true; CPoint true;
   CPoint true; CEntity kSegment [4;1] true; CEntity kQuad [2;1;4;3] false].

Example example_built : exists M, built true example_history M /\
  num_entities 0 M = 2 /\ num_entities 1 M = 6 /\ num_entities 2 M = 5.
Proof. eexists. split; [eexists; eexists; split; vm_compute; reflexivity|]. vm_compute; auto. Qed.

Example example_legal : legal example_history /\ consistent example_history /\ complete example_history.
Proof.
  destruct example_built as (M & (rets & f & R & B) & _).
  destruct (build_outcome true example_history) as (L & _ & O).
  assert (legal example_history) by (apply L; eauto).
  destruct (O rets f R) as [O1 _]. destruct O1 as [O1 _]. destruct O1; eauto.
Qed.

(** An incomplete history: point 3 belongs to no edge. *)
Example example_incomplete : exists rets f,
  run [CPoint true; CPoint true; CPoint true; CPoint true; CEntity kTria [0;1;2] false]
      (new_factory true) = Ok (rets, f) /\ fst (build f) = Throw.
Proof. eexists; eexists; split; vm_compute; reflexivity. Qed.

(** C01: the number returned by an Add call is the number of earlier calls of the
    same kind, and it is the index under which the finished mesh knows the
    entity, with the same nodes in the same order. *)
Theorem C01_factory_index_contract : forall check h rets f M,
  run h (new_factory check) = Ok (rets, f) -> fst (build f) = Ok M ->
  length rets = length h /\
  (forall i c, nth_error h i = Some c ->
     nth_error rets i = Some (count_calls (same_kind c) (firstn i h))) /\
  num_entities 2 M = points_of h /\
  (forall k ns g, nth_error (segments_of h) k = Some (ns, g) ->
     exists s, edge_by_index M k = Some s /\ s_index s = k /\
               ns = [s_p0 s; s_p1 s] /\ s_geo s = EGiven k) /\
  num_entities 0 M = length (cells_of h) /\
  (forall k ns g, nth_error (cells_of h) k = Some (ns, g) ->
     exists c, cell_by_index M k = Some c /\ c_index c = k /\ c_nodes c = ns /\ c_geo c = g).
Proof. exact index_contract. Qed.
Print Assumptions C01_factory_index_contract.

(** C02: exactly one edge for every pair of nodes joined by a supplied segment or
    by a side of a cell, and no other edges. *)
Theorem C02_one_edge_per_node_pair : forall check h M, built check h M ->
  (forall i j s s', edge_by_index M i = Some s -> edge_by_index M j = Some s' ->
     same_pair (ends s) (ends s') -> i = j) /\
  (forall p, (exists i s, edge_by_index M i = Some s /\ same_pair (ends s) p) <->
             (is_supplied h p \/ is_side h p)) /\
  (forall i s, edge_by_index M i = Some s ->
     s_p0 s <> s_p1 s /\ s_p0 s < num_entities 2 M /\ s_p1 s < num_entities 2 M).
Proof. exact one_edge_per_pair. Qed.
Print Assumptions C02_one_edge_per_node_pair.

(** C03: local edge j of a cell joins corner j and corner j+1, and its relative
    orientation is positive exactly if the edge runs from corner j. *)
Theorem C03_incidence_and_orientation : forall check h M, built check h M ->
  forall i c, cell_by_index M i = Some c ->
    length (c_segs c) = length (c_nodes c) /\ length (c_ori c) = length (c_nodes c) /\
    forall j, j < length (c_nodes c) -> exists s o,
      cell_edge M c j = Some s /\ edge_by_index M (s_index s) = Some s /\
      nth_error (c_ori c) j = Some o /\
      (if o then ends s = side (c_nodes c) j
       else ends s = (snd (side (c_nodes c) j), fst (side (c_nodes c) j))).
Proof. exact incidence. Qed.
Print Assumptions C03_incidence_and_orientation.

(** C03, geometry: an edge whose geometry is inherited from a cell runs in the
    direction of that side of the cell; a straight default edge joins its own
    endpoints and is used only if nobody supplied a geometry. *)
Theorem C03_edge_geometry_orientation : forall check h M, built check h M ->
  forall i s, edge_by_index M i = Some s ->
    match s_geo s with
    | EGiven k => k = i /\ nth_error (segments_of h) k = Some ([s_p0 s; s_p1 s], true)
    | ECell c j => exists ns, nth_error (cells_of h) c = Some (ns, true) /\
                     j < length ns /\ ends s = side ns j
    | EStraight a b => ends s = (a, b) /\ ~ is_supplied h (ends s) /\
        forall ns g j, In (ns, g) (cells_of h) -> j < length ns ->
          same_pair (ends s) (side ns j) -> g = false
    end.
Proof. exact edge_geometry. Qed.
Print Assumptions C03_edge_geometry_orientation.

(** C04: exactly the legal histories are accepted by the Add calls; Build succeeds
    exactly on consistent input that is complete (if completeness is checked), and
    throws exactly on consistent but incomplete input. *)
Theorem C04_build_outcome : forall check h,
  (legal h <-> exists rets f, run h (new_factory check) = Ok (rets, f)) /\
  (run h (new_factory check) <> Throw) /\
  (forall rets f, run h (new_factory check) = Ok (rets, f) ->
     ((exists M, fst (build f) = Ok M) <-> consistent h /\ (check = true -> complete h)) /\
     (fst (build f) = Throw <-> consistent h /\ check = true /\ ~ complete h)).
Proof. exact build_outcome. Qed.
Print Assumptions C04_build_outcome.

(** C05: for every co-dimension the indices 0..N-1 and the entities are in
    one-to-one correspondence, and EntityByIndex inverts Index. *)
Theorem C05_numbering_bijective : forall check h M, built check h M ->
  num_entities 0 M = length (cells_of h) /\
  num_entities_of_type kTria M = length (filter (fun x => length (fst x) =? 3) (cells_of h)) /\
  num_entities_of_type kQuad M = length (filter (fun x => length (fst x) =? 4) (cells_of h)) /\
  (forall i, i < num_entities 0 M -> exists c, cell_by_index M i = Some c /\ c_index c = i) /\
  (forall i, num_entities 0 M <= i -> cell_by_index M i = None) /\
  (forall c, In c (m_trias M) -> cell_by_index M (c_index c) = Some c /\ c_type c = kTria) /\
  (forall c, In c (m_quads M) -> cell_by_index M (c_index c) = Some c /\ c_type c = kQuad) /\
  (forall i, i < num_entities 1 M -> exists s, edge_by_index M i = Some s /\ s_index s = i) /\
  (forall i, num_entities 1 M <= i -> edge_by_index M i = None) /\
  (forall s, In s (m_segments M) -> edge_by_index M (s_index s) = Some s) /\
  (forall p q s s', nth_error (m_segments M) p = Some s -> nth_error (m_segments M) q = Some s' ->
     s_index s = s_index s' -> p = q) /\
  num_entities 2 M = points_of h /\
  (forall i, i < num_entities 2 M -> node_by_index M i = Some i) /\
  (forall i, num_entities 2 M <= i -> node_by_index M i = None).
Proof. exact numbering. Qed.
Print Assumptions C05_numbering_bijective.

(** C06: a factory used for several meshes in a row yields the meshes that new
    factories would have yielded, also after a Build that threw. *)
Theorem C06_factory_reusable : forall check hs,
  (forall h, In h hs -> legal h) ->
  session hs (new_factory check) = map (alone check) hs.
Proof. exact factory_reusable. Qed.
Print Assumptions C06_factory_reusable.

Example C06_nontrivial : exists hs, length hs = 2 /\ (forall h, In h hs -> legal h) /\
  Forall (fun r => exists M, r = Ok M) (session hs (new_factory true)).
Proof.
  exists [example_history; example_history]. split; auto. split.
  - intros h [<-|[<-|[]]]; apply example_legal.
  - rewrite factory_reusable.
    + repeat constructor; eexists; vm_compute; reflexivity.
    + intros h [<-|[<-|[]]]; apply example_legal.
Qed.
