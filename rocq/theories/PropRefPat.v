(** Properties C21-C23: refinement patterns of reference elements. *)
From Coq Require Import List Arith Lia Bool ZArith Reals.
Import ListNotations.
From Verif Require Import Base MeshModel RefPatModel RefPatSpec RefPatProofs RefPatProofs2.
Local Open Scope Z_scope.

(** ** C21: NumChildren and ChildPolygons agree. *)

(** The announced number of children is the number of polygons. *)
Theorem C21_counts_agree : forall P codim n l, implemented (p_el P) (p_pat P) = true ->
  NumChildren P codim = Ok n -> ChildPolygons P codim = Ok l -> n = length l.
Proof. exact children_count. Qed.
Print Assumptions C21_counts_agree.

(** Implemented patterns are accepted by both; the polygons need the anchor if
    the pattern has one. *)
Theorem C21_implemented_accepted : forall P codim, (codim <= el_dim (p_el P))%nat ->
  implemented (p_el P) (p_pat P) = true ->
  (exists n, NumChildren P codim = Ok n) /\
  (good_anchor (p_el P) (p_pat P) (p_anchor P) -> exists l, ChildPolygons P codim = Ok l).
Proof. exact children_outcome. Qed.
Print Assumptions C21_implemented_accepted.

(** For cells, children (cells and edges) of unimplemented patterns are rejected by both. *)
Theorem C21_unimplemented_rejected : forall P codim, (p_el P = kTria \/ p_el P = kQuad) -> (codim < 2)%nat ->
  implemented (p_el P) (p_pat P) = false -> NumChildren P codim = Throw /\ ChildPolygons P codim = Throw.
Proof. exact rejected. Qed.
Print Assumptions C21_unimplemented_rejected.

Theorem C21_missing_anchor_rejected : forall P codim, (p_el P = kTria \/ p_el P = kQuad) -> (codim < 2)%nat ->
  needs_anchor (p_el P) (p_pat P) = true -> p_anchor P = None -> ChildPolygons P codim = Throw.
Proof. exact missing_anchor. Qed.
Print Assumptions C21_missing_anchor_rejected.

(** "One is rejected iff the other is" does not hold: a regular pattern for a
    point, splitting a triangle without anchor, trisecting a segment. *)
Theorem C21_rejected_together_refuted :
  (exists P l, ChildPolygons P 0 = Ok l /\ NumChildren P 0 = Throw /\ p_el P = kPoint) /\
  (exists P l, ChildPolygons P 1 = Ok l /\ NumChildren P 1 = Throw /\ p_el P = kSegment) /\
  (exists P n, NumChildren P 0 = Ok n /\ ChildPolygons P 0 = Throw /\ p_el P = kTria).
Proof.
  split; [|split].
  - exists (mkPattern kPoint rp_regular None 6). eexists. split; [vm_compute; reflexivity|]. split; reflexivity.
  - exists (mkPattern kSegment rp_trisect None 6). eexists. split; [vm_compute; reflexivity|]. split; reflexivity.
  - exists (mkPattern kTria rp_bisect None 6). eexists. split; [vm_compute; reflexivity|]. split; reflexivity.
Qed.
Print Assumptions C21_rejected_together_refuted.

Example C21_example : exists P, new_pattern kQuad rp_threeedge (Some 2%nat) = Ok P /\
  implemented (p_el P) (p_pat P) = true /\ good_anchor (p_el P) (p_pat P) (p_anchor P) /\
  NumChildren P 0 = Ok 4%nat /\
  ChildPolygons P 0 = Ok [[[0; 0]; [6; 0]; [6; 3]; [0; 3]]; [[6; 6]; [3; 6]; [6; 3]];
                          [[0; 6]; [3; 6]; [0; 3]]; [[3; 6]; [0; 3]; [6; 3]]].
Proof.
  eexists. split; [vm_compute; reflexivity|]. split; [reflexivity|]. split; [cbn; lia|].
  split; vm_compute; reflexivity.
Qed.

(** ** C22: the children of a cell tile it. *)
Theorem C22_children_tile : forall P k l, (p_el P = kTria \/ p_el P = kQuad) -> k > 0 -> p_lc P = 6 * k ->
  p_pat P <> rp_nil -> good_anchor (p_el P) (p_pat P) (p_anchor P) ->
  ChildPolygons P 0 = Ok l -> tiles (p_el P) (map (map (to_ref (p_lc P))) l).
Proof. exact tiling. Qed.
Print Assumptions C22_children_tile.

(** All patterns made by the constructors have a lattice constant that is a multiple of 6. *)
Theorem C22_constructed : forall t p a P, new_pattern t p a = Ok P ->
  p_el P = t /\ p_pat P = p /\ p_anchor P = a /\ p_lc P = 6 * 1 /\
  (needs_anchor t p = true -> a = None \/ good_anchor t p a) /\ (needs_anchor t p = false -> good_anchor t p a).
Proof. exact constructed. Qed.
Print Assumptions C22_constructed.

Example C22_example : exists P l, new_pattern kTria rp_trisect_left (Some 1%nat) = Ok P /\
  ChildPolygons P 0 = Ok l /\ l = [[[6; 0]; [3; 3]; [3; 0]]; [[0; 6]; [3; 3]; [0; 0]]; [[0; 0]; [3; 3]; [3; 0]]] /\
  tiles kTria (map (map (to_ref 6)) l).
Proof.
  eexists. eexists. split; [vm_compute; reflexivity|]. split; [vm_compute; reflexivity|]. split; [reflexivity|].
  refine (C22_children_tile (mkPattern kTria rp_trisect_left (Some 1%nat) 6) 1 _ _ _ _ _ _ _).
  - left; reflexivity.
  - lia.
  - reflexivity.
  - discriminate.
  - cbn; lia.
  - vm_compute. reflexivity.
Qed.

(** ** C23: sides of children are the (halves of the) split edges, once, and the
    interior edges, twice; interior child points are the interior corners. *)
Theorem C23_edge_traces : forall P k cs es ps, (p_el P = kTria \/ p_el P = kQuad) -> k > 0 -> p_lc P = 6 * k ->
  p_pat P <> rp_nil -> good_anchor (p_el P) (p_pat P) (p_anchor P) ->
  ChildPolygons P 0 = Ok cs -> ChildPolygons P 1 = Ok es -> ChildPolygons P 2 = Ok ps ->
  let R := map (map (to_ref (p_lc P))) in
  same_segs (flat_map sides (R cs))
    (boundary_traces (p_el P)
       (split_edges (p_el P) (p_pat P) (match p_anchor P with Some a => a | None => 0%nat end)) ++
     map pair_of (R es) ++ map pair_of (R es)) /\
  (forall e, In e (R es) -> length e = 2%nat /\ inside_ref (p_el P) (midpoint (fst (pair_of e)) (snd (pair_of e)))) /\
  (forall q, In q (R ps) -> length q = 1%nat) /\
  (forall q, In [q] (R ps) <-> (inside_ref (p_el P) q /\ exists c, In c (R cs) /\ In q c)).
Proof. exact traces. Qed.
Print Assumptions C23_edge_traces.

Example C23_example : exists P cs es ps, new_pattern kQuad rp_quadsect (Some 3%nat) = Ok P /\
  ChildPolygons P 0 = Ok cs /\ ChildPolygons P 1 = Ok es /\ ChildPolygons P 2 = Ok ps /\
  length es = 3%nat /\ split_edges kQuad rp_quadsect 3 = [3; 0]%nat.
Proof.
  do 4 eexists. split; [vm_compute; reflexivity|]. split; [vm_compute; reflexivity|].
  split; [vm_compute; reflexivity|]. split; [vm_compute; reflexivity|]. split; reflexivity.
Qed.
