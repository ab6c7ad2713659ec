(** Properties C24-C27 and C62: choice of refinement patterns.  The theorems
    quantify over all well-formed meshes, i.e. (C07) over everything a mesh
    factory can build. *)
From Coq Require Import List Arith Lia Bool ZArith Reals Lra.
Import ListNotations.
From Verif Require Import Base MeshModel MeshView RefPatModel RefPatSpec RefineModel RefineSpec RefineProofs2 PropMeshView.
Local Open Scope nat_scope.

(** ** C24: the nodes used for child cells and interior edges sit at the corners
    of the child polygons of the pattern, in the same order. *)
Theorem C24_nodes_at_corners_of_children : forall P lc k, (k > 0)%Z -> p_lc P = (6 * k)%Z ->
  (p_el P = kTria \/ p_el P = kQuad) ->
  children_of (p_el P) (p_pat P) (p_anchor P) = Ok lc ->
  exists cs es ps, ChildPolygons P 0 = Ok cs /\ ChildPolygons P 1 = Ok es /\ ChildPolygons P 2 = Ok ps /\
    map (map (to_ref (p_lc P))) cs = map (map (loc (p_el P))) (lc_cells lc) /\
    map (map (to_ref (p_lc P))) es = map (fun e => [loc (p_el P) (fst e); loc (p_el P) (snd e)]) (lc_edges lc) /\
    map (map (to_ref (p_lc P))) ps = (if lc_centre lc then [[loc (p_el P) RefineModel.C]] else []).
Proof. exact topology_located. Qed.
Print Assumptions C24_nodes_at_corners_of_children.

(** The mesh hierarchy knows the same patterns as the refinement patterns do. *)
Theorem C24_same_patterns : forall P, (p_el P = kTria \/ p_el P = kQuad) -> p_pat P <> rp_nil ->
  (exists lc, children_of (p_el P) (p_pat P) (p_anchor P) = Ok lc) <-> (exists l, ChildPolygons P 0 = Ok l).
Proof. exact topology_accepts. Qed.
Print Assumptions C24_same_patterns.

Example C24_example : exists P lc, new_pattern kQuad rp_threeedge (Some 1) = Ok P /\
  children_of (p_el P) (p_pat P) (p_anchor P) = Ok lc /\ p_lc P = (6 * 1)%Z /\ p_el P = kQuad /\
  lc_cells lc = [[V 3; V 0; M 0; M 2]; [V 1; M 1; M 0]; [V 2; M 1; M 2]; [M 1; M 2; M 0]] /\
  ChildPolygons P 0 = Ok [[[0; 6]; [0; 0]; [3; 0]; [3; 6]]; [[6; 0]; [6; 3]; [3; 0]];
                          [[6; 6]; [6; 3]; [3; 6]]; [[6; 3]; [3; 6]; [3; 0]]]%Z.
Proof. do 2 eexists. repeat (split; [vm_compute; reflexivity|]). vm_compute. reflexivity. Qed.

(** ** C25: the closure of RefineMarked terminates, after at most as many passes
    as there are edges, plus one, and no check fails. *)
Theorem C25_closure_terminates : forall L, wf_mesh (l_mesh L) -> unrefined L ->
  exists L', forall fuel, S (length (mv_edges (l_mesh L))) <= fuel -> mark_closure fuel L = Some (Ok L').
Proof. intros L W U. destruct (marking_closure L W U) as (L' & H & _). exists L'. exact H. Qed.
Print Assumptions C25_closure_terminates.

(** The levels met in practice: the base level of a hierarchy. *)
Theorem C25_base_level_unrefined : forall longest m, (forall i, longest i < 3) -> unrefined (base_level longest m).
Proof. exact base_unrefined. Qed.
Print Assumptions C25_base_level_unrefined.

(** ** C26: the edges that are split form the least admissible set that contains
    the marked edges. *)
Theorem C26_least_admissible_set : forall L, wf_mesh (l_mesh L) -> unrefined L ->
  exists L', mark_closure (S (length (mv_edges (l_mesh L)))) L = Some (Ok L') /\ l_mesh L' = l_mesh L /\
    (forall e, is_marked L e -> is_split L' e) /\ admissible L (is_split L') /\
    (forall (S : nat -> Prop) e, (forall x, is_marked L x -> S x) -> admissible L S -> is_split L' e -> S e).
Proof.
  intros L W U. destruct (marking_closure L W U) as (L' & H & _ & E & _ & _ & _ & _ & _ & R).
  exists L'. split; [apply H; lia|]. split; [exact E|exact R].
Qed.
Print Assumptions C26_least_admissible_set.

Theorem C26_nothing_marked : forall L L', wf_mesh (l_mesh L) -> unrefined L ->
  mark_closure (S (length (mv_edges (l_mesh L)))) L = Some (Ok L') ->
  (forall e, ~ is_marked L e) -> forall e, ~ is_split L' e.
Proof. exact nothing_marked. Qed.
Print Assumptions C26_nothing_marked.

(** ** C27: patterns and anchors subdivide exactly the edges that are split. *)
Theorem C27_patterns_compatible : forall L, wf_mesh (l_mesh L) -> unrefined L ->
  exists L', mark_closure (S (length (mv_edges (l_mesh L)))) L = Some (Ok L') /\ l_mesh L' = l_mesh L /\ compatible L'.
Proof.
  intros L W U. destruct (marking_closure L W U) as (L' & H & Co & E & _).
  exists L'. split; [apply H; lia|]. split; [exact E|exact Co].
Qed.
Print Assumptions C27_patterns_compatible.

Theorem C27_uniform_compatible : forall p L, wf_mesh (l_mesh L) -> unrefined L -> (p = rp_regular \/ p = rp_barycentric) ->
  exists L', flag_uniform p L = Ok L' /\ compatible L' /\ l_mesh L' = l_mesh L /\ l_refedge L' = l_refedge L /\
    l_ppar L' = l_ppar L /\ l_epar L' = l_epar L /\ l_cpar L' = l_cpar L /\
    (forall e, e < length (mv_edges (l_mesh L)) -> is_split L' e) /\
    (forall i ci, nth_error (l_cells L') i = Some ci -> cc_pat ci = p).
Proof. exact uniform_flags. Qed.
Print Assumptions C27_uniform_compatible.

(** Neighbours agree on their common edge. *)
Theorem C27_no_hanging_nodes : forall L i1 i2 c1 c2 d1 d2 j1 j2 e, compatible L ->
  nth_error (mv_cells (l_mesh L)) i1 = Some c1 -> nth_error (l_cells L) i1 = Some d1 ->
  nth_error (mv_cells (l_mesh L)) i2 = Some c2 -> nth_error (l_cells L) i2 = Some d2 ->
  nth_error (cv_edges c1) j1 = Some e -> nth_error (cv_edges c2) j2 = Some e ->
  (In j1 (split_edges (cv_type c1) (cc_pat d1) (anchor_nat (cc_anchor d1))) <->
   In j2 (split_edges (cv_type c2) (cc_pat d2) (anchor_nat (cc_anchor d2)))).
Proof. exact compatible_neighbours. Qed.
Print Assumptions C27_no_hanging_nodes.

(** A mesh of two triangles and a quadrilateral in which marking one edge forces
    two more to be split, one of them in a second pass. *)
Definition closure_mesh : mesh := mkMeshV 6
  [(0, 1); (1, 2); (2, 0); (2, 3); (3, 0); (3, 4); (4, 5); (5, 0)]
  [mkCellv [0; 1; 2] [0; 1; 2] [true; true; true];
   mkCellv [0; 2; 3] [2; 3; 4] [false; true; true];
   mkCellv [0; 3; 4; 5] [4; 5; 6; 7] [false; true; true; true]].
Example closure_mesh_wf : wf_mesh closure_mesh /\ complete_mesh closure_mesh.
Proof.
  split; [constructor|split].
  - cbn [mv_cells closure_mesh]. repeat (apply Forall_cons || apply Forall_nil);
      (constructor; [cbn; auto|reflexivity|reflexivity| |]).
    all: try (cbn; repeat constructor; lia).
    all: intros j Hj; unfold local_edge_ok; cbn in *;
      destruct j as [|[|[|[|j]]]]; try lia; do 4 eexists; repeat (split; [reflexivity|]); cbn; auto.
  - intros i a b H. do 8 (destruct i as [|i]; [cbn in H; injection H as <- <-; cbn; lia|]). destruct i; discriminate.
  - intros i j a b c d H1 H2 E.
    do 8 (destruct i as [|i]; [cbn in H1; injection H1 as <- <-;
       do 8 (destruct j as [|j]; [try reflexivity; cbn in H2; injection H2 as <- <-; lia|]); destruct j; discriminate|]).
    destruct i; discriminate.
  - intros i Hi. cbn in Hi. cbn [mv_cells closure_mesh].
    do 8 (destruct i as [|i]; [first [ eexists; split; [left; reflexivity|cbn; tauto]
      | eexists; split; [right; left; reflexivity|cbn; tauto]
      | eexists; split; [right; right; left; reflexivity|cbn; tauto]]|]). lia.
  - intros v Hv. cbn in Hv.
    do 6 (destruct v as [|v]; [first [exists 0, 1; split; [cbn; tauto|lia] | exists 2, 3; split; [cbn; tauto|lia]
      | exists 4, 5; split; [cbn; tauto|lia]]|]). lia.
Qed.
Definition closure_level : level :=
  let L := base_level (fun i => if i =? 0 then 2 else 0) closure_mesh in
  mkLevel (l_mesh L) (l_points L) (l_edges L) (l_cells L) (l_ppar L) (l_epar L) (l_cpar L) (l_refedge L)
    [false; true; false; false; true; false; false; false].
Example C26_example : wf_mesh (l_mesh closure_level) /\ unrefined closure_level /\
  exists L', mark_closure 9 closure_level = Some (Ok L') /\
    map ec_pat (l_edges L') = [rp_copy; rp_split; rp_split; rp_copy; rp_split; rp_copy; rp_copy; rp_copy] /\
    map (fun c => (cc_pat c, cc_anchor c)) (l_cells L') =
      [(rp_trisect_left, Some 2); (rp_trisect_left, Some 0); (rp_trisect, Some 0)].
Proof.
  split; [exact (proj1 closure_mesh_wf)|]. split.
  - do 3 (split; [reflexivity|]). split; [reflexivity|]. split; [reflexivity|].
    intros i c H T. cbn in *. destruct i as [|[|[|i]]]; cbn in *.
    + exists 2. split; [reflexivity|lia].
    + exists 0. split; [reflexivity|lia].
    + injection H as <-. discriminate.
    + destruct i; discriminate.
  - eexists. split; [vm_compute; reflexivity|]. split; reflexivity.
Qed.

(** ** C62: the refinement edge of a triangle of the base mesh is its longest edge,
    the first one if there are several. *)
Theorem C62_longest_edge : forall len, len <> [] -> (forall x, In x len -> (0 < x)%R) ->
  let r := LongestEdge (fun a b => if Rlt_dec a b then true else false) 0%R len in
  r < length len /\ (forall i, i < length len -> (nth i len 0 <= nth r len 0)%R) /\
  (forall i, i < r -> (nth i len 0 < nth r len 0)%R).
Proof. exact longest_edge_spec. Qed.
Print Assumptions C62_longest_edge.

Example C62_example : LongestEdge (fun a b => if Rlt_dec a b then true else false) 0%R [1; 3; 3]%R = 1.
Proof.
  unfold LongestEdge. cbn [longest_loop]. repeat match goal with |- context [Rlt_dec ?a ?b] => destruct (Rlt_dec a b); try lra end.
  reflexivity.
Qed.
