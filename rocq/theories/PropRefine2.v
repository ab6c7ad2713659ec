(** Properties C28-C32: carrying out a refinement.  [simple_mesh] (no cell with a
    repeated corner, no two cells with three common corners) holds for the cells of
    every triangulation of a surface in the usual sense; C28_degenerate_refuted shows that
    it cannot be dropped. *)
From Coq Require Import List Arith Lia Bool ZArith Reals.
Import ListNotations.
From Verif Require Import Base MeshModel MeshView RefPatModel RefPatSpec RefineModel RefineSpec RefineProofs2 RefineProofs5 PropRefine.
Local Open Scope nat_scope.

(** ** C28: refining succeeds; the new mesh is a valid mesh again, is made up of
    what the child information says, and the decisions of the coarse level stand. *)
Theorem C28_refinement_succeeds : forall longest L check, wf_mesh (l_mesh L) -> simple_mesh (l_mesh L) -> compatible L ->
  refedge_ok (l_mesh L) (l_refedge L) -> (forall i, longest i < 3) -> (check = true -> complete_mesh (l_mesh L)) ->
  exists L1 L', PerformRefinement longest L (new_factory check) = Ok (L1, L', new_factory check) /\
    same_decisions L L1 /\ unrefined L' /\ wf_mesh (l_mesh L') /\ simple_mesh (l_mesh L') /\
    (complete_mesh (l_mesh L) -> complete_mesh (l_mesh L')) /\ refined_to L1 (l_mesh L').
Proof.
  intros longest L check W S Co R Lg Cm. destruct (step longest L check W S Co R Lg Cm) as (L1 & L' & P & Q & _).
  exists L1, L'. split; [exact P|exact Q].
Qed.
Print Assumptions C28_refinement_succeeds.

(** Any sequence of MarkEdges, RefineRegular and RefineMarked succeeds; all meshes
    of the hierarchy are valid and consecutive levels fit together. *)
Theorem C28_any_history : forall ops longest check m, wf_mesh m -> simple_mesh m -> (check = true -> complete_mesh m) ->
  (forall i, longest i < 3) -> Forall good_hop ops ->
  exists H, run_hops ops (new_hierarchy longest m (new_factory check)) = Ok H /\
    length (levels H) = S (length (filter is_refinement ops)) /\
    (exists L0, nth_error (levels H) 0 = Some L0 /\ l_mesh L0 = m) /\
    (forall L, In L (levels H) -> wf_mesh (l_mesh L) /\ simple_mesh (l_mesh L) /\ (complete_mesh m -> complete_mesh (l_mesh L))) /\
    (forall i L L', nth_error (levels H) i = Some L -> nth_error (levels H) (S i) = Some L' -> refined_to L (l_mesh L') /\ linked L L').
Proof. exact any_history. Qed.
Print Assumptions C28_any_history.

(** For a mesh that is not simple, the claim fails: two triangles glued along all
    three sides form a valid, complete mesh, but its refinement runs into an assertion. *)
Definition pillow : mesh := mkMeshV 3 [(0, 1); (1, 2); (2, 0)]
  [mkCellv [0; 1; 2] [0; 1; 2] [true; true; true]; mkCellv [0; 1; 2] [0; 1; 2] [true; true; true]].
Theorem C28_degenerate_refuted : exists m, wf_mesh m /\ complete_mesh m /\
  RefineRegular (fun _ => 0) rp_regular (new_hierarchy (fun _ => 0) m (new_factory true)) = Assert.
Proof.
  exists pillow. split; [|split; [|vm_compute; reflexivity]].
  - constructor.
    + cbn [mv_cells pillow]. repeat (apply Forall_cons || apply Forall_nil); (constructor; [cbn; auto|reflexivity|reflexivity| |]).
      all: try (cbn; repeat constructor; lia).
      all: intros j Hj; unfold local_edge_ok; cbn in *; destruct j as [|[|[|[|j]]]]; try lia; do 4 eexists; repeat (split; [reflexivity|]); cbn; auto.
    + intros i a b H. do 3 (destruct i as [|i]; [cbn in H; injection H as <- <-; cbn; lia|]). destruct i; discriminate.
    + intros i j a b c d H1 H2 E.
      do 3 (destruct i as [|i]; [cbn in H1; injection H1 as <- <-;
       do 3 (destruct j as [|j]; [try reflexivity; cbn in H2; injection H2 as <- <-; lia|]); destruct j; discriminate|]).
      destruct i; discriminate.
  - split.
    + intros i Hi. cbn in Hi. eexists. split; [left; reflexivity|]. cbn. lia.
    + intros v Hv. cbn in Hv. do 3 (destruct v as [|v]; [first [exists 0, 1; split; [cbn; tauto|lia] | exists 1, 2; split; [cbn; tauto|lia]]|]). lia.
Qed.
Print Assumptions C28_degenerate_refuted.

(** ** C29: numbers of nodes, edges and cells of the refined mesh. *)
Theorem C29_entity_counts : forall longest L check L1 L' f, wf_mesh (l_mesh L) -> simple_mesh (l_mesh L) -> compatible L ->
  refedge_ok (l_mesh L) (l_refedge L) -> (forall i, longest i < 3) -> (check = true -> complete_mesh (l_mesh L)) ->
  PerformRefinement longest L (new_factory check) = Ok (L1, L', f) ->
  exists nc ne np, cell_children L1 0 nc /\ cell_children L1 1 ne /\ cell_children L1 2 np /\
    mv_nodes (l_mesh L') = mv_nodes (l_mesh L) + num_split L1 + np /\
    length (mv_edges (l_mesh L')) = num_copied L1 + 2 * num_split L1 + ne /\
    length (mv_cells (l_mesh L')) = nc.
Proof.
  intros longest L check L1 L' f W S Co R Lg Cm P. destruct (step longest L check W S Co R Lg Cm) as (A & B & P' & _ & _ & Q & _).
  rewrite P in P'. injection P' as -> -> _. exact Q.
Qed.
Print Assumptions C29_entity_counts.

Theorem C29_regular_counts : forall longest H check, let m := l_mesh (h_finest H) in
  wf_mesh m -> simple_mesh m -> unrefined (h_finest H) -> h_factory H = new_factory check -> (check = true -> complete_mesh m) ->
  (forall i, longest i < 3) ->
  exists L1 L', RefineRegular longest rp_regular H = Ok (mkHier (h_coarser H ++ [L1]) L' (new_factory check)) /\ l_mesh L1 = m /\
    mv_nodes (l_mesh L') = mv_nodes m + length (mv_edges m) + quad_count m /\
    length (mv_edges (l_mesh L')) = 2 * length (mv_edges m) + 3 * tria_count m + 4 * quad_count m /\
    length (mv_cells (l_mesh L')) = 4 * tria_count m + 4 * quad_count m.
Proof.
  intros longest H check m W S U HF HC HL.
  destruct (uniform_step longest rp_regular H check (or_introl eq_refl) W S U HF HC HL) as (L1 & L' & E & HM & _ & _ & _ & _ & _ & _ & _ & _ & _ & X).
  exists L1, L'. split; [exact E|]. split; [exact HM|]. cbn [uniform_numbers] in X. fold m in X. lia.
Qed.
Print Assumptions C29_regular_counts.

Theorem C29_barycentric_counts : forall longest H check, let m := l_mesh (h_finest H) in
  wf_mesh m -> simple_mesh m -> unrefined (h_finest H) -> h_factory H = new_factory check -> (check = true -> complete_mesh m) ->
  (forall i, longest i < 3) ->
  exists L1 L', RefineRegular longest rp_barycentric H = Ok (mkHier (h_coarser H ++ [L1]) L' (new_factory check)) /\ l_mesh L1 = m /\
    mv_nodes (l_mesh L') = mv_nodes m + length (mv_edges m) + tria_count m + quad_count m /\
    length (mv_edges (l_mesh L')) = 2 * length (mv_edges m) + 6 * tria_count m + 4 * quad_count m /\
    length (mv_cells (l_mesh L')) = 6 * tria_count m + 4 * quad_count m.
Proof.
  intros longest H check m W S U HF HC HL.
  destruct (uniform_step longest rp_barycentric H check (or_intror eq_refl) W S U HF HC HL) as (L1 & L' & E & HM & _ & _ & _ & _ & _ & _ & _ & _ & _ & X).
  exists L1, L'. split; [exact E|]. split; [exact HM|]. cbn [uniform_numbers] in X. fold m in X. lia.
Qed.
Print Assumptions C29_barycentric_counts.

(** ** C30: child lists and parent information are inverse to each other. *)
Theorem C30_parents_and_children_inverse : forall longest L check L1 L' f, wf_mesh (l_mesh L) -> simple_mesh (l_mesh L) -> compatible L ->
  refedge_ok (l_mesh L) (l_refedge L) -> (forall i, longest i < 3) -> (check = true -> complete_mesh (l_mesh L)) ->
  PerformRefinement longest L (new_factory check) = Ok (L1, L', f) -> linked L1 L'.
Proof.
  intros longest L check L1 L' f W S Co R Lg Cm P. destruct (step longest L check W S Co R Lg Cm) as (A & B & P' & _ & Q & _).
  rewrite P in P'. injection P' as -> -> _. exact Q.
Qed.
Print Assumptions C30_parents_and_children_inverse.

(** ** C31: numbers of adjacent cells; the boundary is preserved. *)
Theorem C31_adjacent_cells : forall longest L check L1 L' f, wf_mesh (l_mesh L) -> simple_mesh (l_mesh L) -> compatible L ->
  refedge_ok (l_mesh L) (l_refedge L) -> (forall i, longest i < 3) -> (check = true -> complete_mesh (l_mesh L)) ->
  PerformRefinement longest L (new_factory check) = Ok (L1, L', f) ->
  (forall e x, In x (children L1 1 e 1) -> adjacent (l_mesh L') x = adjacent (l_mesh L) e) /\
  (forall c x, In x (children L1 0 c 1) -> adjacent (l_mesh L') x = 2) /\
  (forall x, x < length (mv_edges (l_mesh L')) ->
     (adjacent (l_mesh L') x = 1 <-> exists e, In x (children L1 1 e 1) /\ adjacent (l_mesh L) e = 1)).
Proof.
  intros longest L check L1 L' f W S Co R Lg Cm P. destruct (step longest L check W S Co R Lg Cm) as (A & B & P' & _ & _ & _ & Q).
  rewrite P in P'. injection P' as -> -> _. exact Q.
Qed.
Print Assumptions C31_adjacent_cells.

(** ** C32: hierarchies of uniformly refined meshes. *)
Theorem C32_uniform_hierarchy : forall n p longest m, wf_mesh m -> simple_mesh m -> complete_mesh m ->
  (p = rp_regular \/ p = rp_barycentric) -> (forall j i, longest j i < 3) ->
  exists H, GenerateMeshHierarchy longest m n p = Ok H /\ length (levels H) = S n /\
    (exists L0, nth_error (levels H) 0 = Some L0 /\ l_mesh L0 = m) /\
    (forall L, In L (levels H) -> wf_mesh (l_mesh L) /\ simple_mesh (l_mesh L) /\ complete_mesh (l_mesh L)) /\
    (forall i L L', nth_error (levels H) i = Some L -> nth_error (levels H) (S i) = Some L' -> refined_to L (l_mesh L') /\ linked L L') /\
    (p = rp_regular -> forall i L, nth_error (levels H) i = Some L -> length (mv_cells (l_mesh L)) = 4 ^ i * length (mv_cells m)).
Proof. exact uniform_hierarchy. Qed.
Print Assumptions C32_uniform_hierarchy.

(** ** Examples *)
Example closure_mesh_simple : simple_mesh closure_mesh.
Proof.
  split.
  - intros c [<-|[<-|[<-|[]]]]; cbn; repeat constructor; cbn; lia.
  - intros i j c d x y z Hi Hj X Y Z X' Y' Z' N1 N2 N3.
    do 3 (destruct i as [|i]; [cbn in Hi; injection Hi as <-;
      do 3 (destruct j as [|j]; [try reflexivity; cbn in Hj; injection Hj as <-; cbn in X, Y, Z, X', Y', Z'; lia|]); destruct j; discriminate|]).
    destruct i; discriminate.
Qed.
(** The mesh with two triangles and a quadrilateral, with two edges marked
    (PropRefine.closure_level), then refined uniformly, satisfies all hypotheses. *)
Definition closure_ops : list hop :=
  [Mark (fun e => (e =? 1) || (e =? 4)); Marked (fun _ => 0); Regular (fun _ => 1) rp_regular].
Example C28_example : Forall good_hop closure_ops /\ exists H,
  run_hops closure_ops (new_hierarchy (fun i => if i =? 0 then 2 else 0) closure_mesh (new_factory true)) = Ok H /\
  map (fun L => (mv_nodes (l_mesh L), length (mv_edges (l_mesh L)), length (mv_cells (l_mesh L)))) (levels H) =
    [(6, 8, 3); (9, 17, 9); (26, 61, 36)].
Proof.
  split.
  - repeat constructor; intros; lia.
  - eexists. split; vm_compute; reflexivity.
Qed.
Example C31_example : exists L1 L' f,
  (exists Lm, mark_closure 9 closure_level = Some (Ok Lm) /\ PerformRefinement (fun _ => 0) Lm (new_factory true) = Ok (L1, L', f)) /\
  children L1 1 1 1 = [1; 2] /\ children L1 0 0 1 = [11; 12] /\ map (adjacent (l_mesh L')) [1; 2; 11; 12] = [1; 1; 2; 2] /\
  nth_error (l_epar L') 2 = Some (mkPar (Some (1, 1)) (Some 1) (Some 1)).
Proof.
  do 3 eexists. split; [eexists; split; [vm_compute; reflexivity|vm_compute; reflexivity]|].
  repeat (split; [vm_compute; reflexivity|]). vm_compute. reflexivity.
Qed.
