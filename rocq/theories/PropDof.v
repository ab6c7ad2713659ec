(** Properties C10-C13: numbering of degrees of freedom. *)
From Coq Require Import List Arith Lia Bool.
Import ListNotations.
From Verif Require Import Base MeshModel MeshSpec MeshView PropMeshView DofModel DofSpec DofProofs4.

(** The hypothesis of the theorems is met by the mesh of PropMeshView. *)
Example example_wf : wf_mesh example_mesh.
Proof. destruct example_mesh_view as (M & _ & W & _ & <-). exact W. Qed.
(** Quadratic elements plus two dofs per edge on it. *)
Example example_cell_dofs :
  GlobalDofIndices (u_handler (uniform example_mesh [(kPoint, 1); (kSegment, 2); (kQuad, 1)] true)) (ECell 0)
    = Ok [0; 1; 2; 7; 8; 11; 12; 9; 10] /\
  GlobalDofIndices (u_handler (uniform example_mesh [(kPoint, 1); (kSegment, 2); (kQuad, 1)] true)) (ECell 1)
    = Ok [2; 1; 4; 3; 12; 11; 6; 5; 15; 16; 13; 14; 17].
Proof. vm_compute. auto. Qed.

(** C10: the dofs 0..N-1 are partitioned among the entities as prescribed, and
    Entity() names the owner. *)
Theorem C10_uniform_dofs_partition : forall m dm check, wf_mesh m ->
  partitions m (prescribed dm m) (u_handler (uniform m dm check)).
Proof. exact uniform_partitions. Qed.
Print Assumptions C10_uniform_dofs_partition.

(** C11: canonical order of the indices covering an entity. *)
Theorem C11_uniform_canonical_order : forall m dm check, wf_mesh m ->
  canonical m check (u_handler (uniform m dm check)).
Proof. exact uniform_canonical. Qed.
Print Assumptions C11_uniform_canonical_order.

(** C12: points before edges before cells, by index, consecutively. *)
Theorem C12_uniform_numbering_rules : forall m dm check, wf_mesh m ->
  numbered m (u_handler (uniform m dm check)).
Proof. exact uniform_numbered. Qed.
Print Assumptions C12_uniform_numbering_rules.

(** C13: the dynamic handler obeys the same contract, with the number of dofs of
    every entity as told by the functor, and always respects orientations. *)
Theorem C13_dynamic_same_contract : forall m locdof, wf_mesh m ->
  partitions m locdof (dy_handler (dynamic m locdof)) /\
  canonical m true (dy_handler (dynamic m locdof)) /\
  numbered m (dy_handler (dynamic m locdof)).
Proof. exact dynamic_contract. Qed.
Print Assumptions C13_dynamic_same_contract.

(** C13, second half: for counts that depend on the type only, the dynamic and
    the uniform handler answer every query in the same way. *)
Theorem C13_dynamic_refines_uniform : forall m dm, wf_mesh m ->
  let u := u_handler (uniform m dm true) in
  let d := dy_handler (dynamic m (prescribed dm m)) in
  NumDofs d = NumDofs u /\ (forall x, Entity d x = Entity u x) /\
  forall e, valid m e ->
    GlobalDofIndices d e = GlobalDofIndices u e /\
    InteriorGlobalDofIndices d e = InteriorGlobalDofIndices u e /\
    NumLocalDofs d e = NumLocalDofs u e /\ NumInteriorDofs d e = NumInteriorDofs u e.
Proof. exact dynamic_refines_uniform. Qed.
Print Assumptions C13_dynamic_refines_uniform.

Example C13_dynamic_example :
  let d := dy_handler (dynamic example_mesh
     (fun e => match e with ENode _ => 1 | EEdge i => i | ECell _ => 2 end)) in
  NumDofs d = 24 /\ GlobalDofIndices d (ECell 1) =
    Ok [2; 1; 4; 3; 10; 9; 8; 15; 16; 17; 18; 19; 11; 12; 13; 14; 22; 23].
Proof. vm_compute. auto. Qed.

(** C11, no double counting: a cell whose corners and edges are pairwise different
    is covered by pairwise different dofs. *)
Theorem C11_covering_dofs_distinct : forall m dm check, wf_mesh m ->
  forall i c l, nth_error (mv_cells m) i = Some c -> NoDup (cv_nodes c) -> NoDup (cv_edges c) ->
  GlobalDofIndices (u_handler (uniform m dm check)) (ECell i) = Ok l -> NoDup l.
Proof. exact uniform_cell_nodup. Qed.
Print Assumptions C11_covering_dofs_distinct.
