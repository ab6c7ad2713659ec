(** Property C07: what clients see of built meshes is exactly the class of
    well-formed meshes; all later properties quantify over that class. *)
From Coq Require Import List Arith Lia Bool.
Import ListNotations.
From Verif Require Import Base MeshModel MeshSpec MeshView MeshViewProofs PropMesh.

(** The mesh seen by clients of the example of PropMesh. *)
Definition example_mesh : mesh := mkMeshV 5
  [(4, 1); (0, 1); (2, 0); (1, 2); (3, 2); (4, 3)]
  [mkCellv [0; 1; 2] [1; 3; 2] [true; true; true];
   mkCellv [2; 1; 4; 3] [3; 0; 5; 4] [false; false; true; true]].

Example example_mesh_view : exists M, built true example_history M /\ 
  wf_mesh (view M) /\ complete_mesh (view M) /\ view M = example_mesh.
Proof.
  destruct example_built as (M & B & _). exists M. split; auto.
  split; [eapply view_wf; eauto|]. split; [eapply view_complete; eauto|].
  destruct B as (rets & f & R & B). vm_compute in R. injection R as <- <-.
  vm_compute in B. injection B as <-. vm_compute. reflexivity.
Qed.

(** Every mesh that a factory can build is well-formed (and complete, if
    completeness is checked), and every well-formed complete mesh is what some
    sequence of factory calls produces. *)
Theorem C07_built_meshes_are_the_wellformed_ones : forall check v,
  (exists h M, built check h M /\ view M = v) <->
  (wf_mesh v /\ (check = true -> complete_mesh v)).
Proof. exact wellformed_iff_built. Qed.
Print Assumptions C07_built_meshes_are_the_wellformed_ones.

Theorem C07_counts : forall check h M, built check h M ->
  mv_nodes (view M) = num_entities 2 M /\
  length (mv_edges (view M)) = num_entities 1 M /\ length (mv_cells (view M)) = num_entities 0 M.
Proof. exact view_counts. Qed.
Print Assumptions C07_counts.
