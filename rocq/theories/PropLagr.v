(** Properties C45-C47: Lagrangian finite elements. *)
From Coq Require Import Reals List Arith Lia Lra Bool.
Import ListNotations.
From Verif Require Import Base MeshModel MeshView PropMeshView DofModel DofSpec PropDof RefPatModel GeoModel GeoSpec
  FeModel LagrModel FeSpec LagrProofs LagrProofs2 LagrProofs3.
Local Open Scope R_scope.

(** C45: numbers of shape functions. *)
Theorem C45_counts : forall k t, fe_el (lagrange k t) = t /\ fe_degree (lagrange k t) = ord k /\
  counts (lagrange k t) /\ (t <> kPoint -> uniform_counts (lagrange k t)).
Proof. exact lagrange_describes. Qed.
Print Assumptions C45_counts.

(** C45: shape function i is 1 at node i and 0 at the other nodes. *)
Theorem C45_cardinal : forall k t, cardinal (lagrange k t).
Proof. exact lagrange_cardinal. Qed.
Print Assumptions C45_cardinal.

Theorem C45_partition_of_unity : forall k t, partition_of_unity (lagrange k t).
Proof. exact lagrange_unity. Qed.
Print Assumptions C45_partition_of_unity.

(** C45: the span of the shape functions is P_k or Q_k, and interpolation at the
    nodes reproduces it. *)
Theorem C45_complete : forall k t,
  contained (lagrange k t) (exponents t (ord k)) /\ reproduces (lagrange k t) (exponents t (ord k)).
Proof. exact (fun k t => conj (lagrange_contained k t) (lagrange_reproduces k t)). Qed.
Print Assumptions C45_complete.
Example C45_spaces :
  exponents kSegment 3 = [[0]; [1]; [2]; [3]]%nat /\
  exponents kTria 2 = [[0; 0]; [0; 1]; [0; 2]; [1; 0]; [1; 1]; [2; 0]]%nat /\
  exponents kQuad 1 = [[0; 0]; [0; 1]; [1; 0]; [1; 1]]%nat.
Proof. repeat split; reflexivity. Qed.
(** x^2 y on the triangle. *)
Example C45_monomial : forall x y, poly (exponents kTria 3) (fun e => match e with [2; 1]%nat => 5 | _ => 0 end) [x; y]
  = 5 * (x ^ 2 * y).
Proof. intros. cbn. ring. Qed.

(** C46: the gradients are derivatives. *)
Theorem C46_gradients : forall k t, t <> kPoint -> gradients_ok (lagrange k t).
Proof. exact lagrange_gradients. Qed.
Print Assumptions C46_gradients.

(** C47: on every mesh the space is well-defined and its functions are continuous. *)
Theorem C47_continuous : forall k m, wf_mesh m -> exists V, lagrange_space k m = Ok V /\ sp_mesh V = m /\
  forall u, length u = NumDofs (sp_dofs V) -> continuous V u.
Proof. exact lagrange_continuous. Qed.
Print Assumptions C47_continuous.

(** C47, for two cells with a common edge. *)
Theorem C47_two_cells : forall V u, continuous V u -> forall i i' c c' j j' e o o' t,
  nth_error (mv_cells (sp_mesh V)) i = Some c -> nth_error (mv_cells (sp_mesh V)) i' = Some c' ->
  nth_error (cv_edges c) j = Some e -> nth_error (cv_edges c') j' = Some e ->
  nth_error (cv_ori c) j = Some o -> nth_error (cv_ori c') j' = Some o' ->
  exists w, fe_value V u (ECell i) (edge_point (cv_type c) j o t) = Ok w /\
            fe_value V u (ECell i') (edge_point (cv_type c') j' o' t) = Ok w.
Proof. exact two_cells. Qed.
Print Assumptions C47_two_cells.

(** The mesh of PropMeshView: edge 3 is local edge 1 of the triangle, which runs along
    it, and local edge 0 of the quadrilateral, which runs against it. *)
Example C47_example_mesh : wf_mesh example_mesh /\
  map cv_edges (mv_cells example_mesh) = [[1; 3; 2]; [3; 0; 5; 4]]%nat /\
  map cv_ori (mv_cells example_mesh) = [[true; true; true]; [false; false; true; true]] /\
  exists V, lagrange_space O3 example_mesh = Ok V /\ NumDofs (sp_dofs V) = (5 + 2 * 6 + 1 + 4)%nat.
Proof.
  split; [exact example_wf|]. split; [vm_compute; reflexivity|]. split; [vm_compute; reflexivity|].
  destruct (lagrange_space_ok O3 example_mesh) as (lo & -> & _). eexists. split; [reflexivity|]. vm_compute. reflexivity.
Qed.
