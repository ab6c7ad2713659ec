(** Properties C48-C51: hierarchic finite elements. *)
From Coq Require Import Reals List Arith Lia Lra Bool.
From Coquelicot Require Import Coquelicot.
Import ListNotations.
From Verif Require Import Base MeshModel MeshView PropMeshView DofModel DofSpec PropDof RefPatModel GeoModel GeoSpec
  FeModel LagrModel QuadModel HierModel QuadRuleModel FeSpec QuadSpec GaussSpec HierSpec LegendreProofs JacobiProofs OrthoProofs
  HierProofs HierProofs2 HierProofs8 GaussProofs4 GaussProofs5.
Local Open Scope R_scope.

(** C48: the polynomials of all degrees and their derivatives. *)
Theorem C48_legendre_derivatives : forall n x t,
  is_derive (fun s => legendre n s t) x (legendre_dx n x t) /\
  ((1 <= n)%nat -> is_derive (fun s => ilegendre n s t) x (ilegendre_dx n x t) /\
                   is_derive (fun s => ilegendre n x s) t (ilegendre_dt n x t)).
Proof. exact legendre_derivatives. Qed.
Print Assumptions C48_legendre_derivatives.
Theorem C48_jacobi_derivatives : forall n al x, 0 <= al ->
  is_derive (jacobi n al) x (jacobi_dx n al x) /\ ((1 <= n)%nat -> is_derive (ijacobi n al) x (ijacobi_dx n al x)).
Proof. exact jacobi_derivatives. Qed.
Print Assumptions C48_jacobi_derivatives.
(** Values at the end points *)
Theorem C48_ends : forall n t, (legendre n 0 t = (- t) ^ n /\ legendre n t t = t ^ n) /\
  ((2 <= n)%nat -> ilegendre n 0 t = 0 /\ ilegendre n t t = 0).
Proof. exact ends. Qed.
Print Assumptions C48_ends.
Theorem C48_ijacobi_left : forall n al, 0 <= al -> (1 <= n)%nat -> ijacobi n al 0 = 0.
Proof. exact ijacobi_at_0. Qed.
Print Assumptions C48_ijacobi_left.
Theorem C48_legendre_orthogonal : forall n m,
  RInt (fun x => legendre n x 1 * legendre m x 1) 0 1 = if Nat.eqb n m then 1 / (2 * INR n + 1) else 0.
Proof. exact legendre_orthogonal. Qed.
Print Assumptions C48_legendre_orthogonal.
Theorem C48_jacobi_orthogonal : forall q n m,
  RInt (fun y => jacobi n (INR q) y * jacobi m (INR q) y * (1 - y) ^ q) 0 1 =
  if Nat.eqb n m then 1 / (2 * INR n + INR q + 1) else 0.
Proof. exact jacobi_orthogonal. Qed.
Print Assumptions C48_jacobi_orthogonal.
Example C48_values : (forall x t, legendre 2 x t = 6 * x ^ 2 - 6 * x * t + t ^ 2) /\
  (forall x, ilegendre 3 x 1 = 2 * x ^ 3 - 3 * x ^ 2 + x) /\ (forall x, jacobi 1 4 x = 6 * x - 1).
Proof. split; [|split]; intros; cbn; field. Qed.

(** C49: numbers of shape functions on triangles and quadrilaterals. *)
Theorem C49_counts : forall p ed os qe q, counts (hier_tria p ed os qe q) /\ counts (hier_quad p ed os qe q).
Proof. exact (fun p ed os qe q => conj (tria_counts p ed os qe q) (quad_counts p ed os qe q)). Qed.
Print Assumptions C49_counts.
Theorem C49_segment_rows : forall p q, (1 <= p)%nat -> forall x, length x = 1%nat ->
  exists v, fe_eval (hier_segment p q) x = Ok v /\ length v = fe_total (hier_segment p q).
Proof. exact segment_eval_count. Qed.
Print Assumptions C49_segment_rows.
(** On segments NumRefShapeFunctions(1, i) is 2 for each of the two end points. *)
Theorem C49_segment_counts_refuted : forall p q, (1 <= p)%nat -> ~ counts (hier_segment p q).
Proof. exact segment_counts_wrong. Qed.
Print Assumptions C49_segment_counts_refuted.

(** C49: traces on the edges. *)
Theorem C49_tria_traces : forall p a b c os qe qt q j o d, nth_error [a; b; c] j = Some d -> nth_error os j = Some o ->
  (1 <= d)%nat -> edge_trace (hier_tria p [a; b; c] os qe qt) (hier_segment d q) [a; b; c] j o d.
Proof. exact tria_edge_trace. Qed.
Print Assumptions C49_tria_traces.
Theorem C49_quad_traces : forall p a b c e os qe q1 q j o d, nth_error [a; b; c; e] j = Some d -> nth_error os j = Some o ->
  (1 <= d)%nat -> edge_trace (hier_quad p [a; b; c; e] os qe q1) (hier_segment d q) [a; b; c; e] j o d.
Proof. exact quad_edge_trace. Qed.
Print Assumptions C49_quad_traces.
Example C49_trace_numbers : first_of_edge 3 [4; 2; 5]%nat 2 = (3 + 3 + 1)%nat /\ edge_start 3 2 true = 2%nat /\ edge_end 3 2 true = 0%nat.
Proof. repeat split. Qed.

(** C49: on every mesh, for all degrees of the entities, the space is well-defined and
    its functions are continuous. *)
Theorem C49_continuous : forall get m deg, wf_mesh m -> (forall e, valid m e -> (1 <= deg e)%nat) ->
  exists V, hier_space get m deg = Ok V /\ sp_mesh V = m /\ forall u, length u = NumDofs (sp_dofs V) -> continuous V u.
Proof. exact hier_continuous. Qed.
Print Assumptions C49_continuous.
(** Edges of degree 3 and 4, a triangle of degree 5 and a quadrilateral of degree 2. *)
Definition example_degree (e : ent) : nat :=
  match e with ENode _ => 1 | EEdge i => 3 + i mod 2 | ECell 0 => 5 | ECell _ => 2 end%nat.
Example C49_example_mesh : forall get, wf_mesh example_mesh /\ (forall e, valid example_mesh e -> (1 <= example_degree e)%nat) /\
  exists V, hier_space get example_mesh example_degree = Ok V /\ NumDofs (sp_dofs V) = (5 + 3 * 2 + 3 * 3 + 6 + 1)%nat.
Proof.
  intros get. split; [exact example_wf|].
  assert (D : forall e, valid example_mesh e -> (1 <= example_degree e)%nat) by (intros [i|i|[|i]] _; unfold example_degree; lia).
  split; [exact D|]. eexists. split; [apply (hier_space_ok get example_mesh example_degree example_wf D)|]. vm_compute. reflexivity.
Qed.

(** C50: the gradients are derivatives. *)
Theorem C50_segment : forall p q, (1 <= p)%nat -> gradients_ok (hier_segment p q).
Proof. exact segment_gradients. Qed.
Print Assumptions C50_segment.
Theorem C50_tria : forall p ed os qe qt, gradients_ok (hier_tria p ed os qe qt).
Proof. exact tria_gradients. Qed.
Print Assumptions C50_tria.
Theorem C50_quad : forall p ed os qe q1, gradients_ok (hier_quad p ed os qe q1).
Proof. exact quad_gradients. Qed.
Print Assumptions C50_quad.

(** C51: the degrees of freedom of a function are its coefficients. *)
Theorem C51_segment : forall p q, (1 <= p)%nat -> rule_for kSegment (2 * (p - 1)) q -> dual (hier_segment p q).
Proof. exact segment_dual'. Qed.
Print Assumptions C51_segment.
Theorem C51_tria : forall p a b c os q0 q1 q2 qt, length os = 3%nat -> (1 <= a)%nat -> (1 <= b)%nat -> (1 <= c)%nat ->
  rule_for kSegment (2 * (a - 1)) q0 -> rule_for kSegment (2 * (b - 1)) q1 -> rule_for kSegment (2 * (c - 1)) q2 ->
  rule_for kTria (2 * (p - 1)) qt -> (forall x, In x (qr_points qt) -> nth 1 x 0 <> 1) ->
  dual (hier_tria p [a; b; c] os [q0; q1; q2] qt).
Proof. exact tria_dual'. Qed.
Print Assumptions C51_tria.
Theorem C51_quad : forall p a b c e os q0 q1 q2 q3 qi, length os = 4%nat ->
  (1 <= a)%nat -> (1 <= b)%nat -> (1 <= c)%nat -> (1 <= e)%nat ->
  rule_for kSegment (2 * (a - 1)) q0 -> rule_for kSegment (2 * (b - 1)) q1 -> rule_for kSegment (2 * (c - 1)) q2 ->
  rule_for kSegment (2 * (e - 1)) q3 -> rule_for kSegment (2 * (quad_deg p [a; b; c; e] - 1)) qi ->
  dual (hier_quad p [a; b; c; e] os [q0; q1; q2; q3] qi).
Proof. exact quad_dual'. Qed.
Print Assumptions C51_quad.
(** A triangle of degree 4 with edges of degrees 2, 3 and 4, with Gauss rules. *)
Example C51_example : exists q qt, dual (hier_tria 4 [2; 3; 4]%nat [true; false; true] [q; q; q] qt) /\
  fe_total (hier_tria 4 [2; 3; 4]%nat [true; false; true] [q; q; q] qt) = (3 + 1 + 2 + 3 + 3)%nat.
Proof.
  destruct (legendre_zeros_exist 4) as (stop & F). destruct (jacobi_zeros_exist 4) as (stopj & F').
  destruct (segment_rule stop 6 F) as (q & _ & D & Rq & _). destruct (duffy_rule stop stopj 6 F F') as (qt & _ & Dt & Rt & _ & _ & I).
  exists q, qt. split; [|reflexivity]. rewrite D in Rq. rewrite Dt in Rt.
  apply C51_tria; try reflexivity; try lia; try (eapply rule_lower; [|eassumption]; vm_compute; lia).
  intros x Hx. specialize (I x Hx). rewrite (rf_el _ _ _ Rt) in I.
  destruct x as [|a [|b [|]]]; try destruct I as [I1 [I2 I3]]; try destruct I. cbn [nth]. lra.
Qed.
