(** Properties C57-C59: nodal projection, essential conditions, integration of mesh
    functions. *)
From Coq Require Import Reals List Arith Lia Lra Bool.
From Coquelicot Require Import Coquelicot.
Import ListNotations.
From Verif Require Import Base Scalars MeshModel MeshView PropMeshView DofModel DofSpec PropDof RefPatModel GeoModel GeoSpec PropGeo FeModel LagrModel QuadModel HierModel AssembleModel
  FeSpec HierSpec QuadSpec TriaSpec PropHier ElemModel ElemSpec FeToolsModel FeToolsSpec FeToolsProofs FeToolsProofs2 FeToolsProofs3 FeToolsProofs4 FeToolsProofs5.
Local Open Scope R_scope.

(** *** C57 *)
(** Every coefficient is the local degree of freedom of the last selected cell to which
    it belongs; coefficients that belong to no selected cell are zero. *)
Theorem C57_sets : forall V u sel c, consistent V (entities (sp_mesh V) 0) -> NodalProjection V u sel = Ok c ->
  length c = NumDofs (sp_dofs V) /\
  forall k, (k < NumDofs (sp_dofs V))%nat ->
    (untouched V sel (entities (sp_mesh V) 0) k /\ nth k c 0 = 0) \/
    prescribed_by V u sel (entities (sp_mesh V) 0) k (nth k c 0).
Proof. exact projection_sets. Qed.
Print Assumptions C57_sets.
(** If [u] coincides on the selected cells with the finite element function with
    coefficients [coef], the coefficients of the selected cells are those of [coef]. *)
Theorem C57_reproduces : forall V coef u, length coef = NumDofs (sp_dofs V) -> forall sel,
  (forall e, In e (entities (sp_mesh V) 0) -> sel e = true -> element_ok V e /\ coincides V coef u e) ->
  exists c, NodalProjection V u sel = Ok c /\ length c = NumDofs (sp_dofs V) /\
    forall k, (k < NumDofs (sp_dofs V))%nat ->
      (untouched V sel (entities (sp_mesh V) 0) k /\ nth k c 0 = 0) \/
      ((exists e, In e (entities (sp_mesh V) 0) /\ sel e = true /\ touches V e k) /\ nth k c 0 = nth k coef 0).
Proof. exact projection_fe. Qed.
Print Assumptions C57_reproduces.
(** Lagrangian and hierarchic spaces on any mesh: projection is the identity on finite
    element functions. *)
Theorem C57_lagrange : forall k m, wf_mesh m -> complete_mesh m -> exists V, lagrange_space k m = Ok V /\
  forall coef, length coef = NumDofs (sp_dofs V) -> NodalProjection V (fe_value V coef) (fun _ => true) = Ok coef.
Proof. exact lagrange_projection. Qed.
Print Assumptions C57_lagrange.
Theorem C57_hierarchic : forall n get m deg, wf_mesh m -> complete_mesh m ->
  (forall e, valid m e -> (1 <= deg e)%nat /\ (2 * deg e <= n)%nat) -> exact_rules get n -> exists V, hier_space get m deg = Ok V /\
  forall coef, length coef = NumDofs (sp_dofs V) -> NodalProjection V (fe_value V coef) (fun _ => true) = Ok coef.
Proof. exact hier_projection. Qed.
Print Assumptions C57_hierarchic.
(** The mesh with a triangle and a quadrilateral of PropMeshView, degrees of PropHier;
    Gauss rules. *)
Example C57_example : wf_mesh example_mesh /\ complete_mesh example_mesh /\
  (forall e, valid example_mesh e -> (1 <= example_degree e)%nat /\ (2 * example_degree e <= 10)%nat) /\ exists get, exact_rules get 10.
Proof.
  split; [exact example_wf|]. split; [exact example_complete|]. split; [|exact (rules_exist 10)].
  intros [i|i|[|i]] _; unfold example_degree; try (pose proof (Nat.mod_upper_bound i 2)); lia.
Qed.

(** *** C58 *)
(** Exactly the dofs of selected edges are flagged. *)
Theorem C58_flags : forall V g sel fv, consistent V (entities (sp_mesh V) 1) -> InitEssentialConditionFromFunction V sel g = Ok fv ->
  forall k, (k < NumDofs (sp_dofs V))%nat ->
    (fst (nth k fv (false, 0)) = true <-> exists e, In e (entities (sp_mesh V) 1) /\ sel e = true /\ touches V e k).
Proof. exact essential_flags. Qed.
Print Assumptions C58_flags.
(** The values: local degrees of freedom of the last of these edges; zero for the
    others. *)
Theorem C58_values : forall V g sel fv, consistent V (entities (sp_mesh V) 1) -> InitEssentialConditionFromFunction V sel g = Ok fv ->
  length fv = NumDofs (sp_dofs V) /\
  forall k, (k < NumDofs (sp_dofs V))%nat ->
    (untouched V sel (entities (sp_mesh V) 1) k /\ nth_error fv k = Some (false, 0)) \/
    exists w, prescribed_by V g sel (entities (sp_mesh V) 1) k w /\ nth_error fv k = Some (true, w).
Proof. exact essential_sets. Qed.
Print Assumptions C58_values.
(** The boundary values of a finite element function are its coefficients. *)
Theorem C58_reproduces : forall V coef g, length coef = NumDofs (sp_dofs V) -> forall sel,
  (forall e, In e (entities (sp_mesh V) 1) -> sel e = true -> element_ok V e /\ coincides V coef g e) ->
  exists fv, InitEssentialConditionFromFunction V sel g = Ok fv /\ length fv = NumDofs (sp_dofs V) /\
    forall k, (k < NumDofs (sp_dofs V))%nat ->
      (untouched V sel (entities (sp_mesh V) 1) k /\ nth_error fv k = Some (false, 0)) \/
      ((exists e, In e (entities (sp_mesh V) 1) /\ sel e = true /\ touches V e k) /\ nth_error fv k = Some (true, nth k coef 0)).
Proof. exact essential_fe. Qed.
Print Assumptions C58_reproduces.
Theorem C58_lagrange : forall k m, wf_mesh m -> exists V, lagrange_space k m = Ok V /\ sp_mesh V = m /\
  forall coef sel, length coef = NumDofs (sp_dofs V) -> exists fv, InitEssentialConditionFromFunction V sel (fe_value V coef) = Ok fv /\
    length fv = NumDofs (sp_dofs V) /\
    forall k, (k < NumDofs (sp_dofs V))%nat ->
      (untouched V sel (entities m 1) k /\ nth_error fv k = Some (false, 0)) \/
      ((exists e, In e (entities m 1) /\ sel e = true /\ touches V e k) /\ nth_error fv k = Some (true, nth k coef 0)).
Proof. exact lagrange_essential. Qed.
Print Assumptions C58_lagrange.
Theorem C58_hierarchic : forall n get m deg, wf_mesh m ->
  (forall e, valid m e -> (1 <= deg e)%nat /\ (2 * deg e <= n)%nat) -> exact_rules get n -> exists V, hier_space get m deg = Ok V /\ sp_mesh V = m /\
  forall coef sel, length coef = NumDofs (sp_dofs V) -> exists fv, InitEssentialConditionFromFunction V sel (fe_value V coef) = Ok fv /\
    length fv = NumDofs (sp_dofs V) /\
    forall k, (k < NumDofs (sp_dofs V))%nat ->
      (untouched V sel (entities m 1) k /\ nth_error fv k = Some (false, 0)) \/
      ((exists e, In e (entities m 1) /\ sel e = true /\ touches V e k) /\ nth_error fv k = Some (true, nth k coef 0)).
Proof. exact hier_essential. Qed.
Print Assumptions C58_hierarchic.
(** Spaces of the library are consistent. *)
Theorem C58_consistent : forall k m V, wf_mesh m -> lagrange_space k m = Ok V -> forall c, consistent V (entities m c).
Proof. exact (fun k m V W E => proj1 (proj2 (proj2 (proj2 (lagrange_elements k m V W E))))). Qed.
Print Assumptions C58_consistent.
Example C58_example : wf_mesh example_mesh /\ entities example_mesh 1 = map EEdge [0; 1; 2; 3; 4; 5]%nat.
Proof. split; [exact example_wf|reflexivity]. Qed.

(** *** C59 *)
(** If the predicate accepts the first entity, the result is the sum over the accepted
    entities of the values of the quadrature rules. *)
Theorem C59_sum_partial : forall m geom mf q vol h ep codim,
  (forall e, In e (entities m codim) -> ep e = true -> integrable (geom e) (q e) (vol e) (h e) (mf e)) ->
  first_accepted (entities m codim) ep ->
  IntegrateMeshFunction m geom mf q ep codim =
    Ok (sum_over (filter ep (entities m codim)) (fun e => quadrature (q e) (fun p => vol e p * h e p))).
Proof. exact integrate_ok. Qed.
Print Assumptions C59_sum_partial.
(** If it rejects the first entity, the integral over that one is added all the same. *)
Theorem C59_first_rejected : forall m geom mf q vol h ep codim e r, entities m codim = e :: r -> ep e = false ->
  (forall e', In e' (entities m codim) -> e' = e \/ ep e' = true -> integrable (geom e') (q e') (vol e') (h e') (mf e')) ->
  IntegrateMeshFunction m geom mf q ep codim =
    Ok (quadrature (q e) (fun p => vol e p * h e p) +
        sum_over (filter ep (entities m codim)) (fun e => quadrature (q e) (fun p => vol e p * h e p))).
Proof. exact integrate_rejected. Qed.
Print Assumptions C59_first_rejected.
(** So the claim does not hold for all predicates: nothing is selected here. *)
Theorem C59_predicate_refuted : exists m geom mf q ep vol h,
  wf_mesh m /\ (forall e, In e (entities m 0) -> integrable (geom e) (q e) (vol e) (h e) (mf e)) /\
  sum_over (filter ep (entities m 0)) (fun e => quadrature (q e) (fun p => vol e p * h e p)) = 0 /\
  IntegrateMeshFunction m geom mf q ep 0 = Ok 3.
Proof. exact predicate_ignored. Qed.
Print Assumptions C59_predicate_refuted.
(** Undefined behaviour without entities, and for nodes with rules chosen by degree. *)
Theorem C59_empty : forall m geom mf q ep codim, entities m codim = [] -> IntegrateMeshFunction m geom mf q ep codim = Assert.
Proof. exact integrate_empty. Qed.
Print Assumptions C59_empty.
Theorem C59_points_refuted : forall make m geom mf deg ep qs qt qq, make kSegment deg = Ok qs -> make kTria deg = Ok qt -> make kQuad deg = Ok qq ->
  IntegrateMeshFunctionDegree make m geom mf deg ep 2 = Assert.
Proof. exact degree_points. Qed.
Print Assumptions C59_points_refuted.
(** Polynomials of degree [k] on straight affine entities are integrated exactly by exact
    rules, and by others up to their accuracy. *)
Theorem C59_exact : forall m geom mf vol h c k codim ep,
  (forall e, In e (entities m codim) -> ep e = true -> flat (geom e) (vol e) /\
     forall p, length p = dim_local (go_kind (geom e)) -> mf e p = Ok (h e p) /\ h e p = poly (exponents (kind_el (go_kind (geom e))) k) (c e) p) ->
  first_accepted (entities m codim) ep -> forall q,
  (forall e, In e (entities m codim) -> ep e = true -> rule_for (kind_el (go_kind (geom e))) k (q e) /\ (0 < NumPoints (q e))%nat) ->
  IntegrateMeshFunction m geom mf q ep codim =
    Ok (sum_over (filter ep (entities m codim)) (fun e => integral (kind_el (go_kind (geom e))) (fun p => vol e p * h e p))).
Proof. exact integrate_exact. Qed.
Print Assumptions C59_exact.
Theorem C59_accuracy : forall m geom mf vol h c k codim ep,
  (forall e, In e (entities m codim) -> ep e = true -> flat (geom e) (vol e) /\
     forall p, length p = dim_local (go_kind (geom e)) -> mf e p = Ok (h e p) /\ h e p = poly (exponents (kind_el (go_kind (geom e))) k) (c e) p) ->
  first_accepted (entities m codim) ep ->
  exists C, 0 <= C /\ forall q tol,
  (forall e, In e (entities m codim) -> ep e = true -> rule_within tol (kind_el (go_kind (geom e))) k (q e) /\ (0 < NumPoints (q e))%nat) ->
  exists s, IntegrateMeshFunction m geom mf q ep codim = Ok s /\
    Rabs (s - sum_over (filter ep (entities m codim)) (fun e => integral (kind_el (go_kind (geom e))) (fun p => vol e p * h e p))) <= tol * C.
Proof. exact integrate_accuracy. Qed.
Print Assumptions C59_accuracy.
Theorem C59_degree : forall m geom mf vol h c k codim ep,
  (forall e, In e (entities m codim) -> ep e = true -> flat (geom e) (vol e) /\
     forall p, length p = dim_local (go_kind (geom e)) -> mf e p = Ok (h e p) /\ h e p = poly (exponents (kind_el (go_kind (geom e))) k) (c e) p) ->
  first_accepted (entities m codim) ep -> forall make qs qt qq,
  make kSegment k = Ok qs -> make kTria k = Ok qt -> make kQuad k = Ok qq ->
  (forall e, In e (entities m codim) -> ep e = true -> kind_el (go_kind (geom e)) = ent_type m e) -> (codim <= 1)%nat ->
  exists C, 0 <= C /\ forall tol,
    rule_within tol kSegment k qs -> rule_within tol kTria k qt -> rule_within tol kQuad k qq ->
    (0 < NumPoints qs /\ 0 < NumPoints qt /\ 0 < NumPoints qq)%nat ->
    exists s, IntegrateMeshFunctionDegree make m geom mf k ep codim = Ok s /\
      Rabs (s - sum_over (filter ep (entities m codim)) (fun e => integral (kind_el (go_kind (geom e))) (fun p => vol e p * h e p))) <= tol * C.
Proof. exact integrate_degree. Qed.
Print Assumptions C59_degree.
(** A triangle with area 3. *)
Example C59_example : wf_mesh one_mesh /\ first_accepted (entities one_mesh 0) (fun _ => true) /\ (exists vol, flat tri vol) /\
  integrable tri mid_rule (fun _ => 6) (fun _ => 1) (fun _ => Ok 1) /\
  IntegrateMeshFunction one_mesh (fun _ => tri) (fun _ _ => Ok 1) (fun _ => mid_rule) (fun _ => true) 0 = Ok 3.
Proof.
  split; [apply one_wf|]. split; [exists (ECell 0), []; split; reflexivity|]. split; [exact tri_flat|]. split; [exact mid_integrable|].
  rewrite (C59_sum_partial one_mesh _ _ _ (fun _ _ => 6) (fun _ _ => 1)); [|intros; exact mid_integrable|exists (ECell 0), []; split; reflexivity].
  f_equal. unfold quadrature, sum_over. cbn. lra.
Qed.
