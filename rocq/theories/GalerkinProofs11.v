(** Proofs for C74-C76: the library's quadrature rules; the boundary value problem. *)
From Coq Require Import Reals List Arith Lia Lra Bool.
Import ListNotations.
From Verif Require Import Base Scalars MeshModel MeshView DofModel DofSpec RefPatModel GeoModel GeoSpec GeoProofs GeoProofs3 GeoProofs4 PropGeo FeModel LagrModel QuadModel AssembleModel AssembleSpec
  FeSpec FeProofs LagrProofs LagrProofs2 LagrProofs3 QuadSpec GaussSpec TriaTab TriaSpec QuadRuleModel HierProofs3 PolyProofs ElemModel ElemSpec ElemProofs ElemProofs2 ElemProofs3 ElemProofs5 ElemProofs7 ElemProofs8 ElemProofs9 FeToolsModel FeToolsSpec FeToolsProofs FeToolsProofs2 FeToolsProofs5
  ProlongSpec ProlongProofs2 GalerkinModel GalerkinSpec GalerkinProofs GalerkinProofs2 GalerkinProofs3 GalerkinProofs4 GalerkinProofs5 GalerkinProofs6 GalerkinProofs7 GalerkinProofs8 GalerkinProofs9 GalerkinProofs10.
Local Open Scope R_scope.

Lemma ord_range : forall k, (1 <= ord k <= 3)%nat. Proof. destruct k; cbn; lia. Qed.
Lemma within_tol : forall tol tol' t k q, tol <= tol' -> rule_within tol t k q -> rule_within tol' t k q.
Proof.
  intros tol tol' t k q L [E P X Ex]. constructor; auto. intros c. eapply Rle_trans; [apply Ex|]. apply Rmult_le_compat_r; [|exact L].
  apply rs_nonneg. intros. apply Rabs_pos.
Qed.
(** The rules of the library on any mesh of triangles and quadrilaterals. *)
Lemma library_rules : forall k m V stop stopj sel, wf_mesh m -> lagrange_space k m = Ok V -> finds_legendre_zeros stop (ord k + 1) -> finds_jacobi_zeros stopj (ord k + 1) ->
  exists q, rules_within V (1 / 10 ^ 15) (make_QuadRule (GaussLegendre stop) (GaussJacobi stopj) HardcodedQuadRule) (2 * ord k) q (filter sel (entities (sp_mesh V) 0)) /\
    forall e, In e (filter sel (entities (sp_mesh V) 0)) -> nonnegative_weights (q e).
Proof.
  intros k m V stop stopj sel W EV FL FJ. rewrite (lagrange_mesh k m V EV). pose proof (ord_range k) as OR.
  destruct (library_tria (GaussLegendre stop) (GaussJacobi stopj) (ord k) ltac:(lia)) as (qt & Et & Wt & Nt).
  destruct (library_quad stop stopj HardcodedQuadRule (ord k) FL FJ) as (qq & Eq & Wq & Nq).
  exists (fun e => match ent_type m e with kTria => qt | _ => qq end).
  assert (P : 0 <= 1 / 10 ^ 15) by (apply Rlt_le, Rdiv_lt_0_compat; [lra|apply pow_lt; lra]).
  split.
  - intros e I. apply filter_In in I as (I & _). rewrite (lagrange_mesh k m V EV). destruct (lagrange_cell m W e I) as [-> | ->]; split; auto. eapply within_tol; eauto.
  - intros e I. apply filter_In in I as (I & _). destruct (lagrange_cell m W e I) as [-> | ->]; auto.
Qed.

Lemma sum_defined : forall (a b : list R -> list R -> R -> Prop) u v, (exists x, a u v x) -> (exists x, b u v x) -> exists x, sum_form a b u v x.
Proof. intros a b u v (x & Hx) (y & Hy). exists (x + y), x, y. auto. Qed.

(** - div (a grad u) + c u = h with boundary values g. *)
Theorem boundary_value_problem : forall k m V geom make P q bd g alpha gamma src a c h, let es := filter (fun _ => true) (entities (sp_mesh V) 0) in
  wf_mesh m -> lagrange_space k m = Ok V -> continuous_function m g -> precompute_default make (fun t => Some (lagrange k t)) = Ok P ->
  (forall e, In e es -> kind_el (go_kind (geom e)) = ent_type m e /\ make (ent_type m e) (2 * ord k)%nat = Ok (q e) /\
     length (qr_weights (q e)) = length (qr_points (q e)) /\ at_points (q e) (fun p => admissible (geom e) p /\ nondegenerate (geom e) p)) ->
  given_by alpha a q es -> given_by gamma c q es -> given_by src h q es -> let N := NumDofs (sp_dofs V) in
  exists vol, (forall e p, In e es -> admissible (geom e) p -> volume_at (geom e) (vol e) p) /\
  exists A b fv A' b' D',
    AssembleMatrixWith (sp_mesh V) 0 (sp_dofs V) (sp_dofs V) (fun _ => true) (rd_provider P geom alpha gamma) = Ok A /\
    AssembleVectorWith (sp_mesh V) 0 (sp_dofs V) (fun _ => true) (uload_provider P geom src) = Ok b /\
    InitEssentialConditionFromFunction V bd g = Ok fv /\
    FixFlaggedSolutionComponents Rring (fun i => nth i fv (false, 0)) A b = Ok (A', b') /\
    AssembleSpec.is_matrix Rring A' N N D' /\ length b' = N /\
    forall mu, length mu = N -> (solves Rring N D' (comp Rring b') (comp Rring mu) <->
      weak_solution V bd g (sum_form (diffusion_form V geom q vol es a) (mass_form V q vol es c)) (load_form V q vol es h) mu).
Proof.
  intros k m V geom make P q bd g alpha gamma src a c h es W EV CG EP H Ga Gc Gs N. unfold es in *. rewrite (lagrange_mesh k m V EV) in H.
  destruct (lagrange_prepared k m V W EV 0 (fun _ => true) geom make q (or_introl eq_refl)) as (vol & VO & Pr & Re).
  { intros e I. destruct (H e I) as (A1 & A2 & A3 & A4). do 3 (split; [assumption|]). intros p Ip. apply A4, Ip. }
  specialize (Re (fun e I p Ip => proj2 (proj2 (proj2 (proj2 (H e I))) p Ip))).
  assert (Dim : of_dim geom 2 (filter (fun _ => true) (entities m 0))).
  { intros e I. destruct (H e I) as (A1 & _). apply filter_In in I as (I & _). destruct (lagrange_cell m W e I) as [E|E]; rewrite E in A1; destruct (go_kind (geom e)); try discriminate; reflexivity. }
  rewrite <- (lagrange_mesh k m V EV) in VO, Pr, Re, Dim.
  assert (UL : uniform_layout V (fun t => Some (lagrange k t))) by (intros e; rewrite (lagrange_mesh k m V EV); apply (V_is k m V EV)).
  exists vol. split; [exact VO|].
  apply (lagrange_dirichlet k m V g W EV CG bd).
  - eapply rd_assembled; eauto.
  - eapply uload_assembled; eauto.
  - split.
    + intros u v Lu Lv. apply sum_defined; [eapply diffusion_defined; eauto|eapply mass_defined; eauto].
    + intros v Lv. eapply load_defined; eauto.
Qed.

(** Example: Lagrangian elements on one triangle. *)
Lemma example_flat : forall k V, lagrange_space k one_mesh = Ok V -> flat_cells V (fun _ => tri) (filter (fun _ => true) (entities (sp_mesh V) 0)).
Proof.
  intros k V EV e I. rewrite (lagrange_mesh k one_mesh V EV) in *. cbn in I. destruct I as [<-|[]].
  split; [exact tri_constructed|]. split; [intros K; discriminate K|]. split; [left; reflexivity|reflexivity].
Qed.
