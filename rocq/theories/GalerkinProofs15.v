(** Proofs for C76, C107: meshes whose cells are reached from the boundary. *)
From Coq Require Import Reals List Arith Lia Lra Bool.
Import ListNotations.
From Verif Require Import Base Scalars MeshModel MeshView DofModel DofSpec RefPatModel GeoModel GeoSpec GeoProofs GeoProofs3 FeModel LagrModel QuadModel AssembleModel AssembleSpec
  FeSpec QuadSpec ElemModel ElemSpec FeToolsModel FeToolsSpec FeToolsProofs2 ProlongSpec GalerkinModel GalerkinSpec GalerkinProofs9 GalerkinProofs14 DirichletSpec NormalSpec StokesSpec FlowSpec RectSpec.
Local Open Scope R_scope.

Lemma edge_corners : forall m c v i e, wf_mesh m -> nth_error (mv_cells m) c = Some v -> nth_error (cv_edges v) i = Some e ->
  exists a b, nth_error (mv_edges m) e = Some (a, b) /\ In a (cv_nodes v) /\ In b (cv_nodes v).
Proof.
  intros m c v i e W Ec Ee. pose proof (proj1 (Forall_forall _ _) (wm_cells _ W) v (nth_error_In _ _ Ec)) as Wc.
  assert (Li : (i < length (cv_nodes v))%nat) by (rewrite <- (wc_edges _ _ Wc); apply nth_error_Some; congruence).
  destruct (wc_local _ _ Wc i Li) as (e' & o & a & b & E1 & _ & E2 & O). rewrite Ee in E1. injection E1 as <-. exists a, b. split; [exact E2|].
  assert (N : In (next_corner (cv_nodes v) i) (cv_nodes v)) by (apply nth_In, Nat.mod_upper_bound; lia).
  assert (N' : In (nth i (cv_nodes v) 0%nat) (cv_nodes v)) by (apply nth_In, Li).
  destruct o; destruct O as (-> & ->); auto.
Qed.
Lemma reached_held : forall m bd, wf_mesh m -> (forall e, boundary_edge m e = true -> bd (EEdge e) = true) ->
  forall c, StokesSpec.reached m c -> forall v, nth_error (mv_cells m) c = Some v -> forall n, In n (cv_nodes v) -> held m bd n.
Proof.
  intros m bd W B c R. induction R as [c i e (v0 & Ec & Ee) Be|c i c' i' e R IH (v0 & Ec & Ee) (v1 & Ec' & Ee')]; intros v Ev n In1.
  - rewrite Ec in Ev. injection Ev as <-. destruct (edge_corners m c v0 i e W Ec Ee) as (a & b & E & Ia & _).
    apply (held_cell m bd v0 a n (nth_error_In _ _ Ec) Ia In1). exact (held_first m bd e a b E (B e Be)).
  - rewrite Ec' in Ev. injection Ev as <-. destruct (edge_corners m c v0 i e W Ec Ee) as (a & b & E & Ia & _). destruct (edge_corners m c' v1 i' e W Ec' Ee') as (a' & b' & E' & Ia' & _).
    rewrite E in E'. injection E' as <- <-. apply (held_cell m bd v1 a n (nth_error_In _ _ Ec') Ia' In1). exact (IH v0 Ec a Ia).
Qed.
Lemma boundary_holds : forall m bd, wf_mesh m -> complete_mesh m -> all_reached m -> (forall e, boundary_edge m e = true -> bd (EEdge e) = true) -> all_held m bd.
Proof.
  intros m bd W (CE & CN) AR B v Hv. destruct (CN v Hv) as (a & b & I & Hab). apply In_nth_error in I as (e & He).
  destruct (CE e) as (cl & Icl & Ie); [apply nth_error_Some; congruence|]. apply In_nth_error in Icl as (c & Hc). apply In_nth_error in Ie as (i & Hi).
  destruct (edge_corners m c cl i e W Hc Hi) as (a' & b' & E & Ia & Ib). rewrite He in E. injection E as <- <-.
  apply (reached_held m bd W B c) with cl; [apply AR; cbn; apply nth_error_Some; congruence|exact Hc|]. destruct Hab as [-> | ->]; assumption.
Qed.

(** The Dirichlet problem on meshes of straight triangles. *)
Theorem fit_problem : forall m geom pos, fit_for_stokes m geom pos -> forall k V make P q bd g alpha gamma src a c h, let es := filter (fun _ => true) (entities (sp_mesh V) 0) in
  lagrange_space k m = Ok V -> continuous_function m g -> (forall e, boundary_edge m e = true -> bd (EEdge e) = true) ->
  precompute_default make (fun t => Some (lagrange k t)) = Ok P -> make kTria (2 * ord k)%nat = Ok q -> tria_rule q -> nonnegative_weights q -> settles q (lagrange k kTria) ->
  given_by alpha a (fun _ => q) es -> given_by gamma c (fun _ => q) es -> given_by src h (fun _ => q) es ->
  (forall e p, In e es -> In p (qr_points q) -> positive_coeff 2 (a e p) /\ 0 <= c e p) -> let N := NumDofs (sp_dofs V) in
  exists vol, (forall e p, In e es -> length p = 2%nat -> volume_at (geom e) (vol e) p) /\
  let form := sum_form (diffusion_form V geom (fun _ => q) vol es a) (mass_form V (fun _ => q) vol es c) in let load := load_form V (fun _ => q) vol es h in
  exists A b fv A' b' D',
    AssembleMatrixWith (sp_mesh V) 0 (sp_dofs V) (sp_dofs V) (fun _ => true) (rd_provider P geom alpha gamma) = Ok A /\
    AssembleVectorWith (sp_mesh V) 0 (sp_dofs V) (fun _ => true) (uload_provider P geom src) = Ok b /\
    InitEssentialConditionFromFunction V bd g = Ok fv /\
    FixFlaggedSolutionComponents Rring (fun i => nth i fv (false, 0)) A b = Ok (A', b') /\
    AssembleSpec.is_matrix Rring A' N N D' /\ length b' = N /\
    exists mu, length mu = N /\ solves Rring N D' (comp Rring b') (comp Rring mu) /\ weak_solution V bd g form load mu /\
      forall mu', length mu' = N -> solves Rring N D' (comp Rring b') (comp Rring mu') \/ weak_solution V bd g form load mu' -> mu' = mu.
Proof.
  intros m geom pos (T & _ & _ & AR & CM & _) k V make P q bd g alpha gamma src a c h es EV CG B EP EQ (Lq & Pq) Wq Sq Ga Gc Gs PC N. pose proof (tr_wf _ _ _ T) as W.
  assert (VM : sp_mesh V = m) by exact (lagrange_mesh k m V EV).
  assert (C : forall e, In e es -> exists i v, e = DofModel.ECell i /\ nth_error (mv_cells m) i = Some v).
  { intros e I. apply filter_In in I as (I & _). rewrite VM in I. apply in_cells, I. }
  assert (AD : forall e p, In e es -> length p = 2%nat -> admissible (geom e) p).
  { intros e p I L. destruct (C e I) as (i & v & -> & Hv). destruct (tr_cell _ _ _ T i v Hv) as (_ & K & _). split; rewrite K; [exact L|discriminate]. }
  destruct (settled_problem k m V geom make P (fun _ => q) bd g alpha gamma src a c h) as (vol & VO & R); auto.
  - apply boundary_holds; assumption.
  - intros e I. fold es in I. destruct (C e I) as (i & v & E & Hv). destruct (tr_cell _ _ _ T i v Hv) as (TC & K & D2 & Cn & _).
    assert (Et : ent_type m e = kTria) by (rewrite E; cbn; unfold DofModel.cell_at; rewrite (nth_error_nth _ _ _ Hv); exact TC). rewrite Et. rewrite <- E in K, D2, Cn.
    split; [rewrite K; reflexivity|]. split; [exact EQ|]. split; [exact Lq|]. split; [exact Wq|]. split; [exact Sq|]. intros p Ip.
    pose proof (AD e p I (Pq p Ip)) as Ad. split; [exact Ad|]. split; [|rewrite D2; exact (PC e p I Ip)].
    destruct (jacobian_derivative (geom e) p Ad) as (J & HJ & _). exists J. split; [exact HJ|].
    pose proof (affine_nondegenerate (geom e) p J Cn ltac:(intros Q; rewrite K in Q; discriminate Q) (or_introl K) Ad HJ). lra.
  - exists vol. split; [intros e p I L; apply VO; [exact I|apply AD; assumption]|exact R].
Qed.

(** Examples *)
Lemma scalar_positive : forall d s, 0 < s -> positive_coeff d (Scal s).
Proof.
  intros d s Hs v k Hk Nk. rewrite ElemProofs.inner_rsum. cbn [flux].
  assert (P : forall j, 0 <= v j * (s * v j)) by (intros j; replace (v j * (s * v j)) with (s * (v j * v j)) by ring; apply Rmult_le_pos; [lra|apply Rle_0_sqr]).
  destruct (Rle_lt_or_eq_dec 0 (FeModel.rsum (map (fun j => v j * (s * v j)) (seq 0 d)))) as [L|E]; [apply ElemProofs.rs_nonneg; intros; apply P|exact L|].
  exfalso. pose proof (rsum_zero nat _ (seq 0 d) (fun j _ => P j) (eq_sym E) k ltac:(apply in_seq; lia)) as Z. cbv beta in Z.
  apply Rmult_integral in Z as [Z|Z]; [exact (Nk Z)|]. apply Rmult_integral in Z as [Z|Z]; [lra|exact (Nk Z)].
Qed.
