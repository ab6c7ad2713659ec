(** Proofs for C76: boundary value problems with the library's rules. *)
From Coq Require Import Reals List Arith Lia Lra Bool.
From Coquelicot Require Import Coquelicot.
Import ListNotations.
From Verif Require Import Base Scalars MeshModel MeshView DofModel DofSpec RefPatModel GeoModel GeoSpec FeModel LagrModel QuadModel TriaTab QuadRuleModel AssembleModel AssembleSpec
  FeSpec QuadSpec GaussSpec TriaSpec TriaProofs2 GalerkinProofs9 GalerkinProofs9 GaussProofs5 ElemModel ElemSpec FeToolsModel FeToolsSpec FeToolsProofs5 PropGeo ProlongSpec GalerkinModel GalerkinSpec DirichletSpec StokesSpec RectSpec FisherProofs5
  GaussProofs5 GalerkinProofs12 GalerkinProofs16 GalerkinProofs14 GalerkinProofs15 GalerkinProofs17 GalerkinProofs18 GalerkinProofs19.
Local Open Scope R_scope.

Lemma library_rules : forall stop jac k, let make := make_QuadRule (GaussLegendre stop) jac HardcodedQuadRule in finds_legendre_zeros stop (ord k + 1) ->
  exists P q, precompute_default make (fun t => Some (lagrange k t)) = Ok P /\ forall t, t = kTria \/ t = kQuad ->
    make t (2 * ord k)%nat = Ok (q t) /\ qr_el (q t) = t /\ length (qr_weights (q t)) = length (qr_points (q t)) /\ nonnegative_weights (q t) /\ settles (q t) (lagrange k t) /\
    at_points (q t) (in_ref t).
Proof.
  intros stop jac k make F.
  assert (H : forall t, t = kTria \/ t = kQuad -> exists q p, make t (2 * ord k)%nat = Ok q /\ precompute (lagrange k t) q = Ok p /\ qr_el q = t /\
    length (qr_weights q) = length (qr_points q) /\ nonnegative_weights q /\ settles q (lagrange k t) /\ at_points q (in_ref t)).
  { intros t Ht. assert (A : exists q, make t (2 * ord k)%nat = Ok q /\ qr_el q = t /\ length (qr_weights q) = length (qr_points q) /\ positive_inside q /\ settles q (lagrange k t)).
    { destruct Ht as [-> | ->].
      - destruct (tria_tables (GaussLegendre stop) jac (2 * ord k)) as (q & d & E & _ & T); [destruct k; cbn; lia|]. exists q. split; [exact E|]. split; [apply T|]. split; [apply T|]. split; [apply T|]. exact (library_settles (GaussLegendre stop) jac k q E).
      - destruct (quad_rule stop (2 * ord k)) as (q & E & _ & T & _ & I); [destruct k; exact F|]. exists q. split; [exact E|]. split; [apply T|]. split; [apply T|]. split; [exact I|]. exact (library_settles_quad stop jac HardcodedQuadRule k q F E). }
    destruct A as (q & E & El & L & (Pw & In0) & S). assert (AP : at_points q (in_ref t)).
    { intros p Hp. specialize (In0 p Hp). rewrite El in In0. destruct Ht as [-> | ->]; destruct p as [|x [|y [|]]]; cbn in In0 |- *; try tauto; lra. }
    destruct (FisherProofs5.precompute_ok k t q) as (p & Ep); [destruct Ht as [-> | ->]; discriminate|exact AP|]. exists q, p. repeat split; try assumption. intros w Hw. left. apply Pw, Hw. }
  destruct (H kTria (or_introl eq_refl)) as (qt & pt & Et & Pt & Rt). destruct (H kQuad (or_intror eq_refl)) as (qq & pq & Eq & Pq & Rq).
  exists (mkPrecomps (Some pt) (Some pq)), (fun t => match t with kTria => qt | _ => qq end). split.
  - unfold precompute_default. replace (fe_degree (lagrange k kTria)) with (ord k) by (destruct k; reflexivity). replace (fe_degree (lagrange k kQuad)) with (ord k) by (destruct k; reflexivity).
    rewrite Et. cbn [bind]. rewrite Pt. cbn [bind]. rewrite Eq. cbn [bind]. rewrite Pq. reflexivity.
  - intros t [-> | ->]; (split; [assumption|]); assumption.
Qed.
Theorem library_problem : forall stop jac k m V geom bd g a c h, let es := filter (fun _ => true) (entities (sp_mesh V) 0) in let make := make_QuadRule (GaussLegendre stop) jac HardcodedQuadRule in
  finds_legendre_zeros stop (ord k + 1) -> wf_mesh m -> complete_mesh m -> all_held m bd -> lagrange_space k m = Ok V -> continuous_function m g ->
  (forall e, In e es -> kind_el (go_kind (geom e)) = ent_type m e) ->
  (forall e p, In e es -> in_ref (ent_type m e) p -> admissible (geom e) p /\ nondegenerate (geom e) p /\ positive_coeff (go_dim (geom e)) (a e p) /\ 0 <= c e p) ->
  exists P q, precompute_default make (fun t => Some (lagrange k t)) = Ok P /\ (forall e, In e es -> make (ent_type m e) (2 * ord k)%nat = Ok (q e)) /\
  forall alpha gamma src, given_by alpha a q es -> given_by gamma c q es -> given_by src h q es -> let N := NumDofs (sp_dofs V) in
  exists vol, (forall e p, In e es -> admissible (geom e) p -> volume_at (geom e) (vol e) p) /\
  let form := sum_form (diffusion_form V geom q vol es a) (mass_form V q vol es c) in let load := load_form V q vol es h in
  exists A b fv A' b' D',
    AssembleMatrixWith (sp_mesh V) 0 (sp_dofs V) (sp_dofs V) (fun _ => true) (rd_provider P geom alpha gamma) = Ok A /\
    AssembleVectorWith (sp_mesh V) 0 (sp_dofs V) (fun _ => true) (uload_provider P geom src) = Ok b /\
    InitEssentialConditionFromFunction V bd g = Ok fv /\
    FixFlaggedSolutionComponents Rring (fun i => nth i fv (false, 0)) A b = Ok (A', b') /\
    AssembleSpec.is_matrix Rring A' N N D' /\ length b' = N /\
    exists mu, length mu = N /\ solves Rring N D' (comp Rring b') (comp Rring mu) /\ weak_solution V bd g form load mu /\
      forall mu', length mu' = N -> solves Rring N D' (comp Rring b') (comp Rring mu') \/ weak_solution V bd g form load mu' -> mu' = mu.
Proof.
  intros stop jac k m V geom bd g a c h es make F W CM AH EV CG HK HP. destruct (library_rules stop jac k F) as (P & q & EP & R).
  assert (T : forall e, In e es -> ent_type m e = kTria \/ ent_type m e = kQuad).
  { intros e I. unfold es in I. rewrite (lagrange_mesh k m V EV) in I. apply filter_In in I as (I & _). apply (lagrange_cell m W e I). }
  exists P, (fun e => q (ent_type m e)). split; [exact EP|]. split; [intros e I; apply R, T, I|]. intros alpha gamma src Ga Gc Gs.
  apply (settled_problem k m V geom make P (fun e => q (ent_type m e)) bd g alpha gamma src a c h W CM AH EV CG EP); try assumption.
  intros e I. destruct (R _ (T e I)) as (E1 & _ & E3 & E4 & E5 & E6). split; [apply HK, I|]. split; [exact E1|]. split; [exact E3|]. split; [exact E4|]. split; [exact E5|].
  intros p Ip. apply HP; [exact I|]. apply E6, Ip.
Qed.
Lemma library_example : (exists stop, finds_legendre_zeros stop (ord O3 + 1)) /\
  (forall e, In e (entities one_mesh 0) -> kind_el (go_kind tri) = ent_type one_mesh e) /\
  forall p, in_ref kTria p -> admissible tri p /\ nondegenerate tri p /\ positive_coeff (go_dim tri) (Scal 1) /\ 0 <= 1.
Proof.
  split; [apply legendre_zeros_exist|]. split; [intros e [<-|[]]; reflexivity|]. intros p Hp. destruct p as [|s [|t [|]]]; try contradiction.
  split; [split; [reflexivity|discriminate]|]. split; [|split; [apply scalar_positive; lra|lra]]. eexists. split; [reflexivity|]. cbn. unfold vsub. lra.
Qed.
