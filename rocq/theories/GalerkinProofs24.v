(** Proofs for C76: reaction terms, with the library's rules. *)
From Coq Require Import Reals List Arith Lia Lra Bool.
From Coquelicot Require Import Coquelicot.
Import ListNotations.
From Verif Require Import Base Scalars MeshModel MeshView DofModel DofSpec RefPatModel GeoModel GeoSpec FeModel LagrModel QuadModel TriaTab QuadRuleModel AssembleModel AssembleSpec
  FeSpec QuadSpec GaussSpec ElemModel ElemSpec FeToolsModel FeToolsSpec LagrProofs3 FeToolsProofs5 PropGeo ProlongSpec GalerkinModel GalerkinSpec DirichletSpec
  GaussProofs5 GalerkinProofs9 GalerkinProofs12 GalerkinProofs16 GalerkinProofs20 GalerkinProofs21 GalerkinProofs22.
Local Open Scope R_scope.

Lemma library_pins : forall stop jac k t q, finds_legendre_zeros stop (ord k + 1) -> k = O1 /\ t = kTria \/ t = kQuad ->
  make_QuadRule (GaussLegendre stop) jac HardcodedQuadRule t (2 * ord k) = Ok q -> pins q (lagrange k t).
Proof.
  intros stop jac k t q F [(-> & ->) | ->] E.
  - exact (library_pins1 (GaussLegendre stop) jac q E).
  - exact (library_pins_quad stop jac HardcodedQuadRule k q F E).
Qed.
Theorem library_reaction : forall stop jac k m V geom bd g a c h, let es := filter (fun _ => true) (entities (sp_mesh V) 0) in let make := make_QuadRule (GaussLegendre stop) jac HardcodedQuadRule in
  finds_legendre_zeros stop (ord k + 1) -> wf_mesh m -> complete_mesh m -> lagrange_space k m = Ok V -> continuous_function m g -> (forall e, In e es -> k = O1 \/ ent_type m e = kQuad) ->
  (forall e, In e es -> kind_el (go_kind (geom e)) = ent_type m e) ->
  (forall e p, In e es -> in_ref (ent_type m e) p -> admissible (geom e) p /\ nondegenerate (geom e) p /\ nonnegative_coeff (go_dim (geom e)) (a e p) /\ 0 < c e p) ->
  exists P q, precompute_default make (fun t => Some (lagrange k t)) = Ok P /\ (forall e, In e es -> make (ent_type m e) (2 * ord k)%nat = Ok (q e)) /\
  forall alpha gamma src, given_by alpha a q es -> given_by gamma c q es -> given_by src h q es -> let N := NumDofs (sp_dofs V) in
  exists vol, (forall e p, In e es -> admissible (geom e) p -> volume_at (geom e) (vol e) p) /\
  let form := sum_form (diffusion_form V geom q vol es a) (mass_form V q vol es c) in let load := load_form V q vol es h in
  exists A b fv A' b' D',
    AssembleMatrixWith (sp_mesh V) 0 (sp_dofs V) (sp_dofs V) (fun _ => true) (rd_provider P geom alpha gamma) = Ok A /\
    AssembleVectorWith (sp_mesh V) 0 (sp_dofs V) (fun _ => true) (uload_provider P geom src) = Ok b /\
    InitEssentialConditionFromFunction V bd g = Ok fv /\
    FixFlaggedSolutionComponents Rring (fun i => nth i fv (false, 0)) A b = Ok (A', b') /\
    AssembleSpec.is_matrix Rring A' N N D' /\ length b' = N /\
    exists mu, length mu = N /\ solves Rring N D' (comp Rring b') (comp Rring mu) /\ weak_solution V bd g form load mu /\
      forall mu', length mu' = N -> solves Rring N D' (comp Rring b') (comp Rring mu') \/ weak_solution V bd g form load mu' -> mu' = mu.
Proof.
  intros stop jac k m V geom bd g a c h es make F W CM EV CG OQ HK HP. destruct (library_rules stop jac k F) as (P & q & EP & R).
  assert (T : forall e, In e es -> ent_type m e = kTria \/ ent_type m e = kQuad).
  { intros e I. unfold es in I. rewrite (lagrange_mesh k m V EV) in I. apply filter_In in I as (I & _). apply (lagrange_cell m W e I). }
  exists P, (fun e => q (ent_type m e)). split; [exact EP|]. split; [intros e I; apply R, T, I|]. intros alpha gamma src Ga Gc Gs.
  apply (reaction_problem k m V geom make P (fun e => q (ent_type m e)) bd g alpha gamma src a c h W CM EV CG EP); try assumption.
  intros e I. destruct (R _ (T e I)) as (E1 & _ & E3 & E4 & _ & E6). split; [apply HK, I|]. split; [exact E1|]. split; [exact E3|]. split; [exact E4|].
  split; [refine (library_pins stop jac k _ _ F _ E1); destruct (T e I), (OQ e I); auto|]. intros p Ip. apply HP; [exact I|]. apply E6, Ip.
Qed.
Lemma reaction_example : (exists stop, finds_legendre_zeros stop (ord O1 + 1)) /\ wf_mesh one_mesh /\ complete_mesh one_mesh /\
  (exists V, lagrange_space O1 one_mesh = Ok V) /\ (forall e, In e (entities one_mesh 0) -> kind_el (go_kind tri) = ent_type one_mesh e) /\
  forall p, in_ref kTria p -> admissible tri p /\ nondegenerate tri p /\ nonnegative_coeff (go_dim tri) (Scal 0) /\ 0 < 1.
Proof.
  destruct library_example as (_ & B & C). split; [apply legendre_zeros_exist|]. split; [apply one_wf|]. split; [apply one_wf|]. split.
  { destruct (lagrange_space_ok O1 one_mesh) as (lo & E & _). eauto. }
  split; [exact B|]. intros p Hp. destruct (C p Hp) as (C1 & C2 & _). split; [exact C1|]. split; [exact C2|]. split; [|lra].
  intros v. cbn. lra.
Qed.
