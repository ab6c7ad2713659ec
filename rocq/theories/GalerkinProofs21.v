(** Proofs for C76: reaction terms make boundary value problems uniquely solvable. *)
From Coq Require Import Reals List Arith ZArith Lia Lra Bool.
From Coquelicot Require Import Coquelicot.
Import ListNotations.
From Verif Require Import Base Scalars MeshModel MeshView DofModel DofSpec DofProofs4 RefPatModel GeoModel GeoSpec GeoProofs GeoProofs3 FeModel LagrModel QuadModel AssembleModel AssembleSpec AssembleProofs
  FeSpec FeProofs LagrProofs LagrProofs2 LagrProofs3 HierSpec HierProofs QuadSpec TriaTab QuadRuleModel GaussSpec TriaSpec TriaProofs2 GaussProofs GaussProofs5
  ElemModel ElemSpec ElemProofs ElemProofs2 ElemProofs3 ElemProofs7 FeToolsModel FeToolsSpec FeToolsProofs FeToolsProofs2 TransferProofs3 ProlongSpec ProlongProofs ProlongProofs2
  GalerkinModel GalerkinSpec GalerkinProofs GalerkinProofs2 GalerkinProofs3 GalerkinProofs4 GalerkinProofs5 GalerkinProofs6 GalerkinProofs7 GalerkinProofs8 GalerkinProofs9 GalerkinProofs10 GalerkinProofs11 GalerkinProofs13 DirichletSpec
  GalerkinProofs14 GalerkinProofs17 GalerkinProofs18 GalerkinProofs19 GalerkinProofs20.
Local Open Scope R_scope.

(** Mass zero: the function vanishes at the points with positive weights. *)
Lemma mass_zero : forall V geom get q vol es c u, prepared V geom get q vol es ->
  (forall e, In e es -> nonnegative_weights (q e)) -> (forall e p, In e es -> In p (qr_points (q e)) -> nondegenerate (geom e) p) ->
  (forall e p, In e es -> In p (qr_points (q e)) -> 0 < c e p) ->
  mass_form V q vol es c u u 0 -> forall e j p w, In e es -> nth_error (qr_points (q e)) j = Some p -> nth_error (qr_weights (q e)) j = Some w -> 0 < w -> fe_value V u e p = Ok 0.
Proof.
  intros V geom get q vol es c u Pr NW ND PC (U & X & HU & HX & Z) e j p w Ie Ep Ew Pw.
  assert (NP : forall e p, In e es -> In p (qr_points (q e)) -> 0 <= vol e p * (c e p * X e p * U e p)).
  { intros e' p' Ie' Ip'. destruct (pr_rule _ _ _ _ _ _ Pr e' Ie') as (_ & _ & Vl). apply Rmult_le_pos; [eapply vol_nonneg, Vl, Ip'|].
    rewrite (values_agree V u q es X U e' p' HX HU Ie' Ip'). rewrite Rmult_assoc. apply Rmult_le_pos; [left; apply PC; assumption|]. apply Rle_0_sqr. }
  assert (NN : forall e, In e es -> 0 <= quadrature (q e) (fun p => vol e p * (c e p * X e p * U e p))).
  { intros e' Ie'. destruct (pr_rule _ _ _ _ _ _ Pr e' Ie') as (Lw & _ & _). apply quad_nonneg; [exact Lw|apply NW, Ie'|]. intros p' Ip'. apply NP; assumption. }
  pose proof (over_zero es _ NN (eq_sym Z) e Ie) as Ze. cbv beta in Ze. destruct (pr_rule _ _ _ _ _ _ Pr e Ie) as (Lw & _ & Vl). pose proof (nth_error_In _ _ Ep) as Ip.
  pose proof (quad_zero (q e) _ Lw (NW e Ie) (fun p Ip => NP e p Ie Ip) Ze j p w Ep Ew Pw) as Zp. cbv beta in Zp.
  pose proof (volume_pos _ _ _ (Vl p Ip) (ND e p Ie Ip)) as PV. pose proof (PC e p Ie Ip) as Pc. rewrite (values_agree V u q es X U e p HX HU Ie Ip) in Zp.
  pose proof (HU e Ie p Ip) as HV. cbn beta in HV. rewrite HV. f_equal.
  apply Rmult_integral in Zp as [Zp|Zp]; [lra|]. apply Rmult_integral in Zp as [Zp|Zp]; [|exact Zp]. apply Rmult_integral in Zp as [Zp|Zp]; [lra|exact Zp].
Qed.
Theorem reaction_problem : forall k m V geom make P q bd g alpha gamma src a c h, let es := filter (fun _ => true) (entities (sp_mesh V) 0) in
  wf_mesh m -> complete_mesh m -> lagrange_space k m = Ok V -> continuous_function m g -> precompute_default make (fun t => Some (lagrange k t)) = Ok P ->
  (forall e, In e es -> kind_el (go_kind (geom e)) = ent_type m e /\ make (ent_type m e) (2 * ord k)%nat = Ok (q e) /\
     length (qr_weights (q e)) = length (qr_points (q e)) /\ nonnegative_weights (q e) /\ pins (q e) (lagrange k (ent_type m e)) /\
     at_points (q e) (fun p => admissible (geom e) p /\ nondegenerate (geom e) p /\ nonnegative_coeff (go_dim (geom e)) (a e p) /\ 0 < c e p)) ->
  given_by alpha a q es -> given_by gamma c q es -> given_by src h q es -> let N := NumDofs (sp_dofs V) in
  exists vol, (forall e p, In e es -> admissible (geom e) p -> volume_at (geom e) (vol e) p) /\
  let form := sum_form (diffusion_form V geom q vol es a) (mass_form V q vol es c) in let load := load_form V q vol es h in
  exists A b fv A' b' D',
    AssembleMatrixWith (sp_mesh V) 0 (sp_dofs V) (sp_dofs V) (fun _ => true) (rd_provider P geom alpha gamma) = Ok A /\
    AssembleVectorWith (sp_mesh V) 0 (sp_dofs V) (fun _ => true) (uload_provider P geom src) = Ok b /\
    InitEssentialConditionFromFunction V bd g = Ok fv /\
    FixFlaggedSolutionComponents Rring (fun i => nth i fv (false, 0)) A b = Ok (A', b') /\
    AssembleSpec.is_matrix Rring A' N N D' /\ length b' = N /\
    exists mu, length mu = N /\ solves Rring N D' (comp Rring b') (comp Rring mu) /\ weak_solution V bd g form load mu /\
      forall mu', length mu' = N -> solves Rring N D' (comp Rring b') (comp Rring mu') \/ weak_solution V bd g form load mu' -> mu' = mu.
Proof.
  intros k m V geom make P q bd g alpha gamma src a c h es W CM EV CG EP H Ga Gc Gs N. unfold es in *. pose proof (lagrange_mesh k m V EV) as VM. rewrite VM in H.
  destruct (lagrange_prepared k m V W EV 0 (fun _ => true) geom make q (or_introl eq_refl)) as (vol & VO & Pr & Re).
  { intros e I. destruct (H e I) as (A1 & A2 & A3 & A4 & A5 & A6). do 3 (split; [assumption|]). intros p Ip. apply A6, Ip. }
  specialize (Re (fun e I p Ip => proj1 (proj2 (proj2 (proj2 (proj2 (proj2 (proj2 (H e I))))) p Ip)))).
  assert (Dim : of_dim geom 2 (filter (fun _ => true) (entities m 0))).
  { intros e I. destruct (H e I) as (A1 & _). apply filter_In in I as (I & _). destruct (lagrange_cell m W e I) as [E|E]; rewrite E in A1; destruct (go_kind (geom e)); try discriminate; reflexivity. }
  assert (DE : forall v, length v = N -> vanishes_on V v bd ->
    sum_form (diffusion_form V geom q vol (filter (fun _ => true) (entities m 0)) a) (mass_form V q vol (filter (fun _ => true) (entities m 0)) c) v v 0 -> v = repeat 0 N).
  { intros v Lv Va (y & z & Hy & Hz & E).
    assert (Py : 0 <= y) by (eapply diffusion_nonneg; [exact Pr| | |exact Hy]; [intros e I; apply (H e I)|intros e p I Ip; apply (H e I), Ip]).
    assert (Pz : 0 <= z) by (eapply mass_nonneg; [exact Pr| | |exact Hz]; [intros e I; apply (H e I)|intros e p I Ip; left; apply (H e I), Ip]).
    assert (z = 0) by lra. subst z.
    pose proof (mass_zero V geom make q vol _ c v Pr (fun e I => proj1 (proj2 (proj2 (proj2 (H e I))))) ltac:(intros e p I Ip; apply (H e I), Ip) ltac:(intros e p I Ip; apply (H e I), Ip) Hz) as Z.
    apply same_lists; [rewrite repeat_length; exact Lv|]. intros x Hx. rewrite nth_repeat.
    destruct (lagrange_elements k m V W EV) as (_ & _ & _ & _ & TO). destruct (TO CM x ltac:(unfold N in Lv; rewrite <- Lv; exact Hx)) as (e & IC & l' & HD & Ix).
    assert (I : In e (filter (fun _ => true) (entities m 0))) by (apply filter_In; split; [exact IC|reflexivity]).
    destruct (H e I) as (A1 & _ & A3 & _ & A5 & A6). destruct (lagrange_element k m V W EV 0 e (or_introl eq_refl) IC) as (l & El).
    pose proof (eo_dofs _ _ _ _ El) as HD0. unfold has_dofs in HD, HD0. rewrite HD0 in HD. injection HD as <-.
    destruct (In_nth l x 0%nat Ix) as (s & Hs & <-). apply (A5 (loc l v)); [|rewrite <- (eo_total _ _ _ _ El); exact Hs].
    intros j p w vs Ep Ew Pw Ev. pose proof (nth_error_In _ _ Ep) as Ip. destruct (A6 p Ip) as (B1 & _).
    pose proof (Z e j p w I Ep Ew Pw) as Zv. rewrite (value_sum V e _ l v El Lv p vs Ev) in Zv; [injection Zv as Zv; exact Zv|].
    destruct (lagrange_describes k (ent_type m e)) as (E1 & _ & E3 & _). destruct (co_eval _ E3 p) as (vs' & Ev' & Lv'); [|congruence].
    rewrite E1, <- A1, (proj1 B1). destruct (go_kind (geom e)); reflexivity. }
  rewrite <- VM in VO, Pr, Re, Dim, DE.
  assert (UL : uniform_layout V (fun t => Some (lagrange k t))) by (intros e; rewrite VM; apply (V_is k m V EV)).
  exists vol. split; [exact VO|]. cbv zeta.
  apply (lagrange_unique k m V g W EV CG bd).
  - eapply rd_assembled; eauto.
  - eapply uload_assembled; eauto.
  - split.
    + intros u v Lu Lv. apply sum_defined; [eapply diffusion_defined; eauto|eapply mass_defined; eauto].
    + intros v Lv. eapply load_defined; eauto.
  - exact DE.
Qed.
