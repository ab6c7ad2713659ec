(** Proofs for C76: impedance (Robin) conditions. *)
From Coq Require Import Reals List Arith ZArith Lia Lra Bool.
From Coquelicot Require Import Coquelicot.
Import ListNotations.
From Verif Require Import Base Scalars MeshModel MeshView DofModel DofSpec DofProofs4 RefPatModel GeoModel GeoSpec GeoProofs GeoProofs3 FeModel LagrModel QuadModel AssembleModel AssembleSpec AssembleProofs
  FeSpec FeProofs LagrProofs LagrProofs2 LagrProofs3 HierSpec HierProofs QuadSpec TriaTab QuadRuleModel GaussSpec TriaSpec TriaProofs2 GaussProofs GaussProofs5
  ElemModel ElemSpec ElemProofs ElemProofs2 ElemProofs3 ElemProofs7 FeToolsModel FeToolsSpec FeToolsProofs FeToolsProofs2 TransferProofs3 ProlongSpec ProlongProofs ProlongProofs2
  GalerkinModel GalerkinSpec GalerkinProofs GalerkinProofs2 GalerkinProofs3 GalerkinProofs4 GalerkinProofs5 GalerkinProofs6 GalerkinProofs7 GalerkinProofs8 GalerkinProofs9 GalerkinProofs10 GalerkinProofs11 GalerkinProofs13 DirichletSpec
  FisherModel2 FisherProofs5 GalerkinProofs14 GalerkinProofs21.
Local Open Scope R_scope.

(** Assembling onto a matrix adds the forms. *)
Lemma onto_galerkin : forall V c c' act act' ev ev' a b,
  galerkin_matrix V (AssembleMatrixWith (sp_mesh V) c (sp_dofs V) (sp_dofs V) act ev) a ->
  galerkin_matrix V (AssembleMatrixWith (sp_mesh V) c' (sp_dofs V) (sp_dofs V) act' ev') b ->
  galerkin_matrix V (do A <- AssembleMatrixWith (sp_mesh V) c (sp_dofs V) (sp_dofs V) act ev; assemble_onto (sp_mesh V) c' (sp_dofs V) act' ev' A) (sum_form a b).
Proof.
  intros V c c' act act' ev ev' a b (A & D & EA & MA & FA) (B & D' & EB & MB & FB). cbv zeta in *. rewrite EA. cbn [bind].
  unfold AssembleMatrixWith in EB. change (setZero Rring (coo_new Rring (NumDofs (sp_dofs V)) (NumDofs (sp_dofs V)))) with (coo_new Rring (NumDofs (sp_dofs V)) (NumDofs (sp_dofs V))) in EB.
  destruct (onto_matrix _ _ _ _ _ _ A D B D' MA EB MB) as (C & EC & MC). exists C, (fun i j => D i j + D' i j). split; [exact EC|]. split; [exact MC|].
  intros u v x Lu Lv (y & z & Hy & Hz & ->). etransitivity; [apply (form_add Rring)|]. rewrite (FA u v y Lu Lv Hy), (FB u v z Lu Lv Hz). reflexivity.
Qed.
Theorem robin_problem : forall k m V geom make P pfe q qb bd rob g alpha gamma eta src a c h et, let es := filter (fun _ => true) (entities (sp_mesh V) 0) in let eb := filter rob (entities (sp_mesh V) 1) in
  wf_mesh m -> complete_mesh m -> all_held m (fun e => bd e || rob e) -> lagrange_space k m = Ok V -> continuous_function m g ->
  precompute_default make (fun t => Some (lagrange k t)) = Ok P -> precompute_edge make (fun t => Some (lagrange k t)) None = Ok pfe ->
  (forall e, In e es -> kind_el (go_kind (geom e)) = ent_type m e /\ make (ent_type m e) (2 * ord k)%nat = Ok (q e) /\
     length (qr_weights (q e)) = length (qr_points (q e)) /\ nonnegative_weights (q e) /\ settles (q e) (lagrange k (ent_type m e)) /\
     at_points (q e) (fun p => admissible (geom e) p /\ nondegenerate (geom e) p /\ positive_coeff (go_dim (geom e)) (a e p) /\ 0 <= c e p)) ->
  (forall e, In e eb -> kind_el (go_kind (geom e)) = kSegment /\ make kSegment (2 * ord k)%nat = Ok (qb e) /\
     length (qr_weights (qb e)) = length (qr_points (qb e)) /\ nonnegative_weights (qb e) /\ pins (qb e) (lagrange k kSegment) /\
     at_points (qb e) (fun p => admissible (geom e) p /\ nondegenerate (geom e) p /\ 0 < et e p)) ->
  given_by alpha a q es -> given_by gamma c q es -> given_by src h q es -> given_by eta et qb eb -> let N := NumDofs (sp_dofs V) in
  exists vol, (forall e p, In e es \/ In e eb -> admissible (geom e) p -> volume_at (geom e) (vol e) p) /\
  let form := sum_form (sum_form (diffusion_form V geom q vol es a) (mass_form V q vol es c)) (mass_form V qb vol eb et) in let load := load_form V q vol es h in
  exists A0 A b fv A' b' D',
    AssembleMatrixWith (sp_mesh V) 0 (sp_dofs V) (sp_dofs V) (fun _ => true) (rd_provider P geom alpha gamma) = Ok A0 /\
    assemble_onto (sp_mesh V) 1 (sp_dofs V) rob (umass_edge_provider pfe geom eta) A0 = Ok A /\
    AssembleVectorWith (sp_mesh V) 0 (sp_dofs V) (fun _ => true) (uload_provider P geom src) = Ok b /\
    InitEssentialConditionFromFunction V bd g = Ok fv /\
    FixFlaggedSolutionComponents Rring (fun i => nth i fv (false, 0)) A b = Ok (A', b') /\
    AssembleSpec.is_matrix Rring A' N N D' /\ length b' = N /\
    exists mu, length mu = N /\ solves Rring N D' (comp Rring b') (comp Rring mu) /\ weak_solution V bd g form load mu /\
      forall mu', length mu' = N -> solves Rring N D' (comp Rring b') (comp Rring mu') \/ weak_solution V bd g form load mu' -> mu' = mu.
Proof.
  intros k m V geom make P pfe q qb bd rob g alpha gamma eta src a c h et es eb W CM AH EV CG EP EF H HB Ga Gc Gs Ge N. unfold es, eb in *. pose proof (lagrange_mesh k m V EV) as VM. rewrite VM in H, HB.
  assert (TY : forall e, In e (entities m 1) -> ent_type m e = kSegment) by (intros e Ie'; destruct (in_edges m e Ie') as (j & -> & _); reflexivity).
  destruct (lagrange_prepared k m V W EV 0 (fun _ => true) geom make q (or_introl eq_refl)) as (vol0 & VO0 & Pr0 & Re).
  { intros e I. destruct (H e I) as (A1 & A2 & A3 & A4 & A5 & A6). do 3 (split; [assumption|]). intros p Ip. apply A6, Ip. }
  specialize (Re (fun e I p Ip => proj1 (proj2 (proj2 (proj2 (proj2 (proj2 (proj2 (H e I))))) p Ip)))).
  destruct (lagrange_prepared k m V W EV 1 rob geom (edge_rule make None) qb (or_intror eq_refl)) as (vol1 & VO1 & Pr1 & _).
  { intros e I. destruct (HB e I) as (A1 & A2 & A3 & A4 & A5 & A6). rewrite (TY e) by (apply filter_In in I; apply I). do 3 (split; [assumption|]). intros p Ip. apply A6, Ip. }
  set (vol := fun e => if (match e with DofModel.ECell _ => true | _ => false end) then vol0 e else vol1 e).
  assert (C0 : forall e, In e (filter (fun _ => true) (entities m 0)) -> vol e = vol0 e) by (intros e I; apply filter_In in I as (I & _); destruct (in_cells m e I) as (i & cc & -> & _); reflexivity).
  assert (C1 : forall e, In e (filter rob (entities m 1)) -> vol e = vol1 e) by (intros e I; apply filter_In in I as (I & _); destruct (in_edges m e I) as (i & -> & _); reflexivity).
  assert (Pr : prepared V geom make q vol (filter (fun _ => true) (entities m 0))).
  { destruct Pr0. constructor; auto. intros e I. rewrite (C0 e I). auto. }
  assert (PrB : prepared V geom (edge_rule make None) qb vol (filter rob (entities m 1))).
  { destruct Pr1. constructor; auto. intros e I. rewrite (C1 e I). auto. }
  assert (VO : forall e p, In e (filter (fun _ => true) (entities m 0)) \/ In e (filter rob (entities m 1)) -> admissible (geom e) p -> volume_at (geom e) (vol e) p).
  { intros e p [I|I] Ad; [rewrite (C0 e I); apply VO0; assumption|rewrite (C1 e I); apply VO1; assumption]. }
  clearbody vol. clear C0 C1 VO0 VO1 Pr0 Pr1 vol0 vol1.
  assert (Dim : of_dim geom 2 (filter (fun _ => true) (entities m 0))).
  { intros e I. destruct (H e I) as (A1 & _). apply filter_In in I as (I & _). destruct (lagrange_cell m W e I) as [E|E]; rewrite E in A1; destruct (go_kind (geom e)); try discriminate; reflexivity. }
  assert (DimB : of_dim geom 1 (filter rob (entities m 1))).
  { intros e I. destruct (HB e I) as (A1 & _). destruct (go_kind (geom e)); try discriminate; reflexivity. }
  assert (DE : forall v, length v = N -> vanishes_on V v bd ->
    sum_form (sum_form (diffusion_form V geom q vol (filter (fun _ => true) (entities m 0)) a) (mass_form V q vol (filter (fun _ => true) (entities m 0)) c)) (mass_form V qb vol (filter rob (entities m 1)) et) v v 0 ->
    v = repeat 0 N).
  { intros v Lv Va (y0 & zb & (y & z & Hy & Hz & ->) & Hb & E).
    destruct (diffusion_zero V geom make q vol _ a v Pr) with (x := y) as (Py & Zy); [intros e I; apply (H e I)|intros e p I Ip; apply (H e I), Ip|intros e p I Ip; apply (H e I), Ip|exact Hy|].
    assert (Pz : 0 <= z) by (eapply mass_nonneg; [exact Pr| | |exact Hz]; [intros e I; apply (H e I)|intros e p I Ip; apply (H e I), Ip]).
    assert (Pb : 0 <= zb) by (eapply mass_nonneg; [exact PrB| | |exact Hb]; [intros e I; apply (HB e I)|intros e p I Ip; left; apply (HB e I), Ip]).
    specialize (Zy ltac:(lra)). assert (zb = 0) by lra. subst zb.
    pose proof (mass_zero V geom (edge_rule make None) qb vol _ et v PrB (fun e I => proj1 (proj2 (proj2 (proj2 (HB e I))))) ltac:(intros e p I Ip; apply (HB e I), Ip) ltac:(intros e p I Ip; apply (HB e I), Ip) Hb) as Z.
    assert (Vb : vanishes_on V v (fun e => bd e || rob e)).
    { intros e x Ie Se Hx. destruct (bd e) eqn:Bd; [apply Va; assumption|]. cbn in Se. rewrite VM in Ie, Hx. rewrite (TY e Ie) in Hx.
      assert (I : In e (filter rob (entities m 1))) by (apply filter_In; split; assumption).
      destruct (HB e I) as (A1 & _ & A3 & _ & A5 & A6). destruct (lagrange_element k m V W EV 1 e (or_intror eq_refl) Ie) as (l & El). rewrite (TY e Ie) in El.
      destruct (lagrange_describes k kSegment) as (E1 & _ & E3 & _).
      assert (ZL : forall s, (s < fe_total (lagrange k kSegment))%nat -> loc l v s = 0).
      { apply (A5 (loc l v)). intros j p w vs Ep Ew Pw Ev. pose proof (nth_error_In _ _ Ep) as Ip. destruct (A6 p Ip) as (B1 & _).
        pose proof (Z e j p w I Ep Ew Pw) as Zv. rewrite (value_sum V e _ l v El Lv p vs Ev) in Zv; [injection Zv as Zv; exact Zv|].
        destruct (co_eval _ E3 p) as (vs' & Ev' & Lv'); [|congruence]. rewrite E1, <- A1, (proj1 B1). destruct (go_kind (geom e)); reflexivity. }
      destruct (co_eval _ E3 x) as (vs & Ev & Lvs); [rewrite E1; apply (ref_length kSegment), Hx|]. rewrite (value_sum V e _ l v El Lv x vs Ev Lvs). f_equal.
      unfold sum_to. apply sum_all_zero. intros s Hs. apply in_seq in Hs. rewrite ZL by lia. ring. }
    apply (held_all k m V W EV v (fun e => bd e || rob e) Lv Vb); [|exact CM|exact AH]. intros i Hi.
    assert (IC : In (DofModel.ECell i) (entities m 0)) by (cbn; apply in_map, in_seq; cbn; lia).
    assert (I : In (DofModel.ECell i) (filter (fun _ => true) (entities m 0))) by (apply filter_In; split; [exact IC|reflexivity]).
    destruct (H (DofModel.ECell i) I) as (A1 & _ & A3 & _ & A5 & A6). destruct (lagrange_element k m V W EV 0 (DofModel.ECell i) (or_introl eq_refl) IC) as (l & El).
    assert (S : forall s, (s < length l)%nat -> loc l v s = loc l v 0).
    { intros s Hs. apply A5; [|rewrite <- (eo_total _ _ _ _ El); exact Hs]. intros j p w gr Ep Ew Pw Eg. pose proof (nth_error_In _ _ Ep) as Ip. destruct (A6 p Ip) as (B1 & B2 & _).
      destruct (Zy (DofModel.ECell i) j p w I Ep Ew Pw) as (gv & Egv & Zg).
      apply (flat_at V geom v (DofModel.ECell i) _ l p gv gr El Lv (Dim _ I)); auto; [rewrite VM; exact A1|].
      destruct (lagrange_gradients k (ent_type m (DofModel.ECell i)) (lagrange_shape m W 0 (DofModel.ECell i) (or_introl eq_refl) IC) p) as (gr' & Eg' & Lg' & _); [|congruence].
      rewrite (proj1 (lagrange_describes k (ent_type m (DofModel.ECell i)))), <- A1, (proj1 B1). destruct (go_kind (geom (DofModel.ECell i))); reflexivity. }
    intros l' x x' HD Ix Ix'. pose proof (eo_dofs _ _ _ _ El) as HD0. unfold has_dofs in HD, HD0. rewrite HD0 in HD. injection HD as <-.
    destruct (In_nth l x 0%nat Ix) as (s & Hs & <-). destruct (In_nth l x' 0%nat Ix') as (s' & Hs' & <-).
    pose proof (S s Hs) as Q1. pose proof (S s' Hs') as Q2. unfold loc in Q1, Q2. congruence. }
  rewrite <- VM in VO, Pr, PrB, Re, Dim, DimB, DE.
  assert (UL : uniform_layout V (fun t => Some (lagrange k t))) by (intros e; rewrite VM; apply (V_is k m V EV)).
  exists vol. split; [exact VO|]. cbv zeta.
  set (fm := sum_form (sum_form (diffusion_form V geom q vol (filter (fun _ => true) (entities (sp_mesh V) 0)) a) (mass_form V q vol (filter (fun _ => true) (entities (sp_mesh V) 0)) c)) (mass_form V qb vol (filter rob (entities (sp_mesh V) 1)) et)) in *.
  set (ld := load_form V q vol (filter (fun _ => true) (entities (sp_mesh V) 0)) h).
  assert (G1 : galerkin_matrix V (do A <- AssembleMatrixWith (sp_mesh V) 0 (sp_dofs V) (sp_dofs V) (fun _ => true) (rd_provider P geom alpha gamma); assemble_onto (sp_mesh V) 1 (sp_dofs V) rob (umass_edge_provider pfe geom eta) A) fm).
  { apply onto_galerkin; [eapply rd_assembled; eauto|eapply umass_edge_assembled; eauto]. }
  assert (G2 : galerkin_vector V (AssembleVectorWith (sp_mesh V) 0 (sp_dofs V) (fun _ => true) (uload_provider P geom src)) ld) by (eapply uload_assembled; eauto).
  assert (DF : defined_forms V fm ld).
  { split.
    + intros u v Lu Lv. apply sum_defined; [apply sum_defined; [eapply diffusion_defined; eauto|eapply mass_defined; eauto]|eapply mass_defined; eauto].
    + intros v Lv. eapply load_defined; eauto. }
  destruct (lagrange_unique k m V g W EV CG bd _ _ _ _ G1 G2 DF DE) as (A & b & fv & A' & b' & D' & EA & Eb & R).
  apply bind_ok in EA as (A0 & E0 & EA). exists A0, A, b, fv, A', b', D'. split; [exact E0|]. split; [exact EA|]. split; [exact Eb|]. exact R.
Qed.
