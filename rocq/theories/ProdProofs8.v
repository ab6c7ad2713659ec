(** C91, C92: the same for spaces that were built. *)
From Coq Require Import Reals List Arith Lia Lra Bool.
Import ListNotations.
From Verif Require Import Base Scalars MeshModel MeshView DofModel DofSpec DofProofs3 DofProofs4 RefPatModel GeoModel GeoSpec FeModel LagrModel FeSpec HierSpec FeProofs LagrProofs LagrProofs2 LagrProofs3
  AssembleModel FeToolsModel FeToolsSpec FeToolsProofs FeToolsProofs2 ElemProofs ElemProofs2 DpgModel DpgSpec DpgProofs ProdModel ProdSpec ProdProofs ProdProofs2 ProdProofs3 ProdProofs4 ProdProofs5 ProdProofs6 ProdProofs7 PropMeshView PropDof.
Local Open Scope nat_scope.

Lemma offered_dec : forall ks, Forall offered ks \/ ~ Forall offered ks.
Proof.
  induction ks as [|k ks [IH|IH]]; [left; constructor| |right; intros F; inversion F; auto].
  assert (D : offered k \/ ~ offered k) by (destruct k; cbn; lia).
  destruct D; [left; constructor; assumption|right; intros F; inversion F; auto].
Qed.
Lemma built_inv : forall m ks s, built m ks s -> ks <> [] /\ Forall offered ks /\ factory_space m ks = Ok s.
Proof.
  intros m ks s (idx & fa & fa' & H1 & H2).
  assert (D : ks <> [] /\ Forall offered ks).
  { assert (X := factory_rejects m ks). rewrite H1 in X. cbn [bind snd] in X. rewrite H2 in X. split; [intros Z; specialize (X (or_introl Z)); discriminate|].
    destruct (offered_dec ks) as [O|O]; [exact O|]. specialize (X (or_intror O)). discriminate. }
  destruct D as (D1 & D2). split; [exact D1|]. split; [exact D2|].
  rewrite (add_all_ok ks _ (offered_addable ks D2)) in H1. injection H1 as <- <-. unfold ProductUniformFESpaceFactory in H2. rewrite build_fresh in H2. inv_bind. congruence.
Qed.
Theorem built_iff : forall m ks, wf_mesh m -> (exists s, built m ks s) <-> (ks <> [] /\ Forall offered ks).
Proof.
  intros m ks W. split.
  - intros [s B]. apply built_inv in B. split; apply B.
  - intros (NE & F). destruct (factory_ok m ks W NE F) as (fa & s & fa' & H1 & H2 & _). exists s. unfold built. eauto.
Qed.
Theorem built_ok : forall m ks s, wf_mesh m -> built m ks s ->
  has_components m (length ks) (fun c => functions (nth c ks (L2 0))) (fun c => own_functions (nth c ks (L2 0))) s.
Proof.
  intros m ks s W B. destruct (built_inv _ _ _ B) as (NE & F & Hs). destruct (factory_space_ok m ks W NE F) as (s' & Hs' & K). rewrite Hs in Hs'. injection Hs' as <-. exact K.
Qed.
Theorem built_local : forall m ks s c k d e f, wf_mesh m -> built m ks s -> nth_error ks c = Some k -> p_ComponentDofHandler (ps_dofs s) c = Ok d ->
  valid m e -> functions k (ent_type m e) = Some f -> NumLocalDofs d e = Ok (fe_total f).
Proof.
  intros m ks s c k d e f W B E Hd V Hf. destruct (built_inv _ _ _ B) as (NE & F & Hs). pose proof (built_ok m ks s W B) as K.
  assert (Hc : c < length ks) by (apply nth_error_Some; congruence).
  assert (O : offered k) by (rewrite Forall_forall in F; apply F; eapply nth_error_In; exact E).
  destruct (hc_dofs _ _ _ _ _ K) as (ds & _ & St & Pv). destruct (Pv c Hc) as (d' & Nd & P). rewrite (nth_error_nth _ _ (L2 0) E) in P.
  destruct (sk_component_handler _ _ _ St c d' Nd) as (Ed & _). rewrite Hd in Ed. injection Ed as <-.
  destruct e as [i|i|i].
  - destruct k; discriminate Hf.
  - rewrite (pv_edge _ _ _ P i V). f_equal. cbn [ent_type] in Hf. destruct k as [x|x|x|x]; cbn in O; (destruct x as [|[|[|[|x]]]]; try lia); cbn in Hf; try discriminate Hf; injection Hf as <-; reflexivity.
  - pose proof (pv_cell _ _ _ P i V) as N. cbv zeta in N. rewrite N. f_equal.
    assert (T : ent_type m (ECell i) = kTria \/ ent_type m (ECell i) = kQuad) by (cbn; unfold cv_type, cell_type; destruct (_ =? 4); auto).
    destruct T as [T|T]; rewrite T in *; destruct k as [x|x|x|x]; cbn in O; (destruct x as [|[|[|[|x]]]]; try lia); cbn in Hf; try discriminate Hf; injection Hf as <-; reflexivity.
Qed.
Theorem built_components : forall m ks s c k, wf_mesh m -> built m ks s -> nth_error ks c = Some k ->
  (~ is_flux k -> exists V, ComponentFESpace s c = Ok V /\ sp_mesh V = m /\ p_ComponentDofHandler (ps_dofs s) c = Ok (sp_dofs V) /\
     provides m (own_functions k) (sp_dofs V) /\ forall e, sp_layout V e = functions k (ent_type m e)) /\
  (is_flux k -> ComponentFESpace s c = Throw).
Proof. intros m ks s c k W B. destruct (built_inv _ _ _ B) as (NE & F & Hs). exact (factory_components m ks s c k W F Hs). Qed.
Theorem built_continuous : forall m ks s c k V u, wf_mesh m -> built m ks s -> nth_error ks c = Some k -> continuous_component k ->
  ComponentFESpace s c = Ok V -> length u = NumDofs (sp_dofs V) -> skeleton_continuous V u.
Proof. intros m ks s c k V u W B E C HV. destruct (built_inv _ _ _ B) as (NE & F & Hs). exact (component_continuous m ks s c k V W F Hs E C HV u). Qed.
Theorem built_conditions : forall m ks s tc fc sd sn g h v, wf_mesh m -> built m ks s ->
  InitEssentialConditionsFromFunctions s tc fc sd sn g h = Ok v ->
  tc <> fc /\ exists Vt Vf ot of, ComponentFESpace s tc = Ok Vt /\ ComponentFESpace s fc = Ok Vf /\
    p_Offset (ps_dofs s) tc = Ok ot /\ p_Offset (ps_dofs s) fc = Ok of /\ length v = NumDofs (p_handler (ps_dofs s)) /\
    (forall k, k < NumDofs (sp_dofs Vt) -> exists x, nth_error v (ot + k) = Some x /\ condition Vt sd g k x) /\
    (forall k, k < NumDofs (sp_dofs Vf) -> exists x, nth_error v (of + k) = Some x /\ condition Vf sn h k x) /\
    (forall i c, p_Component (ps_dofs s) i = Ok c -> c <> tc -> c <> fc -> nth_error v i = Some (false, 0%R)).
Proof. intros m ks s tc fc sd sn g h v W B. destruct (built_inv _ _ _ B) as (NE & F & Hs). exact (essential_product m _ _ _ _ s tc fc sd sn g h v W Hs). Qed.
Theorem built_accepts : forall m ks s tc fc k k' sd sn g h, wf_mesh m -> built m ks s -> tc <> fc ->
  nth_error ks tc = Some k -> nth_error ks fc = Some k' -> continuous_component k -> continuous_component k' ->
  (forall e p, sd e = true -> exists y, g e p = Ok y) -> (forall e p, sn e = true -> exists y, h e p = Ok y) ->
  exists v, InitEssentialConditionsFromFunctions s tc fc sd sn g h = Ok v.
Proof. intros m ks s tc fc k k' sd sn g h W B. destruct (built_inv _ _ _ B) as (NE & F & Hs). exact (essential_accepts m ks s tc fc k k' sd sn g h W F Hs). Qed.
Theorem built_flux_fails : forall m ks s tc fc d sd sn g h, wf_mesh m -> built m ks s -> tc < length ks -> tc <> fc ->
  nth_error ks fc = Some (Flux d) -> InitEssentialConditionsFromFunctions s tc fc sd sn g h = Throw.
Proof. intros m ks s tc fc d sd sn g h W B. destruct (built_inv _ _ _ B) as (NE & F & Hs). exact (essential_flux_fails m ks s tc fc d sd sn g h W F Hs). Qed.

(** The components of the ultraweak method for convection and diffusion. *)
Definition ultraweak : list component := [L2 1; L2 1; L2 1; Trace 2; Flux 1].
Lemma ultraweak_offered : ultraweak <> [] /\ Forall offered ultraweak.
Proof. split; [discriminate|]. repeat constructor. Qed.
Lemma flux_refuted : exists m ks s c d, wf_mesh m /\ built m ks s /\ nth_error ks c = Some (Flux d) /\ offered (Flux d) /\ ComponentFESpace s c = Throw.
Proof.
  destruct (proj2 (built_iff example_mesh ultraweak example_wf) ultraweak_offered) as [s B].
  exists example_mesh, ultraweak, s, 4, 1. split; [exact example_wf|]. split; [exact B|]. split; [reflexivity|]. split; [cbn; lia|].
  apply (built_components _ _ s 4 (Flux 1) example_wf B eq_refl). exact I.
Qed.
Lemma conditions_refuted : exists m ks s, wf_mesh m /\ built m ks s /\ nth_error ks 3 = Some (Trace 2) /\ nth_error ks 4 = Some (Flux 1) /\
  forall sd sn g h, InitEssentialConditionsFromFunctions s 3 4 sd sn g h = Throw.
Proof.
  destruct (proj2 (built_iff example_mesh ultraweak example_wf) ultraweak_offered) as [s B].
  exists example_mesh, ultraweak, s. split; [exact example_wf|]. split; [exact B|]. split; [reflexivity|]. split; [reflexivity|].
  intros sd sn g h. apply (built_flux_fails _ _ s 3 4 1 sd sn g h example_wf B); [cbn; lia|lia|reflexivity].
Qed.
Lemma reuse_refuted : exists m fa s fa' i fa'' s' f, wf_mesh m /\ AddH1Component (ProductUniformFESpaceFactory m) 1 = Ok (0, fa) /\ Build fa = Ok (s, fa') /\
  AddH1Component fa' 1 = Ok (i, fa'') /\ Build fa'' = Ok (s', f) /\ NumComponents s' = 1 /\ ~ i < NumComponents s'.
Proof.
  assert (O : Forall offered [H1 1]) by (repeat constructor).
  destruct (factory_reuse example_mesh [H1 1] [H1 1] example_wf ltac:(discriminate) O O) as (fa & s & fa' & fa'' & A1 & A2 & A3 & A4).
  destruct (A4 ltac:(discriminate)) as (s' & f & A5 & A6). cbn [add_all bind] in A1, A3. unfold add in A1, A3. inv_bind.
  match goal with A : AddH1Component (ProductUniformFESpaceFactory _) 1 = Ok ?x |- _ => destruct x as [i0 g0]; rename A into B1 end.
  match goal with A : AddH1Component fa' 1 = Ok ?x |- _ => destruct x as [i1 g1]; rename A into B2 end.
  cbn [fst snd length seq] in *.
  exists example_mesh, fa, s, fa', 1, fa'', s', f. split; [exact example_wf|].
  split; [rewrite B1; congruence|]. split; [exact A2|]. split; [rewrite B2; congruence|]. split; [exact A5|]. split; [exact A6|]. rewrite A6. lia.
Qed.

(** Two traces on the example mesh. *)
Lemma conditions_example : exists s v, built example_mesh [L2 1; Trace 2; Trace 1] s /\
  InitEssentialConditionsFromFunctions s 1 2 (fun e => match e with EEdge 0 => true | _ => false end) (fun e => match e with EEdge 3 => true | _ => false end)
    (fun _ p => Ok (nth 0 p 0%R)) (fun _ _ => Ok 1%R) = Ok v /\ length v = NumDofs (p_handler (ps_dofs s)) /\ 0 < length v.
Proof.
  destruct (proj2 (built_iff example_mesh [L2 1; Trace 2; Trace 1] example_wf)) as [s B]; [split; [discriminate|repeat constructor]|].
  destruct (built_accepts _ _ s 1 2 (Trace 2) (Trace 1) (fun e => match e with EEdge 0 => true | _ => false end) (fun e => match e with EEdge 3 => true | _ => false end)
    (fun _ p => Ok (nth 0 p 0%R)) (fun _ _ => Ok 1%R) example_wf B) as [v Hv]; try reflexivity; try exact I; try lia; try (intros; eauto).
  exists s, v. split; [exact B|]. split; [exact Hv|].
  destruct (built_conditions _ _ s 1 2 _ _ _ _ v example_wf B Hv) as (_ & Vt & Vf & ot & of & _ & _ & _ & _ & L & _). split; [exact L|]. rewrite L.
  pose proof (built_ok _ _ s example_wf B) as K. destruct (hc_dofs _ _ _ _ _ K) as (ds & LD & St & Pv). rewrite (sk_total _ _ _ St).
  destruct (Pv 0 ltac:(cbn; lia)) as (d & Nd & P). destruct ds as [|d0 ds]; [discriminate|]. injection Nd as ->. rewrite total_cons, (pv_total _ _ _ P). cbn. lia.
Qed.
Lemma built_example : exists s, built example_mesh ultraweak s /\ NumComponents s = 5 /\
  NumRefShapeFunctions s kQuad 0 = Ok 4 /\ NumRefShapeFunctions s kSegment 3 = Ok 1 /\ NumRefShapeFunctions s kSegment 4 = Ok 2 /\
  exists V, ComponentFESpace s 3 = Ok V /\ 0 < NumDofs (sp_dofs V).
Proof.
  destruct (proj2 (built_iff example_mesh ultraweak example_wf) ultraweak_offered) as [s B]. exists s. split; [exact B|].
  pose proof (built_ok _ _ s example_wf B) as K. split; [exact (hc_count _ _ _ _ _ K)|].
  split; [exact (hc_number _ _ _ _ _ K 0 kQuad ltac:(cbn; lia))|]. split; [exact (hc_number _ _ _ _ _ K 3 kSegment ltac:(cbn; lia))|]. split; [exact (hc_number _ _ _ _ _ K 4 kSegment ltac:(cbn; lia))|].
  destruct (built_components _ _ s 3 (Trace 2) example_wf B eq_refl) as (A & _). destruct (A ltac:(intros [])) as (V & HV & _ & _ & P & _).
  exists V. split; [exact HV|]. rewrite (pv_total _ _ _ P). cbn. lia.
Qed.
Lemma elements_example : counts (lagrange O3 kTria) /\ uniform_counts (lagrange O3 kTria) /\ fe_total (trace_element (lagrange O3 kTria)) = 9 /\ on_boundary kTria [1 / 2; 1 / 2]%R.
Proof.
  destruct (lagrange_describes O3 kTria) as (_ & _ & C & U). split; [exact C|]. split; [apply U; discriminate|]. split; [reflexivity|].
  exists 1, (1 / 2)%R. split; [cbn; lia|]. split; [lra|]. cbn. apply f_equal2; [lra|]. apply f_equal2; [lra|reflexivity].
Qed.
