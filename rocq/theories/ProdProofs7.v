(** C92: essential conditions on product spaces. *)
From Coq Require Import Reals List Arith Lia Lra Bool.
Import ListNotations.
From Verif Require Import Base Scalars MeshModel MeshView DofModel DofSpec DofProofs3 DofProofs4 RefPatModel GeoModel GeoSpec FeModel LagrModel FeSpec HierSpec FeProofs LagrProofs LagrProofs2 LagrProofs3
  AssembleModel FeToolsModel FeToolsSpec FeToolsProofs FeToolsProofs2 ElemProofs ElemProofs2 DpgModel DpgSpec DpgProofs ProdModel ProdSpec ProdProofs ProdProofs2 ProdProofs3 ProdProofs4 ProdProofs5 ProdProofs6.
Local Open Scope nat_scope.

Lemma copy_from_spec : forall A n o k (l v w : list A), copy_from n o k l v = Ok w -> length w = length v /\
  (forall j, k <= j < k + n -> exists x, nth_error l j = Some x /\ nth_error w (o + j) = Some x) /\
  (forall i, i < o + k \/ o + k + n <= i -> nth_error w i = nth_error v i).
Proof.
  intros A n. induction n as [|n IH]; intros o k l v w H; cbn [copy_from] in H.
  - injection H as <-. split; [reflexivity|]. split; [intros; lia|reflexivity].
  - inv_bind. apply elem_at_ok in E. apply Nat.ltb_lt in E0. destruct (IH _ _ _ _ _ H) as (L & I & O).
    split; [rewrite L; apply upd_length|]. split.
    + intros j Hj. destruct (Nat.eq_dec j k) as [->|Ne]; [|apply I; lia].
      exists r. split; [exact E|]. rewrite O by lia. apply nth_error_upd_eq. exact E0.
    + intros i Hi. rewrite O by lia. apply nth_error_upd_neq. lia.
Qed.
Lemma copy_from_total : forall A n o k (l v : list A), k + n <= length l -> o + k + n <= length v -> exists w, copy_from n o k l v = Ok w.
Proof.
  intros A n. induction n as [|n IH]; intros o k l v Hl Hv; cbn [copy_from]; [eauto|].
  destruct (nth_error l k) as [x|] eqn:E; [|apply nth_error_None in E; lia]. apply elem_at_ok in E. rewrite E. cbn [bind].
  replace (o + k <? length v) with true by (symmetry; apply Nat.ltb_lt; lia). cbn [lf_assert bind].
  apply IH; [lia|]. rewrite upd_length. lia.
Qed.
Lemma total_firstn_S : forall ds c d, nth_error ds c = Some d -> total (firstn (S c) ds) = total (firstn c ds) + NumDofs d.
Proof.
  induction ds as [|x ds IH]; intros [|c] d H; try discriminate H.
  - injection H as ->. cbn. unfold total. cbn. lia.
  - cbn [nth_error] in H. change (firstn (S (S c)) (x :: ds)) with (x :: firstn (S c) ds). change (firstn (S c) (x :: ds)) with (x :: firstn c ds).
    rewrite !total_cons, (IH c d H). lia.
Qed.
Lemma total_firstn_le : forall ds c, total (firstn c ds) <= total ds.
Proof. induction ds as [|x ds IH]; intros [|c]; cbn [firstn]; rewrite ?total_cons; [lia|lia|unfold total; cbn; lia|]. specialize (IH c). lia. Qed.

Theorem essential_product : forall m T Q E P s tc fc sd sn g h v, wf_mesh m -> ProductUniformFESpace m T Q E P = Ok s ->
  InitEssentialConditionsFromFunctions s tc fc sd sn g h = Ok v ->
  tc <> fc /\ exists Vt Vf ot of, ComponentFESpace s tc = Ok Vt /\ ComponentFESpace s fc = Ok Vf /\
    p_Offset (ps_dofs s) tc = Ok ot /\ p_Offset (ps_dofs s) fc = Ok of /\ length v = NumDofs (p_handler (ps_dofs s)) /\
    (forall k, k < NumDofs (sp_dofs Vt) -> exists x, nth_error v (ot + k) = Some x /\ condition Vt sd g k x) /\
    (forall k, k < NumDofs (sp_dofs Vf) -> exists x, nth_error v (of + k) = Some x /\ condition Vf sn h k x) /\
    (forall i c, p_Component (ps_dofs s) i = Ok c -> c <> tc -> c <> fc -> nth_error v i = Some (false, 0%R)).
Proof.
  intros m T Q E P s tc fc sd sn g h v W Hs H. unfold InitEssentialConditionsFromFunctions in H.
  apply bind_ok in H. destruct H as (u0 & Hne & H). apply lf_assert_ok in Hne. apply negb_true_iff, Nat.eqb_neq in Hne. clear u0.
  apply bind_ok in H. destruct H as (Vt & HVt & H). apply bind_ok in H. destruct H as (Vf & HVf & H).
  apply bind_ok in H. destruct H as (tr & Htr & H). apply bind_ok in H. destruct H as (fl & Hfl & H).
  apply bind_ok in H. destruct H as (ot & Hot & H). apply bind_ok in H. destruct H as (of & Hof & H).
  apply bind_ok in H. destruct H as (v1 & H1 & H2). split; [exact Hne|]. exists Vt, Vf, ot, of.
  split; [exact HVt|]. split; [exact HVf|]. split; [exact Hot|]. split; [exact Hof|].
  destruct (space_ok m T Q E P s W Hs) as (n & K & _). destruct (hc_dofs _ _ _ _ _ K) as (ds & LD & St & Pv).
  assert (CP : forall c V, ComponentFESpace s c = Ok V -> c < length T /\ nth_error ds c = Some (sp_dofs V) /\ consistent V (AssembleModel.entities (sp_mesh V) 1) /\ p_Offset (ps_dofs s) c = Ok (total (firstn c ds))).
  { intros c V HV. destruct (component_space m T Q E P s c W Hs) as (S & _). destruct (S V HV) as (Hc & Em & Ed & _). split; [exact Hc|].
    destruct (Pv c Hc) as (d & Nd & Pd). destruct (sk_component_handler _ _ _ St c d Nd) as (Ed' & _). rewrite Ed in Ed'. injection Ed' as Ed'. split; [rewrite Ed'; exact Nd|].
    split; [|apply (sk_offset _ _ _ St); lia]. exact (dofs_consistent m d (pv_canonical _ _ _ Pd) V 1 Em Ed'). }
  destruct (CP tc Vt HVt) as (Ht & Nt & Ct & Ot). destruct (CP fc Vf HVf) as (Hf & Nf & Cf & Of). rewrite Hot in Ot. injection Ot as Ot. rewrite Hof in Of. injection Of as Of.
  destruct (copy_from_spec _ _ _ _ _ _ _ H1) as (L1 & I1 & O1). destruct (copy_from_spec _ _ _ _ _ _ _ H2) as (L2 & I2 & O2).
  rewrite repeat_length in L1.
  assert (RT : forall i, ot <= i < ot + NumDofs (sp_dofs Vt) -> p_Component (ps_dofs s) i = Ok tc).
  { intros i Hi. replace i with (total (firstn tc ds) + (i - ot)) by lia. apply (sk_component _ _ _ St tc (sp_dofs Vt)); [exact Nt|lia]. }
  assert (RF : forall i, of <= i < of + NumDofs (sp_dofs Vf) -> p_Component (ps_dofs s) i = Ok fc).
  { intros i Hi. replace i with (total (firstn fc ds) + (i - of)) by lia. apply (sk_component _ _ _ St fc (sp_dofs Vf)); [exact Nf|lia]. }
  assert (CE : forall V sel gg fv, consistent V (AssembleModel.entities (sp_mesh V) 1) -> InitEssentialConditionFromFunction V sel gg = Ok fv -> forall k x, k < NumDofs (sp_dofs V) -> nth_error fv k = Some x -> condition V sel gg k x).
  { intros V sel gg fv Cv He k x Hk Hx. destruct (essential_sets V gg sel fv Cv He) as (_ & D). destruct (D k Hk) as [[U X]|(w & Pw & X)].
    - left. split; [exact U|congruence].
    - right. exists w. split; [exact Pw|congruence]. }
  split; [rewrite L2, L1; reflexivity|]. split; [|split].
  - intros k Hk. destruct (I1 k ltac:(lia)) as (x & X1 & X2). exists x. split; [|exact (CE Vt sd g tr Ct Htr k x Hk X1)].
    rewrite O2; [exact X2|]. destruct (Nat.lt_ge_cases (ot + k) (of + 0)) as [A|A]; [left; exact A|]. destruct (Nat.lt_ge_cases (ot + k) (of + 0 + NumDofs (sp_dofs Vf))) as [B|B]; [|right; exact B].
    assert (X := RF (ot + k) ltac:(lia)). rewrite RT in X by lia. injection X as X. contradiction.
  - intros k Hk. destruct (I2 k ltac:(lia)) as (x & X1 & X2). exists x. split; [exact X2|exact (CE Vf sn h fl Cf Hfl k x Hk X1)].
  - intros i c Hc N1 N2.
    assert (Bi : i < p_NumDofs (ps_dofs s)). { unfold p_Component in Hc. apply bind_ok in Hc. destruct Hc as (u & Hu & _). apply lf_assert_ok in Hu. apply Nat.ltb_lt in Hu. exact Hu. }
    rewrite O2; [rewrite O1|].
    + rewrite nth_error_repeat. apply Nat.ltb_lt in Bi. rewrite Bi. reflexivity.
    + destruct (Nat.lt_ge_cases i (ot + 0)) as [A|A]; [left; exact A|]. destruct (Nat.lt_ge_cases i (ot + 0 + NumDofs (sp_dofs Vt))) as [B|B]; [|right; exact B].
      exfalso. apply N1. assert (X := RT i ltac:(lia)). congruence.
    + destruct (Nat.lt_ge_cases i (of + 0)) as [A|A]; [left; exact A|]. destruct (Nat.lt_ge_cases i (of + 0 + NumDofs (sp_dofs Vf))) as [B|B]; [|right; exact B].
      exfalso. apply N2. assert (X := RF i ltac:(lia)). congruence.
Qed.

(** * Spaces of the factory *)
Theorem essential_flux_fails : forall m ks s tc fc d sd sn g h, wf_mesh m -> Forall offered ks -> factory_space m ks = Ok s -> tc < length ks -> tc <> fc ->
  nth_error ks fc = Some (Flux d) -> InitEssentialConditionsFromFunctions s tc fc sd sn g h = Throw.
Proof.
  intros m ks s tc fc d sd sn g h W F Hs Ht Ne Hf. unfold InitEssentialConditionsFromFunctions.
  apply Nat.eqb_neq in Ne. rewrite Ne. cbn [negb lf_assert bind].
  destruct (nth_error ks tc) as [k|] eqn:E; [|apply nth_error_None in E; lia].
  destruct (factory_components m ks s tc k W F Hs E) as (A & B). destruct (factory_components m ks s fc (Flux d) W F Hs Hf) as (_ & C).
  assert (D : is_flux k \/ ~ is_flux k) by (destruct k; cbn; auto).
  destruct D as [D|D]; [rewrite (B D); reflexivity|]. destruct (A D) as (V & -> & _). cbn [bind]. rewrite (C I). reflexivity.
Qed.
Lemma set_all_total : forall A idx (vals : list A) glob, length idx = length vals -> (forall i, In i idx -> i < length glob) -> exists g', set_all idx vals glob = Ok g' /\ length g' = length glob.
Proof.
  intros A. induction idx as [|i idx IH]; intros vals glob L B; cbn [set_all]; [eauto|]. destruct vals as [|x vals]; [discriminate|].
  replace (i <? length glob) with true by (symmetry; apply Nat.ltb_lt; apply B; left; reflexivity). cbn [lf_assert bind].
  destruct (IH vals (upd i x glob)) as (g' & E & Lg); [cbn in L; lia|intros j Hj; rewrite upd_length; apply B; right; exact Hj|]. exists g'. split; [exact E|]. rewrite Lg. apply upd_length.
Qed.
Lemma essential_total : forall V k sel g, (forall i, sp_layout V (EEdge i) = Some (lagrange k kSegment)) ->
  (forall i, valid (sp_mesh V) (EEdge i) -> exists l, GlobalDofIndices (sp_dofs V) (EEdge i) = Ok l /\ NumLocalDofs (sp_dofs V) (EEdge i) = Ok (length l) /\ length l = fe_total (lagrange k kSegment) /\ forall x, In x l -> x < NumDofs (sp_dofs V)) ->
  (forall e p, sel e = true -> exists y, g e p = Ok y) -> exists fv, InitEssentialConditionFromFunction V sel g = Ok fv.
Proof.
  intros V k sel g LE D G. unfold InitEssentialConditionFromFunction.
  assert (X : forall es fv, (forall e, In e es -> exists i, e = EEdge i /\ valid (sp_mesh V) (EEdge i)) -> length fv = NumDofs (sp_dofs V) -> exists w, essential_loop V sel g es fv = Ok w).
  { induction es as [|e es IH]; intros fv Hes Lf; cbn [essential_loop]; [eauto|].
    destruct (sel e) eqn:Se; [|apply IH; [intros; apply Hes; right; assumption|exact Lf]].
    destruct (Hes e (or_introl eq_refl)) as (i & -> & Vi). rewrite LE. destruct (D i Vi) as (l & Gl & Nl & Ll & Bl).
    destruct (traverse_ok _ _ (g (EEdge i)) (fe_nodes (lagrange k kSegment))) as [vals Hv]; [intros p _; apply G; exact Se|].
    rewrite Hv. cbn [bind]. pose proof (traverse_length _ _ _ _ _ Hv) as Lv. destruct (lagrange_cardinal k kSegment) as (C1 & C2 & _).
    rewrite Lv, C1, C2. replace (0 <? fe_total (lagrange k kSegment)) with true by (destruct k; reflexivity). cbn [lf_assert bind].
    destruct (lagrange_nodes k kSegment) as (_ & _ & N2). rewrite (N2 vals) by congruence. cbn [bind].
    replace (length vals) with (fe_total (lagrange k kSegment)) by congruence. rewrite Nat.eqb_refl. cbn [lf_assert bind]. rewrite Nl, Ll. cbn [bind]. rewrite Nat.eqb_refl. cbn [lf_assert bind]. rewrite Gl. cbn [bind].
    destruct (set_all_total _ l (map (pair true) vals) fv) as (g' & E & Lg); [rewrite map_length; congruence|intros x Ix; rewrite Lf; apply Bl; exact Ix|]. rewrite E. cbn [bind].
    apply IH; [intros; apply Hes; right; assumption|congruence]. }
  apply X; [|apply repeat_length]. intros e I. destruct (in_edges _ e I) as (i & -> & Vi). exists i. auto.
Qed.
Theorem essential_accepts : forall m ks s tc fc k k' sd sn g h, wf_mesh m -> Forall offered ks -> factory_space m ks = Ok s -> tc <> fc ->
  nth_error ks tc = Some k -> nth_error ks fc = Some k' -> continuous_component k -> continuous_component k' ->
  (forall e p, sd e = true -> exists y, g e p = Ok y) -> (forall e p, sn e = true -> exists y, h e p = Ok y) ->
  exists v, InitEssentialConditionsFromFunctions s tc fc sd sn g h = Ok v.
Proof.
  intros m ks s tc fc k k' sd sn g h W F Hs Ne Ht Hf C C' G H. unfold InitEssentialConditionsFromFunctions.
  apply Nat.eqb_neq in Ne. rewrite Ne. cbn [negb lf_assert bind].
  assert (NF : forall x, continuous_component x -> ~ is_flux x) by (intros [] A B; try destruct A; destruct B).
  destruct (factory_space_ok m ks W) as (s' & Hs' & K); [intros ->; destruct tc; discriminate|exact F|]. rewrite Hs in Hs'. injection Hs' as <-.
  destruct (hc_dofs _ _ _ _ _ K) as (ds & LD & St & Pv).
  assert (X : forall c x sel gg, nth_error ks c = Some x -> continuous_component x -> (forall e p, sel e = true -> exists y, gg e p = Ok y) ->
    exists V fv o, ComponentFESpace s c = Ok V /\ InitEssentialConditionFromFunction V sel gg = Ok fv /\ length fv = NumDofs (sp_dofs V) /\ p_Offset (ps_dofs s) c = Ok o /\ o + NumDofs (sp_dofs V) <= p_NumDofs (ps_dofs s)).
  { intros c x sel gg Hc Cx Gx. assert (Ox : offered x) by (rewrite Forall_forall in F; apply F; eapply nth_error_In; exact Hc).
    destruct (factory_components m ks s c x W F Hs Hc) as (A & _). destruct (A (NF x Cx)) as (V & HV & Em & Ed & P & L).
    assert (D : exists d, (x = H1 d \/ x = Trace d) /\ (d = 1 \/ d = 2 \/ d = 3)) by (destruct x as [d|d|d|d]; try destruct Cx; cbn in Ox; exists d; (split; [auto|lia])).
    destruct D as (d & Hx & Hd).
    destruct (essential_total V (ord_of d) sel gg) as [fv Hfv].
    - intros i. rewrite L. cbn [ent_type]. destruct Hx as [-> | ->]; destruct Hd as [-> | [-> | ->]]; reflexivity.
    - intros i Vi. rewrite Em in Vi. destruct (ca_count _ _ _ (pv_canonical _ _ _ P) _ Vi) as (l & G1 & G2). exists l. split; [exact G1|]. split; [exact G2|]. split.
      + pose proof (pv_edge _ _ _ P i Vi) as G3. rewrite G2 in G3. injection G3 as ->. destruct Hx as [-> | ->]; destruct Hd as [-> | [-> | ->]]; reflexivity.
      + exact (canonical_range m _ true _ W (pv_partition _ _ _ P) (pv_canonical _ _ _ P) _ _ Vi G1).
    - exact Gx.
    - assert (Hc' : c < length ks) by (apply nth_error_Some; congruence).
      destruct (Pv c Hc') as (dd & Nd & _). destruct (sk_component_handler _ _ _ St c dd Nd) as (Ed' & _). rewrite Ed in Ed'. injection Ed' as Ed'.
      exists V, fv, (total (firstn c ds)). split; [exact HV|]. split; [exact Hfv|]. split; [|split].
      + assert (Cn : consistent V (AssembleModel.entities (sp_mesh V) 1)) by exact (dofs_consistent m (sp_dofs V) (pv_canonical _ _ _ P) V 1 Em eq_refl).
        apply (essential_sets V gg sel fv Cn Hfv).
      + apply (sk_offset _ _ _ St). lia.
      + change (p_NumDofs (ps_dofs s)) with (NumDofs (p_handler (ps_dofs s))). rewrite (sk_total _ _ _ St), Ed', <- (total_firstn_S _ _ _ Nd). apply total_firstn_le. }
  destruct (X tc k sd g Ht C G) as (Vt & ft & ot & E1 & E2 & E3 & E4 & E5). destruct (X fc k' sn h Hf C' H) as (Vf & ff & of & D1 & D2 & D3 & D4 & D5).
  rewrite E1. cbn [bind]. rewrite D1. cbn [bind]. rewrite E2. cbn [bind]. rewrite D2. cbn [bind]. rewrite E4. cbn [bind]. rewrite D4. cbn [bind].
  destruct (copy_from_total _ (NumDofs (sp_dofs Vt)) ot 0 ft (repeat (false, 0%R) (p_NumDofs (ps_dofs s)))) as [v1 Hv1]; [lia|rewrite repeat_length; lia|].
  rewrite Hv1. cbn [bind]. destruct (copy_from_spec _ _ _ _ _ _ _ Hv1) as (L1 & _). rewrite repeat_length in L1. apply copy_from_total; lia.
Qed.
