(** Proofs for C74, C76: Lagrangian spaces. *)
From Coq Require Import Reals List Arith Lia Lra Bool.
Import ListNotations.
From Verif Require Import Base Scalars MeshModel MeshView DofModel DofSpec DofProofs4 RefPatModel GeoModel GeoSpec GeoProofs FeModel LagrModel QuadModel AssembleModel AssembleSpec AssembleProofs
  FeSpec FeProofs LagrProofs LagrProofs2 LagrProofs3 HierSpec HierProofs QuadSpec ElemModel ElemSpec ElemProofs3 ElemProofs7 FeToolsModel FeToolsSpec FeToolsProofs FeToolsProofs2
  TransferProofs3 ProlongSpec ProlongProofs ProlongProofs2 GalerkinModel GalerkinSpec GalerkinProofs GalerkinProofs2 GalerkinProofs3 GalerkinProofs5.
Local Open Scope R_scope.

Section Edges.
Variables (k : order) (m : mesh) (V : fe_space) (g : meshfun).
Hypothesis W : wf_mesh m.
Hypothesis EV : lagrange_space k m = Ok V.
Hypothesis CG : continuous_function m g.
Let d := lagrange_dofs k m.

Lemma segment_nodes_in : forall p, In p (fe_nodes (lagrange k kSegment)) -> in_ref kSegment p.
Proof. intros p H. destruct k; cbn in H; repeat (destruct H as [<-|H]; [cbn; lra|]); destruct H. Qed.
Lemma edge_node_at : forall q p, nth_error (fe_nodes (lagrange k kSegment)) q = Some p ->
  (q = 0%nat /\ p = [0]) \/ (q = 1%nat /\ p = [1]) \/ (2 <= q /\ q - 2 < edge_num k)%nat /\ p = own_node k kSegment (q - 2).
Proof.
  intros q p H. destruct q as [|[|q]]; [left; destruct k; cbn in H; injection H as <-; auto|right; left; destruct k; cbn in H; injection H as <-; auto|].
  right; right. assert (Q : (q < edge_num k)%nat).
  { assert (S (S q) < length (fe_nodes (lagrange k kSegment)))%nat by (apply nth_error_Some; congruence). destruct k; cbn in *; lia. }
  split; [lia|]. unfold own_node. replace (2 + (S (S q) - 2))%nat with (S (S q)) by lia. symmetry. apply nth_error_nth. exact H.
Qed.

Lemma edge_coincides : exists coef, length coef = NumDofs (sp_dofs V) /\ forall e, In e (entities m 1) -> coincides V coef g e.
Proof.
  destruct (V_is k m V EV) as (VM & VD & VL). destruct (coefficients_exist k m g W) as (coef & Lc & A). exists coef. split; [rewrite VD; exact Lc|].
  intros e Ie f p Lo Ip. destruct (lagrange_elements k m V W EV) as (_ & _ & EO & _).
  destruct (EO e Ie) as (f' & l & Lo' & HD & _ & RG & LT & _ & EVL & _). rewrite Lo in Lo'. injection Lo' as <-.
  destruct (in_edges m e Ie) as (i & -> & Vi). assert (EF : f = lagrange k kSegment) by (pose proof (VL (EEdge i)) as Q; change (ent_type m (EEdge i)) with kSegment in Q; congruence). subst f. clear Lo.
  destruct (nth_error (mv_edges m) i) as [[a b]|] eqn:E; [|apply nth_error_None in E; cbn in Vi; lia].
  destruct (wm_edges _ W i a b E) as (_ & Va & Vb).
  destruct (ca_edge _ _ _ (Cd k m W) i a b E) as (la & lb & lo & Oa & Ob & Oe & G). unfold has_dofs in HD. rewrite VD in HD, RG. unfold d in *. rewrite G in HD. injection HD as <-.
  assert (La : length la = 1%nat) by exact (own_length m _ _ (Pd k m W) (ENode a) la Va Oa).
  assert (Lb : length lb = 1%nat) by exact (own_length m _ _ (Pd k m W) (ENode b) lb Vb Ob).
  destruct la as [|ga [|]]; try discriminate La. destruct lb as [|gb [|]]; try discriminate Lb.
  apply In_nth_error in Ip as (q & Hq).
  assert (In1 : in_ref kSegment p) by (apply segment_nodes_in; eapply nth_error_In; eauto).
  destruct (ct_value _ _ CG (EEdge i) p Vi In1) as (w & Ew).
  assert (Lq : (q < length ([ga] ++ [gb] ++ lo))%nat).
  { rewrite LT. destruct (lagrange_cardinal k kSegment) as (C1 & C2 & _). assert (Q2 : (q < length (fe_nodes (lagrange k kSegment)))%nat) by (apply nth_error_Some; congruence). rewrite C1, C2 in Q2. exact Q2. }
  assert (GV : nth (nth q ([ga] ++ [gb] ++ lo) 0%nat) coef 0 = w).
  { destruct (ct_ends _ _ CG i a b E) as (E0 & E1). destruct (edge_node_at q p Hq) as [(-> & ->)|[(-> & ->)|(Q & ->)]].
    - cbn [nth app]. apply (A (ENode a) [ga] 0%nat ga w Va Oa eq_refl). replace (own_node k (ent_type m (ENode a)) 0) with (@nil R) by (clear; destruct k; reflexivity). congruence.
    - cbn [nth app]. apply (A (ENode b) [gb] 0%nat gb w Vb Ob eq_refl). replace (own_node k (ent_type m (ENode b)) 0) with (@nil R) by (clear; destruct k; reflexivity). congruence.
    - replace q with (S (S (q - 2))) at 1 by lia. cbn [nth app]. apply (A (EEdge i) lo (q - 2)%nat _ w Vi Oe); [|exact Ew].
      apply nth_error_nth'. pose proof (own_length m _ _ (Pd k m W) (EEdge i) lo Vi Oe) as Lo. change (length lo = edge_num k) in Lo. lia. }
  rewrite Ew. symmetry.
  destruct (EVL p (nth_error_In _ _ Hq)) as (v & Ev & Lv).
  rewrite (fe_value_ok V coef (EEdge i) (lagrange k kSegment) p v ([ga] ++ [gb] ++ lo)); [|rewrite VL; reflexivity|exact Ev|rewrite VD; exact G|lia|rewrite Lc; exact RG].
  f_equal. destruct (lagrange_cardinal k kSegment) as (C1 & C2 & C3). destruct (C3 q p Hq) as (v' & Ev' & D). rewrite Ev in Ev'. injection Ev' as <-.
  rewrite (dot_delta _ v q); rewrite ?map_length.
  - rewrite <- GV. rewrite (nth_indep _ 0 (nth 0%nat coef 0)) by (rewrite map_length; exact Lq). apply (map_nth (fun g => nth g coef 0)).
  - lia.
  - intros r Hr. apply D. lia.
  - exact Lq.
Qed.

Theorem lagrange_dirichlet : forall sel rA rb a l, let N := NumDofs (sp_dofs V) in
  galerkin_matrix V rA a -> galerkin_vector V rb l -> defined_forms V a l ->
  exists A b fv A' b' D', rA = Ok A /\ rb = Ok b /\ InitEssentialConditionFromFunction V sel g = Ok fv /\
    FixFlaggedSolutionComponents Rring (fun i => nth i fv (false, 0)) A b = Ok (A', b') /\
    AssembleSpec.is_matrix Rring A' N N D' /\ length b' = N /\
    forall mu, length mu = N -> (solves Rring N D' (comp Rring b') (comp Rring mu) <-> weak_solution V sel g a l mu).
Proof.
  intros sel rA rb a l N. destruct (V_is k m V EV) as (VM & VD & VL). destruct edge_coincides as (coef & Lc & C).
  assert (TY : forall e, In e (entities m 1) -> ent_type m e = kSegment) by (intros e Ie; destruct (in_edges m e Ie) as (i & -> & _); reflexivity).
  apply (dirichlet_system V sel g coef).
  - intros e Ie _. rewrite VM in Ie. apply (lagrange_elements k m V W EV). exact Ie.
  - intros e f x Ie _ Lo Hx. rewrite VM in Ie, Hx. rewrite VL in Lo. injection Lo as <-. destruct (lagrange_describes k (ent_type m e)) as (EL & _ & CO & _).
    apply (co_eval _ CO x). rewrite EL, (in_ref_length _ _ Hx), (TY e Ie). reflexivity.
  - intros e f p Ie _ Lo Ip. rewrite VM in *. rewrite VL in Lo. injection Lo as <-. rewrite (TY e Ie) in *. apply segment_nodes_in. exact Ip.
  - exact Lc.
  - intros e Ie _. rewrite VM in Ie. apply C. exact Ie.
Qed.
End Edges.
