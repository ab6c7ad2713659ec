(** Hierarchic spaces meet the hypotheses of C57 and C58. *)
From Coq Require Import Reals List Arith Lia Lra Bool.
Import ListNotations.
From Verif Require Import Base Scalars MeshModel MeshView DofModel DofSpec DofProofs4 RefPatModel GeoModel FeModel LagrModel QuadModel QuadSpec GaussSpec HierModel AssembleModel
  FeSpec HierSpec FeProofs HierProofs HierProofs8 FeToolsModel FeToolsSpec FeToolsProofs FeToolsProofs2 ElemProofs2.
Local Open Scope R_scope.

Lemma dual_eval : forall f, dual f -> forall p, In p (fe_nodes f) -> exists v, fe_eval f p = Ok v.
Proof.
  intros f Du p I. destruct (Du (repeat 0 (fe_total f)) (repeat_length _ _)) as (v & E & _). revert v E I. generalize (repeat 0 (fe_total f)). intros u.
  induction (fe_nodes f) as [|p' l IH]; intros v E I; [destruct I|]. cbn [traverse] in E. inv_bind. destruct I as [->|I]; [|exact (IH _ E1 I)].
  unfold combination in E0. inv_bind. eauto.
Qed.
Lemma tria_size : forall p ed os qe qt x v, fe_eval (hier_tria p ed os qe qt) x = Ok v -> length v = fe_total (hier_tria p ed os qe qt).
Proof.
  intros p ed os qe qt x v E. destruct (tria_counts p ed os qe qt) as [Ce _]. 
  destruct x as [|a [|b [|]]]; try discriminate E. destruct (Ce [a; b] eq_refl) as (v' & E' & L). congruence.
Qed.
Lemma quad_size : forall p ed os qe qt x v, fe_eval (hier_quad p ed os qe qt) x = Ok v -> length v = fe_total (hier_quad p ed os qe qt).
Proof.
  intros p ed os qe qt x v E. destruct (quad_counts p ed os qe qt) as [Ce _]. 
  destruct x as [|a [|b [|]]]; try discriminate E. destruct (Ce [a; b] eq_refl) as (v' & E' & L). congruence.
Qed.
Lemma seg_size : forall p q x v, (1 <= p)%nat -> fe_eval (hier_segment p q) x = Ok v -> length v = fe_total (hier_segment p q).
Proof.
  intros p q x v P E. destruct x as [|a [|]]; try discriminate E. destruct (segment_eval_count p q P [a] eq_refl) as (v' & E' & L). congruence.
Qed.
Lemma hier_elements : forall n get m deg V, wf_mesh m -> (forall e, valid m e -> (1 <= deg e)%nat /\ (2 * deg e <= n)%nat) -> exact_rules get n ->
  hier_space get m deg = Ok V ->
  sp_mesh V = m /\ (forall e, In e (entities m 0) -> element_ok V e) /\ (forall e, In e (entities m 1) -> element_ok V e) /\
  (forall c, consistent V (entities m c)) /\
  (complete_mesh m -> forall j, (j < NumDofs (sp_dofs V))%nat -> exists e, In e (entities m 0) /\ touches V e j).
Proof.
  intros n get m deg V W D Ru E.
  assert (D1 : forall e, valid m e -> (1 <= deg e)%nat) by (intros e Ve; apply D; exact Ve).
  rewrite (hier_space_ok get m deg W D1) in E. injection E as <-.
  destruct (dynamic_contract m (hier_count m deg) W) as (P & C & _).
  set (d := dy_handler (dynamic m (hier_count m deg))) in *.
  split; [reflexivity|]. split; [|split; [|split]].
  - intros e I. destruct (in_cells m e I) as (i & c & -> & Hc).
    destruct (cell_dofs m _ _ W P C i c Hc) as (l & G & N & L & B); [intros; reflexivity|].
    assert (Vi : valid m (ECell i)) by (cbn; apply nth_error_Some; congruence).
    assert (Tc : ent_type m (ECell i) = cv_type c) by (cbn; unfold cell_at; rewrite (nth_error_nth _ _ _ Hc); reflexivity).
    destruct (element_cell get m deg W D1 i c Hc) as (Ee & _). cbv zeta in Ee.
    destruct (cell_wf m W i c Hc) as (Wc & _ & Ve).
    set (p := deg (ECell i)) in *.
    assert (Dp : (1 <= p /\ 2 * p <= n)%nat) by (apply D; exact Vi).
    assert (De : forall e, In e (cv_edges c) -> (1 <= deg (EEdge e) /\ 2 * deg (EEdge e) <= n)%nat) by (intros e He; apply D, Ve, He).
    assert (Lo := wc_oris _ _ Wc). assert (Le := wc_edges _ _ Wc).
    unfold hier_count at 2 in L. rewrite Tc in L.
    unfold cv_type, cell_type in Ee, L. destruct (wc_shape _ _ Wc) as [Sh|Sh]; rewrite Sh in *; cbn [Nat.eqb] in Ee, L.
    + destruct (cv_edges c) as [|a [|b [|e [|]]]]; try discriminate Le.
      assert (Da := De a ltac:(cbn; auto)). assert (Db := De b ltac:(cbn; auto)). assert (Dc := De e ltac:(cbn; auto)).
      cbn [map edge_rules] in Ee, L.
      match type of Ee with _ = Ok ?f => set (f0 := f) in * end.
      assert (Du : dual f0).
      { unfold f0. apply tria_dual'; auto; try apply Da; try apply Db; try apply Dc; try (apply Ru; lia). }
      exists f0, l. cbn [sp_layout sp_dofs]. rewrite Ee. split; [reflexivity|]. split; [exact G|]. split; [exact N|]. split; [exact B|].
      split; [|split; [|split; [|exact Du]]].
      * rewrite L. unfold hier_count. cbn [ent_type list_sum fold_right]. cbn [f0 hier_tria fe_total edge_deg nth]. unfold tria_interior. fold p. lia.
      * discriminate.
      * intros x Hx. destruct (dual_eval f0 Du x Hx) as (v & Ev). exists v. split; [exact Ev|]. exact (tria_size _ _ _ _ _ _ _ Ev).
    + destruct (cv_edges c) as [|a [|b [|e [|e' [|]]]]]; try discriminate Le.
      assert (Da := De a ltac:(cbn; auto)). assert (Db := De b ltac:(cbn; auto)). assert (Dc := De e ltac:(cbn; auto)). assert (Dd := De e' ltac:(cbn; auto)).
      cbn [map edge_rules] in Ee, L.
      match type of Ee with _ = Ok ?f => set (f0 := f) in * end.
      assert (Du : dual f0).
      { unfold f0. apply quad_dual'; auto; try apply Da; try apply Db; try apply Dc; try apply Dd; try (apply Ru; lia).
        apply Ru. unfold quad_deg. cbn [edge_deg nth]. lia. }
      exists f0, l. cbn [sp_layout sp_dofs]. rewrite Ee. split; [reflexivity|]. split; [exact G|]. split; [exact N|]. split; [exact B|].
      split; [|split; [|split; [|exact Du]]].
      * rewrite L. unfold hier_count. cbn [ent_type list_sum fold_right]. cbn [f0 hier_quad fe_total edge_deg nth]. fold p. lia.
      * discriminate.
      * intros x Hx. destruct (dual_eval f0 Du x Hx) as (v & Ev). exists v. split; [exact Ev|]. exact (quad_size _ _ _ _ _ _ _ Ev).
  - intros e I. destruct (in_edges m e I) as (i & -> & Ve).
    destruct (edge_dofs m _ _ W P C i Ve) as (l & G & N & L & B); [intros; reflexivity|].
    assert (Dp := D _ Ve).
    assert (Du : dual (hier_segment (deg (EEdge i)) (get kSegment (2 * (deg (EEdge i) - 1))%nat))).
    { apply segment_dual'; [apply Dp|]. apply Ru. lia. }
    exists (hier_segment (deg (EEdge i)) (get kSegment (2 * (deg (EEdge i) - 1))%nat)), l. cbn [sp_layout sp_dofs]. rewrite (element_edge get m deg D1 i Ve).
    split; [reflexivity|]. split; [exact G|]. split; [exact N|]. split; [exact B|].
    split; [|split; [|split; [|exact Du]]].
    + rewrite L. unfold hier_count. cbn [ent_type hier_segment fe_total]. lia.
    + discriminate.
    + intros x Hx. destruct (dual_eval _ Du x Hx) as (v & Ev). exists v. split; [exact Ev|]. exact (seg_size _ _ _ _ (proj1 Dp) Ev).
  - intros c. eapply (dofs_consistent m _ C). reflexivity. reflexivity.
  - intros Cm j Hj. destruct (all_touched m _ _ W P C Cm j Hj) as (i & l & Vi & G & I). exists (ECell i). split; [apply cells_in; exact Vi|].
    exists l. split; [exact G|exact I].
Qed.
(** *** Projection of finite element functions *)
Definition whole (V : fe_space) : Prop :=
  (forall e, In e (entities (sp_mesh V) 0) -> element_ok V e) /\ (forall e, In e (entities (sp_mesh V) 1) -> element_ok V e) /\
  (complete_mesh (sp_mesh V) -> forall j, (j < NumDofs (sp_dofs V))%nat -> exists e, In e (entities (sp_mesh V) 0) /\ touches V e j).
Lemma whole_projection : forall V, whole V -> complete_mesh (sp_mesh V) -> forall coef, length coef = NumDofs (sp_dofs V) ->
  NodalProjection V (fe_value V coef) (fun _ => true) = Ok coef.
Proof.
  intros V (A & _ & T) Cm coef L. apply projection_identity; [exact L| |].
  - intros e I _. split; [apply A; exact I|]. intros f p _ _. reflexivity.
  - intros k Hk. destruct (T Cm k Hk) as (e & I & To). exists e. auto.
Qed.
Lemma whole_essential : forall V, whole V -> forall coef sel, length coef = NumDofs (sp_dofs V) ->
  exists fv, InitEssentialConditionFromFunction V sel (fe_value V coef) = Ok fv /\ length fv = NumDofs (sp_dofs V) /\
    forall k, (k < NumDofs (sp_dofs V))%nat ->
      (untouched V sel (entities (sp_mesh V) 1) k /\ nth_error fv k = Some (false, 0)) \/
      ((exists e, In e (entities (sp_mesh V) 1) /\ sel e = true /\ touches V e k) /\ nth_error fv k = Some (true, nth k coef 0)).
Proof.
  intros V (_ & A & _) coef sel L. apply essential_fe; [exact L|]. intros e I _. split; [apply A; exact I|]. intros f p _ _. reflexivity.
Qed.
Lemma lagrange_whole : forall k m V, wf_mesh m -> lagrange_space k m = Ok V -> sp_mesh V = m /\ whole V.
Proof. intros k m V W E. destruct (lagrange_elements k m V W E) as (<- & A & B & _ & T). split; [reflexivity|split; [|split]]; assumption. Qed.
Lemma hier_whole : forall n get m deg V, wf_mesh m -> (forall e, valid m e -> (1 <= deg e)%nat /\ (2 * deg e <= n)%nat) -> exact_rules get n ->
  hier_space get m deg = Ok V -> sp_mesh V = m /\ whole V.
Proof. intros n get m deg V W D Ru E. destruct (hier_elements n get m deg V W D Ru E) as (<- & A & B & _ & T). split; [reflexivity|split; [|split]]; assumption. Qed.
