(** Lagrangian spaces are well-defined on every mesh and their functions continuous. *)
From Coq Require Import Reals List Arith Lia Lra Bool.
Import ListNotations.
From Verif Require Import Base MeshModel MeshView DofModel DofSpec DofProofs4 RefPatModel GeoModel GeoSpec
  FeModel LagrModel FeSpec FeProofs.
Local Open Scope R_scope.

(** *** Dofs are in range *)
Lemma canonical_range : forall m cnt flip d, wf_mesh m -> partitions m cnt d -> canonical m flip d ->
  forall e l, valid m e -> GlobalDofIndices d e = Ok l -> forall g, In g l -> (g < NumDofs d)%nat.
Proof.
  intros m cnt flip d W P C e l Ve Gl g Hg.
  assert (O : forall e l, valid m e -> own d e l -> forall g, In g l -> (g < NumDofs d)%nat).
  { intros e' l' Ve' Ol' g' Hg'. destruct (pa_own _ _ _ P e' Ve') as (l'' & O'' & _ & _ & _ & H).
    rewrite (own_fun _ _ _ _ Ol' O'') in Hg'. apply H, Hg'. }
  destruct e as [n|e|i].
  - destruct (ca_node _ _ _ C n Ve) as (l' & Ol & Gl'). apply (O _ l Ve); auto. unfold own in *. congruence.
  - cbn in Ve. destruct (nth_error (mv_edges m) e) as [[a b]|] eqn:E; [|apply nth_error_None in E; lia].
    destruct (wm_edges _ W e a b E) as (_ & Va & Vb).
    destruct (ca_edge _ _ _ C e a b E) as (la & lb & l' & Oa & Ob & Oe & Gl').
    assert (l = la ++ lb ++ l') as -> by congruence. rewrite !in_app_iff in Hg.
    destruct Hg as [Hg|[Hg|Hg]]; [apply (O _ _ (Va : valid m (ENode a)) Oa)|apply (O _ _ (Vb : valid m (ENode b)) Ob)|
      apply (O (EEdge e) _ Ve Oe)]; auto.
  - cbn in Ve. destruct (nth_error (mv_cells m) i) as [c|] eqn:E; [|apply nth_error_None in E; lia].
    assert (Wc : wf_cell m c).
    { pose proof (wm_cells _ W) as H. rewrite Forall_forall in H. apply H. eapply nth_error_In; eauto. }
    destruct (ca_cell _ _ _ C i c E) as (lv & le & l' & Fv & Fe & _ & Oc & Gl').
    assert (l = concat lv ++ concat le ++ l') as -> by congruence. rewrite !in_app_iff in Hg.
    destruct Hg as [Hg|[Hg|Hg]]; [| |apply (O (ECell i) _ Ve Oc); auto].
    + apply in_concat in Hg. destruct Hg as (x & Hx & Hg). apply In_nth_error in Hx. destruct Hx as (k & Hk).
      pose proof (Forall2_len _ _ _ Fv) as L.
      destruct (nth_error (cv_nodes c) k) as [v|] eqn:Ev.
      2: { apply nth_error_None in Ev. rewrite L in Ev. apply nth_error_None in Ev. congruence. }
      destruct (Forall2_nth _ _ _ Fv _ _ Ev) as (x' & Hx' & Ox).
      assert (x' = x) as -> by congruence. apply (O (ENode v) x); auto.
      pose proof (wc_nodes _ _ Wc) as H. rewrite Forall_forall in H. apply (H v). eapply nth_error_In; eauto.
    + apply in_concat in Hg. destruct Hg as (x & Hx & Hg). apply In_nth_error in Hx. destruct Hx as (k & Hk).
      pose proof (Forall2_len _ _ _ Fe) as L.
      destruct (nth_error (combine (cv_edges c) (cv_ori c)) k) as [z|] eqn:Ez.
      2: { apply nth_error_None in Ez. rewrite L in Ez. apply nth_error_None in Ez. congruence. }
      destruct (Forall2_nth _ _ _ Fe _ _ Ez) as (x' & Hx' & y & Oy & Exy).
      assert (x' = x) as -> by congruence. apply (O (EEdge (fst z)) y); auto.
      * destruct z as [ez oz]. apply nth_error_In in Ez. apply in_combine_l in Ez.
        apply In_nth_error in Ez. destruct Ez as (j & Hj). cbn.
        destruct (wc_local _ _ Wc j) as (e' & o & p0 & p1 & A & _ & B & _).
        { rewrite <- (wc_edges _ _ Wc). apply nth_error_Some. congruence. }
        assert (e' = ez) as -> by congruence. apply nth_error_Some. congruence.
      * rewrite Exy in Hg. destruct (flip && negb (snd z)); [apply in_rev|]; auto.
Qed.

(** *** The space *)
Definition edge_num (k : order) : nat := match k with O1 => 0 | O2 => 1 | O3 => 2 end.
Definition cell_num (k : order) (t : refel) : nat :=
  match t, k with
  | kTria, O3 => 1 | kQuad, O2 => 1 | kQuad, O3 => 4 | _, _ => 0
  end%nat.
Definition lagrange_dofs (k : order) (m : mesh) : dofh :=
  u_handler (uniform m [(kPoint, 1%nat); (kSegment, edge_num k); (kTria, cell_num k kTria); (kQuad, cell_num k kQuad)] true).
Lemma lagrange_space_ok : forall k m, exists lo, lagrange_space k m = Ok (mkSpace m lo (lagrange_dofs k m)) /\
  forall e, lo e = Some (lagrange k (ent_type m e)).
Proof.
  intros k m. unfold lagrange_space, uniform_space, init_dofs. cbn [none negb orb].
  rewrite !orb_true_r. cbn [verify bind].
  destruct k; cbn -[uniform u_handler]; (eexists; split; [reflexivity|]; intros e; cbv beta; destruct (ent_type m e); reflexivity).
Qed.

Ltac list_eq := repeat (apply f_equal2; [try field|]); try reflexivity.
Lemma lagrange_trace : forall k t j o, (t = kTria \/ t = kQuad) -> (j < num_nodes t)%nat ->
  trace_ok (lagrange k t) (lagrange k kSegment) (repeat (edge_num k) (num_nodes t)) (cell_num k t) j o.
Proof.
  intros k t j o Ht Hj s.
  destruct k; destruct Ht as [-> | ->]; cbn [num_nodes] in Hj;
    (do 3 eexists; split; [reflexivity|]; split;
      [destruct j as [|[|[|[|j]]]]; try lia; reflexivity|]);
    destruct j as [|[|[|[|j]]]]; try lia; destruct o;
    cbv [lagrange fe_el fe_eval o1_tria o1_quad o1_segment o2_tria o2_quad o2_segment o3_tria o3_quad o3_segment
      edge_point on_edge between ref_node ref_nodes num_nodes nth combine map fst snd Nat.add Nat.modulo Nat.divmod Nat.sub
      point2 node_block edge_blocks seq length repeat Nat.eqb concat app rev edge_num cell_num
      tensor_eval o2_mapping o3_mapping o2_seg_eval o3_seg_eval o3_tria_eval];
    apply f_equal; list_eq.
Qed.

Lemma lagrange_conforming : forall k m V, wf_mesh m -> lagrange_space k m = Ok V -> sp_mesh V = m /\ conforming V.
Proof.
  intros k m V W E. destruct (lagrange_space_ok k m) as (lo & E' & Lo). rewrite E in E'. injection E' as ->.
  split; [reflexivity|].
  set (dm := [(kPoint, 1%nat); (kSegment, edge_num k); (kTria, cell_num k kTria); (kQuad, cell_num k kQuad)]).
  pose proof (uniform_partitions m dm true W) as P. pose proof (uniform_canonical m dm true W) as C.
  assert (Own : forall e, valid m e -> exists l, own (lagrange_dofs k m) e l /\ length l = prescribed dm m e).
  { intros e He. destruct (pa_own _ _ _ P e He) as (l & O & L & _). exists l. auto. }
  split; cbn [sp_mesh sp_layout sp_dofs].
  - exact W.
  - exact C.
  - exact (canonical_range m _ true _ W P C).
  - intros n Hn. split.
    + destruct (Own (ENode n) Hn) as (l & O & L). destruct l as [|x [|]]; try discriminate L. exists x. exact O.
    + exists (lagrange k kPoint). rewrite Lo. split; [reflexivity|destruct k; reflexivity].
  - intros e He. destruct (Own (EEdge e) He) as (l & O & L). exists (lagrange k kSegment), l.
    rewrite Lo. split; [reflexivity|]. split; [exact O|]. rewrite L. cbn [prescribed]. 
    replace (prescribed dm m (EEdge e)) with (edge_num k) by reflexivity.
    split; [|split].
    + intros t. destruct k; (eexists; split; [reflexivity|reflexivity]).
    + destruct k; cbn; apply f_equal; list_eq.
    + destruct k; cbn; apply f_equal; list_eq.
  - intros i c Hc.
    assert (Wc : wf_cell m c).
    { pose proof (wm_cells _ W) as H. rewrite Forall_forall in H. apply H. eapply nth_error_In; eauto. }
    assert (Vc : valid m (ECell i)) by (cbn; apply nth_error_Some; congruence).
    assert (Tc : ent_type m (ECell i) = cv_type c).
    { cbn. unfold cell_at. rewrite (nth_error_nth _ _ _ Hc). reflexivity. }
    assert (Tq : (cv_type c = kTria \/ cv_type c = kQuad) /\ num_nodes (cv_type c) = length (cv_nodes c)).
    { unfold cv_type, cell_type. destruct (wc_shape _ _ Wc) as [-> | ->]; cbn; auto. }
    destruct (Own (ECell i) Vc) as (l & O & L).
    exists (lagrange k (cv_type c)), l, (repeat (edge_num k) (num_nodes (cv_type c))).
    rewrite Lo, Tc. split; [reflexivity|]. split; [destruct k, (cv_type c); reflexivity|]. split; [exact O|].
    split; [rewrite repeat_length, (wc_edges _ _ Wc); apply Tq|].
    intros j e o He Ho.
    assert (Hj : (j < length (cv_nodes c))%nat).
    { rewrite <- (wc_edges _ _ Wc). apply nth_error_Some. congruence. }
    destruct (wc_local _ _ Wc j Hj) as (e' & _ & p0 & p1 & He' & _ & Hm & _).
    assert (e' = e) as -> by congruence.
    assert (Ve : valid m (EEdge e)) by (cbn; apply nth_error_Some; congruence).
    destruct (Own (EEdge e) Ve) as (y & Oy & Ly). exists (lagrange k kSegment), y.
    rewrite Lo. split; [reflexivity|]. split; [exact Oy|]. split.
    + rewrite Ly. change (prescribed dm m (EEdge e)) with (edge_num k).
      destruct Tq as (_ & Tq). rewrite Tq.
      symmetry. clear -Hj. revert j Hj. induction (length (cv_nodes c)) as [|n IH]; intros j Hj; [lia|].
      destruct j; cbn; auto. apply IH. lia.
    + replace (length l) with (cell_num k (cv_type c)).
      * apply lagrange_trace; [apply Tq|]. destruct Tq as (_ & ->). exact Hj.
      * rewrite L. unfold prescribed. rewrite Tc. destruct Tq as ([-> | ->] & _); reflexivity.
Qed.

Lemma lagrange_continuous : forall k m, wf_mesh m -> exists V, lagrange_space k m = Ok V /\ sp_mesh V = m /\
  forall u, length u = NumDofs (sp_dofs V) -> continuous V u.
Proof.
  intros k m W. destruct (lagrange_space_ok k m) as (lo & E & _). eexists. split; [exact E|].
  destruct (lagrange_conforming k m _ W E) as (Em & C). split; [exact Em|]. intros u Hu.
  apply conforming_continuous; auto.
Qed.
Lemma two_cells : forall V u, continuous V u -> forall i i' c c' j j' e o o' t,
  nth_error (mv_cells (sp_mesh V)) i = Some c -> nth_error (mv_cells (sp_mesh V)) i' = Some c' ->
  nth_error (cv_edges c) j = Some e -> nth_error (cv_edges c') j' = Some e ->
  nth_error (cv_ori c) j = Some o -> nth_error (cv_ori c') j' = Some o' ->
  exists w, fe_value V u (ECell i) (edge_point (cv_type c) j o t) = Ok w /\
            fe_value V u (ECell i') (edge_point (cv_type c') j' o' t) = Ok w.
Proof.
  intros V u C i i' c c' j j' e o o' t H1 H2 H3 H4 H5 H6.
  destruct (cn_edge _ _ C i c j e o t H1 H3 H5) as (w & A & B).
  destruct (cn_edge _ _ C i' c' j' e o' t H2 H4 H6) as (w' & A' & B'). exists w. split; congruence.
Qed.
