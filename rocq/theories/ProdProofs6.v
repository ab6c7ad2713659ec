(** C91: continuity of H1 and trace components. *)
From Coq Require Import Reals List Arith Lia Lra Bool.
Import ListNotations.
From Verif Require Import Base Scalars MeshModel MeshView DofModel DofSpec DofProofs3 DofProofs4 RefPatModel GeoModel GeoSpec FeModel LagrModel FeSpec HierSpec FeProofs LagrProofs LagrProofs2 LagrProofs3
  AssembleModel FeToolsModel FeToolsSpec FeToolsProofs FeToolsProofs2 ElemProofs ElemProofs2 DpgModel DpgSpec DpgProofs ProdModel ProdSpec ProdProofs ProdProofs2 ProdProofs3 ProdProofs4 ProdProofs5.
Local Open Scope nat_scope.

Lemma edge_blocks_length : forall ms j l, length l = nth j ms 0 -> length (edge_blocks ms j l) = list_sum ms.
Proof.
  intros ms j l H. unfold edge_blocks.
  assert (X : forall a b, length (concat (map (fun i => if Nat.eqb i j then l else repeat 0%R (nth i ms 0)) (seq a b))) = list_sum (map (fun i => nth i ms 0) (seq a b))).
  { intros a b. revert a. induction b as [|b IH]; intros a; [reflexivity|]. cbn [seq map concat]. rewrite app_length, IH.
    change (list_sum (nth a ms 0 :: map (fun i => nth i ms 0) (seq (S a) b))) with (nth a ms 0 + list_sum (map (fun i => nth i ms 0) (seq (S a) b))). f_equal.
    destruct (Nat.eqb a j) eqn:Ea; [apply Nat.eqb_eq in Ea; subst; exact H|apply repeat_length]. }
  rewrite X. f_equal. clear. induction ms as [|x ms IH]; [reflexivity|]. cbn [length seq map nth]. f_equal. rewrite <- seq_shift, map_map. exact IH.
Qed.
Lemma node_block_length : forall n j o a b, length (node_block n j o a b) = n.
Proof. intros. unfold node_block. rewrite map_length, seq_length. reflexivity. Qed.
Lemma trace_trace_ok : forall k t j o, (t = kTria \/ t = kQuad) -> (j < num_nodes t)%nat ->
  trace_ok (trace_element (lagrange k t)) (lagrange k kSegment) (repeat (edge_num k) (num_nodes t)) 0 j o.
Proof.
  intros k t j o Ht Hj s. destruct (lagrange_trace k t j o Ht Hj s) as (a & b & l & E1 & E2 & E3). exists a, b, l. split; [exact E1|]. split; [exact E2|].
  set (f := lagrange k t) in *. change (fe_el (trace_element f)) with (fe_el f).
  change (fe_eval (trace_element f) (edge_point (fe_el f) j o s)) with (do v <- fe_eval f (edge_point (fe_el f) j o s); top (fe_total (trace_element f)) v).
  rewrite E3. cbn [bind]. cbn [repeat]. rewrite app_nil_r.
  assert (L : length (node_block (num_nodes (fe_el f)) j o a b ++ edge_blocks (repeat (edge_num k) (num_nodes t)) j (if o then l else rev l)) = fe_total (trace_element f)).
  { rewrite app_length, node_block_length, edge_blocks_length; [|destruct o; [exact E2|rewrite rev_length; exact E2]].
    unfold f. destruct k; destruct Ht as [-> | ->]; reflexivity. }
  unfold top. rewrite app_assoc, app_length, L.
  replace (fe_total (trace_element f) <=? fe_total (trace_element f) + length (repeat 0%R (cell_num k t))) with true by (symmetry; apply Nat.leb_le; lia).
  cbn [lf_assert bind]. rewrite <- L, firstn_app, firstn_all, Nat.sub_diag. cbn [firstn]. rewrite app_nil_r. reflexivity.
Qed.

(** The same space with elements for the nodes. *)
Definition with_nodes (V : fe_space) : fe_space :=
  mkSpace (sp_mesh V) (fun e => match ent_type (sp_mesh V) e with kPoint => Some (lagrange O1 kPoint) | _ => sp_layout V e end) (sp_dofs V).
Lemma conforming_from : forall V k (n : refel -> nat), wf_mesh (sp_mesh V) -> provides (sp_mesh V) n (sp_dofs V) -> n kPoint = 1 -> n kSegment = edge_num k ->
  (forall i, sp_layout V (EEdge i) = Some (lagrange k kSegment)) ->
  (forall i c, nth_error (mv_cells (sp_mesh V)) i = Some c -> exists f, sp_layout V (ECell i) = Some f /\ fe_el f = cv_type c /\
     forall j o, j < num_nodes (cv_type c) -> trace_ok f (lagrange k kSegment) (repeat (edge_num k) (num_nodes (cv_type c))) (n (cv_type c)) j o) ->
  conforming (with_nodes V).
Proof.
  intros V k n W [P C _ _ _] N1 N2 LE LC. set (m := sp_mesh V) in *.
  assert (Own : forall e, valid m e -> exists l, own (sp_dofs V) e l /\ length l = n (ent_type m e)).
  { intros e He. destruct (pa_own _ _ _ P e He) as (l & O & L & _). exists l. auto. }
  split; cbn [with_nodes sp_mesh sp_layout sp_dofs]; fold m.
  - exact W.
  - exact C.
  - exact (canonical_range m _ true _ W P C).
  - intros x Hx. split.
    + destruct (Own (ENode x) Hx) as (l & O & L). cbn [ent_type] in L. rewrite N1 in L. destruct l as [|y [|]]; try discriminate L. exists y. exact O.
    + exists (lagrange O1 kPoint). split; reflexivity.
  - intros e He. destruct (Own (EEdge e) He) as (l & O & L). exists (lagrange k kSegment), l. cbn [ent_type] in *. rewrite N2 in L.
    split; [apply LE|]. split; [exact O|]. rewrite L.
    split; [|split].
    + intros t. destruct k; (eexists; split; [reflexivity|reflexivity]).
    + destruct k; cbn; apply f_equal; list_eq.
    + destruct k; cbn; apply f_equal; list_eq.
  - intros i c Hc.
    assert (Wc : wf_cell m c).
    { pose proof (wm_cells _ W) as H. rewrite Forall_forall in H. apply H. eapply nth_error_In; eauto. }
    assert (Vc : valid m (ECell i)) by (cbn; apply nth_error_Some; congruence).
    assert (Tc : ent_type m (ECell i) = cv_type c).
    { cbn. unfold cell_at. rewrite (nth_error_nth _ _ _ Hc). reflexivity. }
    assert (Tq : (cv_type c = kTria \/ cv_type c = kQuad) /\ num_nodes (cv_type c) = length (cv_nodes c)).
    { unfold cv_type, cell_type. destruct (wc_shape _ _ Wc) as [-> | ->]; cbn; auto. }
    destruct (Own (ECell i) Vc) as (l & O & L). destruct (LC i c Hc) as (f & Lf & Ef & Tr).
    exists f, l, (repeat (edge_num k) (num_nodes (cv_type c))). rewrite Tc.
    split; [destruct Tq as ([-> | ->] & _); exact Lf|]. split; [exact Ef|]. split; [exact O|].
    split; [rewrite repeat_length, (wc_edges _ _ Wc); apply Tq|].
    intros j e o He Ho.
    assert (Hj : (j < length (cv_nodes c))%nat).
    { rewrite <- (wc_edges _ _ Wc). apply nth_error_Some. congruence. }
    destruct (wc_local _ _ Wc j Hj) as (e' & _ & p0 & p1 & He' & _ & Hm & _).
    assert (e' = e) as -> by congruence.
    assert (Ve : valid m (EEdge e)) by (cbn; apply nth_error_Some; congruence).
    destruct (Own (EEdge e) Ve) as (y & Oy & Ly). exists (lagrange k kSegment), y. cbn [ent_type] in *.
    split; [apply LE|]. split; [exact Oy|]. split.
    + rewrite Ly, N2. destruct Tq as (_ & Tq). rewrite Tq.
      symmetry. clear -Hj. revert j Hj. induction (length (cv_nodes c)) as [|n IH]; intros j Hj; [lia|].
      destruct j; cbn; auto. apply IH. lia.
    + rewrite L, Tc || (rewrite L; change (cv_type (cell_at m i)) with (ent_type m (ECell i)); rewrite Tc). apply Tr. destruct Tq as (_ & ->). exact Hj.
Qed.
Lemma conforming_skeleton : forall V, conforming (with_nodes V) -> forall u, length u = NumDofs (sp_dofs V) -> skeleton_continuous V u.
Proof.
  intros V C u L. assert (K := conforming_continuous (with_nodes V) u C L). destruct K as [K1 K2 K3]. cbn [with_nodes sp_mesh] in *.
  assert (Ec : forall i c x, nth_error (mv_cells (sp_mesh V)) i = Some c -> fe_value (with_nodes V) u (ECell i) x = fe_value V u (ECell i) x).
  { intros i c x Hc. unfold fe_value, with_nodes. cbn [sp_layout sp_dofs].
    assert (T : ent_type (sp_mesh V) (ECell i) = kTria \/ ent_type (sp_mesh V) (ECell i) = kQuad) by (cbn; unfold cv_type, cell_type; destruct (_ =? 4); auto).
    destruct T as [-> | ->]; reflexivity. }
  split.
  - intros i c j e o t H1 H2 H3. destruct (K1 i c j e o t H1 H2 H3) as (w & A & B). exists w. rewrite (Ec i c _ H1) in B. split; [exact A|exact B].
  - intros n Vn. destruct (cf_node _ C n Vn) as ((x & Ox) & _).
    assert (X : exists w, fe_value (with_nodes V) u (ENode n) [] = Ok w).
    { destruct (ca_node _ _ _ (cf_dofs _ C) n Vn) as (l & Ol & G). assert (l = [x]) as -> by (eapply own_fun; eassumption).
      assert (B := cf_range _ C (ENode n) _ Vn G x (or_introl eq_refl)). cbn [with_nodes sp_dofs] in *.
      unfold fe_value. cbn [with_nodes sp_layout sp_dofs ent_type lagrange fe_point fe_eval]. 
      destruct (nth_error u x) as [w|] eqn:E; [|apply nth_error_None in E; lia].
      eexists. cbn -[dot]. rewrite G. cbn -[dot]. unfold entry. cbn [nth_error]. rewrite E. reflexivity. }
    destruct X as [w X]. exists w. intros i c j Hc Hj. destruct (K2 i c j n Hc Hj) as (w' & A & B). rewrite (Ec i c _ Hc) in B. congruence.
Qed.
Definition ord_of (d : nat) : order := match d with 1 => O1 | 2 => O2 | _ => O3 end.
Lemma component_conforming : forall m k V, wf_mesh m -> offered k -> continuous_component k -> sp_mesh V = m -> provides m (own_functions k) (sp_dofs V) ->
  (forall e, sp_layout V e = functions k (ent_type m e)) -> conforming (with_nodes V).
Proof.
  intros m k V W O CC Em P L. subst m.
  assert (D : exists d, (k = H1 d \/ k = Trace d) /\ (d = 1 \/ d = 2 \/ d = 3)) by (destruct k as [d|d|d|d]; try destruct CC; cbn in O; exists d; (split; [auto|lia])).
  destruct D as (d & Hk & Hd).
  apply (conforming_from V (ord_of d) (own_functions k) W P).
  - destruct Hk as [-> | ->]; reflexivity.
  - destruct Hk as [-> | ->]; destruct Hd as [-> | [-> | ->]]; reflexivity.
  - intros i. rewrite L. cbn [ent_type]. destruct Hk as [-> | ->]; destruct Hd as [-> | [-> | ->]]; reflexivity.
  - intros i c Hc. assert (Tc : ent_type (sp_mesh V) (ECell i) = cv_type c) by (cbn; unfold cell_at; rewrite (nth_error_nth _ _ _ Hc); reflexivity).
    rewrite L, Tc.
    assert (T : cv_type c = kTria \/ cv_type c = kQuad) by (unfold cv_type, cell_type; destruct (_ =? 4); auto).
    destruct Hk as [-> | ->].
    + exists (lagrange (ord_of d) (cv_type c)). split; [destruct T as [-> | ->]; destruct Hd as [-> | [-> | ->]]; reflexivity|].
      split; [destruct (ord_of d), (cv_type c); reflexivity|]. intros j o Hj.
      replace (own_functions (H1 d) (cv_type c)) with (cell_num (ord_of d) (cv_type c)) by (destruct T as [-> | ->]; destruct Hd as [-> | [-> | ->]]; reflexivity).
      apply lagrange_trace; assumption.
    + exists (trace_element (lagrange (ord_of d) (cv_type c))). split; [destruct T as [-> | ->]; destruct Hd as [-> | [-> | ->]]; reflexivity|].
      split; [destruct (ord_of d), (cv_type c); reflexivity|]. intros j o Hj.
      replace (own_functions (Trace d) (cv_type c)) with 0 by (destruct T as [-> | ->]; reflexivity).
      apply trace_trace_ok; assumption.
Qed.
Theorem component_continuous : forall m ks s c k V, wf_mesh m -> Forall offered ks -> factory_space m ks = Ok s -> nth_error ks c = Some k ->
  continuous_component k -> ComponentFESpace s c = Ok V -> forall u, length u = NumDofs (sp_dofs V) -> skeleton_continuous V u.
Proof.
  intros m ks s c k V W F Hs E CC HV. assert (O : offered k) by (rewrite Forall_forall in F; apply F; eapply nth_error_In; exact E).
  destruct (factory_components m ks s c k W F Hs E) as (S & _). destruct S as (V' & HV' & Em & _ & P & L); [intros Fl; destruct k; try destruct Fl; destruct CC|].
  rewrite HV in HV'. injection HV' as <-. apply conforming_skeleton. eapply component_conforming; eassumption.
Qed.
