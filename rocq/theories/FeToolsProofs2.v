(** Lagrangian and hierarchic spaces meet the hypotheses of C57 and C58. *)
From Coq Require Import Reals List Arith Lia Lra Bool.
Import ListNotations.
From Verif Require Import Base Scalars MeshModel MeshView DofModel DofSpec DofProofs4 RefPatModel GeoModel FeModel LagrModel QuadModel QuadSpec GaussSpec HierModel AssembleModel
  FeSpec HierSpec FeProofs LagrProofs LagrProofs2 LagrProofs3 HierProofs HierProofs2 HierProofs3 HierProofs4 FeToolsModel FeToolsSpec FeToolsProofs ElemProofs2.
Local Open Scope R_scope.

(** *** Numbers of dofs *)
Section Dofs.
Variables (m : mesh) (cnt : ent -> nat) (d : dofh).
Hypothesis W : wf_mesh m.
Hypothesis P : partitions m cnt d.
Hypothesis C : canonical m true d.
Lemma own_length : forall e l, valid m e -> own d e l -> length l = cnt e.
Proof. intros e l Ve O. destruct (pa_own _ _ _ P e Ve) as (l' & O' & L & _). rewrite (own_fun _ _ _ _ O O'). exact L. Qed.
Lemma own_in : forall e l k, valid m e -> own d e l -> Entity d k = Ok e -> (k < NumDofs d)%nat -> In k l.
Proof. intros e l k Ve O E L. destruct (pa_own _ _ _ P e Ve) as (l' & O' & _ & _ & _ & H). rewrite (own_fun _ _ _ _ O O'). apply H. auto. Qed.
Lemma edge_dofs : forall e, valid m (EEdge e) -> (forall n, valid m (ENode n) -> cnt (ENode n) = 1%nat) ->
  exists l, GlobalDofIndices d (EEdge e) = Ok l /\ NumLocalDofs d (EEdge e) = Ok (length l) /\ length l = (2 + cnt (EEdge e))%nat /\
    forall g, In g l -> (g < NumDofs d)%nat.
Proof.
  intros e Ve N. assert (V := Ve). cbn in Ve. destruct (nth_error (mv_edges m) e) as [[a b]|] eqn:E; [|apply nth_error_None in E; lia].
  destruct (wm_edges _ W e a b E) as (_ & Va & Vb).
  destruct (ca_edge _ _ _ C e a b E) as (la & lb & l & Oa & Ob & Oe & G). destruct (ca_count _ _ _ C _ V) as (l' & G' & Nl).
  rewrite G in G'. injection G' as <-. exists (la ++ lb ++ l). split; [exact G|]. split; [exact Nl|]. split.
  - rewrite !app_length, (own_length (ENode a) la), (own_length (ENode b) lb), (own_length (EEdge e) l), !N by assumption. lia.
  - exact (canonical_range m cnt true d W P C _ _ V G).
Qed.
Lemma cell_wf : forall i c, nth_error (mv_cells m) i = Some c -> wf_cell m c /\ (forall v, In v (cv_nodes c) -> valid m (ENode v)) /\
  forall e, In e (cv_edges c) -> valid m (EEdge e).
Proof.
  intros i c E. destruct (cell_edges_valid m W i c E) as (Wc & Ve). split; [exact Wc|]. split; [|exact Ve].
  intros v Hv. pose proof (wc_nodes _ _ Wc) as H. rewrite Forall_forall in H. exact (H v Hv).
Qed.
Lemma cell_dofs : forall i c, nth_error (mv_cells m) i = Some c -> (forall n, valid m (ENode n) -> cnt (ENode n) = 1%nat) ->
  exists l, GlobalDofIndices d (ECell i) = Ok l /\ NumLocalDofs d (ECell i) = Ok (length l) /\
    length l = (length (cv_nodes c) + list_sum (map (fun e => cnt (EEdge e)) (cv_edges c)) + cnt (ECell i))%nat /\
    forall g, In g l -> (g < NumDofs d)%nat.
Proof.
  intros i c E N. assert (V : valid m (ECell i)) by (cbn; apply nth_error_Some; congruence).
  destruct (cell_wf i c E) as (Wc & Vn & Ve).
  destruct (ca_cell _ _ _ C i c E) as (lv & le & l & Fv & Fe & Le & Oc & G). destruct (ca_count _ _ _ C _ V) as (l' & G' & Nl).
  rewrite G in G'. injection G' as <-. eexists. split; [exact G|]. split; [exact Nl|].
  split; [|exact (canonical_range m cnt true d W P C _ _ V G)].
  rewrite !app_length, (own_length (ECell i) l V Oc). 
  assert (A : length (concat lv) = length (cv_nodes c)).
  { clear -Fv Vn N P. induction Fv as [|v x ns lv O F IH]; [reflexivity|]. cbn [concat length]. rewrite app_length, IH by (intros v' Hv'; apply Vn; right; exact Hv').
    rewrite (own_length (ENode v) x (Vn v (or_introl eq_refl)) O), N by (apply Vn; left; reflexivity). reflexivity. }
  assert (B : length (concat le) = list_sum (map (fun e => cnt (EEdge e)) (map fst (combine (cv_edges c) (cv_ori c))))).
  { assert (Ve' : forall z, In z (combine (cv_edges c) (cv_ori c)) -> valid m (EEdge (fst z))).
    { intros [e o] I. apply in_combine_l in I. exact (Ve e I). }
    clear -Fe Ve' P. induction Fe as [|z x zs le (y & Oy & Ey) F IH]; [reflexivity|]. cbn [concat map list_sum]. rewrite app_length, IH by (intros z' Hz'; apply Ve'; right; exact Hz').
    change (list_sum (?a :: ?b)) with (a + list_sum b)%nat. f_equal.
    rewrite <- (own_length _ y (Ve' z (or_introl eq_refl)) Oy), Ey. destruct (true && negb (snd z)); [apply rev_length|reflexivity]. }
  assert (Q : map fst (combine (cv_edges c) (cv_ori c)) = cv_edges c).
  { assert (L : length (cv_edges c) = length (cv_ori c)) by (rewrite (wc_edges _ _ Wc), (wc_oris _ _ Wc); reflexivity).
    clear -L. revert L. generalize (cv_ori c). induction (cv_edges c) as [|e es IH]; intros [|o os] L; try discriminate L; [reflexivity|].
    cbn. f_equal. apply IH. cbn in L. lia. }
  rewrite A, B, Q. lia.
Qed.
(** On complete meshes every dof belongs to a cell. *)
Lemma all_touched : complete_mesh m -> forall k, (k < NumDofs d)%nat -> exists i l, valid m (ECell i) /\ GlobalDofIndices d (ECell i) = Ok l /\ In k l.
Proof.
  intros [Ce Cn] k L. destruct (pa_entity _ _ _ P k L) as (e & E & Ve).
  assert (In_node : forall i c v l, nth_error (mv_cells m) i = Some c -> In v (cv_nodes c) -> own d (ENode v) l -> In k l ->
    exists i l, valid m (ECell i) /\ GlobalDofIndices d (ECell i) = Ok l /\ In k l).
  { intros i c v l Hc Hv O I. destruct (ca_cell _ _ _ C i c Hc) as (lv & le & l' & Fv & _ & _ & _ & G).
    exists i. eexists. split; [cbn; apply nth_error_Some; congruence|]. split; [exact G|]. apply in_or_app. left.
    apply In_nth_error in Hv. destruct Hv as (j & Hj). destruct (Forall2_nth _ _ _ Fv j v Hj) as (x & Hx & Ox).
    apply in_concat. exists x. split; [eapply nth_error_In; exact Hx|]. rewrite (own_fun _ _ _ _ Ox O). exact I. }
  destruct e as [v|e|i].
  - destruct (pa_own _ _ _ P _ Ve) as (l & O & _). assert (I := own_in _ l k Ve O E L).
    destruct (Cn v Ve) as (a & b & Hab & Hv). apply In_nth_error in Hab. destruct Hab as (e & He).
    destruct (Ce e) as (c & Hc & Hec). { apply nth_error_Some. congruence. }
    apply In_nth_error in Hc. destruct Hc as (i & Hi). destruct (cell_wf i c Hi) as (Wc & _).
    apply (In_node i c v l Hi); auto. apply In_nth_error in Hec. destruct Hec as (j & Hj).
    assert (Lj : (j < length (cv_nodes c))%nat) by (rewrite <- (wc_edges _ _ Wc); apply nth_error_Some; congruence).
    destruct (wc_local _ _ Wc j Lj) as (e' & o & p0 & p1 & He' & _ & Hp & Ho).
    assert (e' = e) as -> by congruence. rewrite He in Hp. injection Hp as <- <-.
    assert (A1 : In (nth j (cv_nodes c) 0%nat) (cv_nodes c)) by (apply nth_In; exact Lj).
    assert (A2 : In (next_corner (cv_nodes c) j) (cv_nodes c)) by (apply nth_In; apply Nat.mod_upper_bound; lia).
    destruct o; destruct Ho as [-> ->]; destruct Hv as [-> | ->]; assumption.
  - destruct (pa_own _ _ _ P _ Ve) as (l & O & _). assert (I := own_in _ l k Ve O E L).
    destruct (Ce e Ve) as (c & Hc & Hec). apply In_nth_error in Hc. destruct Hc as (i & Hi). destruct (cell_wf i c Hi) as (Wc & _).
    destruct (ca_cell _ _ _ C i c Hi) as (lv & le & l' & _ & Fe & _ & _ & G).
    exists i. eexists. split; [cbn; apply nth_error_Some; congruence|]. split; [exact G|]. apply in_or_app. right. apply in_or_app. left.
    apply In_nth_error in Hec. destruct Hec as (j & Hj).
    assert (Lj : (j < length (cv_nodes c))%nat) by (rewrite <- (wc_edges _ _ Wc); apply nth_error_Some; congruence).
    destruct (nth_error (cv_ori c) j) as [o|] eqn:Ho; [|apply nth_error_None in Ho; rewrite (wc_oris _ _ Wc) in Ho; lia].
    assert (Z : nth_error (combine (cv_edges c) (cv_ori c)) j = Some (e, o)).
    { clear -Hj Ho. revert j Hj Ho. generalize (cv_ori c). induction (cv_edges c) as [|x es IH]; intros [|y os] [|j] Hj Ho; cbn in *; try discriminate; [congruence|auto]. }
    destruct (Forall2_nth _ _ _ Fe j _ Z) as (x & Hx & y & Oy & Ey). cbn [fst snd] in *.
    apply in_concat. exists x. split; [eapply nth_error_In; exact Hx|]. rewrite Ey, (own_fun _ _ _ _ Oy O).
    destruct (true && negb o); [apply -> in_rev|]; exact I.
  - cbn in Ve. destruct (nth_error (mv_cells m) i) as [c|] eqn:Hc; [|apply nth_error_None in Hc; lia].
    destruct (ca_cell _ _ _ C i c Hc) as (lv & le & l & _ & _ & _ & O & G). exists i. eexists. split; [exact Ve|]. split; [exact G|].
    apply in_or_app. right. apply in_or_app. right. exact (own_in (ECell i) l k Ve O E L).
Qed.
Lemma dofs_consistent : forall V c, sp_mesh V = m -> sp_dofs V = d -> consistent V (entities (sp_mesh V) c).
Proof.
  intros V c Em Ed e l n I D N. unfold has_dofs in D. rewrite Em, Ed in *.
  assert (Ve : valid m e).
  { destruct c as [|[|[|c]]]; cbn in I; try (apply in_map_iff in I; destruct I as (i & <- & I); apply in_seq in I; cbn in *; lia). }
  destruct (ca_count _ _ _ C e Ve) as (l' & G & N'). congruence.
Qed.
End Dofs.
Lemma in_cells : forall m e, In e (entities m 0) -> exists i c, e = ECell i /\ nth_error (mv_cells m) i = Some c.
Proof.
  intros m e I. cbn in I. apply in_map_iff in I. destruct I as (i & <- & I). apply in_seq in I. 
  destruct (nth_error (mv_cells m) i) as [c|] eqn:E; [eauto|]. apply nth_error_None in E. cbn in I. lia.
Qed.
Lemma in_edges : forall m e, In e (entities m 1) -> exists i, e = EEdge i /\ valid m (EEdge i).
Proof.
  intros m e I. cbn in I. apply in_map_iff in I. destruct I as (i & <- & I). apply in_seq in I. exists i. split; [reflexivity|]. cbn in *. lia.
Qed.
Lemma cells_in : forall m i, valid m (ECell i) -> In (ECell i) (entities m 0).
Proof. intros m i V. cbn in *. apply in_map. apply in_seq. lia. Qed.

(** *** Lagrangian elements *)
Lemma dot_delta : forall u v j, length u = length v -> (forall i, (i < length u)%nat -> nth i v 0 = delta i j) -> (j < length u)%nat -> dot u v = nth j u 0.
Proof.
  induction u as [|x u IH]; intros [|y v] j L H J; try discriminate L; [cbn in J; lia|]. rewrite dot_cons.
  assert (Y := H 0%nat ltac:(cbn; lia)). cbn [nth] in Y. rewrite Y. destruct j as [|j]; unfold delta in *; cbn [Nat.eqb nth].
  - assert (Z : dot u v = 0).
    { assert (Q : forall i, (i < length u)%nat -> nth i v 0 = 0) by (intros i Hi; apply (H (S i)); cbn; lia).
      assert (L' : length u = length v) by (cbn in L; lia). clear -Q L'. revert v Q L'. induction u as [|x u IH]; intros [|y v] Q L; try discriminate L; [reflexivity|].
      rewrite dot_cons, (Q 0%nat ltac:(cbn; lia) : y = 0), IH; [ring|intros i Hi; apply (Q (S i)); cbn; lia|cbn in L; lia]. }
    rewrite Z. ring.
  - rewrite (IH v j); [ring|cbn in L; lia|intros i Hi; apply (H (S i)); cbn; lia|cbn in J; lia].
Qed.
Lemma cardinal_dual : forall f, cardinal f -> (forall p, In p (fe_nodes f) -> exists v, fe_eval f p = Ok v /\ length v = fe_total f) ->
  (forall v, length v = fe_num_nodes f -> fe_n2d f v = Ok v) -> dual f.
Proof.
  intros f (L1 & L2 & K) Ev N u Lu. exists u. split; [|apply N; congruence].
  assert (Q : forall k l w, fe_nodes f = firstn k (fe_nodes f) ++ l -> u = firstn k u ++ w -> length l = length w -> length (firstn k u) = k -> length (firstn k (fe_nodes f)) = k -> traverse (combination f u) l = Ok w).
  { intros k l. revert k. induction l as [|p l IH]; intros k [|x w] Ep Eu L F1 F2; try discriminate L; [reflexivity|].
    cbn [traverse]. 
    assert (Hp : nth_error (fe_nodes f) k = Some p).
    { rewrite Ep, nth_error_app2 by lia. rewrite F2, Nat.sub_diag. reflexivity. }
    assert (Hx : nth_error u k = Some x).
    { rewrite Eu, nth_error_app2 by lia. rewrite F1, Nat.sub_diag. reflexivity. }
    unfold combination at 1. destruct (K k p Hp) as (v & E & D). rewrite E. cbn [bind].
    destruct (Ev p (nth_error_In _ _ Hp)) as (v' & E' & Lv). rewrite E in E'. injection E' as <-.
    assert (Hk : (k < length u)%nat) by (apply nth_error_Some; congruence).
    rewrite (dot_delta u v k) by (try congruence; try assumption; intros i Hi; apply D; congruence).
    rewrite (nth_error_nth u k 0 Hx).
    assert (S1 : forall A (z : list A) y r, z = firstn k z ++ y :: r -> length (firstn k z) = k -> z = firstn (S k) z ++ r /\ length (firstn (S k) z) = S k).
    { intros A z y r Ez Fz. assert (S2 : firstn (S k) z = firstn k z ++ [y]).
      { rewrite Ez at 1. rewrite firstn_app, Fz. replace (S k - k)%nat with 1%nat by lia. rewrite firstn_all2 by lia. reflexivity. }
      rewrite S2. split; [rewrite <- app_assoc; exact Ez|]. rewrite app_length, Fz. cbn. lia. }
    destruct (S1 _ _ _ _ Ep F2) as (Ep' & F2'). destruct (S1 _ _ _ _ Eu F1) as (Eu' & F1').
    rewrite (IH (S k) w Ep' Eu' ltac:(cbn in L; lia) F1' F2'). reflexivity. }
  apply (Q 0%nat); auto. congruence.
Qed.
Lemma lagrange_nodes : forall k t, fe_nodes (lagrange k t) <> [] /\ (forall p, In p (fe_nodes (lagrange k t)) -> exists v, fe_eval (lagrange k t) p = Ok v /\ length v = fe_total (lagrange k t)) /\
  (forall v, length v = fe_num_nodes (lagrange k t) -> fe_n2d (lagrange k t) v = Ok v).
Proof.
  intros k t. split; [destruct k, t; discriminate|]. split.
  - intros p I. destruct (lagrange_describes k t) as (El & _ & [Ce _] & _). apply Ce. rewrite El.
    destruct k, t; cbn in I; repeat (destruct I as [<-|I]; [reflexivity|]); destruct I.
  - intros v L. destruct k, t; cbn in *; unfold identity_n2d; rewrite L; reflexivity.
Qed.
Lemma lagrange_dual : forall k t, dual (lagrange k t).
Proof. intros k t. destruct (lagrange_nodes k t) as (_ & A & B). apply cardinal_dual; auto. apply lagrange_cardinal. Qed.
Definition lagr_map (k : order) : dof_map := [(kPoint, 1%nat); (kSegment, edge_num k); (kTria, cell_num k kTria); (kQuad, cell_num k kQuad)].
Lemma lagrange_elements : forall k m V, wf_mesh m -> lagrange_space k m = Ok V ->
  sp_mesh V = m /\ (forall e, In e (entities m 0) -> element_ok V e) /\ (forall e, In e (entities m 1) -> element_ok V e) /\
  (forall c, consistent V (entities m c)) /\
  (complete_mesh m -> forall j, (j < NumDofs (sp_dofs V))%nat -> exists e, In e (entities m 0) /\ touches V e j).
Proof.
  intros k m V W E. destruct (lagrange_space_ok k m) as (lo & E' & Lo). rewrite E in E'. injection E' as ->.
  pose proof (uniform_partitions m (lagr_map k) true W) as P. pose proof (uniform_canonical m (lagr_map k) true W) as C.
  change (u_handler (uniform m (lagr_map k) true)) with (lagrange_dofs k m) in P, C.
  split; [reflexivity|]. split; [|split; [|split]].
  - intros e I. destruct (in_cells m e I) as (i & c & -> & Hc).
    destruct (cell_dofs m _ _ W P C i c Hc) as (l & G & N & L & B); [intros; reflexivity|].
    assert (Tc : ent_type m (ECell i) = cv_type c) by (cbn; unfold cell_at; rewrite (nth_error_nth _ _ _ Hc); reflexivity).
    destruct (lagrange_nodes k (cv_type c)) as (A1 & A2 & A3).
    exists (lagrange k (cv_type c)), l. cbn [sp_layout sp_dofs]. rewrite Lo, Tc. split; [reflexivity|]. split; [exact G|]. split; [exact N|]. split; [exact B|].
    split; [|split; [exact A1|split; [exact A2|apply lagrange_dual]]].
    rewrite L. destruct (cell_wf m W i c Hc) as (Wc & _).
    replace (map (fun e : nat => prescribed (lagr_map k) m (EEdge e)) (cv_edges c)) with (repeat (edge_num k) (length (cv_edges c))).
    2:{ clear. induction (cv_edges c) as [|x l IH]; [reflexivity|]. cbn [length repeat map]. f_equal. exact IH. }
    unfold prescribed. rewrite Tc, (wc_edges _ _ Wc). unfold cv_type, cell_type. destruct (wc_shape _ _ Wc) as [-> | ->]; destruct k; reflexivity.
  - intros e I. destruct (in_edges m e I) as (i & -> & Ve).
    destruct (edge_dofs m _ _ W P C i Ve) as (l & G & N & L & B); [intros; reflexivity|].
    destruct (lagrange_nodes k kSegment) as (A1 & A2 & A3).
    exists (lagrange k kSegment), l. cbn [sp_layout sp_dofs]. rewrite Lo. split; [reflexivity|]. split; [exact G|]. split; [exact N|]. split; [exact B|].
    split; [|split; [exact A1|split; [exact A2|apply lagrange_dual]]]. rewrite L. destruct k; reflexivity.
  - intros c. eapply (dofs_consistent m _ C). reflexivity. reflexivity.
  - intros Cm j Hj. destruct (all_touched m _ _ W P C Cm j Hj) as (i & l & Vi & G & I). exists (ECell i). split; [apply cells_in; exact Vi|].
    exists l. split; [exact G|exact I].
Qed.
