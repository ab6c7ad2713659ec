(** C91: dof handlers of product spaces. *)
From Coq Require Import Reals List Arith Lia Lra Bool.
Import ListNotations.
From Verif Require Import Base Scalars MeshModel MeshView DofModel DofSpec DofProofs3 DofProofs4 RefPatModel GeoModel GeoSpec FeModel LagrModel FeSpec HierSpec FeProofs LagrProofs LagrProofs2 LagrProofs3
  AssembleModel FeToolsModel FeToolsSpec FeToolsProofs FeToolsProofs2 ElemProofs ElemProofs2 DpgModel DpgSpec DpgProofs ProdModel ProdSpec ProdProofs ProdProofs2 ProdProofs3.
Local Open Scope nat_scope.

Lemma partitions_ext : forall m c c' d, (forall e, c e = c' e) -> partitions m c d -> partitions m c' d.
Proof.
  intros m c c' d E [T O N B]. split; [|  |exact N|exact B].
  - rewrite T. f_equal. apply map_ext. exact E.
  - intros e V. destruct (O e V) as (l & H1 & H2 & H3 & H4 & H5). exists l. rewrite <- E. auto.
Qed.
Lemma layout_count : forall m n e, prescribed (ps_layout n) m e = of4 n (ent_type m e).
Proof. intros m [[[p s] t] q] e. unfold prescribed. destruct (ent_type m e); reflexivity. Qed.
Lemma sum_const : forall A (f : A -> nat) l k, (forall a, In a l -> f a = k) -> list_sum (map f l) = k * length l.
Proof.
  intros A f l k H. induction l as [|a l IH]; [cbn; lia|]. change (list_sum (map f (a :: l))) with (f a + list_sum (map f l)). cbn [length]. rewrite (H a (or_introl eq_refl)), IH; [lia|]. intros. apply H. right. assumption.
Qed.
Lemma sum_cells : forall m n, list_sum (map (fun e => of4 n (ent_type m e)) (map ECell (seq 0 (length (mv_cells m))))) =
  of4 n kTria * number_of m kTria + of4 n kQuad * number_of m kQuad.
Proof.
  intros m n. rewrite map_map. cbn [ent_type].
  assert (E : map (fun i => of4 n (cv_type (cell_at m i))) (seq 0 (length (mv_cells m))) = map (fun c => of4 n (cv_type c)) (mv_cells m)).
  { apply nth_ext with (d := 0) (d' := 0); rewrite !map_length, seq_length; [reflexivity|]. intros i Hi.
    rewrite (nth_indep _ 0 (of4 n (cv_type (cell_at m 0)))) by (rewrite map_length, seq_length; lia). rewrite (map_nth (fun i => of4 n (cv_type (cell_at m i)))).
    rewrite seq_nth by lia. unfold cell_at at 1. cbn [Nat.add].
    match goal with |- of4 n (cv_type (nth i _ ?d)) = _ => rewrite (nth_indep _ 0 (of4 n (cv_type d))) by (rewrite map_length; lia); rewrite (map_nth (fun c => of4 n (cv_type c))) end. reflexivity. }
  rewrite E. clear E. cbn [number_of]. induction (mv_cells m) as [|c l IH]; cbn [map list_sum filter length fold_right]; [lia|].
  change (fold_right Nat.add 0 (map (fun c0 => of4 n (cv_type c0)) l)) with (list_sum (map (fun c0 => of4 n (cv_type c0)) l)). rewrite IH.
  assert (T : cv_type c = kTria \/ cv_type c = kQuad) by (unfold cv_type, cell_type; destruct (_ =? 4); auto).
  destruct T as [-> | ->]; cbn [refel_eqb length]; lia.
Qed.
Lemma concat_const : forall A (ls : list (list A)) k, (forall l, In l ls -> length l = k) -> length (concat ls) = length ls * k.
Proof.
  intros A ls k H. induction ls as [|l ls IH]; cbn; [reflexivity|]. rewrite app_length, (H l (or_introl eq_refl)), IH; [lia|]. intros. apply H. right. assumption.
Qed.
Lemma F2_in : forall A B (P : A -> B -> Prop) a b y, Forall2 P a b -> In y b -> exists x, In x a /\ P x y.
Proof. intros A B P a b y H. induction H; intros []; [subst; eauto with datatypes|]. destruct (IHForall2 H1) as (z & I & Q). eauto with datatypes. Qed.

Theorem uniform_provides : forall m n, wf_mesh m -> provides m (of4 n) (u_handler (uniform m (ps_layout n) true)).
Proof.
  intros m n W. pose proof (uniform_partitions m (ps_layout n) true W) as P. pose proof (uniform_canonical m (ps_layout n) true W) as C.
  apply (partitions_ext _ _ _ _ (layout_count m n)) in P.
  assert (Own : forall e l, valid m e -> own (u_handler (uniform m (ps_layout n) true)) e l -> length l = of4 n (ent_type m e)).
  { intros e l V O. destruct (pa_own _ _ _ P e V) as (l' & O' & L & _). rewrite (own_fun _ _ _ _ O O'). exact L. }
  split; [exact P|exact C| | |].
  - rewrite (pa_total _ _ _ P). unfold all_entities. rewrite !map_app, !list_sum_app, sum_cells.
    rewrite (sum_const _ _ (map ENode _) (of4 n kPoint)) by (intros a I; apply in_map_iff in I; destruct I as (i & <- & _); reflexivity).
    rewrite (sum_const _ _ (map EEdge _) (of4 n kSegment)) by (intros a I; apply in_map_iff in I; destruct I as (i & <- & _); reflexivity).
    rewrite !map_length, !seq_length. cbn [number_of]. lia.
  - intros i V. destruct (ca_count _ _ _ C _ V) as (l & G & N). rewrite N. f_equal.
    cbn in V. destruct (nth_error (mv_edges m) i) as [[a b]|] eqn:E; [|apply nth_error_None in E; lia].
    destruct (ca_edge _ _ _ C i a b E) as (la & lb & l' & Oa & Ob & Oe & G'). destruct (wm_edges _ W i a b E) as (_ & Va & Vb).
    assert (l = la ++ lb ++ l') as -> by congruence. rewrite !app_length.
    rewrite (Own (ENode a) _ Va Oa), (Own (ENode b) _ Vb Ob), (Own (EEdge i) _ V Oe). cbn [ent_type]. lia.
  - intros i V t. destruct (ca_count _ _ _ C _ V) as (l & G & N). rewrite N. f_equal.
    cbn in V. destruct (nth_error (mv_cells m) i) as [c|] eqn:E; [|apply nth_error_None in E; lia].
    assert (Wc : wf_cell m c).
    { pose proof (wm_cells _ W) as H. rewrite Forall_forall in H. apply H. eapply nth_error_In; eauto. }
    assert (Tc : t = cv_type c). { unfold t. cbn. unfold cell_at. rewrite (nth_error_nth _ _ _ E). reflexivity. }
    assert (Nn : num_nodes t = length (cv_nodes c)). { rewrite Tc. unfold cv_type, cell_type. destruct (wc_shape _ _ Wc) as [-> | ->]; reflexivity. }
    destruct (ca_cell _ _ _ C i c E) as (lv & le & l' & Fv & Fe & Le & Oc & G').
    assert (l = concat lv ++ concat le ++ l') as -> by congruence. rewrite !app_length.
    rewrite (concat_const _ lv (of4 n kPoint)), (concat_const _ le (of4 n kSegment)), (Own (ECell i) _ V Oc).
    + rewrite <- (Forall2_len _ _ _ Fv), Le, (wc_edges _ _ Wc), Nn. fold t. lia.
    + intros x I. destruct (F2_in _ _ _ _ _ _ Fe I) as ([e o] & Io & y & Oy & ->). apply in_combine_l in Io. cbn [fst snd] in Oy.
      assert (Ve : valid m (EEdge e)).
      { apply In_nth_error in Io. destruct Io as [j Hj]. assert (Lj : j < length (cv_nodes c)) by (rewrite <- (wc_edges _ _ Wc); apply nth_error_Some; congruence).
        destruct (wc_local _ _ Wc j Lj) as (e' & _ & p0 & p1 & He' & _ & Hm & _). cbn. apply nth_error_Some. congruence. }
      transitivity (length y); [destruct (_ && _); [apply rev_length|reflexivity]|]. exact (Own _ _ Ve Oy).
    + intros x I. destruct (F2_in _ _ _ _ _ _ Fv I) as (v & Iv & Ov). pose proof (wc_nodes _ _ Wc) as Wn. rewrite Forall_forall in Wn. exact (Own (ENode v) _ (Wn v Iv) Ov).
Qed.

(** * The constructor *)
Definition three_in (T Q E P : list (option srfe)) c := three (element_in T Q E P c kTria) (element_in T Q E P c kQuad) (element_in T Q E P c kSegment).
Lemma agree_three : forall T Q E P c n, agree (element_in T Q E P c) n <-> agree (three_in T Q E P c) n.
Proof.
  intros. unfold three_in, agree. split; intros H t f N Ht; apply H; auto; destruct t; try congruence; exact Ht.
Qed.
Lemma absent_three : forall T Q E P c n, absent (element_in T Q E P c) n <-> absent (three_in T Q E P c) n.
Proof. intros. reflexivity. Qed.
Lemma elem_nth : forall A (l : list A) c d, c < length l -> elem_at l c = Ok (nth c l d).
Proof. intros A l c d H. apply elem_at_ok. apply nth_error_nth'. exact H. Qed.
Definition nums_at (T Q E P : list (option srfe)) (c : nat) := ps_component (element_in T Q E P c kTria) (element_in T Q E P c kQuad) (element_in T Q E P c kSegment).
Lemma traverse_ext_in : forall A B (f g : A -> res B) l, (forall a, In a l -> f a = g a) -> traverse f l = traverse g l.
Proof.
  intros A B f g l H. induction l as [|a l IH]; cbn; [reflexivity|]. rewrite (H a (or_introl eq_refl)), IH; [reflexivity|]. intros. apply H. right. assumption.
Qed.
Lemma nums_loop : forall T Q E P, length Q = length T -> length E = length T ->
  traverse (fun c => do t <- elem_at T c; do q <- elem_at Q c; do e <- elem_at E c; ps_component t q e) (seq 0 (length T)) =
  traverse (nums_at T Q E P) (seq 0 (length T)).
Proof.
  intros T Q E P LQ LE. apply traverse_ext_in. intros c I. apply in_seq in I. unfold nums_at, element_in.
  rewrite (elem_nth _ T c None), (elem_nth _ Q c None), (elem_nth _ E c None) by lia. reflexivity.
Qed.
Lemma space_ok_inv : forall m T Q E P s, ProductUniformFESpace m T Q E P = Ok s ->
  T <> [] /\ length Q = length T /\ length E = length T /\ length P = length T /\
  exists nums d, traverse (nums_at T Q E P) (seq 0 (length T)) = Ok nums /\ product m (map ps_layout nums) = Ok d /\
    s = mkProductSpace m T Q E P nums d.
Proof.
  intros m T Q E P s H. unfold ProductUniformFESpace in H. inv_bind.
  repeat match goal with A : _ && _ = true |- _ => apply andb_prop in A; destruct A end.
  repeat match goal with A : (_ =? _) = true |- _ => apply Nat.eqb_eq in A end.
  match goal with A : traverse _ _ = Ok _ |- _ => rewrite (nums_loop T Q E P) in A by lia end.
  split; [intros ->; discriminate|]. repeat split; try lia. eauto 10.
Qed.
Theorem space_accepts : forall m T Q E P, wf_mesh m ->
  (exists s, ProductUniformFESpace m T Q E P = Ok s) <->
  (T <> [] /\ length Q = length T /\ length E = length T /\ length P = length T /\
   forall c, c < length T -> exists n, agree (element_in T Q E P c) n).
Proof.
  intros m T Q E P W. split.
  - intros [s H]. apply space_ok_inv in H. destruct H as (H0 & H1 & H2 & H3 & nums & d & Tr & _).
    repeat (split; [assumption|]). intros c Hc.
    assert (X : exists n, nums_at T Q E P c = Ok n).
    { destruct (ElemProofs.traverse_nth _ _ _ _ _ Tr) as (_ & TN). specialize (TN c 0 (0, 0, 0, 0)). rewrite seq_length, seq_nth in TN by lia. eexists. exact (TN Hc). }
    destruct X as [n X]. apply component_sound in X. exists (of4 n). apply agree_three. apply X.
  - intros (H0 & H1 & H2 & H3 & A). unfold ProductUniformFESpace.
    replace (negb (length T =? 0)) with true by (destruct T; [congruence|reflexivity]). rewrite H1, H2, H3, Nat.eqb_refl. cbn [andb lf_assert bind].
    rewrite (nums_loop T Q E P) by assumption.
    destruct (traverse_ok _ _ (nums_at T Q E P) (seq 0 (length T))) as [nums Hn].
    { intros c I. apply in_seq in I. destruct (A c ltac:(lia)) as [n An]. apply agree_three in An. exact (component_complete _ _ _ _ An). }
    rewrite Hn. cbn [bind].
    destruct (product_ok m (map ps_layout nums) W) as [d Hd].
    { intros Z. apply (f_equal (@length _)) in Z. rewrite map_length, (traverse_length _ _ _ _ _ Hn), seq_length in Z. destruct T; [congruence|discriminate]. }
    rewrite Hd. cbn [bind]. eauto.
Qed.
Lemma space_parts : forall m T Q E P s, wf_mesh m -> ProductUniformFESpace m T Q E P = Ok s -> exists nums,
  length nums = length T /\ (forall c, c < length T -> nums_at T Q E P c = Ok (nth c nums (0, 0, 0, 0))) /\
  has_components m (length T) (element_in T Q E P) (fun c => of4 (nth c nums (0, 0, 0, 0))) s /\
  ps_tria s = T /\ ps_quad s = Q /\ ps_edge s = E /\ ps_point s = P /\
  forall c, c < length T -> p_ComponentDofHandler (ps_dofs s) c = Ok (u_handler (uniform m (ps_layout (nth c nums (0, 0, 0, 0))) true)).
Proof.
  intros m T Q E P s W H. apply space_ok_inv in H. destruct H as (H0 & H1 & H2 & H3 & nums & d & Tr & Pr & ->).
  assert (LN : length nums = length T) by (rewrite (traverse_length _ _ _ _ _ Tr), seq_length; reflexivity).
  exists nums. split; [exact LN|]. split.
  - intros c Hc. destruct (ElemProofs.traverse_nth _ _ _ _ _ Tr) as (_ & TN). specialize (TN c 0 (0, 0, 0, 0)). rewrite seq_length, seq_nth in TN by lia. exact (TN Hc).
  - pose proof (product_stacked m _ d W Pr) as K. rewrite map_map in K.
    assert (Nd : forall c, c < length T -> nth_error (map (fun n => u_handler (uniform m (ps_layout n) true)) nums) c = Some (u_handler (uniform m (ps_layout (nth c nums (0, 0, 0, 0))) true))).
    { intros c Hc. rewrite nth_error_map, (nth_error_nth' nums (0, 0, 0, 0)) by lia. reflexivity. }
    split; [|split; [reflexivity|split; [reflexivity|split; [reflexivity|split; [reflexivity|]]]]; intros c Hc; apply (sk_component_handler _ _ _ K c); apply Nd; exact Hc].
    split; cbn [ps_mesh]; [reflexivity|reflexivity| | | |].
    + intros c t Hc. unfold ShapeFunctionLayout, element_in. cbn [ps_point ps_edge ps_tria ps_quad]. destruct t; apply elem_nth; lia.
    + intros c t Hc. unfold NumRefShapeFunctions. cbn [ps_num]. rewrite (elem_nth _ nums c (0, 0, 0, 0)) by lia. cbn [bind].
      destruct (nth c nums (0, 0, 0, 0)) as [[[p g] tr] q]. destruct t; reflexivity.
    + intros c t Hc. unfold ShapeFunctionLayout, NumRefShapeFunctions, elem_at. cbn [ps_point ps_edge ps_tria ps_quad ps_num].
      assert (X : forall A (l : list A), length l = length T -> nth_error l c = None) by (intros A l Hl; apply nth_error_None; lia).
      split; [destruct t; rewrite X by lia; reflexivity|]. rewrite X by lia. reflexivity.
    + exists (map (fun n => u_handler (uniform m (ps_layout n) true)) nums). split; [rewrite map_length; exact LN|]. split; [exact K|].
      intros c Hc. eexists. split; [exact (Nd c Hc)|]. apply uniform_provides. exact W.
Qed.
Theorem space_ok : forall m T Q E P s, wf_mesh m -> ProductUniformFESpace m T Q E P = Ok s -> exists n,
  has_components m (length T) (element_in T Q E P) n s /\
  forall c, c < length T -> agree (element_in T Q E P c) (n c) /\ absent (element_in T Q E P c) (n c).
Proof.
  intros m T Q E P s W H. destruct (space_parts _ _ _ _ _ _ W H) as (nums & _ & N & K & _).
  exists (fun c => of4 (nth c nums (0, 0, 0, 0))). split; [exact K|]. intros c Hc. rewrite agree_three, absent_three. apply component_sound. exact (N c Hc).
Qed.

(** * Component spaces *)
Theorem component_space : forall m T Q E P s c, wf_mesh m -> ProductUniformFESpace m T Q E P = Ok s ->
  (forall V, ComponentFESpace s c = Ok V -> c < length T /\ sp_mesh V = m /\ p_ComponentDofHandler (ps_dofs s) c = Ok (sp_dofs V) /\
     forall e, sp_layout V e = element_in T Q E P c (ent_type m e)) /\
  ((exists V, ComponentFESpace s c = Ok V) <->
   (c < length T /\ (exists k, NumRefShapeFunctions s kPoint c = Ok k /\ k <= 1) /\
    (element_in T Q E P c kTria <> None \/ element_in T Q E P c kQuad <> None) /\
    (forall t, t = kTria \/ t = kQuad -> 0 < number_of m t -> element_in T Q E P c t <> None))).
Proof.
  intros m T Q E P s c W H. destruct (space_parts _ _ _ _ _ _ W H) as (nums & LN & N & K & ST & SQ & SE & SP & D).
  destruct (space_ok_inv _ _ _ _ _ _ H) as (_ & LQ & LE & LP & _).
  assert (CF : c < length T -> ComponentFESpace s c = uniform_space m (element_in T Q E P c kTria) (element_in T Q E P c kQuad) (element_in T Q E P c kSegment) (element_in T Q E P c kPoint)).
  { intros Hc. unfold ComponentFESpace. rewrite ST, SQ, SE, SP, (hc_mesh _ _ _ _ _ K).
    rewrite (elem_nth _ T c None), (elem_nth _ Q c None), (elem_nth _ E c None), (elem_nth _ P c None) by lia. reflexivity. }
  assert (CB : forall V, ComponentFESpace s c = Ok V -> c < length T).
  { intros V HV. unfold ComponentFESpace in HV. inv_bind. match goal with A : elem_at (ps_tria s) c = Ok _ |- _ => rewrite ST in A; apply elem_at_ok in A end. apply nth_error_Some. congruence. }
  assert (NC : forall t, num_cells m t = number_of m t \/ t = kPoint \/ t = kSegment) by (intros []; auto).
  split.
  - intros V HV. pose proof (CB V HV) as Hc. rewrite (CF Hc) in HV. unfold uniform_space in HV. inv_bind. subst V.
    match goal with A : init_dofs _ _ _ _ = Ok _ |- _ => apply init_sound in A; destruct A as (n & Pn & -> & _) end.
    split; [exact Hc|]. split; [reflexivity|]. cbn [sp_dofs sp_layout]. pose proof (N c Hc) as Nc. unfold nums_at in Nc. rewrite Pn in Nc. injection Nc as ->.
    split; [exact (D c Hc)|]. intros e. destruct (ent_type m e); reflexivity.
  - split.
    + intros [V HV]. pose proof (CB V HV) as Hc. rewrite (CF Hc) in HV. unfold uniform_space in HV. inv_bind.
      match goal with A : init_dofs _ _ _ _ = Ok _ |- _ => apply init_sound in A; destruct A as (n & Pn & _ & A1 & A2 & A3 & A4) end.
      pose proof (N c Hc) as Nc. unfold nums_at in Nc. rewrite Pn in Nc. injection Nc as Nc.
      split; [exact Hc|]. split; [exists (of4 n kPoint); split; [rewrite (hc_number _ _ _ _ _ K c kPoint Hc), Nc; reflexivity|exact A4]|].
      split.
      * destruct (element_in T Q E P c kTria) eqn:X; [left; discriminate|]. destruct (element_in T Q E P c kQuad) eqn:Y; [right; discriminate|]. destruct (A1 eq_refl eq_refl).
      * intros t [-> | ->] Hp; [apply A2|apply A3]; match goal with |- num_cells m ?t <> 0 => change (number_of m t <> 0) end; lia.
    + intros (Hc & (k & Hk & Lk) & HN & HT). rewrite (CF Hc). unfold uniform_space. rewrite (init_complete _ _ _ _ (nth c nums (0, 0, 0, 0))).
      * cbn [bind]. eauto.
      * exact (N c Hc).
      * intros A B. destruct HN; contradiction.
      * intros Z. apply (HT kTria); auto. change (number_of m kTria <> 0) in Z. lia.
      * intros Z. apply (HT kQuad); auto. change (number_of m kQuad <> 0) in Z. lia.
      * rewrite (hc_number _ _ _ _ _ K c kPoint Hc) in Hk. injection Hk as Hk. rewrite <- Hk in Lk. exact Lk.
Qed.
