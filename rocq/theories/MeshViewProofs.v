(** Every built mesh has a well-formed view. *)
From Coq Require Import List Arith Lia Bool Permutation.
Import ListNotations.
From Verif Require Import Base MeshModel MeshSpec MeshView MeshProofs MeshProofs2 MeshProofs3 MeshProofs4 MeshProofs5.

Lemma view_edge_nth : forall M i,
  (forall i, i < length (m_ptr1 M) -> exists s, edge_by_index M i = Some s) ->
  nth_error (mv_edges (view M)) i = option_map ends (edge_by_index M i).
Proof.
  intros M i H. unfold view; simpl. rewrite nth_error_map.
  destruct (nth_error (m_ptr1 M) i) as [o|] eqn:E.
  - destruct (H i) as [s Hs]; [apply nth_error_Some; congruence|].
    unfold edge_by_index in *. rewrite E in *. simpl. unfold view_edge.
    destruct o as [p|]; [|discriminate]. rewrite Hs. reflexivity.
  - unfold edge_by_index. rewrite E. reflexivity.
Qed.

Definition cell_view (M : mesh_obj) (c : cell) : cellv :=
  mkCellv (c_nodes c)
          (map (fun p => match nth_error (m_segments M) p with
                         | Some s => s_index s | None => 0 end) (c_segs c))
          (c_ori c).

Lemma view_cell_nth : forall M i,
  (forall i, i < length (m_ptr0 M) -> exists c, cell_by_index M i = Some c) ->
  nth_error (mv_cells (view M)) i = option_map (cell_view M) (cell_by_index M i).
Proof.
  intros M i H. unfold view; simpl. rewrite nth_error_map.
  destruct (nth_error (m_ptr0 M) i) as [o|] eqn:E.
  - destruct (H i) as [s Hs]; [apply nth_error_Some; congruence|].
    unfold cell_by_index in *. rewrite E in *. simpl. unfold view_cell.
    destruct o as [[p|p]|]; try discriminate; rewrite Hs; reflexivity.
  - unfold cell_by_index. rewrite E. reflexivity.
Qed.

Section Built.
Variables (check : bool) (h : list call) (M : mesh_obj).
Hypothesis B : built check h M.

Lemma view_edges_lookup : forall i,
  nth_error (mv_edges (view M)) i = option_map ends (edge_by_index M i).
Proof.
  intros i. apply view_edge_nth.
  destruct (built_facts check h M B) as (L & Co & F & m & all & D).
  pose proof (numbering check h M B) as (_ & _ & _ & _ & _ & _ & _ & N & _).
  intros k Hk. destruct (N k) as (s & Hs & _); eauto.
  simpl. rewrite (de_ptr1l _ _ _ _ _ _ D) in Hk.
  rewrite (de_segs _ _ _ _ _ _ D), segs_of_map_length. auto.
Qed.

Lemma view_cells_lookup : forall i,
  nth_error (mv_cells (view M)) i = option_map (cell_view M) (cell_by_index M i).
Proof.
  intros i. apply view_cell_nth.
  destruct (built_facts check h M B) as (L & Co & F & m & all & D).
  pose proof (numbering check h M B) as (NC & _ & _ & N & _).
  intros k Hk. destruct (N k) as (s & Hs & _); eauto.
  rewrite NC. rewrite (de_ptr0l _ _ _ _ _ _ D) in Hk. auto.
Qed.

Theorem view_wf : wf_mesh (view M).
Proof.
  pose proof (one_edge_per_pair check h M B) as (U & X & V).
  constructor.
  - apply Forall_forall. intros cv Hin. apply In_nth_error in Hin as [i Hi].
    rewrite view_cells_lookup in Hi.
    destruct (cell_by_index M i) as [c|] eqn:Hc; [|discriminate]. simpl in Hi. injection Hi as <-.
    pose proof (incidence check h M B i c Hc) as (L1 & L2 & J).
    destruct (built_facts check h M B) as (L & Co & F & m & all & D).
    destruct (cell_by_index_data_inv _ _ _ _ _ _ D i c Hc) as (Hcs & _ & _).
    destruct (legal_cells h L (c_nodes c) (c_geo c)) as [Sh Fn]; [eapply nth_error_In; eauto|].
    constructor; simpl.
    + exact Sh.
    + rewrite map_length. exact L1.
    + exact L2.
    + rewrite (de_points _ _ _ _ _ _ D). exact Fn.
    + intros j Hj. destruct (J j Hj) as (s & o & Hs & Hi & Ho & E).
      exists (s_index s), o, (s_p0 s), (s_p1 s). cbn [cell_view cv_edges cv_ori cv_nodes].
      split.
      * rewrite nth_error_map. unfold cell_edge in Hs.
        destruct (nth_error (c_segs c) j) as [p|] eqn:Ep; [|discriminate]. simpl. rewrite Hs. auto.
      * split; [exact Ho|]. split.
        -- rewrite view_edges_lookup, Hi. reflexivity.
        -- unfold ends, side, next_corner in *. destruct o; injection E as E1 E2; auto.
  - intros i a b H. rewrite view_edges_lookup in H.
    destruct (edge_by_index M i) as [s|] eqn:E; [|discriminate].
    simpl in H. unfold ends in H. injection H as <- <-. simpl. apply (V i s E).
  - intros i j a b c d H H' S. rewrite view_edges_lookup in H, H'.
    destruct (edge_by_index M i) as [s|] eqn:E; [|discriminate].
    destruct (edge_by_index M j) as [s'|] eqn:E'; [|discriminate].
    simpl in H, H'. injection H as H1 H2. injection H' as H1' H2'.
    eapply (U _ _ _ _ E E'). unfold same_pair, ends; simpl.
    rewrite H1, H2, H1', H2'. exact S.
Qed.

Theorem view_complete : check = true -> complete_mesh (view M).
Proof.
  intros Hc. pose proof (one_edge_per_pair check h M B) as (U & X & V).
  destruct (built_facts check h M B) as (L & Co & F & m & all & D).
  destruct (F Hc) as [C1 C2]. split.
  - intros i Hi. destruct (nth_error (mv_edges (view M)) i) as [p|] eqn:E.
    2:{ apply nth_error_None in E; lia. }
    rewrite view_edges_lookup in E.
    destruct (edge_by_index M i) as [s|] eqn:Es; [|discriminate].
    assert (is_supplied h (ends s) \/ is_side h (ends s)) as W.
    { apply X. exists i, s; split; auto. left; auto. }
    assert (is_side h (ends s)) as (ns & g & j & Hin & Hj & SP).
    { destruct W as [(a & b & g & Hin & SP)|W]; auto.
      destruct (C1 _ _ _ Hin) as (ns & g' & j & Hin' & Hj & SP').
      exists ns, g', j; repeat split; auto. apply norm_same. apply norm_same in SP, SP'. congruence. }
    apply In_nth_error in Hin as [k Hk].
    destruct (cell_by_index_data _ _ _ _ _ _ D k ns g Hk) as (c & Hcc & _ & Hns & _).
    pose proof (incidence check h M B k c Hcc) as (L1 & L2 & J). rewrite Hns in J.
    destruct (J j Hj) as (s' & o & Hs' & Hi' & Ho & Es').
    assert (i = s_index s') as ->.
    { eapply U; eauto. apply norm_same. apply norm_same in SP. rewrite SP.
      destruct o; rewrite Es'; auto. apply norm_same. right; auto. }
    exists (cell_view M c). split.
    + eapply nth_error_In with (n := k). rewrite view_cells_lookup, Hcc. reflexivity.
    + unfold cell_view; simpl. apply in_map_iff.
      unfold cell_edge in Hs'. destruct (nth_error (c_segs c) j) as [p'|] eqn:Ep; [|discriminate].
      exists p'. rewrite Hs'. split; auto. eapply nth_error_In; eauto.
  - intros v Hv. simpl in Hv. rewrite (de_points _ _ _ _ _ _ D) in Hv.
    destruct (C2 v Hv) as (p & Hp & <-). apply X in Hp as (i & s & Hs & SP).
    exists (s_p0 s), (s_p1 s). split.
    + eapply nth_error_In with (n := i). rewrite view_edges_lookup, Hs. reflexivity.
    + destruct SP as [[E _]|[_ E]]; simpl in E; auto.
Qed.

Lemma view_counts : mv_nodes (view M) = num_entities 2 M /\
  length (mv_edges (view M)) = num_entities 1 M /\ length (mv_cells (view M)) = num_entities 0 M.
Proof.
  destruct (built_facts check h M B) as (L & Co & F & m & all & D).
  unfold view; simpl. rewrite !map_length. split; auto. split.
  - rewrite (de_ptr1l _ _ _ _ _ _ D), (de_segs _ _ _ _ _ _ D), segs_of_map_length; auto.
  - rewrite (de_ptr0l _ _ _ _ _ _ D). symmetry. apply (num_cells _ _ _ _ _ _ D).
Qed.
End Built.

(** Conversely every well-formed complete mesh can be built: add its points, all
    its edges and all its cells. *)
Definition history_of (m : mesh) : list call :=
  repeat (CPoint true) (mv_nodes m) ++
  map (fun e => CEntity kSegment [fst e; snd e] true) (mv_edges m) ++
  map (fun c => CEntity (cv_type c) (cv_nodes c) true) (mv_cells m).

Section Realize.
Variable m : mesh.
Hypothesis W : wf_mesh m.
Let ps := repeat (CPoint true) (mv_nodes m).
Let es := map (fun e => CEntity kSegment [fst e; snd e] true) (mv_edges m).
Let cs := map (fun c => CEntity (cv_type c) (cv_nodes c) true) (mv_cells m).

Lemma filter_all : forall A (p : A -> bool) l, (forall x, In x l -> p x = true) -> filter p l = l.
Proof.
  induction l as [|x l IH]; simpl; intros H; auto.
  rewrite H by auto. f_equal. apply IH. intros; apply H; auto.
Qed.
Lemma filter_none : forall A (p : A -> bool) l, (forall x, In x l -> p x = false) -> filter p l = [].
Proof.
  induction l as [|x l IH]; simpl; intros H; auto. rewrite H by auto. apply IH. intros; apply H; auto.
Qed.

Lemma in_ps : forall c, In c ps -> c = CPoint true.
Proof. intros c H. eapply repeat_spec; eauto. Qed.
Lemma in_es : forall c, In c es -> exists a b, In (a, b) (mv_edges m) /\ c = CEntity kSegment [a; b] true.
Proof. intros c H. apply in_map_iff in H as ([a b] & <- & H). eauto. Qed.
Lemma in_cs : forall c, In c cs -> exists v, In v (mv_cells m) /\ c = CEntity (cv_type v) (cv_nodes v) true /\
  (cv_type v = kTria \/ cv_type v = kQuad) /\ length (cv_nodes v) = num_nodes (cv_type v).
Proof.
  intros c H. apply in_map_iff in H as (v & <- & H). exists v. split; auto. split; auto.
  pose proof (wm_cells _ W) as F. rewrite Forall_forall in F. destruct (wc_shape _ _ (F v H)) as [E|E];
  unfold cv_type, cell_type; rewrite E; simpl; auto.
Qed.

Lemma hist_points : points_of (history_of m) = mv_nodes m.
Proof.
  unfold points_of, count_calls, history_of. fold ps es cs. rewrite !filter_app.
  rewrite (filter_all _ _ ps), (filter_none _ _ es), (filter_none _ _ cs); simpl.
  - rewrite app_nil_r. unfold ps; apply repeat_length.
  - intros c H; apply in_cs in H as (v & _ & -> & [-> | ->] & _); auto.
  - intros c H; apply in_es in H as (a & b & _ & ->); auto.
  - intros c H; apply in_ps in H as ->; auto.
Qed.

Lemma hist_segments : segments_of (history_of m) = map (fun e => ([fst e; snd e], true)) (mv_edges m).
Proof.
  unfold segments_of, history_of. fold ps es cs. rewrite !filter_app.
  rewrite (filter_none _ _ ps), (filter_all _ _ es), (filter_none _ _ cs); simpl.
  - rewrite app_nil_r. unfold es. rewrite map_map. reflexivity.
  - intros c H; apply in_cs in H as (v & _ & -> & [-> | ->] & _); auto.
  - intros c H; apply in_es in H as (a & b & _ & ->); auto.
  - intros c H; apply in_ps in H as ->; auto.
Qed.

Lemma hist_cells : cells_of (history_of m) = map (fun c => (cv_nodes c, true)) (mv_cells m).
Proof.
  unfold cells_of, history_of. fold ps es cs. rewrite !filter_app.
  rewrite (filter_none _ _ ps), (filter_none _ _ es), (filter_all _ _ cs); simpl.
  - unfold cs. rewrite map_map. reflexivity.
  - intros c H; apply in_cs in H as (v & _ & -> & [-> | ->] & _); auto.
  - intros c H; apply in_es in H as (a & b & _ & ->); auto.
  - intros c H; apply in_ps in H as ->; auto.
Qed.

Lemma points_of_app : forall a b, points_of (a ++ b) = points_of a + points_of b.
Proof. intros. unfold points_of, count_calls. rewrite filter_app, app_length. auto. Qed.

Lemma hist_legal : legal (history_of m).
Proof.
  intros i c H. unfold history_of in H |- *. fold ps es cs in H |- *.
  destruct (Nat.lt_ge_cases i (length ps)) as [Hi|Hi].
  - rewrite nth_error_app1 in H by auto. apply nth_error_In in H. apply in_ps in H as ->. reflexivity.
  - rewrite nth_error_app2 in H by auto. rewrite firstn_app, points_of_app.
    rewrite firstn_all2 by auto.
    assert (Hp : points_of ps = mv_nodes m).
    { unfold points_of, count_calls. rewrite filter_all; [apply repeat_length|].
      intros x Hx; apply in_ps in Hx as ->; auto. }
    rewrite Hp.
    apply nth_error_In in H. apply in_app_or in H as [H|H].
    + apply in_es in H as (a & b & Hin & ->). apply In_nth_error in Hin as [k Hk].
      destruct (wm_edges _ W k a b Hk) as (_ & A & B). simpl.
      split; [discriminate|]. split; auto. repeat constructor; lia.
    + apply in_cs in H as (v & Hin & -> & Hv & Hl). pose proof (wm_cells _ W) as F.
      rewrite Forall_forall in F. simpl. split; [destruct Hv as [-> | ->]; discriminate|].
      split; auto. eapply Forall_impl; [|apply (wc_nodes _ _ (F v Hin))]. simpl; intros; lia.
Qed.

Lemma cell_side_edge : forall c j, In c (mv_cells m) -> j < length (cv_nodes c) ->
  exists e p, nth_error (cv_edges c) j = Some e /\ nth_error (mv_edges m) e = Some p /\
    same_pair p (side (cv_nodes c) j).
Proof.
  intros c j Hin Hj. pose proof (wm_cells _ W) as F. rewrite Forall_forall in F.
  destruct (wc_local _ _ (F c Hin) j Hj) as (e & o & p0 & p1 & He & Ho & Hp & Ho').
  exists e, (p0, p1). split; auto. split; auto. unfold same_pair, side; simpl.
  unfold next_corner in Ho'. destruct o; tauto.
Qed.

Lemma hist_consistent : consistent (history_of m).
Proof.
  split; [|split].
  - intros a b g H. rewrite hist_segments in H. apply in_map_iff in H as ([a' b'] & E & H).
    simpl in E. injection E as -> -> <-. split; auto.
    apply In_nth_error in H as [k Hk]. apply (wm_edges _ W k a b Hk).
  - intros k l a b g a' b' g' H H' S. rewrite hist_segments in *. rewrite nth_error_map in H, H'.
    destruct (nth_error (mv_edges m) k) as [[x y]|] eqn:E; [|discriminate].
    destruct (nth_error (mv_edges m) l) as [[x' y']|] eqn:E'; [|discriminate].
    simpl in *. injection H as -> -> <-. injection H' as -> -> <-.
    eapply (wm_unique _ W); eauto.
  - intros ns g j H Hj. rewrite hist_cells in H. apply in_map_iff in H as (c & E & H).
    injection E as <- <-. destruct (cell_side_edge c j H Hj) as (e & [a b] & _ & Hp & S).
    destruct (wm_edges _ W e a b Hp) as (N & _). unfold same_pair in S. simpl in S |- *.
    simpl in S. intuition congruence.
Qed.

Lemma hist_complete : complete_mesh m -> complete (history_of m).
Proof.
  intros [C1 C2]. split.
  - intros a b g H. rewrite hist_segments in H. apply in_map_iff in H as ([a' b'] & E & H).
    simpl in E. injection E as -> -> <-. apply In_nth_error in H as [k Hk].
    destruct (C1 k) as (c & Hc & Hin); [apply nth_error_Some; congruence|].
    apply In_nth_error in Hin as [j Hj].
    pose proof (wm_cells _ W) as F. rewrite Forall_forall in F.
    assert (Hjl : j < length (cv_nodes c)).
    { rewrite <- (wc_edges _ _ (F c Hc)). apply nth_error_Some. congruence. }
    destruct (cell_side_edge c j Hc Hjl) as (e & p & He & Hp & S).
    assert (e = k) by congruence. subst e. assert (p = (a, b)) by congruence. subst p.
    exists (cv_nodes c), true, j. split; auto. rewrite hist_cells.
    apply in_map_iff. exists c; auto.
  - intros v Hv. rewrite hist_points in Hv. destruct (C2 v Hv) as (a & b & Hin & Hab).
    exists (if v =? a then (a, b) else (b, a)). split.
    + left. exists a, b, true. split.
      * rewrite hist_segments. apply in_map_iff. exists (a, b); auto.
      * destruct (v =? a); unfold same_pair; simpl; auto.
    + destruct (Nat.eqb_spec v a); simpl; destruct Hab; congruence.
Qed.

Lemma nth_error_ext : forall A (l l' : list A), (forall i, nth_error l i = nth_error l' i) -> l = l'.
Proof.
  induction l as [|x l IH]; intros [|y l'] H; auto.
  - specialize (H 0); discriminate.
  - specialize (H 0); discriminate.
  - f_equal; [specialize (H 0); injection H; auto|]. apply IH. intros i. apply (H (S i)).
Qed.

Theorem realizable : forall check, (check = true -> complete_mesh m) ->
  exists M, built check (history_of m) M /\ view M = m.
Proof.
  intros check C. destruct (build_outcome check (history_of m)) as (L & _ & O).
  destruct L as [L _]. destruct (L hist_legal) as (rets & f & R).
  destruct (O rets f R) as [O1 _]. destruct O1 as [_ O1]. destruct O1 as [M HM].
  { split; [apply hist_consistent|]. intros H; apply hist_complete; auto. }
  exists M. assert (B : built check (history_of m) M) by (exists rets, f; auto).
  split; auto.
  pose proof (index_contract check (history_of m) rets f M R HM) as (_ & _ & NP & SG & NC & CL).
  pose proof (one_edge_per_pair check _ M B) as (U & X & V).
  assert (Hv : forall e p, nth_error (mv_edges m) e = Some p ->
      nth_error (mv_edges (view M)) e = Some p).
  { intros e [a b] He. rewrite (view_edges_lookup _ _ _ B).
    destruct (SG e [a; b] true) as (s & Hs & _ & E & _).
    - rewrite hist_segments, nth_error_map, He. reflexivity.
    - rewrite Hs. simpl. unfold ends. injection E as -> ->. reflexivity. }
  assert (Hedges : mv_edges (view M) = mv_edges m).
  { apply nth_error_ext. intros i. destruct (nth_error (mv_edges m) i) as [[a b]|] eqn:E.
    - apply Hv; auto.
    - destruct (nth_error (mv_edges (view M)) i) as [p|] eqn:E'; auto. exfalso.
      pose proof E' as E''. rewrite (view_edges_lookup _ _ _ B) in E''.
      destruct (edge_by_index M i) as [s|] eqn:Es; [|discriminate]. simpl in E''. injection E'' as <-.
      assert (is_supplied (history_of m) (ends s) \/ is_side (history_of m) (ends s)) as Q.
      { apply X. exists i, s. split; auto. left; auto. }
      assert (exists e q, nth_error (mv_edges m) e = Some q /\ same_pair (ends s) q) as (e & q & He & Sq).
      { destruct Q as [(a & b & g & Hin & S)|(ns & g & j & Hin & Hj & S)].
        - rewrite hist_segments in Hin. apply in_map_iff in Hin as ([x y] & Exy & Hin). simpl in Exy.
          injection Exy as -> -> <-. apply In_nth_error in Hin as [e He]. eauto.
        - rewrite hist_cells in Hin. apply in_map_iff in Hin as (c & Ec & Hc). injection Ec as <- <-.
          destruct (cell_side_edge c j Hc Hj) as (e & q & _ & He & S'). exists e, q. split; auto.
          unfold same_pair in *. intuition congruence. }
      pose proof (Hv _ _ He) as He'. rewrite (view_edges_lookup _ _ _ B) in He'.
      destruct (edge_by_index M e) as [s'|] eqn:Es'; [|discriminate]. simpl in He'. injection He' as <-.
      rewrite (U i e s s' Es Es' Sq) in E. congruence. }
  assert (Hcells : mv_cells (view M) = mv_cells m).
  { apply nth_error_ext. intros i. rewrite (view_cells_lookup _ _ _ B).
    destruct (nth_error (mv_cells m) i) as [c|] eqn:E.
    - destruct (CL i (cv_nodes c) true) as (c' & Hc' & _ & Hn & _).
      { rewrite hist_cells, nth_error_map, E. reflexivity. }
      rewrite Hc'. simpl. f_equal.
      pose proof (incidence check _ M B i c' Hc') as (L1 & L2 & J).
      pose proof (wm_cells _ W) as F. rewrite Forall_forall in F.
      pose proof (F c (nth_error_In _ _ E)) as WC.
      destruct c as [ns eds ors]. simpl in Hn. unfold cell_view. rewrite Hn.
      pose proof (wc_edges _ _ WC) as We. pose proof (wc_oris _ _ WC) as Wo. simpl in We, Wo.
      f_equal.
      + apply nth_error_ext. intros j. rewrite nth_error_map.
        destruct (Nat.lt_ge_cases j (length ns)) as [Hj|Hj].
        2:{ rewrite (proj2 (nth_error_None eds j)) by lia.
            rewrite (proj2 (nth_error_None (c_segs c') j)); auto. rewrite L1, Hn. auto. }
        rewrite Hn in J. destruct (J j Hj) as (s & o & Hs & Hi & Ho & Es).
        destruct (wc_local _ _ WC j Hj) as (e & o' & p0 & p1 & He & Ho' & Hp & Ho'').
        simpl in He, Ho', Ho''. rewrite He. unfold cell_edge in Hs.
        destruct (nth_error (c_segs c') j) as [p|]; [|discriminate]. simpl. rewrite Hs. f_equal.
        apply (wm_unique _ W) with (s_p0 s) (s_p1 s) p0 p1; auto.
        * rewrite <- Hedges, (view_edges_lookup _ _ _ B), Hi. reflexivity.
        * unfold ends, side, next_corner in *. simpl in Es.
          destruct o, o'; injection Es as E1 E2; intuition congruence.
      + apply nth_error_ext. intros j.
        destruct (Nat.lt_ge_cases j (length ns)) as [Hj|Hj].
        2:{ rewrite (proj2 (nth_error_None ors j)) by lia.
            apply nth_error_None. rewrite L2, Hn. auto. }
        rewrite Hn in J. destruct (J j Hj) as (s & o & Hs & Hi & Ho & Es).
        destruct (wc_local _ _ WC j Hj) as (e & o' & p0 & p1 & He & Ho' & Hp & Ho'').
        simpl in He, Ho', Ho''. rewrite Ho, Ho'. f_equal.
        assert (s_index s = e) as Hse.
        { apply (wm_unique _ W) with (s_p0 s) (s_p1 s) p0 p1; auto.
        * rewrite <- Hedges, (view_edges_lookup _ _ _ B), Hi. reflexivity.
        * unfold ends, side, next_corner in *. simpl in Es.
          destruct o, o'; injection Es as E1 E2; intuition congruence. }
        subst e. pose proof (Hv _ _ Hp) as Hp'. rewrite (view_edges_lookup _ _ _ B), Hi in Hp'.
        simpl in Hp'. injection Hp' as E1 E2.
        destruct (wm_edges _ W _ _ _ Hp) as (Npp & _).
        unfold ends, side, next_corner in *. simpl in Es.
        destruct o, o'; auto; injection Es as E3 E4; intuition congruence.
    - destruct (cell_by_index M i) as [c'|] eqn:Hc'; auto. exfalso.
      apply nth_error_None in E. pose proof (numbering check _ M B) as (_ & _ & _ & _ & NN & _).
      rewrite NN in Hc'; [discriminate|]. rewrite NC, hist_cells, map_length. auto. }
  assert (mv_nodes (view M) = mv_nodes m) as Hn.
  { rewrite <- hist_points. destruct (view_counts _ _ _ B) as (-> & _). auto. }
  clear - Hn Hedges Hcells. destruct (view M), m; simpl in *; congruence.
Qed.
End Realize.

Theorem wellformed_iff_built : forall check v,
  (exists h M, built check h M /\ view M = v) <->
  (wf_mesh v /\ (check = true -> complete_mesh v)).
Proof.
  intros check v. split.
  - intros (h & M & B & <-). split; [eapply view_wf; eauto|].
    intros E. subst. eapply view_complete; eauto.
  - intros [W C]. destruct (realizable v W check C) as (M & B & E). eauto.
Qed.
