(** Proofs about mesh construction, concluded: the properties themselves. *)
From Coq Require Import List Arith Lia Bool Permutation Sorted.
Import ListNotations.
From Verif Require Import Base MeshModel MeshSpec MeshProofs MeshProofs2 MeshProofs3 MeshProofs4.

Section Described.
Variables (n : nat) (es : list ((nat * nat) * bool)) (cs : list (list nat * bool))
          (m : emap) (all : list cell) (M : mesh_obj).
Hypothesis D : described n es cs m all M.

Lemma seg_pos : forall p s, nth_error (m_segments M) p = Some s ->
  exists e i, nth_error m p = Some e /\ s = seg_of i e /\ s_index s < length m.
Proof.
  intros p s H. rewrite (de_segs _ _ _ _ _ _ D) in H.
  assert (p < length m) as B.
  { rewrite <- (segs_of_map_length m (length es)). apply nth_error_Some; congruence. }
  destruct (nth_error m p) as [e|] eqn:E.
  2:{ apply nth_error_None in E; lia. }
  destruct (segs_of_map_nth m (length es) p e E) as (i & Hi).
  exists e, i; split; auto. split; [congruence|].
  pose proof (segs_perm es cs m (de_inv _ _ _ _ _ _ D)) as P.
  assert (In (s_index s) (seq 0 (length m))) as Q.
  { apply (Permutation_in _ P), in_map. eapply nth_error_In; eauto. }
  apply in_seq in Q; lia.
Qed.

Lemma edge_of_segment : forall p s, nth_error (m_segments M) p = Some s ->
  edge_by_index M (s_index s) = Some s.
Proof.
  intros p s H. unfold edge_by_index.
  rewrite (de_ptr1 _ _ _ _ _ _ D _ _ H). auto.
Qed.

Lemma edge_index_total : forall i, i < length m -> exists p s,
  nth_error (m_segments M) p = Some s /\ s_index s = i.
Proof.
  intros i Hi.
  pose proof (segs_perm es cs m (de_inv _ _ _ _ _ _ D)) as P.
  assert (In i (map s_index (segs_of_map m (length es)))) as Q.
  { apply (Permutation_in _ (Permutation_sym P)), in_seq; lia. }
  rewrite <- (de_segs _ _ _ _ _ _ D) in Q.
  apply in_map_iff in Q as (s & Hs & Hin). apply In_nth_error in Hin as [p Hp]. eauto.
Qed.

Lemma edge_by_index_inv : forall i s, edge_by_index M i = Some s ->
  i < length m /\ s_index s = i /\ exists p, nth_error (m_segments M) p = Some s.
Proof.
  intros i s H. unfold edge_by_index in H.
  assert (i < length m) as B.
  { rewrite <- (de_ptr1l _ _ _ _ _ _ D). apply nth_error_Some.
    destruct (nth_error (m_ptr1 M) i); congruence. }
  split; auto.
  destruct (edge_index_total i B) as (p & s' & Hp & Hi).
  pose proof (de_ptr1 _ _ _ _ _ _ D _ _ Hp) as Q. rewrite Hi in Q. rewrite Q in H.
  rewrite Hp in H. injection H as <-. eauto.
Qed.

Lemma edge_by_index_entry : forall i s, edge_by_index M i = Some s ->
  exists e i', In e m /\ s = seg_of i' e /\ s_index s = i.
Proof.
  intros i s H. destruct (edge_by_index_inv i s H) as (B & I & p & Hp).
  destruct (seg_pos p s Hp) as (e & i' & He & -> & _).
  exists e, i'. split; auto. eapply nth_error_In; eauto.
Qed.

Lemma seg_index_inj : forall p q s s', nth_error (m_segments M) p = Some s ->
  nth_error (m_segments M) q = Some s' -> s_index s = s_index s' -> p = q.
Proof.
  intros p q s s' H H' E.
  pose proof (de_ptr1 _ _ _ _ _ _ D _ _ H). pose proof (de_ptr1 _ _ _ _ _ _ D _ _ H').
  congruence.
Qed.

Lemma edge_of_entry : forall e, In e m -> exists i s i', edge_by_index M i = Some s /\ s = seg_of i' e.
Proof.
  intros e He. apply In_nth_error in He as [p Hp].
  destruct (segs_of_map_nth m (length es) p e Hp) as (i' & Hi).
  rewrite <- (de_segs _ _ _ _ _ _ D) in Hi.
  exists (s_index (seg_of i' e)), (seg_of i' e), i'. split; auto.
  eapply edge_of_segment; eauto.
Qed.

Lemma entry_unique_index : forall i j s s', edge_by_index M i = Some s -> edge_by_index M j = Some s' ->
  norm (ends s) = norm (ends s') -> i = j.
Proof.
  intros i j s s' H H' N.
  destruct (edge_by_index_inv i s H) as (_ & I & p & Hp).
  destruct (edge_by_index_inv j s' H') as (_ & J & q & Hq).
  destruct (seg_pos p s Hp) as (e & a & He & Es & _).
  destruct (seg_pos q s' Hq) as (e' & b & He' & Es' & _).
  assert (e = e') as <-.
  { eapply sorted_unique.
    - apply (de_inv _ _ _ _ _ _ D).
    - eapply nth_error_In; eauto.
    - eapply nth_error_In; eauto.
    - rewrite <- !entry_ends_norm. subst s s'. rewrite !seg_of_ends in N. auto. }
  assert (p = q) as <-.
  { assert (NoDup m) as ND.
    { pose proof (iv_sorted _ _ (de_inv _ _ _ _ _ _ D)) as S. clear -S.
      induction m; [constructor|]. apply sorted_inv in S as [S L]. constructor; auto.
      intro C. apply L in C. rewrite key_lt_irrefl_norm in C; auto; discriminate. }
    eapply NoDup_nth_error; eauto. apply nth_error_Some; congruence. congruence. }
  congruence.
Qed.

Lemma num_cells : num_entities 0 M = length cs.
Proof.
  simpl. rewrite (de_trias _ _ _ _ _ _ D), (de_quads _ _ _ _ _ _ D), filter_length_split.
  destruct (de_cells _ _ _ _ _ _ D) as (eis & -> & _). apply cells_from_length.
Qed.

Lemma cell_by_index_inv : forall i c, cell_by_index M i = Some c ->
  i < length cs /\ nth_error all i = Some c.
Proof.
  intros i c H. unfold cell_by_index in H.
  assert (i < length cs) as B.
  { rewrite <- (de_ptr0l _ _ _ _ _ _ D). apply nth_error_Some.
    destruct (nth_error (m_ptr0 M) i); congruence. }
  split; auto. rewrite <- (de_ptr0 _ _ _ _ _ _ D) by auto. exact H.
Qed.

Lemma cell_by_index_data : forall i ns g, nth_error cs i = Some (ns, g) ->
  exists c, cell_by_index M i = Some c /\ c_index c = i /\ c_nodes c = ns /\ c_geo c = g /\
            c_type c = cell_type ns.
Proof.
  intros i ns g H.
  assert (i < length cs) as B by (apply nth_error_Some; congruence).
  rewrite (de_ptr0 _ _ _ _ _ _ D) by auto.
  destruct (de_cells _ _ _ _ _ _ D) as (eis & -> & _).
  rewrite cells_from_nth, H. simpl. eexists; split; [reflexivity|]. simpl. auto.
Qed.

Lemma cell_by_index_data_inv : forall i c, cell_by_index M i = Some c ->
  nth_error cs i = Some (c_nodes c, c_geo c) /\ c_index c = i /\ c_type c = cell_type (c_nodes c).
Proof.
  intros i c H. destruct (cell_by_index_inv i c H) as [B _].
  destruct (nth_error cs i) as [[ns g]|] eqn:E.
  2:{ apply nth_error_None in E; lia. }
  destruct (cell_by_index_data i ns g E) as (c' & Hc & I & N & G & T).
  rewrite H in Hc. injection Hc as <-. subst; auto.
Qed.
End Described.

Theorem index_contract : forall check h rets f M,
  run h (new_factory check) = Ok (rets, f) -> fst (build f) = Ok M ->
  length rets = length h /\
  (forall i c, nth_error h i = Some c ->
     nth_error rets i = Some (count_calls (same_kind c) (firstn i h))) /\
  num_entities 2 M = points_of h /\
  (forall k ns g, nth_error (segments_of h) k = Some (ns, g) ->
     exists s, edge_by_index M k = Some s /\ s_index s = k /\
               ns = [s_p0 s; s_p1 s] /\ s_geo s = EGiven k) /\
  num_entities 0 M = length (cells_of h) /\
  (forall k ns g, nth_error (cells_of h) k = Some (ns, g) ->
     exists c, cell_by_index M k = Some c /\ c_index c = k /\ c_nodes c = ns /\ c_geo c = g).
Proof.
  intros check h rets f M R B.
  destruct (outcome_cases check h) as [[_ C]|(L & rets' & f' & R' & Len & N & H)]; [congruence|].
  rewrite R in R'. injection R' as <- <-. rewrite B in H.
  destruct H as [[_ H]|[(_ & _ & H)|(Co & F & M' & m & all & [= <-] & D)]]; try discriminate.
  split; auto. split; auto. split; [apply (de_points _ _ _ _ _ _ D)|]. split; [|split].
  - intros k ns g Hk.
    destruct (legal_segs h L ns g) as (a & b & -> & _); [eapply nth_error_In; eauto|].
    apply conv_nth in Hk; auto.
    pose proof (de_inv _ _ _ _ _ _ D) as I.
    assert (In ((a, b), SGiven k) (all_regs (map conv (segments_of h)) (cells_of h))) as Rg
        by (apply all_regs_given; eauto).
    destruct (iv_all _ _ I _ Rg) as (key & d & Hkd & Nk). simpl in Nk.
    pose proof (iv_ok _ _ I _ _ Hkd) as O.
    assert ((a, b) = key) as <- by (eapply (eo_giv _ _ _ O); eauto).
    apply (eo_idx _ _ _ O) in Rg.
    destruct (edge_of_entry _ _ _ _ _ _ D _ Hkd) as (i & s & i' & Hs & ->).
    destruct (edge_by_index_inv _ _ _ _ _ _ D _ _ Hs) as (_ & Hi & _).
    unfold seg_of in Hi; simpl in Hi. rewrite Rg in Hi. subst i.
    eexists; split; [exact Hs|]. unfold seg_of; simpl. rewrite Rg.
    unfold entry_ends; simpl. rewrite (eo_grev _ _ _ O _ Rg). simpl.
    apply (eo_gidx _ _ _ O) in Rg. rewrite Rg. auto.
  - apply (num_cells _ _ _ _ _ _ D).
  - intros k ns g Hk.
    destruct (cell_by_index_data _ _ _ _ _ _ D k ns g Hk) as (c & ? & ? & ? & ? & _). eauto.
Qed.

Theorem one_edge_per_pair : forall check h M, built check h M ->
  (forall i j s s', edge_by_index M i = Some s -> edge_by_index M j = Some s' ->
     same_pair (ends s) (ends s') -> i = j) /\
  (forall p, (exists i s, edge_by_index M i = Some s /\ same_pair (ends s) p) <->
             (is_supplied h p \/ is_side h p)) /\
  (forall i s, edge_by_index M i = Some s ->
     s_p0 s <> s_p1 s /\ s_p0 s < num_entities 2 M /\ s_p1 s < num_entities 2 M).
Proof.
  intros check h M B. destruct (built_facts check h M B) as (L & Co & F & m & all & D).
  pose proof (de_inv _ _ _ _ _ _ D) as I.
  assert (X : forall p, (exists i s, edge_by_index M i = Some s /\ same_pair (ends s) p) <->
             (is_supplied h p \/ is_side h p)).
  { intros p. rewrite <- (map_keys h m L I). split.
    + intros (i & s & Hs & SP). destruct (edge_by_index_entry _ _ _ _ _ _ D _ _ Hs) as (e & i' & He & -> & _).
      exists e; split; auto. rewrite seg_of_ends in SP. apply norm_same in SP.
      rewrite entry_ends_norm in SP. auto.
    + intros (e & He & N). destruct (edge_of_entry _ _ _ _ _ _ D _ He) as (i & s & i' & Hs & ->).
      exists i; eexists; split; [exact Hs|]. rewrite seg_of_ends. apply norm_same.
      rewrite entry_ends_norm. auto. }
  split; [|split; auto].
  - intros i j s s' H H' SP. eapply (entry_unique_index _ _ _ _ _ _ D); eauto.
    apply norm_same; auto.
  - intros i s Hs. destruct (edge_by_index_entry _ _ _ _ _ _ D _ _ Hs) as ([k d] & i' & He & E & _).
    pose proof (iv_ok _ _ I _ _ He) as O. pose proof (eo_loop _ _ _ O) as Lp.
    assert (P : s_p0 s <> s_p1 s).
    { subst s. unfold seg_of, entry_ends; simpl. destruct (ed_rev d); simpl; auto. }
    split; auto.
    assert (is_supplied h (ends s) \/ is_side h (ends s)) as W.
    { apply X. exists i, s; split; auto. left; auto. }
    simpl. rewrite (de_points _ _ _ _ _ _ D).
    destruct W as [(a & b & g & Hin & SP)|(ns & g & j & Hin & Hj & SP)].
    + destruct (legal_segs h L _ _ Hin) as (x & y & [= <- <-] & Bx & By).
      unfold same_pair, ends in SP; simpl in SP. lia.
    + destruct (legal_cells h L _ _ Hin) as [Sh Fa]. rewrite Forall_forall in Fa.
      assert (fst (side ns j) < points_of h /\ snd (side ns j) < points_of h) as [? ?].
      { unfold side; simpl. split; apply Fa, nth_In; auto. apply Nat.mod_upper_bound; lia. }
      unfold same_pair, ends in SP; cbn [fst snd] in SP.
      destruct SP as [[? ?]|[? ?]]; split; congruence.
Qed.

Lemma norm_ori : forall s p, norm (ends s) = norm p -> fst p <> snd p ->
  if s_p0 s =? fst p then ends s = p else ends s = (snd p, fst p).
Proof.
  intros s [a b] N L. destruct (same_norm_cases _ _ N) as [E|E]; unfold ends in *; simpl in *.
  - injection E as -> ->. rewrite Nat.eqb_refl; auto.
  - injection E as -> ->. destruct (Nat.eqb_spec b a); congruence.
Qed.

Theorem incidence : forall check h M, built check h M ->
  forall i c, cell_by_index M i = Some c ->
    length (c_segs c) = length (c_nodes c) /\ length (c_ori c) = length (c_nodes c) /\
    forall j, j < length (c_nodes c) -> exists s o,
      cell_edge M c j = Some s /\ edge_by_index M (s_index s) = Some s /\
      nth_error (c_ori c) j = Some o /\
      (if o then ends s = side (c_nodes c) j
       else ends s = (snd (side (c_nodes c) j), fst (side (c_nodes c) j))).
Proof.
  intros check h M B i c Hc. destruct (built_facts check h M B) as (L & Co & F & m & all & D).
  destruct (cell_by_index_data_inv _ _ _ _ _ _ D i c Hc) as (Hcs & Hi & Ht).
  destruct (cell_by_index_inv _ _ _ _ _ _ D i c Hc) as (_ & Ha).
  destruct (de_cells _ _ _ _ _ _ D) as (eis & -> & EI).
  rewrite cells_from_nth, Hcs in Ha. simpl in Ha. injection Ha as Ha.
  destruct (legal_cells h L (c_nodes c) (c_geo c)) as [Sh _]; [eapply nth_error_In; eauto|].
  pose proof (num_nodes_shape (c_nodes c, c_geo c) Sh) as NN. simpl in NN.
  rewrite <- Ha. unfold cell_of. cbn [c_segs c_ori c_nodes fst].
  rewrite !map_length, seq_length. split; auto. split; auto.
  intros j Hj. destruct (EI i _ j Hcs) as (e & He & N & _); [simpl; lia|]. simpl in He.
  destruct (segs_of_map_nth m (length (map conv (segments_of h))) _ _ He) as (i' & Hs).
  rewrite <- (de_segs _ _ _ _ _ _ D) in Hs.
  set (s := seg_of i' e) in *.
  assert (nth_error (seq 0 (num_nodes (cell_type (c_nodes c)))) j = Some j) as SQ.
  { rewrite nth_error_nth' with (d := 0) by (rewrite seq_length; lia).
    rewrite seq_nth by lia. auto. }
  exists s, (edge_orientation (c_nodes c) (m_segments M) (nth i eis []) j).
  unfold cell_edge; cbn [c_segs].
  rewrite !nth_error_map, SQ; cbn [option_map]. split; [exact Hs|split; [|split; [reflexivity|]]].
  - eapply edge_of_segment; eauto.
  - unfold edge_orientation. rewrite Hs.
    assert (fst (side (c_nodes c) j) = nth j (c_nodes c) 0) as <- by reflexivity.
    change (fst (c_nodes c, c_geo c)) with (c_nodes c) in N.
    rewrite sub_vertex_side in N by auto.
    pose proof (norm_ori s (side (c_nodes c) j)) as Q.
    destruct (s_p0 s =? fst (side (c_nodes c) j)); apply Q;
      try (unfold s; rewrite seg_of_ends, entry_ends_norm; auto);
      destruct Co as (_ & _ & Co); eapply Co; eauto; eapply nth_error_In; eauto.
Qed.

Theorem edge_geometry : forall check h M, built check h M ->
  forall i s, edge_by_index M i = Some s ->
    match s_geo s with
    | EGiven k => k = i /\ nth_error (segments_of h) k = Some ([s_p0 s; s_p1 s], true)
    | ECell c j => exists ns, nth_error (cells_of h) c = Some (ns, true) /\
                     j < length ns /\ ends s = side ns j
    | EStraight a b => ends s = (a, b) /\ ~ is_supplied h (ends s) /\
        forall ns g j, In (ns, g) (cells_of h) -> j < length ns ->
          same_pair (ends s) (side ns j) -> g = false
    end.
Proof.
  intros check h M B i s Hs. destruct (built_facts check h M B) as (L & Co & F & m & all & D).
  pose proof (de_inv _ _ _ _ _ _ D) as I.
  destruct (edge_by_index_entry _ _ _ _ _ _ D _ _ Hs) as ([k d] & i' & He & -> & Hi).
  pose proof (iv_ok _ _ I _ _ He) as O.
  assert (NE : norm (ends (seg_of i' (k, d))) = norm k)
    by (rewrite seg_of_ends; apply (entry_ends_norm (k, d))).
  unfold seg_of at 1; cbn [s_geo snd].
  destruct (ed_geo d) as [[k0|c j|a b]|] eqn:G.
  - apply (eo_gidx _ _ _ O) in G.
    pose proof (eo_grev _ _ _ O _ G) as Rv.
    assert (k0 = i) as ->.
    { rewrite <- Hi. unfold seg_of; simpl. rewrite G; auto. }
    split; auto. apply (eo_idx _ _ _ O) in G. apply all_regs_given in G as (g & G).
    destruct k as [a b]. apply conv_nth in G; auto.
    unfold seg_of, entry_ends; simpl. rewrite Rv. simpl.
    destruct Co as (Cg & _). destruct (Cg a b g) as [-> _]; auto. eapply nth_error_In; eauto.
  - pose proof (eo_cell _ _ _ O _ _ G) as R.
    apply all_regs_cell in R as (ns & Hn & Hj & E).
    destruct (legal_cells h L ns true) as [Sh _]; [eapply nth_error_In; eauto|].
    pose proof (num_nodes_shape (ns, true) Sh) as NN. simpl in NN. rewrite NN in Hj.
    exists ns. split; auto. split; auto.
    rewrite seg_of_ends. unfold entry_ends; simpl. rewrite E. apply sub_vertex_side; auto.
  - exfalso. eapply (eo_str _ _ _ O); eauto.
  - destruct (eo_none _ _ _ O G) as [Rv Hg]. split; [|split].
    + unfold seg_of; simpl. rewrite G. unfold ends; auto.
    + intros (a & b & g & Hin & SP). apply norm_same in SP. rewrite NE in SP.
      apply conv_in in Hin; auto. apply In_nth_error in Hin as [x Hx].
      assert (In ((a, b), SGiven x) (all_regs (map conv (segments_of h)) (cells_of h))) as R
        by (apply all_regs_given; eauto).
      assert ((a, b) = k) as <- by (eapply (eo_giv _ _ _ O); eauto).
      apply (eo_idx _ _ _ O) in R. apply (eo_gidx _ _ _ O) in R. congruence.
    + intros ns g j Hin Hj SP. apply norm_same in SP. rewrite NE in SP.
      destruct (legal_cells h L _ _ Hin) as [Sh _].
      pose proof (num_nodes_shape (ns, g) Sh) as NN. simpl in NN.
      apply In_nth_error in Hin as [x Hx].
      eapply (Hg (side ns j) x j g); auto. apply all_regs_cell.
      exists ns. rewrite sub_vertex_side by auto. repeat split; auto; lia.
Qed.

Theorem build_outcome : forall check h,
  (legal h <-> exists rets f, run h (new_factory check) = Ok (rets, f)) /\
  (run h (new_factory check) <> Throw) /\
  (forall rets f, run h (new_factory check) = Ok (rets, f) ->
     ((exists M, fst (build f) = Ok M) <-> consistent h /\ (check = true -> complete h)) /\
     (fst (build f) = Throw <-> consistent h /\ check = true /\ ~ complete h)).
Proof.
  intros check h.
  destruct (outcome_cases check h) as [[N R]|(L & rets & f & R & _ & _ & H)].
  - rewrite R. split; [|split].
    + split; [tauto|]. intros (? & ? & ?); discriminate.
    + discriminate.
    + discriminate.
  - rewrite R. split; [|split].
    + split; eauto.
    + discriminate.
    + intros rets' f' [= <- <-].
      destruct H as [[NC H]|[(C & NF & H)|(C & F & M & m & all & H & _)]]; rewrite H.
      * split; split; try tauto; try discriminate. intros [? ?]; discriminate.
      * split; split; try tauto.
        -- intros [? ?]; discriminate.
        -- intros _. destruct check; [|exfalso; apply NF; discriminate].
           split; [exact C|split; [reflexivity|]]. intro X; apply NF; auto.
      * split; split; auto.
        -- intros; exists M; auto.
        -- discriminate.
        -- intros (_ & E & N). exfalso; auto.
Qed.

Lemma count_types : forall segs eis cs k, Forall good_shape cs ->
  length (filter is_tria (cells_from segs eis k cs)) = length (filter (fun x => length (fst x) =? 3) cs) /\
  length (filter (fun c => negb (is_tria c)) (cells_from segs eis k cs)) =
    length (filter (fun x => length (fst x) =? 4) cs).
Proof.
  intros segs eis cs; induction cs as [|[ns g] t IH]; intros k GS; simpl; auto.
  inversion GS as [|? ? G1 G2]; subst. destruct (IH (S k) G2) as [IH1 IH2].
  unfold is_tria at 1 3. unfold cell_of; cbn [c_type fst]. unfold cell_type.
  destruct G1 as [G|G]; simpl in G; rewrite G; simpl; rewrite ?IH1, ?IH2; auto.
Qed.

Theorem numbering : forall check h M, built check h M ->
  (* codim 0 *)
  num_entities 0 M = length (cells_of h) /\
  num_entities_of_type kTria M = length (filter (fun x => length (fst x) =? 3) (cells_of h)) /\
  num_entities_of_type kQuad M = length (filter (fun x => length (fst x) =? 4) (cells_of h)) /\
  (forall i, i < num_entities 0 M -> exists c, cell_by_index M i = Some c /\ c_index c = i) /\
  (forall i, num_entities 0 M <= i -> cell_by_index M i = None) /\
  (forall c, In c (m_trias M) -> cell_by_index M (c_index c) = Some c /\ c_type c = kTria) /\
  (forall c, In c (m_quads M) -> cell_by_index M (c_index c) = Some c /\ c_type c = kQuad) /\
  (* codim 1 *)
  (forall i, i < num_entities 1 M -> exists s, edge_by_index M i = Some s /\ s_index s = i) /\
  (forall i, num_entities 1 M <= i -> edge_by_index M i = None) /\
  (forall s, In s (m_segments M) -> edge_by_index M (s_index s) = Some s) /\
  (forall p q s s', nth_error (m_segments M) p = Some s -> nth_error (m_segments M) q = Some s' ->
     s_index s = s_index s' -> p = q) /\
  (* codim 2 *)
  num_entities 2 M = points_of h /\
  (forall i, i < num_entities 2 M -> node_by_index M i = Some i) /\
  (forall i, num_entities 2 M <= i -> node_by_index M i = None).
Proof.
  intros check h M B. destruct (built_facts check h M B) as (L & Co & F & m & all & D).
  pose proof (num_cells _ _ _ _ _ _ D) as NC.
  assert (N1 : num_entities 1 M = length m).
  { simpl. rewrite (de_segs _ _ _ _ _ _ D). apply segs_of_map_length. }
  assert (T12 : length (filter is_tria all) = length (filter (fun x => length (fst x) =? 3) (cells_of h)) /\
     length (filter (fun c => negb (is_tria c)) all) = length (filter (fun x => length (fst x) =? 4) (cells_of h))).
  { destruct (de_cells _ _ _ _ _ _ D) as (eis & -> & _).
    destruct (good_cells_of h L) as [_ GS]. apply count_types; auto. }
  destruct T12 as [T1 T2].
  assert (ALL : forall c, In c all -> cell_by_index M (c_index c) = Some c /\
             (c_type c = kTria \/ c_type c = kQuad)).
  { intros c Hc. apply In_nth_error in Hc as [p Hp].
    assert (p < length (cells_of h)) as Bp.
    { rewrite <- NC. simpl. rewrite (de_trias _ _ _ _ _ _ D), (de_quads _ _ _ _ _ _ D), filter_length_split.
      apply nth_error_Some; congruence. }
    assert (cell_by_index M p = Some c) as Q by (rewrite (de_ptr0 _ _ _ _ _ _ D); auto).
    destruct (cell_by_index_data_inv _ _ _ _ _ _ D p c Q) as (_ & -> & T). split; auto.
    rewrite T. unfold cell_type. destruct (_ =? _); auto. }
  split; [exact NC|]. split; [simpl; rewrite (de_trias _ _ _ _ _ _ D); exact T1|].
  split; [simpl; rewrite (de_quads _ _ _ _ _ _ D); exact T2|].
  split; [|split; [|split; [|split; [|split; [|split; [|split; [|split; [|split; [|split]]]]]]]]].
  - intros i Hi. rewrite NC in Hi.
    destruct (nth_error (cells_of h) i) as [[ns g]|] eqn:E.
    2:{ apply nth_error_None in E; lia. }
    destruct (cell_by_index_data _ _ _ _ _ _ D i ns g E) as (c & ? & ? & _). eauto.
  - intros i Hi. destruct (cell_by_index M i) eqn:E; auto.
    apply (cell_by_index_inv _ _ _ _ _ _ D) in E as [E _]. lia.
  - intros c Hc. rewrite (de_trias _ _ _ _ _ _ D) in Hc. apply filter_In in Hc as [Hc T].
    destruct (ALL c Hc) as [? [?|?]]; split; auto. unfold is_tria in T. rewrite H0 in T; discriminate.
  - intros c Hc. rewrite (de_quads _ _ _ _ _ _ D) in Hc. apply filter_In in Hc as [Hc T].
    destruct (ALL c Hc) as [? [?|?]]; split; auto. unfold is_tria in T. rewrite H0 in T; discriminate.
  - intros i Hi. rewrite N1 in Hi.
    destruct (edge_index_total _ _ _ _ _ _ D i Hi) as (p & s & Hp & <-).
    exists s; split; auto. eapply edge_of_segment; eauto.
  - intros i Hi. destruct (edge_by_index M i) eqn:E; auto.
    apply (edge_by_index_inv _ _ _ _ _ _ D) in E as [E _]. lia.
  - intros s Hs. apply In_nth_error in Hs as [p Hp]. eapply edge_of_segment; eauto.
  - eapply seg_index_inj; eauto.
  - apply (de_points _ _ _ _ _ _ D).
  - intros i Hi. simpl in Hi. rewrite (de_points _ _ _ _ _ _ D) in Hi.
    unfold node_by_index. rewrite (de_ptr2 _ _ _ _ _ _ D) by auto.
    rewrite (de_points _ _ _ _ _ _ D). apply Nat.ltb_lt in Hi; rewrite Hi; auto.
  - intros i Hi. simpl in Hi. unfold node_by_index.
    assert (nth_error (m_ptr2 M) i = None) as ->; auto.
    apply nth_error_None. rewrite (de_ptr2l _ _ _ _ _ _ D). rewrite (de_points _ _ _ _ _ _ D) in Hi. auto.
Qed.

Theorem factory_reusable : forall check hs,
  (forall h, In h hs -> legal h) ->
  session hs (new_factory check) = map (alone check) hs.
Proof.
  intros check hs; induction hs as [|h r IH]; intros H; auto.
  cbn [session map]. unfold alone at 1.
  destruct (build_outcome check h) as [B1 _].
  destruct B1 as [B1 _]. destruct B1 as (rets & f & R); [apply H; simpl; auto|].
  rewrite R. f_equal.
  assert (f_check f = check) as Fc.
  { destruct (run_spec h (new_factory check)) as [RL _]. simpl in RL.
    destruct RL as (rets' & R' & _). { apply legal_from_0, H; simpl; auto. }
    rewrite R' in R. injection R as <- <-. auto. }
  simpl. rewrite Fc. apply IH. intros; apply H; simpl; auto.
Qed.
