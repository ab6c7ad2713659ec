(** Proofs about mesh construction, continued: histories and the properties. *)
From Coq Require Import List Arith Lia Bool Permutation Sorted.
Import ListNotations.
From Verif Require Import Base MeshModel MeshSpec MeshProofs MeshProofs2 MeshProofs3.

(** * The constructor as a whole *)
Definition sane n es cs :=
  Forall (good_edge n) es /\ NoDup (map (fun e => norm (fst e)) es) /\ Forall (good_cell n) cs.

Definition fine (check : bool) n (m : emap) : Prop :=
  check = true -> (forall e, In e m -> ed_adj (snd e) <> []) /\ (forall v, v < n -> covered m v).

Lemma covered_dec : forall m v, covered m v \/ ~ covered m v.
Proof.
  intros m v. unfold covered.
  induction m as [|e t IH]; [right; intros (e & [] & _)|].
  destruct IH as [(x & Hx & Hv)|N].
  - left; exists x; simpl; auto.
  - destruct (Nat.eq_dec (fst (entry_ends e)) v); [left; exists e; simpl; auto|].
    destruct (Nat.eq_dec (snd (entry_ends e)) v); [left; exists e; simpl; auto|].
    right. intros (x & [<-|Hx] & Hv); [tauto|]. apply N; eauto.
Qed.

Lemma fine_dec : forall check n m, fine check n m \/
  (check = true /\ ((exists e, In e m /\ ed_adj (snd e) = []) \/ (exists v, v < n /\ ~ covered m v))).
Proof.
  intros [] n m; [|left; intros C; discriminate].
  assert (D1 : (forall e, In e m -> ed_adj (snd e) <> []) \/ (exists e, In e m /\ ed_adj (snd e) = [])).
  { induction m as [|e t IH]; [left; simpl; tauto|].
    destruct IH as [H|(x & Hx & Ha)]; [|right; exists x; simpl; auto].
    destruct (ed_adj (snd e)) eqn:E; [right; exists e; simpl; auto|].
    left. intros x [<-|Hx]; auto. congruence. }
  assert (D2 : forall k, (forall v, v < k -> covered m v) \/ (exists v, v < k /\ ~ covered m v)).
  { induction k; [left; lia|]. destruct IHk as [H|(v & Hv & N)].
    - destruct (covered_dec m k); [left|right; exists k; auto].
      intros v Hv. destruct (Nat.eq_dec v k); subst; auto. apply H; lia.
    - right; exists v; split; auto. }
  destruct D1 as [H1|H1]; [|right; auto].
  destruct (D2 n) as [H2|H2]; [|right; auto].
  left. intros _. auto.
Qed.

Lemma ctor_spec : forall check n es cs,
  Forall (fun x => Forall (fun v => v < n) (fst x)) cs -> Forall good_shape cs ->
  (~ sane n es cs /\ mesh_ctor check n es cs = Assert) \/
  (sane n es cs /\ exists m, inv (all_regs es cs) m /\
     ((~ fine check n m /\ mesh_ctor check n es cs = Throw) \/
      (fine check n m /\ exists M all, mesh_ctor check n es cs = Ok M /\ described n es cs m all M))).
Proof.
  intros check n es cs V GS.
  destruct (reg_edges_spec n es 0 [] [] inv_nil) as (T1 & S1 & C1); [simpl; tauto|].
  unfold mesh_ctor.
  destruct (reg_edges n es 0 []) as [[idx m1]| |] eqn:E1.
  - destruct (S1 _ eq_refl) as (Hi & I1 & G & D & _). simpl in Hi, I1. subst idx.
    cbn [bind].
    destruct (reg_cells_spec n cs 0 _ _ I1 V) as (T2 & S2 & C2).
    destruct (reg_cells n cs 0 m1) as [m| |] eqn:E2.
    + destruct (S2 _ eq_refl) as [I2 GC]. cbn [bind].
      destruct (ctor_tail check n es cs m I2 GC GS G) as [TT TO].
      right. split; [repeat split; auto|]. exists m; split; auto.
      destruct (fine_dec check n m) as [F|[-> F]].
      * right; split; auto.
      * left; split; auto. intros C. destruct (C eq_refl) as [CA CB].
        destruct F as [(e & He & Ha)|(v & Hv & Hc)]; [apply (CA e); auto|].
        apply Hc; auto.
    + congruence.
    + cbn [bind]. left; split; auto. intros (_ & _ & GC).
      destruct (C2 GC) as [m' H]; discriminate.
  - congruence.
  - cbn [bind]. left; split; auto. intros (G & D & GC).
    destruct C1 as [r H]; auto. discriminate.
Qed.

(** * Histories *)
Definition conv (x : list nat * bool) : (nat * nat) * bool :=
  ((nth 0 (fst x) 0, nth 1 (fst x) 0), snd x).

Definition base_count (c : call) (f : factory) : nat :=
  if is_point_call c then f_nodes f
  else if is_segment_call c then length (f_edges f) else length (f_cells f).

Definition after (c : call) (f : factory) : factory :=
  mkFactory (f_check f)
    (f_nodes f + (if is_point_call c then 1 else 0))
    (f_edges f ++ (if is_segment_call c then [conv (entity_data c)] else []))
    (f_cells f ++ (if is_cell_call c then [entity_data c] else [])).

Lemma list2 : forall A (l : list A), length l = 2 -> exists a b, l = [a; b].
Proof. intros A [|a [|b [|]]] H; try discriminate; eauto. Qed.

Lemma issue_legal : forall c f, legal_call (f_nodes f) c ->
  issue c f = Ok (base_count c f, after c f).
Proof.
  intros [g|t ns g] f H; simpl in H.
  - subst. unfold issue, add_point, after; simpl.
    rewrite !app_nil_r, Nat.add_1_r. reflexivity.
  - destruct H as (Ht & Hl & Hf).
    assert (forallb (fun n => n <? f_nodes f) ns = true) as F.
    { apply forallb_forall. rewrite Forall_forall in Hf. intros; apply Nat.ltb_lt; auto. }
    unfold issue, add_entity. rewrite F, Hl, Nat.eqb_refl.
    destruct t; simpl in *; [congruence| | |].
    + destruct (list2 _ _ Hl) as (a & b & ->). unfold after; simpl.
      rewrite app_nil_r, Nat.add_0_r. reflexivity.
    + unfold after; simpl. rewrite app_nil_r, Nat.add_0_r. reflexivity.
    + unfold after; simpl. rewrite app_nil_r, Nat.add_0_r. reflexivity.
Qed.

Lemma issue_illegal : forall c f, ~ legal_call (f_nodes f) c -> issue c f = Assert.
Proof.
  intros [g|t ns g] f H; simpl in H.
  - destruct g; [tauto|reflexivity].
  - unfold issue, add_entity.
    destruct (forallb (fun n => n <? f_nodes f) ns) eqn:F.
    2:{ destruct t; reflexivity. }
    destruct (Nat.eqb_spec (length ns) (num_nodes t)) as [E|E].
    2:{ destruct t; reflexivity. }
    destruct t; try reflexivity; exfalso; apply H; (split; [discriminate|split; [exact E|]]);
    apply Forall_forall; rewrite forallb_forall in F;
      intros x Hx; apply Nat.ltb_lt; auto.
Qed.

Lemma legal_call_dec : forall np c, legal_call np c \/ ~ legal_call np c.
Proof.
  intros np [g|t ns g]; simpl.
  - destruct g; auto.
  - destruct (Forall_dec (fun n => n < np) (fun n => lt_dec n np) ns) as [F|F]; [|tauto].
    destruct (Nat.eq_dec (length ns) (num_nodes t)); [|tauto].
    destruct t; [right; tauto| | |]; left; repeat split; auto; discriminate.
Qed.

Definition legal_from (np : nat) (h : list call) : Prop :=
  forall i c, nth_error h i = Some c -> legal_call (np + points_of (firstn i h)) c.

Lemma legal_from_cons : forall np c h,
  legal_from np (c :: h) <-> legal_call np c /\ legal_from (np + if is_point_call c then 1 else 0) h.
Proof.
  intros np c h. unfold legal_from, points_of, count_calls. split.
  - intros H. split.
    + specialize (H 0 c eq_refl). simpl in H. rewrite Nat.add_0_r in H; auto.
    + intros i x Hx. specialize (H (S i) x Hx). simpl in H.
      destruct (is_point_call c); simpl in H; [|rewrite Nat.add_0_r; auto].
      rewrite <- plus_n_Sm in H. rewrite Nat.add_1_r. auto.
  - intros [H1 H2] [|i] x Hx; simpl in *.
    + injection Hx as <-. rewrite Nat.add_0_r; auto.
    + specialize (H2 i x Hx). destruct (is_point_call c); simpl in *.
      * rewrite <- plus_n_Sm. rewrite Nat.add_1_r in H2. auto.
      * rewrite Nat.add_0_r in H2; auto.
Qed.

Lemma run_spec : forall h f,
  (legal_from (f_nodes f) h ->
   exists rets, run h f = Ok (rets, mkFactory (f_check f) (f_nodes f + points_of h)
       (f_edges f ++ map conv (segments_of h)) (f_cells f ++ cells_of h)) /\
     length rets = length h /\
     forall i c, nth_error h i = Some c ->
       nth_error rets i = Some (base_count c f + count_calls (same_kind c) (firstn i h))) /\
  (~ legal_from (f_nodes f) h -> run h f = Assert).
Proof.
  induction h as [|c h IH]; intros f.
  - split.
    + intros _. exists []. simpl. rewrite Nat.add_0_r, !app_nil_r.
      split; [destruct f; auto|split; auto]. intros [|i] c H; discriminate.
    + intros N. exfalso; apply N. intros [|i] c H; discriminate.
  - rewrite legal_from_cons. cbn [run].
    destruct (legal_call_dec (f_nodes f) c) as [L|L].
    + rewrite (issue_legal _ _ L). cbn [bind fst snd].
      destruct (IH (after c f)) as [I1 I2]. split.
      * intros [_ LF]. destruct (I1 LF) as (rets & E & Len & R). rewrite E.
        cbn [bind fst snd]. exists (base_count c f :: rets).
        split; [|split; [simpl; auto|]].
        -- f_equal. f_equal. unfold points_of, segments_of, cells_of, count_calls; simpl.
           f_equal.
           ++ destruct (is_point_call c); simpl; lia.
           ++ rewrite <- app_assoc. f_equal. destruct (is_segment_call c); simpl; auto.
           ++ rewrite <- app_assoc. f_equal. destruct (is_cell_call c); simpl; auto.
        -- intros [|i] x Hx; cbn [nth_error firstn] in *.
           ++ injection Hx as ->. unfold count_calls; simpl. rewrite Nat.add_0_r; auto.
           ++ rewrite (R i x Hx). f_equal. unfold count_calls; cbn [filter].
              assert (base_count x (after c f) = base_count x f + if same_kind x c then 1 else 0) as ->.
              { unfold base_count, same_kind, after; simpl.
                assert (legal_call (f_nodes (after c f) + points_of (firstn i h)) x) as LX
                    by (apply LF; auto).
                destruct x as [gx|tx nx gx], c as [gc|tc nc gc]; simpl in *; auto; try lia.
                - destruct tx; simpl; rewrite ?app_length; simpl; lia.
                - destruct LX as [LX _], L as [L _].
                  destruct tx, tc; simpl; rewrite ?app_length; simpl; try lia; congruence. }
              destruct (same_kind x c); simpl; lia.
      * intros N. rewrite I2; auto.
    + rewrite (issue_illegal _ _ L). cbn [bind]. split; [tauto|auto].
Qed.

Lemma legal_from_0 : forall h, legal_from 0 h <-> legal h.
Proof. intros; unfold legal_from, legal; simpl; tauto. Qed.

Lemma legal_dec : forall np h, legal_from np h \/ ~ legal_from np h.
Proof.
  intros np h; revert np; induction h as [|c h IH]; intros np.
  - left. intros [|i] c H; discriminate.
  - rewrite legal_from_cons. destruct (legal_call_dec np c); [|tauto].
    destruct (IH (np + if is_point_call c then 1 else 0)); tauto.
Qed.

(** Facts about the data of a legal history. *)
Lemma firstn_points_le : forall h i, points_of (firstn i h) <= points_of h.
Proof.
  intros h i. unfold points_of, count_calls. rewrite <- (firstn_skipn i h) at 2.
  rewrite filter_app, app_length. lia.
Qed.

Lemma legal_cells : forall h, legal h -> forall ns g, In (ns, g) (cells_of h) ->
  (length ns = 3 \/ length ns = 4) /\ Forall (fun v => v < points_of h) ns.
Proof.
  intros h L ns g H. unfold cells_of in H. apply in_map_iff in H as (c & E & Hc).
  apply filter_In in Hc as [Hc Ic]. apply In_nth_error in Hc as [i Hi].
  specialize (L i c Hi). pose proof (firstn_points_le h i) as B.
  destruct c as [|t ns' g']; [discriminate|]. simpl in E. injection E as -> ->.
  simpl in L. destruct L as (_ & Len & F). split.
  - destruct t; simpl in *; auto; discriminate.
  - eapply Forall_impl; [|exact F]. simpl; intros; lia.
Qed.

Lemma legal_segs : forall h, legal h -> forall ns g, In (ns, g) (segments_of h) ->
  exists a b, ns = [a; b] /\ a < points_of h /\ b < points_of h.
Proof.
  intros h L ns g H. unfold segments_of in H. apply in_map_iff in H as (c & E & Hc).
  apply filter_In in Hc as [Hc Ic]. apply In_nth_error in Hc as [i Hi].
  specialize (L i c Hi). pose proof (firstn_points_le h i) as B.
  destruct c as [|t ns' g']; [discriminate|]. simpl in E. injection E as -> ->.
  simpl in L. destruct L as (_ & Len & F).
  destruct t; try discriminate. simpl in Len. apply list2 in Len as (a & b & ->).
  exists a, b. inversion F as [|? ? F1 F2]; subst. inversion F2; subst.
  repeat split; auto; lia.
Qed.

Lemma good_cells_of : forall h, legal h ->
  Forall (fun x => Forall (fun v => v < points_of h) (fst x)) (cells_of h) /\
  Forall good_shape (cells_of h).
Proof.
  intros h L; split; apply Forall_forall; intros [ns g] Hx; apply (legal_cells h L) in Hx;
    destruct Hx; auto.
Qed.

Lemma conv_nth : forall h k a b g, legal h ->
  nth_error (map conv (segments_of h)) k = Some ((a, b), g) <->
  nth_error (segments_of h) k = Some ([a; b], g).
Proof.
  intros h k a b g L. rewrite nth_error_map. split.
  - destruct (nth_error (segments_of h) k) as [[ns g']|] eqn:E; simpl; [|discriminate].
    destruct (legal_segs h L ns g') as (x & y & -> & _); [eapply nth_error_In; eauto|].
    unfold conv; simpl. congruence.
  - intros ->; reflexivity.
Qed.

Lemma conv_in : forall h a b g, legal h ->
  In ((a, b), g) (map conv (segments_of h)) <-> In ([a; b], g) (segments_of h).
Proof.
  intros h a b g L. split; intros H.
  - apply In_nth_error in H as [k H]. apply conv_nth in H; auto. eapply nth_error_In; eauto.
  - apply In_nth_error in H as [k H]. apply conv_nth in H; auto. eapply nth_error_In; eauto.
Qed.

Lemma sane_consistent : forall h, legal h ->
  (sane (points_of h) (map conv (segments_of h)) (cells_of h) <-> consistent h).
Proof.
  intros h L. unfold sane, consistent. split.
  - intros (G & D & C). split; [|split].
    + intros a b g H. apply conv_in in H; auto. rewrite Forall_forall in G.
      apply G in H. destruct H as (? & ? & _); auto.
    + intros k l a b g a' b' g' Hk Hl S.
      apply conv_nth in Hk; auto. apply conv_nth in Hl; auto.
      apply (NoDup_nth_error (map (fun e => norm (fst e)) (map conv (segments_of h)))); auto.
      * rewrite map_length. apply nth_error_Some; congruence.
      * rewrite (map_nth_error _ k _ Hk), (map_nth_error _ l _ Hl). simpl. f_equal.
        apply norm_same; auto.
    + intros ns g j H Hj. rewrite Forall_forall in C. pose proof (C _ H) as [_ X].
      destruct (legal_cells h L _ _ H) as [Sh _].
      rewrite <- sub_vertex_side by auto. apply X.
      rewrite num_nodes_shape; auto.
  - intros (G & D & C). split; [|split].
    + apply Forall_forall. intros [[a b] g] H. apply conv_in in H; auto.
      destruct (G _ _ _ H). destruct (legal_segs h L _ _ H) as (x & y & [= <- <-] & ? & ?).
      unfold good_edge; simpl; auto.
    + rewrite NoDup_nth_error. intros k l Hk E. rewrite !map_length in Hk.
      destruct (nth_error (segments_of h) k) as [[ns g]|] eqn:Ek.
      2:{ apply nth_error_None in Ek; lia. }
      destruct (legal_segs h L ns g) as (a & b & -> & _); [eapply nth_error_In; eauto|].
      rewrite !nth_error_map, Ek in E. simpl in E.
      destruct (nth_error (segments_of h) l) as [[ns' g']|] eqn:El; [|discriminate].
      destruct (legal_segs h L ns' g') as (a' & b' & -> & _); [eapply nth_error_In; eauto|].
      simpl in E. injection E as E1 E2.
      eapply D; eauto. apply norm_same. unfold norm. f_equal; auto.
    + apply Forall_forall. intros [ns g] H.
      destruct (legal_cells h L _ _ H) as [Sh V]. split; auto.
      intros j Hj. change (fst (ns, g)) with ns in *. pose proof (num_nodes_shape (ns, g) Sh) as NN. simpl in NN.
      rewrite NN in Hj. rewrite (sub_vertex_side ns j) by auto. eapply C; eauto.
Qed.

(** Entries of the final map are the supplied segments and the sides. *)
Lemma map_keys : forall h m, legal h -> inv (all_regs (map conv (segments_of h)) (cells_of h)) m ->
  forall p, (exists e, In e m /\ norm (fst e) = norm p) <-> (is_supplied h p \/ is_side h p).
Proof.
  intros h m L I p. split.
  - intros ([k d] & He & N). simpl in N.
    destruct (eo_src _ _ _ (iv_ok _ _ I _ _ He)) as (s & q & Hq & Nq).
    assert (same_pair p q) as SP by (apply norm_same; congruence).
    destruct s.
    + left. apply all_regs_given in Hq as (g & Hq). destruct q as [a b].
      apply conv_nth in Hq; auto. exists a, b, g; split; auto. eapply nth_error_In; eauto.
    + right. apply all_regs_cell in Hq as (ns & Hn & Hj & ->).
      apply nth_error_In in Hn. destruct (legal_cells h L _ _ Hn) as [Sh _].
      pose proof (num_nodes_shape (ns, geo) Sh) as NN. simpl in NN. rewrite NN in Hj.
      rewrite sub_vertex_side in SP by auto. exists ns, geo, j; auto.
  - intros [(a & b & g & H & S)|(ns & g & j & H & Hj & S)].
    + apply conv_in in H; auto. apply In_nth_error in H as [i H].
      assert (In ((a, b), SGiven i) (all_regs (map conv (segments_of h)) (cells_of h))) as R
          by (apply all_regs_given; eauto).
      destruct (iv_all _ _ I _ R) as (k & d & Hk & N). exists (k, d); split; auto.
      simpl in *. apply norm_same in S. congruence.
    + destruct (legal_cells h L _ _ H) as [Sh _].
      pose proof (num_nodes_shape (ns, g) Sh) as NN. simpl in NN.
      apply In_nth_error in H as [i H].
      assert (In (loc_pair (cell_type ns) ns j, SCell i j g)
                 (all_regs (map conv (segments_of h)) (cells_of h))) as R.
      { apply all_regs_cell. exists ns; split; auto. split; auto. lia. }
      destruct (iv_all _ _ I _ R) as (k & d & Hk & N). exists (k, d); split; auto.
      simpl in *. rewrite sub_vertex_side in N by auto. apply norm_same in S. congruence.
Qed.

Lemma adj_nonempty : forall h m, legal h -> inv (all_regs (map conv (segments_of h)) (cells_of h)) m ->
  forall k d, In (k, d) m -> (ed_adj d <> [] <-> is_side h k).
Proof.
  intros h m L I k d He. pose proof (iv_ok _ _ I _ _ He) as O. rewrite (eo_adj _ _ _ O). split.
  - intros N. destruct (flat_map _ _) as [|[c j] r] eqn:E; [tauto|].
    assert (In (c, j) (flat_map (adj_of k) (all_regs (map conv (segments_of h)) (cells_of h)))) as Hin
        by (rewrite E; simpl; auto).
    apply in_flat_map in Hin as ([p s] & Hr & Hcj). unfold adj_of in Hcj; simpl in Hcj.
    destruct s; [destruct Hcj|]. destruct norm_dec as [Np|]; [|destruct Hcj].
    destruct Hcj as [[= <- <-]|[]].
    apply all_regs_cell in Hr as (ns & Hn & Hj & ->). apply nth_error_In in Hn.
    destruct (legal_cells h L _ _ Hn) as [Sh _].
    pose proof (num_nodes_shape (ns, geo) Sh) as NN. simpl in NN. rewrite NN in Hj.
    rewrite sub_vertex_side in Np by auto.
    exists ns, geo, j0. repeat split; auto. apply norm_same; auto.
  - intros (ns & g & j & H & Hj & S). destruct (legal_cells h L _ _ H) as [Sh _].
    pose proof (num_nodes_shape (ns, g) Sh) as NN. simpl in NN.
    apply In_nth_error in H as [i H].
    assert (In (loc_pair (cell_type ns) ns j, SCell i j g)
               (all_regs (map conv (segments_of h)) (cells_of h))) as R.
    { apply all_regs_cell. exists ns; split; auto. split; auto. lia. }
    intro C. assert (In (i, j) []) as []. rewrite <- C. apply in_flat_map.
    eexists; split; [exact R|]. unfold adj_of; simpl.
    destruct norm_dec as [|Nn]; simpl; auto. apply Nn.
    rewrite sub_vertex_side by auto. apply norm_same in S; auto.
Qed.

Lemma fine_complete : forall h m check, legal h ->
  inv (all_regs (map conv (segments_of h)) (cells_of h)) m ->
  (fine check (points_of h) m <-> (check = true -> complete h)).
Proof.
  intros h m check L I. unfold fine, complete. split.
  - intros H ->. destruct (H eq_refl) as [H1 H2]. split.
    + intros a b g Hs. apply conv_in in Hs; auto. apply In_nth_error in Hs as [i Hi].
      assert (In ((a, b), SGiven i) (all_regs (map conv (segments_of h)) (cells_of h))) as R
          by (apply all_regs_given; eauto).
      destruct (iv_all _ _ I _ R) as (k & d & Hk & N). simpl in N.
      assert ((a, b) = k) as <- by (eapply (eo_giv _ _ _ (iv_ok _ _ I _ _ Hk)); eauto).
      eapply adj_nonempty; eauto. apply (H1 _ Hk).
    + intros v Hv. destruct (H2 v Hv) as (e & He & Hv').
      destruct Hv' as [Hv'|Hv'].
      * exists (entry_ends e). split; auto. apply (map_keys h m L I).
        exists e; split; auto. symmetry; apply entry_ends_norm.
      * exists (snd (entry_ends e), fst (entry_ends e)). split; auto.
        apply (map_keys h m L I). exists e; split; auto.
        rewrite <- entry_ends_norm. apply norm_same. right; auto.
  - intros H ->. destruct (H eq_refl) as [H1 H2]. split.
    + intros [k d] He. simpl. eapply adj_nonempty; eauto.
      assert (exists e, In e m /\ norm (fst e) = norm k) as K by (exists (k, d); auto).
      apply (map_keys h m L I) in K. destruct K as [(a & b & g & Hs & SP)|K]; auto.
      destruct (H1 _ _ _ Hs) as (ns & g' & j & Hc & Hj & S').
      exists ns, g', j; repeat split; auto. apply norm_same. apply norm_same in SP, S'. congruence.
    + intros v Hv. destruct (H2 v Hv) as (p & Hp & <-).
      apply (map_keys h m L I) in Hp. destruct Hp as (e & He & N).
      exists e; split; auto. rewrite <- entry_ends_norm in N. apply norm_same in N.
      destruct N as [[-> _]|[_ ->]]; auto.
Qed.

(** The outcome of running a history and building the mesh. *)
Lemma outcome_cases : forall check h,
  (~ legal h /\ run h (new_factory check) = Assert) \/
  (legal h /\ exists rets f, run h (new_factory check) = Ok (rets, f) /\
     length rets = length h /\
     (forall i c, nth_error h i = Some c ->
        nth_error rets i = Some (count_calls (same_kind c) (firstn i h))) /\
     ((~ consistent h /\ fst (build f) = Assert) \/
      (consistent h /\ ~ (check = true -> complete h) /\ fst (build f) = Throw) \/
      (consistent h /\ (check = true -> complete h) /\ exists M m all,
         fst (build f) = Ok M /\
         described (points_of h) (map conv (segments_of h)) (cells_of h) m all M))).
Proof.
  intros check h.
  destruct (run_spec h (new_factory check)) as [RL RI]. simpl in RL, RI.
  destruct (legal_dec 0 h) as [L|L].
  2:{ left; split; auto. }
  right. destruct (RL L) as (rets & R & Len & N). apply legal_from_0 in L. split; auto.
  eexists; eexists; split; [exact R|]. split; auto. split.
  { intros i c Hc. rewrite (N i c Hc). unfold base_count; simpl.
    destruct (is_point_call c), (is_segment_call c); auto. }
  simpl. destruct (good_cells_of h L) as [V GS].
  destruct (ctor_spec check (points_of h) (map conv (segments_of h)) (cells_of h) V GS)
    as [[S E]|(S & m & I & [[F E]|(F & M & all & E & D)])];
    rewrite sane_consistent in S by auto.
  - left; auto.
  - right; left. rewrite (fine_complete h m check L I) in F. auto.
  - right; right. rewrite (fine_complete h m check L I) in F. split; auto. split; auto.
    exists M, m, all; auto.
Qed.

Lemma built_facts : forall check h M, built check h M ->
  legal h /\ consistent h /\ (check = true -> complete h) /\
  exists m all, described (points_of h) (map conv (segments_of h)) (cells_of h) m all M.
Proof.
  intros check h M (rets & f & R & B).
  destruct (outcome_cases check h) as [[_ C]|(L & rets' & f' & R' & _ & _ & H)]; [congruence|].
  rewrite R in R'. injection R' as <- <-. rewrite B in H.
  destruct H as [[_ H]|[(_ & _ & H)|(C & F & M' & m & all & [= <-] & D)]]; try discriminate.
  split; [auto|split; [auto|split; [auto|eauto]]].
Qed.
