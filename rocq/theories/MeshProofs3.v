(** Proofs about mesh construction, continued: the whole constructor. *)
From Coq Require Import List Arith Lia Bool Permutation Sorted.
Import ListNotations.
From Verif Require Import Base MeshModel MeshSpec MeshProofs MeshProofs2.

Lemma cells_from_index : forall segs eis cs idx,
  map c_index (cells_from segs eis idx cs) = seq idx (length cs).
Proof. induction cs; simpl; intros; f_equal; auto. Qed.

Lemma cells_from_length : forall segs eis cs idx,
  length (cells_from segs eis idx cs) = length cs.
Proof. induction cs; simpl; intros; f_equal; auto. Qed.

Lemma NoDup_map_filter : forall A B (f : A -> B) p l,
  NoDup (map f l) -> NoDup (map f (filter p l)).
Proof.
  induction l; simpl; intros H; auto. inversion H; subst.
  destruct (p a); simpl; auto. constructor; auto.
  intro C. apply H2. apply in_map_iff in C as (x & <- & Hx).
  apply filter_In in Hx as [Hx _]. apply in_map; auto.
Qed.

Lemma filter_length_split : forall A (p : A -> bool) l,
  length (filter p l) + length (filter (fun x => negb (p x)) l) = length l.
Proof. induction l; simpl; auto. destruct (p a); simpl; lia. Qed.

(** Description of a finished mesh object. *)
Record described (n : nat) (es : list ((nat * nat) * bool)) (cs : list (list nat * bool))
       (m : emap) (all : list cell) (M : mesh_obj) : Prop := {
  de_inv : inv (all_regs es cs) m;
  de_points : m_points M = n;
  de_segs : m_segments M = segs_of_map m (length es);
  de_cells : exists eis, all = cells_from (m_segments M) eis 0 cs /\
     forall i x j, nth_error cs i = Some x -> j < num_nodes (cell_type (fst x)) ->
       exists e, nth_error m (nth j (nth i eis []) 0) = Some e /\
                 norm (fst e) = norm (loc_pair (cell_type (fst x)) (fst x) j) /\
                 In (i, j) (ed_adj (snd e));
  de_trias : m_trias M = filter is_tria all;
  de_quads : m_quads M = filter (fun c => negb (is_tria c)) all;
  de_ptr0l : length (m_ptr0 M) = length cs;
  de_ptr0 : forall i, i < length cs -> cell_by_index M i = nth_error all i;
  de_ptr1l : length (m_ptr1 M) = length m;
  de_ptr1 : forall p s, nth_error (m_segments M) p = Some s ->
              nth_error (m_ptr1 M) (s_index s) = Some (Some p);
  de_ptr2l : length (m_ptr2 M) = n;
  de_ptr2 : forall p, p < n -> nth_error (m_ptr2 M) p = Some (Some p)
}.

Definition covered (m : emap) (v : nat) : Prop :=
  exists e, In e m /\ (fst (entry_ends e) = v \/ snd (entry_ends e) = v).

Definition good_shape (x : list nat * bool) := length (fst x) = 3 \/ length (fst x) = 4.

Lemma num_nodes_shape : forall x, good_shape x -> num_nodes (cell_type (fst x)) = length (fst x).
Proof. intros [ns g] [H|H]; simpl in *; unfold cell_type; rewrite H; auto. Qed.

Lemma sub_vertex_side : forall ns j, length ns = 3 \/ length ns = 4 -> j < length ns ->
  loc_pair (cell_type ns) ns j = side ns j.
Proof.
  intros ns j H Hj. unfold loc_pair, side, cell_type.
  destruct H as [H|H]; rewrite H in *; simpl Nat.eqb; cbv iota.
  - destruct j as [|[|[|j]]]; try lia; reflexivity.
  - destruct j as [|[|[|[|j]]]]; try lia; reflexivity.
Qed.

Lemma entry_ends_norm : forall e, norm (entry_ends e) = norm (fst e).
Proof. intros. apply norm_orient. Qed.

Lemma edge_matches_ok : forall nodes t segs ei j s,
  nth_error segs (nth j ei 0) = Some s -> norm (ends s) = norm (loc_pair t nodes j) ->
  edge_matches nodes t segs ei j = true.
Proof.
  intros nodes t segs ei j s H N. unfold edge_matches. rewrite H.
  apply norm_same in N. unfold same_pair, ends, loc_pair in N; simpl in N.
  destruct N as [[-> ->]|[-> ->]]; rewrite !Nat.eqb_refl, ?orb_true_r; auto.
Qed.

Lemma seg_of_ends : forall i e, ends (seg_of i e) = entry_ends e.
Proof. intros. unfold ends, seg_of; simpl. destruct (entry_ends e); auto. Qed.

Lemma existsb_false : forall A (p : A -> bool) l, existsb p l = false <-> forall x, In x l -> p x = false.
Proof.
  induction l; simpl; split; intros; try tauto; auto.
  - apply orb_false_iff in H as [H1 H2]. destruct H0; subst; auto. apply IHl; auto.
  - rewrite H by auto. apply IHl; auto.
Qed.

(** Outcome of the part of the constructor that follows edge registration. *)
Lemma ctor_tail : forall check n es cs m,
  inv (all_regs es cs) m -> Forall (good_cell n) cs -> Forall good_shape cs ->
  Forall (good_edge n) es ->
  let tail :=
    (do r2 <- make_segments check m (length es) (if check then repeat false n else []);
     let '(segs, idx', sup) := r2 in
     do _ <- lf_assert (idx' =? length m);
     do _ <- verify (negb check || forallb (fun i => nth i sup false) (seq 0 n));
     do eis <- fill_edge_indices m 0 (repeat [0;0;0;0] (length cs));
     do tq <- make_cells n (length m) segs cs eis 0;
     let '(ts, qs) := tq in
     do p0 <- place_cells PTria ts 0 (repeat None (length ts + length qs));
     do p0' <- place_cells PQuad qs 0 p0;
     do p2 <- place_ptrs (seq 0 n) 0 (repeat None n);
     do p1 <- place_ptrs (map s_index segs) 0 (repeat None (length segs));
     Ok (mkMesh n segs ts qs p0' p1 p2)) in
  (check = true -> (exists e, In e m /\ ed_adj (snd e) = []) \/ (exists v, v < n /\ ~ covered m v) ->
     tail = Throw) /\
  ((check = true -> (forall e, In e m -> ed_adj (snd e) <> []) /\ (forall v, v < n -> covered m v)) ->
     exists M all, tail = Ok M /\ described n es cs m all M).
Proof.
  intros check n es cs m I GC GS GE.
  assert (Bnd : forall e, In e m -> fst (entry_ends e) < n /\ snd (entry_ends e) < n).
  { intros e He. destruct e as [k d].
    pose proof (iv_ok _ _ I _ _ He) as O. destruct (eo_src _ _ _ O) as (s & p & Hp & Np).
    assert (fst p < n /\ snd p < n) as [B1 B2].
    { destruct s.
      - apply all_regs_given in Hp as (g & Hp). apply nth_error_In in Hp.
        rewrite Forall_forall in GE. apply GE in Hp. destruct Hp as (_ & _ & ?); auto.
      - apply all_regs_cell in Hp as (nodes & Hn & Hj & ->).
        apply nth_error_In in Hn. rewrite Forall_forall in GC, GS.
        pose proof (GS _ Hn) as Sh. pose proof (num_nodes_shape _ Sh) as NN. simpl in NN.
        unfold good_shape in Sh; simpl in Sh.
        rewrite sub_vertex_side by (auto; lia).
        destruct (GC _ Hn) as [F _]. simpl in F. rewrite Forall_forall in F.
        unfold side; simpl. split; apply F, nth_In; try lia.
        apply Nat.mod_upper_bound; lia. }
    pose proof (entry_ends_norm (k, d)) as E. simpl in E. rewrite <- Np in E.
    apply norm_same in E. destruct E as [[-> ->]|[-> ->]]; auto. }
  destruct (make_segments_eq check m (length es) (if check then repeat false n else []))
    as (sup & E & L & V).
  intros tail. unfold tail. rewrite E. clear tail.
  destruct (check && existsb no_cell m) eqn:CE.
  - cbn [bind]. split; auto. intros H. apply andb_true_iff in CE as [-> CE].
    apply existsb_exists in CE as (e & He & Hn). unfold no_cell in Hn.
    destruct (H eq_refl) as [H1 _]. specialize (H1 _ He).
    destruct (ed_adj (snd e)); congruence.
  - cbn [bind]. rewrite (final_idx es cs m I), Nat.eqb_refl. cbn [lf_assert bind].
    assert (VV : check = true -> forall v, v < n -> nth v sup false = true <-> covered m v).
    { intros -> v Hv. rewrite V; auto.
      - unfold covered. split; auto. intros [H|?]; auto.
        rewrite nth_repeat in H. discriminate.
      - rewrite repeat_length. apply Bnd. }
    split.
    + intros -> [(e & He & Ha)|(v & Hv & Hc)].
      * exfalso. simpl in CE. rewrite existsb_false in CE. apply CE in He.
        unfold no_cell in He. rewrite Ha in He; discriminate.
      * assert (forallb (fun i => nth i sup false) (seq 0 n) = false) as ->; auto.
        destruct (forallb _ _) eqn:F; auto. exfalso. apply Hc.
        rewrite forallb_forall in F. apply VV; auto. apply F, in_seq; lia.
    + intros H.
      assert (negb check || forallb (fun i => nth i sup false) (seq 0 n) = true) as ->.
      { destruct check; simpl; auto. apply forallb_forall. intros v Hv.
        apply in_seq in Hv. apply VV; auto; [lia|]. apply H; auto; lia. }
      cbn [verify bind].
      assert (Adj : forall e c j, In e m -> In (c, j) (ed_adj (snd e)) ->
                exists x, nth_error cs c = Some x /\ j < num_nodes (cell_type (fst x)) /\
                  norm (fst e) = norm (loc_pair (cell_type (fst x)) (fst x) j)).
      { intros [k d] c j He Hcj. pose proof (iv_ok _ _ I _ _ He) as O. simpl in *.
        rewrite (eo_adj _ _ _ O) in Hcj. apply in_flat_map in Hcj as ([p s] & Hr & Hcj).
        unfold adj_of in Hcj; simpl in Hcj. destruct s; [destruct Hcj|].
        destruct norm_dec as [N|]; [|destruct Hcj]. destruct Hcj as [[= <- <-]|[]].
        apply all_regs_cell in Hr as (nodes & Hn & Hj & ->).
        exists (nodes, geo); auto. }
      destruct (fill_spec m 0 (repeat [0;0;0;0] (length cs))) as (eis & E3 & G3 & L3 & V3).
      { unfold good_arr. apply Forall_forall. intros r Hr. apply repeat_spec in Hr; subst; auto. }
      { intros e c j He Hcj. destruct (Adj _ _ _ He Hcj) as (x & Hx & Hj & _).
        rewrite repeat_length. split; [apply nth_error_Some; congruence|].
        destruct (cell_type (fst x)); simpl in Hj; lia. }
      rewrite E3. cbn [bind]. rewrite repeat_length in *.
      set (segs := segs_of_map m (length es)).
      assert (EI : forall i x j, nth_error cs i = Some x -> j < num_nodes (cell_type (fst x)) ->
                exists e, nth_error m (nth j (nth i eis []) 0) = Some e /\
                  norm (fst e) = norm (loc_pair (cell_type (fst x)) (fst x) j) /\
                  In (i, j) (ed_adj (snd e))).
      { intros i x j Hx Hj. destruct (V3 i j) as [(p & e & Hp & Ha & Hv)|[Hn _]].
        - apply nth_error_Some; congruence.
        - destruct (cell_type (fst x)); simpl in Hj; lia.
        - rewrite Hv; simpl. exists e; split; auto. split; auto.
          destruct (Adj e i j) as (x' & Hx' & _ & N); auto.
          + eapply nth_error_In; eauto.
          + congruence.
        - exfalso. destruct x as [nodes g].
          assert (In (loc_pair (cell_type nodes) nodes j, SCell i j g) (all_regs es cs)) as R.
          { apply all_regs_cell. exists nodes; auto. }
          destruct (iv_all _ _ I _ R) as (k & d & Hk & Nk). simpl in Nk.
          apply (Hn _ Hk). simpl.
          rewrite (eo_adj _ _ _ (iv_ok _ _ I _ _ Hk)). apply in_flat_map.
          eexists; split; [exact R|]. unfold adj_of; simpl.
          destruct norm_dec; [simpl; auto|congruence]. }
      assert (MC : make_cells n (length m) segs cs eis 0 =
        Ok (filter is_tria (cells_from segs eis 0 cs),
            filter (fun c => negb (is_tria c)) (cells_from segs eis 0 cs))).
      { apply make_cells_eq.
        - intros i x j Hx Hj. simpl. destruct (EI i x j Hx Hj) as (e & He & N & _).
          split; [apply nth_error_Some; congruence|].
          destruct (segs_of_map_nth m (length es) _ _ He) as (i' & Hs).
          eapply edge_matches_ok; [exact Hs|].
          rewrite seg_of_ends, entry_ends_norm; auto.
        - eapply Forall_impl; [|exact GC]. intros x [F _]; auto. }
      rewrite MC. cbn [bind].
      set (all := cells_from segs eis 0 cs) in *.
      set (ts := filter is_tria all). set (qs := filter (fun c => negb (is_tria c)) all).
      assert (Ltq : length ts + length qs = length cs).
      { unfold ts, qs. rewrite filter_length_split. apply cells_from_length. }
      rewrite Ltq.
      assert (NDall : NoDup (map c_index all)).
      { unfold all. rewrite cells_from_index. apply seq_NoDup. }
      assert (Ball : forall c, In c all -> c_index c < length cs).
      { intros c Hc. apply (in_map c_index) in Hc. unfold all in Hc.
        rewrite cells_from_index in Hc. apply in_seq in Hc; lia. }
      assert (Uall : forall c c', In c all -> In c' all -> c_index c = c_index c' -> c = c').
      { intros c c' Hc Hc' Eq. apply In_nth_error in Hc as [a Ha], Hc' as [b Hb].
        assert (a = b); [|congruence].
        eapply (NoDup_nth_error (map c_index all)); auto.
        - rewrite map_length. apply nth_error_Some; congruence.
        - rewrite !nth_error_map, Ha, Hb; simpl; congruence. }
      destruct (place_cells_spec PTria ts 0 (repeat None (length cs))) as (p0 & E4 & L4 & P4 & O4).
      { apply NoDup_map_filter; auto. }
      { intros c Hc. apply filter_In in Hc as [Hc _]. apply Ball in Hc.
        rewrite nth_error_repeat; auto. }
      rewrite E4. cbn [bind].
      assert (Disj : forall c, In c qs -> ~ In (c_index c) (map c_index ts)).
      { intros c Hc C. apply in_map_iff in C as (c' & Eq & Hc').
        apply filter_In in Hc as [Hc Fc], Hc' as [Hc' Fc'].
        assert (c' = c) by auto. subst. rewrite Fc' in Fc; discriminate. }
      destruct (place_cells_spec PQuad qs 0 p0) as (p0' & E5 & L5 & P5 & O5).
      { apply NoDup_map_filter; auto. }
      { intros c Hc. rewrite O4 by auto. apply filter_In in Hc as [Hc _]. apply Ball in Hc.
        rewrite nth_error_repeat; auto. }
      rewrite E5. cbn [bind].
      destruct (place_ptrs_spec (seq 0 n) 0 (repeat None n)) as (p2 & E6 & L6 & P6 & _).
      { apply seq_NoDup. }
      { intros i Hi. apply in_seq in Hi. rewrite repeat_length; lia. }
      rewrite E6. cbn [bind].
      pose proof (segs_perm es cs m I) as SP. fold segs in SP.
      destruct (place_ptrs_spec (map s_index segs) 0 (repeat None (length segs))) as (p1 & E7 & L7 & P7 & _).
      { eapply Permutation_NoDup; [apply Permutation_sym; exact SP|apply seq_NoDup]. }
      { intros i Hi. apply (Permutation_in _ SP) in Hi. apply in_seq in Hi.
        rewrite repeat_length. unfold segs. rewrite segs_of_map_length; lia. }
      rewrite E7. cbn [bind].
      exists (mkMesh n segs ts qs p0' p1 p2), all. split; auto.
      constructor; simpl; auto.
      * exists eis; auto.
      * rewrite L5, L4, repeat_length; auto.
      * intros i Hi. unfold cell_by_index; simpl.
        destruct (nth_error all i) as [c|] eqn:Hc.
        2:{ apply nth_error_None in Hc. unfold all in Hc. rewrite cells_from_length in Hc; lia. }
        assert (c_index c = i) as Ci.
        { pose proof (cells_from_index segs eis cs 0) as CI. fold all in CI.
          assert (nth_error (map c_index all) i = Some (c_index c)) as Q
            by (rewrite nth_error_map, Hc; auto).
          rewrite CI in Q. apply nth_error_nth with (d := 0) in Q.
          rewrite seq_nth in Q by auto. simpl in Q; auto. }
        assert (In c all) as Hin by (eapply nth_error_In; eauto).
        destruct (is_tria c) eqn:T.
        -- assert (In c ts) as Ht by (apply filter_In; auto).
           destruct (In_nth_error _ _ Ht) as [p Hp].
           pose proof (P4 _ _ Hp) as Q. simpl in Q. rewrite Ci in Q.
           rewrite O5, Q; auto.
           intro C. apply in_map_iff in C as (c' & Eq & Hc').
           apply (Disj _ Hc'). rewrite Eq, <- Ci. apply in_map; auto.
        -- assert (In c qs) as Ht by (apply filter_In; rewrite T; auto).
           destruct (In_nth_error _ _ Ht) as [p Hp].
           pose proof (P5 _ _ Hp) as Q. simpl in Q. rewrite Ci in Q. rewrite Q; auto.
      * rewrite L7, repeat_length. unfold segs. apply segs_of_map_length.
      * intros p s Hs. apply (P7 p). rewrite nth_error_map, Hs; auto.
      * rewrite L6, repeat_length; auto.
      * intros p Hp. apply (P6 p). rewrite nth_error_nth' with (d := 0) by (rewrite seq_length; auto).
        rewrite seq_nth; auto.
Qed.
