(** Proofs about mesh construction, continued: the stages of the constructor. *)
From Coq Require Import List Arith Lia Bool Permutation Sorted.
Import ListNotations.
From Verif Require Import Base MeshModel MeshSpec MeshProofs.

(** * Registration of supplied edges *)
Fixpoint given_regs (i : nat) (es : list ((nat * nat) * bool)) : list reg :=
  match es with
  | [] => []
  | (p, _) :: t => (p, SGiven i) :: given_regs (S i) t
  end.

Lemma given_regs_in : forall es i p s, In (p, s) (given_regs i es) <->
  exists k g, nth_error es k = Some (p, g) /\ s = SGiven (i + k).
Proof.
  induction es as [|[q h] t IH]; simpl; intros i p s.
  - split; [tauto|]. intros (k & g & H & _). destruct k; discriminate.
  - split.
    + intros [[= -> <-]|H].
      * exists 0, h. rewrite Nat.add_0_r; auto.
      * apply IH in H as (k & g & H & ->). exists (S k), g; split; auto. f_equal; lia.
    + intros (k & g & H & ->). destruct k; simpl in H.
      * injection H as -> ->. left; rewrite Nat.add_0_r; auto.
      * right. apply IH. exists k, g; split; auto. f_equal; lia.
Qed.

Definition good_edge n (e : (nat * nat) * bool) : Prop :=
  snd e = true /\ fst (fst e) <> snd (fst e) /\ fst (fst e) < n /\ snd (fst e) < n.

Lemma reg_edges_spec : forall n es idx rs m,
  inv rs m -> (forall p i, In (p, SGiven i) rs -> i < idx) ->
  (reg_edges n es idx m <> Throw) /\
  (forall r, reg_edges n es idx m = Ok r ->
     fst r = idx + length es /\ inv (rs ++ given_regs idx es) (snd r) /\
     Forall (good_edge n) es /\ NoDup (map (fun e => norm (fst e)) es) /\
     (forall e r, In e es -> In r rs -> norm (fst e) <> norm (fst r))) /\
  (Forall (good_edge n) es -> NoDup (map (fun e => norm (fst e)) es) ->
   (forall e r, In e es -> In r rs -> norm (fst e) <> norm (fst r)) ->
   exists r, reg_edges n es idx m = Ok r).
Proof.
  intros n es; induction es as [|[[a b] geo] t IH]; intros idx rs m I Hf.
  - simpl. split; [discriminate|split; [|eauto]].
    intros r Hr; injection Hr as <-; simpl. rewrite app_nil_r.
    split; [lia|split; [auto|split; [constructor|split; [constructor|tauto]]]].
  - cbn [reg_edges]. unfold epair.
    set (d := mkED (Some (EGiven idx)) [] (Some idx) false).
    destruct (Nat.eqb_spec a b) as [Eab|Nab].
    { simpl. split; [discriminate|split; [discriminate|]].
      intros G _ _. inversion G; subst. destruct H1 as (_ & C & _); simpl in C; congruence. }
    cbn [negb lf_assert bind].
    destruct ((a <? n) && (b <? n)) eqn:Er; cbn [lf_assert bind].
    2:{ split; [discriminate|split; [discriminate|]].
        intros G _ _. inversion G; subst. destruct H1 as (_ & _ & C & D); simpl in C, D.
        apply Nat.ltb_lt in C, D. rewrite C, D in Er. discriminate. }
    destruct geo; cbn [lf_assert bind].
    2:{ split; [discriminate|split; [discriminate|]].
        intros G _ _. inversion G; subst. destruct H1 as (C & _); simpl in C; congruence. }
    destruct (emap_find (a, b) m) as [e|] eqn:F.
    + apply find_some in F as [Hin N]; [|apply I].
      rewrite (insert_dup (a, b) d m e); auto; [|apply I].
      cbn [lf_assert bind]. split; [discriminate|split; [discriminate|]].
      intros G D X. exfalso.
      destruct e as [k dd]. pose proof (iv_ok _ _ I _ _ Hin) as O.
      destruct (eo_src _ _ _ O) as (s & p & Hp & Np).
      apply (X ((a, b), true) (p, s)); simpl in *; auto; congruence.
    + rewrite find_none in F by apply I.
      destruct (inv_given rs m (a, b) idx I Nab F) as (m' & Hi & I' & _).
      { intros p Hp. apply Hf in Hp. lia. }
      fold d in Hi. rewrite Hi. cbn [lf_assert bind].
      destruct (IH (S idx) (rs ++ [((a, b), SGiven idx)]) m' I') as (T & Snd & Cmp).
      { intros p i. rewrite in_app_iff; simpl. intros [H|[[= <- <-]|[]]]; [|lia].
        apply Hf in H; lia. }
      split; [exact T|split].
      * intros r Hr. destruct (Snd r Hr) as (E & I2 & G & D & X).
        rewrite <- app_assoc in I2. simpl in I2.
        apply andb_true_iff in Er as [E1 E2]. apply Nat.ltb_lt in E1, E2.
        split; [simpl; lia|split; [simpl; exact I2|split]].
        -- constructor; auto. repeat split; auto.
        -- split.
           ++ simpl. constructor; auto. intro C. apply in_map_iff in C as (e & Ne & He).
              apply (X e ((a, b), SGiven idx) He); [|exact Ne].
              rewrite in_app_iff; simpl; auto.
           ++ intros e r' [<-|He] Hr'.
              ** simpl. intro C. destruct (iv_all _ _ I _ Hr') as (k & d' & Hk & Nk).
                 apply (F _ Hk); simpl; congruence.
              ** apply X; auto. rewrite in_app_iff; auto.
      * intros G D X. apply Cmp.
        -- inversion G; auto.
        -- simpl in D. inversion D; auto.
        -- intros e r' He. rewrite in_app_iff; simpl. intros [Hr'|[<-|[]]].
           ++ apply X; simpl; auto.
           ++ simpl. simpl in D. inversion D; subst. intro C. apply H1.
              rewrite <- C. apply in_map_iff. exists e; auto.
Qed.

(** * Registration of the edges of cells *)
Definition loc_pair (t : refel) (nodes : list nat) (j : nat) : nat * nat :=
  (nth (sub_vertex t j 0) nodes 0, nth (sub_vertex t j 1) nodes 0).

Definition regs_of_cell (c : nat) (x : list nat * bool) : list reg :=
  map (fun j => (loc_pair (cell_type (fst x)) (fst x) j, SCell c j (snd x)))
      (seq 0 (num_nodes (cell_type (fst x)))).

Fixpoint regs_of_cells (c : nat) (cs : list (list nat * bool)) : list reg :=
  match cs with
  | [] => []
  | x :: t => regs_of_cell c x ++ regs_of_cells (S c) t
  end.

Lemma regs_of_cells_in : forall cs c p s, In (p, s) (regs_of_cells c cs) <->
  exists i x j, nth_error cs i = Some x /\ j < num_nodes (cell_type (fst x)) /\
    p = loc_pair (cell_type (fst x)) (fst x) j /\ s = SCell (c + i) j (snd x).
Proof.
  induction cs as [|x t IH]; simpl; intros c p s.
  - split; [tauto|]. intros (i & y & j & H & _); destruct i; discriminate.
  - rewrite in_app_iff, IH. unfold regs_of_cell. rewrite in_map_iff. split.
    + intros [(j & [= <- <-] & Hj)|(i & y & j & H1 & H2 & -> & ->)].
      * apply in_seq in Hj. exists 0, x, j. rewrite Nat.add_0_r. repeat split; auto. lia.
      * exists (S i), y, j. repeat split; auto. f_equal; lia.
    + intros (i & y & j & H1 & H2 & -> & ->). destruct i; simpl in H1.
      * injection H1 as ->. left. exists j. rewrite Nat.add_0_r; split; auto.
        apply in_seq; lia.
      * right. exists i, y, j. repeat split; auto. f_equal; lia.
Qed.

Lemma reg_cell_edges_spec : forall c geo nodes t js rs m,
  inv rs m ->
  (reg_cell_edges c geo nodes t js m <> Throw) /\
  (forall m', reg_cell_edges c geo nodes t js m = Ok m' ->
     inv (rs ++ map (fun j => (loc_pair t nodes j, SCell c j geo)) js) m' /\
     Forall (fun j => fst (loc_pair t nodes j) <> snd (loc_pair t nodes j)) js) /\
  (Forall (fun j => fst (loc_pair t nodes j) <> snd (loc_pair t nodes j)) js ->
   exists m', reg_cell_edges c geo nodes t js m = Ok m').
Proof.
  intros c geo nodes t js; induction js as [|j r IH]; intros rs m I.
  - simpl. split; [discriminate|split; [|eauto]].
    intros m' H; injection H as <-. rewrite app_nil_r; auto.
  - cbn [reg_cell_edges].
    destruct (Nat.eq_dec (fst (loc_pair t nodes j)) (snd (loc_pair t nodes j))) as [E|N].
    + assert (reg_cell_edge c geo nodes t j m = Assert) as ->.
      { unfold reg_cell_edge, epair. unfold loc_pair in E; simpl in E.
        rewrite E, Nat.eqb_refl; reflexivity. }
      simpl. split; [discriminate|split; [discriminate|]].
      intros F. inversion F; subst. tauto.
    + destruct (inv_cell rs m c geo nodes t j I N) as (m' & E & I').
      rewrite E; cbn [bind].
      destruct (IH _ _ I') as (T & Snd & Cmp). split; [exact T|split].
      * intros m2 H2. destruct (Snd _ H2) as [I2 F2]. split.
        -- rewrite <- app_assoc in I2. exact I2.
        -- constructor; auto.
      * intros F. inversion F; subst. apply Cmp; auto.
Qed.

Definition good_cell n (x : list nat * bool) : Prop :=
  Forall (fun v => v < n) (fst x) /\
  forall j, j < num_nodes (cell_type (fst x)) ->
    fst (loc_pair (cell_type (fst x)) (fst x) j) <> snd (loc_pair (cell_type (fst x)) (fst x) j).

Lemma reg_cells_spec : forall n cs c rs m,
  inv rs m -> Forall (fun x => Forall (fun v => v < n) (fst x)) cs ->
  (reg_cells n cs c m <> Throw) /\
  (forall m', reg_cells n cs c m = Ok m' ->
     inv (rs ++ regs_of_cells c cs) m' /\ Forall (good_cell n) cs) /\
  (Forall (good_cell n) cs -> exists m', reg_cells n cs c m = Ok m').
Proof.
  intros n cs; induction cs as [|[nodes geo] r IH]; intros c rs m I V.
  - simpl. split; [discriminate|split; [|eauto]].
    intros m' H; injection H as <-. rewrite app_nil_r; auto.
  - cbn [reg_cells]. inversion V as [|? ? V1 V2]; subst. simpl in V1.
    assert (forallb (fun v => v <? n) nodes = true) as ->.
    { apply forallb_forall. rewrite Forall_forall in V1. intros x Hx.
      apply Nat.ltb_lt; auto. }
    cbn [verify bind].
    destruct (reg_cell_edges_spec c geo nodes (cell_type nodes)
                (seq 0 (num_nodes (cell_type nodes))) rs m I) as (T1 & S1 & C1).
    destruct (reg_cell_edges c geo nodes (cell_type nodes) _ m) as [m1| |] eqn:E1.
    + cbn [bind]. destruct (S1 _ eq_refl) as [I1 F1].
      destruct (IH (S c) _ _ I1 V2) as (T & Snd & Cmp).
      split; [exact T|split].
      * intros m' H'. destruct (Snd _ H') as [I2 F2]. split.
        -- rewrite <- app_assoc in I2. exact I2.
        -- constructor; auto. split; auto. simpl. intros j Hj.
           rewrite Forall_forall in F1. apply F1, in_seq; lia.
      * intros F; inversion F; subst; apply Cmp; auto.
    + congruence.
    + cbn [bind]. split; [discriminate|split; [discriminate|]].
      intros F; inversion F as [|? ? G1 G2]; subst. exfalso.
      destruct C1 as [m' C]; [|discriminate].
      apply Forall_forall. intros j Hj. apply in_seq in Hj.
      apply G1; simpl; lia.
Qed.

(** * Segments *)
Definition entry_ends (e : (nat * nat) * edge_data) : nat * nat :=
  orient (fst e) (ed_rev (snd e)).

Definition seg_of (i : nat) (e : (nat * nat) * edge_data) : segment :=
  let p := entry_ends e in
  mkSeg (match ed_idx (snd e) with Some k => k | None => i end) (fst p) (snd p)
        (match ed_geo (snd e) with Some g => g | None => EStraight (fst p) (snd p) end).

Definition next_idx (i : nat) (e : (nat * nat) * edge_data) : nat :=
  match ed_idx (snd e) with Some _ => i | None => S i end.

Fixpoint segs_of_map (m : emap) (i : nat) : list segment :=
  match m with
  | [] => []
  | e :: t => seg_of i e :: segs_of_map t (next_idx i e)
  end.

Definition unnumbered (e : (nat * nat) * edge_data) : bool :=
  match ed_idx (snd e) with None => true | _ => false end.
Definition no_cell (e : (nat * nat) * edge_data) : bool :=
  match ed_adj (snd e) with [] => true | _ => false end.

Lemma segs_of_map_length : forall m i, length (segs_of_map m i) = length m.
Proof. induction m; simpl; intros; auto. Qed.

Lemma segs_of_map_nth : forall m i p e, nth_error m p = Some e ->
  exists i', nth_error (segs_of_map m i) p = Some (seg_of i' e).
Proof.
  induction m as [|a t IH]; intros i [|p] e H; simpl in *; try discriminate.
  - injection H as ->; eauto.
  - apply IH; auto.
Qed.

Lemma make_segments_eq : forall check m i sup,
  exists sup', 
  make_segments check m i sup =
    (if check && existsb no_cell m then Throw
     else Ok (segs_of_map m i, i + length (filter unnumbered m), sup')) /\
  length sup' = length sup /\
  (check = true -> (forall e, In e m -> fst (entry_ends e) < length sup /\ snd (entry_ends e) < length sup) ->
   forall v, nth v sup' false = true <->
     (nth v sup false = true \/ exists e, In e m /\ (fst (entry_ends e) = v \/ snd (entry_ends e) = v))).
Proof.
  intros check m; induction m as [|[k d] t IH]; intros i sup.
  - exists sup. simpl. rewrite andb_false_r, Nat.add_0_r. repeat split; auto.
    intros [?|(? & [] & _)]; auto.
  - cbn [make_segments].
    set (p0 := if ed_rev d then snd k else fst k).
    set (p1 := if ed_rev d then fst k else snd k).
    assert (Ep : entry_ends (k, d) = (p0, p1)).
    { unfold entry_ends, orient, p0, p1; simpl. destruct (ed_rev d), k; auto. }
    destruct (IH (next_idx i (k, d)) (if check then upd p1 true (upd p0 true sup) else sup))
      as (sup' & E & L & V).
    exists sup'. split; [|split].
    + destruct check; cbn [negb orb andb existsb] in *.
      * unfold no_cell at 1; simpl.
        destruct (ed_adj d) as [|x y]; simpl; auto.
        unfold next_idx in E; simpl in E.
        replace (match ed_idx d with Some _ => i | None => S i end) with
            (match ed_idx (snd (k,d)) with Some _ => i | None => S i end) by auto.
        simpl. rewrite E. destruct (existsb no_cell t); simpl; auto.
        f_equal. f_equal. f_equal.
        -- unfold seg_of. rewrite Ep; reflexivity.
        -- unfold unnumbered at 2; simpl. destruct (ed_idx d); simpl; lia.
      * simpl. unfold next_idx in E; simpl in E. rewrite E; simpl.
        f_equal. f_equal. f_equal.
        -- unfold seg_of. rewrite Ep; reflexivity.
        -- unfold unnumbered at 2; simpl. destruct (ed_idx d); simpl; lia.
    + rewrite L. destruct check; auto. rewrite !upd_length; auto.
    + intros -> B v.
      assert (p0 < length sup /\ p1 < length sup) as [B0 B1].
      { specialize (B (k, d) (or_introl eq_refl)). rewrite Ep in B; auto. }
      rewrite V; auto.
      2:{ intros e He. rewrite !upd_length. apply B; simpl; auto. }
      assert (U : nth v (upd p1 true (upd p0 true sup)) false = true <->
                  nth v sup false = true \/ p0 = v \/ p1 = v).
      { destruct (Nat.eq_dec p1 v) as [<-|N1].
        - rewrite nth_upd_eq by (rewrite upd_length; auto). tauto.
        - rewrite nth_upd_neq by auto. destruct (Nat.eq_dec p0 v) as [<-|N0].
          + rewrite nth_upd_eq; tauto.
          + rewrite nth_upd_neq by auto. tauto. }
      rewrite U. split.
      * intros [[?|?]|(e & He & Hv)]; auto.
        -- right. exists (k, d). rewrite Ep; simpl; auto.
        -- right. exists e; simpl; auto.
      * intros [?|(e & [<-|He] & Hv)]; auto.
        -- rewrite Ep in Hv; auto.
        -- right; eauto.
Qed.

(** Numbering: the indices of the segments form a permutation. *)
Definition given_idx (e : (nat * nat) * edge_data) : list nat :=
  match ed_idx (snd e) with Some i => [i] | None => [] end.

Lemma segs_index_perm : forall m i,
  Permutation (map s_index (segs_of_map m i))
              (flat_map given_idx m ++ seq i (length (filter unnumbered m))).
Proof.
  induction m as [|[k d] t IH]; intros i; simpl; auto.
  unfold given_idx at 1, unnumbered at 1, next_idx; simpl.
  destruct (ed_idx d) as [x|]; simpl.
  - constructor. apply IH.
  - rewrite IH. apply Permutation_middle.
Qed.

Lemma filter_split_length : forall m,
  length (flat_map given_idx m) + length (filter unnumbered m) = length m.
Proof.
  induction m as [|[k d] t IH]; simpl; auto.
  unfold given_idx at 1, unnumbered at 1; simpl.
  destruct (ed_idx d); simpl; lia.
Qed.

Lemma NoDup_given : forall m, sorted m ->
  (forall e e' i, In e m -> In e' m -> ed_idx (snd e) = Some i -> ed_idx (snd e') = Some i ->
     e = e') ->
  NoDup (flat_map given_idx m).
Proof.
  induction m as [|e t IH]; simpl; intros S H; [constructor|].
  pose proof (sorted_inv _ _ S) as [St Hl].
  assert (NoDup (flat_map given_idx t)) by (apply IH; auto; intros; eapply H; eauto).
  unfold given_idx at 1. destruct (ed_idx (snd e)) as [i|] eqn:E; simpl; auto.
  constructor; auto. intro C. apply in_flat_map in C as (x & Hx & Hi).
  unfold given_idx in Hi. destruct (ed_idx (snd x)) as [i'|] eqn:E'; simpl in Hi; [|tauto].
  destruct Hi as [->|[]].
  assert (e = x) by (eapply H; eauto). subst x.
  apply Hl in Hx. rewrite key_lt_irrefl_norm in Hx; auto; discriminate.
Qed.

(** All registrations of a finished map. *)
Definition all_regs es cs := given_regs 0 es ++ regs_of_cells 0 cs.

Lemma all_regs_given : forall es cs p i,
  In (p, SGiven i) (all_regs es cs) <-> exists g, nth_error es i = Some (p, g).
Proof.
  intros. unfold all_regs. rewrite in_app_iff, given_regs_in, regs_of_cells_in. split.
  - intros [(k & g & H & [= ->])|(? & ? & ? & _ & _ & _ & ?)]; [eauto|discriminate].
  - intros (g & H). left. exists i, g; auto.
Qed.

Lemma all_regs_cell : forall es cs p c j g,
  In (p, SCell c j g) (all_regs es cs) <->
  exists nodes, nth_error cs c = Some (nodes, g) /\ j < num_nodes (cell_type nodes) /\
    p = loc_pair (cell_type nodes) nodes j.
Proof.
  intros. unfold all_regs. rewrite in_app_iff, given_regs_in, regs_of_cells_in. split.
  - intros [(k & g' & H & ?)|(i & [nodes g'] & j' & H1 & H2 & -> & [= -> -> ->])]; [discriminate|].
    eauto.
  - intros (nodes & H1 & H2 & ->). right. exists c, (nodes, g), j. auto.
Qed.

Lemma map_given_idx : forall es cs m, inv (all_regs es cs) m ->
  forall i, In i (flat_map given_idx m) <-> i < length es.
Proof.
  intros es cs m I i. rewrite in_flat_map. split.
  - intros ([k d] & Hin & Hi). unfold given_idx in Hi; simpl in Hi.
    destruct (ed_idx d) as [i'|] eqn:E; simpl in Hi; [|tauto]. destruct Hi as [->|[]].
    pose proof (iv_ok _ _ I _ _ Hin) as O. apply (eo_idx _ _ _ O) in E.
    apply all_regs_given in E as (g & E). apply nth_error_Some; congruence.
  - intros Hi. destruct (nth_error es i) as [[p g]|] eqn:E.
    2:{ apply nth_error_None in E; lia. }
    assert (In (p, SGiven i) (all_regs es cs)) as R by (apply all_regs_given; eauto).
    destruct (iv_all _ _ I _ R) as (k & d & Hin & N). simpl in N.
    pose proof (iv_ok _ _ I _ _ Hin) as O.
    assert (p = k) as -> by (eapply (eo_giv _ _ _ O); eauto).
    exists (k, d); split; auto. unfold given_idx; simpl.
    apply (eo_idx _ _ _ O) in R. rewrite R; simpl; auto.
Qed.

Lemma map_idx_unique : forall es cs m, inv (all_regs es cs) m ->
  forall e e' i, In e m -> In e' m -> ed_idx (snd e) = Some i -> ed_idx (snd e') = Some i -> e = e'.
Proof.
  intros es cs m I [k d] [k' d'] i H H' E E'; simpl in *.
  apply (eo_idx _ _ _ (iv_ok _ _ I _ _ H)) in E.
  apply (eo_idx _ _ _ (iv_ok _ _ I _ _ H')) in E'.
  assert (k = k') by (eapply (iv_uni _ _ I); eauto). subst k'.
  eapply sorted_unique; eauto. apply I.
Qed.

Lemma given_perm : forall es cs m, inv (all_regs es cs) m ->
  Permutation (flat_map given_idx m) (seq 0 (length es)).
Proof.
  intros es cs m I. apply NoDup_Permutation.
  - apply NoDup_given; [apply I|]. eapply map_idx_unique; eauto.
  - apply seq_NoDup.
  - intros i. rewrite (map_given_idx es cs m I), in_seq. lia.
Qed.

Lemma final_idx : forall es cs m, inv (all_regs es cs) m ->
  length es + length (filter unnumbered m) = length m.
Proof.
  intros es cs m I. rewrite <- (filter_split_length m).
  rewrite (Permutation_length (given_perm _ _ _ I)), seq_length. auto.
Qed.

Lemma segs_perm : forall es cs m, inv (all_regs es cs) m ->
  Permutation (map s_index (segs_of_map m (length es))) (seq 0 (length m)).
Proof.
  intros es cs m I. rewrite segs_index_perm, (given_perm es cs m I).
  rewrite <- (final_idx es cs m I), seq_app. auto.
Qed.

(** * The auxiliary array edge_indices *)
Definition good_arr (arr : list (list nat)) := Forall (fun r => length r = 4) arr.


Lemma pair_dec : forall a b : nat * nat, {a = b} + {a <> b}.
Proof. decide equality; apply Nat.eq_dec. Qed.

Lemma good_arr_row : forall arr c, good_arr arr -> c < length arr -> length (nth c arr []) = 4.
Proof.
  intros arr c G H. unfold good_arr in G. rewrite Forall_forall in G.
  apply G, nth_In; auto.
Qed.

Lemma Forall_upd : forall A (P : A -> Prop) i v l, Forall P l -> P v -> Forall P (upd i v l).
Proof.
  induction i; destruct l; simpl; intros; auto; inversion H; subst; constructor; auto.
Qed.

Lemma fill_adj_spec : forall pos adj arr,
  good_arr arr -> (forall c j, In (c, j) adj -> c < length arr /\ j < 4) ->
  exists arr', fill_adj pos adj arr = Ok arr' /\ good_arr arr' /\ length arr' = length arr /\
    forall c j, c < length arr -> j < 4 ->
      nth j (nth c arr' []) 0 =
      if in_dec pair_dec (c, j) adj then pos else nth j (nth c arr []) 0.
Proof.
  intros pos adj; induction adj as [|[c0 j0] r IH]; intros arr G B.
  - exists arr. repeat split; auto.
  - cbn [fill_adj]. destruct (B c0 j0) as [B0 B1]; [simpl; auto|].
    apply Nat.ltb_lt in B0 as B0'. apply Nat.ltb_lt in B1 as B1'. rewrite B0', B1'.
    cbn [lf_assert bind].
    set (arr1 := upd c0 (upd j0 pos (nth c0 arr [])) arr).
    assert (good_arr arr1) as G1.
    { apply Forall_upd; auto. rewrite upd_length. apply good_arr_row; auto. }
    assert (length arr1 = length arr) as L1 by apply upd_length.
    destruct (IH arr1 G1) as (arr' & E & G' & L' & V).
    { intros; rewrite L1; apply B; simpl; auto. }
    exists arr'; split; [exact E|split; [exact G'|split; [congruence|]]].
    intros c j Hc Hj. rewrite V by (rewrite ?L1; auto).
    destruct (in_dec pair_dec (c, j) r) as [Hr|Hr].
    + destruct in_dec as [|N]; auto. exfalso; apply N; simpl; auto.
    + unfold arr1. destruct (Nat.eq_dec c0 c) as [<-|Nc].
      * rewrite nth_upd_eq by auto. destruct (Nat.eq_dec j0 j) as [<-|Nj].
        -- rewrite nth_upd_eq by (rewrite good_arr_row; auto).
           destruct in_dec as [|N]; auto. exfalso; apply N; simpl; auto.
        -- rewrite nth_upd_neq by auto. destruct in_dec as [[C|C]|N]; auto; [congruence|tauto].
      * rewrite nth_upd_neq by auto. destruct in_dec as [[C|C]|N]; auto; [congruence|tauto].
Qed.

Lemma fill_spec : forall m pos arr,
  good_arr arr ->
  (forall e c j, In e m -> In (c, j) (ed_adj (snd e)) -> c < length arr /\ j < 4) ->
  exists arr', fill_edge_indices m pos arr = Ok arr' /\ good_arr arr' /\ length arr' = length arr /\
    forall c j, c < length arr -> j < 4 ->
      (exists p e, nth_error m p = Some e /\ In (c, j) (ed_adj (snd e)) /\
                   nth j (nth c arr' []) 0 = pos + p) \/
      ((forall e, In e m -> ~ In (c, j) (ed_adj (snd e))) /\
       nth j (nth c arr' []) 0 = nth j (nth c arr []) 0).
Proof.
  induction m as [|[k d] t IH]; intros pos arr G B.
  - exists arr. repeat split; auto.
  - cbn [fill_edge_indices].
    destruct (fill_adj_spec pos (ed_adj d) arr G) as (arr1 & E1 & G1 & L1 & V1).
    { intros. apply (B (k, d)); simpl; auto. }
    rewrite E1; cbn [bind].
    destruct (IH (S pos) arr1 G1) as (arr2 & E2 & G2 & L2 & V2).
    { intros. rewrite L1. apply (B e); simpl; auto. }
    exists arr2; split; [exact E2|split; [exact G2|split; [congruence|]]].
    intros c j Hc Hj. destruct (V2 c j) as [(p & e & Hp & Ha & Hv)|[Hn Hv]]; try (rewrite ?L1; auto).
    + left. exists (S p), e. repeat split; auto. lia.
    + rewrite Hv, V1 by auto. destruct in_dec as [Hi|Hi].
      * left. exists 0, (k, d). repeat split; auto.
      * right; split; auto. intros e [<-|He]; auto.
Qed.

(** * Cells *)
Definition cell_of (segs : list segment) (eis : list (list nat)) (idx : nat)
           (x : list nat * bool) : cell :=
  let ei := nth idx eis [] in
  let js := seq 0 (num_nodes (cell_type (fst x))) in
  mkCell idx (cell_type (fst x)) (fst x) (map (fun j => nth j ei 0) js)
         (map (edge_orientation (fst x) segs ei) js) (snd x).

Fixpoint cells_from segs eis idx (cs : list (list nat * bool)) : list cell :=
  match cs with
  | [] => []
  | x :: t => cell_of segs eis idx x :: cells_from segs eis (S idx) t
  end.

Lemma cells_from_nth : forall segs eis cs idx i,
  nth_error (cells_from segs eis idx cs) i =
  option_map (cell_of segs eis (idx + i)) (nth_error cs i).
Proof.
  induction cs as [|x t IH]; intros idx [|i]; simpl; auto.
  - rewrite Nat.add_0_r; auto.
  - rewrite IH. replace (S idx + i) with (idx + S i) by lia. auto.
Qed.

Definition is_tria (c : cell) : bool := match c_type c with kTria => true | _ => false end.

Lemma make_cells_eq : forall n ne segs cs eis idx,
  (forall i x j, nth_error cs i = Some x -> j < num_nodes (cell_type (fst x)) ->
     nth j (nth (idx + i) eis []) 0 < ne /\
     edge_matches (fst x) (cell_type (fst x)) segs (nth (idx + i) eis []) j = true) ->
  Forall (fun x => Forall (fun v => v < n) (fst x)) cs ->
  make_cells n ne segs cs eis idx =
    Ok (filter is_tria (cells_from segs eis idx cs),
        filter (fun c => negb (is_tria c)) (cells_from segs eis idx cs)).
Proof.
  induction cs as [|[nodes geo] t IH]; intros eis idx H V; simpl; auto.
  inversion V as [|? ? V1 V2]; subst; simpl in V1.
  assert (forallb (fun v => v <? n) nodes = true) as ->.
  { apply forallb_forall. rewrite Forall_forall in V1. intros x Hx.
    apply Nat.ltb_lt; auto. }
  cbn [verify bind].
  assert (forallb (fun j => nth j (nth idx eis []) 0 <? ne) (seq 0 (num_nodes (cell_type nodes))) = true) as ->.
  { apply forallb_forall. intros j Hj. apply in_seq in Hj. apply Nat.ltb_lt.
    destruct (H 0 (nodes, geo) j eq_refl) as [B _]; [simpl; lia|].
    rewrite Nat.add_0_r in B; auto. }
  cbn [verify bind]. unfold make_cell.
  assert (forallb (edge_matches nodes (cell_type nodes) segs (nth idx eis []))
                  (seq 0 (num_nodes (cell_type nodes))) = true) as ->.
  { apply forallb_forall. intros j Hj. apply in_seq in Hj.
    destruct (H 0 (nodes, geo) j eq_refl) as [_ B]; [simpl; lia|].
    rewrite Nat.add_0_r in B; auto. }
  cbn [verify bind]. rewrite IH; auto.
  2:{ intros i x j Hi Hj. replace (S idx + i) with (idx + S i) by lia. apply H; auto. }
  simpl. unfold is_tria at 2 4. simpl. unfold cell_of at 3 4; simpl.
  unfold cell_type; destruct (length nodes =? 4) eqn:E; simpl; unfold cell_of; simpl;
    unfold cell_type; rewrite E; auto.
Qed.

(** * Pointer tables *)
Lemma place_cells_spec : forall mk cs pos arr,
  NoDup (map c_index cs) ->
  (forall c, In c cs -> nth_error arr (c_index c) = Some None) ->
  exists arr', place_cells mk cs pos arr = Ok arr' /\ length arr' = length arr /\
    (forall p c, nth_error cs p = Some c -> nth_error arr' (c_index c) = Some (Some (mk (pos + p)))) /\
    (forall i, ~ In i (map c_index cs) -> nth_error arr' i = nth_error arr i).
Proof.
  intros mk cs; induction cs as [|c r IH]; intros pos arr ND Hn.
  - exists arr. simpl. repeat split; auto. intros [|p] c H; discriminate.
  - cbn [place_cells]. simpl in ND. inversion ND as [|? ? N1 N2]; subst.
    assert (nth_error arr (c_index c) = Some None) as Hc by (apply Hn; simpl; auto).
    assert (c_index c < length arr) as B by (apply nth_error_Some; congruence).
    apply Nat.ltb_lt in B as B'. rewrite B'. cbn [lf_assert bind].
    rewrite (nth_error_nth _ _ _ Hc). cbn [lf_assert bind].
    destruct (IH (S pos) (upd (c_index c) (Some (mk pos)) arr) N2) as (arr' & E & L & P & O).
    { intros x Hx. rewrite nth_error_upd_neq; [apply Hn; simpl; auto|].
      intro C. apply N1. rewrite C. apply in_map; auto. }
    exists arr'; split; [exact E|split; [rewrite L; apply upd_length|split]].
    + intros [|p] x Hx; simpl in Hx.
      * injection Hx as <-. rewrite O by auto. rewrite Nat.add_0_r.
        apply nth_error_upd_eq; auto.
      * rewrite (P p x Hx). replace (S pos + p) with (pos + S p) by lia; auto.
    + intros i Hi. simpl in Hi. rewrite O by tauto. apply nth_error_upd_neq.
      intro C; apply Hi; auto.
Qed.

Lemma place_ptrs_spec : forall is pos arr,
  NoDup is -> (forall i, In i is -> i < length arr) ->
  exists arr', place_ptrs is pos arr = Ok arr' /\ length arr' = length arr /\
    (forall p i, nth_error is p = Some i -> nth_error arr' i = Some (Some (pos + p))) /\
    (forall i, ~ In i is -> nth_error arr' i = nth_error arr i).
Proof.
  induction is as [|c r IH]; intros pos arr ND Hn.
  - exists arr. simpl. repeat split; auto. intros [|p] c H; discriminate.
  - cbn [place_ptrs]. inversion ND as [|? ? N1 N2]; subst.
    assert (c < length arr) as B by (apply Hn; simpl; auto).
    apply Nat.ltb_lt in B as B'. rewrite B'. cbn [lf_assert bind].
    destruct (IH (S pos) (upd c (Some pos) arr) N2) as (arr' & E & L & P & O).
    { intros x Hx. rewrite upd_length. apply Hn; simpl; auto. }
    exists arr'; split; [exact E|split; [rewrite L; apply upd_length|split]].
    + intros [|p] x Hx; simpl in Hx.
      * injection Hx as <-. rewrite O by auto. rewrite Nat.add_0_r.
        apply nth_error_upd_eq; auto.
      * rewrite (P p x Hx). replace (S pos + p) with (pos + S p) by lia; auto.
    + intros i Hi. simpl in Hi. rewrite O by tauto. apply nth_error_upd_neq.
      intro C; apply Hi; auto.
Qed.
