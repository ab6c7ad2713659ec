(** C28-C32: one refinement step, and histories of a hierarchy. *)
From Coq Require Import List Arith Lia Bool ZArith Reals Permutation.
Import ListNotations.
From Verif Require Import Base MeshModel MeshSpec MeshView MeshViewProofs RefPatModel RefPatSpec RefineModel RefineSpec
  RefineProofs RefineProofs2 RefineProofs3 RefineProofs4.
Local Open Scope nat_scope.

Lemma map_repeat' : forall A B (f : A -> B) x n, map f (repeat x n) = repeat (f x) n.
Proof. intros. induction n; cbn; congruence. Qed.

Lemma list_sum_cons : forall a l, list_sum (a :: l) = a + list_sum l.
Proof. reflexivity. Qed.

Section Step.
Variable L : level.
Let m := l_mesh L.
Let es := l_edges L.
Let cis := l_cells L.
Let N := mv_nodes m.
Let E := length (mv_edges m).
Let F := length (mv_cells m).
Hypothesis W : wf_mesh m.
Hypothesis S0 : simple_mesh m.
Hypothesis Co : compatible L.

Lemma sp_is_split : forall e, sp es e = true <-> is_split L e.
Proof.
  intros e. unfold sp, flag, is_split, es. destruct (nth_error (l_edges L) e) as [ci|].
  - rewrite rp_eqb_eq. split; [eauto|]. intros (x & H & P). congruence.
  - split; [discriminate|]. intros (x & H & P). discriminate.
Qed.
Lemma hE : length es = E.
Proof. exact (co_nedges _ Co). Qed.
Lemma hP : forall e ci, nth_error es e = Some ci -> (ec_pat ci = rp_split \/ ec_pat ci = rp_copy) /\ ec_edges ci = [] /\ ec_points ci = [].
Proof. exact (co_edges _ Co). Qed.
Lemma hC : length cis = F.
Proof. exact (co_ncells _ Co). Qed.
Lemma hCC : forall i, i < F ->
  implemented (ty m i) (cc_pat (cci_at cis i)) = true /\ cc_pat (cci_at cis i) <> rp_nil /\
  good_anchor (ty m i) (cc_pat (cci_at cis i)) (cc_anchor (cci_at cis i)) /\
  (forall j, j < length (cv_edges (cell_at m i)) -> In j (spl m cis i) <-> sp es (nth j (cv_edges (cell_at m i)) 0) = true) /\
  cc_cells (cci_at cis i) = [] /\ cc_edges (cci_at cis i) = [] /\ cc_points (cci_at cis i) = [].
Proof.
  intros i Hi. assert (H1 : nth_error (mv_cells m) i = Some (cell_at m i)) by (apply nth_error_nth'; auto).
  assert (H2 : nth_error cis i = Some (cci_at cis i)) by (apply nth_error_nth'; rewrite hC; auto).
  destruct (co_cells _ Co i _ _ H1 H2) as ([A B D G] & X & Y & Z). split; auto. split; auto. split; auto. split; auto.
  intros j Hj. rewrite sp_is_split. apply G. apply nth_error_nth'. auto.
Qed.

Variables (re : list (option nat)).
Hypothesis HR : refedge_ok (fine_mesh m es cis) re.
Let m' := fine_mesh m es cis.
Let L1 := mkLevel m (fps m) (fes m es cis) (fcs m es cis) (l_ppar L) (l_epar L) (l_cpar L) (l_refedge L) (l_marked L).
Let L' := new_level m' (ppar m es cis) (epar m es cis) (cpar m cis) re.

Lemma nth_map_seq : forall A (f : nat -> A) n i, nth_error (map f (seq 0 n)) i = if i <? n then Some (f i) else None.
Proof.
  intros A f n i. destruct (Nat.ltb_spec i n) as [H|H].
  - rewrite nth_error_map, nth_error_nth' with (d := 0) by (rewrite seq_length; auto). rewrite seq_nth by auto. reflexivity.
  - apply nth_error_None. rewrite map_length, seq_length. auto.
Qed.
Lemma ch22 : forall v, children L1 2 v 2 = if v <? N then [v] else [].
Proof. intros v. unfold children, L1. cbn [l_points l_edges l_cells]. unfold fps. rewrite nth_map_seq. fold N. destruct (v <? N); reflexivity. Qed.
Lemma ch11 : forall e, children L1 1 e 1 = if e <? E then seq (off (bl (gedge m es)) e) (bl (gedge m es) e) else [].
Proof. intros v. unfold children, L1. cbn [l_points l_edges l_cells]. unfold fes. rewrite nth_map_seq. fold E. destruct (v <? E); reflexivity. Qed.
Lemma ch12 : forall e, children L1 1 e 2 = if e <? E then seq (num m es cis (GM e)) (b2n (sp es e)) else [].
Proof. intros v. unfold children, L1. cbn [l_points l_edges l_cells]. unfold fes. rewrite nth_map_seq. fold E. destruct (v <? E); auto. unfold feci, fcci; cbn [ec_points cc_points]. destruct (sp es v); reflexivity. Qed.
Lemma ch00 : forall c, children L1 0 c 0 = if c <? F then seq (off (bl (gcells m cis)) c) (bl (gcells m cis) c) else [].
Proof. intros v. unfold children, L1. cbn [l_points l_edges l_cells]. unfold fcs. rewrite nth_map_seq. fold F. destruct (v <? F); reflexivity. Qed.
Lemma ch01 : forall c, children L1 0 c 1 = if c <? F then seq (off (bl (gedge m es)) E + off (bl (gint m cis)) c) (bl (gint m cis) c) else [].
Proof. intros v. unfold children, L1. cbn [l_points l_edges l_cells]. unfold fcs. rewrite nth_map_seq. fold F. destruct (v <? F); reflexivity. Qed.
Lemma ch02 : forall c, children L1 0 c 2 = if c <? F then seq (num m es cis (GC c)) (b2n (lc_centre (lcs m cis c))) else [].
Proof. intros v. unfold children, L1. cbn [l_points l_edges l_cells]. unfold fcs. rewrite nth_map_seq. fold F. destruct (v <? F); auto. unfold feci, fcci; cbn [ec_points cc_points]. destruct (lc_centre (lcs m cis v)); reflexivity. Qed.
Lemma nth_seq : forall s n k j, nth_error (seq s n) k = Some j <-> k < n /\ j = s + k.
Proof.
  intros s n k j. split.
  - intros H. assert (k < n) by (rewrite <- (seq_length n s); apply nth_error_Some; congruence). split; auto.
    apply (nth_error_nth _ _ 0) in H. rewrite seq_nth in H; auto.
  - intros [H ->]. rewrite nth_error_nth' with (d := 0) by (rewrite seq_length; auto). rewrite seq_nth by auto. reflexivity.
Qed.
Lemma nth_nil : forall A k (x : A), nth_error [] k = Some x <-> False.
Proof. intros A [|k] x; split; try discriminate; tauto. Qed.

(** ** Links *)
Lemma off_one : forall n, off (fun _ => 1) n = n.
Proof. induction n; cbn [off]; lia. Qed.
Lemma app_cases : forall A (l l' : list A) j x, nth_error (l ++ l') j = Some x <->
  nth_error l j = Some x \/ (length l <= j /\ nth_error l' (j - length l) = Some x).
Proof.
  intros A l l' j x. destruct (Nat.lt_ge_cases j (length l)) as [H|H].
  - rewrite nth_error_app1 by auto. split; [auto|]. intros [X|X]; auto. lia.
  - rewrite nth_error_app2 by auto. split; [auto|]. intros [X|X]; [|tauto]. assert (j < length l) by (apply nth_error_Some; congruence). lia.
Qed.
Lemma links : linked L1 L'.
Proof.
  intros d Hd.
  assert (P0 : length (cpar m cis) = length (mv_cells m')).
  { unfold cpar, m'. rewrite pk_flat_length. cbn. rewrite !map_length. unfold fine_gcells. rewrite flat_length. reflexivity. }
  assert (P1 : length (epar m es cis) = length (mv_edges m')).
  { unfold epar, m'. rewrite app_length, !pk_flat_length. cbn. rewrite !map_length. unfold fine_gedges. rewrite app_length, !flat_length. reflexivity. }
  assert (P2 : length (ppar m es cis) = mv_nodes m').
  { unfold ppar, m'. rewrite !app_length, !pk_flat_length. cbn. unfold fnodes. cbn. rewrite off_one. lia. }
  destruct d as [|[|[|d]]]; [| | |lia].
  - split; [exact P0|]. split.
    + intros j pa H. cbn in H. unfold cpar in H. apply pk_nth in H as (c & k & Hc & Hk & -> & ->). exists 0, c, k. cbn. auto.
    + intros cd i k j. change (parents L' 0) with (cpar m cis). unfold cpar. rewrite pk_nth. destruct cd as [|[|[|cd]]].
      * rewrite ch00. destruct (Nat.ltb_spec i F) as [Hi|Hi].
        -- rewrite nth_seq. split.
           ++ intros [A ->]. exists i, k. auto.
           ++ intros (c & k' & A & B & -> & D). injection D; intros; subst. auto.
        -- rewrite nth_nil. split; [tauto|]. intros (c & k' & A & B & D & G). injection G; intros; subst. unfold F in Hi; lia.
      * cbn. rewrite nth_nil. split; [tauto|]. intros (c & k' & A & B & D & G). discriminate.
      * cbn. rewrite nth_nil. split; [tauto|]. intros (c & k' & A & B & D & G). discriminate.
      * cbn. rewrite nth_nil. split; [tauto|]. intros (c & k' & A & B & D & G). discriminate.
  - split; [exact P1|]. split.
    + intros j pa H. cbn in H. unfold epar in H. apply app_cases in H as [H|[_ H]]; apply pk_nth in H as (c & k & Hc & Hk & X & ->).
      * exists 1, c, k. cbn. auto.
      * exists 0, c, k. cbn. auto.
    + intros cd i k j. change (parents L' 1) with (epar m es cis). unfold epar. rewrite app_cases, !pk_nth, pk_flat_length. destruct cd as [|[|[|cd]]].
      * rewrite ch01. destruct (Nat.ltb_spec i F) as [Hi|Hi].
        -- rewrite nth_seq. split.
           ++ intros [A ->]. right. split; [unfold E; lia|]. exists i, k. split; auto. split; auto. split; auto. unfold E; lia.
           ++ intros [(c & k' & A & B & X & D)|(X & c & k' & A & B & Y & D)]; [discriminate|]. injection D; intros; subst. split; auto. unfold E; lia.
        -- rewrite nth_nil. split; [tauto|]. intros [(c & k' & A & B & X & D)|(X & c & k' & A & B & Y & D)]; [discriminate|]. injection D; intros; subst. unfold F in Hi; lia.
      * rewrite ch11. destruct (Nat.ltb_spec i E) as [Hi|Hi].
        -- rewrite nth_seq. split.
           ++ intros [A ->]. left. exists i, k. auto.
           ++ intros [(c & k' & A & B & X & D)|(X & c & k' & A & B & Y & D)]; [|discriminate]. injection D; intros; subst. auto.
        -- rewrite nth_nil. split; [tauto|]. intros [(c & k' & A & B & X & D)|(X & c & k' & A & B & Y & D)]; [|discriminate]. injection D; intros; subst. unfold E in Hi; lia.
      * cbn. rewrite nth_nil. split; [tauto|]. intros [(c & k' & A & B & X & D)|(X & c & k' & A & B & Y & D)]; discriminate.
      * cbn. rewrite nth_nil. split; [tauto|]. intros [(c & k' & A & B & X & D)|(X & c & k' & A & B & Y & D)]; discriminate.
  - split; [exact P2|]. split.
    + intros j pa H. cbn in H. unfold ppar in H. apply app_cases in H as [H|[_ H]]; [|apply app_cases in H as [H|[_ H]]]; apply pk_nth in H as (c & k & Hc & Hk & X & ->).
      * exists 2, c, k. cbn. auto.
      * exists 1, c, k. cbn. auto.
      * exists 0, c, k. cbn. auto.
    + intros cd i k j. change (parents L' 2) with (ppar m es cis). unfold ppar. rewrite !app_cases, !pk_nth, !pk_flat_length, !off_one. destruct cd as [|[|[|cd]]].
      * rewrite ch02. destruct (Nat.ltb_spec i F) as [Hi|Hi].
        -- rewrite nth_seq. cbn [num]. split.
           ++ intros [A ->]. right. split; [lia|]. right. split; [lia|]. exists i, k. split; auto. split; auto. split; auto. lia.
           ++ intros [(c & k' & A & B & X & D)|(X & [(c & k' & A & B & Y & D)|(Z & c & k' & A & B & Y & D)])]; try discriminate. injection D; intros; subst. split; auto. lia.
        -- rewrite nth_nil. split; [tauto|]. intros [(c & k' & A & B & X & D)|(X & [(c & k' & A & B & Y & D)|(Z & c & k' & A & B & Y & D)])]; try discriminate.
           injection D; intros; subst. unfold F in Hi; lia.
      * rewrite ch12. destruct (Nat.ltb_spec i E) as [Hi|Hi].
        -- rewrite nth_seq. cbn [num]. split.
           ++ intros [A ->]. right. split; [lia|]. left. exists i, k. split; auto. split; auto. split; auto. lia.
           ++ intros [(c & k' & A & B & X & D)|(X & [(c & k' & A & B & Y & D)|(Z & c & k' & A & B & Y & D)])]; try discriminate. injection D; intros; subst. split; auto. lia.
        -- rewrite nth_nil. split; [tauto|]. intros [(c & k' & A & B & X & D)|(X & [(c & k' & A & B & Y & D)|(Z & c & k' & A & B & Y & D)])]; try discriminate.
           injection D; intros; subst. unfold E in Hi; lia.
      * rewrite ch22. destruct (Nat.ltb_spec i N) as [Hi|Hi].
        -- change [i] with (seq i 1). rewrite nth_seq. split.
           ++ intros [A ->]. left. exists i, k. rewrite off_one. auto.
           ++ intros [(c & k' & A & B & X & D)|(X & [(c & k' & A & B & Y & D)|(Z & c & k' & A & B & Y & D)])]; try discriminate. injection D; intros; subst.
              rewrite off_one. auto.
        -- rewrite nth_nil. split; [tauto|]. intros [(c & k' & A & B & X & D)|(X & [(c & k' & A & B & Y & D)|(Z & c & k' & A & B & Y & D)])]; try discriminate.
           injection D; intros; subst. unfold N in Hi; lia.
      * cbn. rewrite nth_nil. split; [tauto|]. intros [(c & k' & A & B & X & D)|(X & [(c & k' & A & B & Y & D)|(Z & c & k' & A & B & Y & D)])]; discriminate.
Qed.

(** ** The fine mesh *)
Lemma Forall2_seq : forall A (P : nat -> A -> Prop) l s, (forall k x, nth_error l k = Some x -> P (s + k) x) -> Forall2 P (seq s (length l)) l.
Proof.
  induction l as [|a l IH]; intros s H; cbn; constructor.
  - rewrite <- (Nat.add_0_r s). apply H. reflexivity.
  - apply IH. intros k x Hx. rewrite Nat.add_succ_comm. apply H. exact Hx.
Qed.
Lemma node_child1 : forall v, v < N -> children L1 2 v 2 = [num m es cis (GV v)].
Proof. intros v H. rewrite ch22, (proj2 (Nat.ltb_lt _ _) H). reflexivity. Qed.
Lemma is_split_1 : forall e, e < E -> is_split L1 e <-> sp es e = true.
Proof.
  intros e He. unfold is_split. cbn [L1 l_edges]. unfold fes. rewrite nth_map_seq. fold E. rewrite (proj2 (Nat.ltb_lt _ _) He).
  unfold sp, flag. rewrite (nth_error_nth' _ fresh_eci) by (rewrite hE; auto). fold (eci_at es e). rewrite rp_eqb_eq. split.
  - intros (x & X & P). injection X as <-. exact P.
  - intros P. eexists. split; [reflexivity|exact P].
Qed.
Lemma is_copied_1 : forall e, e < E -> is_copied L1 e <-> sp es e = false.
Proof.
  intros e He. unfold is_copied. cbn [L1 l_edges]. unfold fes. rewrite nth_map_seq. fold E. rewrite (proj2 (Nat.ltb_lt _ _) He).
  assert (Q : nth_error es e = Some (eci_at es e)) by (apply nth_error_nth'; rewrite hE; auto).
  unfold sp, flag. rewrite Q. destruct (hP _ _ Q) as ([P|P] & _); rewrite P; cbn; split; try discriminate.
  - intros (x & X & Y). injection X as <-. cbn in Y. congruence.
  - auto.
  - intros _. eexists. split; [reflexivity|exact P].
Qed.
Lemma gv_lt : forall g, gvalid m es cis g -> num m es cis g < mv_nodes m'.
Proof. intros g H. apply (num_lt m es cis hE hC); auto. Qed.
Lemma stands : forall i n, i < F -> lvalid (num_edges (ty m i)) (spl m cis i) (lc_centre (lcs m cis i)) n = true ->
  stands_for L1 i (cell_at m i) n (num m es cis (gres m i n)).
Proof.
  intros i n Hi V. destruct (shape m W i Hi) as (_ & Ln & Le & _).
  pose proof (gres_valid m es cis W hCC i n Hi V) as GV.
  destruct n as [k|k|]; cbn [stands_for gres].
  - apply lvalid_V in V. exists (nth k (cv_nodes (cell_at m i)) 0). split; [apply nth_error_nth'; lia|].
    rewrite node_child1; auto.
  - apply lvalid_M in V. exists (nth k (cv_edges (cell_at m i)) 0). split; [apply nth_error_nth'; lia|].
    cbn in GV. destruct GV as [A B]. fold E F in A. rewrite ch12, (proj2 (Nat.ltb_lt _ _) A), B. reflexivity.
  - cbn in GV. destruct GV as [A B]. fold E F in A. rewrite ch02, (proj2 (Nat.ltb_lt _ _) A), B. reflexivity.
Qed.
Lemma refined : refined_to L1 m'.
Proof.
  constructor; cbn [L1 l_mesh]; fold N E F.
  - intros v Hv. exists (num m es cis (GV v)). split; [apply node_child1; auto|]. apply gv_lt. exact Hv.
  - intros e a b He Hc. assert (Le : e < E) by (apply nth_error_Some; congruence). apply is_copied_1 in Hc; auto.
    destruct (wm_edges _ W e a b He) as (_ & A & B).
    assert (EA : edge_at m e = (a, b)) by (apply nth_error_nth; auto).
    assert (G : gedge m es e = [(GV a, GV b)]) by (unfold gedge; rewrite Hc, EA; reflexivity).
    exists (off (bl (gedge m es)) e), a, b. rewrite ch11, ch12, !node_child1, (proj2 (Nat.ltb_lt _ _) Le), Hc by auto.
    unfold bl at 2. rewrite G. split; auto. split; auto. split; auto. split; auto.
    pose proof (fine_gedge_edge m es cis e 0 (GV a, GV b) Le ltac:(rewrite G; reflexivity)) as X. rewrite Nat.add_0_r in X.
    cbn. rewrite nth_error_map, X. reflexivity.
  - intros e a b He Hc. assert (Le : e < E) by (apply nth_error_Some; congruence). apply is_split_1 in Hc; auto.
    destruct (wm_edges _ W e a b He) as (_ & A & B).
    assert (EA : edge_at m e = (a, b)) by (apply nth_error_nth; auto).
    assert (G : gedge m es e = [(GV a, GM e); (GM e, GV b)]) by (unfold gedge; rewrite Hc, EA; reflexivity).
    exists (off (bl (gedge m es)) e), (S (off (bl (gedge m es)) e)), a, b, (num m es cis (GM e)).
    rewrite ch11, ch12, !node_child1, (proj2 (Nat.ltb_lt _ _) Le), Hc by auto.
    unfold bl at 2. rewrite G. split; auto. split; auto. split; auto. split; auto. split; [|split].
    + pose proof (fine_gedge_edge m es cis e 0 (GV a, GM e) Le ltac:(rewrite G; reflexivity)) as X. rewrite Nat.add_0_r in X.
      cbn. rewrite nth_error_map, X. reflexivity.
    + pose proof (fine_gedge_edge m es cis e 1 (GM e, GV b) Le ltac:(rewrite G; reflexivity)) as X. rewrite Nat.add_1_r in X.
      unfold m', fine_mesh, mesh_of. cbn [mv_edges]. rewrite nth_error_map, X. reflexivity.
    + apply gv_lt. cbn. auto.
  - intros e He. rewrite is_copied_1, is_split_1 by auto. destruct (sp es e); auto.
  - intros i c ci Hi Hci. assert (Li : i < F) by (apply nth_error_Some; congruence).
    assert (c = cell_at m i) by (symmetry; apply nth_error_nth; auto). subst c.
    cbn [L1 l_cells] in Hci. unfold fcs in Hci. rewrite nth_map_seq in Hci. fold F in Hci. rewrite (proj2 (Nat.ltb_lt _ _) Li) in Hci. injection Hci as <-.
    cbn [fcci cc_pat cc_anchor]. destruct (tables m es cis W hCC i Li) as (CO & T). exists (lcs m cis i). split; [exact CO|].
    rewrite ch02, ch00, ch01, (proj2 (Nat.ltb_lt _ _) Li).
    split; [|split; [|split]].
    + intros Q. rewrite Q. exists (num m es cis (GC i)). split; auto. apply gv_lt. cbn. auto.
    + intros Q. rewrite Q. reflexivity.
    + unfold bl at 2, gcells at 2. rewrite map_length. apply Forall2_seq. intros k l Hl.
      assert (X : nth_error (gcells m cis i) k = Some (map (gres m i) l)) by (unfold gcells; rewrite nth_error_map, Hl; reflexivity).
      apply (fine_gcell_at m cis) in X; auto. unfold m', fine_mesh, mesh_of. cbn [mv_cells]. rewrite !nth_error_map, X. cbn [option_map].
      eexists. split; [reflexivity|]. cbn [cell_of cv_nodes]. rewrite map_map.
      assert (V : forall x, In x l -> lvalid (num_edges (ty m i)) (spl m cis i) (lc_centre (lcs m cis i)) x = true).
      { intros x Hx. apply (ta_valid _ _ _ T l); auto. eapply nth_error_In; eauto. }
      clear X Hl. induction l as [|x l IH]; constructor.
      * apply stands; auto. apply V. left; auto.
      * apply IH. intros. apply V. right; auto.
    + unfold bl at 3, gint at 2. rewrite map_length. apply Forall2_seq. intros k l Hl.
      assert (X : nth_error (gint m cis i) k = Some (gresp m i l)) by (unfold gint; rewrite nth_error_map, Hl; reflexivity).
      apply (fine_gedge_cell m es cis hE hC) in X; auto. unfold m', fine_mesh, mesh_of. cbn [mv_edges]. fold E in X. rewrite nth_error_map, X.
      do 2 eexists. split; [reflexivity|]. destruct (ta_evalid _ _ _ T l (nth_error_In _ _ Hl)). split; apply stands; auto.
  - cbn [L1 l_cells l_edges]. unfold fcs, fes. rewrite !map_length, !seq_length. auto.
  - intros i c ci Hi Hci. assert (Li : i < F) by (apply nth_error_Some; congruence).
    assert (c = cell_at m i) by (symmetry; apply nth_error_nth; auto). subst c.
    cbn [L1 l_cells] in Hci. unfold fcs in Hci. rewrite nth_map_seq in Hci. fold F in Hci. rewrite (proj2 (Nat.ltb_lt _ _) Li) in Hci. injection Hci as <-.
    destruct (hCC i Li) as (A & B & D & G & _). constructor; cbn [fcci cc_pat cc_anchor]; auto.
    intros j e Hj. assert (Lj : j < length (cv_edges (cell_at m i))) by (apply nth_error_Some; congruence).
    rewrite is_split_1.
    + rewrite <- (nth_error_nth _ _ 0 Hj). apply (G j Lj).
    + rewrite <- (nth_error_nth _ _ 0 Hj). apply (edge_lt m W); auto. destruct (shape m W i Li) as (_ & _ & <- & _). exact Lj.
Qed.

(** ** Counts *)
Lemma num_children_lc : forall t p a lc lat, (t = kTria \/ t = kQuad) -> p <> rp_nil -> children_of t p a = Ok lc ->
  NumChildren (mkPattern t p a lat) 0 = Ok (length (lc_cells lc)) /\ NumChildren (mkPattern t p a lat) 1 = Ok (length (lc_edges lc)) /\
  NumChildren (mkPattern t p a lat) 2 = Ok (b2n (lc_centre lc)).
Proof.
  intros t p a lc lat [-> | ->] NN H; destruct p; try congruence; cbn in H; try discriminate;
  try (destruct a as [a|]; [cbn in H|discriminate]); injection H as <-; cbn; auto.
Qed.
Lemma off_sum : forall f n, off f n = list_sum (map f (seq 0 n)).
Proof. intros f n. induction n as [|n IH]; auto. rewrite seq_S, map_app, list_sum_app, <- IH. cbn. lia. Qed.
Lemma cell_children_ok : forall d (f : local_children -> nat),
  (forall t p a lc lat, (t = kTria \/ t = kQuad) -> p <> rp_nil -> children_of t p a = Ok lc -> NumChildren (mkPattern t p a lat) d = Ok (f lc)) ->
  cell_children L1 d (off (fun c => f (lcs m cis c)) F).
Proof.
  intros d f Hf. exists (map (fun c => f (lcs m cis c)) (seq 0 F)). cbn [L1 l_mesh]. rewrite map_length, seq_length. split; auto. split; [apply off_sum|].
  intros i c ci k lat Hc Hci Hk. assert (Li : i < F) by (apply nth_error_Some; congruence).
  assert (c = cell_at m i) by (symmetry; apply nth_error_nth; auto). subst c.
  cbn [L1 l_cells] in Hci. unfold fcs in Hci. rewrite nth_map_seq in Hci, Hk. fold F in Hci. rewrite (proj2 (Nat.ltb_lt _ _) Li) in Hci, Hk.
  injection Hci as <-. injection Hk as <-. cbn [fcci cc_pat cc_anchor].
  apply Hf; [apply (shape m W i Li)|apply hCC; auto|apply (tables m es cis W hCC i Li)].
Qed.
Lemma fes_pat : forall p, length (filter (fun x => rp_eqb (ec_pat x) p) (fes m es cis)) = list_sum (map (fun e => b2n (rp_eqb (ec_pat (eci_at es e)) p)) (seq 0 E)).
Proof.
  intros p. unfold fes. fold E. generalize (seq 0 E). induction l as [|a l IH]; auto. cbn [map filter]. rewrite list_sum_cons.
  change (ec_pat (feci m es cis a)) with (ec_pat (eci_at es a)). destruct (rp_eqb (ec_pat (eci_at es a)) p); cbn; rewrite IH; reflexivity.
Qed.
Lemma eci_in : forall e, e < E -> nth_error es e = Some (eci_at es e).
Proof. intros e He. apply nth_error_nth'. rewrite hE. auto. Qed.
Lemma sp_pat1 : forall e, e < E -> sp es e = rp_eqb (ec_pat (eci_at es e)) rp_split.
Proof. intros e He. unfold sp, flag. rewrite (eci_in e He). reflexivity. Qed.
Lemma split_count : off (fun e => b2n (sp es e)) E = num_split L1.
Proof.
  rewrite off_sum. unfold num_split. cbn [L1 l_edges]. rewrite fes_pat. f_equal. apply map_ext_in. intros e He. apply in_seq in He.
  rewrite sp_pat1 by lia. reflexivity.
Qed.
Lemma edge_count : off (bl (gedge m es)) E = num_copied L1 + 2 * num_split L1.
Proof.
  rewrite off_sum. unfold num_split, num_copied. cbn [L1 l_edges]. rewrite !fes_pat.
  assert (G : forall l, (forall e, In e l -> e < E) -> list_sum (map (bl (gedge m es)) l) =
    list_sum (map (fun e => b2n (rp_eqb (ec_pat (eci_at es e)) rp_copy)) l) + 2 * list_sum (map (fun e => b2n (rp_eqb (ec_pat (eci_at es e)) rp_split)) l)).
  { induction l as [|e l IH]; intros Q; auto. cbn [map]. rewrite !list_sum_cons, IH by (intros; apply Q; right; auto).
    assert (X : bl (gedge m es) e = b2n (rp_eqb (ec_pat (eci_at es e)) rp_copy) + 2 * b2n (rp_eqb (ec_pat (eci_at es e)) rp_split)).
    { assert (He : e < E) by (apply Q; left; auto). unfold bl, gedge. rewrite (sp_pat1 e He). destruct (hP _ _ (eci_in e He)) as ([P|P] & _); rewrite P; reflexivity. }
    rewrite X. lia. }
  apply G. intros e He. apply in_seq in He. lia.
Qed.
Lemma off_bl_map : forall A (f : nat -> list A) g n, (forall c, length (f c) = g c) -> off (bl f) n = off g n.
Proof. intros A f g n H. apply off_ext. intros. unfold bl. auto. Qed.
Lemma counts : exists nc ne np, cell_children L1 0 nc /\ cell_children L1 1 ne /\ cell_children L1 2 np /\
  mv_nodes m' = mv_nodes m + num_split L1 + np /\ length (mv_edges m') = num_copied L1 + 2 * num_split L1 + ne /\ length (mv_cells m') = nc.
Proof.
  exists (off (fun c => length (lc_cells (lcs m cis c))) F), (off (fun c => length (lc_edges (lcs m cis c))) F), (off (fun c => b2n (lc_centre (lcs m cis c))) F).
  split; [apply (cell_children_ok 0 (fun lc => length (lc_cells lc))); intros; apply num_children_lc; auto|].
  split; [apply (cell_children_ok 1 (fun lc => length (lc_edges lc))); intros; apply num_children_lc; auto|].
  split; [apply (cell_children_ok 2 (fun lc => b2n (lc_centre lc))); intros; apply num_children_lc; auto|].
  split; [|split].
  - unfold m'. cbn [fine_mesh mesh_of mv_nodes]. unfold fnodes. cbn [num]. fold E F N. rewrite split_count. reflexivity.
  - unfold m'. cbn [fine_mesh mesh_of mv_edges]. rewrite map_length. unfold fine_gedges. rewrite app_length, !flat_length. fold E F.
    rewrite edge_count. f_equal. apply off_bl_map. intros c. unfold gint. apply map_length.
  - unfold m'. cbn [fine_mesh mesh_of mv_cells]. rewrite !map_length. unfold fine_gcells. rewrite flat_length. fold F.
    apply off_bl_map. intros c. unfold gcells. apply map_length.
Qed.

(** ** Adjacent cells *)
Lemma adj_edge : forall e f, In f (children L1 1 e 1) -> adjacent m' f = adjacent m e.
Proof.
  intros e f H. rewrite ch11 in H. destruct (Nat.ltb_spec e E) as [He|He]; [|destruct H].
  apply in_seq in H. destruct (nth_error (gedge m es e) (f - off (bl (gedge m es)) e)) as [x|] eqn:X.
  - pose proof (count_edge_child m es cis W hE hC hCC S0 e _ x He X) as Q. unfold adjacent. fold m' in Q. rewrite <- Q. f_equal. lia.
  - apply nth_error_None in X. change (bl (gedge m es) e) with (length (gedge m es e)) in H. lia.
Qed.
Lemma adj_cell : forall c f, In f (children L1 0 c 1) -> adjacent m' f = 2.
Proof.
  intros c f H. rewrite ch01 in H. destruct (Nat.ltb_spec c F) as [Hc|Hc]; [|destruct H].
  apply in_seq in H. destruct (nth_error (gint m cis c) (f - (off (bl (gedge m es)) E + off (bl (gint m cis)) c))) as [x|] eqn:X.
  - pose proof (count_cell_child m es cis W hE hC hCC S0 c _ x Hc X) as Q. unfold adjacent. fold m' in Q. rewrite <- Q. fold E. f_equal. lia.
  - apply nth_error_None in X. change (bl (gint m cis) c) with (length (gint m cis c)) in H. lia.
Qed.
Lemma adj_boundary : forall f, f < length (mv_edges m') ->
  (adjacent m' f = 1 <-> exists e, In f (children L1 1 e 1) /\ adjacent m e = 1).
Proof.
  intros f Hf. split.
  - intros A. destruct (links 1 ltac:(lia)) as (Len & Tot & Inv). cbn [entities] in Len.
    destruct (nth_error (parents L' 1) f) as [pa|] eqn:P; [|apply nth_error_None in P; rewrite Len in P; unfold L' in P; cbn in P, Hf; lia].
    destruct (Tot f pa P) as (cd & i & k & -> & Hcd & Hi). apply Inv, nth_error_In in P.
    destruct cd as [|[|cd]]; [|exists i; split; auto; rewrite <- (adj_edge i f); auto|lia].
    rewrite (adj_cell i f P) in A. discriminate.
  - intros (e & He & A). rewrite (adj_edge e f); auto.
Qed.

Lemma new_unrefined : unrefined L'.
Proof.
  unfold unrefined, L', new_level. cbn. split; auto. split; auto. split; auto. split; [apply repeat_length|exact HR].
Qed.
Lemma kept : same_decisions L L1.
Proof.
  unfold same_decisions. cbn. split; auto. split; [|split; [|split; [|repeat split; auto]]].
  - rewrite (co_points _ Co). unfold fps. rewrite map_map. cbn [fpci pc_pat]. fold m N. clear. rewrite map_repeat'. cbn.
    generalize 0. induction N as [|n IH]; intros s; cbn; auto. f_equal. auto.
  - apply nth_error_ext. intros i. unfold fes. rewrite map_map, nth_map_seq, nth_error_map. fold E es.
    destruct (Nat.ltb_spec i E) as [H|H].
    + rewrite (eci_in i H). reflexivity.
    + rewrite (proj2 (nth_error_None es i)); auto. rewrite hE. auto.
  - apply nth_error_ext. intros i. unfold fcs. rewrite map_map, nth_map_seq, nth_error_map. fold F cis.
    destruct (Nat.ltb_spec i F) as [H|H].
    + rewrite (nth_error_nth' cis fresh_cci) by (rewrite hC; auto). reflexivity.
    + rewrite (proj2 (nth_error_None cis i)); auto. rewrite hC. auto.
Qed.
End Step.

Theorem step : forall longest L check, wf_mesh (l_mesh L) -> simple_mesh (l_mesh L) -> compatible L -> refedge_ok (l_mesh L) (l_refedge L) ->
  (forall i, longest i < 3) -> (check = true -> complete_mesh (l_mesh L)) ->
  exists L1 L', PerformRefinement longest L (new_factory check) = Ok (L1, L', new_factory check) /\
    (same_decisions L L1 /\ unrefined L' /\ wf_mesh (l_mesh L') /\ simple_mesh (l_mesh L') /\ (complete_mesh (l_mesh L) -> complete_mesh (l_mesh L')) /\
     refined_to L1 (l_mesh L')) /\ linked L1 L' /\
    (exists nc ne np, cell_children L1 0 nc /\ cell_children L1 1 ne /\ cell_children L1 2 np /\
       mv_nodes (l_mesh L') = mv_nodes (l_mesh L) + num_split L1 + np /\
       length (mv_edges (l_mesh L')) = num_copied L1 + 2 * num_split L1 + ne /\ length (mv_cells (l_mesh L')) = nc) /\
    (forall e f, In f (children L1 1 e 1) -> adjacent (l_mesh L') f = adjacent (l_mesh L) e) /\
    (forall c f, In f (children L1 0 c 1) -> adjacent (l_mesh L') f = 2) /\
    (forall f, f < length (mv_edges (l_mesh L')) ->
       (adjacent (l_mesh L') f = 1 <-> exists e, In f (children L1 1 e 1) /\ adjacent (l_mesh L) e = 1)).
Proof.
  intros longest L check W S Co HR HL HC.
  destruct (perform_ok _ _ _ W (hE L Co) (hP L Co) (hC L Co) (hCC L Co) S longest L check eq_refl (co_points _ Co) eq_refl eq_refl HR HL HC) as (re & P & R).
  do 2 eexists. split; [exact P|]. split; [|split; [|split; [|split; [|split]]]].
  - split; [exact (kept L Co)|]. split; [exact (new_unrefined L re R)|].
    split; [exact (fine_wf _ _ _ W (hE L Co) (hC L Co) (hCC L Co) S)|].
    split; [exact (fine_simple _ _ _ W (hE L Co) (hC L Co) (hCC L Co) S)|].
    split; [exact (fine_complete _ _ _ W (hE L Co) (hC L Co) (hCC L Co) S)|exact (refined L W Co)].
  - exact (links L re).
  - exact (counts L W Co).
  - exact (adj_edge L W S Co).
  - exact (adj_cell L W S Co).
  - exact (adj_boundary L W S Co re).
Qed.

(** ** Uniform refinement *)
Lemma weighted_sum : forall (cs : list cellv) ks a b, length ks = length cs ->
  (forall i c k, nth_error cs i = Some c -> nth_error ks i = Some k -> k = if is_tria c then a else b) ->
  list_sum ks = a * length (filter is_tria cs) + b * length (filter (fun c => negb (is_tria c)) cs).
Proof.
  induction cs as [|c cs IH]; intros [|k ks] a b Hl H; try discriminate; [cbn; lia|].
  rewrite list_sum_cons, (IH ks a b); [|cbn in Hl; lia|intros i c' k' H1 H2; apply (H (S i)); auto].
  rewrite (H 0 c k eq_refl eq_refl). cbn [filter]. destruct (is_tria c); cbn [negb length]; lia.
Qed.
Lemma uniform_children : forall L p d n a b, wf_mesh (l_mesh L) -> length (l_cells L) = length (mv_cells (l_mesh L)) ->
  (forall i ci, nth_error (l_cells L) i = Some ci -> cc_pat ci = p) -> cell_children L d n ->
  (forall an lat, NumChildren (mkPattern kTria p an lat) d = Ok a) -> (forall an lat, NumChildren (mkPattern kQuad p an lat) d = Ok b) ->
  n = a * tria_count (l_mesh L) + b * quad_count (l_mesh L).
Proof.
  intros L p d n a b W HL HP (ks & Lk & -> & Hk) Ha Hb. apply weighted_sum; auto. intros i c k Hc Hi.
  destruct (nth_error (l_cells L) i) as [ci|] eqn:Ci.
  2:{ apply nth_error_None in Ci. assert (i < length (mv_cells (l_mesh L))) by (apply nth_error_Some; congruence). lia. }
  specialize (Hk i c ci k 6%Z Hc Ci Hi). rewrite (HP i ci Ci) in Hk.
  pose proof (wm_cells _ W) as WC. rewrite Forall_forall in WC. specialize (WC c (nth_error_In _ _ Hc)).
  unfold is_tria. destruct (wf_cell_type _ _ WC) as [(T & _)|(T & _)]; rewrite T in *; [rewrite Ha in Hk|rewrite Hb in Hk]; congruence.
Qed.
Lemma all_split : forall es, (forall e, e < length es -> exists ci, nth_error es e = Some ci /\ ec_pat ci = rp_split) ->
  length (filter (fun x => rp_eqb (ec_pat x) rp_split) es) = length es /\ length (filter (fun x => rp_eqb (ec_pat x) rp_copy) es) = 0.
Proof.
  induction es as [|x es IH]; intros H; auto. destruct (H 0) as (ci & X & P); [cbn; lia|]. cbn in X. injection X as <-.
  cbn. rewrite P. cbn. destruct IH as [A B]; [|lia]. intros e He. apply (H (S e)). cbn; lia.
Qed.
Lemma pats_kept : forall A B (f : A -> B) l l', map f l = map f l' -> forall i x, nth_error l i = Some x -> exists y, nth_error l' i = Some y /\ f x = f y.
Proof.
  intros A B f l l' H i x Hx. assert (Q : nth_error (map f l') i = Some (f x)) by (rewrite <- H, nth_error_map, Hx; reflexivity).
  rewrite nth_error_map in Q. destruct (nth_error l' i) as [y|]; [|discriminate]. exists y. split; auto. cbn in Q. congruence.
Qed.
(** Numbers of children of a triangle and a quadrilateral: points, edges, cells. *)
Definition uniform_numbers (p : refpat) : (nat * nat) * (nat * nat) * (nat * nat) :=
  match p with rp_regular => ((0, 1), (3, 4), (4, 4)) | _ => ((1, 1), (6, 4), (6, 4)) end.
Theorem uniform_step : forall longest p H check, (p = rp_regular \/ p = rp_barycentric) -> let m := l_mesh (h_finest H) in
  wf_mesh m -> simple_mesh m -> unrefined (h_finest H) -> h_factory H = new_factory check -> (check = true -> complete_mesh m) ->
  (forall i, longest i < 3) ->
  exists L1 L', RefineRegular longest p H = Ok (mkHier (h_coarser H ++ [L1]) L' (new_factory check)) /\
    l_mesh L1 = m /\ unrefined L' /\ wf_mesh (l_mesh L') /\ simple_mesh (l_mesh L') /\ (complete_mesh m -> complete_mesh (l_mesh L')) /\
    refined_to L1 (l_mesh L') /\ linked L1 L' /\
    l_ppar L1 = l_ppar (h_finest H) /\ l_epar L1 = l_epar (h_finest H) /\ l_cpar L1 = l_cpar (h_finest H) /\
    let '((pt, pq), (et, eq), (ct, cq)) := uniform_numbers p in
    mv_nodes (l_mesh L') = mv_nodes m + length (mv_edges m) + pt * tria_count m + pq * quad_count m /\
    length (mv_edges (l_mesh L')) = 2 * length (mv_edges m) + et * tria_count m + eq * quad_count m /\
    length (mv_cells (l_mesh L')) = ct * tria_count m + cq * quad_count m.
Proof.
  intros longest p H check Hp m W S U HF HC HL. destruct (uniform_flags p (h_finest H) W U Hp) as (Lf & F1 & F2 & F3 & F4 & F5 & F6 & F7 & F8 & F9).
  fold m in F3, F8. unfold RefineRegular. rewrite F1. cbn [bind]. rewrite HF.
  destruct (step longest Lf check) as (L1 & L' & P & (K & U' & W' & S' & C' & R') & LK & (nc & ne & np & A0 & A1 & A2 & B0 & B1 & B2) & _); try rewrite F3; auto.
  { rewrite F4. destruct U as (_ & _ & _ & _ & X). exact X. }
  rewrite P. cbn [bind push]. exists L1, L'. rewrite F3 in *. destruct K as (K1 & K2 & K3 & K4 & K5 & K6 & K7 & K8 & K9).
  rewrite F3 in K1.
  assert (LC : length (l_cells L1) = length (mv_cells (l_mesh L1))).
  { rewrite K1. pose proof (f_equal (@length _) K4) as X. rewrite !map_length in X. rewrite X, (co_ncells _ F2), F3. reflexivity. }
  assert (PA : forall i ci, nth_error (l_cells L1) i = Some ci -> cc_pat ci = p).
  { intros i ci Hi. destruct (pats_kept _ _ _ _ _ K4 i ci Hi) as (cj & Hj & E). injection E as E _. rewrite E. eauto. }
  assert (W1 : wf_mesh (l_mesh L1)) by (rewrite K1; auto).
  assert (NS : num_split L1 = length (mv_edges m) /\ num_copied L1 = 0).
  { assert (LE : length (l_edges L1) = length (mv_edges m)).
    { pose proof (f_equal (@length _) K3) as X. rewrite !map_length in X. rewrite X, (co_nedges _ F2), F3. reflexivity. }
    unfold num_split, num_copied. rewrite <- LE. apply all_split. intros e He. rewrite LE in He. destruct (F8 e He) as (ci & X & Y).
    destruct (pats_kept _ _ _ _ _ (eq_sym K3) e ci X) as (cj & Hj & E). exists cj. split; auto. congruence. }
  destruct NS as [NS1 NS2]. rewrite NS1 in B0, B1. rewrite NS2 in B1.
  do 8 (split; [auto|]). split; [congruence|]. split; [congruence|]. split; [congruence|].
  destruct Hp as [-> | ->]; cbn [uniform_numbers].
  - rewrite (uniform_children L1 rp_regular 2 np 0 1 W1 LC PA A2) in B0 by reflexivity.
    rewrite (uniform_children L1 rp_regular 1 ne 3 4 W1 LC PA A1) in B1 by reflexivity.
    rewrite (uniform_children L1 rp_regular 0 nc 4 4 W1 LC PA A0) in B2 by reflexivity. rewrite K1 in B0, B1, B2. lia.
  - rewrite (uniform_children L1 rp_barycentric 2 np 1 1 W1 LC PA A2) in B0 by reflexivity.
    rewrite (uniform_children L1 rp_barycentric 1 ne 6 4 W1 LC PA A1) in B1 by reflexivity.
    rewrite (uniform_children L1 rp_barycentric 0 nc 6 4 W1 LC PA A0) in B2 by reflexivity. rewrite K1 in B0, B1, B2. lia.
Qed.
Lemma tria_quad : forall m, tria_count m + quad_count m = length (mv_cells m).
Proof.
  intros m. unfold tria_count, quad_count. induction (mv_cells m) as [|c l IH]; auto. cbn. destruct (is_tria c); cbn; lia.
Qed.

(** ** Histories *)
Record good_hier (check : bool) (m0 : mesh) (H : hierarchy) : Prop := {
  gh_factory : h_factory H = new_factory check;
  gh_first : exists L0, nth_error (levels H) 0 = Some L0 /\ l_mesh L0 = m0;
  gh_meshes : forall L, In L (levels H) -> wf_mesh (l_mesh L) /\ simple_mesh (l_mesh L) /\ (complete_mesh m0 -> complete_mesh (l_mesh L));
  gh_finest : unrefined (h_finest H);
  gh_steps : forall i L L', nth_error (levels H) i = Some L -> nth_error (levels H) (S i) = Some L' -> refined_to L (l_mesh L') /\ linked L L'
}.
Lemma push_good : forall check m0 H L1 L', good_hier check m0 H -> l_mesh L1 = l_mesh (h_finest H) ->
  l_ppar L1 = l_ppar (h_finest H) -> l_epar L1 = l_epar (h_finest H) -> l_cpar L1 = l_cpar (h_finest H) ->
  unrefined L' -> wf_mesh (l_mesh L') -> simple_mesh (l_mesh L') -> (complete_mesh (l_mesh (h_finest H)) -> complete_mesh (l_mesh L')) ->
  refined_to L1 (l_mesh L') -> linked L1 L' -> good_hier check m0 (mkHier (h_coarser H ++ [L1]) L' (new_factory check)).
Proof.
  intros check m0 H L1 L' [G1 (L0 & G2 & G2') G3 G4 G5] HM HP HE HC U W SS C' R K.
  assert (FIN : In (h_finest H) (levels H)) by (apply in_app_iff; right; left; auto).
  constructor; auto.
  - unfold levels in *. cbn [h_coarser h_finest]. destruct (h_coarser H) as [|x l]; cbn in *.
    + injection G2 as <-. exists L1. split; auto. congruence.
    + injection G2 as <-. exists x. auto.
  - unfold levels. cbn [h_coarser h_finest]. intros L HL. rewrite !in_app_iff in HL. destruct (G3 _ FIN) as (X1 & X2 & X3).
    destruct HL as [[HL|[<-|[]]]|[<-|[]]].
    + apply G3. apply in_app_iff; auto.
    + rewrite HM. auto.
    + auto.
  - intros i L L2. unfold levels in *. cbn [h_coarser h_finest]. rewrite <- app_assoc. cbn [app].
    intros H1 H2. set (n := length (h_coarser H)) in *. destruct (Nat.lt_ge_cases i n) as [Hi|Hi].
    + rewrite nth_error_app1 in H1 by auto. destruct (Nat.lt_ge_cases (S i) n) as [Hj|Hj].
      * rewrite nth_error_app1 in H2 by auto. apply (G5 i); [rewrite nth_error_app1 by auto|rewrite nth_error_app1 by auto]; auto.
      * rewrite nth_error_app2 in H2 by auto. fold n in H2. replace (S i - n) with 0 in H2 by lia. cbn in H2. injection H2 as <-.
        destruct (G5 i L (h_finest H)) as [Q1 Q2].
        { rewrite nth_error_app1 by auto. auto. }
        { rewrite nth_error_app2 by auto. fold n. replace (S i - n) with 0 by lia. reflexivity. }
        rewrite HM. split; auto. intros d Hd. specialize (Q2 d Hd). rewrite HM.
        replace (parents L1 d) with (parents (h_finest H) d); auto. destruct d as [|[|[|d]]]; cbn; congruence.
    + rewrite nth_error_app2 in H1, H2 by lia. fold n in H1, H2. destruct (i - n) as [|[|k]] eqn:Ei.
      * replace (S i - n) with 1 in H2 by lia. cbn in H1, H2. injection H1 as <-. injection H2 as <-. auto.
      * replace (S i - n) with 2 in H2 by lia. discriminate.
      * cbn in H1. destruct k; discriminate.
Qed.
Lemma finest_in : forall H, In (h_finest H) (levels H).
Proof. intros H. apply in_app_iff; right; left; auto. Qed.
Lemma hop_good : forall o check m0 H, good_hier check m0 H -> (check = true -> complete_mesh m0) -> good_hop o ->
  exists H', apply_hop o H = Ok H' /\ good_hier check m0 H' /\ length (levels H') = length (levels H) + (if is_refinement o then 1 else 0).
Proof.
  intros o check m0 H G HC Ho. destruct (gh_meshes _ _ _ G _ (finest_in H)) as (W & SS & C').
  assert (HC' : check = true -> complete_mesh (l_mesh (h_finest H))) by auto.
  destruct o as [mk|lg p|lg]; cbn [apply_hop is_refinement].
  - pose proof (gh_finest _ _ _ G) as (U1 & U2 & U3 & U4 & U5). unfold MarkEdges. rewrite U4, Nat.eqb_refl. cbn [verify bind]. eexists. split; [reflexivity|].
    split; [|unfold levels; cbn; rewrite !app_length; cbn; lia].
    destruct G as [G1 (L0 & G2 & G2') G3 G4 G5]. constructor; auto.
    + unfold levels in *. cbn. destruct (h_coarser H); cbn in *; [injection G2 as <-|injection G2 as <-]; eauto.
    + unfold levels. cbn. intros L HL. rewrite in_app_iff in HL. destruct HL as [HL|[<-|[]]]; [apply G3; apply in_app_iff; auto|cbn; auto].
    + cbn [h_finest]. unfold unrefined. cbn. rewrite map_length, seq_length. auto.
    + intros i L L2. unfold levels. cbn [h_coarser h_finest]. intros H1 H2. set (n := length (h_coarser H)) in *.
      assert (Hi : i < n). { assert (S i < length (h_coarser H ++ [h_finest H])) by (rewrite app_length; cbn; assert (X : nth_error (h_coarser H ++ [mkLevel (l_mesh (h_finest H)) (l_points (h_finest H)) (l_edges (h_finest H)) (l_cells (h_finest H)) (l_ppar (h_finest H)) (l_epar (h_finest H)) (l_cpar (h_finest H)) (l_refedge (h_finest H)) (map mk (seq 0 (length (mv_edges (l_mesh (h_finest H))))))]) (S i) <> None) by congruence; apply nth_error_Some in X; rewrite app_length in X; exact X). rewrite app_length in H0. cbn in H0. unfold n. lia. }
      rewrite nth_error_app1 in H1 by auto. destruct (Nat.lt_ge_cases (S i) n) as [Hj|Hj].
      * rewrite nth_error_app1 in H2 by auto. apply (G5 i); unfold levels; rewrite nth_error_app1 by auto; auto.
      * rewrite nth_error_app2 in H2 by auto. fold n in H2. replace (S i - n) with 0 in H2 by lia. cbn in H2. injection H2 as <-.
        destruct (G5 i L (h_finest H)) as [Q1 Q2].
        { unfold levels. rewrite nth_error_app1 by auto. auto. }
        { unfold levels. rewrite nth_error_app2 by auto. fold n. replace (S i - n) with 0 by lia. reflexivity. }
        split; [exact Q1|]. intros d Hd. specialize (Q2 d Hd). destruct d as [|[|[|d]]]; exact Q2 || lia.
  - destruct Ho as [Hl Hp]. destruct (uniform_step lg p H check Hp W SS (gh_finest _ _ _ G) (gh_factory _ _ _ G) HC' Hl)
      as (L1 & L' & E & HM & U & W' & S' & C2 & R & K & P1 & P2 & P3 & _).
    rewrite E. eexists. split; [reflexivity|]. split; [eapply push_good; eauto|]. unfold levels. cbn. rewrite !app_length. cbn. lia.
  - cbn in Ho. unfold RefineMarked. destruct (marking_closure _ W (gh_finest _ _ _ G)) as (Lc & M1 & Co & M3 & M4 & M5 & M6 & M7 & M8 & _).
    rewrite M1 by lia. cbn [bind]. rewrite (gh_factory _ _ _ G).
    destruct (step lg Lc check) as (L1 & L' & P & (K & U' & W' & S' & C2 & R') & LK & _); try rewrite M3; auto.
    { rewrite M4. destruct (gh_finest _ _ _ G) as (_ & _ & _ & _ & X). exact X. }
    rewrite P. cbn [bind push]. eexists. split; [reflexivity|].
    destruct K as (K1 & K2 & K3 & K4 & K5 & K6 & K7 & K8 & K9). rewrite M3 in *.
    split; [apply (push_good check m0 H L1 L'); auto; congruence|].
    unfold levels. cbn. rewrite !app_length. cbn. lia.
Qed.
Lemma run_good : forall os check m0 H, good_hier check m0 H -> (check = true -> complete_mesh m0) -> Forall good_hop os ->
  exists H', run_hops os H = Ok H' /\ good_hier check m0 H' /\ length (levels H') = length (levels H) + length (filter is_refinement os).
Proof.
  induction os as [|o os IH]; intros check m0 H G HC Ho; cbn [run_hops].
  - exists H. cbn. auto.
  - inversion Ho as [|? ? H1 H2]; subst. destruct (hop_good o check m0 H G HC H1) as (H' & E & G' & Ln). rewrite E. cbn [bind].
    destruct (IH check m0 H' G' HC H2) as (H'' & E' & G'' & Ln'). exists H''. split; auto. split; auto. cbn. destruct (is_refinement o); cbn; lia.
Qed.
Lemma new_good : forall longest check m, wf_mesh m -> simple_mesh m -> (forall i, longest i < 3) ->
  good_hier check m (new_hierarchy longest m (new_factory check)).
Proof.
  intros longest check m W S HL. constructor; auto.
  - exists (base_level longest m). auto.
  - intros L [<-|[]]. cbn. auto.
  - apply base_unrefined; auto.
  - intros i L L' H1 H2. unfold levels in H2. cbn in H2. destruct i; discriminate.
Qed.
Theorem any_history : forall os longest check m, wf_mesh m -> simple_mesh m -> (check = true -> complete_mesh m) -> (forall i, longest i < 3) ->
  Forall good_hop os ->
  exists H, run_hops os (new_hierarchy longest m (new_factory check)) = Ok H /\
    length (levels H) = S (length (filter is_refinement os)) /\
    (exists L0, nth_error (levels H) 0 = Some L0 /\ l_mesh L0 = m) /\
    (forall L, In L (levels H) -> wf_mesh (l_mesh L) /\ simple_mesh (l_mesh L) /\ (complete_mesh m -> complete_mesh (l_mesh L))) /\
    (forall i L L', nth_error (levels H) i = Some L -> nth_error (levels H) (S i) = Some L' -> refined_to L (l_mesh L') /\ linked L L').
Proof.
  intros os longest check m W S HC HL Ho. destruct (run_good os check m _ (new_good longest check m W S HL) HC Ho) as (H & E & G & Ln).
  exists H. split; auto. split; [cbn in Ln; lia|]. destruct G as [_ A B _ D]. auto.
Qed.

(** ** Uniform hierarchies *)
Lemma uniform_steps_ok : forall n p lg k check m0 H, (p = rp_regular \/ p = rp_barycentric) -> (forall j i, lg j i < 3) ->
  good_hier check m0 H -> (check = true -> complete_mesh m0) ->
  (forall i L, p = rp_regular -> nth_error (levels H) i = Some L -> length (mv_cells (l_mesh L)) = 4 ^ i * length (mv_cells m0)) ->
  exists H', uniform_steps lg p n k H = Ok H' /\ good_hier check m0 H' /\ length (levels H') = length (levels H) + n /\
    (forall i L, p = rp_regular -> nth_error (levels H') i = Some L -> length (mv_cells (l_mesh L)) = 4 ^ i * length (mv_cells m0)).
Proof.
  induction n as [|n IH]; intros p lg k check m0 H Hp HL G HC Q; cbn [uniform_steps].
  - exists H. split; auto.
  - destruct (gh_meshes _ _ _ G _ (finest_in H)) as (W & SS & C').
    destruct (uniform_step (lg k) p H check Hp W SS (gh_finest _ _ _ G) (gh_factory _ _ _ G)) as (L1 & L' & E & HM & U & W' & S' & C2 & R & K & P1 & P2 & P3 & X); auto.
    rewrite E. cbn [bind]. destruct (IH p lg (S k) check m0 (mkHier (h_coarser H ++ [L1]) L' (new_factory check))) as (H' & E' & G' & L2 & Q'); auto.
    + eapply push_good; eauto.
    + intros i L Ep Hi. unfold levels in Hi. cbn [h_coarser h_finest] in Hi. subst p. cbn [uniform_numbers] in X. destruct X as (_ & _ & X).
      assert (X' : length (mv_cells (l_mesh L')) = 4 * length (mv_cells (l_mesh (h_finest H)))) by (rewrite X; pose proof (tria_quad (l_mesh (h_finest H))); lia).
      rewrite <- app_assoc in Hi. cbn [app] in Hi. unfold levels in Q. set (nn := length (h_coarser H)) in *.
      assert (QF : length (mv_cells (l_mesh (h_finest H))) = 4 ^ nn * length (mv_cells m0)).
      { apply Q; auto. rewrite nth_error_app2 by auto. fold nn. rewrite Nat.sub_diag. reflexivity. }
      destruct (Nat.lt_ge_cases i nn) as [Hl|Hl].
      * rewrite nth_error_app1 in Hi by auto. apply Q; auto. rewrite nth_error_app1 by auto. auto.
      * rewrite nth_error_app2 in Hi by auto. fold nn in Hi. destruct (i - nn) as [|[|j]] eqn:Ei.
        -- cbn in Hi. injection Hi as <-. replace i with nn by lia. rewrite HM. exact QF.
        -- cbn in Hi. injection Hi as <-. replace i with (S nn) by lia. rewrite X', QF. cbn [Nat.pow]. lia.
        -- cbn in Hi. destruct j; discriminate.
    + exists H'. split; auto. split; auto. split; auto. rewrite L2. unfold levels. cbn. rewrite !app_length. cbn. lia.
Qed.
Theorem uniform_hierarchy : forall n p lg m, wf_mesh m -> simple_mesh m -> complete_mesh m -> (p = rp_regular \/ p = rp_barycentric) -> (forall j i, lg j i < 3) ->
  exists H, GenerateMeshHierarchy lg m n p = Ok H /\ length (levels H) = S n /\
    (exists L0, nth_error (levels H) 0 = Some L0 /\ l_mesh L0 = m) /\
    (forall L, In L (levels H) -> wf_mesh (l_mesh L) /\ simple_mesh (l_mesh L) /\ complete_mesh (l_mesh L)) /\
    (forall i L L', nth_error (levels H) i = Some L -> nth_error (levels H) (S i) = Some L' -> refined_to L (l_mesh L') /\ linked L L') /\
    (p = rp_regular -> forall i L, nth_error (levels H) i = Some L -> length (mv_cells (l_mesh L)) = 4 ^ i * length (mv_cells m)).
Proof.
  intros n p lg m W S C' Hp HL. destruct (uniform_steps_ok n p lg 1 true m _ Hp HL (new_good (lg 0) true m W S (HL 0)) (fun _ => C')) as (H & E & G & Ln & Q).
  - intros i L _ Hi. unfold levels in Hi. cbn in Hi. destruct i; [injection Hi as <-; cbn; lia|destruct i; discriminate].
  - exists H. split; [exact E|]. split; [cbn in Ln; lia|]. destruct G as [_ A B _ D]. split; auto. split; auto.
    intros L HL'. destruct (B L HL') as (X & Y & Z). auto.
Qed.

Lemma step_det : forall longest L check L1 L' f, PerformRefinement longest L (new_factory check) = Ok (L1, L', f) -> forall P : level -> level -> Prop,
  (exists L1 L', PerformRefinement longest L (new_factory check) = Ok (L1, L', new_factory check) /\ P L1 L') -> P L1 L'.
Proof. intros longest L check L1 L' f H P (A & B & E & Q). rewrite H in E. injection E as -> -> ->. auto. Qed.
