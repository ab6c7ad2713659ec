(** Proofs for C67: which files can be read. *)
From Coq Require Import Reals String List Arith Bool ZArith Lia.
Import ListNotations.
From Verif Require Import Base MeshModel MeshSpec MeshProofs5 GeoModel GmshModel GmshSpec GmshProofs GmshProofs2 GmshProofs3 GmshProofs4 GmshProofs5 GmshProofs6 GmshProofs7.
Local Open Scope list_scope.

Lemma F2_at' : forall A B (P : A -> B -> Prop) l r k b, Forall2 P l r -> nth_error r k = Some b -> exists a, nth_error l k = Some a /\ P a b.
Proof. intros A B P l r k b H. revert k. induction H; intros [|k] E; cbn in E; try discriminate; [injection E as <-; eexists; split; [reflexivity|auto]|apply IHForall2, E]. Qed.
Lemma in_first : forall A k (l : list A) x, In x (firstn k l) -> In x l.
Proof. intros A k l x H. rewrite <- (firstn_skipn k l). apply in_app_iff. left. exact H. Qed.
Lemma corner_count : forall t, (t = POINT \/ kind_of t <> None) -> (num_corners t <= NumNodes t)%nat /\ (DimOf t <= 2)%nat /\ ((DimOf t = 0)%nat -> t = POINT) /\
  ((DimOf t = 1)%nat -> num_corners t = 2%nat) /\ ((DimOf t = 2)%nat -> (3 <= num_corners t)%nat).
Proof. intros t [->|H]; [cbn; repeat split; intros; try lia; auto|]. destruct t; try (elim H; reflexivity); cbn; repeat split; intros; try lia; auto. Qed.

Section Translate.
Variables (dw : nat) (C : content).
Hypothesis VC : valid_content dw C.
Hypothesis MC : forall n, co_main C n = true -> exists i, In i (co_items C) /\ (DimOf (it_type i) = 1 \/ DimOf (it_type i) = 2)%nat /\ In n (corners (it_type i) (it_nodes i)).
Definition isnode (v n : nat) : Prop := exists c, nth_error (main_nodes C) v = Some (n, c).
Lemma mains_nodup : NoDup (map fst (main_nodes C)).
Proof. apply nodup_filter. apply (vc_unique _ _ VC). Qed.
Lemma isnode_fun : forall v n n', isnode v n -> isnode v n' -> n = n'.
Proof. intros v n n' (c & H) (c' & H'). congruence. Qed.
Lemma isnode_inj : forall v v' n, isnode v n -> isnode v' n -> v = v'.
Proof. intros v v' n (c & H) (c' & H'). eapply nodup_nth; [apply mains_nodup|exact H|exact H']. Qed.
Lemma isnode_exists : forall n, In n (map fst (co_nodes C)) -> co_main C n = true -> exists v, isnode v n.
Proof.
  intros n H M. apply in_map_iff in H as ((n', c) & <- & H). cbn [fst] in *. assert (IN : In (n', c) (main_nodes C)) by (apply filter_In; auto).
  apply In_nth_error in IN as (v & IN). exists v, c. exact IN.
Qed.
Lemma corners_length : forall i, In i (co_items C) -> length (corners (it_type i) (it_nodes i)) = num_corners (it_type i).
Proof.
  intros i Hi. unfold corners. rewrite firstn_length. destruct (vc_nodes _ _ VC i Hi) as [L _]. destruct (corner_count _ (vc_type _ _ VC i Hi)) as (A & _). lia.
Qed.
Lemma edge_corners : forall i, In i (items_of 1 C) -> corners (it_type i) (it_nodes i) = [fst (edge_ends i); snd (edge_ends i)].
Proof.
  intros i Hi. unfold items_of in Hi. apply filter_In in Hi as [Hi D]. apply Nat.eqb_eq in D. pose proof (corners_length i Hi) as L.
  destruct (corner_count _ (vc_type _ _ VC i Hi)) as (A & _ & _ & B & _). specialize (B D). destruct (vc_nodes _ _ VC i Hi) as [LN _].
  unfold edge_ends, corners. rewrite B. destruct (it_nodes i) as [|x [|y r]]; cbn [length] in LN; try lia. reflexivity.
Qed.
Lemma same_pair_iff : forall a b a' b' n m n' m', isnode a n -> isnode b m -> isnode a' n' -> isnode b' m' -> (same_pair (a, b) (a', b') <-> same_pair (n, m) (n', m')).
Proof.
  intros a b a' b' n m n' m' A B A' B'. unfold same_pair. cbn [fst snd]. split; intros [[E1 E2]|[E1 E2]]; subst.
  - left. split; eapply isnode_fun; eauto.
  - right. split; eapply isnode_fun; eauto.
  - left. split; eapply isnode_inj; eauto.
  - right. split; eapply isnode_inj; eauto.
Qed.
Lemma F2_nth_node : forall vs ns k, Forall2 isnode vs ns -> (k < length vs)%nat -> isnode (nth k vs 0%nat) (nth k ns 0%nat).
Proof. intros vs ns k H. revert k. induction H; intros k L; [cbn in L; lia|]. destruct k; cbn [nth]; auto. apply IHForall2. cbn in L. lia. Qed.
Lemma side_node : forall vs ns j, Forall2 isnode vs ns -> (j < length vs)%nat -> isnode (fst (side vs j)) (fst (side ns j)) /\ isnode (snd (side vs j)) (snd (side ns j)).
Proof.
  intros vs ns j H L. unfold side. cbn [fst snd]. rewrite <- (F2_length _ _ _ _ _ H). split; apply F2_nth_node; auto. apply Nat.mod_upper_bound. lia.
Qed.
Section History.
Variable h : list call.
Hypothesis HH : history_of C h.
Lemma seg_at : forall k x, nth_error (segments_of h) k = Some x -> exists i a b, nth_error (items_of 1 C) k = Some i /\ x = ([a; b], true) /\ isnode a (fst (edge_ends i)) /\ isnode b (snd (edge_ends i)).
Proof.
  intros k x Hx. destruct HH as (_ & HS & _). destruct (F2_at' _ _ _ _ _ _ _ HS Hx) as (i & E & A & B). rewrite (edge_corners i (nth_error_In _ _ E)) in A. destruct x as [ns g]. cbn [fst snd] in *. subst g.
  inversion A as [|a ? l ? Ha Hl]; subst. inversion Hl as [|b ? l' ? Hb Hn]; subst. inversion Hn; subst. exists i, a, b. auto.
Qed.
Lemma seg_of : forall k i, nth_error (items_of 1 C) k = Some i -> exists a b, nth_error (segments_of h) k = Some ([a; b], true) /\ isnode a (fst (edge_ends i)) /\ isnode b (snd (edge_ends i)).
Proof.
  intros k i Hi. destruct HH as (_ & HS & _). destruct (F2_at _ _ _ _ _ _ _ HS Hi) as (x & E & _). destruct (seg_at k x E) as (i' & a & b & E1 & -> & A & B).
  assert (i' = i) by congruence. subst. eauto.
Qed.
Lemma cell_at_ : forall k x, nth_error (cells_of h) k = Some x -> exists i, nth_error (items_of 2 C) k = Some i /\ snd x = true /\ Forall2 isnode (fst x) (corners (it_type i) (it_nodes i)) /\ length (fst x) = num_corners (it_type i).
Proof.
  intros k x Hx. destruct HH as (_ & _ & HS). destruct (F2_at' _ _ _ _ _ _ _ HS Hx) as (i & E & A & B). exists i. split; [auto|]. split; [auto|]. split; [auto|].
  rewrite (F2_length _ _ _ _ _ A). apply corners_length. apply nth_error_In in E. apply filter_In in E as [E _]. exact E.
Qed.
Lemma cell_of_ : forall k i, nth_error (items_of 2 C) k = Some i -> exists ns, nth_error (cells_of h) k = Some (ns, true) /\ Forall2 isnode ns (corners (it_type i) (it_nodes i)) /\ length ns = num_corners (it_type i).
Proof.
  intros k i Hi. destruct HH as (_ & _ & HS). destruct (F2_at _ _ _ _ _ _ _ HS Hi) as ((ns, g) & E & _). destruct (cell_at_ k _ E) as (i' & E1 & E2 & A & B). cbn [fst snd] in *. subst g.
  assert (i' = i) by congruence. subst. eauto.
Qed.
Lemma consistent_iff : consistent h <-> consistent_content C.
Proof.
  split.
  - intros (H1 & H2 & H3). split; [|split].
    + intros i Hi E. apply In_nth_error in Hi as (k & Hi). destruct (seg_of k i Hi) as (a & b & S1 & A & B). destruct (H1 a b true (nth_error_In _ _ S1)) as [_ N]. apply N. rewrite <- E in B. eapply isnode_inj; eauto.
    + intros k l i i' Hi Hi' SP. destruct (seg_of k i Hi) as (a & b & S1 & A & B). destruct (seg_of l i' Hi') as (a' & b' & S1' & A' & B').
      apply (H2 k l a b true a' b' true S1 S1'). apply (same_pair_iff _ _ _ _ _ _ _ _ A B A' B'). destruct (edge_ends i), (edge_ends i'). exact SP.
    + intros i j Hi Hj E. apply In_nth_error in Hi as (k & Hi). destruct (cell_of_ k i Hi) as (ns & S1 & F & L). rewrite <- L in Hj. destruct (side_node _ _ _ F Hj) as [A B].
      apply (H3 ns true j (nth_error_In _ _ S1) Hj). rewrite <- E in B. eapply isnode_inj; eauto.
  - intros (H1 & H2 & H3). split; [|split].
    + intros a b g Hx. apply In_nth_error in Hx as (k & Hx). destruct (seg_at k _ Hx) as (i & a' & b' & S1 & E & A & B). injection E as <- <- ->. split; [reflexivity|].
      intros <-. apply (H1 i (nth_error_In _ _ S1)). eapply isnode_fun; eauto.
    + intros k l a b g a' b' g' Hx Hx' SP. destruct (seg_at k _ Hx) as (i & ? & ? & S1 & E & A & B). injection E as <- <- ->. destruct (seg_at l _ Hx') as (i' & ? & ? & S1' & E' & A' & B'). injection E' as <- <- ->.
      apply (H2 k l i i' S1 S1'). apply (same_pair_iff _ _ _ _ _ _ _ _ A B A' B') in SP. destruct (edge_ends i), (edge_ends i'). exact SP.
    + intros ns g j Hx Hj E. apply In_nth_error in Hx as (k & Hx). destruct (cell_at_ k _ Hx) as (i & S1 & _ & F & L). cbn [fst] in *. destruct (side_node _ _ _ F Hj) as [A B].
      apply (H3 i j (nth_error_In _ _ S1)); [lia|]. rewrite <- E in B. eapply isnode_fun; eauto.
Qed.
Lemma is_side_iff : forall a b n m, isnode a n -> isnode b m ->
  (is_side h (a, b) <-> exists c j, In c (items_of 2 C) /\ (j < num_corners (it_type c))%nat /\ same_pair (n, m) (side (corners (it_type c) (it_nodes c)) j)).
Proof.
  intros a b n m A B. split.
  - intros (ns & g & j & Hx & Hj & SP). apply In_nth_error in Hx as (k & Hx). destruct (cell_at_ k _ Hx) as (i & S1 & _ & F & L). cbn [fst] in *. destruct (side_node _ _ _ F Hj) as [A' B'].
    exists i, j. split; [eapply nth_error_In; eauto|]. split; [lia|]. destruct (side ns j) as [x y], (side (corners (it_type i) (it_nodes i)) j) as [x' y']. apply (same_pair_iff _ _ _ _ _ _ _ _ A B A' B'). exact SP.
  - intros (c & j & Hc & Hj & SP). apply In_nth_error in Hc as (k & Hc). destruct (cell_of_ k c Hc) as (ns & S1 & F & L). rewrite <- L in Hj. destruct (side_node _ _ _ F Hj) as [A' B'].
    exists ns, true, j. split; [eapply nth_error_In; eauto|]. split; [auto|]. destruct (side ns j) as [x y], (side (corners (it_type c) (it_nodes c)) j) as [x' y']. apply (same_pair_iff _ _ _ _ _ _ _ _ A B A' B'). exact SP.
Qed.
Lemma complete_iff : complete h <-> edges_on_cells C.
Proof.
  split.
  - intros (H1 & _) i Hi. apply In_nth_error in Hi as (k & Hi). destruct (seg_of k i Hi) as (a & b & S1 & A & B). pose proof (H1 a b true (nth_error_In _ _ S1)) as H. apply (is_side_iff _ _ _ _ A B) in H.
    destruct (edge_ends i). exact H.
  - intros H. split.
    + intros a b g Hx. apply In_nth_error in Hx as (k & Hx). destruct (seg_at k _ Hx) as (i & ? & ? & S1 & E & A & B). injection E as <- <- ->. apply (is_side_iff _ _ _ _ A B).
      specialize (H i (nth_error_In _ _ S1)). destruct (edge_ends i). exact H.
    + intros v Hv. destruct HH as (HP & _). rewrite HP in Hv. apply nth_error_Some in Hv. destruct (nth_error (main_nodes C) v) as [[n c]|] eqn:EV; [|contradiction].
      assert (NV : isnode v n) by (exists c; exact EV). assert (MN : co_main C n = true) by (apply nth_error_In, filter_In in EV as [_ EV]; exact EV).
      destruct (MC n MN) as (i & Hi & D & Hn). destruct D as [D|D].
      * assert (I1 : In i (items_of 1 C)) by (apply filter_In; split; [auto|apply Nat.eqb_eq, D]). pose proof (edge_corners i I1) as EC. apply In_nth_error in I1 as (k & I1). destruct (seg_of k i I1) as (a & b & S1 & A & B).
        rewrite EC in Hn. destruct Hn as [<-|[<-|[]]].
        -- assert (v = a) by (eapply isnode_inj; eauto). subst. exists (a, b). split; [left; exists a, b, true; split; [eapply nth_error_In; eauto|left; auto]|reflexivity].
        -- assert (v = b) by (eapply isnode_inj; eauto). subst. exists (b, a). split; [left; exists a, b, true; split; [eapply nth_error_In; eauto|right; auto]|reflexivity].
      * assert (I1 : In i (items_of 2 C)) by (apply filter_In; split; [auto|apply Nat.eqb_eq, D]). apply In_nth_error in I1 as (k & I1). destruct (cell_of_ k i I1) as (ns & S1 & F & L).
        apply (In_nth _ _ 0%nat) in Hn as (j & Hj & En). rewrite <- (F2_length _ _ _ _ _ F) in Hj. exists (side ns j). split; [right; exists ns, true, j; split; [eapply nth_error_In; eauto|split; [auto|left; auto]]|].
        unfold side. cbn [fst]. pose proof (F2_nth_node _ _ j F Hj) as Q. rewrite En in Q. eapply isnode_inj; eauto.
Qed.
End History.

(** *** Insertion succeeds *)
Section Success.
Variables (check : bool) (coords : nat -> res vec) (index : nat -> res (option nat)) (gs : list grp) (tg : nat -> list Z).
Hypothesis TB : tables C coords index.
Hypothesis IT : co_items C = map (item_of tg) gs.
Hypothesis NE : Forall nonempty gs.
Lemma item_valid : forall g, In g gs -> In (item_of tg g) (co_items C).
Proof. intros g Hg. rewrite IT. apply in_map. exact Hg. Qed.
Lemma group_element : forall g el b, In g gs -> RefElOf (g_type g) = Ok el -> el <> kPoint -> (length (main_nodes C) <= f_nodes (b_fac b))%nat ->
  exists b', insert_element dw (g_type g) el (g_nodes g) coords index b = Ok b' /\ f_nodes (b_fac b') = f_nodes (b_fac b).
Proof.
  intros g el b Hg E NP FN. pose proof (item_valid g Hg) as IV. destruct (vc_nodes _ _ VC _ IV) as [LN IN]. cbn [item_of it_type it_nodes] in *. destruct (refel_of _ _ E) as (DI & NC & KP).
  destruct (corner_count (g_type g) (vc_type _ _ VC _ IV)) as (CN & _).
  destruct (vc_type _ _ VC _ IV) as [TP|TK]; [elim NP; apply KP, TP|]. cbn [item_of it_type] in TK. destruct (kind_of (g_type g)) as [k|] eqn:EK; [|elim TK; reflexivity].
  assert (FC : exists cs, collect coords (g_nodes g) = Ok cs).
  { apply collect_exists. intros n Hn. specialize (IN n Hn). apply in_map_iff in IN as ((n', c) & <- & IN). exists c. apply (tb_coords' _ _ _ TB). exact IN. }
  destruct FC as (cs & FC). pose proof (collect_ok _ _ _ _ FC) as FC2. assert (LC : length cs = NumNodes (g_type g)) by (rewrite <- (F2_length _ _ _ _ _ FC2); exact LN).
  destruct (vc_geometry _ _ VC (item_of tg g) k (firstn (num_cols k) cs) IV EK) as (ge & GE).
  { apply F2_firstn. eapply F2_impl; [|exact FC2]. cbn. intros; apply (tb_coords _ _ _ TB); auto. }
  assert (MN : exists mn, collect (fun n => do i <- index n; match i with Some k => Ok k | None => Assert end) (firstn (num_nodes el) (g_nodes g)) = Ok mn /\ Forall (fun v => (v < length (main_nodes C))%nat) mn).
  { rewrite NC. fold (corners (g_type g) (g_nodes g)).
    assert (Q : forall n, In n (corners (g_type g) (g_nodes g)) -> exists v, isnode v n).
    { intros n Hn. apply isnode_exists; [apply IN; unfold corners in Hn; exact (in_first _ _ _ _ Hn)|]. apply (vc_corner _ _ VC (item_of tg g)); auto. }
    revert Q. generalize (corners (g_type g) (g_nodes g)). intros l. induction l as [|n l IHl]; intros Q; [exists []; split; [reflexivity|constructor]|].
    destruct (Q n (or_introl eq_refl)) as (v & c & EV). destruct IHl as (mn & E1 & E2); [intros; apply Q; right; auto|]. exists (v :: mn). cbn [collect]. rewrite (tb_index' _ _ _ TB _ _ _ EV). cbn [bind]. rewrite E1. split; [reflexivity|].
    constructor; auto. apply nth_error_Some. congruence. }
  destruct MN as (mn & MN & MF). pose proof (F2_length _ _ _ _ _ (collect_ok _ _ _ _ MN)) as ML. rewrite firstn_length in ML.
  unfold insert_element. rewrite FC. cbn [bind]. rewrite (geometry_exists _ _ _ _ _ EK LC GE). cbn [bind]. rewrite NC in *. rewrite (proj2 (Nat.leb_le _ _)) by lia. cbn [lf_assert bind]. rewrite MN. cbn [bind].
  unfold insert_entity, add_entity. assert (D1 : (0 <? dimension el)%nat = true) by (destruct el; try contradiction; reflexivity). rewrite D1. cbn [lf_assert bind].
  assert (D2 : forallb (fun n => (n <? f_nodes (b_fac b))%nat) mn = true).
  { apply forallb_forall. intros x Hx. apply Nat.ltb_lt. rewrite Forall_forall in MF. specialize (MF x Hx). lia. }
  rewrite D2. cbn [lf_assert bind]. assert (D3 : (length mn =? num_nodes el)%nat = true) by (apply Nat.eqb_eq; lia). rewrite D3. cbn [lf_assert bind].
  assert (LM : length mn = num_nodes el) by (apply Nat.eqb_eq; exact D3). destruct el; [contradiction|..]; cbn [num_nodes] in LM.
  - destruct mn as [|x [|y [|z r]]]; try discriminate LM. cbn [bind snd]. eexists. split; [reflexivity|reflexivity].
  - cbn [bind snd]. eexists. split; [reflexivity|reflexivity].
  - cbn [bind snd]. eexists. split; [reflexivity|reflexivity].
Qed.
Lemma groups_ok_ : forall l b m, incl l gs -> (length (main_nodes C) <= f_nodes (b_fac b))%nat -> exists q, insert_groups dw coords index l b m = Ok q.
Proof.
  induction l as [|g l IH]; intros b m IN FN; cbn [insert_groups]; [eauto|]. assert (Hg : In g gs) by (apply IN; left; reflexivity). assert (IN' : incl l gs) by (intros x Hx; apply IN; right; auto).
  pose proof (item_valid g Hg) as IV. destruct (corner_count (g_type g) (vc_type _ _ VC _ IV)) as (CN & D2 & CP & _). destruct (refel_exists _ D2) as (el & E). rewrite E. cbn [bind].
  destruct (g_ids g) as [|j js] eqn:EJ; [exfalso; rewrite Forall_forall in NE; exact (NE g Hg EJ)|]. destruct (refel_of _ _ E) as (DI & NC & KP).
  destruct (Nat.eq_dec (DimOf (g_type g)) 0) as [D0|D0].
  - assert (el = kPoint) by (destruct el; cbn in DI; try lia; reflexivity). subst el. cbn [insert_first]. destruct (vc_nodes _ _ VC _ IV) as [LN INN]. pose proof (fun n => vc_corner _ _ VC _ n IV) as CM. cbn [item_of it_nodes it_type] in LN, INN, CM. rewrite (CP D0) in LN, CM. cbn [NumNodes] in LN.
    destruct (g_nodes g) as [|n [|? ?]]; try discriminate LN. cbn [at_ nth_error bind].
    destruct (isnode_exists n (INN n (or_introl eq_refl)) (CM n (or_introl eq_refl))) as (v & c & EV). rewrite (tb_index' _ _ _ TB _ _ _ EV). cbn [bind fst snd insert_point_element]. cbn [dimension Nat.sub].
    remember (upd v (nth v (grow v [] (mi_2 m)) [] ++ [j]) (grow v [] (mi_2 m))) as q eqn:EQ. assert (QL : q <> []).
    { intros ->. apply (f_equal (@length _)) in EQ. rewrite upd_length, grow_length in EQ. cbn in EQ. lia. }
    destruct (push_all_snoc_ok 2 js (mi_set 2 q m) (removelast q) (last q []) ltac:(lia)) as (m' & ->); [cbn [mi_get mi_2 mi_set]; apply app_removelast_last; exact QL|]. cbn [bind]. apply IH; auto.
  - assert (NP : el <> kPoint) by (intros ->; cbn in DI; lia). destruct (group_element g el b Hg E NP FN) as (b1 & E1 & F1).
    assert (EF : insert_first dw coords index (g_type g) el (g_nodes g) j b m = Ok (b1, mi_set (2 - dimension el) (mi_get (2 - dimension el) m ++ [[j]]) m)) by (unfold insert_first; destruct el; [contradiction|..]; rewrite E1; reflexivity).
    rewrite EF. cbn [bind fst snd].
    destruct (push_all_snoc_ok (2 - dimension el) js (mi_set (2 - dimension el) (mi_get (2 - dimension el) m ++ [[j]]) m) (mi_get (2 - dimension el) m) [j] ltac:(lia)) as (m' & ->).
    + destruct el; [contradiction|..]; reflexivity.
    + cbn [bind]. apply IH; auto. lia.
Qed.
Theorem insertion_ok : exists b' m h rets, insert_groups dw coords index gs (start check C) (mkMi [] [] []) = Ok (b', m) /\ run h (new_factory check) = Ok (rets, b_fac b') /\ history_of C h.
Proof.
  destruct (groups_ok_ gs (start check C) (mkMi [] [] []) (incl_refl _)) as ((b', m) & E); [cbn [start b_fac after_points f_nodes new_factory]; lia|].
  exists b', m. destruct (groups_effect dw C coords index (tb_coords _ _ _ TB) (tb_index _ _ _ TB) _ _ _ _ _ E) as ((calls & rets & R & FC) & _). cbn [b_fac start] in R.
  destruct (filter_call C gs calls FC) as (P0 & FS & FL).
  pose proof (run_app _ _ _ _ _ _ _ (run_points (length (main_nodes C)) (new_factory check)) R) as RR.
  exists (repeat (CPoint true) (length (main_nodes C)) ++ calls). eexists. split; [exact E|]. split; [exact RR|].
  destruct (points_repeat (length (main_nodes C)) calls) as (E1 & E2 & E3). unfold history_of. rewrite E1, E2, E3, P0, !(items_groups C gs tg IT). split; [lia|]. split.
  - clear - FS. induction FS; cbn [map]; constructor; auto.
  - clear - FL. induction FL; cbn [map]; constructor; auto.
Qed.
End Success.
End Translate.
