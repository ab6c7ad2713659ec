(** Proofs for C67: the mesh after the insertion of nodes and elements. *)
From Coq Require Import Reals String List Arith Bool ZArith Lia.
Import ListNotations.
From Verif Require Import Base MeshModel MeshSpec MeshProofs5 GeoModel GmshModel GmshSpec GmshProofs GmshProofs2 GmshProofs3.
Local Open Scope list_scope.

Lemma run_app : forall h h' f r f1 r' f2, run h f = Ok (r, f1) -> run h' f1 = Ok (r', f2) -> run (h ++ h') f = Ok (r ++ r', f2).
Proof.
  induction h as [|c h IH]; intros h' f r f1 r' f2 H H'; cbn [run app] in *; [injection H as <- <-; exact H'|].
  apply bind_ok in H as (x & E & H). apply bind_ok in H as (y & E1 & H). injection H as <- <-.
  rewrite E. cbn [bind]. destruct y as [y1 y2]. cbn [fst snd] in *. rewrite (IH _ _ _ _ _ _ E1 H'). reflexivity.
Qed.
Lemma run_points : forall n f, run (repeat (CPoint true) n) f = Ok (seq (f_nodes f) n, after_points n f).
Proof.
  induction n as [|n IH]; intros f; [cbn [repeat run seq]; rewrite after_0; reflexivity|].
  cbn [repeat run issue add_point lf_assert bind seq fst snd]. rewrite IH. cbn [bind fst snd f_nodes].
  assert (EF : mkFactory (f_check f) (S (f_nodes f)) (f_edges f) (f_cells f) = after_points 1 f) by (unfold after_points; f_equal; lia).
  rewrite EF, after_after. do 3 f_equal. lia.
Qed.
Lemma points_repeat : forall n calls, points_of (repeat (CPoint true) n ++ calls) = (n + points_of calls)%nat /\
  segments_of (repeat (CPoint true) n ++ calls) = segments_of calls /\ cells_of (repeat (CPoint true) n ++ calls) = cells_of calls.
Proof.
  induction n as [|n IH]; intros calls; [auto|]. destruct (IH calls) as (A & B & D). unfold points_of, count_calls, segments_of, cells_of in *. cbn [repeat app filter is_point_call is_segment_call is_cell_call length] in *.
  rewrite A. auto.
Qed.

(** *** Numbers of the physical entities *)
Lemma collect_seq : forall A (f : nat -> res A) n k r, collect f (seq k n) = Ok r -> length r = n /\ forall i, (i < n)%nat -> exists a, nth_error r i = Some a /\ f (k + i)%nat = Ok a.
Proof.
  intros A f n. induction n as [|n IH]; intros k r H; cbn [seq collect] in H; [injection H as <-; split; [reflexivity|intros; lia]|].
  ok H. injection H as <-. destruct (IH _ _ E0) as [L I]. split; [cbn; lia|]. intros [|i] Hi; cbn [nth_error].
  - exists a. rewrite Nat.add_0_r. auto.
  - destruct (I i ltac:(lia)) as (b & B1 & B2). exists b. rewrite Nat.add_succ_r. auto.
Qed.
Lemma physical_at : forall M m tags ph c i, physical_of M m tags = Ok ph -> (c <= 2)%nat -> (i < num_entities c M)%nat ->
  exists l, bind (at_ ph c) (fun q => at_ q i) = Ok l /\
    if (i <? length (mi_get c m))%nat then exists ls, Forall2 (fun j x => tags c j = Ok x) (nth i (mi_get c m) []) ls /\ l = concat ls else l = [].
Proof.
  intros M m tags ph c i H Hc Hi. unfold physical_of in H. apply collect_seq in H as [L H]. destruct (H c ltac:(lia)) as (q & Q1 & Q2). rewrite Nat.add_0_l in Q2.
  apply collect_seq in Q2 as [LQ Q2]. destruct (Q2 i Hi) as (l & L1 & L2). rewrite Nat.add_0_l in L2. exists l. unfold at_. rewrite Q1. cbn [bind]. rewrite L1. split; [reflexivity|].
  destruct ((c =? 2)%nat && (length (mi_2 m) <=? i)%nat) eqn:E.
  - apply andb_prop in E as [E1 E2]. apply Nat.eqb_eq in E1. apply Nat.leb_le in E2. subst c. cbn [mi_get]. rewrite (proj2 (Nat.ltb_ge _ _)) by auto. congruence.
  - destruct (i <? length (mi_get c m))%nat; [|congruence]. apply bind_ok in L2 as (ls & E1 & E2). injection E2 as <-. exists ls. split; auto. apply collect_ok. exact E1.
Qed.
Lemma filter_map_com : forall A B (f : A -> B) p l, filter p (map f l) = map f (filter (fun a => p (f a)) l).
Proof. intros A B f p l. induction l as [|a l IH]; [reflexivity|]. cbn [map filter]. destruct (p (f a)); cbn [map]; rewrite IH; reflexivity. Qed.

Section Common.
Variables (check : bool) (dw : nat) (C : content) (coords : nat -> res vec) (index : nat -> res (option nat)) (gs : list grp) (tg : nat -> list Z) (tags : nat -> nat -> res (list Z)).
Hypothesis CO : forall n c, coords n = Ok c -> In (n, c) (co_nodes C).
Hypothesis IX : forall n v, index n = Ok (Some v) -> exists c, nth_error (main_nodes C) v = Some (n, c).
Hypothesis IT : co_items C = map (item_of tg) gs.
Hypothesis TG : forall g j l, In g gs -> In j (g_ids g) -> tags (2 - DimOf (g_type g)) j = Ok l -> l = tg j.
Definition start : build_state := mkBuild (after_points (length (main_nodes C)) (new_factory check)) (map snd (main_nodes C)) [] [].

Lemma items_groups : forall d, items_of d C = map (item_of tg) (filter (dim_is d) gs).
Proof. intros d. unfold items_of. rewrite IT, filter_map_com. reflexivity. Qed.
Lemma tags_of : forall g ls, In g gs -> Forall2 (fun j x => tags (2 - DimOf (g_type g)) j = Ok x) (g_ids g) ls -> ls = map tg (g_ids g).
Proof.
  intros g ls Hg. assert (TG' : forall j l, In j (g_ids g) -> tags (2 - DimOf (g_type g)) j = Ok l -> l = tg j) by (intros; eapply TG; eauto).
  revert TG'. generalize (g_ids g) as js. intros js TG' H. induction H; [reflexivity|]. cbn [map]. f_equal; [apply TG'; [left; reflexivity|auto]|].
  apply IHForall2. intros; apply TG'; [right|]; auto.
Qed.
Lemma history_exists : forall b' m M, insert_groups dw coords index gs start (mkMi [] [] []) = Ok (b', m) -> fst (build (b_fac b')) = Ok M ->
  exists h, built check h M /\ history_of C h.
Proof.
  intros b' m M H B. destruct (groups_effect dw C coords index CO IX _ _ _ _ _ H) as ((calls & rets & R & FC) & _). cbn [b_fac start] in R.
  destruct (filter_call C gs calls FC) as (P0 & FS & FL).
  pose proof (run_app _ _ _ _ _ _ _ (run_points (length (main_nodes C)) (new_factory check)) R) as RR.
  exists (repeat (CPoint true) (length (main_nodes C)) ++ calls). split; [eexists; eexists; split; [exact RR|exact B]|].
  destruct (points_repeat (length (main_nodes C)) calls) as (E1 & E2 & E3). unfold history_of. rewrite E1, E2, E3, P0, !items_groups. split; [lia|]. split.
  - clear - FS. induction FS; cbn [map]; constructor; auto.
  - clear - FL. induction FL; cbn [map]; constructor; auto.
Qed.
Theorem import_common : forall b' m M ph nn nr, insert_groups dw coords index gs start (mkMi [] [] []) = Ok (b', m) -> fst (build (b_fac b')) = Ok M ->
  physical_of M m tags = Ok ph -> imported check dw C (mkReader M (b_points b') (b_edges b') (b_cells b') ph nn nr).
Proof.
  intros b' m M ph nn nr H B PH. destruct (history_exists _ _ _ H B) as (h & BH & HI). pose proof HI as (HP & HS & HC).
  destruct (groups_effect dw C coords index CO IX _ _ _ _ _ H) as (_ & EP & (eds & EE & FE) & (cls & EC & FL) & I0 & I1 & _). cbn [b_points b_edges b_cells start mi_0 mi_1 app] in *.
  destruct BH as (rets & f & R & BF). destruct (index_contract check h rets f M R BF) as (_ & _ & K1 & K2 & K3 & K4).
  assert (LS : length (items_of 1 C) = length (segments_of h)) by (eapply F2_length; exact HS).
  assert (LC : length (items_of 2 C) = length (cells_of h)) by (eapply F2_length; exact HC).
  assert (L1 : length (mi_1 m) = length (items_of 1 C)) by (rewrite I1, items_groups, !map_length; reflexivity).
  assert (L0 : length (mi_0 m) = length (items_of 2 C)) by (rewrite I0, items_groups, !map_length; reflexivity).
  assert (PN : forall d k i, (d = 1 \/ d = 2)%nat -> nth_error (items_of d C) k = Some i -> (k < num_entities (2 - d) M)%nat -> PhysicalEntityNr (mkReader M (b_points b') (b_edges b') (b_cells b') ph nn nr) (2 - d) k = Ok (concat (it_tags i))).
  { intros d k i Hd Hk HM. destruct (physical_at _ _ _ _ (2 - d) k PH ltac:(lia) HM) as (l & A1 & A2). unfold PhysicalEntityNr. cbn [rd_physical]. rewrite A1. f_equal.
    assert (G : exists g, nth_error (filter (dim_is d) gs) k = Some g /\ i = item_of tg g).
    { rewrite items_groups in Hk. rewrite nth_error_map in Hk. destruct (nth_error (filter (dim_is d) gs) k); [injection Hk as <-; eauto|discriminate]. }
    destruct G as (g & G1 & ->). cbn [item_of it_tags].
    assert (IN : In g gs /\ DimOf (g_type g) = d) by (apply nth_error_In, filter_In in G1 as [G1 G2]; split; [auto|apply Nat.eqb_eq, G2]). destruct IN as [IN ID].
    assert (EN : mi_get (2 - d) m = map g_ids (filter (dim_is d) gs)) by (destruct Hd as [-> | ->]; cbn [Nat.sub mi_get]; auto).
    rewrite EN in A2. rewrite (nth_error_nth (map g_ids (filter (dim_is d) gs)) k [] (map_nth_error g_ids k _ G1)) in A2.
    rewrite (proj2 (Nat.ltb_lt _ _)) in A2 by (rewrite map_length; apply nth_error_Some; congruence).
    destruct A2 as (ls & F & ->). rewrite <- ID in F. rewrite (tags_of g ls IN F). reflexivity. }
  constructor; cbn [rd_mesh rd_points rd_cells rd_edges].
  - exists h. split; [eexists; eexists; split; eauto|exact HI].
  - rewrite K1, HP. reflexivity.
  - exact EP.
  - rewrite K3. auto.
  - intros k i Hk. destruct (F2_at _ _ _ _ _ _ _ HC Hk) as ((ns, g) & Q1 & Q2 & Q3). cbn [fst snd] in *. subst g.
    destruct (K4 k ns true Q1) as (c & D1 & D2 & D3 & D4).
    assert (GE : exists ge, nth_error cls k = Some ge /\ geometry_of dw C i ge).
    { rewrite items_groups in Hk. clear - FL Hk. rewrite nth_error_map in Hk. destruct (nth_error (filter (dim_is 2) gs) k) as [g|] eqn:E; [|discriminate]. injection Hk as <-.
      destruct (F2_at _ _ _ _ _ _ _ FL E) as (ge & G1 & G2). exists ge. split; auto. }
    destruct GE as (ge & GE & GG). exists c, ge. rewrite EC, D3. split; [auto|]. split; [auto|]. split; [auto|]. split; [auto|]. split; [auto|]. apply (PN 2%nat); auto.
    cbn [Nat.sub]. rewrite K3, <- LC. apply nth_error_Some. congruence.
  - intros k i Hk. destruct (F2_at _ _ _ _ _ _ _ HS Hk) as ((ns, g) & Q1 & Q2 & Q3). cbn [fst snd] in *. subst g.
    destruct (K2 k ns true Q1) as (s & D1 & D2 & D3 & D4).
    assert (GE : exists ge, nth_error eds k = Some ge /\ geometry_of dw C i ge).
    { rewrite items_groups in Hk. clear - FE Hk. rewrite nth_error_map in Hk. destruct (nth_error (filter (dim_is 1) gs) k) as [g|] eqn:E; [|discriminate]. injection Hk as <-.
      destruct (F2_at _ _ _ _ _ _ _ FE E) as (ge & G1 & G2). exists ge. split; auto. }
    destruct GE as (ge & GE & GG). exists s, ge. rewrite EE, <- D3. split; [auto|]. split; [auto|]. split; [auto|]. split; [auto|]. split; [auto|]. apply (PN 1%nat); auto.
    cbn [Nat.sub]. destruct (Nat.lt_ge_cases k (num_entities 1 M)); auto. exfalso.
    destruct (numbering check h M) as (_ & _ & _ & _ & _ & _ & _ & _ & NO & _); [eexists; eexists; split; eauto|]. rewrite NO in D1; auto. discriminate.
  - intros k [H1 H2]. destruct (physical_at _ _ _ _ 1 k PH ltac:(lia) H2) as (l & A1 & A2). unfold PhysicalEntityNr. cbn [rd_physical]. rewrite A1. f_equal.
    cbn [mi_get] in A2. rewrite (proj2 (Nat.ltb_ge _ _)) in A2 by lia. exact A2.
Qed.
End Common.
