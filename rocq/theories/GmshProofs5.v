(** Proofs for C68: numbers of the physical entities of points. *)
From Coq Require Import Reals String List Arith Bool ZArith Lia.
Import ListNotations.
From Verif Require Import Base MeshModel MeshSpec GeoModel GmshModel GmshSpec GmshProofs GmshProofs2 GmshProofs3 GmshProofs4.
Local Open Scope list_scope.

Lemma upd_last : forall A (l : list A) v x, length l = S v -> upd v x l = removelast l ++ [x].
Proof.
  intros A l. induction l as [|a l IH]; intros v x H; [discriminate|]. destruct l as [|b l].
  - injection H as <-. reflexivity.
  - destruct v as [|v]; [discriminate|]. cbn [length] in H. change (upd (S v) x (a :: b :: l)) with (a :: upd v x (b :: l)). rewrite IH by (cbn; lia). reflexivity.
Qed.
Section Points.
Variables (C : content) (index : nat -> res (option nat)).
Hypothesis IX : forall n v, index n = Ok (Some v) -> exists c, nth_error (main_nodes C) v = Some (n, c).
Hypothesis IX' : forall n c v, nth_error (main_nodes C) v = Some (n, c) -> index n = Ok (Some v).
Definition gat (n : nat) (g : grp) : bool := match g_nodes g with k :: _ => (k =? n)%nat | [] => false end.
Definition num (g : grp) (v : nat) : Prop := exists n c, gat n g = true /\ nth_error (main_nodes C) v = Some (n, c).
Definition ids_at (n : nat) (gs : list grp) : list nat := concat (map g_ids (filter (gat n) gs)).
Definition pinv (pre : list grp) (l : list (list nat)) : Prop :=
  (forall v n c, nth_error (main_nodes C) v = Some (n, c) -> nth v l [] = ids_at n pre) /\
  (forall g v, In g pre -> num g v -> (v < length l)%nat) /\
  (l = [] \/ exists g v, In g pre /\ num g v /\ length l = S v).
Lemma ids_at_app : forall n pre g, ids_at n (pre ++ [g]) = ids_at n pre ++ (if gat n g then g_ids g else []).
Proof.
  intros n pre g. unfold ids_at. rewrite filter_app, map_app, concat_app. f_equal. cbn [filter]. destruct (gat n g); cbn [map concat]; [apply app_nil_r|reflexivity].
Qed.
Lemma num_unique : forall g v w, num g v -> num g w -> v = w.
Proof.
  intros g v w (n & c & A & B) (n' & c' & A' & B'). unfold gat in *. destruct (g_nodes g) as [|k r]; [discriminate|]. apply Nat.eqb_eq in A, A'. subst.
  apply IX' in B. apply IX' in B'. congruence.
Qed.
Definition last_ok (gs : list grp) : Prop := forall l1 g l2, gs = l1 ++ g :: l2 -> (1 < length (g_ids g))%nat -> exists v, num g v /\ forall g' v', In g' l1 -> num g' v' -> (v' <= v)%nat.
Lemma points_inv : forall gs pre l l', point_lists index gs l = Ok l' -> pinv pre l -> last_ok (pre ++ gs) -> pinv (pre ++ gs) l'.
Proof.
  induction gs as [|g gs IH]; intros pre l l' H I LO; cbn [point_lists] in H; [injection H as <-; rewrite app_nil_r; exact I|].
  destruct (g_ids g) as [|j js] eqn:EJ; [discriminate|]. apply bind_ok in H as (n & E1 & H). apply bind_ok in H as (i & E2 & H). apply bind_ok in H as (m & E3 & H).
  replace (pre ++ g :: gs) with ((pre ++ [g]) ++ gs) in LO |- * by (rewrite <- app_assoc; reflexivity).
  assert (NG : forall x, gat x g = (n =? x)%nat).
  { intros x. unfold gat. apply at_ok in E1. destruct (g_nodes g); [discriminate|]. injection E1 as ->. reflexivity. }
  apply (IH (pre ++ [g]) (mi_2 m) l' H); [|exact LO]. destruct I as (I1 & I2 & I3).
  assert (LG : (1 < length (g_ids g))%nat -> exists v, num g v /\ forall g' v', In g' pre -> num g' v' -> (v' <= v)%nat).
  { apply (LO pre g gs). rewrite <- app_assoc. reflexivity. }
  rewrite EJ in LG. destruct i as [v|].
  - destruct (IX _ _ E2) as (c & EV). assert (NV : num g v) by (exists n, c; rewrite NG, Nat.eqb_refl; auto).
    assert (M : mi_2 m = upd v (nth v l [] ++ j :: js) (grow v [] l)).
    { cbn [insert_point_element mi_2 mi_set] in E3. rewrite grow_nth in E3. destruct js as [|j' js]; [injection E3 as <-; reflexivity|].
      destruct (LG ltac:(cbn; lia)) as (w & NW & LW). assert (w = v) by (eapply num_unique; eauto). subst w.
      assert (LL : length (grow v [] l) = S v).
      { rewrite grow_length. destruct I3 as [->|(g' & v' & A1 & A2 & A3)]; [cbn; lia|]. specialize (LW _ _ A1 A2). lia. }
      rewrite upd_last in E3 |- * by exact LL. assert (Q : mi_get 2 m = removelast (grow v [] l) ++ [(nth v l [] ++ [j]) ++ j' :: js]) by (eapply push_all_snoc; [lia| |exact E3]; reflexivity).
      cbn [mi_get] in Q. rewrite Q. rewrite <- app_assoc. reflexivity. }
    rewrite M. split; [|split].
    + intros w n' c' EW. rewrite ids_at_app, nth_upd by apply grow_lt. rewrite grow_nth, NG, EJ, <- (I1 _ _ _ EW). destruct (Nat.eqb_spec v w) as [->|N1].
      * assert (n' = n) by congruence. subst n'. rewrite Nat.eqb_refl. reflexivity.
      * destruct (Nat.eqb_spec n n') as [->|N2]; [exfalso; apply N1; eapply num_unique; [exact NV|exists n', c'; rewrite NG, Nat.eqb_refl; auto]|rewrite app_nil_r; reflexivity].
    + intros g' v' Hg' NV'. rewrite upd_length, grow_length. apply in_app_iff in Hg' as [Hg'|[<-|[]]]; [specialize (I2 _ _ Hg' NV'); lia|]. rewrite (num_unique _ _ _ NV' NV). lia.
    + right. rewrite upd_length, grow_length. destruct I3 as [->|(g' & v' & A1 & A2 & A3)].
      * exists g, v. split; [apply in_app_iff; right; left; reflexivity|]. split; [exact NV|cbn; lia].
      * destruct (Nat.le_gt_cases v v'); [exists g', v'; split; [apply in_app_iff; auto|]; split; [exact A2|lia]|].
        exists g, v. split; [apply in_app_iff; right; left; reflexivity|]. split; [exact NV|lia].
  - assert (NN : forall v, ~ num g v).
    { intros v (x & c & A & B). rewrite NG in A. apply Nat.eqb_eq in A. subst x. apply IX' in B. congruence. }
    destruct js as [|j' js]; [|destruct (LG ltac:(cbn; lia)) as (w & NW & _); elim (NN _ NW)]. injection E3 as <-. cbn [mi_2].
    split; [|split].
    + intros w n' c' EW. rewrite ids_at_app, <- (I1 _ _ _ EW). rewrite NG. destruct (Nat.eqb_spec n n') as [->|N2]; [|rewrite app_nil_r; reflexivity].
      apply IX' in EW. congruence.
    + intros g' v' Hg' NV'. apply in_app_iff in Hg' as [Hg'|[<-|[]]]; [eauto|elim (NN _ NV')].
    + destruct I3 as [->|(g' & v' & A1 & A2 & A3)]; auto. right. exists g', v'. split; [apply in_app_iff; auto|]. auto.
Qed.
(** Insertion of points that are nodes of the mesh does not fail. *)
Lemma points_ok : forall gs l, (forall g, In g gs -> nonempty g /\ exists n v, at_ (g_nodes g) 0 = Ok n /\ index n = Ok (Some v)) -> exists l', point_lists index gs l = Ok l'.
Proof.
  induction gs as [|g gs IH]; intros l H; cbn [point_lists]; [eauto|]. destruct (H g (or_introl eq_refl)) as (NE & n & v & E1 & E2). destruct (g_ids g) as [|j js] eqn:EJ; [elim NE; exact EJ|].
  rewrite E1. cbn [bind]. rewrite E2. cbn [bind insert_point_element mi_0 mi_1 mi_2 mi_set].
  remember (upd v (nth v (grow v [] l) [] ++ [j]) (grow v [] l)) as q eqn:EQ. assert (QL : q <> []).
  { intros ->. apply (f_equal (@length _)) in EQ. rewrite upd_length, grow_length in EQ. cbn in EQ. lia. }
  destruct (push_all_snoc_ok 2 js (mkMi [] [] q) (removelast q) (last q []) ltac:(lia)) as (m' & ->).
  - cbn [mi_get mi_2]. apply app_removelast_last. exact QL.
  - cbn [bind]. apply IH. intros x Hx. apply H. right. auto.
Qed.
End Points.

Section PointTags.
Variables (check : bool) (dw : nat) (C : content) (coords : nat -> res vec) (index : nat -> res (option nat)) (gs : list grp) (tg : nat -> list Z) (tags : nat -> nat -> res (list Z)).
Hypothesis CO : forall n c, coords n = Ok c -> In (n, c) (co_nodes C).
Hypothesis IX : forall n v, index n = Ok (Some v) -> exists c, nth_error (main_nodes C) v = Some (n, c).
Hypothesis IX' : forall n c v, nth_error (main_nodes C) v = Some (n, c) -> index n = Ok (Some v).
Hypothesis IT : co_items C = map (item_of tg) gs.
Hypothesis TG : forall g j l, In g gs -> In j (g_ids g) -> tags (2 - DimOf (g_type g)) j = Ok l -> l = tg j.
Lemma last_groups : repeated_points_last C -> last_ok C (filter (dim_is 0) gs).
Proof.
  intros H l1 g l2 E L. destruct (H (map (item_of tg) l1) (item_of tg g) (map (item_of tg) l2)) as (v & V1 & V2).
  - rewrite (items_groups C gs tg IT), E, map_app. reflexivity.
  - cbn [item_of it_tags]. rewrite map_length. exact L.
  - exists v. split; [exact V1|]. intros g' v' Hg' HV. apply (V2 (item_of tg g') v'); [apply in_map; auto|exact HV].
Qed.
Lemma map_concat : forall A B (f : A -> B) ls, map f (concat ls) = concat (map (map f) ls).
Proof. intros A B f ls. induction ls; [reflexivity|]. cbn [concat map]. rewrite map_app, IHls. reflexivity. Qed.
Theorem points_common : forall b' m M ph nn nr, insert_groups dw coords index gs (start check C) (mkMi [] [] []) = Ok (b', m) -> fst (build (b_fac b')) = Ok M ->
  physical_of M m tags = Ok ph -> repeated_points_last C ->
  forall v n c, nth_error (main_nodes C) v = Some (n, c) -> PhysicalEntityNr (mkReader M (b_points b') (b_edges b') (b_cells b') ph nn nr) 2 v = Ok (point_tags C n).
Proof.
  intros b' m M ph nn nr H B PH RP v n c EV.
  destruct (history_exists check dw C coords index gs tg CO IX IT _ _ _ H B) as (h & (rets & f & R & BF) & (HP & _)).
  destruct (MeshProofs5.index_contract check h rets f M R BF) as (_ & _ & K1 & _).
  assert (VL : (v < num_entities 2 M)%nat) by (rewrite K1, HP; apply nth_error_Some; congruence).
  destruct (groups_effect dw C coords index CO IX _ _ _ _ _ H) as (_ & _ & _ & _ & _ & _ & I2). cbn [mi_2] in I2.
  assert (PI : pinv C ([] ++ filter (dim_is 0) gs) (mi_2 m)).
  { apply (points_inv C index IX IX' _ [] [] _ I2); [|apply last_groups, RP]. split; [|split].
    - intros w n' c' _. destruct w; reflexivity.
    - intros g w [].
    - left. reflexivity. }
  cbn [app] in PI. destruct PI as (P1 & _ & _). specialize (P1 _ _ _ EV).
  destruct (physical_at _ _ _ _ 2 v PH ltac:(lia) VL) as (l & A1 & A2). unfold PhysicalEntityNr. cbn [rd_physical]. rewrite A1. f_equal.
  assert (ET : point_tags C n = concat (map tg (ids_at n (filter (dim_is 0) gs)))).
  { unfold point_tags, ids_at. rewrite (items_groups C gs tg IT), filter_map_com, map_map. rewrite map_concat, map_map. 
    change (fun a : grp => at_node n (item_of tg a)) with (gat n). cbn [item_of it_tags].
    induction (filter (gat n) (filter (dim_is 0) gs)) as [|g r IHr]; [reflexivity|]. cbn [map concat]. rewrite concat_app, IHr. reflexivity. }
  rewrite ET. cbn [mi_get] in A2. destruct (Nat.ltb_spec v (length (mi_2 m))).
  - destruct A2 as (ls & F & ->). rewrite P1 in F. f_equal.
    assert (IN : forall j, In j (ids_at n (filter (dim_is 0) gs)) -> forall x, tags 2 j = Ok x -> x = tg j).
    { intros j Hj x. unfold ids_at in Hj. apply in_concat in Hj as (js & J1 & J2). apply in_map_iff in J1 as (g & <- & J1). apply filter_In in J1 as [J1 _]. apply filter_In in J1 as [J1 J3].
      apply Nat.eqb_eq in J3. intros T. apply (TG g); auto. rewrite J3. exact T. }
    clear - F IN. induction F; [reflexivity|]. cbn [map]. f_equal; [apply IN; [left; reflexivity|auto]|]. apply IHF. intros; apply IN; [right|]; auto.
  - rewrite nth_overflow in P1 by auto. rewrite <- P1. exact A2.
Qed.
End PointTags.
