(** Proofs for C67: what the insertion of the groups of elements leads to. *)
From Coq Require Import Reals String List Arith Bool ZArith Lia.
Import ListNotations.
From Verif Require Import Base MeshModel MeshSpec MeshProofs5 GeoModel GeoProofs2 GmshModel GmshSpec GmshProofs GmshProofs2.
Local Open Scope list_scope.

Lemma collect_ok : forall A (f : nat -> res A) l r, collect f l = Ok r -> Forall2 (fun n a => f n = Ok a) l r.
Proof.
  intros A f l. induction l as [|n l IH]; intros r H; cbn [collect] in H; [injection H as <-; constructor|].
  ok H. injection H as <-. constructor; auto.
Qed.
Lemma collect_exists : forall A (f : nat -> res A) l, (forall n, In n l -> exists a, f n = Ok a) -> exists r, collect f l = Ok r.
Proof.
  intros A f l. induction l as [|n l IH]; intros H; cbn [collect]; [eauto|].
  destruct (H n (or_introl eq_refl)) as (a & ->). destruct IH as (r & ->); [intros; apply H; right; auto|]. cbn [bind]. eauto.
Qed.
Lemma collect_value : forall A (f : nat -> res A) l r, Forall2 (fun n a => f n = Ok a) l r -> collect f l = Ok r.
Proof. intros A f l r H. induction H; cbn [collect]; [reflexivity|]. rewrite H, IHForall2. reflexivity. Qed.
Lemma F2_impl : forall A B (P Q : A -> B -> Prop) l r, (forall a b, P a b -> Q a b) -> Forall2 P l r -> Forall2 Q l r.
Proof. intros A B P Q l r I H. induction H; constructor; auto. Qed.
Lemma F2_length : forall A B (P : A -> B -> Prop) l r, Forall2 P l r -> length l = length r.
Proof. intros A B P l r H. induction H; cbn; auto. Qed.
Lemma F2_firstn : forall A B (P : A -> B -> Prop) l r k, Forall2 P l r -> Forall2 P (firstn k l) (firstn k r).
Proof. intros A B P l r k H. revert k. induction H; intros [|k]; cbn [firstn]; constructor; auto. Qed.
Lemma F2_at : forall A B (P : A -> B -> Prop) l r k a, Forall2 P l r -> nth_error l k = Some a -> exists b, nth_error r k = Some b /\ P a b.
Proof. intros A B P l r k a H. revert k. induction H; intros [|k] E; cbn in E; try discriminate; [injection E as <-; eexists; split; [reflexivity|auto]|apply IHForall2, E]. Qed.

(** *** Geometries *)
Lemma geometry_ok : forall dw t cs g, element_geometry dw t cs = Ok g -> kind_of t = Some (go_kind g) /\ go_dim g = dw /\ go_cols g = firstn (num_cols (go_kind g)) cs.
Proof.
  intros dw t cs g H. destruct t; try discriminate H; cbn [element_geometry kind_of] in *.
  1-7: try (apply new_geo_inv in H as [-> L]; cbn [go_kind go_dim go_cols] in *; rewrite firstn_all2 by lia; auto; fail).
  apply bind_ok in H as (u & _ & H). apply new_geo_inv in H as [-> L]. cbn [go_kind go_dim go_cols] in *. auto.
Qed.
Lemma geometry_exists : forall dw t cs k g, kind_of t = Some k -> length cs = NumNodes t -> new_geo k dw (firstn (num_cols k) cs) = Ok g -> element_geometry dw t cs = Ok g.
Proof.
  intros dw t cs k g K L H. destruct t; try discriminate K; injection K as <-; cbn [element_geometry NumNodes] in *; try (rewrite firstn_all2 in H by (rewrite L; cbn; lia); exact H).
  rewrite (proj2 (Nat.leb_le _ _)) by lia. exact H.
Qed.

Section Insert.
Variables (dw : nat) (C : content) (coords : nat -> res vec) (index : nat -> res (option nat)).
Hypothesis CO : forall n c, coords n = Ok c -> In (n, c) (co_nodes C).
Hypothesis IX : forall n v, index n = Ok (Some v) -> exists c, nth_error (main_nodes C) v = Some (n, c).

Definition dim_is (d : nat) (g : grp) : bool := (DimOf (g_type g) =? d)%nat.
Definition call_for (g : grp) (c : call) : Prop :=
  exists el ns, RefElOf (g_type g) = Ok el /\ el <> kPoint /\ c = CEntity el ns true /\ are_nodes C ns (corners (g_type g) (g_nodes g)).
Definition geo_for (g : grp) (ge : geo) : Prop :=
  kind_of (g_type g) = Some (go_kind ge) /\ go_dim ge = dw /\ Forall2 (fun n v => In (n, v) (co_nodes C)) (firstn (num_cols (go_kind ge)) (g_nodes g)) (go_cols ge).

(** Points: only point elements change the last list. *)
Fixpoint point_lists (gs : list grp) (l : list (list nat)) : res (list (list nat)) :=
  match gs with
  | [] => Ok l
  | g :: r => match g_ids g with
      | [] => Assert
      | j :: js => do n <- at_ (g_nodes g) 0; do i <- index n;
                   do m <- push_all 2 js (insert_point_element i j (mkMi [] [] l)); point_lists r (mi_2 m)
      end
  end.
Lemma push_all_other : forall c c' js m m', (c <= 2)%nat -> (c' <= 2)%nat -> push_all c js m = Ok m' -> c <> c' -> mi_get c' m' = mi_get c' m.
Proof.
  intros c c' js. induction js as [|j js IH]; intros m m' L L' H N; cbn [push_all] in H; [injection H as <-; reflexivity|]. ok H.
  rewrite (IH _ _ L L' H N). destruct c as [|[|[|c]]], c' as [|[|[|c']]]; try lia; try contradiction; reflexivity.
Qed.
Lemma push_all_snoc : forall c js m m' l x, (c <= 2)%nat -> mi_get c m = l ++ [x] -> push_all c js m = Ok m' -> mi_get c m' = l ++ [x ++ js].
Proof.
  intros c js. induction js as [|j js IH]; intros m m' l x L G H; cbn [push_all] in H; [injection H as <-; rewrite app_nil_r; exact G|]. ok H.
  assert (EA : a = l ++ [x ++ [j]]).
  { rewrite G in E. unfold push_last in E. destruct (l ++ [x]) eqn:Q; [destruct l; discriminate|]. rewrite <- Q in E.
    rewrite removelast_last, last_last in E. injection E as <-. reflexivity. }
  subst a. rewrite (IH _ _ l (x ++ [j]) L) in H || rewrite (IH (mi_set c (l ++ [x ++ [j]]) m) m' l (x ++ [j]) L); auto.
  - rewrite <- app_assoc. reflexivity.
  - destruct c as [|[|[|c]]]; try lia; reflexivity.
Qed.
Lemma push_all_snoc_ok : forall c js m l x, (c <= 2)%nat -> mi_get c m = l ++ [x] -> exists m', push_all c js m = Ok m'.
Proof.
  intros c js. induction js as [|j js IH]; intros m l x L G; cbn [push_all]; [eauto|]. rewrite G. unfold push_last.
  destruct (l ++ [x]) eqn:Q; [destruct l; discriminate|]. rewrite <- Q, removelast_last, last_last. cbn [bind].
  apply (IH _ l (x ++ [j]) L). destruct c as [|[|[|c]]]; try lia; reflexivity.
Qed.
(** The last list of [mi2gi] does not depend on the others. *)
Lemma push_points : forall js m, bind (push_all 2 js m) (fun q => Ok (mi_2 q)) = bind (push_all 2 js (mkMi [] [] (mi_2 m))) (fun q => Ok (mi_2 q)).
Proof.
  induction js as [|j js IH]; intros m; cbn [push_all]; [reflexivity|]. cbn [mi_get mi_2]. destruct (push_last j (mi_2 m)); cbn [bind]; auto.
  rewrite IH. symmetry. rewrite IH. reflexivity.
Qed.
Lemma point_element : forall i j m, mi_2 (insert_point_element i j m) = mi_2 (insert_point_element i j (mkMi [] [] (mi_2 m))) /\
  mi_0 (insert_point_element i j m) = mi_0 m /\ mi_1 (insert_point_element i j m) = mi_1 m.
Proof. intros [k|] j m; repeat split. Qed.

Definition effect (gs : list grp) (b b' : build_state) (m m' : mi2gi) : Prop :=
  (exists calls rets, run calls (b_fac b) = Ok (rets, b_fac b') /\ Forall2 call_for (filter (fun g => negb (dim_is 0 g)) gs) calls) /\
  b_points b' = b_points b /\
  (exists eds, b_edges b' = b_edges b ++ eds /\ Forall2 geo_for (filter (dim_is 1) gs) eds) /\
  (exists cls, b_cells b' = b_cells b ++ cls /\ Forall2 geo_for (filter (dim_is 2) gs) cls) /\
  mi_0 m' = mi_0 m ++ map g_ids (filter (dim_is 2) gs) /\ mi_1 m' = mi_1 m ++ map g_ids (filter (dim_is 1) gs) /\
  point_lists (filter (dim_is 0) gs) (mi_2 m) = Ok (mi_2 m').
Lemma groups_effect : forall gs b m b' m', insert_groups dw coords index gs b m = Ok (b', m') -> effect gs b b' m m'.
Proof.
  induction gs as [|g gs IH]; intros b m b' m' H; cbn [insert_groups] in H.
  - injection H as <- <-. split; [exists [], []; split; [reflexivity|constructor]|]. split; [reflexivity|].
    split; [exists []; rewrite app_nil_r; split; [reflexivity|constructor]|]. split; [exists []; rewrite app_nil_r; split; [reflexivity|constructor]|].
    cbn [filter map]. rewrite !app_nil_r. repeat split.
  - apply bind_ok in H as (el & E & H). destruct (g_ids g) as [|j js] eqn:EJ; [discriminate|].
    apply bind_ok in H as ((b1, m1) & E1 & H). cbn [fst snd] in H. apply bind_ok in H as (m2 & E2 & H).
    specialize (IH _ _ _ _ H). destruct IH as ((calls & rets & R & FC) & BP & (eds & BE & FE) & (cls & BC & FL) & I0 & I1 & I2).
    destruct (refel_of _ _ E) as (DI & NC & KP).
    destruct (Nat.eq_dec (DimOf (g_type g)) 0) as [D0|D0].
    + (* a point *)
      assert (el = kPoint) by (destruct el; cbn in DI; try lia; reflexivity). subst el. cbn [insert_first] in E1. ok E1. injection E1 as <- <-.
      cbn [dimension Nat.sub] in E2. unfold effect. cbn [filter].
      assert (DG : forall d, dim_is d g = (0 =? d)%nat) by (intros; unfold dim_is; rewrite D0; reflexivity). rewrite !DG. cbn [Nat.eqb negb].
      assert (O0 : mi_0 m2 = mi_0 m) by (pose proof (push_all_other 2 0 _ _ _ ltac:(lia) ltac:(lia) E2 ltac:(lia)) as X; cbn [mi_get] in X; rewrite X; apply point_element).
      assert (O1 : mi_1 m2 = mi_1 m) by (pose proof (push_all_other 2 1 _ _ _ ltac:(lia) ltac:(lia) E2 ltac:(lia)) as X; cbn [mi_get] in X; rewrite X; apply point_element).
      split; [exists calls, rets; split; auto|]. split; [auto|]. split; [exists eds; auto|]. split; [exists cls; auto|]. split; [rewrite I0, O0; reflexivity|]. split; [rewrite I1, O1; reflexivity|].
      cbn [point_lists]. rewrite EJ, E0. cbn [bind]. rewrite E3. cbn [bind].
      pose proof (push_points js (insert_point_element a0 j m)) as X. rewrite E2 in X. cbn [bind] in X.
      destruct (point_element a0 j m) as (P2 & _). rewrite P2 in X. pose proof (push_points js (insert_point_element a0 j (mkMi [] [] (mi_2 m)))) as Y.
      rewrite <- X in Y. destruct (push_all 2 js (insert_point_element a0 j (mkMi [] [] (mi_2 m)))); try discriminate Y. cbn [bind] in Y |- *. injection Y as Y. rewrite Y. exact I2.
    + (* an edge or a cell *)
      assert (NP : el <> kPoint) by (intros ->; cbn in DI; lia).
      assert (E1' : exists b0, insert_element dw (g_type g) el (g_nodes g) coords index b = Ok b0 /\ b1 = b0 /\ m1 = mi_set (2 - dimension el) (mi_get (2 - dimension el) m ++ [[j]]) m).
      { unfold insert_first in E1. destruct el; try contradiction; ok E1; injection E1 as <- <-; eauto. }
      clear E1. destruct E1' as (b0 & E1 & -> & ->).
      unfold insert_element in E1. apply bind_ok in E1 as (cs & C1 & E1). apply bind_ok in E1 as (ge & C2 & E1). apply bind_ok in E1 as (u & C3 & E1).
      apply bind_ok in E1 as (mn & C4 & E1). unfold insert_entity in E1. apply bind_ok in E1 as (rr & C5 & E1).
      apply collect_ok in C1. apply collect_ok in C4. destruct (geometry_ok _ _ _ _ C2) as (G1 & G2 & G3).
      assert (GF : geo_for g ge).
      { split; [exact G1|]. split; [exact G2|]. rewrite G3. apply F2_firstn. eapply F2_impl; [|exact C1]. cbn. intros; apply CO; auto. }
      assert (CF : call_for g (CEntity el mn true)).
      { exists el, mn. split; [exact E|]. split; [exact NP|]. split; [reflexivity|]. unfold are_nodes, corners. rewrite <- NC.
        clear - C4 IX. induction C4; constructor; auto. apply bind_ok in H as (i & E1 & E2). destruct i; [injection E2 as <-; apply IX; auto|discriminate]. }
      assert (RF : exists ret, run (CEntity el mn true :: calls) (b_fac b) = Ok (ret, b_fac b')).
      { exists (fst rr :: rets). cbn [run issue]. rewrite C5. cbn [bind]. assert (EF : snd rr = b_fac b0) by (destruct el; injection E1 as <-; reflexivity).
        rewrite EF, R. reflexivity. }
      destruct RF as (ret & RF).
      assert (DD : (dimension el = 1 \/ dimension el = 2)%nat) by (destruct el; cbn; auto; contradiction).
      assert (B0 : b_points b0 = b_points b) by (destruct el; injection E1 as <-; reflexivity).
      unfold effect. cbn [filter].
      assert (DG : forall d, dim_is d g = (dimension el =? d)%nat) by (intros; unfold dim_is; rewrite DI; reflexivity). rewrite !DG. clear DG.
      destruct DD as [DD|DD]; rewrite DD in *; cbn [Nat.eqb negb Nat.sub mi_get] in *.
      * assert (el = kSegment) by (destruct el; cbn in DD; try lia; reflexivity). subst el. injection E1 as <-. cbn [b_edges b_cells b_points] in *.
        assert (O0 : mi_0 m2 = mi_0 m) by (pose proof (push_all_other 1 0 _ _ _ ltac:(lia) ltac:(lia) E2 ltac:(lia)) as X; cbn [mi_get] in X; rewrite X; reflexivity).
        assert (O2 : mi_2 m2 = mi_2 m) by (pose proof (push_all_other 1 2 _ _ _ ltac:(lia) ltac:(lia) E2 ltac:(lia)) as X; cbn [mi_get] in X; rewrite X; reflexivity).
        assert (O1 : mi_get 1 m2 = mi_1 m ++ [[j] ++ js]) by (eapply push_all_snoc; [lia| |exact E2]; reflexivity). cbn [mi_get] in O1.
        split; [exists (CEntity kSegment mn true :: calls), ret; split; [exact RF|constructor; auto]|]. split; [auto|].
        split; [exists (ge :: eds); split; [rewrite BE, <- app_assoc; reflexivity|constructor; auto]|]. split; [exists cls; auto|].
        split; [rewrite I0, O0; reflexivity|]. split; [rewrite I1, O1, <- app_assoc; cbn [map app]; rewrite EJ; reflexivity|rewrite <- O2; exact I2].
      * assert (EC : b_cells b0 = b_cells b ++ [ge] /\ b_edges b0 = b_edges b) by (destruct el; cbn in DD; try lia; injection E1 as <-; auto). destruct EC as [EC EE].
        assert (O1 : mi_1 m2 = mi_1 m) by (pose proof (push_all_other 0 1 _ _ _ ltac:(lia) ltac:(lia) E2 ltac:(lia)) as X; cbn [mi_get] in X; rewrite X; reflexivity).
        assert (O2 : mi_2 m2 = mi_2 m) by (pose proof (push_all_other 0 2 _ _ _ ltac:(lia) ltac:(lia) E2 ltac:(lia)) as X; cbn [mi_get] in X; rewrite X; reflexivity).
        assert (O0 : mi_get 0 m2 = mi_0 m ++ [[j] ++ js]) by (eapply push_all_snoc; [lia| |exact E2]; reflexivity). cbn [mi_get] in O0.
        split; [exists (CEntity el mn true :: calls), ret; split; [exact RF|constructor; auto]|]. split; [congruence|].
        split; [exists eds; rewrite <- EE; auto|]. split; [exists (ge :: cls); split; [rewrite BC, EC, <- app_assoc; reflexivity|constructor; auto]|].
        split; [rewrite I0, O0, <- app_assoc; cbn [map app]; rewrite EJ; reflexivity|]. split; [rewrite I1, O1; reflexivity|rewrite <- O2; exact I2].
Qed.

(** The calls, sorted. *)
Lemma filter_call : forall gs calls, Forall2 call_for (filter (fun g => negb (dim_is 0 g)) gs) calls ->
  points_of calls = 0%nat /\
  Forall2 (fun g x => are_nodes C (fst x) (corners (g_type g) (g_nodes g)) /\ snd x = true) (filter (dim_is 1) gs) (segments_of calls) /\
  Forall2 (fun g x => are_nodes C (fst x) (corners (g_type g) (g_nodes g)) /\ snd x = true) (filter (dim_is 2) gs) (cells_of calls).
Proof.
  induction gs as [|g gs IH]; intros calls H; cbn [filter] in *.
  - inversion H; subst. repeat split; constructor.
  - assert (DG : forall d, dim_is d g = (DimOf (g_type g) =? d)%nat) by reflexivity. rewrite DG in H. rewrite !DG. clear DG.
    destruct (DimOf (g_type g)) as [|d] eqn:D; cbn [Nat.eqb negb] in *; [apply IH, H|].
    inversion H as [|x y l r (el & ns & E & NP & -> & A) Hr]; subst. destruct (IH _ Hr) as (I1 & I2 & I3).
    destruct (refel_of _ _ E) as (DI & _ & _). rewrite D in DI.
    unfold points_of, count_calls, segments_of, cells_of in *. destruct el; [contradiction|..]; cbn in DI; injection DI as <-; cbn [Nat.eqb filter is_point_call is_segment_call is_cell_call map entity_data]; repeat split; auto.
Qed.
End Insert.
