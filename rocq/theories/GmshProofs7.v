(** Proofs for C67 and C68: version 4. *)
From Coq Require Import Reals String List Arith Bool ZArith Lia.
Import ListNotations.
From Verif Require Import Base MeshModel MeshSpec GeoModel GmshModel GmshSpec GmshProofs GmshProofs2 GmshProofs3 GmshProofs4 GmshProofs5 GmshProofs6.
Local Open Scope list_scope.

(** *** Main nodes *)
Lemma scan_block_nth : forall low t ty, RefElOf ty = Ok t -> forall es main main', scan_block low t es main = Ok main' ->
  (length main <= length main')%nat /\ (forall n, existsb (is_corner_of n ty) es = true -> low <= n /\ (n - low < length main')%nat) /\
  forall k, nth k main' false = nth k main false || existsb (is_corner_of (k + low) ty) es.
Proof.
  intros low t ty ET. induction es as [|ns es IH]; intros main main' H; cbn [scan_block] in H.
  - injection H as <-. split; [auto|]. split; [discriminate|]. intros k. rewrite orb_false_r. reflexivity.
  - apply bind_ok in H as (m1 & E & H). destruct (mark_main_nth _ _ _ _ _ E) as (M1 & M2 & M3). destruct (IH _ _ H) as (I1 & I2 & I3).
    split; [lia|]. split.
    + intros n Hn. cbn [existsb] in Hn. apply orb_prop in Hn as [Hn|Hn]; [|auto]. rewrite <- (corner_of_is n ty ns t ET) in Hn. apply existsb_exists in Hn as (x & Hx & Ex). apply Nat.eqb_eq in Ex. subst x.
      destruct (M2 _ Hx). lia.
    + intros k. rewrite I3, M3. cbn [existsb]. rewrite (corner_of_is _ _ _ _ ET), orb_assoc. reflexivity.
Qed.
Definition main4 (bs : list block) (n : nat) : bool := existsb (fun b => (DimOf (eb_type b) =? 2)%nat && existsb (is_corner_of n (eb_type b)) (eb_elements b)) bs.
Lemma scan_blocks_nth : forall low bs main k main' k', scan_blocks low bs main k = Ok (main', k') ->
  (length main <= length main')%nat /\ (forall b, In b bs -> eb_dim b = DimOf (eb_type b) /\ (DimOf (eb_type b) <= 2)%nat) /\
  (forall n, main4 bs n = true -> low <= n /\ (n - low < length main')%nat) /\
  (forall p, nth p main' false = nth p main false || main4 bs (p + low)).
Proof.
  intros low. induction bs as [|b bs IH]; intros main k main' k' H; cbn [scan_blocks] in H.
  - injection H as <- <-. split; [auto|]. split; [intros ? []|]. split; [discriminate|]. intros; rewrite orb_false_r; reflexivity.
  - apply bind_ok in H as (u & E1 & H). apply bind_ok in H as (u' & E2 & H). apply bind_ok in H as (m1 & E & H). apply assert_ok in E1, E2. apply Nat.leb_le in E1. apply Nat.eqb_eq in E2.
    destruct (IH _ _ _ _ H) as (I1 & I2 & I3 & I4).
    assert (K : (length main <= length m1)%nat /\ (forall n, (DimOf (eb_type b) =? 2)%nat && existsb (is_corner_of n (eb_type b)) (eb_elements b) = true -> low <= n /\ (n - low < length m1)%nat) /\
       forall p, nth p m1 false = nth p main false || ((DimOf (eb_type b) =? 2)%nat && existsb (is_corner_of (p + low) (eb_type b)) (eb_elements b))).
    { rewrite E2 in E. destruct (DimOf (eb_type b) =? 2)%nat.
      - apply bind_ok in E as (t & T & E). destruct (scan_block_nth _ _ _ T _ _ _ E) as (A & B & D). auto.
      - injection E as <-. split; [auto|]. split; [discriminate|]. intros; rewrite orb_false_r; reflexivity. }
    destruct K as (K1 & K2 & K3). split; [lia|]. split; [intros x [<-|Hx]; [split; [auto|lia]|auto]|]. split.
    + intros n Hn. cbn [main4 existsb] in Hn. apply orb_prop in Hn as [Hn|Hn]; [apply K2 in Hn; lia|auto].
    + intros p. rewrite I4, K3. cbn [main4 existsb]. rewrite orb_assoc. reflexivity.
Qed.
(** *** Nodes *)
Definition is_main4 (low : nat) (main : list bool) (nd : nat * vec) : bool := nth (fst nd - low) main false.
Lemma insert_nodes4_spec : forall dw low main ns gi2mi gi2i b gi2mi' gi2i' b',
  insert_nodes4 dw low main ns gi2mi gi2i b = Ok (gi2mi', gi2i', b') -> NoDup (map fst ns) -> length gi2mi = length main -> length gi2i = length main ->
  let ms := filter (is_main4 low main) ns in
  b' = mkBuild (after_points (length ms) (b_fac b)) (b_points b ++ map snd ms) (b_edges b) (b_cells b) /\
  length gi2mi' = length main /\ length gi2i' = length main /\
  (forall n, In n (map fst ns) -> low <= n /\ (n - low < length main)%nat) /\
  (forall p n c, nth_error ms p = Some (n, c) -> nth_error gi2mi' (n - low) = Some (Some (f_nodes (b_fac b) + p)%nat)) /\
  (forall k, ~ In (k + low)%nat (map fst ms) -> nth_error gi2mi' k = nth_error gi2mi k) /\
  (forall n c, In (n, c) ns -> nth_error gi2i' (n - low) = Some (Some c)) /\
  (forall k, ~ In (k + low)%nat (map fst ns) -> nth_error gi2i' k = nth_error gi2i k).
Proof.
  intros dw low main ns. induction ns as [|[n c] ns IH]; intros gi2mi gi2i b gi2mi' gi2i' b' H ND LM LI ms.
  - injection H as <- <- <-. unfold ms. cbn [filter map length]. rewrite after_0, app_nil_r. split; [destruct b; reflexivity|]. split; [auto|]. split; [auto|]. split; [intros ? []|].
    split; [intros [|p]; discriminate|]. split; [auto|]. split; [intros ? ? []|auto].
  - cbn [map fst] in ND. apply NoDup_cons_iff in ND as [NI ND]. cbn [insert_nodes4] in H. unfold ms. clear ms. cbn [filter]. change (is_main4 low main (n, c)) with (nth (n - low) main false).
    apply bind_ok in H as (u & A & H). apply assert_ok in A. apply andb_prop in A as [A1 A2]. apply Nat.leb_le in A1. apply Nat.ltb_lt in A2.
    assert (IN : forall x, In x (map fst (filter (is_main4 low main) ns)) -> In x (map fst ns)).
    { intros x X. apply in_map_iff in X as (y & E & Hy). apply filter_In in Hy as [Hy _]. rewrite <- E. apply in_map. exact Hy. }
    assert (L2 : length (upd (n - low) (Some c) gi2i) = length main) by (rewrite upd_length; exact LI).
    destruct (nth (n - low) main false) eqn:MN.
    + apply bind_ok in H as (r & E & H). apply insert_point_ok in E as [_ ->]. cbn [fst snd] in H.
      assert (L1 : length (upd (n - low) (Some (f_nodes (b_fac b))) gi2mi) = length main) by (rewrite upd_length; exact LM).
      destruct (IH _ _ _ _ _ _ H ND L1 L2) as (B1 & B2 & B3 & B4 & B5 & B6 & B7 & B8). cbn [b_fac b_points b_edges b_cells f_nodes after_points] in *. cbn [map fst snd length].
      split; [rewrite B1; f_equal; [rewrite after_after; f_equal; lia|rewrite <- app_assoc; reflexivity]|]. split; [exact B2|]. split; [exact B3|].
      split; [intros x [<-|X]; [cbn [fst]; lia|auto]|]. split; [|split; [|split]].
      * intros [|p] m c0 Hp; cbn in Hp.
        -- injection Hp as <- <-. rewrite Nat.add_0_r, B6; [apply nth_error_upd_eq; lia|]. replace (n - low + low)%nat with n by lia. auto.
        -- rewrite (B5 p m c0 Hp). do 2 f_equal. lia.
      * intros k NK. rewrite B6 by (intros X; apply NK; right; exact X). apply nth_error_upd_neq. intros E. apply NK. left. cbn [fst]. lia.
      * intros m c0 [Q|Q]; [|auto]. injection Q as <- <-. rewrite B8; [apply nth_error_upd_eq; lia|]. replace (n - low + low)%nat with n by lia. exact NI.
      * intros k NK. rewrite B8 by (intros X; apply NK; right; exact X). apply nth_error_upd_neq. intros E. apply NK. left. cbn [fst]. lia.
    + destruct (IH _ _ _ _ _ _ H ND LM L2) as (B1 & B2 & B3 & B4 & B5 & B6 & B7 & B8). cbn [map fst snd].
      split; [exact B1|]. split; [exact B2|]. split; [exact B3|]. split; [intros x [<-|X]; [cbn [fst]; lia|auto]|]. split; [exact B5|]. split; [exact B6|]. split.
      * intros m c0 [Q|Q]; [|auto]. injection Q as <- <-. rewrite B8; [apply nth_error_upd_eq; lia|]. replace (n - low + low)%nat with n by lia. exact NI.
      * intros k NK. rewrite B8 by (intros X; apply NK; right; exact X). apply nth_error_upd_neq. intros E. apply NK. left. cbn [fst]. lia.
Qed.
Lemma insert_nodes4_ok : forall dw low main ns gi2mi gi2i b, (forall n, In n (map fst ns) -> low <= n /\ (n - low < length gi2i)%nat) ->
  (dw = 2%nat -> forall n c, In (n, c) ns -> nth (n - low) main false = true -> c 2%nat = 0%R) ->
  exists r, insert_nodes4 dw low main ns gi2mi gi2i b = Ok r.
Proof.
  intros dw low main ns. induction ns as [|[n c] ns IH]; intros gi2mi gi2i b HR H; [cbn; eauto|].
  cbn [insert_nodes4]. destruct (HR n (or_introl eq_refl)) as [R1 R2]. rewrite (proj2 (Nat.leb_le _ _) R1), (proj2 (Nat.ltb_lt _ _) R2). cbn [andb lf_assert bind].
  assert (HR' : forall x, In x (map fst ns) -> low <= x /\ (x - low < length (upd (n - low) (Some c) gi2i))%nat) by (intros x X; rewrite upd_length; apply HR; right; auto).
  destruct (nth (n - low) main false) eqn:E.
  - rewrite (proj2 (insert_point_ok dw c b _) (conj (fun D => H D n c (or_introl eq_refl) E) eq_refl)). cbn [bind]. apply IH; auto. intros D m c0 Hm. apply H; auto. right. auto.
  - apply IH; auto. intros D m c0 Hm. apply H; auto. right. auto.
Qed.
Definition coords4 (low : nat) (gi2i : list (option vec)) (n : nat) : res vec :=
  do _ <- lf_assert (low <=? n); do i <- at_ gi2i (n - low); match i with Some c => Ok c | None => Assert end.
Definition index4 (low : nat) (gi2mi : list (option nat)) (n : nat) : res (option nat) := do _ <- lf_assert (low <=? n); at_ gi2mi (n - low).
Lemma tables4 : forall dw check file main k0 gi2mi gi2i b, NoDup (map fst (concat (f4_nodes file))) ->
  scan_blocks (f4_min file) (f4_blocks file) (repeat false (f4_max file + 1 - f4_min file)) 0 = Ok (main, k0) ->
  insert_nodes4 dw (f4_min file) main (concat (f4_nodes file)) (repeat None (length main)) (repeat None (length main)) (mkBuild (new_factory check) [] [] []) = Ok (gi2mi, gi2i, b) ->
  b = start check (content4 file) /\ tables (content4 file) (coords4 (f4_min file) gi2i) (index4 (f4_min file) gi2mi).
Proof.
  intros dw check file main k0 gi2mi gi2i b ND S0 I0. destruct (scan_blocks_nth _ _ _ _ _ _ S0) as (_ & _ & S3 & S4). set (low := f4_min file) in *.
  destruct (insert_nodes4_spec _ _ _ _ _ _ _ _ _ _ I0 ND (repeat_length _ _) (repeat_length _ _)) as (B1 & B2 & B3 & B4 & B5 & B6 & B7 & B8). cbn [b_fac b_points b_edges b_cells new_factory f_nodes app] in *.
  assert (MM : filter (is_main4 low main) (concat (f4_nodes file)) = main_nodes (content4 file)).
  { unfold main_nodes, is_main4. cbn [content4 co_nodes co_main]. fold (main4 (f4_blocks file)). apply filter_ext_in. intros [n c] Hn. cbn [fst]. rewrite S4, nth_repeat_false. cbn [orb].
    destruct (B4 n); [apply in_map_iff; exists (n, c); auto|]. replace (n - low + low)%nat with n by lia. reflexivity. }
  rewrite MM in *. split; [exact B1|].
  assert (LO : forall n A (f : res A) a, bind (lf_assert (low <=? n)%nat) (fun _ => f) = Ok a <-> low <= n /\ f = Ok a).
  { intros n A f a. destruct (Nat.leb_spec low n); cbn [lf_assert bind]; split; [auto|tauto|discriminate|lia]. }
  constructor.
  - intros n c H. unfold coords4 in H. apply LO in H as [HL H]. apply bind_ok in H as (i & E1 & E2). apply at_ok in E1. destruct i as [c'|]; [|discriminate]. injection E2 as ->.
    destruct (in_dec Nat.eq_dec n (map fst (concat (f4_nodes file)))) as [IN|NI].
    + apply in_map_iff in IN as ((n', c') & <- & IN). cbn [fst] in *. pose proof (B7 _ _ IN) as E. rewrite E1 in E. injection E as ->. exact IN.
    + rewrite B8 in E1 by (replace (n - low + low)%nat with n by lia; exact NI). elim (nth_error_repeat_none _ _ _ _ E1).
  - intros n v H. unfold index4 in H. apply LO in H as [HL H]. apply at_ok in H. destruct (in_dec Nat.eq_dec n (map fst (main_nodes (content4 file)))) as [IN|NI].
    + apply in_map_iff in IN as ((n', c') & <- & IN). apply In_nth_error in IN as (p & IN). cbn [fst] in *. pose proof (B5 _ _ _ IN) as E. rewrite H in E. injection E as ->. eauto.
    + rewrite B6 in H by (replace (n - low + low)%nat with n by lia; exact NI). elim (nth_error_repeat_none _ _ _ _ H).
  - intros n c H. unfold coords4. apply LO. split; [apply (B4 n), in_map_iff; exists (n, c); auto|]. unfold at_. rewrite (B7 _ _ H). reflexivity.
  - intros n c v H. unfold index4. apply LO. split; [|apply at_ok; exact (B5 _ _ _ H)]. apply (B4 n), in_map_iff. exists (n, c). split; [reflexivity|].
    apply nth_error_In in H. unfold main_nodes in H. apply filter_In in H as [H _]. exact H.
Qed.
(** *** Tags *)
Lemma fold_find : forall t es d, fold_left (fun a e => if (fst e =? t)%Z then snd e else a) es d = match find (fun e : Z * list Z => (fst e =? t)%Z) (rev es) with Some e => snd e | None => d end.
Proof.
  intros t es. induction es as [|e es IH] using rev_ind; intros d; [reflexivity|]. rewrite fold_left_app, rev_app_distr. cbn [fold_left rev app find]. destruct (fst e =? t)%Z; [reflexivity|apply IH].
Qed.
Lemma make_map_at : forall es f t l, make_map es = Ok f -> f t = Ok l -> map to_size l = tags_in es t.
Proof.
  intros es f t l H E. unfold make_map in H. apply bind_ok in H as (u & _ & H). injection H as <-. destruct ((0 <=? t)%Z && (t <=? max_tag es)%Z); [|discriminate]. injection E as <-.
  rewrite fold_find. unfold tags_in. destruct (find _ _); reflexivity.
Qed.
Lemma add_group_type : forall t ns j l (P : etype -> nat -> Prop), P t j -> (forall g i, In g l -> In i (g_ids g) -> P (g_type g) i) -> forall g i, In g (add_group t ns j l) -> In i (g_ids g) -> P (g_type g) i.
Proof.
  intros t ns j [|x r] P Pj H g i; cbn [add_group].
  - intros [<-|[]] [<-|[]]. exact Pj.
  - destruct (etype_eqb t (g_type x) && same_nodes ns (g_nodes x)) eqn:E; cbn [In].
    + intros [<-|Hg] Hi; [|apply (H g); auto; right; auto]. cbn [g_type g_ids] in *. destruct Hi as [<-|Hi]; [exact Pj|]. apply andb_prop in E as [E _]. apply etype_eqb_spec in E. subst t. apply (H x); [left|]; auto.
    + intros [<-|Hg] Hi; [|apply (H g); auto]. destruct Hi as [<-|[]]. exact Pj.
Qed.
Lemma groups4_type : forall bs k g j, In g (groups4 bs k) -> In j (g_ids g) -> exists b, nth_error bs (j - k) = Some b /\ (k <= j)%nat /\ eb_type b = g_type g.
Proof.
  induction bs as [|b bs IH]; intros k g j Hg Hj; [destruct Hg|]. cbn [groups4] in Hg. apply in_app_iff in Hg as [Hg|Hg].
  - assert (Q : g_type g = eb_type b /\ j = k).
    { revert g j Hg Hj. induction (eb_elements b) as [|ns es IHe]; intros g j Hg Hj; [destruct Hg|]. cbn [groups_block] in Hg.
      apply (add_group_type (eb_type b) ns k (groups_block (eb_type b) k es) (fun t i => t = eb_type b /\ i = k) (conj eq_refl eq_refl)) with (2 := Hg); [exact IHe|exact Hj]. }
    destruct Q as [Q ->]. exists b. rewrite Nat.sub_diag. auto.
  - destruct (IH _ _ _ Hg Hj) as (b' & E1 & E2 & E3). exists b'. destruct (j - k)%nat as [|q] eqn:Q; [lia|]. replace q with (j - S k)%nat by lia. split; [exact E1|]. split; [lia|auto].
Qed.
Definition tag4 (file : file4) (j : nat) : list Z := match nth_error (f4_blocks file) j with Some b => block_tags file b | None => [] end.
Lemma items_4 : forall file, co_items (content4 file) = map (item_of (tag4 file)) (groups4 (f4_blocks file) 0).
Proof. intros file. apply blocks_groups. intros p b H. unfold tag4. cbn [Nat.add]. rewrite H. reflexivity. Qed.
Theorem finished4 : forall check dw file r, read4 dw (new_factory check) file = Ok r -> NoDup (map fst (concat (f4_nodes file))) ->
  exists coords index gs tg tags, finished check dw (content4 file) coords index gs tg tags r.
Proof.
  intros check dw file r H ND. unfold read4 in H. apply bind_ok in H as (u & _ & H). apply bind_ok in H as (u' & _ & H). apply bind_ok in H as ((main, k0) & S0 & H). cbn [fst snd] in H.
  apply bind_ok in H as (u'' & _ & H). apply bind_ok in H as (((gi2mi, gi2i), b) & I0 & H). apply bind_ok in H as ((b', m) & L0 & H).
  apply bind_ok in H as (M & BM & H). apply bind_ok in H as (m0 & M0 & H). apply bind_ok in H as (m1 & M1 & H). apply bind_ok in H as (m2 & M2 & H). apply bind_ok in H as (ph & PH & H). injection H as <-.
  destruct (scan_blocks_nth _ _ _ _ _ _ S0) as (_ & S2 & _). destruct (tables4 _ _ _ _ _ _ _ _ ND S0 I0) as (-> & TB).
  fold (coords4 (f4_min file) gi2i) in L0. fold (index4 (f4_min file) gi2mi) in L0. rewrite loop4 in L0 by (intros; apply S2; auto).
  exists (coords4 (f4_min file) gi2i), (index4 (f4_min file) gi2mi), (groups4 (f4_blocks file) 0), (tag4 file). eexists. split; [exact TB|apply items_4| |].
  2: { exists b', m, M, ph. split; [exact L0|]. split; [exact BM|]. split; [exact PH|]. reflexivity. }
  intros g j l Hg Hj T. cbn beta in T. apply bind_ok in T as (eb & T1 & T2). apply at_ok in T1. apply bind_ok in T2 as (x & T2 & T3). injection T3 as <-.
  destruct (groups4_type _ _ _ _ Hg Hj) as (eb' & G1 & _ & G2). rewrite Nat.sub_0_r in G1. assert (eb' = eb) by congruence. subst eb'.
  unfold tag4. rewrite T1. unfold block_tags. destruct (S2 eb (nth_error_In _ _ T1)) as [D1 D2]. rewrite <- G2 in T2. rewrite D1.
  destruct (DimOf (eb_type eb)) as [|[|[|d]]]; [| | |lia]; cbn [Nat.sub] in T2.
  - apply (make_map_at _ _ _ _) with (2 := T2). rewrite <- M0. destruct (f4_num_partitions file =? 0)%nat; reflexivity.
  - apply (make_map_at _ _ _ _) with (2 := T2). rewrite <- M1. destruct (f4_num_partitions file =? 0)%nat; reflexivity.
  - apply (make_map_at _ _ _ _) with (2 := T2). rewrite <- M2. destruct (f4_num_partitions file =? 0)%nat; reflexivity.
Qed.
