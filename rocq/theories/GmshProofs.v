(** Proofs for C67: element types, main nodes, insertion of nodes. *)
From Coq Require Import Reals String List Arith Bool ZArith Lia.
Import ListNotations.
From Verif Require Import Base MeshModel MeshSpec GeoModel GmshModel GmshSpec.
Local Open Scope list_scope.

Ltac ok H := repeat (apply bind_ok in H; let a := fresh "a" in let E := fresh "E" in destruct H as (a & E & H)).
Lemma assert_ok : forall b u, lf_assert b = Ok u -> b = true.
Proof. intros [] u H; [reflexivity|discriminate]. Qed.
Lemma verify_ok : forall b u, verify b = Ok u -> b = true.
Proof. intros [] u H; [reflexivity|discriminate]. Qed.

Lemma etype_eqb_spec : forall a b, etype_eqb a b = true <-> a = b.
Proof. intros a b. unfold etype_eqb. destruct (etype_eq_dec a b); split; intros; auto; discriminate. Qed.
Lemma same_nodes_spec : forall a b, same_nodes a b = true <-> a = b.
Proof. intros a b. unfold same_nodes. destruct (list_eq_dec Nat.eq_dec a b); split; intros; auto; discriminate. Qed.
Lemma refel_of : forall t el, RefElOf t = Ok el -> dimension el = DimOf t /\ num_nodes el = num_corners t /\ (el = kPoint <-> t = POINT).
Proof. intros t el H. destruct t; try discriminate H; injection H as <-; repeat split; intros; auto; discriminate. Qed.
Lemma refel_exists : forall t, (DimOf t <= 2)%nat -> exists el, RefElOf t = Ok el.
Proof. intros t H. destruct t; try (cbn in H; lia); eexists; reflexivity. Qed.

(** *** Vectors *)
Lemma at_ok : forall A (l : list A) i a, at_ l i = Ok a <-> nth_error l i = Some a.
Proof. intros A l i a. unfold at_. destruct (nth_error l i); split; intros H; congruence. Qed.
Lemma grow_length : forall A k (d : A) l, length (grow k d l) = Nat.max (length l) (S k).
Proof.
  intros A k d l. unfold grow. destruct (Nat.leb_spec (length l) k).
  - unfold resize. rewrite app_length, firstn_length, repeat_length. lia.
  - lia.
Qed.
Lemma grow_lt : forall A k (d : A) l, (k < length (grow k d l))%nat.
Proof. intros. rewrite grow_length. lia. Qed.
Lemma grow_nth : forall A k (d : A) l i, nth i (grow k d l) d = nth i l d.
Proof.
  intros A k d l i. unfold grow. destruct (Nat.leb_spec (length l) k); [|reflexivity].
  unfold resize. rewrite firstn_all2 by lia. destruct (Nat.lt_ge_cases i (length l)).
  - apply app_nth1. auto.
  - rewrite app_nth2 by auto. rewrite (nth_overflow l) by auto. apply nth_repeat.
Qed.
Lemma grow_nth_error : forall A k (d : A) l i, (i < length l)%nat -> nth_error (grow k d l) i = nth_error l i.
Proof.
  intros A k d l i Hi. unfold grow. destruct (Nat.leb_spec (length l) k); [|reflexivity].
  unfold resize. rewrite firstn_all2 by lia. apply nth_error_app1. auto.
Qed.
Lemma grow_new : forall A k (d : A) l i, (length l <= i)%nat -> nth_error (grow k d l) i = None \/ nth_error (grow k d l) i = Some d.
Proof.
  intros A k d l i Hi. destruct (nth_error (grow k d l) i) as [a|] eqn:E; auto. right. f_equal.
  assert (nth i (grow k d l) d = a) as <- by (apply nth_error_nth; auto). rewrite grow_nth. apply nth_overflow. auto.
Qed.
Lemma nth_upd : forall A i j (v d : A) l, (i < length l)%nat -> nth j (upd i v l) d = if (i =? j)%nat then v else nth j l d.
Proof.
  intros A i j v d l Hi. destruct (Nat.eqb_spec i j) as [->|N]; [apply nth_upd_eq; auto|apply nth_upd_neq; auto].
Qed.
Lemma nth_error_upd : forall A i j (v : A) l, (i < length l)%nat -> nth_error (upd i v l) j = if (i =? j)%nat then Some v else nth_error l j.
Proof.
  intros A i j v l Hi. destruct (Nat.eqb_spec i j) as [->|N]; [apply nth_error_upd_eq; auto|apply nth_error_upd_neq; auto].
Qed.

(** *** Main nodes *)
Lemma mark_main_nth : forall low t ns main main', mark_main low t ns main = Ok main' ->
  (length main <= length main')%nat /\ (forall n, In n (firstn (num_nodes t) ns) -> low <= n /\ (n - low < length main')%nat) /\
  forall k, nth k main' false = nth k main false || existsb (Nat.eqb (k + low)) (firstn (num_nodes t) ns).
Proof.
  intros low t ns main main' H. unfold mark_main in H. ok H. apply assert_ok in E0. clear E. injection H as <-.
  generalize dependent (firstn (num_nodes t) ns). clear. intros l. revert main. induction l as [|n l IH]; intros main H; cbn [fold_left existsb].
  - split; [auto|]. split; [intros ? []|]. intros k. rewrite orb_false_r. reflexivity.
  - cbn [forallb] in H. apply andb_prop in H as [H1 H2]. apply Nat.leb_le in H1.
    destruct (IH (upd (n - low) true (grow (n - low) false main)) H2) as (L1 & L2 & L3).
    rewrite upd_length, grow_length in L1. split; [lia|]. split.
    + intros x [<-|Hx]; [lia|apply L2, Hx].
    + intros k. rewrite L3, nth_upd by apply grow_lt. rewrite grow_nth.
      destruct (Nat.eqb_spec (n - low) k); destruct (Nat.eqb_spec (k + low) n); try lia; cbn; rewrite ?orb_true_r, ?orb_false_r; auto.
Qed.
Lemma mark_main_ok : forall low t ns main, (num_nodes t <= length ns)%nat -> (forall n, In n (firstn (num_nodes t) ns) -> low <= n) -> exists main', mark_main low t ns main = Ok main'.
Proof.
  intros low t ns main H1 H2. unfold mark_main. rewrite (proj2 (Nat.leb_le _ _) H1). cbn [lf_assert bind].
  rewrite (proj2 (forallb_forall _ _)) by (intros x Hx; apply Nat.leb_le, H2, Hx). cbn [lf_assert bind]. eauto.
Qed.
Lemma corner_of_is : forall n t ns el, RefElOf t = Ok el -> existsb (Nat.eqb n) (firstn (num_nodes el) ns) = is_corner_of n t ns.
Proof. intros n t ns el H. destruct (refel_of t el H) as (_ & E & _). unfold is_corner_of, corners. rewrite E. reflexivity. Qed.
Definition main2 (es : list element) (n : nat) : bool := existsb (fun e => negb (etype_eqb (el_type e) POINT) && is_corner_of n (el_type e) (el_nodes e)) es.
Lemma scan_elements_nth : forall es main k main' k', scan_elements es main k = Ok (main', k') ->
  (length main <= length main')%nat /\ (forall e, In e es -> (DimOf (el_type e) <= 2)%nat) /\ (forall n, main2 es n = true -> (n < length main')%nat) /\
  (forall n, nth n main' false = nth n main false || main2 es n) /\ k' = (k + length (filter (fun e => DimOf (el_type e) =? 2)%nat es))%nat.
Proof.
  induction es as [|e es IH]; intros main k main' k' H.
  - injection H as <- <-. split; [auto|]. split; [intros ? []|]. split; [discriminate|]. split; [intros n; rewrite orb_false_r; reflexivity|cbn; lia].
  - cbn [scan_elements] in H. ok H. apply assert_ok in E. apply Nat.leb_le in E.
    destruct (IH _ _ _ _ H) as (L1 & L2 & L3 & L4 & L5).
    assert (K : (length main <= length a0)%nat /\ (forall n, negb (etype_eqb (el_type e) POINT) && is_corner_of n (el_type e) (el_nodes e) = true -> (n < length a0)%nat) /\
       forall n, nth n a0 false = nth n main false || (negb (etype_eqb (el_type e) POINT) && is_corner_of n (el_type e) (el_nodes e))).
    { destruct (etype_eqb (el_type e) POINT) eqn:EP.
      - injection E0 as <-. split; [auto|]. split; [discriminate|]. intros n. rewrite orb_false_r. reflexivity.
      - apply bind_ok in E0 as (t & E1 & E2). destruct (mark_main_nth _ _ _ _ _ E2) as (M1 & M2 & M3). split; [auto|]. cbn [negb andb]. split.
        + intros n Hn. rewrite <- (corner_of_is n _ _ _ E1) in Hn. apply existsb_exists in Hn as (x & Hx & Ex). apply Nat.eqb_eq in Ex. subst x.
          destruct (M2 _ Hx). lia.
        + intros n. rewrite M3, Nat.add_0_r, (corner_of_is _ _ _ _ E1). reflexivity. }
    destruct K as (K1 & K2 & K3). split; [lia|]. split; [intros x [<-|Hx]; auto|]. split; [|split].
    + intros n Hn. cbn [main2 existsb] in Hn. apply orb_prop in Hn as [Hn|Hn]; [apply K2 in Hn; lia|apply L3, Hn].
    + intros n. rewrite L4, K3. cbn [main2 existsb]. rewrite orb_assoc. reflexivity.
    + rewrite L5. cbn [filter]. destruct (DimOf (el_type e) =? 2)%nat; cbn [length]; lia.
Qed.
Lemma scan_elements_ok : forall es main k, (forall e, In e es -> (DimOf (el_type e) <= 2)%nat /\ (num_corners (el_type e) <= length (el_nodes e))%nat) ->
  exists main' k', scan_elements es main k = Ok (main', k').
Proof.
  induction es as [|e es IH]; intros main k H; [cbn; eauto|]. destruct (H e (or_introl eq_refl)) as [D N].
  cbn [scan_elements]. rewrite (proj2 (Nat.leb_le _ _) D). cbn [lf_assert bind].
  destruct (etype_eqb (el_type e) POINT); cbn [bind].
  - apply IH. intros x Hx. apply H. right. auto.
  - destruct (refel_exists _ D) as (t & Et). rewrite Et. cbn [bind]. destruct (mark_main_ok 0 t (el_nodes e) main) as (main' & ->).
    + destruct (refel_of _ _ Et) as (_ & -> & _). auto.
    + intros; lia.
    + cbn [bind]. apply IH. intros x Hx. apply H. right. auto.
Qed.

(** *** Nodes *)
Definition is_main (main : list bool) (nd : nat * vec) : bool := nth (fst nd) main false.
Definition after_points (n : nat) (f : factory) : factory := mkFactory (f_check f) (f_nodes f + n) (f_edges f) (f_cells f).
Lemma after_0 : forall f, after_points 0 f = f.
Proof. intros [c n e k]. unfold after_points. cbn. f_equal. lia. Qed.
Lemma after_after : forall a b f, after_points a (after_points b f) = after_points (a + b) f.
Proof. intros. unfold after_points. cbn. f_equal. lia. Qed.
Lemma insert_point_ok : forall dw c b r, insert_point dw c b = Ok r <->
  (dw = 2%nat -> c 2%nat = 0%R) /\ r = (f_nodes (b_fac b), mkBuild (after_points 1 (b_fac b)) (b_points b ++ [c]) (b_edges b) (b_cells b)).
Proof.
  intros dw c b r. unfold insert_point, add_point. cbn [lf_assert bind fst snd].
  assert (EF : mkFactory (f_check (b_fac b)) (S (f_nodes (b_fac b))) (f_edges (b_fac b)) (f_cells (b_fac b)) = after_points 1 (b_fac b)) by (unfold after_points; f_equal; lia).
  rewrite EF. destruct (Nat.eqb_spec dw 2) as [->|N].
  - destruct (Req_EM_T (c 2%nat) 0%R) as [Z|Z]; cbn [lf_assert bind]; split.
    + intros H. injection H as <-. auto.
    + intros [_ ->]. reflexivity.
    + discriminate.
    + intros [H _]. elim Z. auto.
  - cbn [bind]. split; [intros H; injection H as <-; split; auto; intros; contradiction|intros [_ ->]; reflexivity].
Qed.
(** Position of a node in a list of nodes. *)
Lemma filter_main_cons : forall main n c ns, filter (is_main main) ((n, c) :: ns) = if nth n main false then (n, c) :: filter (is_main main) ns else filter (is_main main) ns.
Proof. reflexivity. Qed.
Lemma insert_nodes_spec : forall dw main ns i gi2mi gi2i b gi2mi' gi2i' b',
  insert_nodes dw main ns i gi2mi gi2i b = Ok (gi2mi', gi2i', b') -> NoDup (map fst ns) -> length gi2mi = length main ->
  let ms := filter (is_main main) ns in
  b' = mkBuild (after_points (length ms) (b_fac b)) (b_points b ++ map snd ms) (b_edges b) (b_cells b) /\
  length gi2mi' = length main /\
  (forall p n c, nth_error ms p = Some (n, c) -> nth_error gi2mi' n = Some (Some (f_nodes (b_fac b) + p)%nat)) /\
  (forall n, ~ In n (map fst ms) -> nth_error gi2mi' n = nth_error gi2mi n) /\
  (forall p n c, nth_error ns p = Some (n, c) -> nth_error gi2i' n = Some (Some (i + p)%nat)) /\
  (forall n k, ~ In n (map fst ns) -> nth_error gi2i' n = Some (Some k) -> nth_error gi2i n = Some (Some k)).
Proof.
  intros dw main ns. induction ns as [|[n c] ns IH]; intros i gi2mi gi2i b gi2mi' gi2i' b' H ND LM ms.
  - injection H as <- <- <-. unfold ms. cbn [filter map length]. rewrite after_0, app_nil_r. split; [destruct b; reflexivity|].
    split; [exact LM|]. split; [intros [|p]; discriminate|]. split; [auto|]. split; [intros [|p]; discriminate|auto].
  - cbn [map] in ND. apply NoDup_cons_iff in ND as [NI ND]. cbn [insert_nodes] in H. unfold ms. clear ms. rewrite filter_main_cons.
    set (gi' := upd n (Some i) (grow n None gi2i)) in *.
    assert (GI : nth_error gi' n = Some (Some i)) by (unfold gi'; apply nth_error_upd_eq, grow_lt).
    assert (GO : forall x k, x <> n -> nth_error gi' x = Some (Some k) -> nth_error gi2i x = Some (Some k)).
    { intros x k Hx E. unfold gi' in E. rewrite nth_error_upd_neq in E by auto.
      destruct (Nat.lt_ge_cases x (length gi2i)); [rewrite grow_nth_error in E; auto|]. destruct (grow_new _ n None gi2i x H0); congruence. }
    assert (GU : forall gi2m b0 gi2m' gi2i'' b'', insert_nodes dw main ns (S i) gi2m gi' b0 = Ok (gi2m', gi2i'', b'') -> length gi2m = length main ->
       (forall p m c0, nth_error ((n, c) :: ns) p = Some (m, c0) -> nth_error gi2i'' m = Some (Some (i + p)%nat)) /\
       (forall m k, ~ In m (n :: map fst ns) -> nth_error gi2i'' m = Some (Some k) -> nth_error gi2i m = Some (Some k))).
    { intros gi2m b0 gi2m' gi2i'' b'' E LL. destruct (IH _ _ _ _ _ _ _ E ND LL) as (_ & _ & _ & _ & B5 & B6). split.
      - intros [|p] m c0 Hp; cbn in Hp.
        + injection Hp as <- <-. rewrite Nat.add_0_r.
          destruct (nth_error gi2i'' n) as [[k|]|] eqn:Q.
          * specialize (B6 n k NI Q). rewrite GI in B6. congruence.
          * exfalso. revert E Q. clear - GI NI. revert GI. generalize gi' (S i) gi2m b0. induction ns as [|[n1 c1] ns IH]; intros gi j gm b1 GI E Q.
            -- injection E as <- <- <-. congruence.
            -- cbn [insert_nodes] in E. cbn [map In] in NI.
               assert (G1 : nth_error (upd n1 (Some j) (grow n1 None gi)) n = Some (Some i)).
               { rewrite nth_error_upd_neq by (intro; apply NI; auto). rewrite grow_nth_error; auto. apply nth_error_Some. congruence. }
               destruct (nth n1 main false); [apply bind_ok in E as (pp & _ & E)|]; eapply (IH (fun X => NI (or_intror X))); eauto.
          * exfalso. revert E Q. clear - GI NI. revert GI. generalize gi' (S i) gi2m b0. induction ns as [|[n1 c1] ns IH]; intros gi j gm b1 GI E Q.
            -- injection E as <- <- <-. congruence.
            -- cbn [insert_nodes] in E. cbn [map In] in NI.
               assert (G1 : nth_error (upd n1 (Some j) (grow n1 None gi)) n = Some (Some i)).
               { rewrite nth_error_upd_neq by (intro; apply NI; auto). rewrite grow_nth_error; auto. apply nth_error_Some. congruence. }
               destruct (nth n1 main false); [apply bind_ok in E as (pp & _ & E)|]; eapply (IH (fun X => NI (or_intror X))); eauto.
        + rewrite (B5 p m c0 Hp). do 2 f_equal. lia.
      - intros m k NM E6. apply GO; [intros ->; apply NM; left; reflexivity|]. apply B6; auto. intros X. apply NM. right. exact X. }
    destruct (nth n main false) eqn:MN.
    + apply bind_ok in H as (r & E & H). apply insert_point_ok in E as [_ ->]. cbn [fst snd] in H.
      assert (NL : (n < length main)%nat).
      { destruct (Nat.lt_ge_cases n (length main)); auto. rewrite nth_overflow in MN by auto. discriminate. }
      assert (LU : length (upd n (Some (f_nodes (b_fac b))) gi2mi) = length main) by (rewrite upd_length; exact LM).
      destruct (IH _ _ _ _ _ _ _ H ND LU) as (B1 & B2 & B3 & B4 & _). destruct (GU _ _ _ _ _ H LU) as (B5 & B6).
      cbn [b_fac b_points b_edges b_cells f_nodes after_points] in *. cbn [map fst snd length].
      split; [rewrite B1; f_equal; [rewrite after_after; f_equal; lia|rewrite <- app_assoc; reflexivity]|]. split; [exact B2|]. split; [|split; [|split; [exact B5|exact B6]]].
      * intros [|p] m c0 Hp; cbn in Hp.
        -- injection Hp as <- <-. rewrite Nat.add_0_r. rewrite B4; [apply nth_error_upd_eq; lia|].
           intros X. apply NI. apply in_map_iff in X as (y & Ey & Hy). apply filter_In in Hy as [Hy _]. cbn [fst]. rewrite <- Ey. apply in_map. exact Hy.
        -- rewrite (B3 p m c0 Hp). do 2 f_equal. lia.
      * intros m NM. rewrite B4 by (intros X; apply NM; right; exact X). apply nth_error_upd_neq. intros ->. apply NM. left. reflexivity.
    + destruct (IH _ _ _ _ _ _ _ H ND LM) as (B1 & B2 & B3 & B4 & _). destruct (GU _ _ _ _ _ H LM) as (B5 & B6).
      split; [exact B1|]. split; [exact B2|]. split; [exact B3|]. split; [exact B4|]. split; [exact B5|exact B6].
Qed.
Lemma insert_nodes_ok : forall dw main ns i gi2mi gi2i b, (dw = 2%nat -> forall n c, In (n, c) ns -> nth n main false = true -> c 2%nat = 0%R) ->
  exists r, insert_nodes dw main ns i gi2mi gi2i b = Ok r.
Proof.
  intros dw main ns. induction ns as [|[n c] ns IH]; intros i gi2mi gi2i b H; [cbn; eauto|].
  cbn [insert_nodes]. destruct (nth n main false) eqn:E.
  - rewrite (proj2 (insert_point_ok dw c b _) (conj (fun D => H D n c (or_introl eq_refl) E) eq_refl)). cbn [bind]. apply IH. intros D m c0 Hm. apply H; auto. right. auto.
  - apply IH. intros D m c0 Hm. apply H; auto. right. auto.
Qed.
