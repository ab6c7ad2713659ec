(** Proofs about mesh construction (MeshModel.v against MeshSpec.v). *)
From Coq Require Import List Arith Lia Bool Permutation Sorted.
Import ListNotations.
From Verif Require Import Base MeshModel MeshSpec.

(** * Keys *)
Definition norm (k : nat * nat) : nat * nat := (cmp0 k, cmp1 k).

Lemma norm_same : forall a b, norm a = norm b <-> same_pair a b.
Proof.
  intros [a1 a2] [b1 b2]; unfold norm, cmp0, cmp1, same_pair; simpl.
  destruct (Nat.ltb_spec a1 a2), (Nat.ltb_spec b1 b2); simpl; split; intro Q;
    [injection Q as Q1 Q2|destruct Q as [[? ?]|[? ?]]; subst; try lia; f_equal; lia
    |injection Q as Q1 Q2|destruct Q as [[? ?]|[? ?]]; subst; try lia; f_equal; lia
    |injection Q as Q1 Q2|destruct Q as [[? ?]|[? ?]]; subst; try lia; f_equal; lia
    |injection Q as Q1 Q2|destruct Q as [[? ?]|[? ?]]; subst; try lia; f_equal; lia];
    try (left; lia); right; lia.
Qed.

Lemma key_lt_norm : forall a b,
  key_lt a b = true <->
  (fst (norm a) < fst (norm b) \/ (fst (norm a) = fst (norm b) /\ snd (norm a) < snd (norm b))).
Proof.
  intros a b; unfold key_lt, norm; simpl.
  destruct (Nat.eqb_spec (cmp0 a) (cmp0 b)).
  - rewrite Nat.ltb_lt; lia.
  - rewrite Nat.ltb_lt; lia.
Qed.

Definition klt (a b : (nat * nat) * edge_data) : Prop := key_lt (fst a) (fst b) = true.

Lemma key_lt_trans : forall a b c, key_lt a b = true -> key_lt b c = true -> key_lt a c = true.
Proof. intros a b c; rewrite !key_lt_norm; lia. Qed.

Lemma key_lt_irrefl_norm : forall a b, norm a = norm b -> key_lt a b = false.
Proof.
  intros a b H; destruct (key_lt a b) eqn:E; auto.
  apply key_lt_norm in E; rewrite H in E; lia.
Qed.

Lemma key_lt_total : forall a b, key_lt a b = false -> key_lt b a = false -> norm a = norm b.
Proof.
  intros a b H1 H2.
  destruct (norm a) as [x y] eqn:Ea, (norm b) as [z w] eqn:Eb.
  assert (~ (key_lt a b = true)) as N1 by congruence.
  assert (~ (key_lt b a = true)) as N2 by congruence.
  rewrite key_lt_norm in N1, N2. rewrite Ea, Eb in *; simpl in *.
  f_equal; lia.
Qed.

Lemma norm_dec : forall a b, {norm a = norm b} + {norm a <> norm b}.
Proof. intros; decide equality; apply Nat.eq_dec. Qed.

(** * The map *)
Definition sorted (m : emap) : Prop := StronglySorted klt m.

Lemma sorted_inv : forall e m, sorted (e :: m) ->
  sorted m /\ forall x, In x m -> key_lt (fst e) (fst x) = true.
Proof.
  intros e m H; inversion H; subst; split; auto.
  rewrite Forall_forall in H3; exact H3.
Qed.

Lemma sorted_unique : forall m e e', sorted m -> In e m -> In e' m ->
  norm (fst e) = norm (fst e') -> e = e'.
Proof.
  induction m; simpl; intros; [tauto|].
  apply sorted_inv in H as [Hs Hl].
  destruct H0, H1; subst; auto.
  - apply Hl in H0. rewrite key_lt_irrefl_norm in H0; congruence.
  - apply Hl in H. rewrite key_lt_irrefl_norm in H; congruence.
Qed.

Lemma find_none : forall k m, sorted m ->
  (emap_find k m = None <-> forall e, In e m -> norm (fst e) <> norm k).
Proof.
  induction m as [|e t IH]; simpl; intros S.
  - split; intros; tauto.
  - pose proof (sorted_inv _ _ S) as [St Hl].
    destruct (key_lt (fst e) k) eqn:E1.
    + rewrite IH by auto. split; intros H.
      * intros x [<-|Hx]; auto.
        intro N; rewrite key_lt_irrefl_norm in E1; congruence.
      * intros x Hx; apply H; auto.
    + destruct (key_lt k (fst e)) eqn:E2.
      * split; auto. intros _ x [<-|Hx] N.
        -- rewrite key_lt_irrefl_norm in E2; congruence.
        -- apply Hl in Hx.
           pose proof (key_lt_trans _ _ _ E2 Hx) as T.
           rewrite key_lt_irrefl_norm in T; congruence.
      * split; [discriminate|]. intros H; exfalso.
        apply (H e); auto. apply key_lt_total; auto.
Qed.

Lemma find_some : forall k m e, sorted m -> emap_find k m = Some e ->
  In e m /\ norm (fst e) = norm k.
Proof.
  induction m as [|e t IH]; simpl; intros x S H; [discriminate|].
  pose proof (sorted_inv _ _ S) as [St Hl].
  destruct (key_lt (fst e) k) eqn:E1.
  - destruct (IH _ St H); auto.
  - destruct (key_lt k (fst e)) eqn:E2; [discriminate|].
    injection H as <-; split; auto. apply key_lt_total; auto.
Qed.

Lemma insert_new : forall k d m, sorted m ->
  (forall e, In e m -> norm (fst e) <> norm k) ->
  exists m', emap_insert k d m = (m', true) /\ sorted m' /\
             Permutation ((k, d) :: m) m'.
Proof.
  induction m as [|e t IH]; simpl; intros S H.
  - exists [(k, d)]; repeat split; auto. constructor; constructor.
  - pose proof (sorted_inv _ _ S) as [St Hl].
    destruct (key_lt (fst e) k) eqn:E1.
    + destruct IH as (m' & Hi & Hs & Hp); auto.
      rewrite Hi. exists (e :: m'); repeat split; auto.
      * constructor; auto. rewrite Forall_forall. intros x Hx.
        apply Permutation_sym in Hp.
        apply (Permutation_in _ Hp) in Hx. destruct Hx as [<-|Hx]; auto.
        apply Hl; auto.
      * rewrite perm_swap. constructor. auto.
    + destruct (key_lt k (fst e)) eqn:E2.
      * exists ((k, d) :: e :: t); repeat split; auto.
        constructor; auto. constructor; auto.
        rewrite Forall_forall. intros x Hx. unfold klt; simpl.
        apply key_lt_trans with (fst e); auto.
      * exfalso. apply (H e); auto. apply key_lt_total; auto.
Qed.

Lemma insert_dup : forall k d m e, sorted m -> In e m -> norm (fst e) = norm k ->
  emap_insert k d m = (m, false).
Proof.
  induction m as [|e t IH]; simpl; intros x S Hin Hn; [tauto|].
  pose proof (sorted_inv _ _ S) as [St Hl].
  destruct Hin as [->|Hin].
  - rewrite (key_lt_irrefl_norm (fst x) k), (key_lt_irrefl_norm k (fst x)); auto.
  - pose proof (Hl _ Hin) as L.
    assert (key_lt (fst e) k = true) as E1.
    { apply key_lt_norm. apply key_lt_norm in L. rewrite Hn in L. exact L. }
    rewrite E1. rewrite (IH x); auto.
Qed.

Definition upd_entry k g (e : (nat * nat) * edge_data) :=
  if norm_dec (fst e) k then (fst e, g (fst e) (snd e)) else e.

Lemma update_map : forall k g m, sorted m ->
  emap_update k g m = map (upd_entry k g) m.
Proof.
  induction m as [|e t IH]; simpl; intros S; auto.
  pose proof (sorted_inv _ _ S) as [St Hl].
  unfold upd_entry at 1.
  destruct (key_lt (fst e) k) eqn:E1.
  - destruct norm_dec as [N|N].
    + rewrite key_lt_irrefl_norm in E1; congruence.
    + f_equal; auto.
  - assert (T : map (upd_entry k g) t = t).
    { rewrite <- (map_id t) at 2. apply map_ext_in. intros x Hx.
      unfold upd_entry. destruct norm_dec as [N|N]; auto.
      exfalso. apply Hl in Hx.
      assert (key_lt (fst e) k = true) as C; [|congruence].
      apply key_lt_norm. apply key_lt_norm in Hx. rewrite N in Hx. exact Hx. }
    destruct (key_lt k (fst e)) eqn:E2.
    + destruct norm_dec as [N|N].
      * rewrite key_lt_irrefl_norm in E2; congruence.
      * rewrite T; auto.
    + destruct norm_dec as [N|N].
      * rewrite T; auto.
      * exfalso; apply N, key_lt_total; auto.
Qed.

Lemma sorted_upd : forall k g m, sorted m -> sorted (map (upd_entry k g) m).
Proof.
  induction m; simpl; intros S; [constructor|].
  pose proof (sorted_inv _ _ S) as [St Hl].
  constructor; [apply IHm; auto|].
  rewrite Forall_forall. intros x Hx. apply in_map_iff in Hx as (y & <- & Hy).
  apply Hl in Hy. unfold klt, upd_entry.
  destruct norm_dec, norm_dec; simpl; auto.
Qed.

(** * Registrations and the invariant of the edge map *)
Inductive src := SGiven (k : nat) | SCell (c j : nat) (geo : bool).
Definition reg := ((nat * nat) * src)%type.

Definition adj_of (k : nat * nat) (r : reg) : list (nat * nat) :=
  match snd r with
  | SGiven _ => []
  | SCell c j _ => if norm_dec (fst r) k then [(c, j)] else []
  end.

Definition orient (k : nat * nat) (rev : bool) : nat * nat :=
  if rev then (snd k, fst k) else k.

Record entry_ok (rs : list reg) (k : nat * nat) (d : edge_data) : Prop := {
  eo_loop : fst k <> snd k;
  eo_src : exists s p, In (p, s) rs /\ norm p = norm k;
  eo_adj : ed_adj d = flat_map (adj_of k) rs;
  eo_idx : forall i, ed_idx d = Some i <-> In (k, SGiven i) rs;
  eo_giv : forall i p, In (p, SGiven i) rs -> norm p = norm k -> p = k;
  eo_gidx : forall i, ed_idx d = Some i <-> ed_geo d = Some (EGiven i);
  eo_grev : forall i, ed_idx d = Some i -> ed_rev d = false;
  eo_cell : forall c j, ed_geo d = Some (ECell c j) ->
              In (orient k (ed_rev d), SCell c j true) rs;
  eo_str : forall a b, ed_geo d <> Some (EStraight a b);
  eo_none : ed_geo d = None -> ed_rev d = false /\
              forall p c j g, In (p, SCell c j g) rs -> norm p = norm k -> g = false
}.

Record inv (rs : list reg) (m : emap) : Prop := {
  iv_sorted : sorted m;
  iv_ok : forall k d, In (k, d) m -> entry_ok rs k d;
  iv_all : forall r, In r rs -> exists k d, In (k, d) m /\ norm k = norm (fst r);
  iv_uni : forall p q i, In (p, SGiven i) rs -> In (q, SGiven i) rs -> p = q
}.

Lemma inv_nil : inv [] [].
Proof. constructor; simpl; try tauto. constructor. Qed.

Lemma flat_map_nil : forall A B (f : A -> list B) l,
  (forall x, In x l -> f x = []) -> flat_map f l = [].
Proof. induction l; simpl; intros; auto. rewrite H, IHl; auto. Qed.

(** Entries of other keys are not affected by one more registration. *)
Lemma entry_ok_other : forall rs k d r, entry_ok rs k d -> norm (fst r) <> norm k ->
  entry_ok (rs ++ [r]) k d.
Proof.
  intros rs k d [p s] H N; simpl in N. destruct H.
  constructor; auto.
  - destruct eo_src0 as (s0 & p0 & ? & ?). exists s0, p0. rewrite in_app_iff; auto.
  - rewrite flat_map_app; simpl. unfold adj_of at 2; simpl.
    destruct s; [rewrite !app_nil_r; auto|].
    destruct norm_dec; [congruence|]. rewrite !app_nil_r; auto.
  - intros i. rewrite eo_idx0, in_app_iff; simpl. split; auto.
    intros [?|[E|[]]]; auto. injection E as -> ->; congruence.
  - intros i q; rewrite in_app_iff; simpl. intros [?|[E|[]]] ?; eauto.
    injection E as -> ->; congruence.
  - intros c j E. rewrite in_app_iff; left; auto.
  - intros E. destruct (eo_none0 E) as [Hr Hg]; split; auto.
    intros q c j g; rewrite in_app_iff; simpl. intros [?|[E2|[]]] ?; eauto.
    injection E2 as -> ->; congruence.
Qed.

Lemma norm_orient : forall k b, norm (orient k b) = norm k.
Proof. intros [a b] []; simpl; auto. apply norm_same; right; auto. Qed.

Lemma same_norm_cases : forall a b, norm a = norm b -> a = b \/ a = (snd b, fst b).
Proof.
  intros [a1 a2] [b1 b2] H. apply norm_same in H. unfold same_pair in H; simpl in *.
  destruct H as [[-> ->]|[-> ->]]; auto.
Qed.

(** One more supplied edge. *)
Lemma inv_given : forall rs m k i,
  inv rs m -> fst k <> snd k ->
  (forall e, In e m -> norm (fst e) <> norm k) ->
  (forall p, ~ In (p, SGiven i) rs) ->
  exists m', emap_insert k (mkED (Some (EGiven i)) [] (Some i) false) m = (m', true) /\
             inv (rs ++ [(k, SGiven i)]) m' /\ length m' = S (length m).
Proof.
  intros rs m k i [S Ok All Uni] Hl Hn Hf.
  set (d := mkED (Some (EGiven i)) [] (Some i) false).
  destruct (insert_new k d m S Hn) as (m' & E & S' & P).
  exists m'; split; auto. split; [|apply Permutation_length in P; simpl in P; lia].
  assert (NoReg : forall r, In r rs -> norm (fst r) <> norm k).
  { intros r Hr C. destruct (All r Hr) as (k' & d' & Hin & N).
    apply (Hn _ Hin); simpl; congruence. }
  constructor; auto.
  - intros k' d' Hin.
    apply (Permutation_in _ (Permutation_sym P)) in Hin.
    destruct Hin as [E'|Hin].
    + injection E' as <- <-. unfold d. constructor; simpl; auto.
      * exists (SGiven i), k. rewrite in_app_iff; simpl; auto.
      * rewrite flat_map_app; simpl.
        rewrite app_nil_r. symmetry; apply flat_map_nil.
        intros [p s] Hr. unfold adj_of; simpl. destruct s; auto.
        destruct norm_dec; auto. exfalso; apply (NoReg _ Hr); auto.
      * intros i'. rewrite in_app_iff; simpl. split.
        -- intros [= ->]; auto.
        -- intros [H|[[= ->]|[]]]; auto. exfalso. apply (NoReg _ H); auto.
      * intros i' p. rewrite in_app_iff; simpl.
        intros [H|[[= -> ->]|[]]] N; auto. exfalso; apply (NoReg _ H); auto.
      * intros i'; split; intros [= ->]; auto.
      * discriminate.
      * discriminate.
      * discriminate.
    + apply entry_ok_other; auto. simpl. intro C. apply (Hn _ Hin); simpl; auto.
  - intros r. rewrite in_app_iff; simpl. intros [H|[<-|[]]].
    + destruct (All _ H) as (k' & d' & ? & ?). exists k', d'; split; auto.
      apply (Permutation_in _ P); simpl; auto.
    + exists k, d; split; auto. apply (Permutation_in _ P); simpl; auto.
  - intros p q i'. rewrite !in_app_iff; simpl.
    intros [H1|[H1|[]]] [H2|[H2|[]]]; eauto.
    + injection H2 as <- <-. exfalso; eapply Hf; eauto.
    + injection H1 as <- <-. exfalso; eapply Hf; eauto.
    + congruence.
Qed.

(** One more local edge of a cell. *)
Lemma inv_cell : forall rs m c geo nodes t j,
  inv rs m ->
  let k := (nth (sub_vertex t j 0) nodes 0, nth (sub_vertex t j 1) nodes 0) in
  fst k <> snd k ->
  exists m', reg_cell_edge c geo nodes t j m = Ok m' /\
             inv (rs ++ [(k, SCell c j geo)]) m'.
Proof.
  intros rs m c geo nodes t j [S Hok All Uni] k Hl.
  unfold reg_cell_edge, epair. fold k in Hl |- *.
  replace (nth (sub_vertex t j 0) nodes 0) with (fst k) by reflexivity.
  replace (nth (sub_vertex t j 1) nodes 0) with (snd k) by reflexivity.
  destruct (Nat.eqb_spec (fst k) (snd k)); [tauto|]. simpl lf_assert.
  cbn [bind negb].
  replace (fst k, snd k) with k by (destruct k; auto).
  destruct (emap_find k m) as [e|] eqn:F.
  - apply find_some in F as [Hin N]; auto.
    exists (emap_update k (meet_edge c geo j k) m); split; auto.
    rewrite update_map by auto.
    assert (forall k' d', In (k', d') m ->
              In (upd_entry k (meet_edge c geo j k) (k', d')) (map (upd_entry k (meet_edge c geo j k)) m)) as Hmap.
    { intros; apply in_map; auto. }
    constructor.
    + apply sorted_upd; auto.
    + intros k' d' Hm. apply in_map_iff in Hm as ([k0 d0] & E & Hm).
      pose proof (Hok _ _ Hm) as O. unfold upd_entry in E; simpl in E.
      destruct (norm_dec k0 k) as [N0|N0]; injection E as <- <-.
      * destruct O. unfold meet_edge.
        assert (Hadj : ed_adj d0 ++ [(c, j)] = flat_map (adj_of k0) (rs ++ [(k, SCell c j geo)])).
        { rewrite flat_map_app; simpl.  unfold adj_of at 2; simpl.
          destruct norm_dec; [|congruence]. rewrite app_nil_r. congruence. }
        assert (Hsrc : exists (s : src) (p : nat * nat),
                  In (p, s) (rs ++ [(k, SCell c j geo)]) /\ norm p = norm k0).
        { destruct eo_src0 as (s0 & p0 & ? & ?). exists s0, p0; rewrite in_app_iff; auto. }
        assert (Hidx : forall i, In (k0, SGiven i) (rs ++ [(k, SCell c j geo)]) <->
                                 In (k0, SGiven i) rs).
        { intros i; rewrite in_app_iff; simpl. split; auto.
          intros [?|[E|[]]]; auto; congruence. }
        assert (Hgiv : forall i p, In (p, SGiven i) (rs ++ [(k, SCell c j geo)]) ->
                                   norm p = norm k0 -> p = k0).
        { intros i p; rewrite in_app_iff; simpl. intros [?|[E|[]]] ?; eauto; congruence. }
        destruct (ed_geo d0) as [g|] eqn:G.
        -- constructor; simpl; auto.
           ++ intros i; rewrite Hidx; auto.
           ++ intros c' j' E. rewrite in_app_iff; left; auto.
           ++ discriminate.
        -- destruct (eo_none0 eq_refl) as [Hrev Hng].
           destruct geo.
           ++ assert (ed_idx d0 = None) as Hi.
              { destruct (ed_idx d0) as [i0|] eqn:I; auto.
                destruct (eo_gidx0 i0) as [X _]. specialize (X eq_refl). discriminate. }
              constructor; simpl; auto.
              ** intros i; rewrite Hidx; auto.
              ** intros i; rewrite Hi; split; discriminate.
              ** intros i; rewrite Hi; discriminate.
              ** intros c' j' [= <- <-]. rewrite in_app_iff; right; simpl; left.
                 f_equal. unfold coincide. rewrite Hrev.
                 destruct (same_norm_cases k k0 (eq_sym N0)) as [->|Hk].
                 --- rewrite !Nat.eqb_refl; simpl. reflexivity.
                 --- rewrite Hk. unfold orient; cbn [fst snd].
                     rewrite Hk in Hl; simpl in Hl.
                     destruct (Nat.eqb_spec (snd k0) (fst k0)); [congruence|].
                     simpl; auto.
              ** discriminate.
              ** discriminate.
           ++ assert (ed_idx d0 = None) as Hi.
              { destruct (ed_idx d0) as [i0|] eqn:I; auto.
                destruct (eo_gidx0 i0) as [X _]. specialize (X eq_refl). discriminate. }
              constructor; simpl; auto.
              ** intros i; rewrite Hidx; auto.
              ** discriminate.
              ** intros _; split; auto. intros p c' j' g'; rewrite in_app_iff; simpl.
                 intros [?|[E|[]]] ?; eauto. congruence.
      * apply entry_ok_other; auto.
    + intros r. rewrite in_app_iff; simpl. intros [H|[<-|[]]].
      * destruct (All _ H) as (k' & d' & Hm & Hn). apply Hmap in Hm.
        unfold upd_entry in Hm; simpl in Hm.
        destruct norm_dec; eauto.
      * destruct e as [k' d']. apply Hmap in Hin. simpl in *.
        unfold upd_entry in Hin; simpl in Hin. destruct norm_dec; eauto.
    + intros p q i. rewrite !in_app_iff; simpl.
      intros [?|[?|[]]] [?|[?|[]]]; eauto; congruence.
  - rewrite find_none in F by auto.
    set (d := mkED (if geo then Some (ECell c j) else None) [(c, j)] None false).
    destruct (insert_new k d m S F) as (m' & E & S' & P).
    rewrite E. simpl. exists m'; split; auto.
    assert (NoReg : forall r, In r rs -> norm (fst r) <> norm k).
    { intros r Hr C. destruct (All r Hr) as (k' & d' & Hin & N).
      apply (F _ Hin); simpl; congruence. }
    constructor; auto.
    + intros k' d' Hin.
      apply (Permutation_in _ (Permutation_sym P)) in Hin.
      destruct Hin as [E'|Hin].
      * injection E' as <- <-. unfold d. constructor; simpl; auto.
        -- exists (SCell c j geo), k. rewrite in_app_iff; simpl; auto.
        -- rewrite flat_map_app; simpl.  unfold adj_of at 2; simpl.
           destruct norm_dec; [|congruence].
           rewrite flat_map_nil; auto.
           intros [p s] Hr. unfold adj_of; simpl. destruct s; auto.
           destruct norm_dec; auto. exfalso; apply (NoReg _ Hr); auto.
        -- intros i'. rewrite in_app_iff; simpl. split; [discriminate|].
           intros [H|[H|[]]]; [|congruence]. exfalso. apply (NoReg _ H); auto.
        -- intros i' p. rewrite in_app_iff; simpl.
           intros [H|[H|[]]] N; [|congruence]. exfalso; apply (NoReg _ H); auto.
        -- intros i'; destruct geo; split; discriminate.
        -- intros c' j'. destruct geo; [|discriminate]. intros [= <- <-].
           rewrite in_app_iff; simpl; auto.
        -- destruct geo; discriminate.
        -- destruct geo; [discriminate|]. intros _; split; auto.
           intros p c' j' g'; rewrite in_app_iff; simpl.
           intros [H|[H|[]]] N; [|congruence]. exfalso; apply (NoReg _ H); auto.
      * apply entry_ok_other; auto. simpl. intro C. apply (F _ Hin); simpl; auto.
    + intros r. rewrite in_app_iff; simpl. intros [H|[<-|[]]].
      * destruct (All _ H) as (k' & d' & ? & ?). exists k', d'; split; auto.
        apply (Permutation_in _ P); simpl; auto.
      * exists k, d; split; auto. apply (Permutation_in _ P); simpl; auto.
    + intros p q i'. rewrite !in_app_iff; simpl.
      intros [?|[?|[]]] [?|[?|[]]]; eauto; congruence.
Qed.
