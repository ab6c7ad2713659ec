(** Grids of list elements; what the loops of the builders hand to the factory. *)
From Coq Require Import Reals List Arith Lia Bool.
Import ListNotations.
From Verif Require Import Base MeshModel MeshSpec MeshView BuilderModel BuilderSpec BuilderProofs.

Definition grid {X} (f : nat -> nat -> list X) (n m : nat) : list X :=
  flat_map (fun i => flat_map (f i) (seq 0 m)) (seq 0 n).

Lemma in_grid : forall X (f : nat -> nat -> list X) n m x,
  In x (grid f n m) <-> exists i j, i < n /\ j < m /\ In x (f i j).
Proof.
  intros. unfold grid. rewrite in_flat_map. split.
  - intros (i & Hi & H). apply in_flat_map in H as (j & Hj & H). apply in_seq in Hi, Hj.
    exists i, j. split; [lia|split; [lia|auto]].
  - intros (i & j & Hi & Hj & H). exists i. split; [apply in_seq; lia|].
    apply in_flat_map. exists j. split; [apply in_seq; lia|auto].
Qed.

Lemma seq_S_last : forall a n, seq a (S n) = seq a n ++ [a + n].
Proof. intros. apply seq_S. Qed.
Lemma flat_map_S : forall X (f : nat -> list X) n, flat_map f (seq 0 (S n)) = flat_map f (seq 0 n) ++ f n.
Proof. intros. rewrite seq_S_last, flat_map_app. simpl. rewrite app_nil_r. reflexivity. Qed.
Lemma grid_S : forall X (f : nat -> nat -> list X) n m,
  grid f (S n) m = grid f n m ++ flat_map (f n) (seq 0 m).
Proof. intros. unfold grid. apply flat_map_S. Qed.

Lemma flat_map_const_length : forall X (f : nat -> list X) c n, (forall i, i < n -> length (f i) = c) ->
  length (flat_map f (seq 0 n)) = n * c.
Proof.
  induction n; intros H; auto. rewrite flat_map_S, app_length, IHn by (intros; apply H; lia).
  rewrite (H n) by lia. lia.
Qed.
Lemma grid_length : forall X (f : nat -> nat -> list X) c n m, (forall i j, i < n -> j < m -> length (f i j) = c) ->
  length (grid f n m) = n * m * c.
Proof.
  induction n; intros m H; auto. rewrite grid_S, app_length, IHn by (intros; apply H; lia).
  rewrite (flat_map_const_length _ _ c) by (intros; apply H; lia). lia.
Qed.

Lemma grid_nth : forall X (g : nat -> nat -> X) n m i j, i < n -> j < m ->
  nth_error (grid (fun i j => [g i j]) n m) (j + i * m) = Some (g i j).
Proof.
  induction n; intros m i j Hi Hj; [lia|]. rewrite grid_S.
  assert (L : length (grid (fun i j => [g i j]) n m) = n * m) by
    (rewrite (grid_length _ _ 1) by auto; lia).
  destruct (Nat.eq_dec i n) as [->|N].
  - rewrite nth_error_app2 by (rewrite L; lia). rewrite L. replace (j + n * m - n * m) with j by lia.
    clear - Hj. assert (G : forall l k, nth_error (flat_map (fun j => [g n j]) l) k = option_map (g n) (nth_error l k)).
    { induction l; intros [|k]; simpl; auto. }
    rewrite G. rewrite (nth_error_nth' _ 0) by (rewrite seq_length; auto). rewrite seq_nth by auto. reflexivity.
  - rewrite nth_error_app1; [apply IHn; lia|]. rewrite L. 
    assert (i * m + m <= n * m) by (replace (i * m + m) with (S i * m) by lia; apply Nat.mul_le_mono_r; lia). lia.
Qed.

Lemma grid_map : forall X Y (h : X -> Y) f n m, map h (grid f n m) = grid (fun i j => map h (f i j)) n m.
Proof.
  induction n; intros m; auto. rewrite !grid_S, map_app, IHn. f_equal.
  induction m; auto. rewrite !flat_map_S, map_app, IHm. auto.
Qed.
Lemma flat_map_ext_in : forall X (f g : nat -> list X) n, (forall i, i < n -> f i = g i) ->
  flat_map f (seq 0 n) = flat_map g (seq 0 n).
Proof. induction n; intros H; auto. rewrite !flat_map_S, IHn by (intros; apply H; lia). rewrite H by lia. auto. Qed.
Lemma grid_ext : forall X (f g : nat -> nat -> list X) n m, (forall i j, i < n -> j < m -> f i j = g i j) ->
  grid f n m = grid g n m.
Proof.
  induction n; intros m H; auto. rewrite !grid_S, IHn by (intros; apply H; lia). f_equal.
  apply flat_map_ext_in. intros; apply H; lia.
Qed.
Lemma grid_concat : forall X (f : nat -> nat -> list (list X)) n m,
  concat (grid f n m) = grid (fun i j => concat (f i j)) n m.
Proof.
  induction n; intros m; auto. rewrite !grid_S, concat_app, IHn. f_equal.
  induction m; auto. rewrite !flat_map_S, concat_app, IHm. auto.
Qed.
Lemma grid_forall2 : forall X Y (P : X -> Y -> Prop) f g n m,
  (forall i j, i < n -> j < m -> Forall2 P (f i j) (g i j)) -> Forall2 P (grid f n m) (grid g n m).
Proof.
  induction n; intros m H; [constructor|]. rewrite !grid_S. apply Forall2_app; [apply IHn; intros; apply H; lia|].
  assert (G : forall k, k <= m -> Forall2 P (flat_map (f n) (seq 0 k)) (flat_map (g n) (seq 0 k))).
  { induction k; intros Hk; [constructor|]. rewrite !flat_map_S. apply Forall2_app; [apply IHk; lia|]. apply H; lia. }
  apply G; auto.
Qed.

(** Counting in grids. *)
Definition b2n (b : bool) : nat := if b then 1 else 0.
Section Count.
Context {X : Type} (dec : forall a b : X, {a = b} + {a <> b}).

Lemma count_grid_app : forall (f g : nat -> nat -> list X) n m t,
  count_occ dec (grid (fun i j => f i j ++ g i j) n m) t =
  count_occ dec (grid f n m) t + count_occ dec (grid g n m) t.
Proof.
  assert (F : forall (f g : nat -> list X) m t, count_occ dec (flat_map (fun j => f j ++ g j) (seq 0 m)) t =
    count_occ dec (flat_map f (seq 0 m)) t + count_occ dec (flat_map g (seq 0 m)) t).
  { induction m; intros t; auto. rewrite !flat_map_S, !count_occ_app, IHm. lia. }
  induction n; intros m t; auto. rewrite !grid_S, !count_occ_app, IHn, F. lia.
Qed.

Lemma count_one : forall (f : nat -> list X) n t a c,
  (forall i, i < n -> count_occ dec (f i) t = if i =? a then c else 0) ->
  count_occ dec (flat_map f (seq 0 n)) t = if a <? n then c else 0.
Proof.
  induction n; intros t a c H; auto.
  rewrite flat_map_S, count_occ_app, (IHn t a c) by (intros; apply H; lia). rewrite H by lia.
  destruct (Nat.ltb_spec a n), (Nat.ltb_spec a (S n)), (Nat.eqb_spec n a); lia.
Qed.
Lemma count_grid_one : forall (f : nat -> nat -> list X) n m t a b,
  (forall i j, i < n -> j < m -> count_occ dec (f i j) t = b2n ((i =? a) && (j =? b))) ->
  count_occ dec (grid f n m) t = b2n ((a <? n) && (b <? m)).
Proof.
  intros f n m t a b H. unfold grid. rewrite (count_one _ n t a (b2n (b <? m))).
  - unfold b2n. destruct (a <? n), (b <? m); auto.
  - intros i Hi. rewrite (count_one _ m t b (b2n (i =? a))).
    + unfold b2n. destruct (i =? a), (b <? m); auto.
    + intros j Hj. rewrite H by auto. unfold b2n. destruct (i =? a), (j =? b); auto.
Qed.
Lemma count_grid_zero : forall (f : nat -> nat -> list X) n m t,
  (forall i j, i < n -> j < m -> ~ In t (f i j)) -> count_occ dec (grid f n m) t = 0.
Proof.
  intros f n m t H. apply count_occ_not_In. rewrite in_grid. intros (i & j & ? & ? & ?).
  eapply H; eauto.
Qed.
Lemma count_occ_one : forall x t : X, count_occ dec [x] t = if dec x t then 1 else 0.
Proof. intros. simpl. destruct (dec x t); auto. Qed.

Lemma grid_nodup : forall (g : nat -> nat -> X) n m,
  (forall i j i' j', i < n -> j < m -> i' < n -> j' < m -> g i j = g i' j' -> i = i' /\ j = j') ->
  NoDup (grid (fun i j => [g i j]) n m).
Proof.
  intros g n m H. apply (NoDup_count_occ dec). intros t.
  destruct (in_dec dec t (grid (fun i j => [g i j]) n m)) as [I|I].
  - apply in_grid in I as (a & b & Ha & Hb & [E|[]]).
    rewrite (count_grid_one _ n m t a b).
    + unfold b2n. destruct (_ && _); lia.
    + intros i j Hi Hj. rewrite count_occ_one. destruct (dec (g i j) t) as [E'|E'].
      * destruct (H i j a b) as [-> ->]; try congruence. rewrite !Nat.eqb_refl. reflexivity.
      * destruct (Nat.eqb_spec i a), (Nat.eqb_spec j b); subst; simpl; congruence.
  - apply (count_occ_not_In dec) in I. lia.
Qed.
End Count.

(** ** Loops *)
Lemma for_S : forall A n (body : nat -> A -> res A) s, for_ (S n) body s = (do x <- for_ n body s; body n x).
Proof. intros. unfold for_. rewrite seq_S_last, fold_left_app. reflexivity. Qed.

Lemma for_acc : forall A X (mk : list X -> A) (f : nat -> list X) (body : nat -> A -> res A) n l,
  (forall i, i < n -> body i (mk (l ++ flat_map f (seq 0 i))) = Ok (mk (l ++ flat_map f (seq 0 i) ++ f i))) ->
  for_ n body (mk l) = Ok (mk (l ++ flat_map f (seq 0 n))).
Proof.
  induction n; intros l H.
  - simpl. rewrite app_nil_r. reflexivity.
  - rewrite for_S, IHn by (intros; apply H; lia). cbn [bind]. rewrite H by lia. rewrite flat_map_S. reflexivity.
Qed.
Lemma for_grid : forall A X (mk : list X -> A) (f : nat -> nat -> list X) (body : nat -> nat -> A -> res A) n m l,
  (forall i j, i < n -> j < m ->
     body i j (mk (l ++ grid f i m ++ flat_map (f i) (seq 0 j))) =
     Ok (mk ((l ++ grid f i m ++ flat_map (f i) (seq 0 j)) ++ f i j))) ->
  for_ n (fun i => for_ m (body i)) (mk l) = Ok (mk (l ++ grid f n m)).
Proof.
  intros A X mk f body n m l H. unfold grid. apply for_acc. intros i Hi.
  change (flat_map (fun i => flat_map (f i) (seq 0 m)) (seq 0 i)) with (grid f i m).
  rewrite for_acc with (f := f i).
  - rewrite <- app_assoc. reflexivity.
  - intros j Hj. rewrite <- app_assoc. rewrite H by auto. rewrite <- !app_assoc. reflexivity.
Qed.
Lemma for_grid_simple : forall A X (mk : list X -> A) (f : nat -> nat -> list X) (body : nat -> nat -> A -> res A) n m,
  (forall i j l, i < n -> j < m -> body i j (mk l) = Ok (mk (l ++ f i j))) ->
  forall l, for_ n (fun i => for_ m (body i)) (mk l) = Ok (mk (l ++ grid f n m)).
Proof. intros. apply for_grid. intros. apply H; auto. Qed.

(** Loops whose steps succeed or throw. *)
Lemma for_inv : forall A (I : A -> Prop) (body : nat -> A -> res A) n s, I s ->
  (forall i s, i < n -> I s -> (exists s', body i s = Ok s' /\ I s') \/ body i s = Throw) ->
  (exists s', for_ n body s = Ok s' /\ I s') \/ for_ n body s = Throw.
Proof.
  induction n; intros s Hs H; [left; exists s; auto|].
  rewrite for_S. destruct (IHn s Hs) as [(s' & -> & I')| ->]; [intros; apply H; auto; lia| |right; reflexivity].
  cbn [bind]. apply H; auto.
Qed.
Lemma for_throw : forall A (I : A -> Prop) (body : nat -> A -> res A) n s k, I s ->
  (forall i s, i < n -> I s -> (exists s', body i s = Ok s' /\ I s') \/ body i s = Throw) ->
  k < n -> (forall s, I s -> body k s = Throw) -> for_ n body s = Throw.
Proof.
  induction n; intros s k Hs H Hk Hb; [lia|].
  rewrite for_S. destruct (Nat.eq_dec k n) as [->|Ne].
  - destruct (for_inv A I body n s Hs) as [(s' & -> & I')| ->]; [intros; apply H; auto; lia| |reflexivity].
    cbn [bind]. auto.
  - rewrite (IHn s k); auto; try lia.
Qed.
Lemma for_grid_throw : forall A (I : A -> Prop) (body : nat -> nat -> A -> res A) n m s k l, I s ->
  (forall i j s, i < n -> j < m -> I s -> (exists s', body i j s = Ok s' /\ I s') \/ body i j s = Throw) ->
  k < n -> l < m -> (forall s, I s -> body k l s = Throw) -> for_ n (fun i => for_ m (body i)) s = Throw.
Proof.
  intros A I body n m s k l Hs H Hk Hl Hb. apply (for_throw A I _ n s k); auto.
  - intros i s' Hi Hs'. apply for_inv; auto.
  - intros s' Hs'. apply (for_throw A I _ m s' l); auto.
Qed.

Definition st (check : bool) (nv : nat) (pts : list coords) (E : list ((nat * nat) * list coords))
    (Cc : list (list nat * list coords)) : bstate :=
  mkB (mkFactory check (length pts) (map (fun e => (fst e, true)) E) (map (fun c => (fst c, true)) Cc))
      (mkSites pts (map snd E) (map snd Cc))
      (seq 0 (length pts) ++ repeat 0 (nv - length pts)).

Lemma put_point_ok : forall check nv pts x, length pts < nv ->
  put_point (length pts) x (st check nv pts [] []) = Ok (st check nv (pts ++ [x]) [] []).
Proof.
  intros. unfold put_point, st. simpl b_fac. simpl b_v. simpl b_geo.
  unfold add_point. cbn [lf_assert bind fst snd f_check f_nodes f_edges f_cells].
  rewrite app_length, seq_length, repeat_length.
  destruct (Nat.ltb_spec (length pts) (length pts + (nv - length pts))); [|lia].
  cbn [lf_assert bind]. f_equal. rewrite app_length; cbn [length].
  replace (length pts + 1) with (S (length pts)) by lia. f_equal.
  assert (U : forall k a (l : list nat), upd k a (seq 0 k ++ 0 :: l) = seq 0 k ++ a :: l).
  { clear. assert (G : forall (p : list nat) a l, upd (length p) a (p ++ 0 :: l) = p ++ a :: l)
      by (induction p; simpl; intros; f_equal; auto).
    intros k a l. rewrite <- (seq_length k 0) at 1. apply G. }
  destruct (nv - length pts) as [|r] eqn:Er; [lia|]. cbn [repeat]. rewrite U.
  replace (nv - S (length pts)) with r by lia. rewrite seq_S_last, <- app_assoc. reflexivity.
Qed.

Lemma vget_ok : forall nv k, k < nv -> vget (seq 0 nv ++ repeat 0 (nv - nv)) k = Ok k.
Proof.
  intros. unfold vget. rewrite Nat.sub_diag. simpl repeat. rewrite app_nil_r.
  rewrite (nth_error_nth' _ 0) by (rewrite seq_length; auto). rewrite seq_nth by auto. reflexivity.
Qed.
Lemma vgets_ok : forall nv ks, (forall k, In k ks -> k < nv) ->
  vgets (seq 0 nv ++ repeat 0 (nv - nv)) ks = Ok ks.
Proof.
  induction ks as [|k ks IH]; intros H; auto. cbn [vgets]. rewrite vget_ok by (apply H; simpl; auto).
  cbn [bind]. rewrite IH by (intros; apply H; simpl; auto). reflexivity.
Qed.

Lemma put_edge_ok : forall check pts E Cc a b x, a < length pts -> b < length pts ->
  put_edge a b x (st check (length pts) pts E Cc) = Ok (st check (length pts) pts (E ++ [((a, b), x)]) Cc).
Proof.
  intros. unfold put_edge, st. simpl b_fac. simpl b_v. simpl b_geo.
  rewrite !vget_ok by auto. cbn [bind].
  unfold add_entity. cbn [dimension]. change (0 <? 1) with true.
  cbn [lf_assert bind forallb f_nodes].
  apply Nat.ltb_lt in H, H0. rewrite H, H0. cbn [andb lf_assert bind fst snd length num_nodes Nat.eqb].
  cbn [f_check f_edges f_cells]. rewrite !map_app. reflexivity.
Qed.

Lemma put_cell_ok : forall check pts E Cc t ks x, (t = kTria \/ t = kQuad) -> length ks = num_nodes t ->
  (forall k, In k ks -> k < length pts) -> cell_geometry t x = Ok tt ->
  put_cell t ks x (st check (length pts) pts E Cc) = Ok (st check (length pts) pts E (Cc ++ [(ks, x)])).
Proof.
  intros check pts E Cc t ks x Ht L H G. unfold put_cell, st. simpl b_fac. simpl b_v. simpl b_geo.
  rewrite vgets_ok by auto. rewrite G. cbn [bind]. unfold add_entity. cbn [f_nodes].
  assert (F : forallb (fun n => n <? length pts) ks = true).
  { apply forallb_forall. intros k Hk. apply Nat.ltb_lt. auto. }
  rewrite F, L, Nat.eqb_refl.
  destruct Ht as [-> | ->]; cbn [dimension Nat.ltb Nat.leb lf_assert bind fst snd f_check f_edges f_cells];
    rewrite !map_app; reflexivity.
Qed.

Lemma put_cell_throw : forall check pts E Cc t ks x, (forall k, In k ks -> k < length pts) ->
  cell_geometry t x = Throw -> put_cell t ks x (st check (length pts) pts E Cc) = Throw.
Proof.
  intros check pts E Cc t ks x H G. unfold put_cell, st. simpl b_v. rewrite vgets_ok by auto.
  cbn [bind]. rewrite G. reflexivity.
Qed.

Lemma start_st : forall check nv, start check nv = st check nv [] [] [].
Proof. intros. unfold start, st, new_factory. simpl. rewrite Nat.sub_0_r. reflexivity. Qed.

Lemma points_loop : forall check (g : nat -> nat -> coords) n m,
  for_ n (fun j => for_ m (fun i s => put_point (length (g_points (b_geo s))) (g i j) s))
    (st check (n * m) [] [] []) =
  Ok (st check (n * m) (grid (fun j i => [g i j]) n m) [] []).
Proof.
  intros. apply (for_grid _ _ (fun l => st check (n * m) l [] []) (fun j i => [g i j])
    (fun j i s => put_point (length (g_points (b_geo s))) (g i j) s) n m []).
  intros i j Hi Hj. cbn [app].
  set (l := grid _ _ _ ++ _).
  assert (L : length l < n * m).
  { unfold l. rewrite app_length, (grid_length _ _ 1) by auto.
    rewrite (flat_map_const_length _ _ 1) by auto.
    assert (i * m + m <= n * m) by (replace (i * m + m) with (S i * m) by lia; apply Nat.mul_le_mono_r; lia). lia. }
  change (length (g_points (b_geo (st check (n * m) l [] [])))) with (length l).
  apply put_point_ok. auto.
Qed.
