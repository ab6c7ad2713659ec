From Coq Require Import List Arith Lia Bool Permutation Ring.
Import ListNotations.
From Verif Require Import Base Scalars MeshModel MeshView DofModel AssembleModel AssembleSpec.

Section Proofs.
Variable K : cring.
Add Ring Kring2 : (kth K).
Open Scope K_scope.
Notation coo := (coo K).

(** Sum of the triplets at a position. *)
Definition tval (ts : list (nat * nat * K)) (i j : nat) : K :=
  suml (map (fun t => let '(a, b, v) := t in if (i =? a) && (j =? b) then v else 0) ts).
Definition trip_ok (r c : nat) (t : nat * nat * K) : Prop := fst (fst t) < r /\ snd (fst t) < c.
Definition coo_ok (A : coo) : Prop := Forall (trip_ok (c_rows K A) (c_cols K A)) (c_trip K A).

Lemma dense_loop_ok : forall r c ts f, Forall (trip_ok r c) ts ->
  exists g, dense_loop K r c ts f = Ok g /\ forall i j, g i j = f i j + tval ts i j.
Proof.
  induction ts as [|[[a b] v] ts IH]; intros f H; simpl.
  - exists f. split; auto. intros. unfold tval. simpl. ring.
  - inversion H as [|? ? [H1 H2] H3]; subst. simpl in *.
    assert (E : (b <? c) && (a <? r) = true).
    { apply andb_true_iff; split; apply Nat.ltb_lt; auto. }
    rewrite E. simpl. destruct (IH (coef_add K a b v f) H3) as (g & -> & Hg).
    exists g. split; auto. intros i j. rewrite Hg. unfold coef_add, tval. simpl.
    destruct ((i =? a) && (j =? b)); ring.
Qed.

Lemma ok_is_matrix : forall A, coo_ok A -> is_matrix K A (c_rows K A) (c_cols K A) (tval (c_trip K A)).
Proof.
  intros A H. split; auto. split; auto. unfold makeDense.
  destruct (dense_loop_ok _ _ _ (fun _ _ => 0) H) as (g & -> & Hg). simpl.
  eexists. split; [reflexivity|]. simpl. split; auto. split; auto. intros. rewrite Hg. ring.
Qed.
Lemma makeDense_inv : forall A M, makeDense K A = Ok M -> coo_ok A.
Proof.
  intros A M. unfold makeDense, coo_ok. generalize (fun _ _ : nat => 0 : K).
  induction (c_trip K A) as [|[[a b] v] ts IH]; intros f H; auto.
  simpl in H. destruct ((b <? c_cols K A) && (a <? c_rows K A)) eqn:E; simpl in H; try discriminate.
  apply andb_true_iff in E as [E1 E2]. apply Nat.ltb_lt in E1, E2.
  constructor; [split; auto|]. eapply IH. exact H.
Qed.
Lemma is_matrix_ok : forall A n m D, is_matrix K A n m D -> coo_ok A /\
  c_rows K A = n /\ c_cols K A = m /\ forall i j, i < n -> j < m -> tval (c_trip K A) i j = D i j.
Proof.
  intros A n m D (H1 & H2 & M & HM & _ & _ & H3). pose proof (makeDense_inv _ _ HM) as Hok.
  split; auto. split; auto. split; auto. intros i j Hi Hj. rewrite <- H3; auto.
  unfold makeDense in HM. destruct (dense_loop_ok _ _ _ (fun _ _ => 0) Hok) as (g & E & Hg).
  rewrite E in HM. simpl in HM. inversion HM; subst. simpl. rewrite Hg. ring.
Qed.
Lemma is_matrix_intro : forall A n m D, coo_ok A -> c_rows K A = n -> c_cols K A = m ->
  (forall i j, i < n -> j < m -> tval (c_trip K A) i j = D i j) -> is_matrix K A n m D.
Proof.
  intros A n m D H <- <- H3. destruct (ok_is_matrix A H) as (_ & _ & M & HM & H4 & H5 & H6).
  split; auto. split; auto. exists M. split; auto. split; auto. split; auto.
  intros. rewrite H6; auto.
Qed.

Lemma tval_app : forall a b i j, tval (a ++ b) i j = tval a i j + tval b i j.
Proof. intros. unfold tval. rewrite map_app, suml_app. auto. Qed.
Lemma tval_out : forall r c ts i j, Forall (trip_ok r c) ts -> r <= i \/ c <= j -> tval ts i j = 0.
Proof.
  intros r c ts i j H Hij. unfold tval. apply suml_zero. intros x Hx.
  apply in_map_iff in Hx as ([[a b] v] & <- & Hin). rewrite Forall_forall in H. destruct (H _ Hin) as [H1 H2].
  simpl in *. destruct (Nat.eqb_spec i a), (Nat.eqb_spec j b); simpl; auto. lia.
Qed.
Lemma tval_filter : forall p ts i j,
  tval (filter (fun t => let '(a, b, _) := t in negb (p a b)) ts) i j = if p i j then 0 else tval ts i j.
Proof.
  induction ts as [|[[a b] v] ts IH]; intros i j; unfold tval in *; simpl.
  - destruct (p i j); auto.
  - destruct (p a b) eqn:E; simpl; rewrite IH; destruct (Nat.eqb_spec i a) as [->|], (Nat.eqb_spec j b) as [->|]; simpl;
      rewrite ?E; try ring; match goal with |- context [if p ?x ?y then _ else _] => destruct (p x y) end; ring.
Qed.

Lemma AddToEntry_rows : forall i j v A, c_rows K (AddToEntry K i j v A) = Nat.max (c_rows K A) (S i).
Proof. intros. simpl. destruct (Nat.ltb_spec (c_rows K A) (i + 1)); lia. Qed.
Lemma AddToEntry_cols : forall i j v A, c_cols K (AddToEntry K i j v A) = Nat.max (c_cols K A) (S j).
Proof. intros. simpl. destruct (Nat.ltb_spec (c_cols K A) (j + 1)); lia. Qed.
Lemma AddToEntry_ok : forall i j v A, coo_ok A -> coo_ok (AddToEntry K i j v A).
Proof.
  intros i j v A H. unfold coo_ok. rewrite AddToEntry_rows, AddToEntry_cols. simpl.
  apply Forall_app. split.
  - eapply Forall_impl; [|exact H]. intros [[a b] w] [H1 H2]. split; simpl in *; lia.
  - constructor; auto. split; simpl; lia.
Qed.
Lemma AddToEntry_val : forall i j v A a b, tval (c_trip K (AddToEntry K i j v A)) a b =
  tval (c_trip K A) a b + (if (a =? i) && (b =? j) then v else 0).
Proof.
  intros. simpl. rewrite tval_app. f_equal. unfold tval. simpl. destruct ((a =? i) && (b =? j)); ring.
Qed.
Lemma setZeroIf_ok : forall p A, coo_ok A -> coo_ok (setZeroIf K p A).
Proof.
  intros p A H. unfold coo_ok, setZeroIf. simpl. apply Forall_forall. intros x Hx. apply filter_In in Hx as [Hx _].
  unfold coo_ok in H. rewrite Forall_forall in H. auto.
Qed.

(** * Histories *)
Lemma step_ok : forall A o, coo_ok A -> coo_ok (coo_step K A o).
Proof.
  intros A [i j v| |p] H; simpl.
  - apply AddToEntry_ok; auto.
  - unfold coo_ok. simpl. auto.
  - apply setZeroIf_ok; auto.
Qed.
Lemma run_ok : forall h A, coo_ok A -> coo_ok (fold_left (coo_step K) h A).
Proof. induction h; simpl; auto. intros. apply IHh, step_ok; auto. Qed.
Lemma run_val : forall h A D, (forall i j, tval (c_trip K A) i j = D i j) ->
  forall i j, tval (c_trip K (fold_left (coo_step K) h A)) i j = fold_left (math_step K) h D i j.
Proof.
  induction h as [|o h IH]; intros A D H i j; simpl; auto. apply IH. clear IH. intros a b.
  destruct o as [x y v| |p]; cbn [coo_step math_step].
  - rewrite AddToEntry_val, H. destruct ((a =? x) && (b =? y)); ring.
  - unfold setZero, tval. auto.
  - unfold setZeroIf. cbn [c_trip]. rewrite tval_filter, H. auto.
Qed.
Lemma run_rows : forall h A, c_rows K (fold_left (coo_step K) h A) = size_for (c_rows K A) (row_uses K h).
Proof.
  induction h as [|o h IH]; intros A; auto. cbn [fold_left]. rewrite IH. clear IH. destruct o as [x y v| |p]; auto.
  cbn [coo_step]. rewrite AddToEntry_rows. reflexivity.
Qed.
Lemma run_cols : forall h A, c_cols K (fold_left (coo_step K) h A) = size_for (c_cols K A) (col_uses K h).
Proof.
  induction h as [|o h IH]; intros A; auto. cbn [fold_left]. rewrite IH. clear IH. destruct o as [x y v| |p]; auto.
  cbn [coo_step]. rewrite AddToEntry_cols. reflexivity.
Qed.
Lemma new_ok : forall n m, coo_ok (coo_new K n m).
Proof. intros. constructor. Qed.

Theorem coo_history : forall n m h,
  is_matrix K (coo_after K n m h) (size_for n (row_uses K h)) (size_for m (col_uses K h)) (math_after K h).
Proof.
  intros. apply is_matrix_intro.
  - apply run_ok, new_ok.
  - apply run_rows.
  - apply run_cols.
  - intros. unfold coo_after, math_after. apply run_val. auto.
Qed.

Theorem sparse_spec : forall A n m D, is_matrix K A n m D ->
  if (0 <? n) && (0 <? m)
  then exists M, makeSparse K A = Ok M /\ d_rows K M = n /\ d_cols K M = m /\
         forall i j, i < n -> j < m -> d_coef K M i j = D i j
  else makeSparse K A = Throw.
Proof.
  intros A n m D (H1 & H2 & M & HM & H3). unfold makeSparse. rewrite H1, H2.
  destruct ((0 <? n) && (0 <? m)); simpl; auto. exists M. auto.
Qed.

(** * Matrix x vector *)
Lemma vec_add_ok : forall i x (v : list K), i < length v -> exists w, vec_add K i x v = Ok w /\ length w = length v /\
  forall k, comp K w k = comp K v k + if k =? i then x else 0.
Proof.
  intros i x v H. unfold vec_add. apply Nat.ltb_lt in H as H'. rewrite H'. simpl. eexists. split; [reflexivity|].
  split; [apply upd_length|]. intros k. unfold comp. destruct (Nat.eqb_spec k i) as [->|N].
  - rewrite nth_upd_eq by auto. auto.
  - rewrite nth_upd_neq by auto. ring.
Qed.
Lemma mult_loop_ok : forall alpha vec ts r, Forall (trip_ok (length r) (length vec)) ts ->
  exists w, mult_loop K alpha vec ts r = Ok w /\ length w = length r /\
  forall i, comp K w i = comp K r i + suml (map (fun t => let '(a, b, v) := t in
     if i =? a then v * (alpha * comp K vec b) else 0) ts).
Proof.
  induction ts as [|[[a b] v] ts IH]; intros r H; simpl.
  - exists r. split; auto. split; auto. intros. ring.
  - inversion H as [|? ? [H1 H2] H3]; subst. simpl in *.
    unfold vec_get. rewrite (nth_error_nth' vec 0 H2). simpl.
    destruct (vec_add_ok a (v * (alpha * nth b vec 0)) r H1) as (w & -> & L & Hw). simpl.
    destruct (IH w) as (w2 & -> & L2 & Hw2). { rewrite L. auto. }
    exists w2. split; auto. split; [congruence|]. intros i. rewrite Hw2, Hw. unfold comp. ring.
Qed.
Lemma trip_row_sum : forall alpha (x : nat -> K) m ts i r, Forall (trip_ok r m) ts ->
  suml (map (fun t => let '(a, b, v) := t in if i =? a then v * (alpha * x b) else 0) ts)
  = alpha * mv K m (tval ts) x i.
Proof.
  intros alpha x m ts i r. unfold mv. induction ts as [|[[a b] v] ts IH]; intros H; simpl.
  - rewrite sumn_zero; [ring|]. intros. unfold tval. simpl. ring.
  - inversion H as [|? ? [H1 H2] H3]; subst. simpl in *. rewrite (IH H3).
    assert (E : sumn m (fun j => tval ((a, b, v) :: ts) i j * x j) =
       sumn m (fun j => (if (i =? a) && (j =? b) then v else 0) * x j) + sumn m (fun j => tval ts i j * x j)).
    { rewrite <- sumn_add. apply sumn_ext. intros. unfold tval. simpl. ring. }
    rewrite E. rewrite (sumn_single K m b (fun j => (if (i =? a) && (j =? b) then v else 0) * x j) H2).
    2: { intros j _ Hj. apply Nat.eqb_neq in Hj. rewrite Hj, andb_false_r. ring. }
    rewrite Nat.eqb_refl, andb_true_r. destruct (i =? a); ring.
Qed.
Lemma mv_ext : forall m D E x i, (forall j, j < m -> D i j = E i j) -> mv K m D x i = mv K m E x i.
Proof. intros. unfold mv. apply sumn_ext. intros. rewrite H; auto. Qed.

Theorem matvec_spec : forall A n m D alpha v r, is_matrix K A n m D -> m <= length v -> n <= length r ->
  exists w, MatVecMultAdd K A alpha v r = Ok w /\ length w = length r /\
  forall i, comp K w i = comp K r i + (if i <? n then alpha * mv K m D (comp K v) i else 0).
Proof.
  intros A n m D alpha v r H Hv Hr. apply is_matrix_ok in H as (Hok & Hn & Hm & HD).
  unfold MatVecMultAdd. rewrite Hn, Hm.
  apply Nat.leb_le in Hv as E1. apply Nat.leb_le in Hr as E2. rewrite E1, E2. simpl.
  unfold coo_ok in Hok. rewrite Hn, Hm in Hok.
  destruct (mult_loop_ok alpha v (c_trip K A) r) as (w & -> & L & Hw).
  { eapply Forall_impl; [|exact Hok]. intros t [? ?]. split; lia. }
  exists w. split; auto. split; auto. intros i. rewrite Hw. f_equal.
  rewrite (trip_row_sum alpha (comp K v) m _ i n Hok). destruct (Nat.ltb_spec i n) as [Hi|Hi].
  - f_equal. apply mv_ext. intros. apply HD; auto.
  - unfold mv. rewrite sumn_zero; [ring|]. intros. rewrite (tval_out n m); auto. ring.
Qed.
Theorem matvec_ret_spec : forall A n m D alpha v, is_matrix K A n m D -> m <= length v ->
  exists w, MatVecMult K A alpha v = Ok w /\ length w = n /\
  forall i, i < n -> comp K w i = alpha * mv K m D (comp K v) i.
Proof.
  intros A n m D alpha v H Hv. pose proof H as H'. apply is_matrix_ok in H' as (_ & Hn & Hm & _).
  destruct (matvec_spec A n m D alpha v (repeat 0 n) H Hv) as (w & Hw & L & Hc).
  { rewrite repeat_length. auto. }
  exists w. unfold MatVecMultAdd in Hw. unfold MatVecMult. rewrite Hn, Hm in *.
  destruct (m <=? length v); simpl in *; try discriminate.
  rewrite repeat_length, Nat.leb_refl in Hw. simpl in Hw. split; auto. rewrite repeat_length in L. split; auto.
  intros i Hi. rewrite Hc. apply Nat.ltb_lt in Hi as E. rewrite E. unfold comp.
  rewrite nth_repeat. ring.
Qed.

(** Sizes too small: the debug assertion fires. *)
Theorem matvec_assert : forall A n m D alpha v r, is_matrix K A n m D -> length v < m \/ length r < n ->
  MatVecMultAdd K A alpha v r = Assert.
Proof.
  intros A n m D alpha v r (H1 & H2 & _) H. unfold MatVecMultAdd. rewrite H1, H2.
  destruct (Nat.leb_spec m (length v)); simpl; auto. destruct (Nat.leb_spec n (length r)); simpl; auto. lia.
Qed.

(** * Assembly *)
Lemma add_row_spec : forall (f : nat -> nat) (g : nat -> K) i js A,
  let A' := fold_left (fun A j => AddToEntry K i (f j) (g j) A) js A in
  (coo_ok A -> coo_ok A') /\
  (forall a b, tval (c_trip K A') a b =
     tval (c_trip K A) a b + suml (map (fun j => if (i =? a) && (f j =? b) then g j else 0) js)) /\
  (forall n m, i < n -> Forall (fun j => f j < m) js -> n <= c_rows K A -> m <= c_cols K A ->
     c_rows K A' = c_rows K A /\ c_cols K A' = c_cols K A).
Proof.
  induction js as [|j js IH]; intros A; cbn [fold_left].
  - split; auto. split; auto. intros. simpl. ring.
  - destruct (IH (AddToEntry K i (f j) (g j) A)) as (H1 & H2 & H3). split; [|split].
    + intros H. apply H1, AddToEntry_ok, H.
    + intros a b. cbv zeta in H2. rewrite H2, AddToEntry_val. cbn [map suml].
      rewrite (Nat.eqb_sym a i), (Nat.eqb_sym b (f j)). ring.
    + intros n m Hi Hjs Hn Hm. inversion Hjs; subst.
      destruct (H3 n m) as [-> ->]; auto; try rewrite AddToEntry_rows; try rewrite AddToEntry_cols; try lia.
Qed.
Lemma add_local_spec : forall rows cols nr nc M A,
  let A' := add_local K rows cols nr nc M A in
  (coo_ok A -> coo_ok A') /\
  (forall a b, tval (c_trip K A') a b = tval (c_trip K A) a b +
     sumn nr (fun i => sumn nc (fun j =>
        if (nth i rows 0%nat =? a) && (nth j cols 0%nat =? b) then d_coef K M i j else 0))) /\
  (forall n m, (forall i, i < nr -> nth i rows 0%nat < n) -> (forall j, j < nc -> nth j cols 0%nat < m) ->
     n <= c_rows K A -> m <= c_cols K A -> c_rows K A' = c_rows K A /\ c_cols K A' = c_cols K A).
Proof.
  intros rows cols nr nc M. unfold add_local, sumn at 1.
  assert (Hin : forall is_, (forall i, In i is_ -> i < nr) -> forall A,
  let A' := fold_left (fun A i => fold_left (fun A j => AddToEntry K (nth i rows 0%nat) (nth j cols 0%nat) (d_coef K M i j) A)
              (seq 0 nc) A) is_ A in
  (coo_ok A -> coo_ok A') /\
  (forall a b, tval (c_trip K A') a b = tval (c_trip K A) a b +
     suml (map (fun i => sumn nc (fun j =>
        if (nth i rows 0%nat =? a) && (nth j cols 0%nat =? b) then d_coef K M i j else 0)) is_)) /\
  (forall n m, (forall i, i < nr -> nth i rows 0%nat < n) -> (forall j, j < nc -> nth j cols 0%nat < m) ->
     n <= c_rows K A -> m <= c_cols K A -> c_rows K A' = c_rows K A /\ c_cols K A' = c_cols K A)).
  { induction is_ as [|i is_ IH]; intros Hlt A; cbn [fold_left].
    - split; auto. split; auto. intros. simpl. ring.
    - destruct (add_row_spec (fun j => nth j cols 0%nat) (d_coef K M i) (nth i rows 0%nat) (seq 0 nc) A) as (R1 & R2 & R3).
      set (A1 := fold_left _ (seq 0 nc) A) in *.
      destruct (IH (fun i H => Hlt i (or_intror H)) A1) as (H1 & H2 & H3). split; [|split].
      + auto.
      + intros a b. cbv zeta in H2. rewrite H2, R2. cbn [map suml]. unfold sumn at 2. ring.
      + intros n m Hn Hm Bn Bm. destruct (R3 n m) as [E1 E2]; auto.
        { apply Hn, Hlt. left; auto. }
        { apply Forall_forall. intros j Hj. apply in_seq in Hj. apply Hm. lia. }
        destruct (H3 n m) as [-> ->]; auto; lia. }
  intros A. apply Hin. intros i Hi. apply in_seq in Hi. lia.
Qed.

Lemma assemble_loop_spec : forall trial test p rows cols es A,
  serves test es rows -> serves trial es cols -> big_enough K p es rows cols ->
  exists A', assemble_loop K trial test p es A = Ok A' /\
  (coo_ok A -> coo_ok A') /\
  (forall i j, tval (c_trip K A') i j = tval (c_trip K A) i j + local_sum K p es rows cols i j) /\
  (NumDofs test <= c_rows K A -> NumDofs trial <= c_cols K A ->
     c_rows K A' = c_rows K A /\ c_cols K A' = c_cols K A).
Proof.
  intros trial test p rows cols. induction es as [|e es IH]; intros A Ht Hu Hb; cbn [assemble_loop].
  - exists A. split; auto. split; auto. split; auto. intros. unfold local_sum. simpl. ring.
  - assert (Ht' : serves test es rows) by (intros x Hx; apply Ht; right; auto).
    assert (Hu' : serves trial es cols) by (intros x Hx; apply Hu; right; auto).
    assert (Hb' : big_enough K p es rows cols) by (intros x Hx; apply Hb; right; auto).
    destruct (Ht e) as (T1 & T2 & T3); [left; auto|]. destruct (Hu e) as (U1 & U2 & U3); [left; auto|].
    unfold assemble_entity. destruct (mp_active K p e) eqn:Ea.
    + rewrite T1, T2, U1, U2. cbn [bind]. destruct (Hb e (or_introl eq_refl) Ea) as [B1 B2].
      apply Nat.leb_le in B1, B2. rewrite B1, B2, !Nat.leb_refl. cbn [bind lf_assert andb].
      destruct (add_local_spec (rows e) (cols e) (length (rows e)) (length (cols e)) (mp_eval K p e) A) as (L1 & L2 & L3).
      destruct (IH (add_local K (rows e) (cols e) (length (rows e)) (length (cols e)) (mp_eval K p e) A) Ht' Hu' Hb')
        as (A' & -> & H1 & H2 & H3).
      exists A'. split; auto. split; auto. split.
      * intros. rewrite H2, L2. unfold local_sum. cbn [map suml]. rewrite Ea. ring.
      * intros Bn Bm. destruct (L3 (NumDofs test) (NumDofs trial)) as [E1 E2]; auto.
        { intros i Hi. rewrite Forall_forall in T3. apply T3, nth_In, Hi. }
        { intros i Hi. rewrite Forall_forall in U3. apply U3, nth_In, Hi. }
        destruct H3 as [-> ->]; auto; lia.
    + cbn [bind]. destruct (IH A Ht' Hu' Hb') as (A' & -> & H1 & H2 & H3). exists A'. split; auto. split; auto.
      split; auto. intros. rewrite H2. unfold local_sum. cbn [map suml]. rewrite Ea. ring.
Qed.

Theorem assemble_into : forall m codim trial test p rows cols A n k D,
  serves test (entities m codim) rows -> serves trial (entities m codim) cols ->
  big_enough K p (entities m codim) rows cols ->
  is_matrix K A n k D -> NumDofs test <= n -> NumDofs trial <= k ->
  exists A', AssembleMatrixInto K m codim trial test p A = Ok A' /\
    is_matrix K A' n k (fun i j => D i j + local_sum K p (entities m codim) rows cols i j).
Proof.
  intros m codim trial test p rows cols A n k D H1 H2 H3 HA Hn Hk.
  apply is_matrix_ok in HA as (Hok & E1 & E2 & HD).
  destruct (assemble_loop_spec trial test p rows cols _ A H1 H2 H3) as (A' & E & R1 & R2 & R3).
  exists A'. split; auto. destruct R3 as [R3 R4]; try lia. apply is_matrix_intro; auto; try congruence.
  intros. rewrite R2, HD; auto.
Qed.
Theorem assemble_fresh : forall m codim trial test p rows cols,
  serves test (entities m codim) rows -> serves trial (entities m codim) cols ->
  big_enough K p (entities m codim) rows cols ->
  exists A', AssembleMatrix K m codim trial test p = Ok A' /\
    is_matrix K A' (NumDofs test) (NumDofs trial) (local_sum K p (entities m codim) rows cols).
Proof.
  intros m codim trial test p rows cols H1 H2 H3.
  destruct (assemble_into m codim trial test p rows cols (setZero K (coo_new K (NumDofs test) (NumDofs trial)))
     (NumDofs test) (NumDofs trial) (fun _ _ => 0) H1 H2 H3) as (A' & E & HA); auto.
  { apply is_matrix_intro; auto. constructor. }
  exists A'. split; auto. destruct HA as (R1 & R2 & M & R3 & R4 & R5 & R6). split; auto. split; auto.
  exists M. split; auto. split; auto. split; auto. intros. rewrite R6; auto. ring.
Qed.

(** Matrices that are too small are reported. *)
Theorem assemble_too_small : forall m codim trial test p rows cols A e,
  serves test (entities m codim) rows -> serves trial (entities m codim) cols ->
  In e (entities m codim) -> mp_active K p e = true ->
  d_rows K (mp_eval K p e) < length (rows e) \/ d_cols K (mp_eval K p e) < length (cols e) ->
  AssembleMatrixInto K m codim trial test p A = Assert.
Proof.
  intros m codim trial test p rows cols. unfold AssembleMatrixInto.
  induction (entities m codim) as [|x es IH]; intros A e Ht Hu Hin Ha Hs; [destruct Hin|].
  destruct (Ht x) as (T1 & T2 & T3); [left; auto|]. destruct (Hu x) as (U1 & U2 & U3); [left; auto|].
  assert (Ht' : serves test es rows) by (intros y Hy; apply Ht; right; auto).
  assert (Hu' : serves trial es cols) by (intros y Hy; apply Hu; right; auto).
  cbn [assemble_loop]. unfold assemble_entity. destruct (mp_active K p x) eqn:Ex.
  - rewrite T1, T2, U1, U2. cbn [bind]. rewrite !Nat.leb_refl. cbn [andb].
    destruct (Nat.leb_spec (length (rows x)) (d_rows K (mp_eval K p x))); cbn [bind lf_assert]; auto.
    destruct (Nat.leb_spec (length (cols x)) (d_cols K (mp_eval K p x))); cbn [bind lf_assert]; auto.
    destruct Hin as [->|Hin]; [lia|]. apply (IH _ e); auto.
  - cbn [bind]. destruct Hin as [->|Hin]; [congruence|]. apply (IH _ e); auto.
Qed.

(** Bilinear form. *)
Lemma restrict_sum : forall (u : nat -> K) idx n (c : nat -> K), Forall (fun g => g < n) idx ->
  sumn n (fun j => u j * sumn (length idx) (fun b => if nth b idx 0%nat =? j then c b else 0))
  = sumn (length idx) (fun b => restrict K u idx b * c b).
Proof.
  intros u idx n c H.
  transitivity (sumn n (fun j => sumn (length idx) (fun b => u j * (if nth b idx 0%nat =? j then c b else 0)))).
  { apply sumn_ext. intros. rewrite sumn_mul. auto. }
  rewrite sumn_swap. apply sumn_ext. intros b Hb. unfold restrict.
  rewrite (sumn_single K n (nth b idx 0%nat)).
  - rewrite Nat.eqb_refl. auto.
  - rewrite Forall_forall in H. apply H, nth_In, Hb.
  - intros j _ Hj. destruct (Nat.eqb_spec (nth b idx 0%nat) j); [congruence|ring].
Qed.

Definition local_form (p : mat_provider K) (rows cols : ent -> list nat) (v u : nat -> K) (e : ent) : K :=
  if mp_active K p e then
    form K (length (rows e)) (length (cols e)) (d_coef K (mp_eval K p e))
      (restrict K v (rows e)) (restrict K u (cols e))
  else 0.

Lemma form_entity : forall n k (rows cols : list nat) M (v u : nat -> K),
  Forall (fun g => g < n) rows -> Forall (fun g => g < k) cols ->
  form K n k (fun i j => sumn (length rows) (fun a => sumn (length cols) (fun b =>
        if (nth a rows 0%nat =? i) && (nth b cols 0%nat =? j) then M a b else 0))) v u
  = form K (length rows) (length cols) M (restrict K v rows) (restrict K u cols).
Proof.
  intros n k rows cols M v u Hr Hc. unfold form.
  rewrite <- (restrict_sum v rows n (fun a => mv K (length cols) M (restrict K u cols) a) Hr).
  apply sumn_ext. intros i _. f_equal. unfold mv at 1.
  transitivity (sumn k (fun j => sumn (length rows) (fun a => if nth a rows 0%nat =? i then
     u j * sumn (length cols) (fun b => if nth b cols 0%nat =? j then M a b else 0) else 0))).
  { apply sumn_ext. intros j _. rewrite <- sumn_mulr. apply sumn_ext. intros a _.
    destruct (nth a rows 0%nat =? i).
    - simpl. ring.
    - simpl. rewrite sumn_zero by auto. ring. }
  rewrite sumn_swap. apply sumn_ext. intros a _. destruct (nth a rows 0%nat =? i).
  - rewrite (restrict_sum u cols k (M a) Hc). unfold mv. apply sumn_ext. intros. ring.
  - apply sumn_zero. auto.
Qed.

Lemma form_ext : forall n k D E v u, (forall i j, i < n -> j < k -> D i j = E i j) ->
  form K n k D v u = form K n k E v u.
Proof. intros. unfold form. apply sumn_ext. intros. f_equal. apply mv_ext. auto. Qed.
Lemma form_add : forall n k D E v u, form K n k (fun i j => D i j + E i j) v u = form K n k D v u + form K n k E v u.
Proof.
  intros. unfold form. rewrite <- sumn_add. apply sumn_ext. intros i Hi. unfold mv.
  rewrite (sumn_ext K k _ (fun j => D i j * u j + E i j * u j)) by (intros; ring). rewrite sumn_add. ring.
Qed.
Lemma form_zero : forall n k v u, form K n k (fun _ _ => 0) v u = 0.
Proof.
  intros. apply sumn_zero. intros. unfold mv. rewrite sumn_zero; [ring|]. intros. ring.
Qed.

Theorem form_local_sum : forall es p rows cols n k v u,
  (forall e, In e es -> Forall (fun g => g < n) (rows e) /\ Forall (fun g => g < k) (cols e)) ->
  form K n k (local_sum K p es rows cols) v u = suml (map (local_form p rows cols v u) es).
Proof.
  induction es as [|e es IH]; intros p rows cols n k v u H.
  - unfold local_sum. simpl. apply form_zero.
  - unfold local_sum. cbn [map suml].
    rewrite form_add. f_equal; [|apply IH; intros; apply H; right; auto].
    unfold local_form. destruct (mp_active K p e).
    + destruct (H e (or_introl eq_refl)). apply form_entity; auto.
    + apply form_zero.
Qed.

Theorem local_sum_perm : forall p rows cols es es', Permutation es es' ->
  forall i j, local_sum K p es rows cols i j = local_sum K p es' rows cols i j.
Proof. intros. unfold local_sum. apply suml_perm, Permutation_map. auto. Qed.

Theorem local_sum_sym : forall p idx es,
  (forall e a b, In e es -> mp_active K p e = true -> a < length (idx e) -> b < length (idx e) ->
     d_coef K (mp_eval K p e) a b = d_coef K (mp_eval K p e) b a) ->
  forall i j, local_sum K p es idx idx i j = local_sum K p es idx idx j i.
Proof.
  intros p idx es H i j. unfold local_sum. apply suml_map_ext. intros e He.
  destruct (mp_active K p e) eqn:Ea; auto.
  rewrite sumn_swap. apply sumn_ext. intros a Ha. apply sumn_ext. intros b Hb.
  rewrite andb_comm. destruct ((nth a (idx e) 0%nat =? j) && (nth b (idx e) 0%nat =? i)); auto.
Qed.

(** * Load vector *)
Lemma add_vec_local_ok : forall idx v n js r, (forall j, In j js -> j < n) -> n <= length v -> n <= length idx ->
  Forall (fun g => g < length r) idx ->
  exists w, add_vec_local K idx v js r = Ok w /\ length w = length r /\
  forall i, comp K w i = comp K r i + suml (map (fun a => if nth a idx 0%nat =? i then comp K v a else 0) js).
Proof.
  induction js as [|j js IH]; intros r Hj Hv Hi Hr; simpl.
  - exists r. split; auto. split; auto. intros. ring.
  - assert (Hjn : j < n) by (apply Hj; left; auto).
    unfold vec_get. rewrite (nth_error_nth' v 0) by lia. simpl.
    destruct (vec_add_ok (nth j idx 0%nat) (nth j v 0) r) as (w & -> & L & Hw).
    { rewrite Forall_forall in Hr. apply Hr, nth_In. lia. }
    simpl. destruct (IH w) as (w2 & -> & L2 & Hw2); try rewrite L; auto.
    { intros k Hk. apply Hj. right; auto. }
    exists w2. split; auto. split; [congruence|]. intros i. rewrite Hw2, Hw, (Nat.eqb_sym i). unfold comp. ring.
Qed.
Theorem assemble_vec_into : forall es d p idx r,
  serves d es idx -> vec_big_enough K p es idx -> NumDofs d <= length r ->
  exists w, assemble_vec_loop K d p es r = Ok w /\ length w = length r /\
  forall i, comp K w i = comp K r i + vec_sum K p es idx i.
Proof.
  induction es as [|e es IH]; intros d p idx r Hs Hb Hr; cbn [assemble_vec_loop].
  - exists r. split; auto. split; auto. intros. unfold vec_sum. simpl. ring.
  - assert (Hs' : serves d es idx) by (intros x Hx; apply Hs; right; auto).
    assert (Hb' : vec_big_enough K p es idx) by (intros x Hx; apply Hb; right; auto).
    destruct (Hs e) as (T1 & T2 & T3); [left; auto|].
    unfold assemble_vec_entity. destruct (vp_active K p e) eqn:Ea.
    + rewrite T1, T2. cbn [bind]. pose proof (Hb e (or_introl eq_refl) Ea) as B.
      apply Nat.leb_le in B as B'. rewrite B', Nat.leb_refl. cbn [bind lf_assert].
      destruct (add_vec_local_ok (idx e) (vp_eval K p e) (length (idx e)) (seq 0 (length (idx e))) r)
        as (w & -> & L & Hw); auto.
      { intros j Hj. apply in_seq in Hj. lia. }
      { eapply Forall_impl; [|exact T3]. simpl. intros; lia. }
      cbn [bind]. destruct (IH d p idx w) as (w2 & -> & L2 & Hw2); auto; [lia|].
      exists w2. split; auto. split; [congruence|]. intros i. rewrite Hw2, Hw. unfold vec_sum. cbn [map suml].
      rewrite Ea. unfold sumn. ring.
    + cbn [bind]. destruct (IH d p idx r) as (w & -> & L & Hw); auto. exists w. split; auto. split; auto.
      intros. rewrite Hw. unfold vec_sum. cbn [map suml]. rewrite Ea. ring.
Qed.
Theorem assemble_vec_fresh : forall m codim d p idx,
  serves d (entities m codim) idx -> vec_big_enough K p (entities m codim) idx ->
  exists w, AssembleVector K m codim d p = Ok w /\ length w = NumDofs d /\
  forall i, i < NumDofs d -> comp K w i = vec_sum K p (entities m codim) idx i.
Proof.
  intros m codim d p idx H1 H2.
  destruct (assemble_vec_into _ d p idx (repeat 0 (NumDofs d)) H1 H2) as (w & E & L & Hw).
  { rewrite repeat_length. auto. }
  rewrite repeat_length in L. exists w. split; auto. split; auto. intros. rewrite Hw. unfold comp at 1. rewrite nth_repeat. ring.
Qed.

(** * Fixing components *)
Lemma set_fixed_spec : forall sel ks b, (forall k, In k ks -> k < length b) ->
  length (set_fixed K sel b ks) = length b /\
  forall i, comp K (set_fixed K sel b ks) i = if existsb (Nat.eqb i) ks && fst (sel i) then snd (sel i) else comp K b i.
Proof.
  unfold set_fixed. induction ks as [|k ks IH]; intros b H; cbn [fold_left].
  - split; auto.
  - set (b' := if fst (sel k) then upd k (snd (sel k)) b else b).
    assert (L : length b' = length b) by (unfold b'; destruct (fst (sel k)); auto using upd_length).
    destruct (IH b') as [H1 H2]. { intros. rewrite L. apply H. right; auto. }
    split; [congruence|]. intros i. rewrite H2. cbn [existsb].
    destruct (Nat.eqb_spec i k) as [->|N]; simpl.
    + unfold b'. destruct (fst (sel k)) eqn:E; simpl.
      * rewrite andb_true_r. destruct (existsb (Nat.eqb k) ks); auto. unfold comp. apply nth_upd_eq. apply H; left; auto.
      * rewrite andb_false_r. auto.
    + destruct (existsb (Nat.eqb i) ks && fst (sel i)); auto. unfold b', comp. destruct (fst (sel k)); auto.
      apply nth_upd_neq. auto.
Qed.
Lemma existsb_seq : forall n i, i < n -> existsb (Nat.eqb i) (seq 0 n) = true.
Proof. intros. apply existsb_exists. exists i. split; [apply in_seq; lia|apply Nat.eqb_refl]. Qed.

Lemma add_unit_spec : forall sel ks A, NoDup ks -> coo_ok A ->
  (forall k, In k ks -> k < c_rows K A /\ k < c_cols K A) ->
  let A' := add_unit K sel A ks in
  coo_ok A' /\ c_rows K A' = c_rows K A /\ c_cols K A' = c_cols K A /\
  forall i j, tval (c_trip K A') i j = tval (c_trip K A) i j +
     if (i =? j) && existsb (Nat.eqb i) ks && fst (sel i) then 1 else 0.
Proof.
  unfold add_unit. induction ks as [|k ks IH]; intros A ND Hok H; cbn [fold_left].
  - split; auto. split; auto. split; auto. intros. simpl. rewrite andb_false_r. simpl. ring.
  - inversion ND as [|? ? Nin ND']; subst. destruct (H k (or_introl eq_refl)) as [Hk1 Hk2].
    set (B := if fst (sel k) then AddToEntry K k k 1 A else A).
    assert (BR : c_rows K B = c_rows K A). { unfold B. destruct (fst (sel k)); auto. rewrite AddToEntry_rows. lia. }
    assert (BC : c_cols K B = c_cols K A). { unfold B. destruct (fst (sel k)); auto. rewrite AddToEntry_cols. lia. }
    destruct (IH B) as (H1 & H2 & H3 & H4); auto.
    { unfold B. destruct (fst (sel k)); auto. apply AddToEntry_ok; auto. }
    { intros x Hx. rewrite BR, BC. apply H. right; auto. }
    split; auto. split; [congruence|]. split; [congruence|]. intros i j. rewrite H4. cbn [existsb].
    assert (Ek : existsb (Nat.eqb k) ks = false).
    { destruct (existsb (Nat.eqb k) ks) eqn:E; auto. apply existsb_exists in E as (x & Hx & Ex).
      apply Nat.eqb_eq in Ex. subst. contradiction. }
    unfold B. destruct (Nat.eqb_spec i k) as [->|N].
    + rewrite Ek, andb_false_r. simpl. destruct (fst (sel k)).
      * rewrite AddToEntry_val, Nat.eqb_refl. simpl. rewrite (Nat.eqb_sym j k). destruct (k =? j); simpl; ring.
      * rewrite !andb_false_r. ring.
    + simpl. f_equal. destruct (fst (sel k)); auto. rewrite AddToEntry_val.
      destruct (Nat.eqb_spec i k); try contradiction. simpl. ring.
Qed.

(** Rows of the system with the unknowns of the flagged columns moved to the right. *)
Definition elim_matrix (sel : selector K) (D : nat -> nat -> K) (i j : nat) : K :=
  if fst (sel i) || fst (sel j) then (if i =? j then 1 else 0) else D i j.
Definition alt_matrix (sel : selector K) (D : nat -> nat -> K) (i j : nat) : K :=
  if fst (sel i) then (if i =? j then 1 else 0) else D i j.

Lemma mv_unit : forall n (x : nat -> K) i D, i < n -> (forall j, j < n -> D i j = if i =? j then 1 else 0) ->
  mv K n D x i = x i.
Proof.
  intros n x i D Hi H. unfold mv. rewrite (sumn_single K n i _ Hi).
  2: { intros j Hj Nj. rewrite H by auto. destruct (Nat.eqb_spec i j); [congruence|ring]. }
  rewrite H by auto. rewrite Nat.eqb_refl. ring.
Qed.

Theorem fix_flagged : forall sel A b N D, is_matrix K A N N D -> length b = N ->
  exists A' b' D', FixFlaggedSolutionComponents K sel A b = Ok (A', b') /\ length b' = N /\
    is_matrix K A' N N D' /\
    (forall x, solves K N D' (comp K b') x <->
       ((forall i, i < N -> fst (sel i) = true -> x i = snd (sel i)) /\
        (forall i, i < N -> fst (sel i) = false -> mv K N D x i = comp K b i))) /\
    ((forall i j, i < N -> j < N -> D i j = D j i) -> forall i j, i < N -> j < N -> D' i j = D' j i).
Proof.
  intros sel A b N D HA Hb. pose proof HA as HA'. apply is_matrix_ok in HA' as (Hok & HR & HC & HD).
  unfold FixFlaggedSolutionComponents. rewrite HR, HC, Hb, Nat.eqb_refl. cbn [bind lf_assert].
  set (tmp := map _ (seq 0 N)).
  assert (Htmp : forall k, k < N -> comp K tmp k = if fst (sel k) then snd (sel k) else 0).
  { intros k Hk. unfold comp, tmp. rewrite (nth_indep _ 0 (if fst (sel 0%nat) then snd (sel 0%nat) else 0)) by
      (rewrite map_length, seq_length; auto).
    rewrite (map_nth (fun k => if fst (sel k) then snd (sel k) else 0)). rewrite seq_nth by auto. auto. }
  destruct (matvec_spec A N N D (- (1)) tmp b HA) as (b1 & -> & L1 & Hb1).
  { unfold tmp. rewrite map_length, seq_length. auto. }
  { lia. }
  cbn [bind].
  destruct (set_fixed_spec sel (seq 0 N) b1) as [L2 H2]. { intros k Hk. apply in_seq in Hk. lia. }
  destruct (add_unit_spec sel (seq 0 N) (setZeroIf K (fun i j => fst (sel i) || fst (sel j)) A)) as (U1 & U2 & U3 & U4).
  { apply seq_NoDup. } { apply setZeroIf_ok; auto. }
  { intros k Hk. apply in_seq in Hk. simpl. lia. }
  exists (add_unit K sel (setZeroIf K (fun i j => fst (sel i) || fst (sel j)) A) (seq 0 N)),
    (set_fixed K sel b1 (seq 0 N)), (elim_matrix sel D).
  split; auto. split; [congruence|]. split; [|split].
  - apply is_matrix_intro; auto; [rewrite U2; exact HR|rewrite U3; exact HC|]. intros i j Hi Hj. rewrite U4. rewrite (existsb_seq N i Hi), andb_true_r.
    simpl c_trip. rewrite tval_filter, HD by auto. unfold elim_matrix.
    destruct (fst (sel i)) eqn:Ei; simpl.
    + destruct (i =? j); simpl; ring.
    + rewrite andb_false_r. destruct (fst (sel j)) eqn:Ej; [|ring].
      destruct (Nat.eqb_spec i j); [congruence|ring].
  - intros x.
    assert (F : forall i, i < N -> fst (sel i) = true -> mv K N (elim_matrix sel D) x i = x i).
    { intros i Hi Ei. apply mv_unit; auto. intros. unfold elim_matrix. rewrite Ei. auto. }
    assert (FB : forall i, i < N -> comp K (set_fixed K sel b1 (seq 0 N)) i =
       if fst (sel i) then snd (sel i) else comp K b i - mv K N D (comp K tmp) i).
    { intros i Hi. rewrite H2, (existsb_seq N i Hi). simpl. destruct (fst (sel i)); auto. rewrite Hb1.
      apply Nat.ltb_lt in Hi. rewrite Hi. ring. }
    assert (G : (forall i, i < N -> fst (sel i) = true -> x i = snd (sel i)) ->
       forall i, i < N -> fst (sel i) = false ->
       mv K N (elim_matrix sel D) x i = mv K N D x i - mv K N D (comp K tmp) i).
    { intros Hx i Hi Ei. unfold mv. rewrite <- sumn_sub. apply sumn_ext. intros j Hj. rewrite Htmp by auto.
      unfold elim_matrix. rewrite Ei. simpl. destruct (fst (sel j)) eqn:Ej.
      - rewrite (Hx j) by auto. destruct (Nat.eqb_spec i j); [congruence|ring].
      - ring. }
    unfold solves. split.
    + intros H. assert (Hx : forall i, i < N -> fst (sel i) = true -> x i = snd (sel i)).
      { intros i Hi Ei. rewrite <- (F i Hi Ei), H by auto. rewrite FB by auto. rewrite Ei. auto. }
      split; auto. intros i Hi Ei. specialize (H i Hi). rewrite (G Hx i Hi Ei), FB, Ei in H by auto.
      replace (mv K N D x i) with ((mv K N D x i - mv K N D (comp K tmp) i) + mv K N D (comp K tmp) i) by ring.
      rewrite H. ring.
    + intros [Hx He] i Hi. rewrite FB by auto. destruct (fst (sel i)) eqn:Ei.
      * rewrite F by auto. auto.
      * rewrite (G Hx i Hi Ei), He by auto. auto.
  - intros Hs i j Hi Hj. unfold elim_matrix. rewrite (orb_comm (fst (sel j))), (Nat.eqb_sym j i), (Hs j i) by auto. auto.
Qed.

Theorem fix_alt : forall sel A b N D, is_matrix K A N N D -> length b = N ->
  exists A' b' D', FixFlaggedSolutionCompAlt K sel A b = Ok (A', b') /\ length b' = N /\
    is_matrix K A' N N D' /\
    (forall x, solves K N D' (comp K b') x <->
       ((forall i, i < N -> fst (sel i) = true -> x i = snd (sel i)) /\
        (forall i, i < N -> fst (sel i) = false -> mv K N D x i = comp K b i))).
Proof.
  intros sel A b N D HA Hb. pose proof HA as HA'. apply is_matrix_ok in HA' as (Hok & HR & HC & HD).
  unfold FixFlaggedSolutionCompAlt. rewrite HR, HC, Hb, Nat.eqb_refl. cbn [bind lf_assert].
  destruct (set_fixed_spec sel (seq 0 N) b) as [L2 H2]. { intros k Hk. apply in_seq in Hk. lia. }
  destruct (add_unit_spec sel (seq 0 N) (setZeroIf K (fun i _ => fst (sel i)) A)) as (U1 & U2 & U3 & U4).
  { apply seq_NoDup. } { apply setZeroIf_ok; auto. }
  { intros k Hk. apply in_seq in Hk. simpl. lia. }
  exists (add_unit K sel (setZeroIf K (fun i _ => fst (sel i)) A) (seq 0 N)),
    (set_fixed K sel b (seq 0 N)), (alt_matrix sel D).
  split; auto. split; [congruence|]. split.
  - apply is_matrix_intro; auto; [rewrite U2; exact HR|rewrite U3; exact HC|]. intros i j Hi Hj. rewrite U4. rewrite (existsb_seq N i Hi), andb_true_r.
    simpl c_trip. rewrite (tval_filter (fun i _ => fst (sel i))), HD by auto. unfold alt_matrix.
    destruct (fst (sel i)) eqn:Ei; simpl.
    + destruct (i =? j); simpl; ring.
    + rewrite andb_false_r. ring.
  - intros x.
    assert (F : forall i, i < N -> mv K N (alt_matrix sel D) x i = if fst (sel i) then x i else mv K N D x i).
    { intros i Hi. destruct (fst (sel i)) eqn:Ei.
      - apply mv_unit; auto. intros. unfold alt_matrix. rewrite Ei. auto.
      - apply mv_ext. intros. unfold alt_matrix. rewrite Ei. auto. }
    assert (FB : forall i, i < N -> comp K (set_fixed K sel b (seq 0 N)) i =
       if fst (sel i) then snd (sel i) else comp K b i).
    { intros i Hi. rewrite H2, (existsb_seq N i Hi). simpl. auto. }
    unfold solves. split.
    + intros H. split; intros i Hi Ei; specialize (H i Hi); rewrite F, FB, Ei in H by auto; auto.
    + intros [Hx He] i Hi. rewrite F, FB by auto. destruct (fst (sel i)) eqn:Ei; auto.
Qed.

(** Lists of (index, value). *)
Definition listed_sum (l : list (nat * K)) (i : nat) : K :=
  suml (map (fun p => if fst p =? i then snd p else 0) l).
Lemma collect_spec : forall N l vec flags, length vec = N -> length flags = N ->
  Forall (fun p => fst p < N) l ->
  exists v f, collect_fixed K N l vec flags = Ok (v, f) /\
    (forall i, comp K v i = comp K vec i + listed_sum l i) /\
    (forall i, i < N -> nth i f false = nth i flags false || existsb (fun p => fst p =? i) l).
Proof.
  intros N. induction l as [|[i x] l IH]; intros vec flags Lv Lf H; simpl.
  - exists vec, flags. split; auto. split. { intros. unfold listed_sum. simpl. ring. }
    intros. rewrite orb_false_r. auto.
  - inversion H as [|? ? Hi Hl]; subst. simpl in Hi. apply Nat.ltb_lt in Hi as Hi'. rewrite Hi'. cbn [bind lf_assert].
    destruct (vec_add_ok i x vec Hi) as (w & -> & L & Hw). cbn [bind].
    destruct (IH w (upd i true flags)) as (v & f & -> & H1 & H2); auto. { rewrite upd_length. auto. }
    exists v, f. split; auto. split.
    + intros k. rewrite H1, Hw. unfold listed_sum. cbn [map suml fst snd]. rewrite (Nat.eqb_sym k i). ring.
    + intros k Hk. rewrite H2 by auto. rewrite (Nat.eqb_sym i k). destruct (Nat.eqb_spec k i) as [->|N].
      * rewrite nth_upd_eq by lia. rewrite orb_true_r. auto.
      * rewrite nth_upd_neq by auto. auto.
Qed.

Theorem fix_lse : forall l A b N D, is_matrix K A N N D -> length b = N -> Forall (fun p => fst p < N) l ->
  exists A' b' D', FixSolutionComponentsLse K l A b = Ok (A', b') /\ length b' = N /\
    is_matrix K A' N N D' /\
    (forall x, solves K N D' (comp K b') x <->
       ((forall i, i < N -> In i (map fst l) -> x i = listed_sum l i) /\
        (forall i, i < N -> ~ In i (map fst l) -> mv K N D x i = comp K b i))).
Proof.
  intros l A b N D HA Hb Hl. pose proof HA as HA'. apply is_matrix_ok in HA' as (Hok & HR & HC & HD).
  unfold FixSolutionComponentsLse. rewrite HR, HC, Hb, Nat.eqb_refl. cbn [bind lf_assert].
  destruct (collect_spec N l (repeat 0 N) (repeat false N)) as (v & f & -> & H1 & H2); auto using repeat_length.
  cbn [bind fst snd].
  destruct (fix_alt (fun i => (nth i f false, nth i v 0)) A b N D HA Hb) as (A' & b' & D' & -> & L & M & S).
  exists A', b', D'. split; auto. split; auto. split; auto. intros x. rewrite S. cbn [fst snd].
  assert (E : forall i, i < N -> (nth i f false = true <-> In i (map fst l))).
  { intros i Hi. rewrite H2 by auto. rewrite nth_repeat. simpl. rewrite existsb_exists, in_map_iff. split.
    - intros (p & Hp & Ep). apply Nat.eqb_eq in Ep. eauto.
    - intros (p & Ep & Hp). exists p. split; auto. apply Nat.eqb_eq; auto. }
  assert (V : forall i, nth i v 0 = listed_sum l i).
  { intros i. specialize (H1 i). unfold comp in H1. rewrite H1, nth_repeat. ring. }
  split; intros [P Q]; split; intros i Hi Hin.
  - rewrite P, V; auto. apply E; auto.
  - apply Q; auto. destruct (nth i f false) eqn:Ef; auto. apply E in Ef; auto. contradiction.
  - rewrite V. apply P; auto. apply E; auto.
  - apply Q; auto. intros Hc. apply E in Hc; auto. congruence.
Qed.
Lemma listed_distinct : forall l i x, NoDup (map fst l) -> In (i, x) l -> listed_sum l i = x.
Proof.
  induction l as [|[j y] l IH]; intros i x ND Hin; [destruct Hin|]. simpl in ND. inversion ND as [|? ? Nin ND']; subst.
  unfold listed_sum. cbn [map suml fst snd]. destruct Hin as [E|Hin].
  - inversion E; subst. rewrite Nat.eqb_refl, suml_zero; [ring|]. intros z Hz.
    apply in_map_iff in Hz as ([a b] & <- & Hab). simpl. destruct (Nat.eqb_spec a i); auto. subst.
    exfalso. apply Nin. apply in_map_iff. exists (i, b). auto.
  - destruct (Nat.eqb_spec j i) as [->|N].
    + exfalso. apply Nin. apply in_map_iff. exists (i, x). auto.
    + change (0 + listed_sum l i = x). rewrite (IH i x); auto. ring.
Qed.
Theorem fix_lse_distinct : forall l A b N D, is_matrix K A N N D -> length b = N ->
  Forall (fun p => fst p < N) l -> NoDup (map fst l) ->
  exists A' b' D', FixSolutionComponentsLse K l A b = Ok (A', b') /\ length b' = N /\
    is_matrix K A' N N D' /\
    (forall x, solves K N D' (comp K b') x <->
       ((forall i v, In (i, v) l -> x i = v) /\
        (forall i, i < N -> ~ In i (map fst l) -> mv K N D x i = comp K b i))).
Proof.
  intros l A b N D HA Hb Hl ND. destruct (fix_lse l A b N D HA Hb Hl) as (A' & b' & D' & E & L & M & S).
  exists A', b', D'. split; auto. split; auto. split; auto. intros x. rewrite S. split; intros [P Q]; split; auto.
  - intros i v Hin. rewrite P, (listed_distinct l i v); auto.
    + rewrite Forall_forall in Hl. apply (Hl _ Hin).
    + apply in_map_iff. exists (i, v). auto.
  - intros i Hi Hin. apply in_map_iff in Hin as ([j v] & <- & Hin). simpl. rewrite (listed_distinct l j v); auto.
Qed.
Theorem fix_lse_bad_index : forall l A b N D, is_matrix K A N N D -> length b = N ->
  Exists (fun p => N <= fst p) l -> FixSolutionComponentsLse K l A b = Assert.
Proof.
  intros l A b N D HA Hb Hl. pose proof HA as HA'. apply is_matrix_ok in HA' as (Hok & HR & HC & HD).
  unfold FixSolutionComponentsLse. rewrite HR, HC, Hb, Nat.eqb_refl. cbn [bind lf_assert].
  assert (E : forall vec flags, length vec = N -> collect_fixed K N l vec flags = Assert).
  { induction Hl as [[i x] l Hi|[i x] l Hl IH]; intros vec flags Lv; simpl in *.
    - destruct (Nat.ltb_spec i N); auto. lia.
    - destruct (Nat.ltb_spec i N) as [Hi|Hi]; auto. cbn [bind lf_assert].
      destruct (vec_add_ok i x vec) as (w & -> & L & _); [lia|]. cbn [bind]. apply IH. congruence. }
  rewrite E; auto. apply repeat_length.
Qed.
End Proofs.
