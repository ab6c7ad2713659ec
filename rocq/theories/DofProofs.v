(** Proofs about the dof handlers. *)
From Coq Require Import List Arith Lia Bool FinFun.
Import ListNotations.
From Verif Require Import Base MeshModel MeshView DofModel DofSpec.

(** * Lists *)
Lemma slice_block : forall A (ls : list (list A)) i x y z t,
  nth_error ls i = Some (x ++ y ++ z) ->
  slice (length (concat (firstn i ls)) + length x) (length y) (concat ls ++ t) = y.
Proof.
  intros A ls i x y z t H. destruct (nth_error_split _ _ H) as (l1 & l2 & -> & <-).
  rewrite firstn_app, Nat.sub_diag, firstn_all, firstn_O, app_nil_r.
  rewrite concat_app. simpl. unfold slice.
  rewrite <- !app_assoc. rewrite <- app_length.
  rewrite (app_assoc (concat l1)). rewrite skipn_app, Nat.sub_diag, skipn_all2 by lia. simpl.
  rewrite firstn_app, Nat.sub_diag, firstn_all, firstn_O, app_nil_r. auto.
Qed.

Lemma skipn_S : forall A n (l : list A), skipn (S n) l = tl (skipn n l).
Proof. induction n; destruct l; simpl; auto. rewrite <- IHn. destruct l; auto. Qed.

Lemma read_slice : forall (src : list nat) st n, st + n <= length src ->
  map (fun j => nth (st + j) src 0) (seq 0 n) = slice st n src.
Proof.
  intros src st n. revert st. induction n as [|n IH]; intros st H; simpl; auto.
  unfold slice. rewrite Nat.add_0_r.
  destruct (skipn st src) as [|x r] eqn:E.
  - apply (f_equal (@length nat)) in E. rewrite skipn_length in E. simpl in E. lia.
  - simpl. f_equal.
    + rewrite <- (firstn_skipn st src), E. rewrite app_nth2; rewrite firstn_length_le by lia; [|lia].
      rewrite Nat.sub_diag. auto.
    + rewrite <- seq_shift, map_map.
      rewrite (map_ext _ (fun j => nth (S st + j) src 0)) by (intros; f_equal; lia).
      rewrite IH by lia. unfold slice. f_equal.
      rewrite skipn_S, E. auto.
Qed.

Lemma concat_same : forall (ls : list (list nat)) L i, (forall x, In x ls -> length x = L) ->
  i <= length ls -> length (concat (firstn i ls)) = i * L.
Proof.
  induction ls as [|x ls IH]; intros L i H Hi; simpl in *.
  - assert (i = 0) by lia. subst; auto.
  - destruct i; simpl; auto. rewrite app_length, H by auto. rewrite (IH L) by (auto; lia). auto.
Qed.

Lemma concat_app_map : forall A B (f : A -> list B) l x, concat (map f (l ++ [x])) = concat (map f l) ++ f x.
Proof. intros. rewrite map_app, concat_app. simpl. rewrite app_nil_r. auto. Qed.

Lemma seq_snoc : forall s n, seq s (S n) = seq s n ++ [s + n].
Proof. intros. replace (S n) with (n + 1) by lia. rewrite seq_app. auto. Qed.

Lemma repeat_snoc : forall A (e : A) n, repeat e n ++ [e] = e :: repeat e n.
Proof. intros. induction n; simpl; auto. f_equal. auto. Qed.

(** Loops over an index range, as an invariant rule. *)
Lemma fold_seq_inv : forall A (P : nat -> A -> Prop) (f : A -> nat -> A) n s,
  P 0 s -> (forall i s, i < n -> P i s -> P (S i) (f s i)) -> P n (fold_left f (seq 0 n) s).
Proof.
  intros A P f n s H0 HS. assert (G : forall k, k <= n -> P k (fold_left f (seq 0 k) s)).
  { induction k; intros Hk; [exact H0|]. rewrite seq_snoc, fold_left_app. simpl. apply HS; [lia|]. apply IHk; lia. }
  apply G; auto.
Qed.

(** * The expected numbering *)
Section Expected.
Variables (m : mesh) (cnt : ent -> nat) (flip : bool).

Definition sumto (f : nat -> nat) (i : nat) : nat := list_sum (map f (seq 0 i)).
Lemma sumto_S : forall f i, sumto f (S i) = sumto f i + f i.
Proof. intros. unfold sumto. rewrite seq_snoc, map_app, list_sum_app. simpl. lia. Qed.
Lemma sumto_le : forall f i j, i <= j -> sumto f i <= sumto f j.
Proof. intros f i j H. induction H; auto. rewrite sumto_S. lia. Qed.
Lemma sumto_lt : forall f i j, i < j -> sumto f i + f i <= sumto f j.
Proof. intros f i j H. rewrite <- sumto_S. apply sumto_le. lia. Qed.

Definition cn i := cnt (ENode i).
Definition ce i := cnt (EEdge i).
Definition cc i := cnt (ECell i).
Definition totn := sumto cn (mv_nodes m).
Definition tote := sumto ce (length (mv_edges m)).
Definition totc := sumto cc (length (mv_cells m)).

Definition start (e : ent) : nat :=
  match e with
  | ENode i => sumto cn i
  | EEdge i => totn + sumto ce i
  | ECell i => totn + tote + sumto cc i
  end.
Definition ownl (e : ent) : list nat := seq (start e) (cnt e).
Definition epart (c : cellv) (k : nat) : list nat :=
  let y := ownl (EEdge (nth k (cv_edges c) 0)) in
  if flip && negb (nth k (cv_ori c) false) then rev y else y.
Definition cov (e : ent) : list nat :=
  match e with
  | ENode i => ownl (ENode i)
  | EEdge i => ownl (ENode (fst (edge_at m i))) ++ ownl (ENode (snd (edge_at m i))) ++ ownl (EEdge i)
  | ECell i => concat (map (fun v => ownl (ENode v)) (cv_nodes (cell_at m i))) ++
               concat (map (epart (cell_at m i)) (seq 0 (num_nodes (cv_type (cell_at m i))))) ++
               ownl (ECell i)
  end.
Definition owners (es : list ent) : list ent := concat (map (fun e => repeat e (cnt e)) es).

Record as_expected (d : dofh) : Prop := {
  ex_num : NumDofs d = totn + tote + totc;
  ex_global : forall e, valid m e -> GlobalDofIndices d e = Ok (cov e);
  ex_interior : forall e, valid m e -> InteriorGlobalDofIndices d e = Ok (ownl e);
  ex_local : forall e, valid m e -> NumLocalDofs d e = Ok (length (cov e));
  ex_nint : forall e, valid m e -> NumInteriorDofs d e = Ok (cnt e);
  ex_ent : Entity d = entity_of (owners (all_entities m))
}.

Lemma owners_length : forall es, length (owners es) = list_sum (map cnt es).
Proof.
  induction es; simpl; auto. unfold owners in *. simpl. rewrite app_length, repeat_length, IHes. auto.
Qed.
Lemma owners_app : forall a b, owners (a ++ b) = owners a ++ owners b.
Proof. intros. unfold owners. rewrite map_app, concat_app. auto. Qed.

Lemma owners_nth : forall es a e b, es = a ++ e :: b -> forall k, k < cnt e ->
  nth_error (owners es) (list_sum (map cnt a) + k) = Some e.
Proof.
  intros es a e b -> k Hk. rewrite owners_app, <- owners_length.
  rewrite nth_error_app2 by lia. replace (_ - _) with k by lia.
  unfold owners. simpl. rewrite nth_error_app1 by (rewrite repeat_length; auto).
  apply nth_error_repeat; auto.
Qed.

Lemma owners_nth_inv : forall es x e, nth_error (owners es) x = Some e ->
  exists a b k, es = a ++ e :: b /\ k < cnt e /\ x = list_sum (map cnt a) + k.
Proof.
  induction es as [|e0 es IH]; intros x e H.
  - destruct x; discriminate.
  - unfold owners in H. simpl in H. destruct (Nat.lt_ge_cases x (cnt e0)) as [Hx|Hx].
    + rewrite nth_error_app1 in H by (rewrite repeat_length; auto).
      rewrite nth_error_repeat in H by auto. injection H as <-. exists [], es, x. auto.
    + rewrite nth_error_app2 in H by (rewrite repeat_length; auto). rewrite repeat_length in H.
      destruct (IH _ _ H) as (a & b & k & -> & Hk & E). exists (e0 :: a), b, k.
      split; auto. split; auto. simpl. lia.
Qed.

(** Position of an entity in the enumeration. *)
Lemma all_split : forall e, valid m e -> exists a b, all_entities m = a ++ e :: b /\
  list_sum (map cnt a) = start e.
Proof.
  assert (S1 : forall n i (f : nat -> ent), i < n -> exists b,
     map f (seq 0 n) = map f (seq 0 i) ++ f i :: b).
  { intros n i f H. exists (map f (seq (S i) (n - S i))).
    replace n with (i + S (n - S i)) at 1 by lia. rewrite seq_app, map_app. simpl. auto. }
  intros [i|i|i] H; simpl in H; unfold all_entities;
  match goal with H : i < ?n |- context [map ?f (seq 0 ?n)] => idtac end.
  - destruct (S1 _ _ ENode H) as [b ->]. rewrite <- app_assoc. simpl.
    eexists _, _. split; [reflexivity|]. rewrite map_map. reflexivity.
  - destruct (S1 _ _ EEdge H) as [b ->]. rewrite <- app_assoc, app_assoc. simpl.
    eexists _, _. split; [reflexivity|]. rewrite map_app, list_sum_app, !map_map. reflexivity.
  - destruct (S1 _ _ ECell H) as [b ->]. rewrite app_assoc, app_assoc.
    eexists _, _. split; [reflexivity|]. rewrite !map_app, !list_sum_app, !map_map.
    unfold start, totn, tote, sumto, cn, ce, cc. lia.
Qed.

Lemma all_total : list_sum (map cnt (all_entities m)) = totn + tote + totc.
Proof.
  unfold all_entities. rewrite !map_app, !list_sum_app, !map_map.
  unfold totn, tote, totc, sumto, cn, ce, cc. lia.
Qed.

Lemma all_valid : forall e, In e (all_entities m) <-> valid m e.
Proof.
  intros e. unfold all_entities. rewrite !in_app_iff, !in_map_iff. split.
  - intros [(i & <- & H)|[(i & <- & H)|(i & <- & H)]]; apply in_seq in H; simpl; lia.
  - destruct e as [i|i|i]; simpl; intros H; [left|right; left|right; right];
    exists i; rewrite in_seq; (split; [auto|lia]).
Qed.

Lemma start_before : forall e e', valid m e -> valid m e' -> before e e' ->
  start e + cnt e <= start e'.
Proof.
  intros e e' V V' B. destruct e as [i|i|i], e' as [j|j|j]; simpl in *; try contradiction.
  - apply (sumto_lt cn); auto.
  - pose proof (sumto_lt cn _ _ V). unfold totn, cn in *. lia.
  - pose proof (sumto_lt cn _ _ V). unfold totn, cn in *. lia.
  - pose proof (sumto_lt ce _ _ B). unfold ce in *. lia.
  - pose proof (sumto_lt ce _ _ V). unfold tote, ce in *. lia.
  - pose proof (sumto_lt cc _ _ B). unfold cc in *. lia.
Qed.

Lemma before_total : forall e e', e = e' \/ before e e' \/ before e' e.
Proof.
  intros [i|i|i] [j|j|j]; simpl; auto; destruct (Nat.lt_trichotomy i j) as [|[|]]; auto;
  subst; auto.
Qed.

Lemma start_bound : forall e, valid m e -> start e + cnt e <= totn + tote + totc.
Proof.
  intros [i|i|i] V; simpl in *.
  - pose proof (sumto_lt cn _ _ V). unfold totn, cn in *. lia.
  - pose proof (sumto_lt ce _ _ V). unfold tote, ce in *. lia.
  - pose proof (sumto_lt cc _ _ V). unfold totc, cc in *. lia.
Qed.

Variable d : dofh.
Hypothesis EX : as_expected d.

Lemma entity_own : forall x e, valid m e ->
  (Entity d x = Ok e <-> start e <= x < start e + cnt e).
Proof.
  intros x e V. rewrite (ex_ent _ EX). unfold entity_of. split.
  - destruct (nth_error _ x) as [e'|] eqn:E; intros H; [|discriminate]. injection H as ->.
    destruct (owners_nth_inv _ _ _ E) as (a & b & k & Ha & Hk & ->).
    destruct (all_split e V) as (a' & b' & Ha' & Hs).
    assert (a = a').
    { assert (ND : NoDup (all_entities m)).
      { unfold all_entities.
        assert (Inj : forall (f : nat -> ent) n, (forall i j, f i = f j -> i = j) -> NoDup (map f (seq 0 n))).
        { intros f n Hf. apply FinFun.Injective_map_NoDup; [exact Hf|apply seq_NoDup]. }
        assert (App : forall (a b : list ent), NoDup a -> NoDup b -> (forall x, In x a -> In x b -> False) -> NoDup (a ++ b)).
        { clear. induction a as [|x a IH]; simpl; intros b Ha Hb Hd; auto.
          inversion Ha; subst. constructor.
          - rewrite in_app_iff. intros [?|?]; eauto.
          - apply IH; eauto. }
        apply App; [apply Inj; congruence| |].
        - apply App; try (apply Inj; congruence).
          intros y Hy Hy'. apply in_map_iff in Hy as (? & <- & _). apply in_map_iff in Hy' as (? & ? & _). discriminate.
        - intros y Hy Hy'. apply in_map_iff in Hy as (? & <- & _).
          apply in_app_or in Hy' as [Hy'|Hy']; apply in_map_iff in Hy' as (? & ? & _); discriminate. }
      rewrite Ha in ND, Ha'. clear - ND Ha'. revert a' b' Ha'.
      induction a as [|x a IH]; intros [|y a'] b' Ha'; simpl in *; auto.
      - injection Ha' as -> ->. inversion ND; subst. exfalso. apply H1. rewrite in_app_iff; simpl; auto.
      - injection Ha' as -> <-. inversion ND; subst. exfalso. apply H1. rewrite in_app_iff; simpl; auto.
      - injection Ha' as -> Ha'. f_equal. inversion ND; subst. eapply IH; eauto. }
    subst a'. lia.
  - intros H. destruct (all_split e V) as (a & b & Ha & Hs).
    replace x with (list_sum (map cnt a) + (x - start e)) by lia.
    rewrite (owners_nth _ _ _ _ Ha) by lia. auto.
Qed.

Theorem expected_partitions : partitions m cnt d.
Proof.
  constructor.
  - rewrite (ex_num _ EX), all_total. auto.
  - intros e V. exists (ownl e). unfold ownl. rewrite seq_length. repeat split; try apply seq_NoDup.
    + apply (ex_interior _ EX); auto.
    + apply (ex_nint _ EX); auto.
    + apply in_seq in H. pose proof (start_bound e V). rewrite (ex_num _ EX). lia.
    + apply entity_own; auto. apply in_seq in H. auto.
    + intros [H1 H2]. apply entity_own in H2; auto. apply in_seq. auto.
  - intros x H. rewrite (ex_ent _ EX). unfold entity_of.
    destruct (nth_error _ x) as [e|] eqn:E.
    + exists e. split; auto. apply all_valid. destruct (owners_nth_inv _ _ _ E) as (a & b & k & -> & _).
      apply in_or_app; simpl; auto.
    + apply nth_error_None in E. rewrite owners_length, all_total in E. rewrite (ex_num _ EX) in H. lia.
  - intros x H. rewrite (ex_ent _ EX). unfold entity_of.
    rewrite (proj2 (nth_error_None _ _)); auto. rewrite owners_length, all_total.
    rewrite (ex_num _ EX) in H. lia.
Qed.

Theorem expected_numbered : numbered m d.
Proof.
  constructor.
  - intros e l k x V O H. unfold own in O. rewrite (ex_interior _ EX) in O by auto. injection O as <-.
    unfold ownl in *. assert (k < cnt e).
    { rewrite <- (seq_length (cnt e) (start e)). apply nth_error_Some. congruence. }
    exists (start e). rewrite !(nth_error_nth' _ 0) in * by (rewrite seq_length; lia).
    rewrite !seq_nth in * by lia. injection H as <-. split; auto.
  - intros e e' l l' x x' V V' B O O' H H'. unfold own in *.
    rewrite (ex_interior _ EX) in O, O' by auto. injection O as <-. injection O' as <-.
    apply in_seq in H, H'. pose proof (start_before e e' V V' B). lia.
Qed.

Theorem expected_canonical : wf_mesh m -> canonical m flip d.
Proof.
  intros W. constructor.
  - intros i V. exists (ownl (ENode i)). split; [apply (ex_interior _ EX)|apply (ex_global _ EX (ENode i))]; auto.
  - intros i a b H.
    destruct (wm_edges _ W i a b H) as (_ & Ha & Hb).
    assert (V : valid m (EEdge i)) by (apply nth_error_Some; congruence).
    exists (ownl (ENode a)), (ownl (ENode b)), (ownl (EEdge i)).
    split; [apply (ex_interior _ EX); auto|]. split; [apply (ex_interior _ EX); auto|].
    split; [apply (ex_interior _ EX); auto|]. rewrite (ex_global _ EX) by auto. simpl.
    unfold edge_at. rewrite (nth_error_nth _ _ _ H). auto.
  - intros i c H. assert (V : valid m (ECell i)) by (apply nth_error_Some; congruence).
    assert (Ec : cell_at m i = c) by (apply (nth_error_nth _ _ _ H)).
    pose proof (wm_cells _ W) as F. rewrite Forall_forall in F. specialize (F c (nth_error_In _ _ H)).
    exists (map (fun v => ownl (ENode v)) (cv_nodes c)),
           (map (epart c) (seq 0 (num_nodes (cv_type c)))), (ownl (ECell i)).
    assert (Ln : num_nodes (cv_type c) = length (cv_nodes c)).
    { unfold cv_type, cell_type. destruct (wc_shape _ _ F) as [-> | ->]; auto. }
    rewrite Ln. split; [|split; [|split; [|split]]].
    + pose proof (wc_nodes _ _ F) as Fn. clear - Fn EX. induction Fn; simpl; constructor; auto.
      apply (ex_interior _ EX (ENode x)); auto.
    + assert (Hv : Forall (fun e => valid m (EEdge e)) (cv_edges c)).
      { apply Forall_forall. intros e He. apply In_nth_error in He as [j Hj].
        destruct (wc_local _ _ F j) as (e' & o & p0 & p1 & He' & _ & Hp & _).
        - rewrite <- (wc_edges _ _ F). apply nth_error_Some. congruence.
        - assert (e' = e) by congruence. subst. simpl. apply nth_error_Some. congruence. }
      unfold epart. pose proof (wc_edges _ _ F) as L1. pose proof (wc_oris _ _ F) as L2.
      rewrite <- L1. rewrite <- L1 in L2. clear - Hv L2 EX.
      revert L2. generalize (cv_ori c) as os. revert Hv. generalize (cv_edges c) as es.
      induction 1 as [|e es He Hes IH]; intros [|o os] L; try discriminate; simpl; constructor.
      * simpl. exists (ownl (EEdge e)). split; auto. apply (ex_interior _ EX); auto.
      * rewrite <- seq_shift, map_map. apply IH. simpl in L; lia.
    + rewrite map_length, seq_length. symmetry; apply (wc_edges _ _ F).
    + apply (ex_interior _ EX); auto.
    + rewrite (ex_global _ EX) by auto. simpl. rewrite Ec, Ln. auto.
  - intros e V. exists (cov e). split; [apply (ex_global _ EX)|apply (ex_local _ EX)]; auto.
Qed.
End Expected.
