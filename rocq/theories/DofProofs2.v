(** The uniform dof handler behaves as expected. *)
From Coq Require Import List Arith Lia Bool.
Import ListNotations.
From Verif Require Import Base MeshModel MeshView DofModel DofSpec DofProofs.

(** State of the writing loops: [pre] written, [k] zeros left. *)
Definition W (pre : list nat) (k d : nat) (es : list ent) : wst :=
  mkWst (pre ++ repeat 0 k) (length pre) d es.

Lemma W_eq : forall p p' k k' d d' e e', p = p' -> k = k' -> d = d' -> e = e' -> W p k d e = W p' k' d' e'.
Proof. intros; subst; auto. Qed.

Lemma upd_app : forall A (pre : list A) v x r, upd (length pre) v (pre ++ x :: r) = (pre ++ [v]) ++ r.
Proof. induction pre; simpl; intros; auto. f_equal. auto. Qed.

Lemma put_W : forall v pre k d es, put v (W pre (S k) d es) = W (pre ++ [v]) k d es.
Proof.
  intros. unfold put, W. simpl. f_equal.
  - apply upd_app.
  - rewrite app_length; simpl; lia.
Qed.

Lemma put_new_W : forall e pre k d es,
  put_new e (W pre (S k) d es) = W (pre ++ [d]) k (S d) (es ++ [e]).
Proof.
  intros. unfold put_new, W. simpl. f_equal.
  - apply upd_app.
  - rewrite app_length; simpl; lia.
Qed.

Lemma times_new_W : forall n e pre k d es, n <= k ->
  times n (put_new e) (W pre k d es) = W (pre ++ seq d n) (k - n) (d + n) (es ++ repeat e n).
Proof.
  induction n as [|n IH]; intros e pre k d es H; simpl.
  - rewrite !app_nil_r, Nat.sub_0_r, Nat.add_0_r. auto.
  - destruct k as [|k]; [lia|]. rewrite put_new_W, IH by lia.
    rewrite <- !app_assoc. simpl. f_equal; lia.
Qed.

Lemma fold_put_W : forall (f : nat -> nat) js pre k d es, length js <= k ->
  fold_left (fun s j => put (f j) s) js (W pre k d es) =
  W (pre ++ map f js) (k - length js) d es.
Proof.
  induction js as [|j js IH]; intros pre k d es H; simpl in *.
  - rewrite app_nil_r, Nat.sub_0_r. auto.
  - destruct k as [|k]; [lia|]. rewrite put_W, IH by lia. rewrite <- app_assoc. auto.
Qed.

Lemma copy_fwd_W : forall src st n pre k d es, n <= k -> st + n <= length src ->
  copy_fwd src st n (W pre k d es) = W (pre ++ slice st n src) (k - n) d es.
Proof.
  intros. unfold copy_fwd. rewrite (fold_put_W (fun j => nth (st + j) src 0)) by (rewrite seq_length; auto).
  rewrite read_slice, seq_length by auto. auto.
Qed.
Lemma copy_bwd_W : forall src st n pre k d es, n <= k -> st + n <= length src ->
  copy_bwd src st n (W pre k d es) = W (pre ++ rev (slice st n src)) (k - n) d es.
Proof.
  intros. unfold copy_bwd. rewrite (fold_put_W (fun j => nth (st + j) src 0)) by (rewrite rev_length, seq_length; auto).
  rewrite map_rev, read_slice, rev_length, seq_length by auto. auto.
Qed.

(** Start of a new slot. *)
Lemma at_off_W : forall pre k d es z, z <= k ->
  at_off (length pre + z) (W pre k d es) = W (pre ++ repeat 0 z) (k - z) d es.
Proof.
  intros. unfold at_off, W. simpl. f_equal.
  - rewrite <- app_assoc, <- repeat_app. do 2 f_equal. lia.
  - rewrite app_length, repeat_length. auto.
Qed.

Lemma owners_one : forall cnt l e, owners cnt (l ++ [e]) = owners cnt l ++ repeat e (cnt e).
Proof. intros. rewrite owners_app. unfold owners at 2. simpl. rewrite app_nil_r. auto. Qed.

Section U.
Variables (m : mesh) (l : layout) (check : bool).
Hypothesis WF : wf_mesh m.
Let cnt (e : ent) : nat := u_interior l (ent_type m e).
Let np := ly_pt l.
Let ns := ly_seg l.
Notation nn := (mv_nodes m).
Notation ne := (length (mv_edges m)).
Notation nc := (length (mv_cells m)).

Definition blocks2 := map (fun i => cov m cnt check (ENode i)) (seq 0 nn).
Definition blocks1 := map (fun i => cov m cnt check (EEdge i)) (seq 0 ne).
Definition slot (i : nat) : list nat :=
  let c := cov m cnt check (ECell i) in c ++ repeat 0 (num_dofs l 0 - length c).
Definition blocks0 := map slot (seq 0 nc).

Lemma ownl_len : forall e, length (ownl m cnt e) = cnt e.
Proof. intros. unfold ownl. apply seq_length. Qed.

Lemma sumto_const : forall f k i, (forall j, f j = k) -> sumto f i = i * k.
Proof. intros f k i H. induction i; [auto|]. rewrite sumto_S, IHi, H. simpl. lia. Qed.

Lemma nodes_loop : u_nodes m l = W (concat blocks2) 0 (totn m cnt) (owners cnt (map ENode (seq 0 nn))).
Proof.
  unfold u_nodes.
  assert (E : forall k, k <= nn -> fold_left (u_node l) (seq 0 k) (mkWst (repeat 0 (nn * np)) 0 0 []) =
     W (concat (map (fun i => cov m cnt check (ENode i)) (seq 0 k))) ((nn - k) * np)
       (sumto (cn cnt) k) (owners cnt (map ENode (seq 0 k)))).
  { induction k as [|k IH]; intros H; [rewrite Nat.sub_0_r; reflexivity|].
    rewrite seq_snoc, fold_left_app, IH by lia. simpl. unfold u_node.
    assert (Len : length (concat (map (fun i => cov m cnt check (ENode i)) (seq 0 k))) = k * np).
    { rewrite <- (firstn_all (map _ _)). rewrite (concat_same _ np); rewrite ?map_length, ?seq_length; auto.
      intros x Hx. apply in_map_iff in Hx as (i & <- & _). simpl. rewrite ownl_len. reflexivity. }
    replace (k * num_dofs l 2) with (length (concat (map (fun i => cov m cnt check (ENode i)) (seq 0 k))) + 0).
    2:{ rewrite Len. simpl. unfold np. lia. }
    rewrite at_off_W by apply Nat.le_0_l. simpl (repeat 0 0). rewrite app_nil_r, Nat.sub_0_r.
    fold np. replace (nn - k) with (S (nn - S k)) by lia. rewrite times_new_W by (simpl; apply Nat.le_add_r).
    rewrite !map_app, concat_app. simpl. rewrite app_nil_r, owners_one.
    rewrite sumto_S. rewrite (Nat.add_comm np), Nat.add_sub. reflexivity. }
  unfold mv_count. rewrite E by lia. rewrite Nat.sub_diag. reflexivity.
Qed.

Lemma blocks2_read : forall v, v < nn ->
  slice (v * num_dofs l 2) (num_dofs l 2) (concat blocks2) = ownl m cnt (ENode v) /\
  v * num_dofs l 2 + num_dofs l 2 <= length (concat blocks2).
Proof.
  intros v H.
  assert (Hn : nth_error blocks2 v = Some ([] ++ ownl m cnt (ENode v) ++ [])).
  { unfold blocks2. rewrite nth_error_map, (nth_error_nth' _ 0), seq_nth by (rewrite ?seq_length; auto).
    simpl. rewrite app_nil_r. auto. }
  assert (All : forall x, In x blocks2 -> length x = np).
  { intros x Hx. apply in_map_iff in Hx as (i & <- & _). simpl. apply ownl_len. }
  assert (Lb : length blocks2 = nn) by (unfold blocks2; rewrite map_length, seq_length; auto).
  split.
  - pose proof (slice_block _ _ _ _ _ _ [] Hn) as S. rewrite app_nil_r, ownl_len, (concat_same _ np) in S by (auto; lia).
    simpl in S. rewrite Nat.add_0_r in S. exact S.
  - rewrite <- (firstn_all blocks2). rewrite (concat_same _ np) by auto. rewrite Lb. simpl num_dofs. fold np. nia.
Qed.

Lemma copy_vertices : forall vs pre k d es,
  Forall (fun v => v < nn) vs -> length vs * np <= k ->
  fold_left (fun s v => copy_fwd (concat blocks2) (v * num_dofs l 2) (num_dofs l 2) s) vs (W pre k d es) =
  W (pre ++ concat (map (fun v => ownl m cnt (ENode v)) vs)) (k - length vs * np) d es.
Proof.
  induction vs as [|v vs IH]; intros pre k d es F H; cbn [fold_left map concat length].
  - rewrite app_nil_r, Nat.sub_0_r. auto.
  - inversion F; subst. destruct (blocks2_read v H2) as [R1 R2]. simpl in H.
    rewrite copy_fwd_W by (auto; simpl num_dofs; fold np; nia).
    rewrite R1. simpl num_dofs. fold np. rewrite IH by (auto; nia). rewrite <- app_assoc. f_equal. nia.
Qed.

Lemma edge_ends : forall i, i < ne -> fst (edge_at m i) < nn /\ snd (edge_at m i) < nn.
Proof.
  intros i H. unfold edge_at. destruct (nth i (mv_edges m) (0, 0)) as [a b] eqn:E.
  assert (nth_error (mv_edges m) i = Some (a, b)) as Hn.
  { rewrite (nth_error_nth' _ (0, 0)) by auto. congruence. }
  destruct (wm_edges _ WF i a b Hn). simpl. tauto.
Qed.

Lemma cov_edge_len : forall i, length (cov m cnt check (EEdge i)) = num_dofs l 1.
Proof. intros. simpl. rewrite !app_length, !ownl_len. unfold cnt. simpl. lia. Qed.

Lemma edges_loop : u_edges m l (u_nodes m l) =
  W (concat blocks1) 0 (totn m cnt + tote m cnt)
    (owners cnt (map ENode (seq 0 nn) ++ map EEdge (seq 0 ne))).
Proof.
  rewrite nodes_loop. unfold u_edges. cbn [w_arr w_dof w_ents W]. rewrite app_nil_r.
  assert (E : forall k, k <= ne -> fold_left (u_edge m l (concat blocks2)) (seq 0 k)
       (mkWst (repeat 0 (ne * num_dofs l 1)) 0 (totn m cnt) (owners cnt (map ENode (seq 0 nn)))) =
     W (concat (map (fun i => cov m cnt check (EEdge i)) (seq 0 k))) ((ne - k) * num_dofs l 1)
       (totn m cnt + sumto (ce cnt) k) (owners cnt (map ENode (seq 0 nn) ++ map EEdge (seq 0 k)))).
  { induction k as [|k IH]; intros H.
    - rewrite Nat.sub_0_r. cbn [seq map fold_left concat]. rewrite app_nil_r.
      unfold sumto; simpl list_sum. rewrite Nat.add_0_r. reflexivity.
    - rewrite seq_snoc, fold_left_app, IH by lia. cbn [fold_left]. rewrite Nat.add_0_l.
      destruct (edge_ends k) as [A B]; [lia|].
      unfold u_edge. destruct (edge_at m k) as [a b] eqn:Eab. cbn [fst snd] in A, B.
      set (pre := concat (map (fun i => cov m cnt check (EEdge i)) (seq 0 k))).
      assert (Len : length pre = k * num_dofs l 1).
      { unfold pre. rewrite <- (firstn_all (map _ _)).
        rewrite (concat_same _ (num_dofs l 1)); rewrite ?map_length, ?seq_length; auto.
        intros x Hx. apply in_map_iff in Hx as (i & <- & _). apply cov_edge_len. }
      replace (k * num_dofs l 1) with (length pre + 0) by lia.
      rewrite at_off_W by apply Nat.le_0_l. simpl (repeat 0 0). rewrite app_nil_r, Nat.sub_0_r.
      assert (num_dofs l 1 <= (ne - k) * num_dofs l 1) by nia.
      assert (Hnd : num_dofs l 1 = 2 * np + ns) by reflexivity.
      rewrite copy_vertices by (repeat constructor; auto; simpl; lia).
      fold ns. rewrite times_new_W by (simpl; lia).
      rewrite !map_app, concat_app. cbn [map concat]. rewrite !app_nil_r.
      rewrite (app_assoc (map ENode _)), owners_one. rewrite sumto_S. fold pre.
      cbn [cov]. rewrite Eab. cbn [fst snd]. apply W_eq; auto.
      + rewrite <- !app_assoc. reflexivity.
      + replace (ne - k) with (S (ne - S k)) by lia. rewrite Nat.mul_succ_l. simpl length. lia.
      + unfold ce, cnt; simpl; fold ns; lia. }
  unfold mv_count. rewrite E by lia. rewrite Nat.sub_diag. reflexivity.
Qed.

Lemma blocks1_read : forall i, i < ne ->
  slice (i * num_dofs l 1 + (num_dofs l 1 - ly_seg l)) (ly_seg l) (concat blocks1) = ownl m cnt (EEdge i) /\
  slice (i * num_dofs l 1) (num_dofs l 1) (concat blocks1) = cov m cnt check (EEdge i) /\
  i * num_dofs l 1 + num_dofs l 1 <= length (concat blocks1).
Proof.
  intros v H.
  assert (Hn : nth_error blocks1 v = Some (cov m cnt check (EEdge v))).
  { unfold blocks1. rewrite nth_error_map, (nth_error_nth' _ 0), seq_nth by (rewrite ?seq_length; auto). auto. }
  assert (All : forall x, In x blocks1 -> length x = num_dofs l 1).
  { intros x Hx. apply in_map_iff in Hx as (i & <- & _). apply cov_edge_len. }
  assert (Lb : length blocks1 = ne) by (unfold blocks1; rewrite map_length, seq_length; auto).
  split; [|split].
  - cbn [cov] in Hn. rewrite app_assoc in Hn. rewrite <- (app_nil_r (ownl m cnt (EEdge v))) in Hn.
    pose proof (slice_block _ _ _ _ _ _ [] Hn) as S.
    rewrite app_nil_r, (concat_same _ (num_dofs l 1)), app_length, !ownl_len in S by (auto; lia).
    rewrite <- S. f_equal. unfold cnt; simpl; lia.
  - rewrite <- (app_nil_r (cov _ _ _ _)) in Hn. rewrite <- (app_nil_l (_ ++ [])) in Hn.
    pose proof (slice_block _ _ _ _ _ _ [] Hn) as S.
    rewrite app_nil_r, (concat_same _ (num_dofs l 1)), cov_edge_len in S by (auto; lia).
    rewrite Nat.add_0_r in S. exact S.
  - rewrite <- (firstn_all blocks1). rewrite (concat_same _ (num_dofs l 1)) by auto. rewrite Lb. nia.
Qed.

Lemma copy_edges : forall c js pre k d es,
  (forall j, In j js -> nth j (cv_edges c) 0 < ne) -> length js * ns <= k ->
  fold_left (u_cell_edge l check (concat blocks1) c) js (W pre k d es) =
  W (pre ++ concat (map (epart m cnt check c) js)) (k - length js * ns) d es.
Proof.
  induction js as [|j js IH]; intros pre k d es F H; cbn [fold_left map concat length].
  - rewrite app_nil_r, Nat.sub_0_r. auto.
  - simpl in H. destruct (blocks1_read (nth j (cv_edges c) 0)) as (R1 & _ & R2); [apply F; left; auto|].
    unfold u_cell_edge at 2.
    assert (Hs : ly_seg l <= num_dofs l 1) by (simpl; lia).
    assert (E : epart m cnt check c j = if negb check || nth j (cv_ori c) false
      then ownl m cnt (EEdge (nth j (cv_edges c) 0)) else rev (ownl m cnt (EEdge (nth j (cv_edges c) 0)))).
    { unfold epart. destruct check, (nth j (cv_ori c) false); auto. }
    rewrite E. destruct (negb check || nth j (cv_ori c) false).
    + rewrite copy_fwd_W by (fold ns; lia). rewrite R1. fold ns. rewrite IH by (try (intros; apply F; right; auto); lia).
      rewrite <- app_assoc. f_equal. lia.
    + rewrite copy_bwd_W by (fold ns; lia). rewrite R1. fold ns. rewrite IH by (try (intros; apply F; right; auto); lia).
      rewrite <- app_assoc. f_equal. lia.
Qed.

Lemma cell_facts : forall i, i < nc -> wf_cell m (cell_at m i) /\
  num_nodes (cv_type (cell_at m i)) = length (cv_nodes (cell_at m i)).
Proof.
  intros i H. pose proof (wm_cells _ WF) as F. rewrite Forall_forall in F.
  assert (C : wf_cell m (cell_at m i)) by (apply F, nth_In; auto). split; auto.
  unfold cv_type, cell_type. destruct (wc_shape _ _ C) as [-> | ->]; auto.
Qed.

Lemma cell_edges_valid : forall c j, wf_cell m c -> j < length (cv_nodes c) -> nth j (cv_edges c) 0 < ne.
Proof.
  intros c j C Hj. destruct (wc_local _ _ C j Hj) as (e & o & p0 & p1 & He & _ & Hp & _).
  rewrite (nth_error_nth _ _ _ He). apply nth_error_Some. congruence.
Qed.

Lemma concat_len_const : forall A B (f : A -> list B) k xs, (forall x, In x xs -> length (f x) = k) ->
  length (concat (map f xs)) = length xs * k.
Proof. induction xs; simpl; intros H; auto. rewrite app_length, H, IHxs by auto. auto. Qed.

Lemma cov_cell_len : forall i, i < nc ->
  length (cov m cnt check (ECell i)) = u_covered l (cv_type (cell_at m i)).
Proof.
  intros i H. destruct (cell_facts i H) as [C Ln]. cbn [cov]. rewrite !app_length, ownl_len.
  rewrite (concat_len_const _ _ _ np).
  2:{ intros; rewrite ownl_len; reflexivity. }
  rewrite (concat_len_const _ _ _ ns).
  2:{ intros x _. unfold epart. destruct (_ && _); rewrite ?rev_length, ownl_len; reflexivity. }
  rewrite seq_length, <- Ln. unfold cnt, ent_type.
  assert (T : cv_type (cell_at m i) = kTria \/ cv_type (cell_at m i) = kQuad).
  { unfold cv_type, cell_type. destruct (_ =? 4); auto. }
  destruct T as [-> | ->]; simpl; unfold num_dofs_tria, num_dofs_quad, np, ns; simpl; lia.
Qed.

Lemma covered_max : forall i, u_covered l (cv_type (cell_at m i)) <= num_dofs l 0.
Proof. intros. unfold cv_type, cell_type. destruct (_ =? 4); simpl; lia. Qed.

Lemma slot_len : forall i, i < nc -> length (slot i) = num_dofs l 0.
Proof.
  intros i H. unfold slot. rewrite app_length, repeat_length, (cov_cell_len i H).
  pose proof (covered_max i). lia.
Qed.

Lemma cells_loop : u_cells m l check (concat blocks2) (W (concat blocks1) 0 (totn m cnt + tote m cnt)
    (owners cnt (map ENode (seq 0 nn) ++ map EEdge (seq 0 ne)))) =
  at_off (w_off (u_cells m l check (concat blocks2) (W (concat blocks1) 0 (totn m cnt + tote m cnt)
    (owners cnt (map ENode (seq 0 nn) ++ map EEdge (seq 0 ne))))))
    (W (concat blocks0) 0 (totn m cnt + tote m cnt + totc m cnt) (owners cnt (all_entities m))).
Proof.
  unfold u_cells. cbn [w_arr w_dof w_ents W]. rewrite app_nil_r.
  set (init := mkWst _ _ _ _).
  assert (E : forall k, k <= nc ->
     at_off 0 (fold_left (u_cell m l check (concat blocks2) (concat blocks1)) (seq 0 k) init) =
     at_off 0 (W (concat (map slot (seq 0 k))) ((nc - k) * num_dofs l 0)
       (totn m cnt + tote m cnt + sumto (cc cnt) k)
       (owners cnt (map ENode (seq 0 nn) ++ map EEdge (seq 0 ne) ++ map ECell (seq 0 k))))).
  { induction k as [|k IH]; intros H.
    - rewrite Nat.sub_0_r. unfold init, at_off, W, mv_count. cbn [seq map fold_left concat w_arr w_dof w_ents].
      rewrite app_nil_r. unfold sumto; simpl list_sum. rewrite Nat.add_0_r. reflexivity.
    - rewrite seq_snoc, fold_left_app. cbn [fold_left]. rewrite Nat.add_0_l.
      destruct (cell_facts k) as [C Ln]; [lia|].
      set (S0 := fold_left _ (seq 0 k) init) in *. clearbody S0. unfold u_cell.
      assert (Hoff : forall s s' o, at_off 0 s = at_off 0 s' -> at_off o s = at_off o s').
      { clear. intros [] [] o H. unfold at_off in *. simpl in *. congruence. }
      rewrite (Hoff _ _ (k * num_dofs l 0) (IH ltac:(lia))).
      set (pre := concat (map slot (seq 0 k))).
      assert (Len : length pre = k * num_dofs l 0).
      { unfold pre. rewrite <- (firstn_all (map _ _)).
        rewrite (concat_same _ (num_dofs l 0)); rewrite ?map_length, ?seq_length; auto.
        intros x Hx. apply in_map_iff in Hx as (i & <- & Hi). apply in_seq in Hi. apply slot_len. lia. }
      replace (k * num_dofs l 0) with (length pre + 0) by lia.
      rewrite at_off_W by apply Nat.le_0_l. simpl (repeat 0 0). rewrite app_nil_r, Nat.sub_0_r.
      assert (num_dofs l 0 <= (nc - k) * num_dofs l 0) by nia.
      pose proof (covered_max k) as Hmax. pose proof (cov_cell_len k ltac:(lia)) as Hlen.
      cbn [cov] in Hlen. rewrite !app_length, ownl_len in Hlen.
      rewrite (concat_len_const _ _ _ np) in Hlen.
      2:{ intros; rewrite ownl_len; reflexivity. }
      rewrite (concat_len_const _ _ _ ns) in Hlen.
      2:{ intros x _. unfold epart. destruct (_ && _); rewrite ?rev_length, ownl_len; reflexivity. }
      rewrite seq_length, Ln in Hlen.
      assert (Hint : u_cell_interior l (cell_at m k) = cnt (ECell k)).
      { unfold u_cell_interior, cnt, ent_type, cv_type, cell_type. destruct (_ =? 4); auto. }
      rewrite Hint.
      rewrite copy_vertices by (try apply (wc_nodes _ _ C); lia).
      rewrite copy_edges.
      2:{ intros j Hj. apply in_seq in Hj. apply cell_edges_valid; auto. lia. }
      2:{ rewrite seq_length, Ln. lia. }
      rewrite seq_length, Ln. rewrite times_new_W by lia.
      rewrite !map_app, concat_app. cbn [map concat]. rewrite !app_nil_r.
      rewrite (app_assoc (map EEdge _)), (app_assoc (map ENode _) (_ ++ _)), owners_one.
      rewrite sumto_S. unfold at_off, W. cbn [w_arr w_dof w_ents].
      replace (seq (totn m cnt + tote m cnt + sumto (cc cnt) k) (cnt (ECell k))) with (ownl m cnt (ECell k)) by reflexivity.
      f_equal; [|unfold cc; lia].
      fold pre. unfold slot. cbn [cov]. rewrite Ln, <- !app_assoc.
      do 4 f_equal. rewrite <- repeat_app. f_equal.
      rewrite !app_length, ownl_len.
      rewrite (concat_len_const _ _ _ np).
      2:{ intros; rewrite ownl_len; reflexivity. }
      rewrite (concat_len_const _ _ _ ns).
      2:{ intros x _. unfold epart. destruct (_ && _); rewrite ?rev_length, ownl_len; reflexivity. }
      rewrite seq_length. nia. }
  specialize (E nc (le_n _)). rewrite Nat.sub_diag in E.
  match goal with |- ?s = at_off _ ?t => set (S := s) in *; set (T := t) in * end.
  change (at_off 0 S = at_off 0 T) in E. clearbody S T. destruct S, T. unfold at_off in *. simpl in *. congruence.
Qed.

Theorem uniform_expected : as_expected m cnt check (u_handler (u_init m l check)).
Proof.
  unfold u_init. rewrite edges_loop.
  rewrite nodes_loop. cbn [w_arr W]. rewrite app_nil_r.
  rewrite cells_loop. set (o := w_off _). unfold at_off, W. cbn [w_arr w_dof w_ents]. rewrite !app_nil_r.
  constructor; cbn [u_handler NumDofs u_num NumLocalDofs NumInteriorDofs GlobalDofIndices
     InteriorGlobalDofIndices Entity u_ents u_mesh u_lay]; auto.
  - (* global *)
    intros [i|i|i] V; simpl in V; unfold u_global; cbn [u_mesh u_lay ent_type ent_index codim_of mv_count].
    + apply Nat.ltb_lt in V as Hb. rewrite Hb. simpl. f_equal. rewrite Nat.mul_comm.
      apply (blocks2_read i V).
    + apply Nat.ltb_lt in V as Hb. rewrite Hb. cbn [lf_assert bind]. f_equal. rewrite Nat.mul_comm.
      apply (blocks1_read i V).
    + assert (Hc : codim_of (cv_type (cell_at m i)) = 0) by (unfold cv_type, cell_type; destruct (_ =? 4); auto).
      rewrite Hc. cbn [mv_count u_array u_dofs0]. apply Nat.ltb_lt in V as Hb. rewrite Hb. cbn [lf_assert bind]. f_equal.
      rewrite <- (cov_cell_len i V). rewrite Nat.mul_comm.
      assert (Hn : nth_error blocks0 i = Some ([] ++ cov m cnt check (ECell i) ++ repeat 0 (num_dofs l 0 - length (cov m cnt check (ECell i))))).
      { unfold blocks0. rewrite nth_error_map, (nth_error_nth' _ 0), seq_nth by (rewrite ?seq_length; auto). auto. }
      pose proof (slice_block _ _ _ _ _ _ [] Hn) as S.
      rewrite app_nil_r, (concat_same _ (num_dofs l 0)), Nat.add_0_r in S. exact S.
      * intros x Hx. apply in_map_iff in Hx as (k & <- & Hk). apply in_seq in Hk. apply slot_len. lia.
      * unfold blocks0. rewrite map_length, seq_length. lia.
  - (* interior *)
    intros [i|i|i] V; simpl in V; unfold u_interior_global; cbn [u_mesh u_lay ent_type ent_index codim_of mv_count].
    + apply Nat.ltb_lt in V as Hb. rewrite Hb. cbn [lf_assert bind]. f_equal.
      cbn [u_covered u_interior u_array u_dofs2]. change (num_dofs l 2) with (ly_pt l). rewrite Nat.sub_diag, Nat.add_0_r, Nat.mul_comm.
      apply (blocks2_read i V).
    + apply Nat.ltb_lt in V as Hb. rewrite Hb. cbn [lf_assert bind]. f_equal. rewrite Nat.mul_comm.
      apply (blocks1_read i V).
    + assert (Hc : codim_of (cv_type (cell_at m i)) = 0) by (unfold cv_type, cell_type; destruct (_ =? 4); auto).
      rewrite Hc. cbn [mv_count u_array u_dofs0]. apply Nat.ltb_lt in V as Hb. rewrite Hb. cbn [lf_assert bind]. f_equal.
      pose proof (cov_cell_len i V) as Hl. rewrite Nat.mul_comm.
      assert (Hn : nth_error blocks0 i = Some (cov m cnt check (ECell i) ++ repeat 0 (num_dofs l 0 - length (cov m cnt check (ECell i))))).
      { unfold blocks0. rewrite nth_error_map, (nth_error_nth' _ 0), seq_nth by (rewrite ?seq_length; auto). auto. }
      remember (repeat 0 _) as z eqn:Hz in Hn. cbn [cov] in Hn, Hl. rewrite app_assoc in Hn, Hl.
      rewrite <- app_assoc in Hn.
      pose proof (slice_block _ _ _ _ _ _ [] Hn) as S.
      rewrite app_nil_r, (concat_same _ (num_dofs l 0)) in S.
      * rewrite ownl_len in S. rewrite app_length, ownl_len in Hl.
        change (u_interior l (cv_type (cell_at m i))) with (cnt (ECell i)).
        rewrite <- S. f_equal. lia.
      * intros x Hx. apply in_map_iff in Hx as (k & <- & Hk). apply in_seq in Hk. apply slot_len. lia.
      * unfold blocks0. rewrite map_length, seq_length. lia.
  - intros [i|i|i] V; simpl in V; f_equal.
    + simpl. rewrite ownl_len. auto.
    + rewrite cov_edge_len. auto.
    + rewrite cov_cell_len by auto. auto.
Qed.
End U.
