(** Hierarchic elements: counts, traces on edges, continuity of the space. *)
From Coq Require Import Reals List Arith Lia Lra Bool.
Import ListNotations.
From Verif Require Import Base MeshModel MeshView DofModel DofSpec DofProofs4 RefPatModel GeoModel GeoSpec
  FeModel LagrModel QuadModel HierModel FeSpec FeProofs LagrProofs3 LegendreProofs JacobiProofs.
Local Open Scope R_scope.

(** *** Counts *)
Lemma edge_rows_length : forall A o n (pos neg : nat -> A), length (edge_rows o n pos neg) = n.
Proof. intros A [|] n pos neg; unfold edge_rows; rewrite ?rev_length, map_length, seq_length; reflexivity. Qed.
Lemma list_sum_concat : forall A (l : list (list A)), length (concat l) = list_sum (map (@length A) l).
Proof. induction l; cbn; [reflexivity|]. rewrite app_length, IHl. reflexivity. Qed.
Lemma tria_sum : forall n k, (2 * list_sum (map (fun i => n + k - i) (seq k n)) = n * (n + 1))%nat.
Proof.
  induction n as [|n IH]; intros k; [reflexivity|]. cbn [seq map]. specialize (IH (S k)).
  replace (map (fun i => S n + k - i)%nat (seq (S k) n)) with (map (fun i => n + S k - i)%nat (seq (S k) n))
    by (apply map_ext; intros; lia).
  change (list_sum ((S n + k - k)%nat :: map (fun i => n + S k - i)%nat (seq (S k) n)))
    with ((S n + k - k) + list_sum (map (fun i => n + S k - i)%nat (seq (S k) n)))%nat. nia.
Qed.
Lemma tria_ij_length : forall p, length (tria_ij p) = tria_interior p.
Proof.
  intros p. unfold tria_ij, tria_interior. destruct (Nat.ltb_spec 2 p) as [H|H]; destruct (Nat.leb_spec p 2) as [H'|H']; try lia.
  2: reflexivity. rewrite list_sum_concat, map_map.
  rewrite (map_ext _ (fun i => (p - 2) + 0 - i)%nat) by (intros; rewrite map_length, seq_length; lia).
  pose proof (tria_sum (p - 2) 0) as T. replace (p - 2 + 1)%nat with (p - 1)%nat in T by lia.
  apply Nat.div_unique_exact; lia.
Qed.
Lemma quad_ij_length : forall p, length (quad_ij p) = ((p - 1) * (p - 1))%nat.
Proof.
  intros p. unfold quad_ij. rewrite list_sum_concat, map_map.
  rewrite (map_ext _ (fun _ => (p - 1)%nat)) by (intros; rewrite map_length, seq_length; reflexivity).
  generalize (p - 1)%nat at 1 3 as c. intros c. assert (G : forall k n, list_sum (map (fun _ => c) (seq k n)) = (n * c)%nat).
  { intros k n. revert k. induction n as [|n IH]; intros k; cbn; auto. }
  rewrite G. apply Nat.mul_comm.
Qed.
Lemma seg_rows_length : forall p x, length (seg_rows p x) = (2 + (p - 1))%nat.
Proof. intros. unfold seg_rows. rewrite app_length, map_length, seq_length. reflexivity. Qed.
Lemma tria_rows_length : forall p ed os x y, length (tria_rows p ed os x y) =
  (3 + (edge_deg ed 0 - 1) + (edge_deg ed 1 - 1) + (edge_deg ed 2 - 1) + tria_interior p)%nat.
Proof.
  intros. unfold tria_rows. cbv zeta. rewrite !app_length, !edge_rows_length, map_length, tria_ij_length. cbn [length]. lia.
Qed.
Lemma quad_rows_length : forall p ed os x y, length (quad_rows p ed os x y) =
  (4 + (edge_deg ed 0 - 1) + (edge_deg ed 1 - 1) + (edge_deg ed 2 - 1) + (edge_deg ed 3 - 1) + (p - 1) * (p - 1))%nat.
Proof.
  intros. unfold quad_rows. cbv zeta. rewrite !app_length, !edge_rows_length, map_length, quad_ij_length. cbn [length]. lia.
Qed.

Lemma segment_eval_count : forall p q, (1 <= p)%nat -> forall x, length x = 1%nat ->
  exists v, fe_eval (hier_segment p q) x = Ok v /\ length v = fe_total (hier_segment p q).
Proof.
  intros p q Hp x L. destruct x as [|s [|]]; try discriminate L. eexists. split; [reflexivity|].
  rewrite seg_rows_length. cbn [hier_segment fe_total]. lia.
Qed.
Lemma tria_counts : forall p ed os qe qt, counts (hier_tria p ed os qe qt).
Proof.
  intros. split.
  - intros x L. destruct x as [|s [|t [|]]]; try discriminate L. eexists. split; [reflexivity|].
    rewrite tria_rows_length. cbn [hier_tria fe_total]. lia.
  - exists (fun c i => match c with 0 => tria_interior p | 1 => edge_deg ed i - 1 | _ => 1 end%nat). split.
    + intros c i Hc Hi. cbn [hier_tria fe_el dimension] in Hc, Hi. cbn [hier_tria fe_num2].
      destruct c as [|[|[|c]]]; try lia; cbn [num_sub_entities] in Hi; destruct i as [|[|[|i]]]; try lia; reflexivity.
    + cbn [hier_tria fe_total fe_el dimension Nat.add seq map num_sub_entities list_sum fold_right]. lia.
Qed.
Lemma quad_counts : forall p ed os qe q1, counts (hier_quad p ed os qe q1).
Proof.
  intros. split.
  - intros x L. destruct x as [|s [|t [|]]]; try discriminate L. eexists. split; [reflexivity|].
    rewrite quad_rows_length. cbn [hier_quad fe_total]. lia.
  - exists (fun c i => match c with 0 => (p - 1) * (p - 1) | 1 => edge_deg ed i - 1 | _ => 1 end%nat). split.
    + intros c i Hc Hi. cbn [hier_quad fe_el dimension] in Hc, Hi. cbn [hier_quad fe_num2].
      destruct c as [|[|[|c]]]; try lia; cbn [num_sub_entities] in Hi; destruct i as [|[|[|[|i]]]]; try lia; reflexivity.
    + cbn [hier_quad fe_total fe_el dimension Nat.add seq map num_sub_entities list_sum fold_right]. lia.
Qed.

(** *** Traces *)
Lemma rev_repeat : forall A (a : A) n, rev (repeat a n) = repeat a n.
Proof.
  induction n as [|n IH]; [reflexivity|]. cbn [repeat rev]. rewrite IH. symmetry. apply repeat_cons.
Qed.
Lemma map_zero : forall A (f : A -> R) l, (forall i, In i l -> f i = 0) -> map f l = repeat 0 (length l).
Proof.
  induction l as [|a l IH]; intros H; [reflexivity|]. cbn. rewrite H by (left; reflexivity). f_equal. apply IH.
  intros; apply H; right; auto.
Qed.
Lemma edge_rows_zero : forall (o : bool) n (pos neg : nat -> R), (forall i, (i < n)%nat -> (if o then pos i else neg i) = 0) ->
  edge_rows o n pos neg = repeat 0 n.
Proof.
  intros o n pos neg H. unfold edge_rows. destruct o; rewrite map_zero; rewrite ?seq_length, ?rev_repeat; auto;
    intros i Hi; apply H; apply in_seq in Hi; lia.
Qed.
Lemma edge_rows_seg : forall (o : bool) n t (pos neg : nat -> R),
  (forall i, (i < n)%nat -> (if o then pos i else neg i) = ilegendre (i + 2) t 1) ->
  edge_rows o n pos neg = let l := map (fun i => ilegendre (i + 2) t 1) (seq 0 n) in if o then l else rev l.
Proof.
  intros o n t pos neg H. unfold edge_rows. cbv zeta. destruct o; [|f_equal]; apply map_ext_in; intros i Hi;
    apply (H i); apply in_seq in Hi; lia.
Qed.
Lemma tria_inner_zero : forall p (f : nat * nat -> R), (forall ij, f ij = 0) -> map f (tria_ij p) = repeat 0 (tria_interior p).
Proof. intros p f H. rewrite map_zero, tria_ij_length; auto. Qed.

Definition trace_of (ed : list nat) : list nat := map (fun d => d - 1)%nat ed.

Lemma tria_trace : forall p a b c os qe qt q j o d, nth_error [a; b; c] j = Some d -> nth_error os j = Some o ->
  trace_ok (hier_tria p [a; b; c] os qe qt) (hier_segment d q) (trace_of [a; b; c]) (tria_interior p) j o.
Proof.
  intros p a b c os qe qt q j o d Hd Ho t.
  set (l := map (fun i => ilegendre (i + 2) t 1) (seq 0 (d - 1))).
  exists (1 - t), t, l.
  split; [reflexivity|].
  assert (Ll : length l = (d - 1)%nat) by (unfold l; rewrite map_length, seq_length; reflexivity).
  assert (Eo : ori_at os j = o) by (apply nth_error_nth, Ho).
  assert (Seg : forall pos neg : nat -> R, (forall i, (if o then pos i else neg i) = ilegendre (i + 2) t 1) ->
            edge_rows o (d - 1) pos neg = if o then l else rev l).
  { intros pos neg H. apply (edge_rows_seg o (d - 1) t). auto. }
  clearbody l.
  change (trace_of [a; b; c]) with [(a - 1)%nat; (b - 1)%nat; (c - 1)%nat].
  cbn [hier_tria fe_el fe_eval num_nodes].
  remember (a - 1)%nat as na eqn:Ena. remember (b - 1)%nat as nb eqn:Enb. remember (c - 1)%nat as nc eqn:Enc.
  remember (tria_rows p [a; b; c] os) as rows eqn:Er.
  remember (tria_interior p) as ni eqn:Eni.
  destruct j as [|[|[|j]]]; cbn in Hd; [injection Hd as <-|injection Hd as <-|injection Hd as <-|destruct j; discriminate];
    (split; [cbn [nth]; congruence|]); rewrite <- ?Ena, <- ?Enb, <- ?Enc in Seg;
    cbv [edge_point on_edge between ref_node ref_nodes num_nodes nth combine map fst snd Nat.add
      Nat.modulo Nat.divmod Nat.sub point2 node_block edge_blocks seq length Nat.eqb concat]; apply f_equal;
    subst rows; unfold tria_rows; cbv zeta; rewrite ?Eo, <- ?app_assoc; cbn [edge_deg nth app]; rewrite <- ?Ena, <- ?Enb, <- ?Enc, ?app_nil_r.
  - set (x := (1 - (if o then t else 1 - t)) * 0 + (if o then t else 1 - t) * 1).
    set (y := (1 - (if o then t else 1 - t)) * 0 + (if o then t else 1 - t) * 0).
    assert (Ey : y = 0) by (unfold y; ring).
    assert (Ex : x = if o then t else 1 - t) by (unfold x; ring). clearbody x y. subst y.
    apply f_equal2; [subst x; destruct o; ring|]. apply f_equal2; [subst x; destruct o; ring|].
    apply f_equal2; [reflexivity|]. rewrite Seg by (intros i; subst x; destruct o; f_equal; ring).
    rewrite !edge_rows_zero.
    + f_equal. f_equal. f_equal. subst ni. apply tria_inner_zero. intros ij. rewrite ijacobi_at_0; [ring| |lia].
      pose proof (INR_pos (fst ij)). lra.
    + intros i _. replace (0 + (1 - x - 0)) with (1 - x - 0) by ring.
      destruct (ori_at os 2); [apply ilegendre_right|apply ilegendre_left]; lia.
    + intros i _. replace (x + 0) with x by ring. destruct (ori_at os 1); [apply ilegendre_left|apply ilegendre_right]; lia.
  - set (x := (1 - (if o then t else 1 - t)) * 1 + (if o then t else 1 - t) * 0).
    set (y := (1 - (if o then t else 1 - t)) * 0 + (if o then t else 1 - t) * 1).
    assert (Ey : y = if o then t else 1 - t) by (unfold y; ring).
    assert (Ex : x = 1 - y) by (unfold x, y; ring). clearbody x y.
    assert (E1 : 1 - x - y = 0) by lra. rewrite E1.
    apply f_equal2; [reflexivity|]. apply f_equal2; [subst x y; destruct o; ring|]. apply f_equal2; [subst x y; destruct o; ring|].
    rewrite Seg by (intros i; subst x y; destruct o; f_equal; ring).
    rewrite !edge_rows_zero.
    + f_equal. f_equal. f_equal. subst ni. apply tria_inner_zero. intros ij. unfold tria_edge0. rewrite Rplus_0_l.
      destruct (ori_at os 0); [rewrite ilegendre_right by lia|rewrite ilegendre_left by lia]; ring.
    + intros i _. rewrite Rplus_0_r. destruct (ori_at os 2); [apply ilegendre_left|apply ilegendre_right]; lia.
    + intros i _. rewrite Rplus_0_l. destruct (ori_at os 0); [apply ilegendre_right|apply ilegendre_left]; lia.
  - set (x := (1 - (if o then t else 1 - t)) * 0 + (if o then t else 1 - t) * 0).
    set (y := (1 - (if o then t else 1 - t)) * 1 + (if o then t else 1 - t) * 0).
    assert (Ex : x = 0) by (unfold x; ring).
    assert (Ey : y = 1 - if o then t else 1 - t) by (unfold y; ring). clearbody x y. subst x.
    apply f_equal2; [subst y; destruct o; ring|]. apply f_equal2; [reflexivity|]. apply f_equal2; [subst y; destruct o; ring|].
    rewrite Seg by (intros i; subst y; destruct o; f_equal; ring).
    rewrite !edge_rows_zero.
    + f_equal. f_equal. f_equal. subst ni. apply tria_inner_zero. intros ij. unfold tria_edge0. rewrite Rplus_0_r.
      destruct (ori_at os 0); [rewrite ilegendre_left by lia|rewrite ilegendre_right by lia]; ring.
    + intros i _. rewrite Rplus_0_l. destruct (ori_at os 1); [apply ilegendre_right|apply ilegendre_left]; lia.
    + intros i _. rewrite Rplus_0_r. destruct (ori_at os 0); [apply ilegendre_left|apply ilegendre_right]; lia.
Qed.

Lemma seg_row_0 : forall m x, nth 0 (seg_rows m x) 0 = 1 - x. Proof. reflexivity. Qed.
Lemma seg_row_1 : forall m x, nth 1 (seg_rows m x) 0 = x. Proof. reflexivity. Qed.
Lemma nth_map_seq : forall A (f : nat -> A) n i d, (i < n)%nat -> nth i (map f (seq 0 n)) d = f i.
Proof.
  intros A f n i d H. rewrite (nth_indep _ d (f 0%nat)) by (rewrite map_length, seq_length; exact H).
  rewrite map_nth, seq_nth by exact H. reflexivity.
Qed.
Lemma seg_row_S : forall m x i, (i < m - 1)%nat -> nth (2 + i) (seg_rows m x) 0 = ilegendre (i + 2) x 1.
Proof. intros m x i H. unfold seg_rows. cbn [app nth Nat.add]. rewrite nth_map_seq by exact H. reflexivity. Qed.
Lemma seg_row_end : forall m i, nth (2 + i) (seg_rows m 0) 0 = 0 /\ nth (2 + i) (seg_rows m 1) 0 = 0.
Proof.
  intros m i. destruct (Nat.lt_ge_cases i (m - 1)) as [H|H].
  - rewrite !seg_row_S by exact H. split; [apply ilegendre_left|apply ilegendre_right]; lia.
  - split; apply nth_overflow; rewrite seg_rows_length; lia.
Qed.
Lemma quad_trace : forall p a b c e os qe q1 q j o d, nth_error [a; b; c; e] j = Some d -> nth_error os j = Some o ->
  trace_ok (hier_quad p [a; b; c; e] os qe q1) (hier_segment d q) (trace_of [a; b; c; e]) ((p - 1) * (p - 1)) j o.
Proof.
  intros p a b c e os qe q1 q j o d Hd Ho t.
  set (l := map (fun i => ilegendre (i + 2) t 1) (seq 0 (d - 1))).
  exists (1 - t), t, l.
  split; [reflexivity|].
  assert (Ll : length l = (d - 1)%nat) by (unfold l; rewrite map_length, seq_length; reflexivity).
  assert (Eo : ori_at os j = o) by (apply nth_error_nth, Ho).
  remember (quad_deg p [a; b; c; e]) as m eqn:Em.
  assert (Dm : (d <= m)%nat).
  { subst m. unfold quad_deg, edge_deg. cbn [nth].
    destruct j as [|[|[|[|j]]]]; cbn in Hd; [injection Hd as <-|injection Hd as <-|injection Hd as <-|injection Hd as <-|destruct j; discriminate]; lia. }
  assert (Seg : forall pos neg : nat -> R, (forall i, (if o then pos i else neg i) = nth (2 + i) (seg_rows m t) 0) ->
            edge_rows o (d - 1) pos neg = if o then l else rev l).
  { intros pos neg H. apply (edge_rows_seg o (d - 1) t). intros i Hi. rewrite H. apply seg_row_S. lia. }
  clearbody l.
  change (trace_of [a; b; c; e]) with [(a - 1)%nat; (b - 1)%nat; (c - 1)%nat; (e - 1)%nat].
  cbn [hier_quad fe_el fe_eval num_nodes].
  remember (a - 1)%nat as na eqn:Ena. remember (b - 1)%nat as nb eqn:Enb. remember (c - 1)%nat as nc eqn:Enc.
  remember (e - 1)%nat as ne eqn:Ene.
  remember (quad_rows p [a; b; c; e] os) as rows eqn:Er.
  remember ((p - 1) * (p - 1))%nat as ni eqn:Eni.
  assert (Inner : forall f, (forall ji, f ji = 0) -> map f (quad_ij p) = repeat 0 ni).
  { intros f H. rewrite map_zero, quad_ij_length; auto. }
  assert (Z : forall i, nth (2 + i) (seg_rows m 0) 0 = 0 /\ nth (2 + i) (seg_rows m 1) 0 = 0) by (apply seg_row_end).
  assert (Z' : forall i, nth (i + 2) (seg_rows m 0) 0 = 0 /\ nth (i + 2) (seg_rows m 1) 0 = 0).
  { intros i. rewrite Nat.add_comm. apply Z. }
  destruct j as [|[|[|[|j]]]]; cbn in Hd; [injection Hd as <-|injection Hd as <-|injection Hd as <-|injection Hd as <-|destruct j; discriminate];
    (split; [cbn [nth]; congruence|]); rewrite <- ?Ena, <- ?Enb, <- ?Enc, <- ?Ene in Seg;
    cbv [edge_point on_edge between ref_node ref_nodes num_nodes nth combine map fst snd Nat.add
      Nat.modulo Nat.divmod Nat.sub point2 node_block edge_blocks seq length Nat.eqb concat]; apply f_equal;
    subst rows; unfold quad_rows; cbv zeta; rewrite <- Em, ?Eo, <- ?app_assoc; cbn [edge_deg nth app];
    rewrite <- ?Ena, <- ?Enb, <- ?Enc, <- ?Ene, ?app_nil_r, ?seg_row_0, ?seg_row_1.
  - set (x := (1 - (if o then t else 1 - t)) * 0 + (if o then t else 1 - t) * 1).
    set (y := (1 - (if o then t else 1 - t)) * 0 + (if o then t else 1 - t) * 0).
    assert (Ey : y = 0) by (unfold y; ring).
    assert (Ex : x = if o then t else 1 - t) by (unfold x; ring). clearbody x y. subst y.
    apply f_equal2; [subst x; destruct o; cbn; ring|]. apply f_equal2; [subst x; destruct o; cbn; ring|].
    apply f_equal2; [cbn; ring|]. apply f_equal2; [cbn; ring|].
    rewrite Seg.
    2: { intros i. subst x. destruct o; cbn [nth]; replace (1 - 0) with 1 by ring; rewrite Rmult_1_r; try reflexivity; f_equal; f_equal; ring. }
    rewrite !edge_rows_zero.
    + f_equal. f_equal. f_equal. f_equal. apply Inner. intros ji. rewrite (proj1 (Z' _)). ring.
    + intros i _. replace (1 - 0) with 1 by ring. rewrite (proj1 (Z _)), (proj2 (Z _)). destruct (ori_at os 3); ring.
    + intros i _. cbn [nth]. destruct (ori_at os 2); ring.
    + intros i _. replace (1 - 0) with 1 by ring. rewrite (proj1 (Z _)), (proj2 (Z _)). destruct (ori_at os 1); ring.
  - set (x := (1 - (if o then t else 1 - t)) * 1 + (if o then t else 1 - t) * 1).
    set (y := (1 - (if o then t else 1 - t)) * 0 + (if o then t else 1 - t) * 1).
    assert (Ey : y = if o then t else 1 - t) by (unfold y; ring).
    assert (Ex : x = 1) by (unfold x; ring). clearbody x y. subst x.
    apply f_equal2; [cbn; ring|]. apply f_equal2; [subst y; destruct o; cbn; ring|].
    apply f_equal2; [subst y; destruct o; cbn; ring|]. apply f_equal2; [cbn; ring|].
    rewrite Seg.
    2: { intros i. subst y. destruct o; cbn [nth]; rewrite Rmult_1_l; try reflexivity; f_equal; f_equal; ring. }
    rewrite !edge_rows_zero.
    + f_equal. f_equal. f_equal. f_equal. apply Inner. intros ji. rewrite (proj2 (Z' _)). ring.
    + intros i _. cbn [nth]. destruct (ori_at os 3); ring.
    + intros i _. replace (1 - 1) with 0 by ring. rewrite (proj1 (Z _)), (proj2 (Z _)). destruct (ori_at os 2); ring.
    + intros i _. replace (1 - 1) with 0 by ring. rewrite (proj1 (Z _)), (proj2 (Z _)). destruct (ori_at os 0); ring.
  - set (x := (1 - (if o then t else 1 - t)) * 1 + (if o then t else 1 - t) * 0).
    set (y := (1 - (if o then t else 1 - t)) * 1 + (if o then t else 1 - t) * 1).
    assert (Ey : y = 1) by (unfold y; ring).
    assert (Ex : x = 1 - if o then t else 1 - t) by (unfold x; ring). clearbody x y. subst y.
    apply f_equal2; [cbn; ring|]. apply f_equal2; [cbn; ring|].
    apply f_equal2; [subst x; destruct o; cbn; ring|]. apply f_equal2; [subst x; destruct o; cbn; ring|].
    rewrite Seg.
    2: { intros i. subst x. destruct o; cbn [nth]; rewrite Rmult_1_r; try reflexivity; f_equal; f_equal; ring. }
    rewrite !edge_rows_zero.
    + f_equal. f_equal. f_equal. f_equal. apply Inner. intros ji. rewrite (proj2 (Z' _)). ring.
    + intros i _. replace (1 - 1) with 0 by ring. rewrite (proj1 (Z _)), (proj2 (Z _)). destruct (ori_at os 3); ring.
    + intros i _. replace (1 - 1) with 0 by ring. rewrite (proj1 (Z _)), (proj2 (Z _)). destruct (ori_at os 1); ring.
    + intros i _. cbn [nth]. destruct (ori_at os 0); ring.
  - set (x := (1 - (if o then t else 1 - t)) * 0 + (if o then t else 1 - t) * 0).
    set (y := (1 - (if o then t else 1 - t)) * 1 + (if o then t else 1 - t) * 0).
    assert (Ey : y = 1 - if o then t else 1 - t) by (unfold y; ring).
    assert (Ex : x = 0) by (unfold x; ring). clearbody x y. subst x.
    apply f_equal2; [subst y; destruct o; cbn; ring|]. apply f_equal2; [cbn; ring|].
    apply f_equal2; [cbn; ring|]. apply f_equal2; [subst y; destruct o; cbn; ring|].
    rewrite Seg.
    2: { intros i. subst y. destruct o; cbn [nth]; replace (1 - 0) with 1 by ring; rewrite Rmult_1_l; try reflexivity; f_equal; f_equal; ring. }
    rewrite !edge_rows_zero.
    + f_equal. f_equal. f_equal. f_equal. apply Inner. intros ji. rewrite (proj1 (Z' _)). ring.
    + intros i _. replace (1 - 0) with 1 by ring. rewrite (proj1 (Z _)), (proj2 (Z _)). destruct (ori_at os 2); ring.
    + intros i _. cbn [nth]. destruct (ori_at os 1); ring.
    + intros i _. replace (1 - 0) with 1 by ring. rewrite (proj1 (Z _)), (proj2 (Z _)). destruct (ori_at os 0); ring.
Qed.

(** *** The space *)
Lemma traverse_all : forall A B (f : A -> res B) l, (forall a, In a l -> exists b, f a = Ok b) -> exists bs, traverse f l = Ok bs.
Proof.
  induction l as [|a l IH]; intros H; [eexists; reflexivity|]. cbn [traverse].
  destruct (H a (or_introl eq_refl)) as (b & ->). destruct IH as (bs & ->); [intros; apply H; right; auto|].
  eexists. reflexivity.
Qed.
Section Space.
Variable get : rules.
Variable m : mesh.
Variable deg : ent -> nat.
Hypothesis W : wf_mesh m.
Hypothesis D : forall e, valid m e -> (1 <= deg e)%nat.

Lemma cell_edges_valid : forall i c, nth_error (mv_cells m) i = Some c ->
  wf_cell m c /\ forall e, In e (cv_edges c) -> valid m (EEdge e).
Proof.
  intros i c Hc.
  assert (Wc : wf_cell m c).
  { pose proof (wm_cells _ W) as H. rewrite Forall_forall in H. apply H. eapply nth_error_In; eauto. }
  split; [exact Wc|]. intros e He. apply In_nth_error in He. destruct He as (j & Hj).
  destruct (wc_local _ _ Wc j) as (e' & _ & p0 & p1 & A & _ & B & _).
  { rewrite <- (wc_edges _ _ Wc). apply nth_error_Some. congruence. }
  assert (e' = e) as -> by congruence. cbn. apply nth_error_Some. congruence.
Qed.
Lemma degrees_pos : forall i c, nth_error (mv_cells m) i = Some c ->
  forallb (fun d => 1 <=? d)%nat (deg (ECell i) :: map (fun k => deg (EEdge k)) (cv_edges c)) = true.
Proof.
  intros i c Hc. destruct (cell_edges_valid i c Hc) as (_ & V). apply forallb_forall. intros d Hd. apply Nat.leb_le.
  destruct Hd as [<-|Hd].
  - apply D. cbn. apply nth_error_Some. congruence.
  - apply in_map_iff in Hd. destruct Hd as (e & <- & He). apply D, V, He.
Qed.
Lemma element_cell : forall i c, nth_error (mv_cells m) i = Some c ->
  let ed := map (fun k => deg (EEdge k)) (cv_edges c) in
  hier_element get m deg (ECell i) =
    Ok (match cv_type c with
        | kTria => hier_tria (deg (ECell i)) ed (cv_ori c) (edge_rules get ed) (get kTria (2 * (deg (ECell i) - 1))%nat)
        | _ => hier_quad (deg (ECell i)) ed (cv_ori c) (edge_rules get ed)
                 (get kSegment (2 * (quad_deg (deg (ECell i)) ed - 1))%nat)
        end) /\ (cv_type c = kTria \/ cv_type c = kQuad).
Proof.
  intros i c Hc ed. destruct (cell_edges_valid i c Hc) as (Wc & _). cbn [hier_element]. rewrite Hc.
  unfold new_tria, new_quad. cbv zeta. fold ed. pose proof (degrees_pos i c Hc) as G. fold ed in G. rewrite G. cbn [lf_assert bind].
  unfold cv_type, cell_type. destruct (wc_shape _ _ Wc) as [-> | ->]; cbn; auto.
Qed.
Lemma element_edge : forall e, valid m (EEdge e) ->
  hier_element get m deg (EEdge e) = Ok (hier_segment (deg (EEdge e)) (get kSegment (2 * (deg (EEdge e) - 1))%nat)).
Proof.
  intros e V. cbn [hier_element]. unfold new_segment. specialize (D _ V). apply Nat.leb_le in D. rewrite D. reflexivity.
Qed.
Lemma hier_space_ok : hier_space get m deg =
  Ok (mkSpace m (fun e => to_option (hier_element get m deg e)) (dy_handler (dynamic m (hier_count m deg)))).
Proof.
  unfold hier_space.
  destruct (traverse_all _ _ (fun i => hier_element get m deg (ENode i)) (seq 0 (mv_count m 2))) as (b2 & ->).
  { intros i _. eexists. reflexivity. }
  destruct (traverse_all _ _ (fun i => hier_element get m deg (EEdge i)) (seq 0 (mv_count m 1))) as (b1 & ->).
  { intros i Hi. apply in_seq in Hi. eexists. apply element_edge. cbn in *. lia. }
  destruct (traverse_all _ _ (fun i => hier_element get m deg (ECell i)) (seq 0 (mv_count m 0))) as (b0 & ->).
  { intros i Hi. apply in_seq in Hi. cbn in Hi.
    destruct (nth_error (mv_cells m) i) as [c|] eqn:E; [|apply nth_error_None in E; lia].
    eexists. apply (element_cell i c E). }
  reflexivity.
Qed.
Lemma nth_trace_of : forall l k j e, nth_error l j = Some e -> k = (deg (EEdge e) - 1)%nat ->
  k = nth j (trace_of (map (fun k => deg (EEdge k)) l)) 0%nat.
Proof.
  intros l k j e H ->. unfold trace_of. rewrite map_map. symmetry. apply nth_error_nth.
  apply (map_nth_error (fun k => deg (EEdge k) - 1)%nat j l H).
Qed.
Lemma hier_conforming : forall V, hier_space get m deg = Ok V -> sp_mesh V = m /\ conforming V.
Proof.
  intros V E. rewrite hier_space_ok in E. injection E as <-. split; [reflexivity|].
  destruct (dynamic_contract m (hier_count m deg) W) as (P & C & _).
  assert (Own : forall e, valid m e ->
    exists l, own (dy_handler (dynamic m (hier_count m deg))) e l /\ length l = hier_count m deg e).
  { intros e He. destruct (pa_own _ _ _ P e He) as (l & O & L & _). exists l. auto. }
  split; cbn [sp_mesh sp_layout sp_dofs].
  - exact W.
  - exact C.
  - exact (canonical_range m _ true _ W P C).
  - intros n Hn. split.
    + destruct (Own (ENode n) Hn) as (l & O & L). destruct l as [|x [|]]; try discriminate L. exists x. exact O.
    + eexists. split; reflexivity.
  - intros e He. destruct (Own (EEdge e) He) as (l & O & L). rewrite (element_edge e He). cbn [to_option].
    exists (hier_segment (deg (EEdge e)) (get kSegment (2 * (deg (EEdge e) - 1))%nat)), l.
    split; [reflexivity|]. split; [exact O|]. rewrite L.
    change (hier_count m deg (EEdge e)) with (deg (EEdge e) - 1)%nat.
    split; [|split]; cbn [hier_segment fe_eval point1].
    + intros t. eexists. split; [reflexivity|]. apply seg_rows_length.
    + unfold seg_rows. rewrite map_zero by (intros; apply ilegendre_left; lia). rewrite seq_length. cbn [app].
      replace (1 - 0) with 1 by ring. reflexivity.
    + unfold seg_rows. rewrite map_zero by (intros; apply ilegendre_right; lia). rewrite seq_length. cbn [app].
      replace (1 - 1) with 0 by ring. reflexivity.
  - intros i c Hc. destruct (cell_edges_valid i c Hc) as (Wc & Vc).
    destruct (element_cell i c Hc) as (Ee & Tc). cbv zeta in Ee. rewrite Ee. cbn [to_option].
    assert (Vi : valid m (ECell i)) by (cbn; apply nth_error_Some; congruence).
    destruct (Own (ECell i) Vi) as (l & O & L).
    assert (Ti : ent_type m (ECell i) = cv_type c).
    { cbn. unfold cell_at. rewrite (nth_error_nth _ _ _ Hc). reflexivity. }
    unfold hier_count in L. rewrite Ti in L.
    set (ed := map (fun k => deg (EEdge k)) (cv_edges c)) in *.
    assert (Le : length ed = length (cv_nodes c)).
    { unfold ed. rewrite map_length. apply (wc_edges _ _ Wc). }
    destruct Tc as [Tc|Tc]; rewrite Tc in L |- *; (eexists; exists l, (trace_of ed)); (split; [reflexivity|]);
      (split; [reflexivity|]); (split; [exact O|]);
      (split; [unfold trace_of, ed; rewrite !map_length; reflexivity|]);
      intros j e o He Ho; assert (Ve : valid m (EEdge e)) by (apply Vc; eapply nth_error_In; eauto);
      destruct (Own (EEdge e) Ve) as (y & Oy & Ly); rewrite (element_edge e Ve); cbn [to_option];
      exists (hier_segment (deg (EEdge e)) (get kSegment (2 * (deg (EEdge e) - 1))%nat)), y;
      (split; [reflexivity|]); (split; [exact Oy|]);
      (split; [apply (nth_trace_of _ _ j e He); exact Ly|]).
    + assert (Hd : nth_error ed j = Some (deg (EEdge e))) by (apply (map_nth_error (fun k => deg (EEdge k))), He).
      unfold cv_type, cell_type in Tc. destruct (wc_shape _ _ Wc) as [S3|S4]; [|rewrite S4 in Tc; discriminate Tc].
      rewrite S3 in Le. clearbody ed. destruct ed as [|a [|b [|d [|]]]]; try discriminate Le.
      replace (length l) with (tria_interior (deg (ECell i))) by (symmetry; exact L).
      apply tria_trace; auto.
    + assert (Hd : nth_error ed j = Some (deg (EEdge e))) by (apply (map_nth_error (fun k => deg (EEdge k))), He).
      unfold cv_type, cell_type in Tc. destruct (wc_shape _ _ Wc) as [S3|S4]; [rewrite S3 in Tc; discriminate Tc|].
      rewrite S4 in Le. clearbody ed. destruct ed as [|a [|b [|d [|f [|]]]]]; try discriminate Le.
      rewrite L. apply quad_trace; auto.
Qed.
Lemma hier_continuous : exists V, hier_space get m deg = Ok V /\ sp_mesh V = m /\
  forall u, length u = NumDofs (sp_dofs V) -> continuous V u.
Proof.
  eexists. split; [exact hier_space_ok|]. destruct (hier_conforming _ hier_space_ok) as (Em & C).
  split; [exact Em|]. intros u Hu. apply conforming_continuous; auto.
Qed.
End Space.
