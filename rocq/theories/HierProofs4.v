(** Duality of the functionals on triangles. *)
From Coq Require Import Reals List Arith Lia Lra Bool.
From Coquelicot Require Import Coquelicot.
Import ListNotations.
From Verif Require Import Base MeshModel MeshView DofModel RefPatModel GeoModel GeoSpec
  FeModel LagrModel QuadModel HierModel FeSpec QuadSpec Calc LagrProofs2 FeProofs LegendreProofs JacobiProofs OrthoProofs
  HierProofs HierProofs2 PolyProofs HierProofs3.
Local Open Scope R_scope.

(** *** Edges *)
Lemma edge_dofs_ok : forall d q (o : bool) va vb y, (1 <= d)%nat -> rule_for kSegment (2 * (d - 1)) q -> length y = (d - 1)%nat ->
  edge_dofs d q o va vb
    (if (1 <? d)%nat
     then map (at1 (seg_fun d (if o then va else vb) (if o then vb else va) (if o then y else rev y))) (qr_points q)
     else []) = y.
Proof.
  intros d q o va vb y Hd Rq Ly. unfold edge_dofs, edge_rows. destruct (Nat.ltb_spec 1 d) as [H|H].
  - destruct o.
    + transitivity (map (fun i => lam q (i + 2) (seg_fun d va vb y)) (seq 0 (d - 1))); [|apply seg_fun_dual; auto].
      apply map_ext. intros i. unfold lam. destruct (seg_fun_ends d va vb y) as (-> & ->). reflexivity.
    + transitivity (rev (rev y)); [f_equal|apply rev_involutive].
      transitivity (map (fun i => lam q (i + 2) (seg_fun d vb va (rev y))) (seq 0 (d - 1)));
        [|apply seg_fun_dual; auto; rewrite rev_length; exact Ly].
      apply map_ext. intros i. unfold lam. destruct (seg_fun_ends d vb va (rev y)) as (-> & ->). reflexivity.
  - assert (d = 1%nat) as -> by lia. cbn in Ly. destruct y; [|discriminate Ly]. destruct o; reflexivity.
Qed.
(** Values on an edge of a function with coefficients [xs] for the vertices, [ys] for
    the edges and [w] for the interior. *)
Lemma trace_value : forall f fs ms r j o t d xs ys w b, trace_ok f fs ms r j o -> (3 <= num_nodes (fe_el f) <= 4)%nat ->
  (j < num_nodes (fe_el f))%nat -> length ms = num_nodes (fe_el f) ->
  (forall t, fe_eval fs [t] = Ok (seg_rows d t)) ->
  length xs = num_nodes (fe_el f) -> map (@length R) ys = ms ->
  fe_eval f (edge_point (fe_el f) j o t) = Ok b ->
  dot (xs ++ concat ys ++ w) b =
    let va := nth j xs 0 in let vb := nth ((j + 1) mod num_nodes (fe_el f)) xs 0 in let y := nth j ys [] in
    seg_fun d (if o then va else vb) (if o then vb else va) (if o then y else rev y) t.
Proof.
  intros f fs ms r j o t d xs ys w b T Hn Hj Lm Es Lx Ly Eb.
  destruct (T t) as (a' & b' & l & E & Ll & Ev). rewrite Eb in Ev. injection Ev as ->. rewrite Es in E. assert (E' : seg_rows d t = a' :: b' :: l) by congruence. clear E. rename E' into E.
  assert (L1 : length (node_block (num_nodes (fe_el f)) j o a' b') = length xs).
  { unfold node_block. rewrite map_length, seq_length. auto. }
  rewrite dot_app by auto. rewrite (dot_node_block xs (num_nodes (fe_el f)) j o a' b' Lx Hn Hj).
  set (n := num_nodes (fe_el f)) in *.
  assert (L2 : length (concat ys) = length (edge_blocks ms j (if o then l else rev l))).
  { unfold edge_blocks. rewrite !list_sum_concat, map_map, Ly. f_equal.
    apply (nth_ext _ _ 0%nat 0%nat); [rewrite map_length, seq_length; reflexivity|].
    intros k Hk. symmetry. rewrite (nth_indep _ 0%nat (length (if Nat.eqb 0 j then if o then l else rev l else repeat 0 (nth 0 ms 0%nat))))
      by (rewrite map_length, seq_length; exact Hk).
    rewrite (map_nth (fun x => length (if (x =? j)%nat then if o then l else rev l else repeat 0 (nth x ms 0%nat)))).
    rewrite seq_nth by exact Hk. cbn [Nat.add]. destruct (Nat.eqb_spec k j) as [->|_].
    - destruct o; rewrite ?rev_length; auto.
    - rewrite repeat_length. reflexivity. }
  rewrite dot_app by exact L2. rewrite dot_zeros.
  assert (Hj' : nth_error ys j = Some (nth j ys [])).
  { apply nth_error_nth'. rewrite <- (map_length (@length R)), Ly, Lm. exact Hj. }
  set (y := nth j ys []) in *.
  assert (Lyj : length y = length l).
  { rewrite Ll, <- Ly. unfold y. rewrite (nth_indep _ 0%nat (length (@nil R))) by (rewrite map_length; apply nth_error_Some; congruence).
    symmetry. apply map_nth. }
  assert (B : dot (concat ys) (edge_blocks ms j (if o then l else rev l)) = dot y (if o then l else rev l)).
  { unfold edge_blocks. pose proof (dot_block ys ms j 0 (if o then l else rev l)) as DB. rewrite Nat.sub_0_r in DB.
    unfold y. rewrite <- DB; try lia.
    - f_equal. f_equal. apply map_ext. intros i. rewrite Nat.sub_0_r. reflexivity.
    - rewrite <- Ly. symmetry. apply map_length.
    - intros i Hi. rewrite <- Ly in Hi |- *. rewrite map_length in Hi.
      rewrite (nth_indep _ 0%nat (length (@nil R))) by (rewrite map_length; exact Hi). symmetry. apply map_nth.
    - destruct o; rewrite ?rev_length; exact Ll. }
  rewrite B. cbv zeta. unfold seg_fun. rewrite E, !dot_cons. destruct o.
  - ring.
  - rewrite <- (dot_rev y (rev l)), rev_involutive by (rewrite rev_length; exact Lyj). ring.
Qed.
