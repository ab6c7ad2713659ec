(** The dynamic dof handler behaves as expected. *)
From Coq Require Import List Arith Lia Bool.
Import ListNotations.
From Verif Require Import Base MeshModel MeshView DofModel DofSpec DofProofs DofProofs2.

Definition P (dofs : list nat) (d : nat) (es : list ent) (offs nint : list nat) : pst :=
  mkPst dofs (length dofs) d es offs nint.

Lemma push_P : forall v dofs d es o n, push v (P dofs d es o n) = P (dofs ++ [v]) d es o n.
Proof. intros. unfold push, P. simpl. rewrite app_length. simpl. f_equal. lia. Qed.
Lemma push_new_P : forall e dofs d es o n,
  push_new e (P dofs d es o n) = P (dofs ++ [d]) (S d) (es ++ [e]) o n.
Proof. intros. unfold push_new, P. simpl. rewrite app_length. simpl. f_equal. lia. Qed.

Lemma times_new_P : forall k e dofs d es o n,
  times k (push_new e) (P dofs d es o n) = P (dofs ++ seq d k) (d + k) (es ++ repeat e k) o n.
Proof.
  induction k as [|k IH]; intros; simpl.
  - rewrite !app_nil_r, Nat.add_0_r. auto.
  - rewrite push_new_P, IH. rewrite <- !app_assoc. simpl. f_equal; lia.
Qed.

Lemma fold_push_P : forall (f : nat -> nat) js dofs d es o n,
  fold_left (fun s j => push (f j) s) js (P dofs d es o n) = P (dofs ++ map f js) d es o n.
Proof.
  induction js as [|j js IH]; intros; simpl.
  - rewrite app_nil_r. auto.
  - rewrite push_P, IH. rewrite <- app_assoc. auto.
Qed.

Lemma push_fwd_P : forall src st k dofs d es o n, st + k <= length src ->
  push_fwd src st k (P dofs d es o n) = P (dofs ++ slice st k src) d es o n.
Proof.
  intros. unfold push_fwd. rewrite (fold_push_P (fun j => nth (st + j) src 0)).
  rewrite read_slice by auto. auto.
Qed.
Lemma push_bwd_P : forall src st k dofs d es o n, st + k <= length src ->
  push_bwd src st k (P dofs d es o n) = P (dofs ++ rev (slice st k src)) d es o n.
Proof.
  intros. unfold push_bwd. rewrite (fold_push_P (fun j => nth (st + j) src 0)).
  rewrite map_rev, read_slice by auto. auto.
Qed.

Definition arr (bl : nat -> list nat) (n : nat) := concat (map bl (seq 0 n)).

(** Offsets and counts after [k] of [n] entities with the given blocks. *)
Definition offs_of (bl : nat -> list nat) (k n : nat) : list nat :=
  map (fun i => length (concat (map bl (seq 0 i)))) (seq 0 k) ++ repeat 0 (S n - k).
Definition nint_of (c : nat -> nat) (k n : nat) : list nat := map c (seq 0 k) ++ repeat 0 (n - k).

Lemma upd_map : forall A (f : nat -> A) k x r v, v = f k ->
  upd k v (map f (seq 0 k) ++ x :: r) = map f (seq 0 (S k)) ++ r.
Proof.
  intros A f k x r v ->. rewrite seq_snoc, map_app. simpl.
  rewrite <- (upd_app _ _ _ x). f_equal. rewrite map_length, seq_length. auto.
Qed.

Lemma offs_step : forall bl k n, k <= n ->
  upd k (length (concat (map bl (seq 0 k)))) (offs_of bl k n) = offs_of bl (S k) n.
Proof.
  intros. unfold offs_of. replace (S n - k) with (S (S n - S k)) by lia. simpl repeat.
  apply (upd_map _ (fun i => length (concat (map bl (seq 0 i))))). auto.
Qed.
Lemma offs_step' : forall bl k n o, k <= n -> o = length (arr bl k) ->
  upd k o (offs_of bl k n) = offs_of bl (S k) n.
Proof. intros; subst. apply offs_step; auto. Qed.
Lemma nint_step : forall c k n, k < n -> upd k (c k) (nint_of c k n) = nint_of c (S k) n.
Proof.
  intros. unfold nint_of. replace (n - k) with (S (n - S k)) by lia. simpl repeat.
  apply upd_map. auto.
Qed.

Lemma nth_map_seq : forall A (f : nat -> A) k n d t, k < n -> nth k (map f (seq 0 n) ++ t) d = f k.
Proof.
  intros. rewrite app_nth1 by (rewrite map_length, seq_length; auto).
  rewrite (nth_indep _ d (f 0)) by (rewrite map_length, seq_length; auto).
  rewrite map_nth, seq_nth by auto. auto.
Qed.
Lemma offs_nth : forall bl n i, i <= n -> nth i (offs_of bl (S n) n) 0 = length (concat (map bl (seq 0 i))).
Proof. intros. unfold offs_of. apply (nth_map_seq _ (fun i => length (concat (map bl (seq 0 i))))). lia. Qed.
Lemma nint_nth : forall c n i, i < n -> nth i (nint_of c n n) 0 = c i.
Proof. intros. unfold nint_of. apply nth_map_seq. auto. Qed.

Lemma read_block : forall (bl : nat -> list nat) n i x y z, i < n -> bl i = x ++ y ++ z ->
  slice (length (concat (map bl (seq 0 i))) + length x) (length y) (concat (map bl (seq 0 n))) = y /\
  length (concat (map bl (seq 0 i))) + length x + length y <= length (concat (map bl (seq 0 n))).
Proof.
  intros bl n i x y z H E.
  assert (Hs : map bl (seq 0 n) = map bl (seq 0 i) ++ bl i :: map bl (seq (S i) (n - S i))).
  { replace n with (i + S (n - S i)) at 1 by lia. rewrite seq_app, map_app. reflexivity. }
  split.
  - rewrite <- (app_nil_r (concat (map bl (seq 0 n)))).
    assert (Hn : nth_error (map bl (seq 0 n)) i = Some (x ++ y ++ z)).
    { rewrite Hs, nth_error_app2; rewrite map_length, seq_length; auto. rewrite Nat.sub_diag. simpl. congruence. }
    pose proof (slice_block _ _ _ _ _ _ [] Hn) as S. etransitivity; [|exact S]. do 4 f_equal.
    rewrite Hs. rewrite firstn_app, map_length, seq_length, Nat.sub_diag, firstn_O, app_nil_r.
    rewrite firstn_all2 by (rewrite map_length, seq_length; auto). auto.
  - rewrite Hs, concat_app. simpl. rewrite E, !app_length. lia.
Qed.

Lemma ownl_length : forall m cnt e, length (ownl m cnt e) = cnt e.
Proof. intros. unfold ownl. apply seq_length. Qed.

Section D.
Variables (m : mesh) (cnt : ent -> nat).
Hypothesis WF : wf_mesh m.
Notation nn := (mv_nodes m).
Notation ne := (length (mv_edges m)).
Notation nc := (length (mv_cells m)).

Let bl2 i := cov m cnt true (ENode i).
Let bl1 i := cov m cnt true (EEdge i).
Let bl0 i := cov m cnt true (ECell i).

Lemma arr_S : forall bl n, arr bl (S n) = arr bl n ++ bl n.
Proof. intros. unfold arr. rewrite seq_snoc, concat_app_map. auto. Qed.

Lemma arr2_len : forall k, length (arr bl2 k) = sumto (cn cnt) k.
Proof.
  induction k; auto. rewrite arr_S, app_length, IHk, sumto_S. f_equal.
  unfold bl2. simpl. apply ownl_length.
Qed.

Lemma d_nodes_ok : d_nodes m cnt =
  P (arr bl2 nn) (totn m cnt) (owners cnt (map ENode (seq 0 nn)))
    (offs_of bl2 (S nn) nn) (nint_of (cn cnt) nn nn).
Proof.
  assert (E : forall k, k <= nn -> fold_left (d_node cnt) (seq 0 k) (fresh nn 0 []) =
     P (arr bl2 k) (sumto (cn cnt) k) (owners cnt (map ENode (seq 0 k)))
       (offs_of bl2 k nn) (nint_of (cn cnt) k nn)).
  { induction k as [|k IH]; intros H.
    - unfold fresh, P, arr, offs_of, nint_of. rewrite !Nat.sub_0_r. reflexivity.
    - rewrite seq_snoc, fold_left_app, IH by lia. cbn [fold_left]. rewrite Nat.add_0_l.
      unfold d_node, record_ent. cbn [p_dofs p_pos p_dof p_ents p_offs p_nint P].
      change (mkPst (arr bl2 k) (length (arr bl2 k)) ?a ?b ?c ?d) with (P (arr bl2 k) a b c d).
      rewrite times_new_P, arr_S, map_app, sumto_S. cbn [map]. rewrite owners_one.
      rewrite (offs_step' bl2) by (rewrite ?arr2_len; lia).
      rewrite (nint_step (cn cnt)) by lia. reflexivity. }
  unfold d_nodes. unfold mv_count. rewrite E by lia. unfold sentinel.
  cbn [p_dofs p_pos p_dof p_ents p_offs p_nint P]. 
  rewrite (offs_step' bl2) by (rewrite ?arr2_len; lia). reflexivity.
Qed.

Definition v2 := mkDvec (arr bl2 nn) (offs_of bl2 (S nn) nn) (nint_of (cn cnt) nn nn).
Definition v1 := mkDvec (arr bl1 ne) (offs_of bl1 (S ne) ne) (nint_of (ce cnt) ne ne).
Definition v0 := mkDvec (arr bl0 nc) (offs_of bl0 (S nc) nc) (nint_of (cc cnt) nc nc).

Lemma d_vertex_ok : forall v dofs d es o n, v < nn ->
  d_vertex v2 (P dofs d es o n) v = P (dofs ++ ownl m cnt (ENode v)) d es o n.
Proof.
  intros. unfold d_vertex, v2. cbn [dv_dofs dv_offs dv_nint].
  rewrite offs_nth, nint_nth by lia.
  destruct (read_block bl2 nn v [] (ownl m cnt (ENode v)) []) as [R1 R2]; auto.
  { rewrite app_nil_r. reflexivity. }
  rewrite ownl_length, Nat.add_0_r in *. unfold arr. unfold cn. rewrite push_fwd_P by lia.
  rewrite R1. auto.
Qed.

Lemma d_vertices_ok : forall vs dofs d es o n, Forall (fun v => v < nn) vs ->
  fold_left (d_vertex v2) vs (P dofs d es o n) =
  P (dofs ++ concat (map (fun v => ownl m cnt (ENode v)) vs)) d es o n.
Proof.
  induction vs as [|v vs IH]; intros dofs d es o n F; cbn [fold_left map concat].
  - rewrite app_nil_r; auto.
  - inversion F; subst. rewrite d_vertex_ok, IH by auto. rewrite <- app_assoc. auto.
Qed.

Lemma d_edges_ok : d_edges m cnt (d_nodes m cnt) =
  P (arr bl1 ne) (totn m cnt + tote m cnt)
    (owners cnt (map ENode (seq 0 nn) ++ map EEdge (seq 0 ne)))
    (offs_of bl1 (S ne) ne) (nint_of (ce cnt) ne ne).
Proof.
  rewrite d_nodes_ok. unfold d_edges. cbn [p_dof p_ents dvec_of P p_dofs p_offs p_nint].
  fold v2.
  assert (E : forall k, k <= ne -> fold_left (d_edge m cnt v2) (seq 0 k)
        (fresh ne (totn m cnt) (owners cnt (map ENode (seq 0 nn)))) =
     P (arr bl1 k) (totn m cnt + sumto (ce cnt) k) (owners cnt (map ENode (seq 0 nn) ++ map EEdge (seq 0 k)))
       (offs_of bl1 k ne) (nint_of (ce cnt) k ne)).
  { induction k as [|k IH]; intros H.
    - unfold fresh, P, arr, offs_of, nint_of. rewrite !Nat.sub_0_r. cbn [seq map app]. rewrite app_nil_r.
      unfold sumto. simpl list_sum. rewrite Nat.add_0_r. reflexivity.
    - rewrite seq_snoc, fold_left_app, IH by lia. cbn [fold_left]. rewrite Nat.add_0_l.
      destruct (edge_ends m WF k) as [A B]; [lia|].
      unfold d_edge, record_ent. destruct (edge_at m k) as [a b] eqn:Eab. cbn [fst snd] in A, B.
      cbn [p_dofs p_pos p_dof p_ents p_offs p_nint P].
      change (mkPst (arr bl1 k) (length (arr bl1 k)) ?a ?b ?c ?d) with (P (arr bl1 k) a b c d).
      rewrite d_vertices_ok by (repeat constructor; auto). rewrite times_new_P.
      rewrite arr_S, map_app, sumto_S. cbn [map concat]. rewrite (app_assoc (map ENode _)), owners_one, app_nil_r.
      rewrite (offs_step' bl1) by auto with arith.
      rewrite (nint_step (ce cnt)) by lia.
      unfold bl1 at 4. cbn [cov]. rewrite Eab. cbn [fst snd]. rewrite <- !app_assoc.
      unfold P. f_equal. unfold ce; lia. }
  unfold mv_count. rewrite E by lia. unfold sentinel.
  cbn [p_dofs p_pos p_dof p_ents p_offs p_nint P].
  rewrite (offs_step' bl1) by auto with arith. reflexivity.
Qed.

Lemma d_cell_edge_ok : forall c k dofs d es o n, nth k (cv_edges c) 0 < ne ->
  d_cell_edge v1 c (P dofs d es o n) k = P (dofs ++ epart m cnt true c k) d es o n.
Proof.
  intros c k dofs d es o n H. unfold d_cell_edge, v1. cbn [dv_dofs dv_offs dv_nint].
  set (e := nth k (cv_edges c) 0) in *. rewrite offs_nth, nint_nth by lia.
  destruct (read_block bl1 ne e (ownl m cnt (ENode (fst (edge_at m e))) ++ ownl m cnt (ENode (snd (edge_at m e))))
              (ownl m cnt (EEdge e)) []) as [R1 R2]; auto.
  { rewrite app_nil_r, <- app_assoc. reflexivity. }
  assert (St : length (concat (map bl1 (seq 0 (S e)))) - ce cnt e =
    length (concat (map bl1 (seq 0 e))) + length (ownl m cnt (ENode (fst (edge_at m e))) ++ ownl m cnt (ENode (snd (edge_at m e))))).
  { rewrite seq_snoc, concat_app_map, app_length. unfold bl1 at 2. simpl (0 + e). cbn [cov].
    rewrite !app_length, !ownl_length. unfold ce. lia. }
  rewrite St. rewrite (ownl_length m cnt (EEdge e)) in R1, R2. unfold arr, ce in *. unfold epart. fold e.
  destruct (nth k (cv_ori c) false); simpl andb; cbn iota.
  - rewrite push_fwd_P by lia. rewrite R1. auto.
  - rewrite push_bwd_P by lia. rewrite R1. auto.
Qed.

Lemma d_cell_edges_ok : forall c js dofs d es o n, (forall j, In j js -> nth j (cv_edges c) 0 < ne) ->
  fold_left (d_cell_edge v1 c) js (P dofs d es o n) =
  P (dofs ++ concat (map (epart m cnt true c) js)) d es o n.
Proof.
  induction js as [|j js IH]; intros dofs d es o n F; cbn [fold_left map concat].
  - rewrite app_nil_r; auto.
  - rewrite d_cell_edge_ok, IH by (intros; apply F; simpl; auto). rewrite <- app_assoc. auto.
Qed.

Lemma d_cells_ok : d_cells m cnt (d_nodes m cnt) (d_edges m cnt (d_nodes m cnt)) =
  P (arr bl0 nc) (totn m cnt + tote m cnt + totc m cnt) (owners cnt (all_entities m))
    (offs_of bl0 (S nc) nc) (nint_of (cc cnt) nc nc).
Proof.
  rewrite d_edges_ok, d_nodes_ok. unfold d_cells. cbn [p_dof p_ents dvec_of P p_dofs p_offs p_nint].
  fold v2 v1.
  assert (E : forall k, k <= nc -> fold_left (d_cell m cnt v2 v1) (seq 0 k)
        (fresh nc (totn m cnt + tote m cnt) (owners cnt (map ENode (seq 0 nn) ++ map EEdge (seq 0 ne)))) =
     P (arr bl0 k) (totn m cnt + tote m cnt + sumto (cc cnt) k)
       (owners cnt (map ENode (seq 0 nn) ++ map EEdge (seq 0 ne) ++ map ECell (seq 0 k)))
       (offs_of bl0 k nc) (nint_of (cc cnt) k nc)).
  { induction k as [|k IH]; intros H.
    - unfold fresh, P, arr, offs_of, nint_of. rewrite !Nat.sub_0_r. cbn [seq map app]. rewrite app_nil_r.
      unfold sumto. simpl list_sum. rewrite Nat.add_0_r. reflexivity.
    - rewrite seq_snoc, fold_left_app, IH by lia. cbn [fold_left]. rewrite Nat.add_0_l.
      destruct (cell_facts m WF k) as [C Ln]; [lia|].
      unfold d_cell, record_ent.
      cbn [p_dofs p_pos p_dof p_ents p_offs p_nint P].
      change (mkPst (arr bl0 k) (length (arr bl0 k)) ?a ?b ?c ?d) with (P (arr bl0 k) a b c d).
      rewrite d_vertices_ok by apply (wc_nodes _ _ C).
      rewrite d_cell_edges_ok.
      2:{ intros j Hj. apply in_seq in Hj. apply (cell_edges_valid m); auto. lia. }
      rewrite times_new_P.
      rewrite arr_S, map_app, sumto_S. cbn [map].
      rewrite (app_assoc (map EEdge _)), (app_assoc (map ENode _) (_ ++ _)), owners_one.
      rewrite (offs_step' bl0) by auto with arith.
      rewrite (nint_step (cc cnt)) by lia.
      unfold bl0 at 4. cbn [cov]. rewrite <- !app_assoc.
      unfold P. f_equal. unfold cc; lia. }
  unfold mv_count. rewrite E by lia. unfold sentinel.
  cbn [p_dofs p_pos p_dof p_ents p_offs p_nint P].
  rewrite (offs_step' bl0) by auto with arith. reflexivity.
Qed.

Lemma vec_ok : forall (bl : nat -> list nat) (c : nat -> nat) n i own,
  let v := mkDvec (arr bl n) (offs_of bl (S n) n) (nint_of c n n) in
  i < n -> length own = c i -> (exists x, bl i = x ++ own) ->
  dy_covered v i = length (bl i) /\ nth i (dv_nint v) 0 = c i /\
  slice (nth i (dv_offs v) 0) (dy_covered v i) (dv_dofs v) = bl i /\
  slice (nth i (dv_offs v) 0 + (dy_covered v i - nth i (dv_nint v) 0)) (nth i (dv_nint v) 0) (dv_dofs v) = own.
Proof.
  intros bl c n i own v H Hown [x Hx].
  assert (C : dy_covered v i = length (bl i)).
  { unfold dy_covered, v. cbn [dv_offs]. rewrite !offs_nth by lia.
    rewrite seq_snoc, concat_app_map, app_length. simpl (0 + i). lia. }
  assert (N : nth i (dv_nint v) 0 = c i) by (unfold v; cbn [dv_nint]; apply nint_nth; auto).
  assert (O : nth i (dv_offs v) 0 = length (concat (map bl (seq 0 i)))).
  { unfold v; cbn [dv_offs]. apply offs_nth; lia. }
  split; auto. split; auto. split.
  - rewrite C, O. destruct (read_block bl n i [] (bl i) []) as [R _]; auto.
    { rewrite app_nil_r; auto. }
    rewrite Nat.add_0_r in R. exact R.
  - rewrite C, N, O. destruct (read_block bl n i x own []) as [R _]; auto.
    { rewrite app_nil_r; auto. }
    rewrite Hown in R. rewrite <- R. f_equal. rewrite Hx, app_length, Hown. lia.
Qed.

Theorem dynamic_expected : as_expected m cnt true (dy_handler (dynamic m cnt)).
Proof.
  unfold dynamic. rewrite d_cells_ok, d_edges_ok, d_nodes_ok.
  cbn [dvec_of P p_dofs p_offs p_nint p_ents p_dof]. fold v2 v1 v0.
  assert (G : forall e, valid m e -> let d := mkDynh m v2 v1 v0 (owners cnt (all_entities m)) (totn m cnt + tote m cnt + totc m cnt) in
     forall A (f : dvec -> nat -> A), exists v, dy_guard d e f = Ok (f v (ent_index e)) /\
     dy_covered v (ent_index e) = length (cov m cnt true e) /\ nth (ent_index e) (dv_nint v) 0 = cnt e /\
     slice (nth (ent_index e) (dv_offs v) 0) (dy_covered v (ent_index e)) (dv_dofs v) = cov m cnt true e /\
     slice (nth (ent_index e) (dv_offs v) 0 + (dy_covered v (ent_index e) - nth (ent_index e) (dv_nint v) 0))
       (nth (ent_index e) (dv_nint v) 0) (dv_dofs v) = ownl m cnt e).
  { intros e V d A f. unfold dy_guard. cbn [dy_mesh d].
    destruct e as [i|i|i]; simpl in V; apply Nat.ltb_lt in V as Hb; cbn [ent_type ent_index codim_of mv_count].
    - exists v2. rewrite Hb. split; [reflexivity|]. apply (vec_ok bl2 (cn cnt) nn i); auto.
      + apply ownl_length.
      + exists []. reflexivity.
    - exists v1. rewrite Hb. split; [reflexivity|]. apply (vec_ok bl1 (ce cnt) ne i); auto.
      + apply ownl_length.
      + eexists. unfold bl1. cbn [cov]. rewrite app_assoc. reflexivity.
    - exists v0. assert (Hc : codim_of (cv_type (cell_at m i)) = 0) by (unfold cv_type, cell_type; destruct (_ =? 4); auto).
      rewrite Hc. cbn [mv_count]. rewrite Hb. split; [reflexivity|]. apply (vec_ok bl0 (cc cnt) nc i); auto.
      + apply ownl_length.
      + eexists. unfold bl0. cbn [cov]. rewrite app_assoc. reflexivity. }
  constructor; cbn [dy_handler NumDofs dy_num NumLocalDofs NumInteriorDofs GlobalDofIndices
     InteriorGlobalDofIndices Entity dy_ents]; auto; intros e V;
  match goal with |- dy_guard _ _ ?f = _ => destruct (G e V _ f) as (v & Hg & H1 & H2 & H3 & H4) end;
  (etransitivity; [exact Hg|]); f_equal; auto.
Qed.
End D.
