(** C100: unknowns at the boundary nodes and at the boundary edges. *)
From Coq Require Import Reals List Arith Lia Lra Bool.
Import ListNotations.
From Verif Require Import Base Scalars MeshModel MeshView RefPatModel GeoModel GeoSpec DofModel DofSpec DofProofs DofProofs2 DofProofs3 DofProofs4 FlagSpec FlagModel FlagProofs RefineSpec FeModel QuadModel
  AssembleModel AssembleSpec ElemModel ElemSpec DpgModel NormalModel NormalSpec StokesModel StokesSpec StokesProofs StokesProofs2 StokesProofs3 StokesProofs4.
Local Open Scope nat_scope.

(** * Ranks *)
Definition rank (s : nat -> bool) (v : nat) : nat := sumto (fun i => if s i then 1 else 0) v.
Lemma rank_S : forall s v, rank s (S v) = rank s v + if s v then 1 else 0.
Proof. intros. apply sumto_S. Qed.
Lemma rank_lt : forall s v k, v < k -> s v = true -> rank s v < rank s k.
Proof. intros s v k H E. pose proof (sumto_lt (fun i => if s i then 1 else 0) v k H) as Q. cbv beta in Q. rewrite E in Q. unfold rank. lia. Qed.
Lemma rank_inj : forall s v w, s v = true -> s w = true -> rank s v = rank s w -> v = w.
Proof.
  intros s v w Hv Hw E. destruct (Nat.lt_trichotomy v w) as [L|[L|L]]; [|exact L|].
  - pose proof (rank_lt s v w L Hv). lia.
  - pose proof (rank_lt s w v L Hw). lia.
Qed.
Lemma rank_onto : forall s k i, i < rank s k -> exists v, v < k /\ s v = true /\ rank s v = i.
Proof.
  intros s k. induction k as [|k IH]; intros i H; [unfold rank, sumto in H; cbn in H; lia|]. rewrite rank_S in H. destruct (Nat.lt_ge_cases i (rank s k)) as [L|L].
  - destruct (IH i L) as (v & Hv & E). exists v. split; [lia|exact E].
  - destruct (s k) eqn:E; [|lia]. exists k. split; [lia|]. split; [exact E|lia].
Qed.
Lemma sumto_ext : forall f g k, (forall i, i < k -> f i = g i) -> sumto f k = sumto g k.
Proof. intros f g k H. induction k as [|k IH]; [reflexivity|]. rewrite !sumto_S, H, IH by (intros; try apply H; lia). reflexivity. Qed.

(** Local numbers of the flagged parts of a triangle. *)
Definition chosen (s : nat -> bool) (l : list nat) : list nat := filter (fun i => s (nth i l 0)) (seq 0 3).
Lemma chosen_map : forall s (f : nat -> nat) l, length l = 3 -> map (fun i => f (nth i l 0)) (chosen s l) = concat (map (fun x => if s x then [f x] else []) l).
Proof.
  intros s f l L. destruct l as [|a [|b [|c [|]]]]; try discriminate L. unfold chosen. cbn [seq filter nth map concat].
  destruct (s a), (s b), (s c); reflexivity.
Qed.

Section Handlers.
Variables (m : mesh) (bd : adset) (bn be : nat -> bool).
Hypothesis W : wf_mesh m.
Hypothesis T : forall c v, nth_error (mv_cells m) c = Some v -> cv_type v = kTria.
Hypothesis BE : forall e, e < size m 1 -> adget bd 1 e = Ok (be e).
Hypothesis BN : forall v, v < size m 2 -> adget bd 2 v = Ok (bn v).
Notation nv := (size m 2).
Notation ne := (size m 1).

Let cnt (cd : nat) (e : ent) : nat :=
    match e, cd with
    | ENode v, 2%nat => match adget bd 2 v with Ok true => 1 | _ => 0 end
    | EEdge s, 1%nat => match adget bd 1 s with Ok true => 1 | _ => 0 end
    | _, _ => 0
    end.
Let EX cd : as_expected m (cnt cd) true (boundary_dofs m bd cd) := dynamic_expected m (cnt cd) W.

Lemma cnt_node : forall v, v < nv -> cnt 2 (ENode v) = if bn v then 1 else 0.
Proof. intros v H. unfold cnt. rewrite (BN v H). destruct (bn v); reflexivity. Qed.
Lemma cnt_edge : forall e, e < ne -> cnt 1 (EEdge e) = if be e then 1 else 0.
Proof. intros e H. unfold cnt. rewrite (BE e H). destruct (be e); reflexivity. Qed.
Lemma start_node : forall v, v <= nv -> DofProofs.start m (cnt 2) (ENode v) = rank bn v.
Proof. intros v H. cbn [DofProofs.start]. apply sumto_ext. intros i Hi. apply cnt_node. lia. Qed.
Lemma start_edge : forall e, e <= ne -> DofProofs.start m (cnt 1) (EEdge e) = rank be e.
Proof.
  intros e H. cbn [DofProofs.start]. unfold totn. rewrite (sumto_none (cn (cnt 1))) by (intros; reflexivity). apply sumto_ext. intros i Hi. apply cnt_edge. lia.
Qed.
Lemma num_nodes_dofs : NumDofs (boundary_dofs m bd 2) = rank bn nv.
Proof.
  rewrite (ex_num _ _ _ _ (EX 2)). unfold tote, totc. rewrite (sumto_none (ce _)), (sumto_none (cc _)) by (intros; reflexivity).
  rewrite !Nat.add_0_r. exact (start_node nv (le_n _)).
Qed.
Lemma num_edges_dofs : NumDofs (boundary_dofs m bd 1) = rank be ne.
Proof.
  rewrite (ex_num _ _ _ _ (EX 1)). unfold totc. rewrite (sumto_none (cc _)) by (intros; reflexivity).
  rewrite Nat.add_0_r. exact (start_edge ne (le_n _)).
Qed.
Lemma own_bn : forall v, v < nv -> ownl m (cnt 2) (ENode v) = if bn v then [rank bn v] else [].
Proof. intros v H. unfold ownl. rewrite (start_node v) by lia. rewrite (cnt_node v H). destruct (bn v); reflexivity. Qed.
Lemma own_be : forall e, e < ne -> ownl m (cnt 1) (EEdge e) = if be e then [rank be e] else [].
Proof. intros v H. unfold ownl. rewrite (start_edge v) by lia. rewrite (cnt_edge v H). destruct (be v); reflexivity. Qed.
Lemma edge_index : forall e, e < ne -> be e = true -> GlobalDofIndices (boundary_dofs m bd 1) (EEdge e) = Ok [rank be e].
Proof.
  intros e H E. rewrite (ex_global _ _ _ _ (EX 1)) by exact H. cbn [cov]. unfold ownl at 1 2. cbn [cnt seq app]. rewrite (own_be e H), E. reflexivity.
Qed.
Lemma node_entity : forall v, v < nv -> bn v = true -> Entity (boundary_dofs m bd 2) (rank bn v) = Ok (ENode v).
Proof.
  intros v H E. apply (entity_own m (cnt 2) true _ (EX 2) (rank bn v) (ENode v) H). rewrite (start_node v) by lia. rewrite (cnt_node v H), E. lia.
Qed.
Lemma cell_parts : forall c, c < size m 0 -> exists v n0 n1 n2 e0 e1 e2, nth_error (mv_cells m) c = Some v /\ cell_at m c = v /\ cv_nodes v = [n0; n1; n2] /\ cv_edges v = [e0; e1; e2] /\
  n0 < nv /\ n1 < nv /\ n2 < nv /\ e0 < ne /\ e1 < ne /\ e2 < ne.
Proof.
  intros c H. destruct (nth_error (mv_cells m) c) as [v|] eqn:E; [|apply nth_error_None in E; unfold size in H; lia].
  destruct (cell_shape m c v (conj W T) E) as (n0 & n1 & n2 & e0 & e1 & e2 & En & Ee & WC). exists v, n0, n1, n2, e0, e1, e2.
  split; [reflexivity|]. split; [unfold cell_at; apply nth_error_nth; exact E|]. split; [exact En|]. split; [exact Ee|].
  pose proof (wc_nodes _ _ WC) as F. rewrite En in F. inversion F as [|? ? F0 F']; subst. inversion F' as [|? ? F1 F'']; subst. inversion F'' as [|? ? F2 _]; subst.
  assert (G : forall i, i < 3 -> nth i [e0; e1; e2] 0 < ne).
  { intros i Hi. pose proof (side_range m c i (conj W T) H Hi) as Q. unfold side_at, cell_at in Q. rewrite (nth_error_nth _ _ _ E), Ee in Q. exact Q. }
  pose proof (G 0 ltac:(lia)). pose proof (G 1 ltac:(lia)). pose proof (G 2 ltac:(lia)). cbn [nth] in *. unfold size in *. auto 10.
Qed.
Definition cell_cols (c : nat) : list nat := map (fun i => rank bn (nth i (cv_nodes (cell_at m c)) 0)) (chosen bn (cv_nodes (cell_at m c))).
Definition cell_rows (c : nat) : list nat := map (fun i => rank be (nth i (cv_edges (cell_at m c)) 0)) (chosen be (cv_edges (cell_at m c))).
Lemma cols_is : forall c, c < size m 0 -> GlobalDofIndices (boundary_dofs m bd 2) (DofModel.ECell c) = Ok (cell_cols c) /\
  NumLocalDofs (boundary_dofs m bd 2) (DofModel.ECell c) = Ok (length (cell_cols c)) /\ Forall (fun g => g < rank bn nv) (cell_cols c).
Proof.
  intros c H. destruct (cell_parts c H) as (v & n0 & n1 & n2 & e0 & e1 & e2 & E & EC & En & Ee & H0 & H1 & H2 & G0 & G1 & G2).
  assert (CV : cov m (cnt 2) true (DofModel.ECell c) = cell_cols c).
  { cbn [cov]. unfold cell_cols. rewrite EC, (T _ _ E). change (ownl m (cnt 2) (DofModel.ECell c)) with (@nil nat). cbn [num_nodes seq map concat]. unfold epart.
    assert (Q : forall (b : bool) e, (if b then rev (ownl m (cnt 2) (EEdge e)) else ownl m (cnt 2) (EEdge e)) = []) by (intros [] e; reflexivity). rewrite !Q.
    rewrite chosen_map by (rewrite En; reflexivity). rewrite En. cbn [map concat].
    rewrite !own_bn by assumption. rewrite !app_nil_r. reflexivity. }
  rewrite (ex_global _ _ _ _ (EX 2)) by exact H. rewrite (ex_local _ _ _ _ (EX 2)) by exact H. rewrite CV. split; [reflexivity|]. split; [reflexivity|].
  unfold cell_cols. apply Forall_forall. intros x I. apply in_map_iff in I as (i & <- & I). apply filter_In in I as [I S]. apply in_seq in I.
  apply rank_lt; [|exact S]. rewrite EC, En. destruct i as [|[|[|]]]; [assumption..|lia].
Qed.
Lemma rows_is : forall c, c < size m 0 -> GlobalDofIndices (boundary_dofs m bd 1) (DofModel.ECell c) = Ok (cell_rows c) /\
  NumLocalDofs (boundary_dofs m bd 1) (DofModel.ECell c) = Ok (length (cell_rows c)) /\ Forall (fun g => g < rank be ne) (cell_rows c).
Proof.
  intros c H. destruct (cell_parts c H) as (v & n0 & n1 & n2 & e0 & e1 & e2 & E & EC & En & Ee & H0 & H1 & H2 & G0 & G1 & G2).
  assert (CV : cov m (cnt 1) true (DofModel.ECell c) = cell_rows c).
  { cbn [cov]. unfold cell_rows. rewrite EC, (T _ _ E), En. unfold ownl at 1 2. cbn [cnt seq num_nodes map concat app]. unfold epart. rewrite chosen_map by (rewrite Ee; reflexivity). rewrite Ee. cbn [nth].
    rewrite !own_be by assumption. assert (Q : forall (b s : bool) (x : nat), (if b then rev (if s then [x] else []) else (if s then [x] else [])) = if s then [x] else []) by (intros [] [] x; reflexivity).
    rewrite !Q. cbn [map concat]. rewrite !app_nil_r. reflexivity. }
  rewrite (ex_global _ _ _ _ (EX 1)) by exact H. rewrite (ex_local _ _ _ _ (EX 1)) by exact H. rewrite CV. split; [reflexivity|]. split; [reflexivity|].
  unfold cell_rows. apply Forall_forall. intros x I. apply in_map_iff in I as (i & <- & I). apply filter_In in I as [I S]. apply in_seq in I.
  apply rank_lt; [|exact S]. rewrite EC, Ee. destruct i as [|[|[|]]]; [assumption..|lia].
Qed.
End Handlers.
