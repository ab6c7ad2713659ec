(** Numbers of the unknowns and boundary flags for C97. *)
From Coq Require Import Reals List Arith Lia Lra Bool.
Import ListNotations.
From Verif Require Import Base Scalars MeshModel MeshView RefPatModel GeoModel GeoSpec DofModel DofSpec DofProofs DofProofs2 DofProofs4 FlagSpec FlagModel FlagProofs RefineSpec FeModel QuadModel
  AssembleModel ElemModel ElemSpec DpgModel NormalModel NormalSpec NormalProofs5 StokesModel StokesSpec StokesProofs.
Local Open Scope nat_scope.

Definition stokes_map : dof_map := [(kPoint, 1); (kSegment, 1)].
Lemma sumto_one : forall f n, (forall i, i < n -> f i = 1) -> sumto f n = n.
Proof. intros f n H. induction n as [|n IH]; [reflexivity|]. rewrite sumto_S, H, IH by (intros; try apply H; lia). lia. Qed.
Lemma sumto_none : forall f n, (forall i, i < n -> f i = 0) -> sumto f n = 0.
Proof. intros f n H. induction n as [|n IH]; [reflexivity|]. rewrite sumto_S, H, IH by (intros; try apply H; lia). lia. Qed.

Section Dofs.
Variables (m : mesh) (check : bool).
Hypothesis W : wf_mesh m.
Hypothesis T : forall c v, nth_error (mv_cells m) c = Some v -> cv_type v = kTria.
Let d := u_handler (uniform m stokes_map check).
Let nv := mv_nodes m.
Let ne := length (mv_edges m).
Let cnt := prescribed stokes_map m.
Let EX : as_expected m cnt check d := uniform_exp m stokes_map check W.

Lemma cnt_cell : forall c v, nth_error (mv_cells m) c = Some v -> cnt (DofModel.ECell c) = 0.
Proof. intros c v E. unfold cnt, prescribed. cbn [ent_type]. unfold cell_at. rewrite (nth_error_nth _ _ _ E), (T _ _ E). reflexivity. Qed.
Lemma tot_nodes : totn m cnt = nv.
Proof. apply sumto_one. intros. reflexivity. Qed.
Lemma tot_edges : tote m cnt = ne.
Proof. apply sumto_one. intros. reflexivity. Qed.
Lemma tot_cells : totc m cnt = 0.
Proof.
  apply sumto_none. intros i Hi. destruct (nth_error (mv_cells m) i) as [v|] eqn:E; [exact (cnt_cell _ _ E)|].
  apply nth_error_None in E. lia.
Qed.
Lemma own_node : forall v, ownl m cnt (ENode v) = [v].
Proof. intros v. unfold ownl. cbn [DofProofs.start]. rewrite sumto_one by (intros; reflexivity). reflexivity. Qed.
Lemma own_edge : forall e, ownl m cnt (EEdge e) = [nv + e].
Proof. intros e. unfold ownl. cbn [DofProofs.start]. rewrite tot_nodes, sumto_one by (intros; reflexivity). reflexivity. Qed.
Lemma total_dofs : NumDofs d = nv + ne.
Proof. rewrite (ex_num _ _ _ _ EX), tot_nodes, tot_edges, tot_cells. lia. Qed.
Lemma node_dofs : forall v, v < nv -> GlobalDofIndices d (ENode v) = Ok [v].
Proof. intros v H. rewrite (ex_global _ _ _ _ EX) by exact H. cbn [cov]. rewrite own_node. reflexivity. Qed.
Lemma edge_unknown : forall e, e < ne -> InteriorGlobalDofIndices d (EEdge e) = Ok [nv + e].
Proof. intros e H. rewrite (ex_interior _ _ _ _ EX) by exact H. rewrite own_edge. reflexivity. Qed.
Lemma cell_unknowns : forall c v, nth_error (mv_cells m) c = Some v ->
  GlobalDofIndices d (DofModel.ECell c) = Ok (cv_nodes v ++ map (fun e => nv + e) (cv_edges v)) /\
  NumLocalDofs d (DofModel.ECell c) = Ok 6 /\ length (cv_nodes v) = 3 /\ length (cv_edges v) = 3.
Proof.
  intros c v E. assert (V : valid m (DofModel.ECell c)) by (cbn [valid]; apply nth_error_Some; congruence).
  assert (WC : wf_cell m v) by (pose proof (wm_cells _ W) as F; rewrite Forall_forall in F; apply F; exact (nth_error_In _ _ E)).
  assert (L : length (cv_nodes v) = 3).
  { pose proof (T _ _ E) as Ty. unfold cv_type, cell_type in Ty. destruct (length (cv_nodes v) =? 4) eqn:Q in Ty.
    - discriminate.
    - apply Nat.eqb_neq in Q. destruct (wc_shape _ _ WC); [assumption|lia]. }
  assert (Le : length (cv_edges v) = 3) by (rewrite (wc_edges _ _ WC); exact L).
  assert (EC : cell_at m c = v) by (unfold cell_at; apply nth_error_nth; exact E).
  assert (CE : cov m cnt check (DofModel.ECell c) = cv_nodes v ++ map (fun e => nv + e) (cv_edges v)).
  { cbn [cov]. rewrite EC, (T _ _ E). unfold ownl at 2. rewrite (cnt_cell _ _ E). cbn [seq].
    rewrite !app_nil_r. f_equal.
    - rewrite (map_ext _ (fun v => [v])) by (intros; apply own_node). clear; induction (cv_nodes v) as [|y l IH]; [reflexivity|]; cbn [map concat app]; rewrite IH; reflexivity.
    - destruct (cv_edges v) as [|e0 [|e1 [|e2 [|]]]] eqn:Ev; try discriminate Le. cbn [num_nodes seq map concat]. unfold epart. rewrite Ev. cbn [nth].
      rewrite !own_edge. cbn [rev app]. destruct (check && negb (nth 0 (cv_ori v) false)), (check && negb (nth 1 (cv_ori v) false)), (check && negb (nth 2 (cv_ori v) false)); reflexivity. }
  split; [rewrite (ex_global _ _ _ _ EX) by exact V; rewrite CE; reflexivity|].
  split; [|split; assumption]. rewrite (ex_local _ _ _ _ EX) by exact V. rewrite CE, app_length, map_length, L, Le. reflexivity.
Qed.
Lemma entity_node : forall v, v < nv -> Entity d v = Ok (ENode v).
Proof.
  intros v H. apply (entity_own m cnt check d EX v (ENode v) H). cbn [DofProofs.start].
  rewrite sumto_one by (intros; reflexivity). change (cnt (ENode v)) with 1. lia.
Qed.
Lemma entity_edge : forall e, e < ne -> Entity d (nv + e) = Ok (EEdge e).
Proof.
  intros e H. apply (entity_own m cnt check d EX (nv + e) (EEdge e) H). cbn [DofProofs.start].
  rewrite tot_nodes, sumto_one by (intros; reflexivity). change (cnt (EEdge e)) with 1. lia.
Qed.
End Dofs.

(** * Flags *)
Lemma bdry_edge : forall m e, bdry m e = boundary_edge m e.
Proof.
  intros m e. unfold boundary_edge. destruct (adjacent m e =? 1) eqn:Q.
  - apply Nat.eqb_eq, one_cell_adjacent, bdry_one in Q. exact Q.
  - apply Nat.eqb_neq in Q. destruct (bdry m e) eqn:B; [|reflexivity]. apply bdry_one, one_cell_adjacent in B. contradiction.
Qed.
Lemma flags : forall m, wf_mesh m -> exists bd, flag_boundary_all m = Ok bd /\
  (forall e, e < size m 1 -> adget bd 1 e = Ok (boundary_edge m e)) /\
  (forall v, v < size m 2 -> exists b, adget bd 2 v = Ok b /\ (b = true <-> boundary_node m v)).
Proof.
  intros m W. destruct (flag_all_ok m W) as (d1 & d2 & E & F). exists [repeat false (length (mv_cells m)); d1; d2]. split; [exact E|].
  destruct (F 0 d1 eq_refl) as [L1 F1]. destruct (F 1 d2 eq_refl) as [L2 F2].
  change (mv_count m (1 + 0)) with (size m 1) in *. change (mv_count m (1 + 1)) with (size m 2) in *. split.
  - intros e H. unfold adget, elem_at. cbn [nth_error bind]. rewrite (nth_error_nth' d1 false) by lia. rewrite F1 by lia. f_equal.
    rewrite <- bdry_edge. destruct (bdry m e) eqn:B.
    + apply existsb_exists. exists e. split; [apply in_seq; change (size m 1) with (length (mv_edges m)) in H; lia|]. rewrite B. cbn [parts existsb andb]. rewrite Nat.eqb_refl. reflexivity.
    + apply not_true_iff_false. rewrite existsb_exists. intros (e' & _ & X). apply andb_true_iff in X as [X Y]. cbn [parts existsb] in Y.
      rewrite orb_false_r in Y. apply Nat.eqb_eq in Y. subst e'. congruence.
  - intros v H. unfold adget, elem_at. cbn [nth_error bind]. rewrite (nth_error_nth' d2 false) by lia. eexists. split; [reflexivity|]. rewrite F2 by lia.
    rewrite existsb_exists. split.
    + intros (e & He & X). apply in_seq in He. apply andb_true_iff in X as [X Y]. cbn [parts existsb] in Y.
      destruct (nth_error (mv_edges m) e) as [[a b]|] eqn:Ee; [|apply nth_error_None in Ee; lia].
      unfold edge_at in Y. rewrite (nth_error_nth _ _ _ Ee) in Y. cbn [fst snd] in Y. exists e, a, b. split; [exact Ee|]. rewrite <- bdry_edge. split; [exact X|].
      apply orb_true_iff in Y as [Y|Y]; [apply Nat.eqb_eq in Y; auto|]. rewrite orb_false_r in Y. apply Nat.eqb_eq in Y. auto.
    + intros (e & a & b & Ee & X & Y). exists e. split; [apply in_seq; split; [lia|]; apply nth_error_Some; congruence|].
      rewrite bdry_edge, X. cbn [andb parts existsb]. unfold edge_at. rewrite (nth_error_nth _ _ _ Ee). cbn [fst snd].
      destruct Y as [->| ->]; rewrite Nat.eqb_refl; rewrite ?orb_true_r; reflexivity.
Qed.
