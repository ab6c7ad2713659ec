(** C97: sums over cells and edges, curls, element matrices and vectors. *)
From Coq Require Import Reals List Arith Lia Lra Bool.
Import ListNotations.
From Verif Require Import Base Scalars MeshModel MeshView RefPatModel GeoModel GeoSpec GeoProofs GeoProofs2 GeoProofs3 GeoProofs4 DofModel DofSpec FlagSpec FlagModel FlagProofs RefineSpec FeModel QuadModel LagrModel
  AssembleModel ElemModel ElemSpec ElemProofs ElemProofs3 GalerkinModel GalerkinProofs5 GalerkinProofs7 DpgModel DpgProofs6 NormalModel NormalSpec NormalProofs NormalProofs2 NormalProofs3 NormalProofs4 NormalProofs5
  StokesModel StokesSpec StokesProofs StokesProofs2.
Local Open Scope R_scope.

(** * Sums *)
Lemma sum_swap : forall n k (F : nat -> nat -> R), sum_to n (fun i => sum_to k (F i)) = sum_to k (fun j => sum_to n (fun i => F i j)).
Proof.
  intros n k F. induction n as [|n IH].
  - change (0 = sum_to k (fun _ => 0)). induction k as [|k IH]; [reflexivity|]. rewrite sum_to_S, <- IH. lra.
  - rewrite sum_to_S, IH. transitivity (sum_to k (fun j => sum_to n (fun i => F i j) + F n j)); [symmetry; apply sum_to_plus|].
    apply sum_to_ext. intros j _. rewrite sum_to_S. reflexivity.
Qed.
Lemma sum_zero : forall n F, (forall i, (i < n)%nat -> F i = 0) -> sum_to n F = 0.
Proof. intros n F H. induction n as [|n IH]; [reflexivity|]. rewrite sum_to_S, H, IH by (intros; try apply H; lia). lra. Qed.
Lemma sum_one : forall n i (h : nat -> R), (i < n)%nat -> sum_to n (fun j => if Nat.eqb i j then h j else 0) = h i.
Proof.
  intros n i h H. etransitivity; [|apply (sum_unit n i h H)]. apply sum_to_ext. intros j _. rewrite Nat.eqb_sym.
  destruct (Nat.eqb j i); lra.
Qed.
Lemma sum3 : forall F, sum_to 3 F = F 0%nat + (F 1%nat + (F 2%nat + 0)).
Proof. reflexivity. Qed.

Definition over_sides (m : mesh) (F : nat -> nat -> R) (e : nat) : R :=
  sum_to (size m 0) (fun c => sum_to 3 (fun i => if is_side m c i e then F c i else 0)).
Definition side_at (m : mesh) (c i : nat) : nat := nth i (cv_edges (cell_at m c)) 0%nat.
Definition trias (m : mesh) : Prop := wf_mesh m /\ forall c v, nth_error (mv_cells m) c = Some v -> cv_type v = kTria.

Lemma cell_shape : forall m c v, trias m -> nth_error (mv_cells m) c = Some v ->
  exists n0 n1 n2 e0 e1 e2, cv_nodes v = [n0; n1; n2] /\ cv_edges v = [e0; e1; e2] /\ wf_cell m v.
Proof.
  intros m c v [W T] E. destruct (cell_unknowns m true W T c v E) as (_ & _ & L & L').
  destruct (cv_nodes v) as [|n0 [|n1 [|n2 [|]]]]; try discriminate L. destruct (cv_edges v) as [|e0 [|e1 [|e2 [|]]]]; try discriminate L'.
  exists n0, n1, n2, e0, e1, e2. split; [reflexivity|]. split; [reflexivity|].
  pose proof (wm_cells _ W) as F. rewrite Forall_forall in F. apply F. exact (nth_error_In _ _ E).
Qed.
Lemma is_side_at : forall m c i e, trias m -> (c < size m 0)%nat -> (i < 3)%nat -> is_side m c i e = Nat.eqb (side_at m c i) e.
Proof.
  intros m c i e T Hc Hi. unfold is_side, side, side_at, cell_at. destruct (nth_error (mv_cells m) c) as [v|] eqn:E; [|apply nth_error_None in E; unfold size in Hc; lia].
  rewrite (nth_error_nth _ _ _ E). destruct (cell_shape m c v T E) as (n0 & n1 & n2 & e0 & e1 & e2 & _ & -> & _).
  destruct i as [|[|[|]]]; [reflexivity..|lia].
Qed.
Lemma side_edge_of : forall m c i e, is_side m c i e = true <-> edge_of m c i e.
Proof.
  intros m c i e. unfold is_side, side, edge_of. destruct (nth_error (mv_cells m) c) as [v|].
  - split.
    + destruct (nth_error (cv_edges v) i) as [e'|] eqn:E; [|discriminate]. intros H. apply Nat.eqb_eq in H. subst. exists v. auto.
    + intros (v' & E & E'). injection E as <-. rewrite E'. apply Nat.eqb_refl.
  - split; [discriminate|]. intros (v' & E & _). discriminate.
Qed.
Lemma side_range : forall m c i, trias m -> (c < size m 0)%nat -> (i < 3)%nat -> (side_at m c i < size m 1)%nat.
Proof.
  intros m c i T Hc Hi. apply (edge_range m c i); [apply T|]. apply side_edge_of. rewrite is_side_at by assumption. apply Nat.eqb_refl.
Qed.
Lemma by_edges : forall m F (U : nat -> R), trias m ->
  sum_to (size m 0) (fun c => sum_to 3 (fun i => F c i * U (side_at m c i))) = sum_to (size m 1) (fun e => over_sides m F e * U e).
Proof.
  intros m F U T. unfold over_sides.
  transitivity (sum_to (size m 0) (fun c => sum_to (size m 1) (fun e => sum_to 3 (fun i => if is_side m c i e then F c i * U e else 0)))).
  - apply sum_to_ext. intros c Hc. rewrite <- sum_swap. apply sum_to_ext. intros i Hi.
    etransitivity; [symmetry; apply (sum_one (size m 1) (side_at m c i) (fun e => F c i * U e)), side_range; assumption|].
    apply sum_to_ext. intros e He. rewrite is_side_at by assumption. reflexivity.
  - rewrite sum_swap. apply sum_to_ext. intros e He. rewrite Rmult_comm, <- sum_to_scal. apply sum_to_ext. intros c Hc.
    rewrite <- sum_to_scal. apply sum_to_ext. intros i Hi. destruct (is_side m c i e); lra.
Qed.
Lemma count3 : forall e e0 e1 e2 : nat, INR (count_occ Nat.eq_dec [e0; e1; e2] e) =
  (if (e0 =? e)%nat then 1 else 0) + ((if (e1 =? e)%nat then 1 else 0) + ((if (e2 =? e)%nat then 1 else 0) + 0)).
Proof.
  intros e e0 e1 e2. cbn [count_occ].
  assert (S : forall x y, x = y -> (x =? y)%nat = true) by (intros; apply Nat.eqb_eq; assumption).
  assert (D : forall x y, x <> y -> (x =? y)%nat = false) by (intros; apply Nat.eqb_neq; assumption).
  destruct (Nat.eq_dec e0 e) as [Q0|Q0], (Nat.eq_dec e1 e) as [Q1|Q1], (Nat.eq_dec e2 e) as [Q2|Q2];
    (rewrite ?(S _ _ Q0), ?(S _ _ Q1), ?(S _ _ Q2), ?(D _ _ Q0), ?(D _ _ Q1), ?(D _ _ Q2)); cbn [INR]; lra.
Qed.
Lemma side_count : forall m r e, trias m -> over_sides m (fun _ _ => r) e = INR (adjacent m e) * r.
Proof.
  intros m r e T. unfold over_sides, adjacent, size.
  assert (G : forall n, (n <= length (mv_cells m))%nat ->
    sum_to n (fun c => sum_to 3 (fun i => if is_side m c i e then r else 0)) = INR (count_occ Nat.eq_dec (flat_map cv_edges (firstn n (mv_cells m))) e) * r).
  { induction n as [|n IH]; intros Hn; [cbn [firstn flat_map count_occ INR]; change (0 = 0 * r); lra|].
    rewrite sum_to_S, IH by lia. destruct (nth_error (mv_cells m) n) as [v|] eqn:E; [|apply nth_error_None in E; lia].
    assert (EF : firstn (S n) (mv_cells m) = firstn n (mv_cells m) ++ [v]).
    { clear -E. revert n E. induction (mv_cells m) as [|y l IH]; intros [|n] E; cbn in E; try discriminate; [injection E as ->; reflexivity|].
      cbn [firstn app]. f_equal. apply IH, E. }
    rewrite EF, flat_map_app, count_occ_app, plus_INR. cbn [flat_map]. rewrite app_nil_r.
    destruct (cell_shape m n v T E) as (n0 & n1 & n2 & e0 & e1 & e2 & _ & Ee & _). rewrite Ee, count3, sum3.
    rewrite !is_side_at by (try exact T; unfold size; lia). unfold side_at, cell_at. rewrite (nth_error_nth _ _ _ E), Ee. cbn [nth].
    destruct (e0 =? e)%nat, (e1 =? e)%nat, (e2 =? e)%nat; ring. }
  rewrite G by apply le_n. rewrite firstn_all. reflexivity.
Qed.
