(** C97: curls, element matrices and vectors. *)
From Coq Require Import Reals List Arith Lia Lra Bool.
Import ListNotations.
From Verif Require Import Base Scalars MeshModel MeshView RefPatModel GeoModel GeoSpec GeoProofs GeoProofs2 GeoProofs3 GeoProofs4 DofModel DofSpec FlagSpec FlagModel FlagProofs RefineSpec FeModel QuadModel LagrModel
  AssembleModel ElemModel ElemSpec ElemProofs ElemProofs3 GalerkinModel GalerkinProofs5 GalerkinProofs7 DpgModel DpgProofs6 NormalModel NormalSpec NormalProofs NormalProofs2 NormalProofs3 NormalProofs4 NormalProofs5
  StokesModel StokesSpec StokesProofs StokesProofs2 StokesProofs3.
Local Open Scope R_scope.

Lemma inner2 : forall a b, inner 2 a b = a 0%nat * b 0%nat + a 1%nat * b 1%nat.
Proof. intros. unfold inner. cbn [seq map fold_right]. ring. Qed.
Lemma dot2 : forall a b, GeoModel.dot 2 a b = a 0%nat * b 0%nat + a 1%nat * b 1%nat.
Proof. intros. unfold GeoModel.dot. cbn [seq map fold_right]. ring. Qed.
Lemma inner_same : forall a a' b b', same_points a a' -> same_points b b' -> inner 2 a b = inner 2 a' b'.
Proof. intros a a' b b' A B. rewrite !inner2, (A 0%nat), (A 1%nat), (B 0%nat), (B 1%nat) by lia. reflexivity. Qed.
Lemma same_refl : forall a, same_points a a. Proof. intros a k _. reflexivity. Qed.

Section Cells.
Variables (m : mesh) (geom : ent -> geo) (pos : nat -> vec) (n : nat -> nat -> vec).
Hypothesis TR : triangulation m geom pos.
Hypothesis NO : normals_of m geom n.

Lemma tr_trias : trias m.
Proof. split; [apply TR|]. intros c v E. apply (tr_cell _ _ _ TR c v E). Qed.
Definition basis_at (c : nat) : list vec := match basis_functions (geom (DofModel.ECell c)) with Ok b => b | _ => [] end.
Definition normals_at (c : nat) : list vec := match computeOutwardNormals (geom (DofModel.ECell c)) with Ok b => b | _ => [] end.
Definition node_at (c i : nat) : nat := nth i (cv_nodes (cell_at m c)) 0%nat.
Definition field_at (x : nat -> R) (c : nat) : vec := comb (x (node_at c 0)) (x (node_at c 1)) (x (node_at c 2)) (basis_at c).

Lemma cell_view : forall c, (c < size m 0)%nat -> exists v, nth_error (mv_cells m) c = Some v /\ cell_at m c = v.
Proof.
  intros c H. destruct (nth_error (mv_cells m) c) as [v|] eqn:E; [|apply nth_error_None in E; unfold size in H; lia].
  exists v. split; [reflexivity|]. unfold cell_at. apply nth_error_nth, E.
Qed.
Lemma cell_geo : forall c, (c < size m 0)%nat -> go_kind (geom (DofModel.ECell c)) = GTriaO1 /\ go_dim (geom (DofModel.ECell c)) = 2%nat /\ constructed (geom (DofModel.ECell c)).
Proof. intros c H. destruct (cell_view c H) as (v & E & _). destruct (tr_cell _ _ _ TR c v E) as (_ & K & D & C & _). auto. Qed.
Lemma corner_pos : forall c i, (c < size m 0)%nat -> (i < 3)%nat -> same_points (nth i (polygon geom c) vzero) (pos (node_at c i)).
Proof.
  intros c i H Hi. destruct (cell_view c H) as (v & E & EC). destruct (tr_cell _ _ _ TR c v E) as (_ & _ & _ & _ & P). apply P.
  unfold node_at. rewrite EC. destruct (cell_shape m c v tr_trias E) as (n0 & n1 & n2 & _ & _ & _ & -> & _). destruct i as [|[|[|]]]; [reflexivity..|lia].
Qed.
Lemma basis_is : forall c, (c < size m 0)%nat -> basis_functions (geom (DofModel.ECell c)) = Ok (basis_at c) /\ length (basis_at c) = 3%nat.
Proof.
  intros c H. destruct (cell_geo c H) as (K & D & C). destruct (basis_ok _ K D C) as (B & E & L & _). unfold basis_at. rewrite E. auto.
Qed.
Lemma normals_is : forall c, (c < size m 0)%nat -> computeOutwardNormals (geom (DofModel.ECell c)) = Ok (normals_at c) /\
  forall i, (i < 3)%nat -> same_points (nth i (normals_at c) vzero) (n c i).
Proof.
  intros c H. destruct (cell_geo c H) as (K & D & C). destruct (outward_normals _ K D C) as (N & E & L & O). unfold normals_at. rewrite E. split; [reflexivity|].
  intros i Hi k Hk. destruct (tria_points _ K D C) as (a & b & c' & EC & A & _).
  symmetry. apply (outer_unique (polygon geom c) i); [unfold polygon; rewrite EC; exact A|unfold polygon; rewrite EC; exact Hi|apply O, Hi| |exact Hk].
  apply (NO c i (side_at m c i)). apply side_edge_of. rewrite is_side_at by (try exact tr_trias; assumption). apply Nat.eqb_refl.
Qed.
Lemma field_curl : forall x, curl_of m pos x (field_at x).
Proof.
  intros x c v E. assert (H : (c < size m 0)%nat) by (apply nth_error_Some; congruence).
  destruct (cell_geo c H) as (K & D & C). destruct (basis_ok _ K D C) as (B & EB & _ & Q). specialize (Q (fun i => x (node_at c i))). cbv beta in Q.
  destruct Q as (r & g0 & g1 & V & V0 & V1). exists r, g0, g1.
  unfold field_at, basis_at. rewrite EB. split; [|split; assumption].
  intros p I. apply In_nth with (d := 0%nat) in I as (i & Hi & <-).
  assert (Ev : cell_at m c = v) by (unfold cell_at; apply nth_error_nth, E).
  destruct (cell_shape m c v tr_trias E) as (n0 & n1 & n2 & _ & _ & _ & En & _).
  assert (Hi3 : (i < 3)%nat) by (rewrite En in Hi; exact Hi).
  replace (nth i (cv_nodes v) 0%nat) with (node_at c i) by (unfold node_at; rewrite Ev; reflexivity).
  pose proof (corner_pos c i H Hi3) as P. unfold polygon in P. rewrite <- (P 0%nat), <- (P 1%nat) by lia. apply V, Hi3.
Qed.
Lemma corners_nonflat : forall c, (c < size m 0)%nat -> area2 (pos (node_at c 0)) (pos (node_at c 1)) (pos (node_at c 2)) <> 0.
Proof.
  intros c H. destruct (cell_geo c H) as (K & D & C). destruct (tria_points _ K D C) as (a & b & d & EC & A & _).
  pose proof (corner_pos c 0 H ltac:(lia)) as P0. pose proof (corner_pos c 1 H ltac:(lia)) as P1. pose proof (corner_pos c 2 H ltac:(lia)) as P2.
  unfold polygon in *. rewrite EC in P0, P1, P2. cbn [nth] in P0, P1, P2. unfold area2 in *.
  rewrite <- (P0 0%nat), <- (P0 1%nat), <- (P1 0%nat), <- (P1 1%nat), <- (P2 0%nat), <- (P2 1%nat) by lia. exact A.
Qed.
Lemma node_in : forall c v i, nth_error (mv_cells m) c = Some v -> (i < 3)%nat -> In (node_at c i) (cv_nodes v).
Proof.
  intros c v i E Hi. assert (Ev : cell_at m c = v) by (unfold cell_at; apply nth_error_nth, E). unfold node_at. rewrite Ev.
  apply nth_In. destruct (cell_shape m c v tr_trias E) as (n0 & n1 & n2 & _ & _ & _ & -> & _). exact Hi.
Qed.
(** Two equations for the gradient have one solution. *)
Lemma gradient_unique : forall a b c g0 g1 h0 h1 r s, area2 a b c <> 0 ->
  r + g0 * a 0%nat + g1 * a 1%nat = s + h0 * a 0%nat + h1 * a 1%nat ->
  r + g0 * b 0%nat + g1 * b 1%nat = s + h0 * b 0%nat + h1 * b 1%nat ->
  r + g0 * c 0%nat + g1 * c 1%nat = s + h0 * c 0%nat + h1 * c 1%nat -> g0 = h0 /\ g1 = h1.
Proof.
  intros a b c g0 g1 h0 h1 r s A Ea Eb Ec.
  assert (E1 : (g0 - h0) * (b 0%nat - a 0%nat) + (g1 - h1) * (b 1%nat - a 1%nat) = 0) by lra.
  assert (E2 : (g0 - h0) * (c 0%nat - a 0%nat) + (g1 - h1) * (c 1%nat - a 1%nat) = 0) by lra.
  assert (D0 : (g0 - h0) * area2 a b c = 0).
  { unfold area2. transitivity (((g0 - h0) * (b 0%nat - a 0%nat) + (g1 - h1) * (b 1%nat - a 1%nat)) * (c 1%nat - a 1%nat) - ((g0 - h0) * (c 0%nat - a 0%nat) + (g1 - h1) * (c 1%nat - a 1%nat)) * (b 1%nat - a 1%nat)); [ring|]. rewrite E1, E2. ring. }
  assert (D1 : (g1 - h1) * area2 a b c = 0).
  { unfold area2. transitivity (((g0 - h0) * (c 0%nat - a 0%nat) + (g1 - h1) * (c 1%nat - a 1%nat)) * (b 0%nat - a 0%nat) - ((g0 - h0) * (b 0%nat - a 0%nat) + (g1 - h1) * (b 1%nat - a 1%nat)) * (c 0%nat - a 0%nat)); [ring|]. rewrite E1, E2. ring. }
  apply Rmult_integral in D0. apply Rmult_integral in D1. destruct D0; [|contradiction]. destruct D1; [|contradiction]. lra.
Qed.
Lemma curl_unique : forall x w w' c, curl_of m pos x w -> curl_of m pos x w' -> (c < size m 0)%nat -> same_points (w c) (w' c).
Proof.
  intros x w w' c C C' H. destruct (cell_view c H) as (v & E & _). destruct (C c v E) as (r & g0 & g1 & V & W0 & W1). destruct (C' c v E) as (r' & h0 & h1 & V' & W0' & W1').
  destruct (gradient_unique _ _ _ g0 g1 h0 h1 r r' (corners_nonflat c H)) as [E0 E1];
    try (rewrite <- V, <- V' by (apply (node_in c v); [exact E|lia]); reflexivity).
  intros k Hk. destruct k as [|[|]]; [| |lia]; [rewrite W0, W0'|rewrite W1, W1']; congruence.
Qed.
Lemma jump_ext : forall w w' e, (forall c, (c < size m 0)%nat -> same_points (w c) (w' c)) -> jump m n w e = jump m n w' e.
Proof.
  intros w w' e H. apply sum_to_ext. intros c Hc. apply sum_to_ext. intros i _. destruct (is_side m c i e); [|reflexivity].
  apply inner_same; [apply H, Hc|apply same_refl].
Qed.
Lemma jump_over : forall w e, jump m n w e = over_sides m (fun c i => inner 2 (w c) (turn (n c i))) e.
Proof. reflexivity. Qed.
Lemma edge_volume : forall e, (e < size m 1)%nat -> Volume (geom (EEdge e)) = Ok (StokesSpec.edge_length m pos e).
Proof.
  intros e H. destruct (nth_error (mv_edges m) e) as [[a b]|] eqn:E; [|apply nth_error_None in E; unfold size in H; lia].
  destruct (tr_edge _ _ _ TR e a b E) as (K & D & P0 & P1). rewrite volume_segment by exact K. f_equal. unfold StokesSpec.edge_length. rewrite E, D.
  unfold distance, col. cbn [seq map fold_right]. rewrite (P0 0%nat), (P0 1%nat), (P1 0%nat), (P1 1%nat) by lia. reflexivity.
Qed.
(** The end points of the sides of a cell. *)
Lemma side_ends : forall c i e, edge_of m c i e -> exists a b, nth_error (mv_edges m) e = Some (a, b) /\ (c < size m 0)%nat /\ (i < 3)%nat /\
  ((a = node_at c i /\ b = node_at c ((i + 1) mod 3)) \/ (b = node_at c i /\ a = node_at c ((i + 1) mod 3))).
Proof.
  intros c i e (v & E & Ei). assert (H : (c < size m 0)%nat) by (apply nth_error_Some; congruence).
  assert (Ev : cell_at m c = v) by (unfold cell_at; apply nth_error_nth, E).
  destruct (cell_shape m c v tr_trias E) as (n0 & n1 & n2 & e0 & e1 & e2 & En & Ee & WC).
  assert (Hi : (i < 3)%nat) by (assert (L : (i < length (cv_edges v))%nat) by (apply nth_error_Some; congruence); rewrite Ee in L; exact L).
  destruct (wc_local _ _ WC i) as (e' & o & p0 & p1 & Q1 & Q2 & Q3 & Q4); [rewrite En; exact Hi|].
  rewrite Ei in Q1. injection Q1 as <-. exists p0, p1. split; [exact Q3|]. split; [exact H|]. split; [exact Hi|].
  unfold next_corner in Q4. unfold node_at. rewrite Ev, En in *. cbn [length] in Q4. replace (S i) with (i + 1)%nat in Q4 by lia. destruct o; [left|right]; tauto.
Qed.
Lemma mod3 : forall i, ((i + 1) mod 3 < 3)%nat. Proof. intros. apply Nat.mod_upper_bound. lia. Qed.
Lemma side_length : forall c i e, edge_of m c i e -> 0 < StokesSpec.edge_length m pos e /\
  StokesSpec.edge_length m pos e = distance 2 (start (polygon geom c) i) (stop (polygon geom c) i).
Proof.
  intros c i e O. destruct (side_ends c i e O) as (a & b & E & H & Hi & AB).
  destruct (cell_geo c H) as (K & D & C). destruct (tria_points _ K D C) as (x & y & z & EC & A & _).
  assert (L : 0 < distance 2 (start (polygon geom c) i) (stop (polygon geom c) i)).
  { apply NormalProofs4.edge_length; unfold polygon; rewrite EC; [exact A|exact Hi]. }
  assert (EL : StokesSpec.edge_length m pos e = distance 2 (start (polygon geom c) i) (stop (polygon geom c) i)).
  { unfold StokesSpec.edge_length. rewrite E. unfold start, stop.
    assert (LP : length (polygon geom c) = 3%nat) by (unfold polygon; rewrite EC; reflexivity). rewrite LP.
    pose proof (corner_pos c i H Hi) as P. pose proof (corner_pos c _ H (mod3 i)) as P'.
    destruct AB as [[-> ->]|[-> ->]]; unfold distance; cbn [seq map fold_right];
    rewrite (P 0%nat), (P 1%nat), (P' 0%nat), (P' 1%nat) by lia; [reflexivity|]. f_equal. ring. }
  rewrite EL. auto.
Qed.
End Cells.
