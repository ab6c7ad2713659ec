(** C96-C98: existence of normals; a square of four triangles. *)
From Coq Require Import Reals List Arith Lia Lra Bool.
Import ListNotations.
From Verif Require Import Base Scalars MeshModel MeshView RefPatModel GeoModel GeoSpec GeoProofs GeoProofs2 DofModel DofSpec FlagSpec FlagModel FlagProofs RefineSpec FeModel QuadModel LagrModel
  AssembleModel AssembleSpec ElemModel ElemSpec FeSpec GalerkinModel DpgModel NormalModel NormalSpec NormalProofs NormalProofs5
  StokesModel StokesSpec StokesProofs StokesProofs2 StokesProofs3 StokesProofs4 StokesProofs8.
Local Open Scope R_scope.

Theorem normals_exist : forall m geom pos, triangulation m geom pos -> exists n, normals_of m geom n /\
  forall c, (c < size m 0)%nat -> exists L, computeOutwardNormals (geom (DofModel.ECell c)) = Ok L /\ forall i, (i < 3)%nat -> nth i L vzero = n c i.
Proof.
  intros m geom pos TR. exists (fun c i => nth i (normals_at geom c) vzero).
  assert (H : forall c, (c < size m 0)%nat -> computeOutwardNormals (geom (DofModel.ECell c)) = Ok (normals_at geom c) /\ forall i, (i < 3)%nat -> outer_normal (polygon geom c) i (nth i (normals_at geom c) vzero)).
  { intros c Hc. destruct (cell_geo m geom pos TR c Hc) as (K & D & C). destruct (outward_normals _ K D C) as (L & E & _ & O). unfold normals_at. rewrite E. split; [reflexivity|exact O]. }
  split.
  - intros c i e O. destruct (side_bounds m c i e (tr_trias _ _ _ TR) O) as (Hc & Hi & _). apply (proj2 (H c Hc) i Hi).
  - intros c Hc. exists (normals_at geom c). split; [apply (H c Hc)|reflexivity].
Qed.

(** * Triangles on both sides of a line *)
Lemma line_region : forall (a b c x : vec) l0 l1 l2, region [a; b; c] x -> l0 * a 0%nat + l1 * a 1%nat + l2 <= 0 -> l0 * b 0%nat + l1 * b 1%nat + l2 <= 0 ->
  l0 * c 0%nat + l1 * c 1%nat + l2 <= 0 -> l0 * x 0%nat + l1 * x 1%nat + l2 <= 0.
Proof.
  intros a b c x l0 l1 l2 H Ha Hb Hc. inversion H as [p q r y T|? ? ? ? ? ? ?|? ? ? ? ? ? ?]; subst. destruct T as (r & s & t & A & B & C & D & E).
  rewrite (E 0%nat), (E 1%nat) by lia.
  apply Rle_trans with (r * (l0 * a 0%nat + l1 * a 1%nat + l2) + s * (l0 * b 0%nat + l1 * b 1%nat + l2) + t * (l0 * c 0%nat + l1 * c 1%nat + l2)).
  - apply Req_le. replace l2 with ((r + s + t) * l2) at 1 by (rewrite D; ring). ring.
  - assert (r * (l0 * a 0%nat + l1 * a 1%nat + l2) <= 0) by (rewrite <- (Rmult_0_r r); apply Rmult_le_compat_l; assumption).
    assert (s * (l0 * b 0%nat + l1 * b 1%nat + l2) <= 0) by (rewrite <- (Rmult_0_r s); apply Rmult_le_compat_l; assumption).
    assert (t * (l0 * c 0%nat + l1 * c 1%nat + l2) <= 0) by (rewrite <- (Rmult_0_r t); apply Rmult_le_compat_l; assumption). lra.
Qed.
Lemma line_apart : forall (a b c a' b' c' : vec) l0 l1 l2, Rabs l0 <= 1 -> Rabs l1 <= 1 -> l0 * l0 + l1 * l1 > 0 ->
  l0 * a 0%nat + l1 * a 1%nat + l2 <= 0 -> l0 * b 0%nat + l1 * b 1%nat + l2 <= 0 -> l0 * c 0%nat + l1 * c 1%nat + l2 <= 0 ->
  0 <= l0 * a' 0%nat + l1 * a' 1%nat + l2 -> 0 <= l0 * b' 0%nat + l1 * b' 1%nat + l2 -> 0 <= l0 * c' 0%nat + l1 * c' 1%nat + l2 ->
  disjoint_interiors [a; b; c] [a'; b'; c'].
Proof.
  intros a b c a' b' c' l0 l1 l2 A0 A1 P Ha Hb Hc Ha' Hb' Hc' x [(r & Hr & K) (r' & Hr' & K')].
  assert (X' : 0 <= l0 * x 0%nat + l1 * x 1%nat + l2).
  { assert (Q := line_region a' b' c' x (- l0) (- l1) (- l2)). assert (- l0 * x 0%nat + - l1 * x 1%nat + - l2 <= 0); [|lra]. apply Q; try lra.
    apply K'. intros k _. rewrite Rminus_diag_eq by reflexivity. rewrite Rabs_R0. exact Hr'. }
  set (y := fun k : nat => x k + r / 2 * match k with 0%nat => l0 | _ => l1 end).
  assert (Y : l0 * y 0%nat + l1 * y 1%nat + l2 <= 0).
  { apply (line_region a b c y l0 l1 l2); auto. apply K. intros k Hk. unfold y. replace (x k + r / 2 * _ - x k) with (r / 2 * match k with 0%nat => l0 | _ => l1 end) by ring.
    rewrite Rabs_mult, (Rabs_pos_eq (r / 2)) by lra.
    assert (B : Rabs match k with 0%nat => l0 | _ => l1 end <= 1) by (destruct k; assumption).
    apply Rle_lt_trans with (r / 2 * 1); [apply Rmult_le_compat_l; lra|lra]. }
  unfold y in Y. cbv iota beta in Y.
  assert (Z : 0 < r / 2 * (l0 * l0 + l1 * l1)) by (apply Rmult_lt_0_compat; lra). lra.
Qed.

(** * The square *)
Definition sq_mesh : mesh := mkMeshV 5 [(0, 1); (1, 2); (2, 3); (3, 0); (0, 4); (1, 4); (2, 4); (3, 4)]%nat
  [mkCellv [0; 1; 4]%nat [0; 5; 4]%nat [true; true; false]; mkCellv [1; 2; 4]%nat [1; 6; 5]%nat [true; true; false];
   mkCellv [2; 3; 4]%nat [2; 7; 6]%nat [true; true; false]; mkCellv [3; 0; 4]%nat [3; 4; 7]%nat [true; true; false]].
Definition sq_pos (v : nat) : vec :=
  match v with 0%nat => vec2 0 0 | 1%nat => vec2 2 0 | 2%nat => vec2 2 2 | 3%nat => vec2 0 2 | _ => vec2 1 1 end.
Definition sq_geom (e : ent) : geo :=
  match e with
  | DofModel.ECell c => mkGeo GTriaO1 2 (map sq_pos (cv_nodes (cell_at sq_mesh c)))
  | EEdge s => match nth_error (mv_edges sq_mesh) s with Some (a, b) => mkGeo GSegmentO1 2 [sq_pos a; sq_pos b] | None => mkGeo GSegmentO1 2 [] end
  | ENode v => mkGeo GPoint 2 [sq_pos v]
  end.
Ltac eight i := destruct i as [|[|[|[|[|[|[|[|i]]]]]]]].
Lemma sq_wf : wf_mesh sq_mesh /\ complete_mesh sq_mesh.
Proof.
  split; [split|split].
  - assert (H : forall c, In c (mv_cells sq_mesh) -> wf_cell sq_mesh c); [|apply Forall_forall; exact H].
    intros c H. cbn [In sq_mesh mv_cells] in H. destruct H as [<-|[<-|[<-|[<-|[]]]]];
    (split; [left; reflexivity|reflexivity|reflexivity|repeat constructor|]; intros j Hj; cbn in Hj; destruct j as [|[|[|]]]; [| | |lia]; do 4 eexists; repeat split; reflexivity).
  - intros i a b H. eight i; cbn in H; try (injection H as <- <-; cbn; lia). destruct i; discriminate.
  - intros i j a b c d H H' E. eight i; cbn in H; try (destruct i; discriminate H); injection H as <- <-;
      (eight j; cbn in H'; try (destruct j; discriminate H'); injection H' as <- <-; lia).
  - intros i H. cbn in H. eight i; try lia; [exists (cell_at sq_mesh 0)|exists (cell_at sq_mesh 1)|exists (cell_at sq_mesh 2)|exists (cell_at sq_mesh 3)|exists (cell_at sq_mesh 0)|exists (cell_at sq_mesh 0)|exists (cell_at sq_mesh 1)|exists (cell_at sq_mesh 2)]; cbn; tauto.
  - intros v H. cbn in H. destruct v as [|[|[|[|[|]]]]]; try lia; [exists 0%nat, 1%nat|exists 0%nat, 1%nat|exists 1%nat, 2%nat|exists 2%nat, 3%nat|exists 0%nat, 4%nat]; cbn; tauto.
Qed.
Ltac new_tria := unfold new_geo, check_tria, tol;
  cbv [sq_geom cell_at sq_mesh mv_cells cv_nodes sq_pos vec2 map go_cols length num_cols Nat.eqb lf_assert bind nth sqnorm GeoModel.dot vsub seq fold_right cross2];
  repeat match goal with |- context [gtb ?a ?b] =>
    replace (gtb a b) with true; [cbv beta iota delta [verify]|symmetry; apply gtb_true] end; try reflexivity; try lra; rewrite Rabs_right; lra.
Lemma sq_triangulation : triangulation sq_mesh sq_geom sq_pos.
Proof.
  split; [apply sq_wf| |].
  - intros c v E. assert (Hc : (c < 4)%nat) by (assert (Q : (c < length (mv_cells sq_mesh))%nat) by (apply nth_error_Some; congruence); exact Q).
    destruct c as [|[|[|[|]]]]; try lia; cbn in E; injection E as <-; (split; [reflexivity|]); (split; [reflexivity|]); (split; [reflexivity|]);
    (split; [|intros i p Hp; destruct i as [|[|[|[|]]]]; cbn in Hp; try discriminate Hp; injection Hp as <-; intros k _; reflexivity]).
    + left. exists GTriaO1, 2%nat, (map sq_pos [0; 1; 4]%nat). new_tria.
    + left. exists GTriaO1, 2%nat, (map sq_pos [1; 2; 4]%nat). new_tria.
    + left. exists GTriaO1, 2%nat, (map sq_pos [2; 3; 4]%nat). new_tria.
    + left. exists GTriaO1, 2%nat, (map sq_pos [3; 0; 4]%nat). new_tria.
  - intros e a b E. unfold sq_geom. rewrite E. repeat split; reflexivity.
Qed.

Lemma sq_manifold : manifold sq_mesh.
Proof. intros e H. cbn in H. eight e; try lia; cbv; auto. Qed.
Lemma sq_reached : all_reached sq_mesh.
Proof.
  intros c H. cbn in H. destruct c as [|[|[|[|]]]]; try lia; [apply reached_boundary with 0%nat 0%nat|apply reached_boundary with 0%nat 1%nat|apply reached_boundary with 0%nat 2%nat|apply reached_boundary with 0%nat 3%nat];
  try reflexivity; eexists; split; reflexivity.
Qed.
Lemma sq_apart : no_overlap sq_mesh sq_geom.
Proof.
  assert (SY : forall P Q, disjoint_interiors P Q -> disjoint_interiors Q P) by (intros P Q H x [A B]; exact (H x (conj B A))).
  assert (D01 : disjoint_interiors (polygon sq_geom 0) (polygon sq_geom 1)) by (apply (line_apart _ _ _ _ _ _ 1 1 (-2)); cbn; rewrite ?Rabs_R1; lra).
  assert (D12 : disjoint_interiors (polygon sq_geom 1) (polygon sq_geom 2)) by (apply (line_apart _ _ _ _ _ _ (-1) 1 0); cbn; rewrite ?Rabs_R1, ?(Rabs_left (-1)); lra).
  assert (D23 : disjoint_interiors (polygon sq_geom 2) (polygon sq_geom 3)) by (apply (line_apart _ _ _ _ _ _ (-1) (-1) 2); cbn; rewrite ?Rabs_R1, ?(Rabs_left (-1)); lra).
  assert (D03 : disjoint_interiors (polygon sq_geom 0) (polygon sq_geom 3)) by (apply (line_apart _ _ _ _ _ _ (-1) 1 0); cbn; rewrite ?Rabs_R1, ?(Rabs_left (-1)); lra).
  assert (D02 : disjoint_interiors (polygon sq_geom 0) (polygon sq_geom 2)) by (apply (line_apart _ _ _ _ _ _ 0 1 (-1)); cbn; rewrite ?Rabs_R1, ?Rabs_R0; lra).
  assert (D13 : disjoint_interiors (polygon sq_geom 1) (polygon sq_geom 3)) by (apply (line_apart _ _ _ _ _ _ (-1) 0 1); cbn; rewrite ?Rabs_R0, ?(Rabs_left (-1)); lra).
  intros c c' H H' Ne. cbn in H, H'. destruct c as [|[|[|[|]]]]; try lia; destruct c' as [|[|[|[|]]]]; try lia; auto.
Qed.
Definition centre_rule : quadrule := mkQr kTria [[1 / 3; 1 / 3]] [1 / 2] 1.
Lemma data_example : tria_rule centre_rule /\ of_points (fun x => x) /\ exists n, normals_of sq_mesh sq_geom n.
Proof.
  split; [split; [reflexivity|intros p [<-|[]]; reflexivity]|]. split; [intros x y H; exact H|]. destruct (normals_exist _ _ _ sq_triangulation) as (n & H & _). exists n. exact H.
Qed.
