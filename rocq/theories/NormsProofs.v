(** C101: integrals over the cells. *)
From Coq Require Import Reals List Arith Lia Lra Bool.
Import ListNotations.
From Verif Require Import Base Scalars MeshModel MeshView RefPatModel GeoModel GeoSpec DofModel FlagSpec FlagModel RefineSpec FeModel QuadModel AssembleModel ElemModel ElemSpec ElemProofs ElemProofs2 ElemProofs3 FeSpec FeProofs HierProofs3
  FeToolsModel FeToolsProofs FeToolsProofs4 GalerkinModel DpgModel MfModel NormalModel NormalSpec NormalProofs3 StokesModel StokesSpec StokesProofs StokesProofs3 StokesProofs4 StokesProofs5 NormsModel NormsSpec.
Local Open Scope R_scope.

Section Cells.
Variables (m : mesh) (geom : ent -> geo) (pos : nat -> vec) (q : ent -> quadrule).
Hypothesis TR : triangulation m geom pos.
Lemma element : forall c p, (c < size m 0)%nat -> length p = 2%nat -> IntegrationElement (geom (DofModel.ECell c)) p = Ok (triangle_det geom c).
Proof.
  intros c p H L2. destruct (cell_geo m geom pos TR c H) as (K & D & C). destruct (tria_points _ K D C) as (pa & pb & pc & EC & A & _).
  assert (Ec : col (geom (DofModel.ECell c)) = fun i => nth i [pa; pb; pc] vzero) by (unfold col; rewrite EC; reflexivity).
  destruct p as [|s [|t [|]]]; try discriminate L2.
  unfold IntegrationElement, range_check, with_local, jac_cols, dim_local. rewrite K, D, Ec. cbn [is_o2 bind kind_el RefPatModel.el_dim length Nat.eqb lf_assert nth].
  unfold triangle_det, polygon. rewrite EC. cbn [nth]. rewrite det_area. reflexivity.
Qed.
Hypothesis CR : cell_rules m q.
Hypothesis NE : (0 < size m 0)%nat.
Variables (mf : meshfun) (h : nat -> list R -> R).
Hypothesis HF : forall c p, (c < size m 0)%nat -> length p = 2%nat -> mf (DofModel.ECell c) p = Ok (h c p).
Definition cell_part (c : nat) : R :=
  sum_to (length (qr_points (q (DofModel.ECell c)))) (fun k => nth k (qr_weights (q (DofModel.ECell c))) 0 * triangle_det geom c * h c (nth k (qr_points (q (DofModel.ECell c))) [])).
Lemma dot_sum : forall (g : list R -> R) d pts ws, length ws = length pts ->
  FeModel.dot (map g pts) (map (fun p => fst p * snd p) (combine ws (map (fun _ => d) pts))) = sum_to (length pts) (fun k => nth k ws 0 * d * g (nth k pts [])).
Proof.
  intros g d. induction pts as [|p pts IH]; intros [|w ws] L; try discriminate L; [reflexivity|].
  cbn [map combine length]. rewrite dot_cons, IH by (injection L; auto). unfold sum_to. cbn [seq map fold_right nth fst snd]. rewrite <- seq_shift, map_map. cbn [nth]. ring.
Qed.
Lemma local_cell : forall c, (c < size m 0)%nat -> LocalIntegral geom q mf (DofModel.ECell c) = Ok (cell_part c).
Proof.
  intros c H. destruct (CR c H) as [[LW LP] NP]. unfold LocalIntegral.
  rewrite (traverse_map _ _ (mf (DofModel.ECell c)) (h c)) by (intros p I; apply HF; auto). cbn [bind].
  rewrite (traverse_map _ _ _ (fun _ => triangle_det geom c)) by (intros p I; apply element; auto). cbn [bind].
  rewrite !map_length, LW, Nat.eqb_refl. unfold NumPoints. rewrite Nat.eqb_refl. cbn [lf_assert bind].
  destruct (0 <? length (qr_points (q (DofModel.ECell c))))%nat eqn:Q; [|apply Nat.ltb_ge in Q; destruct (qr_points (q (DofModel.ECell c))); [contradiction|cbn in Q; lia]].
  cbn [lf_assert bind]. f_equal. unfold cell_part. apply dot_sum, LW.
Qed.
Lemma loop_cells : forall k j r, (j + k <= size m 0)%nat ->
  integrate_loop (LocalIntegral geom q mf) (fun _ => true) (map DofModel.ECell (seq j k)) r = Ok (r + fold_right Rplus 0 (map cell_part (seq j k))).
Proof.
  induction k as [|k IH]; intros j r L; cbn [seq map integrate_loop fold_right]; [f_equal; ring|].
  rewrite local_cell by lia. cbn [bind]. rewrite IH by lia. f_equal. ring.
Qed.
Lemma integral : IntegrateMeshFunction m geom mf q (fun _ => true) 0 = Ok (sum_to (size m 0) cell_part).
Proof.
  unfold IntegrateMeshFunction. rewrite cells_are. unfold sum_to. assert (SK : exists k, size m 0 = S k) by (exists (size m 0 - 1)%nat; lia). destruct SK as [k SK]. rewrite !SK. cbn [seq map fold_right].
  rewrite local_cell by lia. cbn [bind]. rewrite loop_cells by lia. reflexivity.
Qed.
End Cells.

(** * The integrands *)
Section Integrands.
Variables (m : mesh) (geom : ent -> geo).
Lemma one_point : forall A (x : list A), (forall p, In p [x] -> length p = 2%nat) <-> length x = 2%nat.
Proof. intros A x. split; [intros H; apply H; left; reflexivity|intros H p [<-|[]]; exact H]. Qed.
Lemma vector_square : forall f U c p, vector_field m geom f U -> (c < size m 0)%nat -> length p = 2%nat ->
  scalar_fun (squaredNorm f) (DofModel.ECell c) p = Ok (square (U c (point_of geom c p))).
Proof.
  intros f U c p H Hc L. unfold scalar_fun, squaredNorm, MeshFunctionUnary. rewrite (H c [p] Hc) by (apply one_point, L).
  set (u := U c (point_of geom c p)). transitivity (Ok (0 + u 0%nat * u 0%nat + u 1%nat * u 1%nat)); [reflexivity|].
  unfold square. rewrite inner2. f_equal. ring.
Qed.
Lemma matrix_square : forall f G c p, matrix_field m geom MatrixXd f G -> (c < size m 0)%nat -> length p = 2%nat ->
  scalar_fun (squaredNorm f) (DofModel.ECell c) p = Ok (square_norm (G c (point_of geom c p))).
Proof.
  intros f G c p H Hc L. unfold scalar_fun, squaredNorm, MeshFunctionUnary. rewrite (H c [p] Hc) by (apply one_point, L).
  set (g := G c (point_of geom c p)). transitivity (Ok (0 + g 0%nat 0%nat * g 0%nat 0%nat + g 1%nat 0%nat * g 1%nat 0%nat + g 0%nat 1%nat * g 0%nat 1%nat + g 1%nat 1%nat * g 1%nat 1%nat)); [reflexivity|].
  unfold square_norm, sum_to. cbn [seq map fold_right]. f_equal. ring.
Qed.
Lemma fixed_square : forall f G c p, matrix_field m geom Matrix2d f G -> (c < size m 0)%nat -> length p = 2%nat ->
  scalar_fun (squaredNorm f) (DofModel.ECell c) p = Ok 0.
Proof.
  intros f G c p H Hc L. unfold scalar_fun, squaredNorm, MeshFunctionUnary. rewrite (H c [p] Hc) by (apply one_point, L). reflexivity.
Qed.
End Integrands.

Theorem l2_norm : forall m geom pos q f U, triangulation m geom pos -> (0 < size m 0)%nat -> cell_rules m q -> vector_field m geom f U ->
  L2norm m geom f q = Ok (sqrt (cell_quadrature m geom q (fun c x => square (U c x)))).
Proof.
  intros m geom pos q f U TR NE CR VF. unfold L2norm.
  rewrite (integral m geom pos q TR CR NE _ (fun c p => square (U c (point_of geom c p)))); [reflexivity|]. intros c p Hc L. apply (vector_square m geom); assumption.
Qed.
(** Fields that are constant on each cell. *)
Theorem l2_constant : forall m geom pos q f w, triangulation m geom pos -> (0 < size m 0)%nat -> cell_rules m q -> vector_field m geom f (fun c _ => w c) ->
  (forall c, (c < size m 0)%nat -> fold_right Rplus 0 (qr_weights (q (DofModel.ECell c))) = 1 / 2) ->
  L2norm m geom f q = Ok (sqrt (sum_to (size m 0) (fun c => triangle_det geom c / 2 * square (w c)))).
Proof.
  intros m geom pos q f w TR NE CR VF W. rewrite (l2_norm m geom pos q f _ TR NE CR VF). do 2 f_equal. unfold cell_quadrature. apply sum_to_ext. intros c Hc.
  pose proof (W c Hc) as Q. destruct (CR c Hc) as [[LW _] _]. replace (triangle_det geom c / 2 * square (w c)) with (1 / 2 * triangle_det geom c * square (w c)) by field. rewrite <- Q, <- LW.
  unfold sum_to. generalize (qr_weights (q (DofModel.ECell c))) as l. intros l. induction l as [|x l IH]; cbn [length seq map fold_right]; [ring|].
  rewrite <- seq_shift, map_map. cbn [nth]. rewrite IH. ring.
Qed.
