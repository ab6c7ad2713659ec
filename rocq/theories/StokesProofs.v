(** C96: outward normals and tangentials; the basis functions on one triangle. *)
From Coq Require Import Reals List Arith Lia Lra Bool FunctionalExtensionality.
Import ListNotations.
From Verif Require Import Base Scalars MeshModel MeshView RefPatModel GeoModel GeoSpec GeoProofs GeoProofs2 GeoProofs3 DofModel FlagSpec FlagModel RefineSpec FeModel QuadModel LagrModel AssembleModel
  ElemModel ElemSpec GalerkinModel DpgModel NormalModel NormalSpec NormalProofs NormalProofs2 NormalProofs3 NormalProofs4 NormalProofs5 StokesModel StokesSpec.
Local Open Scope R_scope.

Lemma tria_points : forall g, go_kind g = GTriaO1 -> go_dim g = 2%nat -> constructed g ->
  exists a b c, go_cols g = [a; b; c] /\ area2 a b c <> 0 /\ Corners g = Ok [a; b; c].
Proof.
  intros g K D C.
  assert (S : straight g).
  { split; [left; exact K|]. split; [exact D|]. split; [exact C|]. split; [intros X; congruence|intros X; congruence]. }
  destruct (straight_oriented g S) as [sg O]. pose proof (constructed_cols g C) as L. rewrite K in L. cbn [num_cols] in L.
  pose proof (tria_nonflat g K D C) as NF. unfold col in NF.
  assert (EC : Corners g = Ok (go_cols g)) by (destruct O; assumption).
  destruct (go_cols g) as [|a [|b [|c [|]]]]; try discriminate L. exists a, b, c. split; [reflexivity|]. split; [exact NF|exact EC].
Qed.
Lemma sign_of : forall A, A <> 0 -> exists sg, sign1 sg /\ 0 < sg * A /\ A / Rabs A = sg.
Proof.
  intros A H. destruct (Rlt_le_dec 0 A) as [P|P].
  - exists 1. split; [left; reflexivity|]. split; [lra|]. rewrite Rabs_pos_eq by lra. field. exact H.
  - exists (-1). split; [right; reflexivity|]. split; [lra|]. rewrite Rabs_left1 by lra. field. exact H.
Qed.

(** The raw normal of the edge from p to q with the third point r. *)
Lemma outward_nrm : forall p q r sg (w : vec), area2 p q r <> 0 -> sign1 sg -> area2 p q r / Rabs (area2 p q r) = sg ->
  w 0%nat = (q 1%nat - p 1%nat) * (- area2 p q r) -> w 1%nat = (p 0%nat - q 0%nat) * (- area2 p q r) ->
  forall k, (k < 2)%nat -> - (w k / sqrt (sqnorm 2 w)) = nrm sg p q k.
Proof.
  intros p q r sg w A S E W0 W1 k Hk. pose proof (area_dist p q r A) as L.
  set (T := area2 p q r) in *.
  assert (N : sqrt (sqnorm 2 w) = Rabs T * distance 2 p q).
  { apply sqrt_lem_1; [apply sqnorm_pos|apply Rmult_le_pos; [apply Rabs_pos|lra]|].
    transitivity (Rabs T * Rabs T * (distance 2 p q * distance 2 p q)); [ring|]. rewrite dist_sq.
    replace (Rabs T * Rabs T) with (T * T) by (rewrite <- Rabs_mult, Rabs_pos_eq; [reflexivity|apply Rle_0_sqr]).
    unfold sqnorm, GeoModel.dot. cbn [seq map fold_right]. rewrite W0, W1. ring. }
  rewrite N. assert (ZA : Rabs T <> 0) by (apply Rabs_no_R0; exact A).
  destruct k as [|[|]]; [| |lia]; cbn [nrm].
  - rewrite W0, <- E. field. split; lra.
  - rewrite W1, <- E. field. split; lra.
Qed.
Lemma outward_points : forall a b c, area2 a b c <> 0 -> exists sg, sign1 sg /\ 0 < sg * area2 a b c /\
  forall i, (i < 3)%nat -> forall k, (k < 2)%nat -> outward [a; b; c] i k = nrm sg (start [a; b; c] i) (stop [a; b; c] i) k.
Proof.
  intros a b c A. destruct (sign_of _ A) as (sg & S & P & E). exists sg. split; [exact S|]. split; [exact P|].
  intros i Hi k Hk. unfold outward.
  destruct i as [|[|[|]]]; [| | |lia]; unfold start, stop; cbn [length Nat.add Nat.modulo Nat.divmod Nat.sub fst snd nth];
    cbv [Nat.modulo Nat.divmod Nat.sub fst snd nth Nat.add].
  - apply (outward_nrm a b c sg (fun k => raw_normal [a; b; c] 0 k * GeoModel.dot 2 (raw_normal [a; b; c] 0) (test_vector [a; b; c] 0))); [exact A|exact S|exact E| | |exact Hk];
      unfold raw_normal, test_vector, GeoModel.dot, vec2, vsub, area2; cbn [length Nat.ltb Nat.leb Nat.sub Nat.add nth seq map fold_right]; ring.
  - assert (EA : area2 b c a = area2 a b c) by (unfold area2; ring).
    apply (outward_nrm b c a sg (fun k => raw_normal [a; b; c] 1 k * GeoModel.dot 2 (raw_normal [a; b; c] 1) (test_vector [a; b; c] 1))); [rewrite EA; exact A|exact S|rewrite EA; exact E| | |exact Hk];
      unfold raw_normal, test_vector, GeoModel.dot, vec2, vsub, area2; cbn [length Nat.ltb Nat.leb Nat.sub Nat.add nth seq map fold_right]; ring.
  - assert (EA : area2 c a b = area2 a b c) by (unfold area2; ring).
    apply (outward_nrm c a b sg (fun k => raw_normal [a; b; c] 2 k * GeoModel.dot 2 (raw_normal [a; b; c] 2) (test_vector [a; b; c] 2))); [rewrite EA; exact A|exact S|rewrite EA; exact E| | |exact Hk];
      unfold raw_normal, test_vector, GeoModel.dot, vec2, vsub, area2; cbn [length Nat.ltb Nat.leb Nat.sub Nat.add nth seq map fold_right]; ring.
Qed.

(** * C96 *)
Theorem outward_normals : forall g, go_kind g = GTriaO1 -> go_dim g = 2%nat -> constructed g ->
  exists N, computeOutwardNormals g = Ok N /\ length N = 3%nat /\
    forall i, (i < 3)%nat -> outer_normal (go_cols g) i (nth i N vzero).
Proof.
  intros g K D C. destruct (tria_points g K D C) as (a & b & c & EC & A & Co).
  unfold computeOutwardNormals. rewrite Co, D, EC. cbn [bind length Nat.eqb andb lf_assert].
  destruct (outward_points a b c A) as (sg & S & P & E).
  exists (map (outward [a; b; c]) (seq 0 3)). split; [reflexivity|]. split; [reflexivity|]. intros i Hi.
  replace (nth i (map (outward [a; b; c]) (seq 0 3)) vzero) with (outward [a; b; c] i) by (destruct i as [|[|[|]]]; [reflexivity..|lia]).
  apply (outer_normal_ext _ _ (nrm sg (start [a; b; c] i) (stop [a; b; c] i))).
  - intros k Hk. symmetry. apply E; assumption.
  - apply (polygon_normals [a; b; c] sg S A); [exact P|exact Hi].
Qed.
Theorem tangentials : forall g, go_kind g = GTriaO1 -> go_dim g = 2%nat -> constructed g ->
  exists N T, computeOutwardNormals g = Ok N /\ computeTangentials g = Ok T /\ length T = 3%nat /\
    forall i, (i < 3)%nat -> same_points (nth i T vzero) (turn (nth i N vzero)).
Proof.
  intros g K D C. destruct (outward_normals g K D C) as (N & EN & L & _). exists N, (map tangential N).
  unfold computeTangentials. rewrite EN. cbn [bind]. split; [reflexivity|]. split; [reflexivity|]. split; [rewrite map_length; exact L|].
  intros i Hi k Hk. rewrite (nth_indep _ vzero (tangential vzero)) by (rewrite map_length; lia). rewrite map_nth.
  destruct k as [|[|]]; [reflexivity|reflexivity|lia].
Qed.
Theorem neighbours : forall g g' N N' T T' i i', go_kind g = GTriaO1 -> go_dim g = 2%nat -> constructed g ->
  go_kind g' = GTriaO1 -> go_dim g' = 2%nat -> constructed g' ->
  computeOutwardNormals g = Ok N -> computeOutwardNormals g' = Ok N' -> computeTangentials g = Ok T -> computeTangentials g' = Ok T' ->
  (i < 3)%nat -> (i' < 3)%nat -> common_edge (go_cols g) i (go_cols g') i' -> disjoint_interiors (go_cols g) (go_cols g') ->
  forall k, (k < 2)%nat -> nth i' N' vzero k = - nth i N vzero k /\ nth i' T' vzero k = - nth i T vzero k.
Proof.
  intros g g' N N' T T' i i' K D C K' D' C' EN EN' ET ET' Hi Hi' CE DI.
  destruct (outward_normals g K D C) as (N1 & E1 & _ & O). rewrite EN in E1. injection E1 as <-.
  destruct (outward_normals g' K' D' C') as (N1 & E1 & _ & O'). rewrite EN' in E1. injection E1 as <-.
  destruct (tangentials g K D C) as (N1 & T1 & E1 & E2 & _ & TT). rewrite EN in E1. injection E1 as <-. rewrite ET in E2. injection E2 as <-.
  destruct (tangentials g' K' D' C') as (N1 & T1 & E1 & E2 & _ & TT'). rewrite EN' in E1. injection E1 as <-. rewrite ET' in E2. injection E2 as <-.
  destruct (tria_points g K D C) as (a & b & c & EC & A & _).
  assert (Op : forall k, (k < 2)%nat -> nth i' N' vzero k = - nth i N vzero k).
  { apply (opposite_normals (go_cols g) i _ (go_cols g') i'); auto; rewrite EC; [exact A|exact Hi]. }
  intros k Hk. split; [apply Op, Hk|]. rewrite (TT i Hi k Hk), (TT' i' Hi' k Hk).
  destruct k as [|[|]]; [| |lia]; cbn [turn]; rewrite Op by lia; ring.
Qed.

(** * Basis functions *)
Definition comb (x0 x1 x2 : R) (B : list vec) : vec := fun k => x0 * nth 0 B vzero k + x1 * nth 1 B vzero k + x2 * nth 2 B vzero k.
Lemma basis_ok : forall g, go_kind g = GTriaO1 -> go_dim g = 2%nat -> constructed g ->
  exists B, basis_functions g = Ok B /\ length B = 3%nat /\
    forall x, exists r g0 g1, (forall i, (i < 3)%nat -> x i = r + g0 * nth i (go_cols g) vzero 0%nat + g1 * nth i (go_cols g) vzero 1%nat) /\
      comb (x 0%nat) (x 1%nat) (x 2%nat) B 0%nat = g1 /\ comb (x 0%nat) (x 1%nat) (x 2%nat) B 1%nat = - g0.
Proof.
  intros g K D C. destruct (tria_points g K D C) as (a & b & c & EC & A & _).
  assert (Ec : col g = fun i => nth i [a; b; c] vzero) by (unfold col; rewrite EC; reflexivity).
  unfold basis_functions. cbn [fe_grad o1_tria point2 bind]. unfold JacobianInverseGramian, range_check, with_local, jac_cols, dim_local. rewrite K, D, Ec.
  cbn [is_o2 bind kind_el RefPatModel.el_dim length Nat.eqb lf_assert nth andb inv_transpose].
  eexists. split; [reflexivity|]. split; [reflexivity|]. intros x.
  set (T := area2 a b c) in *.
  assert (DT : det2 (vsub b a) (vsub c a) = T) by (unfold T; apply det_area).
  set (g0 := ((x 1%nat - x 0%nat) * (c 1%nat - a 1%nat) - (x 2%nat - x 0%nat) * (b 1%nat - a 1%nat)) / T).
  set (g1 := ((x 2%nat - x 0%nat) * (b 0%nat - a 0%nat) - (x 1%nat - x 0%nat) * (c 0%nat - a 0%nat)) / T).
  exists (x 0%nat - g0 * a 0%nat - g1 * a 1%nat), g0, g1.
  assert (TE : T = (b 0%nat - a 0%nat) * (c 1%nat - a 1%nat) - (b 1%nat - a 1%nat) * (c 0%nat - a 0%nat)) by reflexivity.
  split; [|split].
  - rewrite EC. intros i Hi. destruct i as [|[|[|]]]; [| | |lia]; cbn [nth].
    + ring.
    + transitivity (x 0%nat + (x 1%nat - x 0%nat) * (((b 0%nat - a 0%nat) * (c 1%nat - a 1%nat) - (b 1%nat - a 1%nat) * (c 0%nat - a 0%nat)) / T)); [rewrite <- TE; field; exact A|]. unfold g0, g1. field. exact A.
    + transitivity (x 0%nat + (x 2%nat - x 0%nat) * (((b 0%nat - a 0%nat) * (c 1%nat - a 1%nat) - (b 1%nat - a 1%nat) * (c 0%nat - a 0%nat)) / T)); [rewrite <- TE; field; exact A|]. unfold g0, g1. field. exact A.
  - unfold comb, trf_grad, curl, vec2, rsum, inv_transpose. cbn [map seq nth fold_right]. rewrite DT. unfold g1, vsub. field. exact A.
  - unfold comb, trf_grad, curl, vec2, rsum, inv_transpose. cbn [map seq nth fold_right]. rewrite DT. unfold g0, vsub. field. exact A.
Qed.
