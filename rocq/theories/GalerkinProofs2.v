From Coq Require Import Reals List Arith Lia Lra Bool.
Import ListNotations.
From Verif Require Import Base Scalars MeshModel MeshView DofModel DofSpec RefPatModel GeoModel GeoSpec GeoProofs3 FeModel QuadModel AssembleModel AssembleSpec
  FeSpec FeProofs QuadSpec ElemModel ElemSpec ElemProofs ElemProofs2 ElemProofs3 FeToolsModel FeToolsSpec FeToolsProofs GalerkinModel GalerkinSpec GalerkinProofs.
Local Open Scope R_scope.

Lemma dot_sum_to : forall a b, length a = length b -> FeModel.dot a b = sum_to (length a) (fun i => nth i a 0 * nth i b 0).
Proof.
  induction a as [|x a IH]; intros [|y b] L; try discriminate; [reflexivity|]. rewrite dot_cons, IH by (injection L; auto).
  unfold sum_to. cbn [length seq map fold_right nth]. f_equal. f_equal. rewrite <- seq_shift, map_map. reflexivity.
Qed.
(** *** Values and gradients *)
Section Element.
Variable (V : fe_space) (geom : ent -> geo) (e : ent) (f : srfe) (l : list nat) (u : list R).
Hypothesis (El : element_of V e f l) (Lu : length u = NumDofs (sp_dofs V)).
Definition loc (i : nat) : R := nth (nth i l 0%nat) u 0.

Lemma loc_traverse : traverse (fun i => do g <- entry l i; entry u g) (seq 0 (fe_total f)) = Ok (map (fun g => nth g u 0) l).
Proof.
  rewrite traverse_entries.
  - rewrite <- (eo_total _ _ _ _ El), firstn_all. reflexivity.
  - rewrite (eo_total _ _ _ _ El). apply le_n.
  - rewrite Lu. apply (eo_range _ _ _ _ El).
Qed.
Lemma nth_loc : forall i, (i < fe_total f)%nat -> nth i (map (fun g => nth g u 0) l) 0 = loc i.
Proof.
  intros i Hi. unfold loc. rewrite (nth_indep _ 0 (nth 0%nat u 0)) by (rewrite map_length, (eo_total _ _ _ _ El); exact Hi).
  rewrite (map_nth (fun g => nth g u 0)). reflexivity.
Qed.
Lemma loc_dot : forall v, length v = fe_total f -> FeModel.dot (map (fun g => nth g u 0) l) v = sum_to (fe_total f) (fun i => loc i * nth i v 0).
Proof.
  intros v L. rewrite dot_sum_to by (rewrite map_length, (eo_total _ _ _ _ El); congruence). rewrite map_length, (eo_total _ _ _ _ El).
  apply sum_to_ext. intros i Hi. rewrite nth_loc by exact Hi. reflexivity.
Qed.
Lemma value_sum : forall p v, fe_eval f p = Ok v -> length v = fe_total f ->
  fe_value V u e p = Ok (sum_to (fe_total f) (fun i => loc i * nth i v 0)).
Proof.
  intros p v Ev Lv. unfold fe_value. rewrite (eo_layout _ _ _ _ El), Ev. cbn [bind]. rewrite (eo_dofs _ _ _ _ El). cbn [bind].
  rewrite Lv, loc_traverse. cbn [bind]. rewrite loc_dot by exact Lv. reflexivity.
Qed.
Lemma grad_sum : forall p gr M, fe_grad f p = Ok gr -> length gr = fe_total f -> JacobianInverseGramian (geom e) p = Ok M ->
  length M = dimension (ent_type (sp_mesh V) e) ->
  exists w, fe_grad_value V geom u e p = Ok w /\
    forall k, w k = rsum (map (fun c => nth c M vzero k * sum_to (fe_total f) (fun i => loc i * nth c (nth i gr []) 0)) (seq 0 (length M))).
Proof.
  intros p gr M Eg Lg EM LM. unfold fe_grad_value. rewrite (eo_layout _ _ _ _ El), Eg. cbn [bind]. rewrite (eo_dofs _ _ _ _ El). cbn [bind].
  rewrite Lg, loc_traverse, EM. cbn [bind]. rewrite <- LM, Nat.leb_refl. cbn [lf_assert bind]. eexists. split; [reflexivity|].
  intros k. apply rs_ext. intros c _. f_equal. rewrite loc_dot by (rewrite map_length; exact Lg). apply sum_to_ext. intros i Hi.
  f_equal. rewrite (nth_indep _ 0 (nth c (@nil R) 0)) by (rewrite map_length, Lg; exact Hi). rewrite (map_nth (fun r => nth c r 0)). reflexivity.
Qed.
End Element.

Lemma trf_combo : forall M gr n (x : nat -> R) k, length M = 2%nat ->
  rsum (map (fun c => nth c M vzero k * sum_to n (fun i => x i * nth c (nth i gr []) 0)) (seq 0 (length M))) =
  sum_to n (fun i => x i * trf_grad M gr i k).
Proof.
  intros M gr n x k LM. rewrite LM. unfold trf_grad. cbn [seq map rsum fold_right].
  rewrite <- !sum_to_scal, Rplus_0_r, <- sum_to_plus. apply sum_to_ext. intros i _. ring.
Qed.

(** *** Shape functions and gradients of a prepared entity *)
Definition shapes (f : srfe) (i : nat) (p : list R) : R := match fe_eval f p with Ok v => nth i v 0 | _ => 0 end.
Definition grads (g : geo) (f : srfe) (i : nat) (p : list R) : vec :=
  match JacobianInverseGramian g p, fe_grad f p with Ok M, Ok gr => trf_grad M gr i | _, _ => vzero end.
Lemma shapes_at : forall f p, evaluates f p -> shape_at f (shapes f) p.
Proof. intros f p (v & Ev & Lv). exists v. split; [exact Ev|]. split; [exact Lv|]. intros i _. unfold shapes. rewrite Ev. reflexivity. Qed.
Lemma grads_at : forall g f p J, differentiates f p -> admissible g p -> dim_local (go_kind g) = 2%nat -> Jacobian g p = Ok J -> gramian_det (go_dim g) J <> 0 ->
  gradient_at g f (grads g f) p.
Proof.
  intros g f p J (gr & Eg & _) A D HJ ND. destruct (inverse_gramian g p J A HJ ltac:(lia) ND) as [M [HM IM]].
  exists J, gr. split; [exact HJ|]. split; [exact ND|]. split; [exact Eg|]. intros i _. unfold grads. rewrite HM, Eg.
  pose proof (jacobian_cols g p J A HJ) as LJ. rewrite D in LJ. apply trf_world; assumption.
Qed.
Lemma value_shapes : forall V e f l u p, element_of V e f l -> length u = NumDofs (sp_dofs V) -> evaluates f p ->
  fe_value V u e p = Ok (sum_to (length l) (fun i => loc l u i * shapes f i p)).
Proof.
  intros V e f l u p El Lu (v & Ev & Lv). rewrite (value_sum V e f l u El Lu p v Ev Lv), (eo_total _ _ _ _ El). f_equal.
  apply sum_to_ext. intros i _. unfold shapes. rewrite Ev. reflexivity.
Qed.
Lemma gradient_grads : forall V geom e f l u p J, element_of V e f l -> length u = NumDofs (sp_dofs V) -> differentiates f p ->
  admissible (geom e) p -> dim_local (go_kind (geom e)) = 2%nat -> kind_el (go_kind (geom e)) = ent_type (sp_mesh V) e ->
  Jacobian (geom e) p = Ok J -> gramian_det (go_dim (geom e)) J <> 0 ->
  exists w, fe_grad_value V geom u e p = Ok w /\ forall k, w k = sum_to (length l) (fun i => loc l u i * grads (geom e) f i p k).
Proof.
  intros V geom e f l u p J El Lu (gr & Eg & Lg) A D T HJ ND. destruct (inverse_gramian (geom e) p J A HJ ltac:(lia) ND) as [M [HM [LM IM]]].
  pose proof (jacobian_cols (geom e) p J A HJ) as LJ. rewrite D in LJ. rewrite LJ in LM.
  assert (DM : dimension (ent_type (sp_mesh V) e) = 2%nat) by (rewrite <- T, <- D; destruct (go_kind (geom e)); reflexivity).
  destruct (grad_sum V geom e f l u El Lu p gr M Eg Lg HM ltac:(congruence)) as (w & Ew & Hw). exists w. split; [exact Ew|].
  intros k. rewrite Hw, trf_combo by exact LM. rewrite (eo_total _ _ _ _ El). apply sum_to_ext. intros i _. unfold grads. rewrite HM, Eg. reflexivity.
Qed.
