(** Proofs about gradients of shape functions. *)
From Coq Require Import Reals List Arith Lia Lra Bool.
Import ListNotations.
From Verif Require Import Base MeshModel MeshView DofModel RefPatModel GeoModel GeoSpec GeoProofs
  Calc FeModel LagrModel FeSpec LagrProofs.
Local Open Scope R_scope.

Ltac qd_step := first [apply qd_const | apply qd_fst | apply qd_snd | eapply qd_plus | eapply qd_minus
  | eapply qd_mult | eapply qd_opp].
Ltac qd_auto := eapply qd_eq; [repeat qd_step | cbv beta | cbv beta].

Lemma qd_small : forall F x y a b, qd F x y a b -> forall eps, 0 < eps -> exists delta, 0 < delta /\
  forall h k, Rabs h < delta -> Rabs k < delta ->
    Rabs (F (x + h) (y + k) - F x y - (a * h + b * k)) <= eps * (Rabs h + Rabs k).
Proof.
  intros F x y a b H eps He. destruct (H 1 ltac:(lra)) as (M & M0 & HM).
  destruct (small_enough (M * 2) eps) as (d & D0 & D1 & DM); [lra|auto|].
  exists d. split; auto. intros h k Hh Hk. eapply Rle_trans; [apply HM; lra|].
  set (n := Rabs h + Rabs k). assert (N0 : 0 <= n) by (unfold n; pose proof (Rabs_pos h); pose proof (Rabs_pos k); lra).
  assert (N1 : n <= 2 * d) by (unfold n; lra).
  replace (M * n ^ 2) with (M * n * n) by ring. apply Rmult_le_compat_r; auto.
  eapply Rle_trans; [apply Rmult_le_compat_l; [auto|exact N1]|]. lra.
Qed.

Lemma gradients_two : forall f (ev : R -> R -> list R) (gr : R -> R -> list (list R)),
  dimension (fe_el f) = 2%nat ->
  (forall s t, fe_eval f [s; t] = Ok (ev s t)) -> (forall s t, fe_grad f [s; t] = Ok (gr s t)) ->
  (forall s t, length (gr s t) = fe_total f /\ forall r, In r (gr s t) -> length r = 2%nat) ->
  (forall s t i, (i < fe_total f)%nat -> qd (fun a b => nth i (ev a b) 0) s t
      (nth 0 (nth i (gr s t) []) 0) (nth 1 (nth i (gr s t) []) 0)) ->
  gradients_ok f.
Proof.
  intros f ev gr D Ev Gr Ln Q x L. rewrite D in *. destruct (point_length2 x L) as (s & t & ->).
  exists (gr s t). split; [apply Gr|]. destruct (Ln s t) as (L1 & L2). split; [exact L1|]. split; [exact L2|].
  unfold derivative, shape_functions. rewrite Ev. eexists. split; [reflexivity|]. split; [reflexivity|].
  intros i Hi eps He. destruct (qd_small _ _ _ _ _ (Q s t i Hi) eps He) as (d & D0 & Hd).
  exists d. split; auto. intros h q Lh Hh Hq. destruct h as [|h0 [|h1 [|]]]; try discriminate Lh.
  cbn [plus combine map fst snd] in Hq. unfold plus in Hq. cbn [plus combine map fst snd] in Hq.
  rewrite Ev in Hq. injection Hq as <-.
  unfold apply, length1. cbn [seq map combine fold_right fst snd].
  replace (nth 0 (nth i (gr s t) []) 0 * h0 + (nth 1 (nth i (gr s t) []) 0 * h1 + 0))
    with (nth 0 (nth i (gr s t) []) 0 * h0 + nth 1 (nth i (gr s t) []) 0 * h1) by ring.
  replace (Rabs h0 + (Rabs h1 + 0)) with (Rabs h0 + Rabs h1) by ring.
  apply Hd; apply Hh; cbn; auto.
Qed.
Lemma gradients_one : forall f (ev gr : R -> list R),
  dimension (fe_el f) = 1%nat ->
  (forall s, fe_eval f [s] = Ok (ev s)) -> (forall s, fe_grad f [s] = Ok (map (fun g => [g]) (gr s))) ->
  (forall s, length (gr s) = fe_total f) ->
  (forall s i, (i < fe_total f)%nat -> qd (fun a _ => nth i (ev a) 0) s 0 (nth i (gr s) 0) 0) ->
  gradients_ok f.
Proof.
  intros f ev gr D Ev Gr Ln Q x L. rewrite D in *. destruct (point_length1 x L) as (s & ->).
  eexists. split; [apply Gr|]. rewrite map_length. split; [apply Ln|]. split.
  { intros r Hr. apply in_map_iff in Hr. destruct Hr as (g & <- & _). reflexivity. }
  unfold derivative, shape_functions. rewrite Ev. eexists. split; [reflexivity|]. split; [reflexivity|].
  intros i Hi eps He. destruct (qd_small _ _ _ _ _ (Q s i Hi) eps He) as (d & D0 & Hd).
  exists d. split; auto. intros h q Lh Hh Hq. destruct h as [|h0 [|]]; try discriminate Lh.
  unfold plus in Hq. cbn [plus combine map fst snd] in Hq. rewrite Ev in Hq. injection Hq as <-.
  unfold apply, length1. cbn [seq map combine fold_right fst snd].
  assert (E : nth 0 (nth i (map (fun g : R => [g]) (gr s)) []) 0 = nth i (gr s) 0).
  { rewrite (nth_indep _ [] [0]) by (rewrite map_length, Ln; exact Hi).
    rewrite (map_nth (fun g : R => [g]) (gr s) 0 i). reflexivity. }
  rewrite E. specialize (Hd h0 0 (Hh h0 (or_introl eq_refl))). rewrite Rabs_R0 in Hd.
  replace (nth i (gr s) 0 * h0 + 0) with (nth i (gr s) 0 * h0 + 0 * 0) by ring.
  apply Hd. exact D0.
Qed.

Ltac some_i i Hi := repeat (destruct i as [|i]; [|try (exfalso; cbn in Hi; lia)]).
Lemma lagrange_gradients : forall k t, t <> kPoint -> gradients_ok (lagrange k t).
Proof.
  intros k t Ht. destruct t; try congruence.
  - destruct k.
    + apply (gradients_one _ (fun x => [1 - x; x]) (fun _ => [-1; 1])); try reflexivity.
      intros s i Hi. cbn [lagrange o1_segment fe_total] in Hi.
      do 2 (destruct i as [|i]; [cbn [nth]; qd_auto; ring|]). lia.
    + apply (gradients_one _ o2_seg_eval o2_seg_grad); try reflexivity.
      intros s i Hi. cbn [lagrange o2_segment fe_total] in Hi.
      do 3 (destruct i as [|i]; [cbn [nth o2_seg_eval o2_seg_grad]; qd_auto; field|]). lia.
    + apply (gradients_one _ o3_seg_eval o3_seg_grad); try reflexivity.
      intros s i Hi. cbn [lagrange o3_segment fe_total] in Hi.
      do 4 (destruct i as [|i]; [cbn [nth o3_seg_eval o3_seg_grad]; qd_auto; field|]). lia.
  - destruct k.
    + eapply gradients_two; try reflexivity.
      { intros s t. split; [reflexivity|]. intros r Hr. cbn in Hr. repeat destruct Hr as [<-|Hr]; try reflexivity. destruct Hr. }
      intros s t i Hi. cbn [lagrange o1_tria fe_total] in Hi.
      do 3 (destruct i as [|i]; [cbn [nth]; qd_auto; ring|]). lia.
    + eapply gradients_two; try reflexivity.
      { intros s t. split; [reflexivity|]. intros r Hr. cbn in Hr. repeat destruct Hr as [<-|Hr]; try reflexivity. destruct Hr. }
      intros s t i Hi. cbn [lagrange o2_tria fe_total] in Hi.
      do 6 (destruct i as [|i]; [cbn [nth]; qd_auto; field|]). lia.
    + eapply (gradients_two _ o3_tria_eval o3_tria_grad); try reflexivity.
      { intros s t. split; [reflexivity|]. intros r Hr. cbn in Hr. repeat destruct Hr as [<-|Hr]; try reflexivity. destruct Hr. }
      intros s t i Hi. cbn [lagrange o3_tria fe_total] in Hi.
      do 10 (destruct i as [|i]; [cbn [nth o3_tria_eval o3_tria_grad]; qd_auto; field|]). lia.
  - destruct k.
    + eapply gradients_two; try reflexivity.
      { intros s t. split; [reflexivity|]. intros r Hr. cbn in Hr. repeat destruct Hr as [<-|Hr]; try reflexivity. destruct Hr. }
      intros s t i Hi. cbn [lagrange o1_quad fe_total] in Hi.
      do 4 (destruct i as [|i]; [cbn [nth]; qd_auto; ring|]). lia.
    + eapply gradients_two; try reflexivity.
      { intros s t. split; [reflexivity|]. intros r Hr. cbn in Hr. repeat destruct Hr as [<-|Hr]; try reflexivity. destruct Hr. }
      intros s t i Hi. cbn [lagrange o2_quad fe_total] in Hi.
      do 9 (destruct i as [|i]; [cbn [nth map tensor_eval tensor_grad o2_mapping o2_seg_eval o2_seg_grad fst snd]; qd_auto; field|]). lia.
    + eapply gradients_two; try reflexivity.
      { intros s t. split; [reflexivity|]. intros r Hr. cbn in Hr. repeat destruct Hr as [<-|Hr]; try reflexivity. destruct Hr. }
      intros s t i Hi. cbn [lagrange o3_quad fe_total] in Hi.
      do 16 (destruct i as [|i]; [cbn [nth map tensor_eval tensor_grad o3_mapping o3_seg_eval o3_seg_grad fst snd]; qd_auto; field|]). lia.
Qed.
