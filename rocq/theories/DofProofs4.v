(** Final theorems about dof handlers. *)
From Coq Require Import List Arith Lia Bool.
Import ListNotations.
From Verif Require Import Base MeshModel MeshView DofModel DofSpec DofProofs DofProofs2 DofProofs3.

Lemma prescribed_layout : forall dm m e, prescribed dm m e = u_interior (layout_of dm) (ent_type m e).
Proof. intros. unfold prescribed, layout_of. destruct (ent_type m e); reflexivity. Qed.

Lemma start_ext : forall m c c' e, (forall e, c e = c' e) -> start m c e = start m c' e.
Proof.
  intros m c c' e H. assert (S : forall f g n, (forall i, f i = g i) -> sumto f n = sumto g n).
  { intros f g n Hf. unfold sumto. f_equal. apply map_ext. auto. }
  destruct e; simpl; unfold totn, tote, cn, ce, cc;
  repeat (match goal with |- context [sumto (fun i => c (?F i)) ?n] =>
    rewrite (S (fun i => c (F i)) (fun i => c' (F i)) n) by (intros; apply H) end); auto.
Qed.

Lemma as_expected_ext : forall m c c' f d, (forall e, c e = c' e) ->
  as_expected m c f d -> as_expected m c' f d.
Proof.
  intros m c c' f d H E.
  assert (S : forall f g n, (forall i, f i = g i) -> sumto f n = sumto g n).
  { intros g h n Hf. unfold sumto. f_equal. apply map_ext. auto. }
  assert (Ow : forall e, ownl m c e = ownl m c' e).
  { intros e. unfold ownl. rewrite (start_ext m c c'), H; auto. }
  assert (Cv : forall e, cov m c f e = cov m c' f e).
  { intros [i|i|i]; simpl; rewrite ?Ow; auto. f_equal; [|f_equal].
    - f_equal. apply map_ext. intros; apply Ow.
    - f_equal. apply map_ext. intros. unfold epart. rewrite Ow. auto. }
  destruct E as [E1 E2 E3 E4 E5 E6]. constructor.
  - rewrite E1. unfold totn, tote, totc. f_equal; [f_equal|]; apply S; intros; apply H.
  - intros e V. rewrite E2, Cv; auto.
  - intros e V. rewrite E3, Ow; auto.
  - intros e V. rewrite E4, Cv; auto.
  - intros e V. rewrite E5, H; auto.
  - rewrite E6. unfold owners. do 2 f_equal. apply map_ext. intros; rewrite H; auto.
Qed.

Lemma uniform_exp : forall m dm check, wf_mesh m ->
  as_expected m (prescribed dm m) check (u_handler (uniform m dm check)).
Proof.
  intros. eapply as_expected_ext; [|apply uniform_expected; auto].
  intros e. symmetry. apply prescribed_layout.
Qed.

Theorem uniform_partitions : forall m dm check, wf_mesh m ->
  partitions m (prescribed dm m) (u_handler (uniform m dm check)).
Proof. intros. eapply expected_partitions, uniform_exp; auto. Qed.

Theorem uniform_canonical : forall m dm check, wf_mesh m ->
  canonical m check (u_handler (uniform m dm check)).
Proof. intros. eapply expected_canonical; auto. apply uniform_exp; auto. Qed.

Theorem uniform_numbered : forall m dm check, wf_mesh m ->
  numbered m (u_handler (uniform m dm check)).
Proof. intros. eapply expected_numbered, uniform_exp; auto. Qed.

Theorem dynamic_contract : forall m locdof, wf_mesh m ->
  partitions m locdof (dy_handler (dynamic m locdof)) /\
  canonical m true (dy_handler (dynamic m locdof)) /\
  numbered m (dy_handler (dynamic m locdof)).
Proof.
  intros m locdof WF. pose proof (dynamic_expected m locdof WF) as E.
  split; [eapply expected_partitions; eauto|].
  split; [eapply expected_canonical; eauto|]. eapply expected_numbered; eauto.
Qed.

Theorem dynamic_refines_uniform : forall m dm, wf_mesh m ->
  let u := u_handler (uniform m dm true) in
  let d := dy_handler (dynamic m (prescribed dm m)) in
  NumDofs d = NumDofs u /\ (forall x, Entity d x = Entity u x) /\
  forall e, valid m e ->
    GlobalDofIndices d e = GlobalDofIndices u e /\
    InteriorGlobalDofIndices d e = InteriorGlobalDofIndices u e /\
    NumLocalDofs d e = NumLocalDofs u e /\ NumInteriorDofs d e = NumInteriorDofs u e.
Proof.
  intros m dm WF u d.
  pose proof (dynamic_expected m (prescribed dm m) WF) as D. pose proof (uniform_exp m dm true WF) as U.
  fold u in U. fold d in D.
  split; [rewrite (ex_num _ _ _ _ U), (ex_num _ _ _ _ D); auto|].
  split; [rewrite (ex_ent _ _ _ _ U), (ex_ent _ _ _ _ D); auto|].
  intros e V. rewrite (ex_global _ _ _ _ U e V), (ex_global _ _ _ _ D e V), (ex_interior _ _ _ _ U e V),
    (ex_interior _ _ _ _ D e V), (ex_local _ _ _ _ U e V), (ex_local _ _ _ _ D e V),
    (ex_nint _ _ _ _ U e V), (ex_nint _ _ _ _ D e V). auto.
Qed.

(** Blocks owned by different entities are disjoint. *)
Lemma ownl_disjoint : forall m cnt e e' x, valid m e -> valid m e' -> e <> e' ->
  In x (ownl m cnt e) -> In x (ownl m cnt e') -> False.
Proof.
  intros m cnt e e' x V V' N H H'. unfold ownl in *. apply in_seq in H, H'.
  destruct (before_total e e') as [->|[B|B]]; [congruence| |];
  apply (start_before m cnt) in B; auto; lia.
Qed.

Lemma NoDup_app_intro : forall A (a b : list A), NoDup a -> NoDup b ->
  (forall x, In x a -> In x b -> False) -> NoDup (a ++ b).
Proof.
  induction a as [|x a IH]; simpl; intros b Ha Hb Hd; auto.
  inversion Ha; subst. constructor.
  - rewrite in_app_iff. intros [?|?]; eauto.
  - apply IH; eauto.
Qed.

Lemma NoDup_concat_map : forall A B (f : A -> list B) l, NoDup l ->
  (forall x, In x l -> NoDup (f x)) ->
  (forall x y b, In x l -> In y l -> x <> y -> In b (f x) -> In b (f y) -> False) ->
  NoDup (concat (map f l)).
Proof.
  induction l as [|x l IH]; simpl; intros N H1 H2; [constructor|].
  inversion N; subst. apply NoDup_app_intro; auto.
  - apply IH; auto. intros; eapply H2; eauto.
  - intros b Hb Hb'. apply in_concat in Hb' as (y & Hy & Hb').
    apply in_map_iff in Hy as (z & <- & Hz). eapply (H2 x z); eauto. congruence.
Qed.

Theorem uniform_cell_nodup : forall m dm check, wf_mesh m ->
  forall i c l, nth_error (mv_cells m) i = Some c -> NoDup (cv_nodes c) -> NoDup (cv_edges c) ->
  GlobalDofIndices (u_handler (uniform m dm check)) (ECell i) = Ok l -> NoDup l.
Proof.
  intros m dm check WF i c l Hc Nn Ne G.
  pose proof (uniform_exp m dm check WF) as U. set (cnt := prescribed dm m) in *.
  assert (V : valid m (ECell i)) by (simpl; apply nth_error_Some; congruence).
  rewrite (ex_global _ _ _ _ U _ V) in G. injection G as <-. cbn [cov].
  assert (Ec : cell_at m i = c) by (apply (nth_error_nth _ _ _ Hc)). rewrite Ec.
  pose proof (cell_facts m WF i V) as [C Ln]. rewrite Ec in C, Ln. rewrite Ln.
  assert (Vn : forall v, In v (cv_nodes c) -> valid m (ENode v)).
  { intros v Hv. pose proof (wc_nodes _ _ C) as F. rewrite Forall_forall in F. apply F; auto. }
  assert (Ve : forall j, j < length (cv_nodes c) -> valid m (EEdge (nth j (cv_edges c) 0))).
  { intros j Hj. apply (cell_edges_valid m); auto. }
  assert (Ep : forall j x, In x (epart m cnt check c j) <-> In x (ownl m cnt (EEdge (nth j (cv_edges c) 0)))).
  { intros j x. unfold epart. destruct (_ && _); [rewrite <- in_rev|]; tauto. }
  apply NoDup_app_intro; [|apply NoDup_app_intro|].
  - apply NoDup_concat_map; auto.
    + intros; apply seq_NoDup.
    + intros x y b Hx Hy Hxy. apply ownl_disjoint; auto. congruence.
  - apply NoDup_concat_map; [apply seq_NoDup| |].
    + intros x Hx. unfold epart. destruct (_ && _); [apply NoDup_rev|]; apply seq_NoDup.
    + intros x y b Hx Hy Hxy. rewrite !Ep. apply in_seq in Hx, Hy.
      apply ownl_disjoint; try (apply Ve; lia). intros E. injection E as E.
      apply Hxy. eapply (NoDup_nth (cv_edges c) 0); eauto; rewrite (wc_edges _ _ C); lia.
  - apply seq_NoDup.
  - intros x Hx. apply in_concat in Hx as (y & Hy & Hx). apply in_map_iff in Hy as (j & <- & Hj).
    apply in_seq in Hj. rewrite Ep in Hx. apply (ownl_disjoint m cnt (EEdge (nth j (cv_edges c) 0))); auto; [|congruence].
    apply Ve; lia.
  - intros x Hx Hx'. apply in_concat in Hx as (y & Hy & Hx). apply in_map_iff in Hy as (v & <- & Hv).
    apply in_app_or in Hx' as [Hx'|Hx'].
    + apply in_concat in Hx' as (y & Hy & Hx'). apply in_map_iff in Hy as (j & <- & Hj).
      apply in_seq in Hj. rewrite Ep in Hx'.
      apply (ownl_disjoint m cnt (ENode v) (EEdge (nth j (cv_edges c) 0)) x); auto; [|congruence].
      apply Ve; lia.
    + apply (ownl_disjoint m cnt (ENode v) (ECell i) x); auto. congruence.
Qed.
