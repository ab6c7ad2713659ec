(** C91: product spaces. *)
From Coq Require Import Reals List Arith Lia Lra Bool.
Import ListNotations.
From Verif Require Import Base Scalars MeshModel MeshView DofModel DofSpec DofProofs3 DofProofs4 RefPatModel GeoModel GeoSpec FeModel LagrModel FeSpec HierSpec FeProofs LagrProofs LagrProofs2 LagrProofs3
  AssembleModel FeToolsModel FeToolsSpec FeToolsProofs FeToolsProofs2 ElemProofs DpgModel DpgSpec DpgProofs ProdModel ProdSpec ProdProofs ProdProofs2.
Local Open Scope nat_scope.

Lemma elem_at_ok : forall A (l : list A) i x, elem_at l i = Ok x <-> nth_error l i = Some x.
Proof. intros A l i x. unfold elem_at. destruct (nth_error l i); split; intros H; congruence. Qed.
Definition of4 (n : nat * nat * nat * nat) (t : refel) : nat :=
  let '(p, s, tr, q) := n in match t with kPoint => p | kSegment => s | kTria => tr | kQuad => q end.
Lemma refel_eqb_ok : forall a b, refel_eqb a b = true <-> a = b.
Proof. intros [] []; split; intros H; try reflexivity; discriminate H. Qed.

(** * Numbers of one component *)
Definition three (tria quad edge : option srfe) (t : refel) : option srfe :=
  match t with kPoint => None | kSegment => edge | kTria => tria | kQuad => quad end.
Lemma compare_ok : forall f g cf cg u, compare_nums (Some f) (Some g) cf cg = Ok u ->
  exists a b, fe_num1 f (fst cf) = Ok a /\ fe_num1 g (fst cg) = Ok a /\ fe_num1 f (snd cf) = Ok b /\ fe_num1 g (snd cg) = Ok b.
Proof.
  intros f g cf cg u H. unfold compare_nums in H. inv_bind. apply Nat.eqb_eq in E1, H. subst. eauto 10.
Qed.
Lemma probe_cell_ok : forall o t d r, ps_probe_cell o t d = Ok r ->
  match o with
  | None => r = (fst d, snd d, 0)
  | Some f => fe_el f = t /\ fe_num1 f 2 = Ok (fst (fst r)) /\ fe_num1 f 1 = Ok (snd (fst r)) /\ fe_num1 f 0 = Ok (snd r)
  end.
Proof.
  intros [f|] t d r H; cbn in H; inv_bind; subst; try reflexivity; cbn [fst snd]. apply refel_eqb_ok in E. auto.
Qed.
Lemma probe_edge_ok : forall o d r, ps_probe_edge o d = Ok r ->
  match o with
  | None => r = d
  | Some f => fe_el f = kSegment /\ fe_num1 f 1 = Ok (fst r) /\ fe_num1 f 0 = Ok (snd r)
  end.
Proof.
  intros [f|] d r H; cbn in H; inv_bind; subst; try reflexivity; cbn [fst snd]. apply refel_eqb_ok in E. auto.
Qed.
Lemma component_sound : forall t q e n, ps_component t q e = Ok n -> agree (three t q e) (of4 n) /\ absent (three t q e) (of4 n).
Proof.
  intros t q e n H. unfold ps_component in H. inv_bind. subst n.
  match goal with A : ps_probe_cell t _ _ = Ok ?x, B : ps_probe_cell q _ _ = Ok ?y, D : ps_probe_edge e _ = Ok ?z, C1 : compare_nums t q _ _ = _, C2 : compare_nums t e _ _ = _, C3 : compare_nums q e _ _ = _ |- _ =>
    apply probe_cell_ok in A; apply probe_cell_ok in B; apply probe_edge_ok in D; rename A into HA; rename B into HB; rename D into HD; rename C1 into K1; rename C2 into K2; rename C3 into K3; destruct x as [[p1 s1] n1]; destruct y as [[p2 s2] n2]; destruct z as [p3 s3] end.
  cbn [fst snd] in *.
  destruct t as [ft|]; destruct q as [fq|]; destruct e as [fe|]; cbn [compare_nums] in K1, K2, K3;
    try (apply compare_ok in K1; destruct K1 as (? & ? & ? & ? & ? & ?)); try (apply compare_ok in K2; destruct K2 as (? & ? & ? & ? & ? & ?)); try (apply compare_ok in K3; destruct K3 as (? & ? & ? & ? & ? & ?));
    cbn [fst snd] in *; repeat match goal with A : _ /\ _ |- _ => destruct A end; repeat match goal with A : (_, _) = (_, _) |- _ => injection A; clear A; intros; subst end; subst;
    repeat match goal with A : fe_num1 ?f ?c = Ok ?a, B : fe_num1 ?f ?c = Ok ?b |- _ => tryif constr_eq a b then fail else (assert (a = b) by congruence; subst) end;
    (split; [intros tt f Nt Hf; destruct tt; cbn [three] in Hf; try congruence; injection Hf as <-; unfold has_numbers; cbn [of4]; auto
            |unfold absent; cbn [three of4]; repeat split; intros; try congruence; auto]).
Qed.
Lemma component_complete : forall t q e n, agree (three t q e) n -> exists n', ps_component t q e = Ok n'.
Proof.
  intros t q e n A.
  pose proof (fun f => A kTria f ltac:(discriminate)) as AT. pose proof (fun f => A kQuad f ltac:(discriminate)) as AQ. pose proof (fun f => A kSegment f ltac:(discriminate)) as AE. cbn [three] in *.
  unfold ps_component.
  destruct t as [ft|]; destruct q as [fq|]; destruct e as [fe|];
    try (destruct (AT _ eq_refl) as (T0 & T2 & T1 & T3)); try (destruct (AQ _ eq_refl) as (Q0 & Q2 & Q1 & Q3)); try (destruct (AE _ eq_refl) as (E0 & E1 & E2));
    unfold ps_probe_cell, ps_probe_edge, compare_nums; cbn [fst snd];
    try rewrite T0, T1, T2, T3; try rewrite Q0, Q1, Q2, Q3; try rewrite E0, E1, E2; cbn [refel_eqb lf_assert bind fst snd];
    try rewrite T1, T2; try rewrite Q1, Q2; try rewrite E1, E2; cbn [bind fst snd]; rewrite ?Nat.eqb_refl; cbn [lf_assert bind fst snd]; eauto.
Qed.
Lemma init_sound : forall m t q e d, init_dofs m t q e = Ok d -> exists n, ps_component t q e = Ok n /\ d = u_handler (uniform m (ps_layout n) true) /\
  (t = None -> q = None -> False) /\ (num_cells m kTria <> 0 -> t <> None) /\ (num_cells m kQuad <> 0 -> q <> None) /\ of4 n kPoint <= 1.
Proof.
  intros m t q e d H. unfold init_dofs in H. inv_bind. subst d.
  assert (P : forall o k dd x, probe_cell o k dd = Ok x -> ps_probe_cell o k dd = Ok x /\ (o <> None -> fst (fst x) <= 1) /\ (o = None -> x = (fst dd, snd dd, 0))).
  { intros [f|] k dd x Hx; cbn in Hx; inv_bind; subst; cbn [ps_probe_cell]; [|repeat split; congruence].
    split; [|split; [intros _; apply Nat.leb_le; assumption|discriminate]].
    match goal with A : refel_eqb _ _ = true |- _ => rewrite A end. cbn [lf_assert bind].
    repeat match goal with A : fe_num1 _ _ = Ok _ |- _ => rewrite A; clear A end. reflexivity. }
  assert (Pe : forall o dd x, probe_edge o dd = Ok x -> ps_probe_edge o dd = Ok x /\ (o <> None -> fst x <= 1) /\ (o = None -> x = dd)).
  { intros [f|] dd x Hx; cbn in Hx; inv_bind; subst; cbn [ps_probe_edge]; [|repeat split; congruence].
    split; [|split; [intros _; apply Nat.leb_le; assumption|discriminate]].
    match goal with A : refel_eqb _ _ = true |- _ => rewrite A end. cbn [lf_assert bind].
    repeat match goal with A : fe_num1 _ _ = Ok _ |- _ => rewrite A; clear A end. reflexivity. }
  match goal with A : probe_cell t _ _ = Ok ?x, B : probe_cell q _ _ = Ok ?y, D : probe_edge e _ = Ok ?z |- _ =>
    apply P in A; apply P in B; apply Pe in D; destruct A as (A & A1 & A2); destruct B as (B & B1 & B2); destruct D as (D & D1 & D2);
    rename x into xt; rename y into xq; rename z into xe; exists (fst xe, snd xe, snd xt, snd xq); unfold ps_component; rewrite A; cbn [bind]; rewrite B; cbn [bind]; rewrite D; cbn [bind] end.
  repeat match goal with A : compare_nums _ _ _ _ = Ok _ |- _ => rewrite A; clear A; cbn [bind] end.
  split; [reflexivity|]. split; [reflexivity|].
  split; [intros -> ->; discriminate|]. split; [intros N ->; match goal with A : (num_cells m kTria =? 0) || _ = true |- _ => cbn in A; rewrite orb_false_r in A; apply Nat.eqb_eq in A; congruence end|].
  split; [intros N ->; match goal with A : (num_cells m kQuad =? 0) || _ = true |- _ => cbn in A; rewrite orb_false_r in A; apply Nat.eqb_eq in A; congruence end|].
  cbn [of4]. destruct e as [fe|]; [apply D1; discriminate|]. specialize (D2 eq_refl). subst xe.
  destruct q as [fq|]; [apply B1; discriminate|]. specialize (B2 eq_refl). subst xq. cbn [fst snd].
  destruct t as [ft|]; [apply A1; discriminate|]. discriminate.
Qed.
Lemma init_complete : forall m t q e n, ps_component t q e = Ok n -> (t = None -> q = None -> False) -> (num_cells m kTria <> 0 -> t <> None) -> (num_cells m kQuad <> 0 -> q <> None) ->
  of4 n kPoint <= 1 -> init_dofs m t q e = Ok (u_handler (uniform m (ps_layout n) true)).
Proof.
  intros m t q e n H N T Q L. pose proof (component_sound _ _ _ _ H) as (A & _). unfold init_dofs.
  replace (negb (none q) || negb (none t)) with true by (destruct q, t; try reflexivity; destruct (N eq_refl eq_refl)).
  replace ((num_cells m kTria =? 0) || negb (none t)) with true by (destruct (num_cells m kTria =? 0) eqn:Z; [reflexivity|]; apply Nat.eqb_neq in Z; destruct t; [reflexivity|destruct (T Z eq_refl)]).
  replace ((num_cells m kQuad =? 0) || negb (none q)) with true by (destruct (num_cells m kQuad =? 0) eqn:Z; [reflexivity|]; apply Nat.eqb_neq in Z; destruct q; [reflexivity|destruct (Q Z eq_refl)]).
  cbn [verify bind]. unfold ps_component in H. inv_bind. subst n. cbn [of4] in *.
  match goal with B : ps_probe_cell t _ _ = Ok ?x, B2 : ps_probe_cell q _ _ = Ok ?y, D : ps_probe_edge e _ = Ok ?z |- _ =>
    rename x into xt; rename y into xq; rename z into xe; rename B into HT; rename B2 into HQ; rename D into HE end.
  assert (P : forall o k dd x, (forall f, o = Some f -> fe_num1 f 2 = Ok (fst xe)) -> ps_probe_cell o k dd = Ok x -> probe_cell o k dd = Ok x).
  { intros [f|] k dd x Ag Hx; cbn in Hx; inv_bind; subst; cbn [probe_cell]; [|reflexivity].
    specialize (Ag f eq_refl).
    match goal with A : refel_eqb _ _ = true |- _ => rewrite A end. cbn [verify bind].
    match goal with A : fe_num1 _ 1 = Ok _ |- _ => rewrite A end. match goal with A : fe_num1 _ 0 = Ok _ |- _ => rewrite A end.
    match goal with A : fe_num1 _ 2 = Ok ?x |- _ => tryif constr_eq x (fst xe) then fail else (rewrite A in *; injection Ag as ->) end. cbn [bind].
    replace (fst xe <=? 1) with true by (symmetry; apply Nat.leb_le; exact L). reflexivity. }
  assert (Pe : forall o dd x, (forall f, o = Some f -> fe_num1 f 1 = Ok (fst xe)) -> ps_probe_edge o dd = Ok x -> probe_edge o dd = Ok x).
  { intros [f|] dd x Ag Hx; cbn in Hx; inv_bind; subst; cbn [probe_edge]; [|reflexivity].
    specialize (Ag f eq_refl).
    match goal with A : refel_eqb _ _ = true |- _ => rewrite A end. cbn [verify bind].
    match goal with A : fe_num1 _ 0 = Ok _ |- _ => rewrite A end.
    match goal with A : fe_num1 _ 1 = Ok ?x |- _ => tryif constr_eq x (fst xe) then fail else (rewrite A in *; injection Ag as ->) end. cbn [bind].
    replace (fst xe <=? 1) with true by (symmetry; apply Nat.leb_le; exact L). reflexivity. }
  rewrite (P t _ _ xt); [cbn [bind]|intros f ->; apply (A kTria f); [discriminate|reflexivity]|exact HT].
  rewrite (P q _ _ xq); [cbn [bind]|intros f ->; apply (A kQuad f); [discriminate|reflexivity]|exact HQ].
  rewrite (Pe e _ xe); [cbn [bind]|intros f ->; apply (A kSegment f); [discriminate|reflexivity]|exact HE].
  repeat match goal with A : compare_nums _ _ _ _ = Ok _ |- _ => rewrite A; clear A; cbn [bind] end.
  reflexivity.
Qed.
