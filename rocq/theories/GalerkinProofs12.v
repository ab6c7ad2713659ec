(** Proofs for C74-C76: Lagrangian spaces; examples. *)
From Coq Require Import Reals List Arith Lia Lra Bool.
Import ListNotations.
From Verif Require Import Base Scalars MeshModel MeshView DofModel DofSpec RefPatModel GeoModel GeoSpec GeoProofs GeoProofs3 GeoProofs4 PropGeo FeModel LagrModel QuadModel AssembleModel AssembleSpec
  FeSpec FeProofs LagrProofs LagrProofs2 LagrProofs3 QuadSpec GaussSpec TriaTab TriaSpec QuadRuleModel HierProofs3 PolyProofs ElemModel ElemSpec ElemProofs ElemProofs2 ElemProofs3 ElemProofs5 ElemProofs7 ElemProofs8 ElemProofs9 FeToolsModel FeToolsSpec FeToolsProofs FeToolsProofs2 FeToolsProofs5
  ProlongSpec ProlongProofs2 GalerkinModel GalerkinSpec GalerkinProofs GalerkinProofs2 GalerkinProofs3 GalerkinProofs4 GalerkinProofs5 GalerkinProofs6 GalerkinProofs7 GalerkinProofs8 GalerkinProofs9 GalerkinProofs10 GalerkinProofs11.
Local Open Scope R_scope.

(** MeshFunctionGradFE on cells and edges of Lagrangian spaces. *)
Lemma lagrange_gradient_correct : forall k m V, wf_mesh m -> lagrange_space k m = Ok V -> forall c e geom u p, (c = 0 \/ c = 1)%nat -> In e (entities m c) ->
  kind_el (go_kind (geom e)) = ent_type m e -> length u = NumDofs (sp_dofs V) -> admissible (geom e) p -> nondegenerate (geom e) p ->
  exists w, fe_grad_value V geom u e p = Ok w /\ world_gradient_of (geom e) (fe_value V u e) p w.
Proof.
  intros k m V W EV c e geom u p Hc I K Lu A ND. destruct (lagrange_element k m V W EV c e Hc I) as (l & EL).
  pose proof (lagrange_shape m W c e Hc I) as NP. destruct (lagrange_describes k (ent_type m e)) as (E1 & _ & E3 & _).
  apply (gradient_correct V geom e (lagrange k (ent_type m e)) l u p EL E3 (lagrange_gradients k _ NP)); auto.
  - rewrite E1. symmetry. exact K.
  - rewrite (lagrange_mesh k m V EV). exact K.
  - intros Z0. apply NP. rewrite <- K. destruct (go_kind (geom e)); cbn in *; congruence || discriminate.
Qed.
Lemma tri_admissible : admissible tri [1 / 3; 1 / 3] /\ nondegenerate tri [1 / 3; 1 / 3].
Proof. split; [split; [reflexivity|discriminate]|]. eexists. split; [reflexivity|]. cbn. unfold vsub. lra. Qed.
Lemma gradient_example : wf_mesh one_mesh /\ In (ECell 0) (entities one_mesh 0) /\ kind_el (go_kind tri) = ent_type one_mesh (ECell 0) /\
  admissible tri [1 / 3; 1 / 3] /\ nondegenerate tri [1 / 3; 1 / 3].
Proof. split; [apply one_wf|]. split; [left; reflexivity|]. split; [reflexivity|exact tri_admissible]. Qed.
Lemma precompute_mid : forall k t, t = kTria \/ t = kQuad -> exists p, precompute (lagrange k t) mid_rule = Ok p.
Proof.
  intros k t Ht. assert (NP : t <> kPoint) by (destruct Ht as [-> | ->]; discriminate). destruct (lagrange_describes k t) as (E1 & _ & E3 & _).
  assert (L : length [1 / 3; 1 / 3] = dimension (fe_el (lagrange k t))) by (rewrite E1; destruct Ht as [-> | ->]; reflexivity).
  destruct (co_eval _ E3 _ L) as (v & Ev & _). destruct (lagrange_gradients k t NP _ L) as (gr & Eg & _).
  unfold precompute. cbn [mid_rule qr_points traverse]. rewrite Ev, Eg. cbn [bind]. eexists. reflexivity.
Qed.
Lemma bvp_example : wf_mesh one_mesh /\ continuous_function one_mesh (fun _ _ => Ok 1) /\ (exists V, lagrange_space O2 one_mesh = Ok V) /\
  exists P q, precompute_default (fun _ _ => Ok q) (fun t => Some (lagrange O2 t)) = Ok P /\ length (qr_weights q) = length (qr_points q) /\
    qr_points q <> [] /\ at_points q (fun p => admissible tri p /\ nondegenerate tri p).
Proof.
  split; [apply one_wf|]. split; [split; intros; eauto|]. split. { destruct (lagrange_continuous O2 one_mesh (proj1 one_wf)) as (V & E & _). exists V. exact E. }
  destruct (precompute_mid O2 kTria (or_introl eq_refl)) as (a & Ea). destruct (precompute_mid O2 kQuad (or_intror eq_refl)) as (b & Eb).
  exists (mkPrecomps (Some a) (Some b)), mid_rule. unfold precompute_default. cbn [bind]. rewrite Ea. cbn [bind]. rewrite Eb.
  split; [reflexivity|]. split; [reflexivity|]. split; [discriminate|]. intros p [<-|[]]. exact tri_admissible.
Qed.
