(** Examples for C76: exactly one solution. *)
From Coq Require Import Reals List Arith Lia Lra Bool.
Import ListNotations.
From Verif Require Import Base Scalars MeshModel MeshView DofModel DofSpec RefPatModel GeoModel GeoSpec PropGeo FeModel LagrModel LagrProofs LagrProofs2 LagrProofs3 QuadModel AssembleModel AssembleSpec
  FeSpec QuadSpec ElemModel ElemSpec FeToolsModel FeToolsSpec FeToolsProofs5 ProlongSpec GalerkinModel GalerkinSpec GalerkinProofs12 GalerkinProofs15 GalerkinProofs17 DirichletSpec StokesSpec.
Local Open Scope R_scope.

Lemma dirichlet_example : wf_mesh one_mesh /\ complete_mesh one_mesh /\ all_held one_mesh (fun e => match e with EEdge 0 => true | _ => false end) /\
  continuous_function one_mesh (fun _ _ => Ok 1) /\ (exists V, lagrange_space O1 one_mesh = Ok V) /\
  exists P q, precompute_default (fun _ _ => Ok q) (fun t => Some (lagrange O1 t)) = Ok P /\ tria_rule q /\ nonnegative_weights q /\ settles q (lagrange O1 kTria) /\
    at_points q (fun p => admissible tri p /\ nondegenerate tri p /\ positive_coeff 2 (Scal 1)).
Proof.
  split; [apply one_wf|]. split; [apply one_wf|]. split.
  { assert (H0 : held one_mesh (fun e => match e with EEdge 0 => true | _ => false end) 0) by (eapply held_first with (i := 0%nat); reflexivity).
    intros v Hv. apply (held_cell _ _ (mkCellv [0; 1; 2]%nat [0; 1; 2]%nat [true; true; true]) 0%nat v); [left; reflexivity|left; reflexivity| |exact H0]. cbn in *. lia. }
  split; [split; intros; eauto|]. split. { destruct (lagrange_space_ok O1 one_mesh) as (lo & E & _). eauto. }
  destruct (precompute_mid O1 kTria (or_introl eq_refl)) as (a & Ea). destruct (precompute_mid O1 kQuad (or_intror eq_refl)) as (b & Eb).
  exists (mkPrecomps (Some a) (Some b)), mid_rule. unfold precompute_default. cbn [bind]. rewrite Ea. cbn [bind]. rewrite Eb.
  split; [reflexivity|]. split; [split; [reflexivity|intros p [<-|[]]; reflexivity]|]. split; [intros w [<-|[]]; lra|]. split.
  { apply settles_tria1. exists (1 / 3), (1 / 3), 0%nat, (1 / 2). split; [reflexivity|]. split; [reflexivity|lra]. }
  intros p [<-|[]]. split; [apply tri_admissible|]. split; [apply tri_admissible|apply scalar_positive; lra].
Qed.
