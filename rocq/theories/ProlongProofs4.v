(** Proofs for C66: an example. *)
From Coq Require Import Reals List Arith Bool Lia.
Import ListNotations.
From Verif Require Import Base Scalars MeshModel MeshView RefPatModel RefPatSpec RefineModel RefineSpec PropRefine PropRefine2 RefineProofs2 DofModel DofSpec GeoModel GeoSpec FeModel LagrModel AssembleModel
  FeSpec FeToolsModel FeToolsSpec FeToolsProofs FeToolsProofs2 TransferModel TransferSpec TransferProofs3 TransferProofs4 TransferProofs5 TransferProofs6 LagrProofs LagrProofs2 LagrProofs3 ProlongSpec ProlongProofs3.
Local Open Scope R_scope.

(** In a hierarchy of three levels, the first three children of cell 0 of level 1 have the type of
    that cell. *)
Lemma closure_children : exists H, run_hops closure_ops (new_hierarchy (fun i => if (i =? 0)%nat then 2 else 0)%nat closure_mesh (new_factory true)) = Ok H /\
  (length (levels H) =? 3)%nat = true /\
  match nth_error (levels H) 1, nth_error (levels H) 2 with
  | Some L, Some L' => match children L 0 0 0, nth_error (mv_cells (l_mesh L)) 0 with
                       | j :: _, Some P => match nth_error (mv_cells (l_mesh L')) j with Some F => refel_eqb (cv_type F) (cv_type P) | None => false end
                       | _, _ => false
                       end
  | _, _ => false
  end = true.
Proof. eexists. split; [vm_compute; reflexivity|]. split; vm_compute; reflexivity. Qed.
Lemma prolong_example : exists H L L', reached H /\ nth_error (levels H) 1 = Some L /\ nth_error (levels H) 2 = Some L' /\
  (forall k, exists V, lagrange_space k (l_mesh L) = Ok V) /\ (forall k, exists V, lagrange_space k (l_mesh L') = Ok V) /\
  exists i I F P, nth_error (mv_cells (l_mesh L')) i = Some F /\ nth_error (mv_cells (l_mesh L)) I = Some P /\ cv_type F = cv_type P /\
    forall x, length x = 2%nat -> exists y, image (levels H) 2 (ECell i) x 1 (ECell I) y.
Proof.
  destruct closure_children as (H & RH & N3 & CH). destruct C28_example as (GO & _).
  assert (RE : reached H).
  { destruct (geo_history closure_ops (fun i => if (i =? 0)%nat then 2%nat else 0%nat) true closure_mesh) as (H' & G1 & G2 & _); auto.
    - apply closure_mesh_wf.
    - apply closure_mesh_simple.
    - intros _. apply closure_mesh_wf.
    - intros i. destruct (i =? 0)%nat; lia.
    - rewrite RH in G2. injection G2 as <-.
      exists closure_ops, (fun i => if (i =? 0)%nat then 2%nat else 0%nat), true, closure_mesh.
      split; [apply closure_mesh_wf|]. split; [apply closure_mesh_simple|]. split; [intros _; apply closure_mesh_wf|].
      split; [intros i; destruct (i =? 0)%nat; lia|]. split; auto. }
  destruct (nth_error (levels H) 1) as [L|] eqn:E1; [|discriminate CH]. destruct (nth_error (levels H) 2) as [L'|] eqn:E2; [|discriminate CH].
  destruct (children L 0 0 0) as [|j r] eqn:EC; [discriminate CH|]. destruct (nth_error (mv_cells (l_mesh L)) 0) as [P|] eqn:EP; [|discriminate CH].
  destruct (nth_error (mv_cells (l_mesh L')) j) as [F|] eqn:EF; [|discriminate CH]. assert (TT : cv_type F = cv_type P) by (destruct (cv_type F), (cv_type P); try discriminate CH; reflexivity).
  pose proof (reached_levels H RE) as GL. destruct (nth_in H GL _ _ E1) as [W S0]. destruct (nth_in H GL _ _ E2) as [W' _].
  destruct (gl_step _ GL _ _ _ E1 E2) as [RF LK].
  exists H, L, L'. split; [exact RE|]. split; [exact E1|]. split; [exact E2|].
  split; [intros k; destruct (lagrange_space_ok k (l_mesh L)) as (? & ? & _); eauto|].
  split; [intros k; destruct (lagrange_space_ok k (l_mesh L')) as (? & ? & _); eauto|].
  exists j, 0%nat, F, P. split; [exact EF|]. split; [exact EP|]. split; [exact TT|].
  intros x Lx.
  assert (VJ : valid (l_mesh L') (ECell j)) by (cbn; apply nth_error_Some; congruence).
  destruct (up H GL _ _ _ _ E1 E2 VJ) as (p & w & g & Vp & CD & IN & _).
  assert (Hp : p = ECell 0).
  { destruct IN as [IC _]. cbn [ent_index ent_codim] in IC, CD. destruct p as [v|v|v]; cbn in CD; try lia. cbn [ent_index ent_codim] in IC. f_equal.
    assert (I2 : In j (children L 0 0 0)) by (rewrite EC; left; reflexivity).
    destruct (parent_unique L L' LK 0 _ _ _ _ j ltac:(lia) IC I2) as [_ B]. exact B. }
  subst p. exists (onto w x). eapply image_up; eauto. constructor.
Qed.
