(** Proofs for C71, C72: meshes of a hierarchy, finite element functions. *)
From Coq Require Import Reals String List Arith Bool Lia Lra.
Import ListNotations.
From Verif Require Import Base PropRefine MeshModel MeshView DofModel DofSpec RefineModel RefineSpec TransferModel GeoModel GeoSpec FeModel FeSpec FeToolsModel TransferSpec ProlongSpec LagrModel TransferProofs TransferProofs2
  TransferProofs3 TransferProofs4 TransferProofs5 PropProlong ConformSpec ConformProofs3 VtkModel VtkSpec VtkProofs6 VtkProofs7.
Lemma levels_writable : forall H geom d L0 codim n, reached H -> geometric (levels H) geom -> nth_error (levels H) 0 = Some L0 -> watertight (l_mesh L0) d (geom 0%nat) ->
  (1 <= d <= 3)%nat -> (codim < 2)%nat -> (1 <= n <= 10)%nat -> forall l L, nth_error (levels H) l = Some L -> writable (l_mesh L) d (geom l) codim n.
Proof.
  intros H geom d L0 codim n RE GE E0 WT Hd HC Hn l L E. pose proof (reached_levels H RE) as GL. destruct (nth_in H GL _ _ E) as [W _].
  split; [exact W|]. split; [eapply levels_watertight; eauto|]. split; [|auto]. intros e V. apply (all_fit H geom GL GE _ _ _ E V).
Qed.
Lemma fe_agrees : forall k m V coef codim, wf_mesh m -> lagrange_space k m = Ok V -> length coef = NumDofs (sp_dofs V) -> agreeing m codim (fe_value V coef).
Proof. intros k m V coef codim W E L. apply continuous_agrees. eapply C66_fe_continuous; eauto. Qed.

Lemma lost_refl : forall w, nothing_lost w w.
Proof. intro w. split; [reflexivity|]. exists [], [], []. rewrite !app_nil_r. auto. Qed.
Lemma lost_trans : forall a b c, nothing_lost a b -> nothing_lost b c -> nothing_lost a c.
Proof.
  intros a b c [G (p & q & r & P & Q & T)] [G' (p' & q' & r' & P' & Q' & T')]. split; [congruence|]. exists (p ++ p'), (q ++ q'), (r ++ r').
  rewrite P', P, Q', Q, T', T, !app_assoc. auto.
Qed.
Lemma lost_point : forall w a, nothing_lost w (add_point w a).
Proof. intros w a. split; [reflexivity|]. exists [a], [], []. cbn. rewrite !app_nil_r. auto. Qed.
Lemma lost_cell : forall w a, nothing_lost w (add_cell w a).
Proof. intros w a. split; [reflexivity|]. exists [], [a], []. cbn. rewrite !app_nil_r. auto. Qed.
Lemma lost_step : forall m w op w', vtk_step m w op = Ok w' -> nothing_lost w w'.
Proof.
  intros m w op w' E. destruct op; cbn [vtk_step] in E; inv_bind; 
    try (match goal with H : Ok _ = Ok w' |- _ => apply Ok_inj in H end); subst; try apply lost_point; try apply lost_cell.
  - split; [reflexivity|]. exists [], [], []. cbn. rewrite !app_nil_r. auto.
  - split; [reflexivity|]. exists [], [], [mkField name t data]. cbn. rewrite !app_nil_r. auto.
Qed.
Theorem lost_run : forall m ops w w', run_vtk m w ops = Ok w' -> nothing_lost w w'.
Proof.
  intros m. induction ops as [|op ops IH]; intros w w' E; cbn [run_vtk] in E. { injection E as <-. apply lost_refl. }
  destruct (vtk_step m w op) as [x| |] eqn:S0; [|auto|discriminate]. eapply lost_trans; [eapply lost_step; eauto|auto].
Qed.
Theorem global_data : forall m w name t data, acceptable (map fd_name (vf_field (vw_file w))) name ->
  vtk_step m w (GlobalData name t data) =
  Ok (mkWriter (vw_codim w) (vw_order w) (vw_off1 w) (vw_off0 w) (mkFile (vf_header (vw_file w)) (vf_binary (vw_file w)) (vf_grid (vw_file w))
    (vf_field (vw_file w) ++ [mkField name t data]) (vf_point (vw_file w)) (vf_cell (vw_file w)))).
Proof. intros m w name t data A. cbn [vtk_step]. rewrite check_accepts by exact A. reflexivity. Qed.
Theorem set_binary : forall m w b, vtk_step m w (SetBinary b) =
  Ok (mkWriter (vw_codim w) (vw_order w) (vw_off1 w) (vw_off0 w) (mkFile (vf_header (vw_file w)) b (vf_grid (vw_file w)) (vf_field (vw_file w)) (vf_point (vw_file w)) (vf_cell (vw_file w)))).
Proof. reflexivity. Qed.
