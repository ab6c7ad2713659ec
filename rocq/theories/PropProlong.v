(** Property C66: prolongation of finite element functions. *)
From Coq Require Import Reals List Arith Bool.
Import ListNotations.
From Verif Require Import Base MeshModel MeshView RefPatModel RefPatSpec RefineModel RefineSpec DofModel DofSpec GeoModel GeoSpec FeModel LagrModel AssembleModel
  FeSpec FeToolsModel TransferModel TransferSpec TransferProofs4 ProlongSpec ProlongProofs2 ProlongProofs3 ProlongProofs4.
Local Open Scope R_scope.

(** The function of a coefficient vector of a Lagrangian space is continuous, *)
Theorem C66_fe_continuous : forall k m V coef, wf_mesh m -> lagrange_space k m = Ok V -> length coef = NumDofs (sp_dofs V) ->
  continuous_function m (fe_value V coef).
Proof. exact fe_function_continuous. Qed.
Print Assumptions C66_fe_continuous.
(** the transfer of a continuous function to any finer level is continuous, *)
Theorem C66_transfer_continuous : forall H mf lc lf Lc L, reached H -> (lc < lf)%nat -> nth_error (levels H) lc = Some Lc -> nth_error (levels H) lf = Some L ->
  continuous_function (l_mesh Lc) mf -> continuous_function (l_mesh L) (transfer_eval H mf lc lf).
Proof. intros H mf lc lf Lc L RE. apply transfer_continuous, reached_levels, RE. Qed.
Print Assumptions C66_transfer_continuous.
(** and the nodal projection of a continuous function interpolates it. *)
Theorem C66_interpolates : forall k m V u, wf_mesh m -> lagrange_space k m = Ok V -> continuous_function m u ->
  exists c, NodalProjection V u (fun _ => true) = Ok c /\ length c = NumDofs (sp_dofs V) /\
    forall i cl p, nth_error (mv_cells m) i = Some cl -> In p (fe_nodes (lagrange k (cv_type cl))) -> fe_value V c (ECell i) p = u (ECell i) p.
Proof. exact interpolates. Qed.
Print Assumptions C66_interpolates.

(** Prolongation succeeds, and at every evaluation node of every cell of the finer mesh
    the new function has the value of the given function at the image of that node. *)
Theorem C66_prolongation : forall H k k' l L L' Vc Vf dofs, reached H -> nth_error (levels H) l = Some L -> nth_error (levels H) (S l) = Some L' ->
  lagrange_space k (l_mesh L) = Ok Vc -> lagrange_space k' (l_mesh L') = Ok Vf -> length dofs = NumDofs (sp_dofs Vc) ->
  exists c, prolongate H (Some l) Vc Vf dofs l = Ok c /\ length c = NumDofs (sp_dofs Vf) /\
    forall i F p q y, nth_error (mv_cells (l_mesh L')) i = Some F -> In p (fe_nodes (lagrange k' (cv_type F))) ->
      image (levels H) (S l) (ECell i) p l q y -> exists v, fe_value Vf c (ECell i) p = Ok v /\ fe_value Vc dofs q y = Ok v.
Proof. exact prolongation. Qed.
Print Assumptions C66_prolongation.
(** If the degree does not decrease then on children of the type of their parent the
    function is reproduced everywhere. *)
Theorem C66_exact : forall H k k' l L L' Vc Vf dofs c, reached H -> nth_error (levels H) l = Some L -> nth_error (levels H) (S l) = Some L' ->
  lagrange_space k (l_mesh L) = Ok Vc -> lagrange_space k' (l_mesh L') = Ok Vf -> length dofs = NumDofs (sp_dofs Vc) -> (ord k <= ord k')%nat ->
  prolongate H (Some l) Vc Vf dofs l = Ok c ->
  forall i I F P x y, nth_error (mv_cells (l_mesh L')) i = Some F -> nth_error (mv_cells (l_mesh L)) I = Some P -> cv_type F = cv_type P ->
    length x = 2%nat -> image (levels H) (S l) (ECell i) x l (ECell I) y ->
    exists v, fe_value Vf c (ECell i) x = Ok v /\ fe_value Vc dofs (ECell I) y = Ok v.
Proof. exact prolongation_exact. Qed.
Print Assumptions C66_exact.

(** ** Examples *)
Example C66_example : exists H L L', reached H /\ nth_error (levels H) 1 = Some L /\ nth_error (levels H) 2 = Some L' /\
  (forall k, exists V, lagrange_space k (l_mesh L) = Ok V) /\ (forall k, exists V, lagrange_space k (l_mesh L') = Ok V) /\
  exists i I F P, nth_error (mv_cells (l_mesh L')) i = Some F /\ nth_error (mv_cells (l_mesh L)) I = Some P /\ cv_type F = cv_type P /\
    forall x, length x = 2%nat -> exists y, image (levels H) 2 (ECell i) x 1 (ECell I) y.
Proof. exact prolong_example. Qed.
