(** Proofs for C74: properties of Galerkin matrices. *)
From Coq Require Import Reals List Arith Lia Lra Bool.
Import ListNotations.
From Verif Require Import Base Scalars MeshModel MeshView DofModel DofSpec RefPatModel GeoModel GeoSpec GeoProofs GeoProofs3 FeModel LagrModel QuadModel AssembleModel AssembleSpec
  FeSpec FeProofs LagrProofs LagrProofs2 LagrProofs3 QuadSpec ElemModel ElemSpec ElemProofs ElemProofs2 ElemProofs3 ElemProofs7 FeToolsModel FeToolsSpec FeToolsProofs FeToolsProofs2
  ProlongProofs2 GalerkinModel GalerkinSpec GalerkinProofs GalerkinProofs2 GalerkinProofs3 GalerkinProofs4 GalerkinProofs5.
Local Open Scope R_scope.

(** *** The forms have values *)
Lemma diffusion_defined : forall V geom get q vol codim sel a u v, let es := filter sel (entities (sp_mesh V) codim) in
  prepared V geom get q vol es -> of_dim geom 2 es -> regular V geom q es -> length u = NumDofs (sp_dofs V) -> length v = NumDofs (sp_dofs V) ->
  exists x, diffusion_form V geom q vol es a u v x.
Proof.
  intros V geom get q vol codim sel a u v es Pr Dim Reg Lu Lv.
  destruct (gradients_exist V geom get q vol sel codim Pr Dim Reg u Lu) as (U & HU). destruct (gradients_exist V geom get q vol sel codim Pr Dim Reg v Lv) as (X & HX).
  eexists. exists U, X. split; [exact HU|]. split; [exact HX|reflexivity].
Qed.
Lemma mass_defined : forall V geom get q vol codim sel c u v, let es := filter sel (entities (sp_mesh V) codim) in
  prepared V geom get q vol es -> length u = NumDofs (sp_dofs V) -> length v = NumDofs (sp_dofs V) ->
  exists x, mass_form V q vol es c u v x.
Proof.
  intros V geom get q vol codim sel c u v es Pr Lu Lv.
  destruct (values_exist V geom get q vol sel codim Pr u Lu) as (U & HU). destruct (values_exist V geom get q vol sel codim Pr v Lv) as (X & HX).
  eexists. exists U, X. split; [exact HU|]. split; [exact HX|reflexivity].
Qed.
Lemma load_defined : forall V geom get q vol codim sel h v, let es := filter sel (entities (sp_mesh V) codim) in
  prepared V geom get q vol es -> length v = NumDofs (sp_dofs V) -> exists x, load_form V q vol es h v x.
Proof.
  intros V geom get q vol codim sel h v es Pr Lv. destruct (values_exist V geom get q vol sel codim Pr v Lv) as (X & HX).
  eexists. exists X. split; [exact HX|reflexivity].
Qed.

(** *** Symmetry and definiteness of the forms *)
Lemma gradients_agree : forall V geom u q es U X e p k, gradients_of V geom u q es U -> gradients_of V geom u q es X -> In e es -> In p (qr_points (q e)) ->
  (k < go_dim (geom e))%nat -> U e p k = X e p k.
Proof.
  intros V geom u q es U X e p k HU HX Ie Ip Hk. destruct (HU e Ie p Ip) as (w & E & H). destruct (HX e Ie p Ip) as (w' & E' & H').
  rewrite E in E'. injection E' as <-. rewrite <- (H k Hk), <- (H' k Hk). reflexivity.
Qed.
Lemma values_agree : forall V u q es U X e p, values_of V u q es U -> values_of V u q es X -> In e es -> In p (qr_points (q e)) -> U e p = X e p.
Proof. intros V u q es U X e p HU HX Ie Ip. pose proof (HU e Ie p Ip) as A. pose proof (HX e Ie p Ip) as B. cbn beta in A, B. congruence. Qed.
Lemma over_nonneg : forall es F, (forall e, In e es -> 0 <= F e) -> 0 <= sum_over es F.
Proof.
  intros es F H. unfold sum_over. induction es as [|e es IH]; cbn [map fold_right]; [lra|].
  pose proof (H e (or_introl eq_refl)). pose proof (IH (fun x I => H x (or_intror I))). lra.
Qed.
Lemma diffusion_symmetric : forall V geom q vol es a u v x, (forall e p, In e es -> In p (qr_points (q e)) -> symmetric_coeff (go_dim (geom e)) (a e p)) ->
  diffusion_form V geom q vol es a u v x -> diffusion_form V geom q vol es a v u x.
Proof.
  intros V geom q vol es a u v x S (U & X & HU & HX & ->). exists X, U. split; [exact HX|]. split; [exact HU|].
  apply over_ext. intros e Ie. apply quad_ext. intros p Ip. f_equal. apply flux_symmetric. apply S; assumption.
Qed.
Lemma mass_symmetric : forall V q vol es c u v x, mass_form V q vol es c u v x -> mass_form V q vol es c v u x.
Proof.
  intros V q vol es c u v x (U & X & HU & HX & ->). exists X, U. split; [exact HX|]. split; [exact HU|].
  apply over_ext. intros e Ie. apply quad_ext. intros p Ip. ring.
Qed.
Lemma diffusion_nonneg : forall V geom get q vol es a u x, prepared V geom get q vol es ->
  (forall e, In e es -> nonnegative_weights (q e)) -> (forall e p, In e es -> In p (qr_points (q e)) -> nonnegative_coeff (go_dim (geom e)) (a e p)) ->
  diffusion_form V geom q vol es a u u x -> 0 <= x.
Proof.
  intros V geom get q vol es a u x Pr NW NC (U & X & HU & HX & ->). apply over_nonneg. intros e Ie.
  destruct (pr_rule _ _ _ _ _ _ Pr e Ie) as (Lw & _ & Vl).
  apply quad_nonneg; [exact Lw|apply NW, Ie|]. intros p Ip. apply Rmult_le_pos; [eapply vol_nonneg, Vl, Ip|].
  rewrite (inner_ext _ (X e p) (flux _ (a e p) (U e p)) (U e p) (flux (go_dim (geom e)) (a e p) (U e p))); [apply NC; assumption| |reflexivity].
  intros k Hk. eapply gradients_agree; eauto.
Qed.
Lemma mass_nonneg : forall V geom get q vol es c u x, prepared V geom get q vol es ->
  (forall e, In e es -> nonnegative_weights (q e)) -> (forall e p, In e es -> In p (qr_points (q e)) -> 0 <= c e p) ->
  mass_form V q vol es c u u x -> 0 <= x.
Proof.
  intros V geom get q vol es c u x Pr NW NC (U & X & HU & HX & ->). apply over_nonneg. intros e Ie.
  destruct (pr_rule _ _ _ _ _ _ Pr e Ie) as (Lw & _ & Vl).
  apply quad_nonneg; [exact Lw|apply NW, Ie|]. intros p Ip. apply Rmult_le_pos; [eapply vol_nonneg, Vl, Ip|].
  rewrite (values_agree V u q es X U e p HX HU Ie Ip). rewrite Rmult_assoc. apply Rmult_le_pos; [apply NC; assumption|]. apply Rle_0_sqr.
Qed.

(** *** Matrices *)
Lemma matrix_unique : forall A n m D D', AssembleSpec.is_matrix Rring A n m D -> AssembleSpec.is_matrix Rring A n m D' ->
  forall i j, (i < n)%nat -> (j < m)%nat -> D i j = D' i j.
Proof. intros A n m D D' (_ & _ & M & E & _ & _ & H) (_ & _ & M' & E' & _ & _ & H') i j Hi Hj. rewrite E in E'. injection E' as <-. rewrite <- H, <- H' by assumption. reflexivity. Qed.
Lemma form_unit : forall n (D : nat -> nat -> R) i j, (i < n)%nat -> (j < n)%nat -> form Rring n n D (comp Rring (unitv n i)) (comp Rring (unitv n j)) = D i j.
Proof.
  intros n D i j Hi Hj. unfold form. rewrite (sumn_single Rring n i); [|exact Hi|].
  - unfold comp. change (@nth (car Rring)) with (@nth R). rewrite unitv_nth by exact Hi. rewrite Nat.eqb_refl.
    unfold mv. rewrite (sumn_single Rring n j); [|exact Hj|].
    + change (@nth (car Rring)) with (@nth R). rewrite unitv_nth by exact Hj. rewrite Nat.eqb_refl. change (1 * (D i j * 1) = D i j). ring.
    + intros k Hk Nk. change (D i k * nth k (unitv n j) 0 = 0). rewrite unitv_nth by exact Hk. destruct (Nat.eqb_spec k j); [contradiction|ring].
  - intros k Hk Nk. unfold comp at 1. change (nth k (unitv n i) 0 * mv Rring n D (comp Rring (unitv n j)) k = 0). rewrite unitv_nth by exact Hk.
    destruct (Nat.eqb_spec k i); [contradiction|]. apply Rmult_0_l.
Qed.
Lemma form_indep : forall n D D' v u, (forall i j, (i < n)%nat -> (j < n)%nat -> D i j = D' i j) -> form Rring n n D v u = form Rring n n D' v u.
Proof. intros n D D' v u H. unfold form. apply sumn_ext. intros i Hi. f_equal. unfold mv. apply sumn_ext. intros j Hj. rewrite (H i j Hi Hj). reflexivity. Qed.

(** Entries are values of the form. *)
Lemma matrix_entries : forall V r a A D, galerkin_matrix V r a -> r = Ok A -> AssembleSpec.is_matrix Rring A (NumDofs (sp_dofs V)) (NumDofs (sp_dofs V)) D ->
  forall u v x, length u = NumDofs (sp_dofs V) -> length v = NumDofs (sp_dofs V) -> a u v x ->
    form Rring (NumDofs (sp_dofs V)) (NumDofs (sp_dofs V)) D (comp Rring v) (comp Rring u) = x.
Proof.
  intros V r a A D (A' & D' & E & M & F) EA MA u v x Lu Lv Ha. rewrite E in EA. injection EA as ->.
  rewrite (form_indep _ D D'); [apply F; assumption|]. intros i j Hi Hj. exact (matrix_unique A _ _ D D' MA M i j Hi Hj).
Qed.
Lemma symmetric_matrix : forall V r a A D, galerkin_matrix V r a -> r = Ok A -> AssembleSpec.is_matrix Rring A (NumDofs (sp_dofs V)) (NumDofs (sp_dofs V)) D ->
  (forall u v, length u = NumDofs (sp_dofs V) -> length v = NumDofs (sp_dofs V) -> exists x, a u v x) -> (forall u v x, a u v x -> a v u x) ->
  forall i j, (i < NumDofs (sp_dofs V))%nat -> (j < NumDofs (sp_dofs V))%nat -> D i j = D j i.
Proof.
  intros V r a A D G E M T S i j Hi Hj. set (N := NumDofs (sp_dofs V)) in *.
  pose proof (unitv_length N i) as Li. pose proof (unitv_length N j) as Lj. destruct (T (unitv N j) (unitv N i) Lj Li) as (x & Hx).
  pose proof (matrix_entries V r a A D G E M _ _ _ Lj Li Hx) as A1. pose proof (matrix_entries V r a A D G E M _ _ _ Li Lj (S _ _ _ Hx)) as A2. fold N in A1, A2.
  rewrite form_unit in A1, A2 by assumption. congruence.
Qed.
Lemma nonneg_matrix : forall V r a A D, galerkin_matrix V r a -> r = Ok A -> AssembleSpec.is_matrix Rring A (NumDofs (sp_dofs V)) (NumDofs (sp_dofs V)) D ->
  (forall u v, length u = NumDofs (sp_dofs V) -> length v = NumDofs (sp_dofs V) -> exists x, a u v x) -> (forall u x, a u u x -> 0 <= x) ->
  forall u, length u = NumDofs (sp_dofs V) -> 0 <= form Rring (NumDofs (sp_dofs V)) (NumDofs (sp_dofs V)) D (comp Rring u) (comp Rring u).
Proof. intros V r a A D G E M T S u Lu. destruct (T u u Lu Lu) as (x & Hx). rewrite (matrix_entries V r a A D G E M _ _ _ Lu Lu Hx). exact (S u x Hx). Qed.

(** *** Constants *)
Lemma constant_gradient : forall V geom get q vol codim sel c U, let es := filter sel (entities (sp_mesh V) codim) in
  prepared V geom get q vol es -> of_dim geom 2 es -> regular V geom q es ->
  (forall e f, In e es -> sp_layout V e = Some f -> counts f /\ partition_of_unity f /\ gradients_ok f /\ fe_el f = kind_el (go_kind (geom e))) ->
  gradients_of V geom (repeat c (NumDofs (sp_dofs V))) q es U -> forall e p k, In e es -> In p (qr_points (q e)) -> (k < go_dim (geom e))%nat -> U e p k = 0.
Proof.
  intros V geom get q vol codim sel c U es Pr Dim Reg FE HU e p k Ie Ip Hk.
  rewrite (GalerkinProofs3.gradients_sum V geom get q vol sel codim Pr Dim Reg _ U e (repeat_length _ _) HU Ie p Ip k Hk).
  destruct (prepared_el V geom get q vol sel codim Pr e Ie) as (l & El & -> & Lo & _ & _).
  destruct (FE e _ Ie Lo) as (Co & Un & Gr & Ef).
  assert (D2 : dimension (fe_el (el_of V e)) = 2%nat) by (rewrite Ef; pose proof (Dim e Ie); destruct (go_kind (geom e)); cbn in *; congruence).
  destruct (pr_rule _ _ _ _ _ _ Pr e Ie) as (_ & Ad & _).
  pose proof (ElemProofs3.gradients_sum (geom e) (el_of V e) _ p Co Un Gr D2 (Dim e Ie) (Ad p Ip) (prepared_grads V geom get q vol sel codim Pr Dim Reg e Ie p Ip) k Hk) as Z0.
  rewrite (eo_total _ _ _ _ El). transitivity (c * sum_to (fe_total (el_of V e)) (fun i => 1 * grads (geom e) (el_of V e) i p k)); [|rewrite Z0; ring].
  rewrite <- sum_to_scal. apply sum_to_ext. intros i Hi. unfold loc. rewrite (nth_indep _ 0 c); [rewrite nth_repeat; ring|]. rewrite repeat_length. apply (eo_range _ _ _ _ El). apply nth_In. rewrite (eo_total _ _ _ _ El). exact Hi.
Qed.
Lemma sum_all_zero : forall A (F : A -> R) l, (forall x, In x l -> F x = 0) -> fold_right Rplus 0 (map F l) = 0.
Proof. intros A F l H. induction l as [|x l IH]; cbn [map fold_right]; [reflexivity|]. rewrite (H x (or_introl eq_refl)), IH; [ring|]. intros; apply H; right; auto. Qed.
Lemma diffusion_constants : forall V geom get q vol codim sel a c v x, let es := filter sel (entities (sp_mesh V) codim) in
  prepared V geom get q vol es -> of_dim geom 2 es -> regular V geom q es ->
  (forall e f, In e es -> sp_layout V e = Some f -> counts f /\ partition_of_unity f /\ gradients_ok f /\ fe_el f = kind_el (go_kind (geom e))) ->
  diffusion_form V geom q vol es a (repeat c (NumDofs (sp_dofs V))) v x -> x = 0.
Proof.
  intros V geom get q vol codim sel a c v x es Pr Dim Reg FE (U & X & HU & HX & ->).
  apply sum_all_zero. intros e Ie. rewrite (quad_ext (q e) _ (fun _ => 0)).
  - rewrite (quad_idx (q e) _ (proj1 (pr_rule _ _ _ _ _ _ Pr e Ie))). apply sum_all_zero. intros; ring.
  - intros p Ip. rewrite (inner_ext _ (X e p) (flux (go_dim (geom e)) (a e p) (U e p)) (X e p) (fun _ => 0)); [|reflexivity|].
    + assert (Z0 : inner (go_dim (geom e)) (X e p) (fun _ => 0) = 0) by (unfold inner; apply sum_all_zero; intros; ring). rewrite Z0. ring.
    + intros k Hk. rewrite (flux_ext _ (a e p) (U e p) (fun _ => 0)); [|intros k' Hk'; eapply (constant_gradient V geom get q vol codim sel); eauto|exact Hk].
      destruct (a e p) as [s|T]; cbn [flux]; [ring|]. apply sum_all_zero. intros; ring.
Qed.
