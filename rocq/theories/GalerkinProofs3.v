From Coq Require Import Reals List Arith Lia Lra Bool.
Import ListNotations.
From Verif Require Import Base Scalars MeshModel MeshView DofModel DofSpec RefPatModel GeoModel GeoSpec GeoProofs3 FeModel QuadModel AssembleModel AssembleSpec
  FeSpec FeProofs QuadSpec ElemModel ElemSpec ElemProofs ElemProofs2 ElemProofs3 ElemProofs7 FeToolsModel FeToolsSpec FeToolsProofs GalerkinModel GalerkinSpec GalerkinProofs GalerkinProofs2.
Local Open Scope R_scope.

Lemma quad_bilinear : forall q n (F : nat -> nat -> list R -> R) (y x : nat -> R), length (qr_weights q) = length (qr_points q) ->
  sum_to n (fun i => y i * sum_to n (fun j => quadrature q (F i j) * x j)) =
  quadrature q (fun p => sum_to n (fun i => y i * sum_to n (fun j => F i j p * x j))).
Proof.
  intros q n F y x L. rewrite (quad_sum q n (fun i p => y i * sum_to n (fun j => F i j p * x j)) L). apply sum_to_ext. intros i _.
  rewrite quad_scal by exact L. f_equal. rewrite (quad_sum q n (fun j p => F i j p * x j) L). apply sum_to_ext. intros j _.
  rewrite Rmult_comm, <- quad_scal by exact L. apply quad_ext. intros p _. ring.
Qed.
Lemma diffusion_bilinear : forall d a n (y x : nat -> R) (G : nat -> vec) t W U,
  (forall k, (k < d)%nat -> W k = sum_to n (fun i => y i * G i k)) -> (forall k, (k < d)%nat -> U k = sum_to n (fun i => x i * G i k)) ->
  sum_to n (fun i => y i * sum_to n (fun j => t * inner d (G i) (flux d a (G j)) * x j)) = t * inner d W (flux d a U).
Proof.
  intros d a n y x G t W U HW HU.
  rewrite (inner_ext d W (flux d a U) (combo n y G) (flux d a (combo n x G)) HW (flux_ext d a U (combo n x G) HU)).
  rewrite inner_combo, <- sum_to_scal. apply sum_to_ext. intros i _. rewrite inner_flux_combo.
  transitivity (y i * (t * sum_to n (fun j => inner d (G i) (flux d a (G j)) * x j))); [|ring]. f_equal.
  rewrite <- sum_to_scal. apply sum_to_ext. intros j _. ring.
Qed.
Lemma mass_bilinear : forall c n (y x b : nat -> R) t,
  sum_to n (fun i => y i * sum_to n (fun j => t * (c * b i * b j) * x j)) = t * (c * sum_to n (fun i => y i * b i) * sum_to n (fun i => x i * b i)).
Proof.
  intros. transitivity (sum_to n (fun i => (t * c * sum_to n (fun j => x j * b j)) * (y i * b i))); [|rewrite sum_to_scal; ring].
  apply sum_to_ext. intros i _.
  transitivity (y i * (t * c * b i * sum_to n (fun j => x j * b j))); [|ring]. f_equal. rewrite <- sum_to_scal. apply sum_to_ext. intros; ring.
Qed.

Section Cells.
Variable (V : fe_space) (geom : ent -> geo) (get : refel -> nat -> res quadrule) (q : ent -> quadrule) (vol : ent -> list R -> R) (act : ent -> bool) (codim : nat).
Let es := filter act (entities (sp_mesh V) codim).
Let N := NumDofs (sp_dofs V).
Hypothesis (Pr : prepared V geom get q vol es).

Lemma weights_ok : forall e, In e es -> length (qr_weights (q e)) = length (qr_points (q e)).
Proof. intros e I. apply (pr_rule _ _ _ _ _ _ Pr e I). Qed.
Definition el_of (e : ent) : srfe := match sp_layout V e with Some f => f | None => fe_point 0 end.
Lemma prepared_el : forall e, In e es -> exists l, element_of V e (el_of e) l /\ idx_of V e = l /\ sp_layout V e = Some (el_of e) /\
  get (kind_el (go_kind (geom e))) (2 * fe_degree (el_of e))%nat = Ok (q e) /\ at_points (q e) (evaluates (el_of e)).
Proof.
  intros e I. destruct (pr_element _ _ _ _ _ _ Pr e I) as (f & l & El & Eq & At). exists l.
  assert (E : el_of e = f) by (unfold el_of; rewrite (eo_layout _ _ _ _ El); reflexivity). rewrite E.
  split; [exact El|]. split; [apply idx_is, El|]. split; [apply El|]. split; assumption.
Qed.

Section Diffusion.
Hypothesis (Dim : forall e, In e es -> dim_local (go_kind (geom e)) = 2%nat) (Reg : regular V geom q es).
Lemma prepared_grads : forall e, In e es -> at_points (q e) (gradient_at (geom e) (el_of e) (grads (geom e) (el_of e))).
Proof.
  intros e I p Ip. destruct (prepared_el e I) as (l & _ & _ & Lo & _ & _). destruct (Reg e _ I Lo p Ip) as ((J & HJ & ND) & At).
  destruct (pr_rule _ _ _ _ _ _ Pr e I) as (_ & Ad & _). eapply grads_at; eauto.
Qed.
Lemma gradients_sum : forall u U e, length u = N -> gradients_of V geom u q es U -> In e es -> forall p, In p (qr_points (q e)) ->
  forall k, (k < go_dim (geom e))%nat -> U e p k = sum_to (length (idx_of V e)) (fun i => loc (idx_of V e) u i * grads (geom e) (el_of e) i p k).
Proof.
  intros u U e Lu HU I p Ip k Hk. destruct (prepared_el e I) as (l & El & -> & Lo & _ & _). destruct (Reg e _ I Lo p Ip) as ((J & HJ & ND) & At).
  destruct (pr_rule _ _ _ _ _ _ Pr e I) as (_ & Ad & _).
  destruct (gradient_grads V geom e (el_of e) l u p J El Lu At (Ad p Ip) (Dim e I) (pr_shape _ _ _ _ _ _ Pr e I) HJ ND) as (w & Ew & Hw).
  destruct (HU e I p Ip) as (w' & Ew' & Hw'). rewrite Ew in Ew'. injection Ew' as <-. rewrite <- Hw' by exact Hk. apply Hw.
Qed.
Lemma gradients_exist : forall u, length u = N -> exists U, gradients_of V geom u q es U.
Proof.
  intros u Lu. exists (fun e p => match fe_grad_value V geom u e p with Ok w => w | _ => vzero end). intros e I p Ip.
  destruct (prepared_el e I) as (l & El & _ & Lo & _ & _). destruct (Reg e _ I Lo p Ip) as ((J & HJ & ND) & At).
  destruct (pr_rule _ _ _ _ _ _ Pr e I) as (_ & Ad & _).
  destruct (gradient_grads V geom e (el_of e) l u p J El Lu At (Ad p Ip) (Dim e I) (pr_shape _ _ _ _ _ _ Pr e I) HJ ND) as (w & Ew & _).
  exists w. rewrite Ew. auto.
Qed.
End Diffusion.

Lemma values_sum : forall u U e, length u = N -> values_of V u q es U -> In e es -> forall p, In p (qr_points (q e)) ->
  U e p = sum_to (length (idx_of V e)) (fun i => loc (idx_of V e) u i * shapes (el_of e) i p).
Proof.
  intros u U e Lu HU I p Ip. destruct (prepared_el e I) as (l & El & -> & _ & _ & At).
  pose proof (value_shapes V e (el_of e) l u p El Lu (At p Ip)) as E. rewrite (HU e I p Ip) in E. injection E as E. exact E.
Qed.
Lemma values_exist : forall u, length u = N -> exists U, values_of V u q es U.
Proof.
  intros u Lu. exists (fun e p => match fe_value V u e p with Ok w => w | _ => 0 end). intros e I p Ip.
  destruct (prepared_el e I) as (l & El & _ & _ & _ & At). rewrite (value_shapes V e (el_of e) l u p El Lu (At p Ip)). reflexivity.
Qed.

(** *** Matrices *)
Lemma bilinear_assembled : forall eval (F : ent -> nat -> nat -> list R -> R) (X : (ent -> list R -> vec) -> (ent -> list R -> R) -> (ent -> list R -> vec) -> (ent -> list R -> R) -> ent -> list R -> R)
    (gr : bool),
  (forall e, In e es -> ElemSpec.is_matrix (eval e) (fe_total (el_of e)) (fun i j => quadrature (q e) (F e i j))) ->
  (forall u v GU U GW W e p, length u = N -> length v = N -> (gr = true -> gradients_of V geom u q es GU) -> values_of V u q es U ->
     (gr = true -> gradients_of V geom v q es GW) -> values_of V v q es W -> In e es -> In p (qr_points (q e)) ->
     sum_to (length (idx_of V e)) (fun i => loc (idx_of V e) v i * sum_to (length (idx_of V e)) (fun j => F e i j p * loc (idx_of V e) u j)) = X GU U GW W e p) ->
  galerkin_matrix V (AssembleMatrixWith (sp_mesh V) codim (sp_dofs V) (sp_dofs V) act eval)
    (fun u v x => exists GU U GW W, (gr = true -> gradients_of V geom u q es GU) /\ values_of V u q es U /\ (gr = true -> gradients_of V geom v q es GW) /\ values_of V v q es W /\
       x = sum_over es (fun e => quadrature (q e) (X GU U GW W e))).
Proof.
  intros eval F X gr HM HX.
  destruct (assembled V codim act eval (fun e i j => quadrature (q e) (F e i j))) as (A & D & EA & MA & FA).
  { intros e I. destruct (prepared_el e I) as (l & El & _). exists (el_of e), l. split; [exact El|]. apply HM, I. }
  exists A, D. split; [exact EA|]. split; [exact MA|]. intros u v x Lu Lv (GU & U & GW & W & H1 & H2 & H3 & H4 & ->).
  rewrite FA. apply over_ext. intros e I. cbv zeta.
  transitivity (sum_to (length (idx_of V e)) (fun i => loc (idx_of V e) v i * sum_to (length (idx_of V e)) (fun j => quadrature (q e) (F e i j) * loc (idx_of V e) u j)));
    [reflexivity|].
  rewrite quad_bilinear by (apply weights_ok, I). apply quad_ext. intros p Ip. apply (HX u v GU U GW W e p); assumption.
Qed.
Lemma linear_assembled : forall eval (F : ent -> nat -> list R -> R) (X : (ent -> list R -> R) -> ent -> list R -> R),
  (forall e, In e es -> is_vector (eval e) (fe_total (el_of e)) (fun i => quadrature (q e) (F e i))) ->
  (forall v W e p, length v = N -> values_of V v q es W -> In e es -> In p (qr_points (q e)) ->
     sum_to (length (idx_of V e)) (fun i => F e i p * loc (idx_of V e) v i) = X W e p) ->
  galerkin_vector V (AssembleVectorWith (sp_mesh V) codim (sp_dofs V) act eval)
    (fun v x => exists W, values_of V v q es W /\ x = sum_over es (fun e => quadrature (q e) (X W e))).
Proof.
  intros eval F X HM HX.
  destruct (assembled_vec V codim act eval (fun e i => quadrature (q e) (F e i))) as (b & Eb & Lb & Fb).
  { intros e I. destruct (prepared_el e I) as (l & El & _). exists (el_of e), l. split; [exact El|]. apply HM, I. }
  exists b. split; [exact Eb|]. split; [exact Lb|]. intros v x Lv (W & H & ->).
  rewrite Fb. apply over_ext. intros e I. cbv zeta.
  transitivity (sum_to (length (idx_of V e)) (fun i => quadrature (q e) (fun p => F e i p * loc (idx_of V e) v i))).
  { apply sum_to_ext. intros i _. unfold loc. rewrite Rmult_comm, <- quad_scal by (apply weights_ok, I). apply quad_ext. intros; ring. }
  rewrite <- (quad_sum (q e) _ (fun i p => F e i p * loc (idx_of V e) v i)) by (apply weights_ok, I). apply quad_ext. intros p Ip.
  apply (HX v W e p); assumption.
Qed.
End Cells.
