(** Proofs for C74: Galerkin matrices of Lagrangian spaces on straight cells against exact
    integrals. *)
From Coq Require Import Reals List Arith Lia Lra Bool.
Import ListNotations.
From Verif Require Import Base Scalars MeshModel MeshView DofModel DofSpec RefPatModel GeoModel GeoSpec GeoProofs GeoProofs3 GeoProofs4 FeModel LagrModel QuadModel AssembleModel AssembleSpec
  FeSpec FeProofs LagrProofs LagrProofs2 LagrProofs3 QuadSpec TriaSpec HierProofs3 PolyProofs ElemModel ElemSpec ElemProofs ElemProofs2 ElemProofs3 ElemProofs5 ElemProofs7 ElemProofs8 ElemProofs9 FeToolsModel FeToolsSpec FeToolsProofs FeToolsProofs2
  ProlongProofs2 GalerkinModel GalerkinSpec GalerkinProofs GalerkinProofs2 GalerkinProofs3 GalerkinProofs4 GalerkinProofs5 GalerkinProofs8.
Local Open Scope R_scope.

(** *** Lagrangian spaces *)
Section Lagrange.
Variables (k : order) (m : mesh) (V : fe_space).
Hypothesis W : wf_mesh m.
Hypothesis EV : lagrange_space k m = Ok V.

Lemma lagrange_mesh : sp_mesh V = m. Proof. exact (proj1 (V_is k m V EV)). Qed.
Lemma lagrange_element : forall c e, (c = 0 \/ c = 1)%nat -> In e (entities m c) ->
  exists l, element_of V e (lagrange k (ent_type m e)) l.
Proof.
  intros c e Hc Ie. destruct (V_is k m V EV) as (VM & VD & VL). destruct (lagrange_elements k m V W EV) as (_ & E0 & E1 & _).
  assert (EO : element_ok V e) by (destruct Hc as [-> | ->]; auto). destruct EO as (f & l & Lo & Hd & Nl & RG & LT & _).
  exists l. assert (f = lagrange k (ent_type m e)) by (rewrite VL in Lo; congruence). subst f. constructor; auto.
Qed.
Lemma lagrange_cell : forall e, In e (entities m 0) -> ent_type m e = kTria \/ ent_type m e = kQuad.
Proof.
  intros e Ie. destruct (in_cells m e Ie) as (i & cl & -> & Hc).
  assert (Tc : ent_type m (ECell i) = cv_type cl) by (cbn; unfold DofModel.cell_at; rewrite (nth_error_nth _ _ _ Hc); reflexivity).
  destruct (cell_wf m W i cl Hc) as (Wc & _). rewrite Tc. unfold cv_type, cell_type. destruct (wc_shape _ _ Wc) as [-> | ->]; cbn; auto.
Qed.
Lemma lagrange_shape : forall c e, (c = 0 \/ c = 1)%nat -> In e (entities m c) -> ent_type m e <> kPoint.
Proof.
  intros c e Hc Ie. destruct Hc as [-> | ->].
  - destruct (lagrange_cell e Ie) as [-> | ->]; discriminate.
  - destruct (in_edges m e Ie) as (i & -> & _). discriminate.
Qed.
Lemma lagrange_prepared : forall c sel geom get q, (c = 0 \/ c = 1)%nat -> let es := filter sel (entities m c) in
  (forall e, In e es -> kind_el (go_kind (geom e)) = ent_type m e /\ get (ent_type m e) (2 * ord k)%nat = Ok (q e) /\
     length (qr_weights (q e)) = length (qr_points (q e)) /\ at_points (q e) (admissible (geom e))) ->
  exists vol, (forall e p, In e es -> admissible (geom e) p -> volume_at (geom e) (vol e) p) /\ prepared V geom get q vol es /\
    ((forall e, In e es -> at_points (q e) (nondegenerate (geom e))) -> regular V geom q es).
Proof.
  intros c sel geom get q Hc es H.
  assert (HE : forall e, In e es -> In e (entities m c)) by (intros e I; unfold es in I; apply filter_In in I; apply I).
  assert (DM : forall e p, In e es -> admissible (geom e) p -> length p = dimension (fe_el (lagrange k (ent_type m e)))).
  { intros e p I (L & _). rewrite (proj1 (lagrange_describes k (ent_type m e))), <- (proj1 (H e I)), L. destruct (go_kind (geom e)); reflexivity. }
  exists (fun e p => match Jacobian (geom e) p with Ok J => sqrt (gramian_det (go_dim (geom e)) J) | _ => 0 end).
  assert (VO : forall e p, In e es -> admissible (geom e) p -> volume_at (geom e) (fun p => match Jacobian (geom e) p with Ok J => sqrt (gramian_det (go_dim (geom e)) J) | _ => 0 end) p).
  { intros e p _ Ad. destruct (jacobian_derivative (geom e) p Ad) as (J & HJ & _). exists J. rewrite HJ. auto. }
  split; [exact VO|]. split.
  - constructor.
    + intros e I. destruct (lagrange_element c e Hc (HE e I)) as (l & El). exists (lagrange k (ent_type m e)), l. destruct (H e I) as (Ek & Eg & Lw & Ad).
      destruct (lagrange_describes k (ent_type m e)) as (_ & Dg & Co & _). split; [exact El|]. split; [rewrite Ek, Dg; exact Eg|].
      intros p Ip. apply (co_eval _ Co p). apply DM; [exact I|apply Ad, Ip].
    + intros e I. rewrite lagrange_mesh. apply H, I.
    + intros e I. destruct (H e I) as (Ek & Eg & Lw & Ad). split; [exact Lw|]. split; [exact Ad|]. intros p Ip. apply VO; [exact I|apply Ad, Ip].
  - intros ND e f I Lo p Ip. split; [apply ND; auto|]. destruct (V_is k m V EV) as (_ & _ & VL). assert (f = lagrange k (ent_type m e)) by (rewrite VL in Lo; congruence). subst f.
    destruct (lagrange_gradients k (ent_type m e) (lagrange_shape c e Hc (HE e I)) p) as (gr & Eg & Lg & _); [|exists gr; auto].
    apply DM; [exact I|]. destruct (H e I) as (_ & _ & _ & Ad). apply Ad, Ip.
Qed.
End Lagrange.
