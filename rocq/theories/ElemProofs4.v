(** Providers of lf::uscalfe. *)
From Coq Require Import Reals List Arith Bool Lia Lra.
Import ListNotations.
From Verif Require Import Base MeshModel MeshView DofModel RefPatModel GeoModel GeoSpec GeoProofs GeoProofs2 GeoProofs3 FeModel QuadModel FeSpec QuadSpec
  HierProofs HierProofs3 ElemModel ElemSpec ElemProofs ElemProofs2 ElemProofs3.
Local Open Scope R_scope.

Lemma precompute_ok : forall f q pfe, precompute f q = Ok pfe ->
  pc_fe pfe = f /\ pc_qr pfe = q /\ traverse (fe_eval f) (qr_points q) = Ok (pc_shap pfe) /\ traverse (fe_grad f) (qr_points q) = Ok (pc_grad pfe).
Proof.
  intros f q pfe H. unfold precompute in H. apply bind_ok in H. destruct H as [sh [H1 H]]. apply bind_ok in H. destruct H as [gr [H2 H]].
  injection H as <-. cbn. auto.
Qed.
Lemma default_get : forall make layout P el, precompute_default make layout = Ok P -> el = kTria \/ el = kQuad ->
  match layout el with
  | None => pcs_get P el = None
  | Some f => exists q pfe, make el (2 * fe_degree f)%nat = Ok q /\ precompute f q = Ok pfe /\ pcs_get P el = Some pfe
  end.
Proof.
  intros make layout P el H E. unfold precompute_default in H. apply bind_ok in H. destruct H as [a [H1 H]]. apply bind_ok in H. destruct H as [b [H2 H]].
  injection H as <-. cbv beta in H1, H2. destruct E as [-> | ->]; cbn [pcs_get pcs_tria pcs_quad].
  - destruct (layout kTria) as [f|]; [|congruence]. apply bind_ok in H1. destruct H1 as [q [X H1]]. apply bind_ok in H1. destruct H1 as [p [Y H1]].
    injection H1 as <-. eauto.
  - destruct (layout kQuad) as [f|]; [|congruence]. apply bind_ok in H2. destruct H2 as [q [X H2]]. apply bind_ok in H2. destruct H2 as [p [Y H2]].
    injection H2 as <-. eauto.
Qed.
Lemma given_get : forall strict coll layout P el, precompute_given strict coll layout = Ok P -> el = kTria \/ el = kQuad ->
  match layout el, coll el with
  | Some f, Some q => qr_el q = el /\ exists pfe, precompute f q = Ok pfe /\ pcs_get P el = Some pfe
  | Some f, None => strict = false /\ pcs_get P el = None
  | None, _ => pcs_get P el = None
  end.
Proof.
  intros strict coll layout P el H E. unfold precompute_given in H. apply bind_ok in H. destruct H as [a [H1 H]]. apply bind_ok in H. destruct H as [b [H2 H]].
  injection H as <-. cbv beta in H1, H2. destruct E as [-> | ->]; cbn [pcs_get pcs_tria pcs_quad].
  - destruct (layout kTria) as [f|]; [|congruence]. destruct (coll kTria) as [q|].
    + apply bind_ok in H1. destruct H1 as [u [X H1]]. apply bind_ok in H1. destruct H1 as [p [Y H1]]. injection H1 as <-.
      apply lf_assert_ok in X. destruct (qr_el q); try discriminate X. eauto.
    + destruct strict; [discriminate|]. injection H1 as <-. auto.
  - destruct (layout kQuad) as [f|]; [|congruence]. destruct (coll kQuad) as [q|].
    + apply bind_ok in H2. destruct H2 as [u [X H2]]. apply bind_ok in H2. destruct H2 as [p [Y H2]]. injection H2 as <-.
      apply lf_assert_ok in X. destruct (qr_el q); try discriminate X. eauto.
    + destruct strict; [discriminate|]. injection H2 as <-. auto.
Qed.
Lemma cell_el : forall g, dim_local (go_kind g) = 2%nat -> kind_el (go_kind g) = kTria \/ kind_el (go_kind g) = kQuad.
Proof. intros g. destruct (go_kind g); cbn; intros; auto; discriminate. Qed.

Section Entries.
Variable (q : quadrule) (g : geo) (f : srfe).
Hypothesis (HW : length (qr_weights q) = length (qr_points q)).
Hypothesis (HA : forall p, In p (qr_points q) -> admissible g p).
Variable (vol : list R -> R).
Hypothesis (HV : forall p, In p (qr_points q) -> volume_at g vol p).
Variable (b : nat -> list R -> R).
Hypothesis (HB : forall p, In p (qr_points q) -> shape_at f b p).

Lemma rd_entries : forall P pfe alpha gamma G a c, pcs_get P (kind_el (go_kind g)) = Some pfe -> precompute f q = Ok pfe ->
  dim_local (go_kind g) = 2%nat ->
  (forall p, In p (qr_points q) -> gradient_at g f G p) -> (forall p, In p (qr_points q) -> value_at alpha a p) ->
  (forall p, In p (qr_points q) -> value_at gamma c p) ->
  is_matrix (ReactionDiffusionEval P g alpha gamma) (fe_total f)
    (fun i j => quadrature q (fun p => vol p * (inner (go_dim g) (G i p) (flux (go_dim g) (a p) (G j p)) + c p * b i p * b j p))).
Proof.
  intros P pfe alpha gamma G a c HP PC D HG HAl HC. unfold is_matrix, ReactionDiffusionEval. rewrite HP, D. cbn [Nat.eqb lf_assert bind].
  destruct (precompute_ok _ _ _ PC) as [E1 [E2 [E3 HGr]]]. cbv zeta. rewrite E2, E1.
  rewrite (dets q g HA vol HV). cbn [bind]. rewrite (assert_len q _ (map vol (qr_points q))) by apply map_length. cbn [bind].
  destruct (traverse_all _ _ (JacobianInverseGramian g) (qr_points q)) as [jit HJ].
  { intros p Hp. destruct (gramian_inverse g f G p (HA p Hp) D (HG p Hp)) as [M [gr [E _]]]. exists M. exact E. }
  rewrite HJ. cbn [bind]. set (grs := pc_grad pfe) in *.
  destruct (traverse_nth _ _ _ _ _ HJ) as [LJ NJ]. destruct (traverse_nth _ _ _ _ _ HGr) as [LG NG].
  assert (Each : forall k, (k < NumPoints q)%nat -> length (nth k jit []) = 2%nat /\
     forall i, (i < fe_total f)%nat -> forall c, (c < go_dim g)%nat ->
       trf_grad (nth k jit []) (nth k grs []) i c = G i (nth k (qr_points q) []) c).
  { intros k Hk. pose proof (pt_in q k Hk) as Hp.
    destruct (gramian_inverse g f G _ (HA _ Hp) D (HG _ Hp)) as [M [gr [EM [LM [EG HH]]]]].
    pose proof (NJ k [] [] Hk) as EM'. pose proof (NG k [] [] Hk) as EG'.
    assert (X1 : nth k jit [] = M) by congruence. assert (X2 : nth k grs [] = gr) by congruence. rewrite X1, X2. split; assumption. }
  assert (LC : length (concat jit) = (2 * NumPoints q)%nat).
  { apply concat_two; [exact LJ|]. intros k Hk. apply Each, Hk. }
  rewrite LC, Nat.eqb_refl. cbn [lf_assert bind].
  rewrite (traverse_map _ _ alpha a) by exact HAl. cbn [bind]. rewrite (traverse_map _ _ gamma c) by exact HC. cbn [bind].
  destruct (shapes q f b HB) as [rsf [E [L V]]]. assert (ER : rsf = pc_shap pfe) by congruence. rewrite <- ER.
  eexists. split; [reflexivity|].
  set (X := fun k i j => stiff (go_dim g) (nth k jit []) (nth k grs []) (nth k (map a (qr_points q)) (Scal 0)) i j +
                         mass (nth k (map c (qr_points q)) 0) (nth k rsf []) i j).
  split.
  - exact (proj1 (acc_entry (fun k => nth k (qr_weights q) 0 * nth k (map vol (qr_points q)) 0) X _ _ 0%nat 0%nat)).
  - intros i j Hi Hj.
    rewrite (proj2 (acc_entry (fun k => nth k (qr_weights q) 0 * nth k (map vol (qr_points q)) 0) X _ _ i j)).
    cbn [ezero em_at]. rewrite Rplus_0_l, (quad_idx q _ HW). apply rs_ext. intros k Hk. apply in_seq in Hk. unfold X.
    rewrite !nth_map_in by lia. rewrite Rmult_assoc. do 3 f_equal.
    + destruct (Each k ltac:(lia)) as [_ EE]. apply stiff_value; intros z Hz; apply EE; assumption.
    + destruct (V k ltac:(lia)) as [_ EV]. unfold mass. rewrite !EV by assumption. reflexivity.
Qed.
Lemma uload_entries : forall P pfe src h, pcs_get P (kind_el (go_kind g)) = Some pfe -> precompute f q = Ok pfe ->
  dim_local (go_kind g) = 2%nat -> (forall p, In p (qr_points q) -> value_at src h p) ->
  is_vector (ULoadEval P g src) (fe_total f) (fun i => quadrature q (fun p => vol p * (h p * b i p))).
Proof.
  intros P pfe src h HP PC D HC. unfold is_vector, ULoadEval. rewrite HP. destruct (precompute_ok _ _ _ PC) as [E1 [E2 [E3 _]]]. cbv zeta.
  rewrite E2, E1, D. cbn [Nat.eqb lf_assert bind].
  rewrite (dets q g HA vol HV). cbn [bind]. rewrite (assert_len q _ (map vol (qr_points q))) by apply map_length. cbn [bind].
  rewrite (traverse_map _ _ src h) by exact HC. cbn [bind]. destruct (shapes q f b HB) as [rsf [E [L V]]].
  assert (ER : rsf = pc_shap pfe) by congruence. rewrite <- ER.
  rewrite map_length. fold (NumPoints q). eexists. split; [reflexivity|].
  destruct (acc_vec (fun k => nth k (qr_weights q) 0 * nth k (map vol (qr_points q)) 0 * nth k (map h (qr_points q)) 0)
     (fun k => nth k rsf []) (seq 0 (NumPoints q)) (fe_total f) (repeat 0 (fe_total f))) as [L1 N1].
  { apply repeat_length. } { intros k Hk. apply in_seq in Hk. apply V. lia. }
  split; [exact L1|]. intros i Hi. rewrite N1 by exact Hi. rewrite nth_repeat, Rplus_0_l, (quad_idx q _ HW). apply rs_ext.
  intros k Hk. apply in_seq in Hk. rewrite !nth_map_in by lia. destruct (V k ltac:(lia)) as [_ EV]. rewrite !EV by assumption. ring.
Qed.
Lemma umass_edge_entries : forall pfe gamma c, precompute f q = Ok pfe -> kind_el (go_kind g) = kSegment ->
  (forall p, In p (qr_points q) -> value_at gamma c p) ->
  is_matrix (UMassEdgeEval pfe g gamma) (fe_total f) (fun i j => quadrature q (fun p => vol p * (c p * b i p * b j p))).
Proof.
  intros pfe gamma c PC D HC. unfold is_matrix, UMassEdgeEval. destruct (precompute_ok _ _ _ PC) as [E1 [E2 [E3 _]]]. cbv zeta.
  rewrite E2, E1, D. cbn [refel_eqb lf_assert bind].
  rewrite (dets q g HA vol HV). cbn [bind]. rewrite (assert_len q _ (map vol (qr_points q))) by apply map_length. cbn [bind].
  rewrite (traverse_map _ _ gamma c) by exact HC. cbn [bind]. destruct (shapes q f b HB) as [rsf [E [L V]]].
  assert (ER : rsf = pc_shap pfe) by congruence. rewrite <- ER.
  rewrite map_length. fold (NumPoints q).
  eexists. split; [reflexivity|]. split.
  - exact (proj1 (acc_entry (fun k => nth k (qr_weights q) 0 * nth k (map vol (qr_points q)) 0 * nth k (map c (qr_points q)) 0)
      (fun k i j => nth i (nth k rsf []) 0 * nth j (nth k rsf []) 0) _ _ 0%nat 0%nat)).
  - intros i j Hi Hj.
    rewrite (proj2 (acc_entry (fun k => nth k (qr_weights q) 0 * nth k (map vol (qr_points q)) 0 * nth k (map c (qr_points q)) 0)
      (fun k i j => nth i (nth k rsf []) 0 * nth j (nth k rsf []) 0) _ _ i j)).
    cbn [ezero em_at]. rewrite Rplus_0_l, (quad_idx q _ HW). apply rs_ext. intros k Hk. apply in_seq in Hk.
    rewrite !nth_map_in by lia. destruct (V k ltac:(lia)) as [_ EV]. rewrite !EV by assumption. ring.
Qed.
Lemma uload_edge_entries : forall pfe src h, precompute f q = Ok pfe -> kind_el (go_kind g) = kSegment ->
  (forall p, In p (qr_points q) -> value_at src h p) ->
  is_vector (ULoadEdgeEval pfe g src) (fe_total f) (fun i => quadrature q (fun p => vol p * (h p * b i p))).
Proof.
  intros pfe src h PC D HC. unfold is_vector, ULoadEdgeEval. destruct (precompute_ok _ _ _ PC) as [E1 [E2 [E3 _]]]. cbv zeta.
  rewrite E2, E1, D. cbn [refel_eqb lf_assert bind].
  destruct (traverse_all _ _ (Global g) (qr_points q)) as [mp HM].
  { intros p Hp. destruct (jacobian_derivative g p (HA p Hp)) as [J [_ [x [E _]]]]. exists x. exact E. }
  rewrite HM. cbn [bind]. rewrite (assert_len q _ mp) by (apply (traverse_length _ _ _ _ _ HM)). cbn [bind].
  rewrite (dets q g HA vol HV). cbn [bind]. rewrite (assert_len q _ (map vol (qr_points q))) by apply map_length. cbn [bind].
  rewrite (traverse_map _ _ src h) by exact HC. cbn [bind]. destruct (shapes q f b HB) as [rsf [E [L V]]].
  assert (ER : rsf = pc_shap pfe) by congruence. rewrite <- ER.
  eexists. split; [reflexivity|].
  destruct (acc_vec (fun k => nth k (qr_weights q) 0 * nth k (map vol (qr_points q)) 0 * nth k (map h (qr_points q)) 0)
     (fun k => nth k rsf []) (seq 0 (NumPoints q)) (fe_total f) (repeat 0 (fe_total f))) as [L1 N1].
  { apply repeat_length. } { intros k Hk. apply in_seq in Hk. apply V. lia. }
  split; [exact L1|]. intros i Hi. rewrite N1 by exact Hi. rewrite nth_repeat, Rplus_0_l, (quad_idx q _ HW). apply rs_ext.
  intros k Hk. apply in_seq in Hk. rewrite !nth_map_in by lia. destruct (V k ltac:(lia)) as [_ EV]. rewrite !EV by assumption. ring.
Qed.
End Entries.
