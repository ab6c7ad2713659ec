(** C105: element matrices for components of product spaces, integrals over cells. *)
From Coq Require Import Reals List Arith ZArith Bool Lia Lra.
Import ListNotations.
From Verif Require Import Base Scalars MeshModel MeshView DofModel RefPatModel GeoModel GeoSpec GeoProofs GeoProofs2 GeoProofs3 FeModel QuadModel FeSpec QuadSpec
  HierProofs HierProofs3 AssembleModel ElemModel ElemSpec ElemProofs ElemProofs2 ElemProofs4 DpgModel ProdModel LocModel LocSpec.
Local Open Scope R_scope.

Lemma dacc_entry : forall (w : nat -> R) (X : nat -> nat -> nat -> R) ks m,
  d_rows Rring (fold_left (fun m k => dadd m (w k) (X k)) ks m) = d_rows Rring m /\
  d_cols Rring (fold_left (fun m k => dadd m (w k) (X k)) ks m) = d_cols Rring m /\
  forall i j, d_coef Rring (fold_left (fun m k => dadd m (w k) (X k)) ks m) i j =
    (d_coef Rring m i j : R) + rsum (map (fun k => w k * X k i j) ks).
Proof.
  intros w X ks. induction ks as [|k ks IH]; intros m; cbn [fold_left map].
  - split; [reflexivity|]. split; [reflexivity|]. intros. cbn [rsum fold_right]. lra.
  - destruct (IH (dadd m (w k) (X k))) as [A [B C]]. split; [exact A|]. split; [exact B|]. intros i j. rewrite C.
    change (rsum (?x :: ?y)) with (x + rsum y). cbn [dadd d_coef]. lra.
Qed.
Lemma same_rule_refl : forall q, same_rule q q = true.
Proof.
  intros q. unfold same_rule, points_eqb, weights_eqb.
  destruct (list_eq_dec (list_eq_dec Req_EM_T) (qr_points q) (qr_points q)) as [_|N]; [|destruct (N eq_refl)].
  destruct (list_eq_dec Req_EM_T (qr_weights q) (qr_weights q)) as [_|N]; [|destruct (N eq_refl)]. rewrite Nat.eqb_refl. reflexivity.
Qed.

(** *** Construction *)
Lemma both_get : forall make trial test tc vc P el, precompute_both make trial test tc vc = Ok P -> el = kTria \/ el = kQuad ->
  exists ot ov, ShapeFunctionLayout trial el tc = Ok ot /\ ShapeFunctionLayout test el vc = Ok ov /\
  match ot, ov with
  | Some ft, Some fv => exists q pt pv, make el (fe_degree ft + fe_degree fv)%nat = Ok q /\ precompute ft q = Ok pt /\ precompute fv q = Ok pv /\
      pcs_get (fst P) el = Some pt /\ pcs_get (snd P) el = Some pv
  | _, _ => pcs_get (fst P) el = None /\ pcs_get (snd P) el = None
  end.
Proof.
  intros make trial test tc vc P el H E. unfold precompute_both in H. cbv beta zeta in H.
  apply bind_ok in H. destruct H as [a [H1 H]]. apply bind_ok in H. destruct H as [b [H2 H]]. injection H as <-. cbn [fst snd].
  assert (One : forall t c, (do fe_trial <- ShapeFunctionLayout trial t tc;
       do fe_test <- ShapeFunctionLayout test t vc;
       match fe_trial, fe_test with
       | Some ft, Some fv => do qr <- make t (fe_degree ft + fe_degree fv)%nat; do a <- precompute ft qr; do b <- precompute fv qr; Ok (Some a, Some b)
       | _, _ => Ok (None, None)
       end) = Ok c -> exists ot ov, ShapeFunctionLayout trial t tc = Ok ot /\ ShapeFunctionLayout test t vc = Ok ov /\
     match ot, ov with
     | Some ft, Some fv => exists q pt pv, make t (fe_degree ft + fe_degree fv)%nat = Ok q /\ precompute ft q = Ok pt /\ precompute fv q = Ok pv /\
         fst c = Some pt /\ snd c = Some pv
     | _, _ => fst c = None /\ snd c = None
     end).
  { intros t c X. apply bind_ok in X. destruct X as [ot [X1 X]]. apply bind_ok in X. destruct X as [ov [X2 X]]. exists ot, ov. do 2 (split; [assumption|]).
    destruct ot as [ft|], ov as [fv|]; try (injection X as <-; auto).
    apply bind_ok in X. destruct X as [q [X3 X]]. apply bind_ok in X. destruct X as [pt [X4 X]]. apply bind_ok in X. destruct X as [pv [X5 X]].
    injection X as <-. exists q, pt, pv. auto. }
  destruct E as [-> | ->]; cbn [pcs_get pcs_tria pcs_quad]; apply One; assumption.
Qed.
Lemma precompute_exists : forall f q, evaluable f q -> exists p, precompute f q = Ok p.
Proof.
  intros f q E. unfold precompute.
  destruct (traverse_all _ _ (fe_eval f) (qr_points q)) as [a HA]. { intros p Hp. destruct (E p Hp) as [v [w [X _]]]. eauto. }
  destruct (traverse_all _ _ (fe_grad f) (qr_points q)) as [b HB]. { intros p Hp. destruct (E p Hp) as [v [w [_ X]]]. eauto. }
  rewrite HA. cbn [bind]. rewrite HB. cbn [bind]. eauto.
Qed.
Lemma both_exists : forall make trial test tc vc, constructible make trial test tc vc -> exists P, precompute_both make trial test tc vc = Ok P.
Proof.
  intros make trial test tc vc C. unfold precompute_both. cbv beta zeta.
  assert (One : forall t, t = kTria \/ t = kQuad -> exists c, (do fe_trial <- ShapeFunctionLayout trial t tc;
       do fe_test <- ShapeFunctionLayout test t vc;
       match fe_trial, fe_test with
       | Some ft, Some fv => do qr <- make t (fe_degree ft + fe_degree fv)%nat; do a <- precompute ft qr; do b <- precompute fv qr; Ok (Some a, Some b)
       | _, _ => Ok (None, None)
       end) = Ok c).
  { intros t Ht. destruct (C t Ht) as [ot [ov [X1 [X2 X]]]]. rewrite X1. cbn [bind]. rewrite X2. cbn [bind].
    destruct ot as [ft|], ov as [fv|]; eauto. destruct (X ft fv eq_refl eq_refl) as [q [X3 [E1 E2]]].
    destruct (precompute_exists ft q E1) as [a HA]. destruct (precompute_exists fv q E2) as [b HB].
    rewrite X3. cbn [bind]. rewrite HA. cbn [bind]. rewrite HB. cbn [bind]. eauto. }
  destruct (One kTria (or_introl eq_refl)) as [a ->]. cbn [bind]. destruct (One kQuad (or_intror eq_refl)) as [b ->]. cbn [bind]. eauto.
Qed.
Theorem volume_constructed : forall make geom trial test tc vc t, volume_term t -> constructible make trial test tc vc ->
  exists s, provider make geom trial test tc vc t = Ok s.
Proof.
  intros make geom trial test tc vc t V C. destruct (both_exists make trial test tc vc C) as [P HP].
  destruct t; try contradiction; unfold provider; cbv beta zeta; rewrite HP; cbn [bind]; eauto.
Qed.
Lemma volume_parts : forall make geom trial test tc vc t s, volume_term t -> provider make geom trial test tc vc t = Ok s ->
  exists P, precompute_both make trial test tc vc = Ok P /\ placed s tc vc /\
    sm_eval s = match t with Diffusion a => DiffusionMat geom P a | Reaction c => ReactionMat geom P c | Convection b1 b2 => ConvectionMat geom P b1 b2 | _ => sm_eval s end.
Proof.
  intros make geom trial test tc vc t s V H.
  destruct t; try contradiction; unfold provider in H; cbv beta zeta in H; apply bind_ok in H; destruct H as [P [H1 H]]; injection H as <-;
    exists P; (split; [exact H1|]); (split; [split; [reflexivity|split; reflexivity]|reflexivity]).
Qed.
(** Cells for which one of the components has no shape functions. *)
Theorem volume_missing : forall make geom trial test tc vc t s cell, volume_term t -> provider make geom trial test tc vc t = Ok s ->
  let el := kind_el (go_kind (geom cell)) in
  ShapeFunctionLayout trial el tc = Ok None \/ ShapeFunctionLayout test el vc = Ok None -> sm_eval s cell = Assert.
Proof.
  intros make geom trial test tc vc t s cell V H el Miss. destruct (volume_parts _ _ _ _ _ _ _ _ V H) as [P [HP [_ E]]].
  assert (B : both P (geom cell) = Assert).
  { unfold both. fold el. destruct el eqn:El; try reflexivity.
    - destruct (both_get _ _ _ _ _ _ kTria HP (or_introl eq_refl)) as [ot [ov [X1 [X2 X]]]].
      destruct Miss as [Y|Y]; rewrite Y in *; [injection X1 as <-|injection X2 as <-; destruct ot]; destruct X as [-> _]; reflexivity.
    - destruct (both_get _ _ _ _ _ _ kQuad HP (or_intror eq_refl)) as [ot [ov [X1 [X2 X]]]].
      destruct Miss as [Y|Y]; rewrite Y in *; [injection X1 as <-|injection X2 as <-; destruct ot]; destruct X as [-> _]; reflexivity. }
  rewrite E. destruct t; try contradiction; unfold DiffusionMat, ReactionMat, ConvectionMat; cbv zeta; rewrite B; reflexivity.
Qed.

(** *** Entries *)
Section Cell.
Variables (make : refel -> nat -> res quadrule) (geom : ent -> geo) (trial test : product_space) (tc vc : nat).
Variables (cell : ent) (ft fv : srfe) (q : quadrule) (vol : list R -> R).
Let g := geom cell.
Hypothesis OC : on_cell make g trial test tc vc ft fv q vol.
Variable P : precomps * precomps.
Hypothesis HP : precompute_both make trial test tc vc = Ok P.

Lemma HWt : length (qr_weights q) = length (qr_points q). Proof. apply (oc_rule _ _ _ _ _ _ _ _ _ _ OC). Qed.
Lemma HAd : forall p, In p (qr_points q) -> admissible g p. Proof. apply (oc_rule _ _ _ _ _ _ _ _ _ _ OC). Qed.
Lemma HVo : forall p, In p (qr_points q) -> volume_at g vol p. Proof. apply (oc_rule _ _ _ _ _ _ _ _ _ _ OC). Qed.
Lemma both_ok : exists pt pv, precompute ft q = Ok pt /\ precompute fv q = Ok pv /\ both P g = Ok (pt, pv).
Proof.
  destruct OC as [D Ht Hv Mk _]. destruct (both_get _ _ _ _ _ _ _ HP (cell_el g D)) as [ot [ov [X1 [X2 X]]]].
  rewrite Ht in X1. injection X1 as <-. rewrite Hv in X2. injection X2 as <-. destruct X as [q' [pt [pv [Y1 [Y2 [Y3 [Y4 Y5]]]]]]].
  rewrite Mk in Y1. injection Y1 as <-. exists pt, pv. do 2 (split; [assumption|]). unfold both. rewrite Y4, Y5.
  destruct (precompute_ok _ _ _ Y2) as [_ [-> _]]. destruct (precompute_ok _ _ _ Y3) as [_ [-> _]].
  rewrite same_rule_refl, D. reflexivity.
Qed.
Lemma gram_all : forall f G, at_points q (gradient_at g f G) -> exists jit, traverse (JacobianInverseGramian g) (qr_points q) = Ok jit /\
  length (concat jit) = (2 * NumPoints q)%nat.
Proof.
  intros f G HG. pose proof (oc_dim _ _ _ _ _ _ _ _ _ _ OC) as D.
  destruct (traverse_all _ _ (JacobianInverseGramian g) (qr_points q)) as [jit HJ].
  { intros p Hp. destruct (gramian_inverse g f G p (HAd p Hp) D (HG p Hp)) as [M [gr [E _]]]. eauto. }
  exists jit. split; [exact HJ|]. destruct (traverse_nth _ _ _ _ _ HJ) as [LJ NJ]. apply concat_two; [exact LJ|].
  intros k Hk. pose proof (pt_in q k Hk) as Hp. destruct (gramian_inverse g f G _ (HAd _ Hp) D (HG _ Hp)) as [M [gr [EM [LM _]]]].
  pose proof (NJ k [] [] Hk) as EM'. assert (X : nth k jit [] = M) by congruence. rewrite X. exact LM.
Qed.
Lemma gram_each : forall f G jit grs k i c, at_points q (gradient_at g f G) -> traverse (JacobianInverseGramian g) (qr_points q) = Ok jit ->
  traverse (fe_grad f) (qr_points q) = Ok grs -> (k < NumPoints q)%nat -> (i < fe_total f)%nat -> (c < go_dim g)%nat ->
  trf_grad (nth k jit []) (nth k grs []) i c = G i (nth k (qr_points q) []) c.
Proof.
  intros f G jit grs k i c HG HJ HGr Hk Hi Hc. pose proof (oc_dim _ _ _ _ _ _ _ _ _ _ OC) as D.
  destruct (traverse_nth _ _ _ _ _ HJ) as [_ NJ]. destruct (traverse_nth _ _ _ _ _ HGr) as [_ NG]. pose proof (pt_in q k Hk) as Hp.
  destruct (gramian_inverse g f G _ (HAd _ Hp) D (HG _ Hp)) as [M [gr [EM [LM [EG HH]]]]].
  pose proof (NJ k [] [] Hk) as EM'. pose proof (NG k [] [] Hk) as EG'.
  assert (X1 : nth k jit [] = M) by congruence. assert (X2 : nth k grs [] = gr) by congruence. rewrite X1, X2. apply HH; assumption.
Qed.
Lemma shape_each : forall f b rsf k i, at_points q (shape_at f b) -> traverse (fe_eval f) (qr_points q) = Ok rsf -> (k < NumPoints q)%nat ->
  (i < fe_total f)%nat -> nth i (nth k rsf []) 0 = b i (nth k (qr_points q) []).
Proof.
  intros f b rsf k i HB HS Hk Hi. destruct (traverse_nth _ _ _ _ _ HS) as [_ N]. destruct (HB _ (pt_in q k Hk)) as [v [E [_ EV]]].
  pose proof (N k [] [] Hk) as E'. assert (X : nth k rsf [] = v) by congruence. rewrite X. apply EV. exact Hi.
Qed.

Lemma diffusion_mat : forall alpha G H a, at_points q (gradient_at g ft G) -> at_points q (gradient_at g fv H) -> at_points q (value_at (alpha cell) a) ->
  is_dense (DiffusionMat geom P alpha cell) (fe_total fv) (fe_total ft)
    (fun i j => quadrature q (fun p => vol p * inner (go_dim g) (H i p) (flux (go_dim g) (a p) (G j p)))).
Proof.
  intros alpha G H a HG HH HAl. destruct both_ok as [pt [pv [Pt [Pv B]]]]. unfold is_dense, DiffusionMat. cbv zeta. fold g. rewrite B. cbn [bind].
  destruct (precompute_ok _ _ _ Pt) as [E1 [E2 [_ E4]]]. destruct (precompute_ok _ _ _ Pv) as [F1 [F2 [_ F4]]]. rewrite E2, E1, F1.
  rewrite (dets q g HAd vol HVo). cbn [bind]. rewrite (assert_len q _ (map vol (qr_points q))) by apply map_length. cbn [bind].
  destruct (gram_all ft G HG) as [jit [HJ LJ]]. rewrite HJ. cbn [bind]. rewrite LJ, Nat.eqb_refl. cbn [lf_assert bind].
  rewrite (traverse_map _ _ (alpha cell) a) by exact HAl. cbn [bind]. eexists. split; [reflexivity|].
  destruct (dacc_entry (fun k => nth k (qr_weights q) 0 * nth k (map vol (qr_points q)) 0)
      (fun k => stiff2 (go_dim g) (nth k jit []) (nth k (pc_grad pv) []) (nth k (pc_grad pt) []) (nth k (map a (qr_points q)) (Scal 0)))
      (seq 0 (NumPoints q)) (dzero (fe_total fv) (fe_total ft))) as [R1 [R2 R3]].
  split; [exact R1|]. split; [exact R2|]. intros i j Hi Hj. rewrite R3. cbn [dzero d_coef]. rewrite Rplus_0_l, (quad_idx q _ HWt).
  apply rs_ext. intros k Hk. apply in_seq in Hk. rewrite !(nth_map_in q) by lia. rewrite Rmult_assoc. do 2 f_equal.
  change (inner (go_dim g) (trf_grad (nth k jit []) (nth k (pc_grad pv) []) i) (cmul (go_dim g) (a (nth k (qr_points q) [])) (trf_grad (nth k jit []) (nth k (pc_grad pt) []) j)) =
    inner (go_dim g) (H i (nth k (qr_points q) [])) (flux (go_dim g) (a (nth k (qr_points q) [])) (G j (nth k (qr_points q) [])))).
  apply inner_ext.
  - intros c Hc. apply (gram_each fv H jit (pc_grad pv)); auto; lia.
  - intros c Hc. rewrite flux_cmul. apply flux_ext; [|exact Hc]. intros c' Hc'. apply (gram_each ft G jit (pc_grad pt)); auto; lia.
Qed.
Lemma reaction_mat : forall gamma b d c, at_points q (shape_at ft b) -> at_points q (shape_at fv d) -> at_points q (value_at (gamma cell) c) ->
  is_dense (ReactionMat geom P gamma cell) (fe_total fv) (fe_total ft) (fun i j => quadrature q (fun p => vol p * (c p * b j p * d i p))).
Proof.
  intros gamma b d c HB HD HC. destruct both_ok as [pt [pv [Pt [Pv B]]]]. unfold is_dense, ReactionMat. cbv zeta. fold g. rewrite B. cbn [bind].
  destruct (precompute_ok _ _ _ Pt) as [E1 [E2 [E3 _]]]. destruct (precompute_ok _ _ _ Pv) as [F1 [F2 [F3 _]]]. rewrite E2, E1, F1.
  rewrite (dets q g HAd vol HVo). cbn [bind]. rewrite (assert_len q _ (map vol (qr_points q))) by apply map_length. cbn [bind].
  rewrite (traverse_map _ _ (gamma cell) c) by exact HC. cbn [bind]. eexists. split; [reflexivity|].
  destruct (dacc_entry (fun k => nth k (qr_weights q) 0 * nth k (map vol (qr_points q)) 0)
      (fun k i j => nth i (nth k (pc_shap pv) []) 0 * nth k (map c (qr_points q)) 0 * nth j (nth k (pc_shap pt) []) 0)
      (seq 0 (NumPoints q)) (dzero (fe_total fv) (fe_total ft))) as [R1 [R2 R3]].
  split; [exact R1|]. split; [exact R2|]. intros i j Hi Hj. rewrite R3. cbn [dzero d_coef]. rewrite Rplus_0_l, (quad_idx q _ HWt).
  apply rs_ext. intros k Hk. apply in_seq in Hk. rewrite !(nth_map_in q) by lia.
  rewrite (shape_each fv d (pc_shap pv) k i HD F3), (shape_each ft b (pc_shap pt) k j HB E3) by lia. ring.
Qed.
Lemma convection_mat : forall beta_1 beta_2 b d G H b1 b2, at_points q (shape_at ft b) -> at_points q (shape_at fv d) ->
  at_points q (gradient_at g ft G) -> at_points q (gradient_at g fv H) ->
  at_points q (value_at (beta_1 cell) b1) -> at_points q (value_at (beta_2 cell) b2) ->
  is_dense (ConvectionMat geom P beta_1 beta_2 cell) (fe_total fv) (fe_total ft) (fun i j => quadrature q (fun p =>
    vol p * (b j p * inner (go_dim g) (b1 p) (H i p) + d i p * inner (go_dim g) (b2 p) (G j p)))).
Proof.
  intros beta_1 beta_2 b d G H b1 b2 HB HD HG HH H1 H2. destruct both_ok as [pt [pv [Pt [Pv B]]]]. unfold is_dense, ConvectionMat. cbv zeta. fold g. rewrite B. cbn [bind].
  destruct (precompute_ok _ _ _ Pt) as [E1 [E2 [E3 E4]]]. destruct (precompute_ok _ _ _ Pv) as [F1 [F2 [F3 F4]]]. rewrite E2, E1, F1.
  rewrite (dets q g HAd vol HVo). cbn [bind]. rewrite (assert_len q _ (map vol (qr_points q))) by apply map_length. cbn [bind].
  destruct (gram_all ft G HG) as [jit [HJ LJ]]. rewrite HJ. cbn [bind]. rewrite LJ, Nat.eqb_refl. cbn [lf_assert bind].
  rewrite (traverse_map _ _ (beta_1 cell) b1) by exact H1. cbn [bind]. rewrite (traverse_map _ _ (beta_2 cell) b2) by exact H2. cbn [bind].
  eexists. split; [reflexivity|].
  destruct (dacc_entry (fun k => nth k (qr_weights q) 0 * nth k (map vol (qr_points q)) 0)
      (fun k i j => GeoModel.dot (go_dim g) (nth k (map b1 (qr_points q)) vzero) (trf_grad (nth k jit []) (nth k (pc_grad pv) []) i) * nth j (nth k (pc_shap pt) []) 0 +
                nth i (nth k (pc_shap pv) []) 0 * GeoModel.dot (go_dim g) (nth k (map b2 (qr_points q)) vzero) (trf_grad (nth k jit []) (nth k (pc_grad pt) []) j))
      (seq 0 (NumPoints q)) (dzero (fe_total fv) (fe_total ft))) as [R1 [R2 R3]].
  split; [exact R1|]. split; [exact R2|]. intros i j Hi Hj. rewrite R3. cbn [dzero d_coef]. rewrite Rplus_0_l, (quad_idx q _ HWt).
  apply rs_ext. intros k Hk. apply in_seq in Hk. rewrite !(nth_map_in q) by lia. rewrite Rmult_assoc. do 2 f_equal.
  rewrite (shape_each fv d (pc_shap pv) k i HD F3), (shape_each ft b (pc_shap pt) k j HB E3) by lia.
  set (p := nth k (qr_points q) []).
  assert (X1 : GeoModel.dot (go_dim g) (b1 p) (trf_grad (nth k jit []) (nth k (pc_grad pv) []) i) = inner (go_dim g) (b1 p) (H i p)).
  { change (inner (go_dim g) (b1 p) (trf_grad (nth k jit []) (nth k (pc_grad pv) []) i) = inner (go_dim g) (b1 p) (H i p)). apply inner_ext; [reflexivity|].
    intros c Hc. apply (gram_each fv H jit (pc_grad pv)); auto; lia. }
  assert (X2 : GeoModel.dot (go_dim g) (b2 p) (trf_grad (nth k jit []) (nth k (pc_grad pt) []) j) = inner (go_dim g) (b2 p) (G j p)).
  { change (inner (go_dim g) (b2 p) (trf_grad (nth k jit []) (nth k (pc_grad pt) []) j) = inner (go_dim g) (b2 p) (G j p)). apply inner_ext; [reflexivity|].
    intros c Hc. apply (gram_each ft G jit (pc_grad pt)); auto; lia. }
  rewrite X1, X2. ring.
Qed.
End Cell.

Section Terms.
Variables (make : refel -> nat -> res quadrule) (geom : ent -> geo) (trial test : product_space) (tc vc : nat).
Variables (cell : ent) (ft fv : srfe) (q : quadrule) (vol : list R -> R) (s : sub_mat Rring).
Let g := geom cell.
Hypothesis OC : on_cell make g trial test tc vc ft fv q vol.
Theorem diffusion_term : forall alpha G H a, provider make geom trial test tc vc (Diffusion alpha) = Ok s ->
  at_points q (gradient_at g ft G) -> at_points q (gradient_at g fv H) -> at_points q (value_at (alpha cell) a) ->
  placed s tc vc /\ is_dense (sm_eval s cell) (fe_total fv) (fe_total ft)
    (fun i j => quadrature q (fun p => vol p * inner (go_dim g) (H i p) (flux (go_dim g) (a p) (G j p)))).
Proof.
  intros alpha G H a Pr HG HH HA. destruct (volume_parts _ _ _ _ _ _ (Diffusion alpha) s I Pr) as [P [HP [Pl ->]]]. split; [exact Pl|].
  eapply diffusion_mat; eassumption.
Qed.
Lemma symmetric_form : forall d a v w, symmetric_coeff d a -> inner d v (flux d a w) = inner d w (flux d a v).
Proof. exact flux_symmetric. Qed.
Theorem diffusion_symmetric : forall alpha G H a, provider make geom trial test tc vc (Diffusion alpha) = Ok s ->
  at_points q (gradient_at g ft G) -> at_points q (gradient_at g fv H) -> at_points q (value_at (alpha cell) a) ->
  at_points q (fun p => symmetric_coeff (go_dim g) (a p)) ->
  is_dense (sm_eval s cell) (fe_total fv) (fe_total ft)
    (fun i j => quadrature q (fun p => vol p * inner (go_dim g) (G j p) (flux (go_dim g) (a p) (H i p)))).
Proof.
  intros alpha G H a Pr HG HH HA Sy. destruct (diffusion_term alpha G H a Pr HG HH HA) as [_ [M [E [N1 [N2 EM]]]]].
  exists M. do 3 (split; [assumption|]). intros i j Hi Hj. rewrite EM by assumption.
  apply PolyProofs.quadrature_ext. intros p Hp. f_equal. apply flux_symmetric. apply Sy. exact Hp.
Qed.
Theorem reaction_term : forall gamma b d c, provider make geom trial test tc vc (Reaction gamma) = Ok s ->
  at_points q (shape_at ft b) -> at_points q (shape_at fv d) -> at_points q (value_at (gamma cell) c) ->
  placed s tc vc /\ is_dense (sm_eval s cell) (fe_total fv) (fe_total ft) (fun i j => quadrature q (fun p => vol p * (c p * b j p * d i p))).
Proof.
  intros gamma b d c Pr HB HD HC. destruct (volume_parts _ _ _ _ _ _ (Reaction gamma) s I Pr) as [P [HP [Pl ->]]]. split; [exact Pl|].
  eapply reaction_mat; eassumption.
Qed.
Theorem convection_term : forall beta_1 beta_2 b d G H b1 b2, provider make geom trial test tc vc (Convection beta_1 beta_2) = Ok s ->
  at_points q (shape_at ft b) -> at_points q (shape_at fv d) -> at_points q (gradient_at g ft G) -> at_points q (gradient_at g fv H) ->
  at_points q (value_at (beta_1 cell) b1) -> at_points q (value_at (beta_2 cell) b2) ->
  placed s tc vc /\ is_dense (sm_eval s cell) (fe_total fv) (fe_total ft) (fun i j => quadrature q (fun p =>
    vol p * (b j p * inner (go_dim g) (b1 p) (H i p) + d i p * inner (go_dim g) (b2 p) (G j p)))).
Proof.
  intros beta_1 beta_2 b d G H b1 b2 Pr HB HD HG HH H1 H2. destruct (volume_parts _ _ _ _ _ _ (Convection beta_1 beta_2) s I Pr) as [P [HP [Pl ->]]]. split; [exact Pl|].
  eapply convection_mat; eassumption.
Qed.
End Terms.
