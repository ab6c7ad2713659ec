(** Proofs for C59. *)
From Coq Require Import Reals List Arith Lia Lra Bool.
From Coquelicot Require Import Coquelicot.
Import ListNotations.
From Verif Require Import Base Scalars MeshModel MeshView DofModel DofSpec RefPatModel GeoModel GeoSpec GeoProofs4 FeModel QuadModel AssembleModel
  FeSpec QuadSpec TriaSpec PolyProofs FeProofs HierProofs3 ElemModel ElemSpec ElemProofs ElemProofs2 FeToolsModel FeToolsSpec FeToolsProofs FeToolsProofs2.
Local Open Scope R_scope.

Section Loop.
Variables (m : mesh) (geom : ent -> geo) (mf : meshfun) (q : ent -> quadrule) (vol h : ent -> list R -> R).
Definition local_sum (e : ent) : R := quadrature (q e) (fun p => vol e p * h e p).
Lemma local_ok : forall e, integrable (geom e) (q e) (vol e) (h e) (mf e) -> LocalIntegral geom q mf e = Ok (local_sum e).
Proof.
  intros e ((HW & HA & HV) & NP & HU). unfold LocalIntegral.
  rewrite (traverse_map _ _ (mf e) (h e)) by exact HU. cbn [bind].
  rewrite (dets (q e) (geom e) HA (vol e) HV). cbn [bind].
  rewrite !map_length, HW, Nat.eqb_refl. unfold NumPoints in *. rewrite Nat.eqb_refl. cbn [lf_assert bind]. 
  apply Nat.ltb_lt in NP. rewrite NP. cbn [lf_assert bind]. f_equal. unfold local_sum, quadrature.
  clear -HW. revert HW. generalize (qr_weights (q e)). induction (qr_points (q e)) as [|p l IH]; intros [|w ws] L; try discriminate L; [reflexivity|].
  cbn [map combine]. rewrite !dot_cons. rewrite IH by (cbn in L; lia). cbn [fst snd]. ring.
Qed.
Lemma loop_ok : forall ep es r, (forall e, In e es -> ep e = true -> integrable (geom e) (q e) (vol e) (h e) (mf e)) ->
  integrate_loop (LocalIntegral geom q mf) ep es r = Ok (r + sum_over (filter ep es) local_sum).
Proof.
  intros ep. induction es as [|e es IH]; intros r H; cbn [integrate_loop filter].
  - unfold sum_over. cbn. f_equal. ring.
  - assert (H' : forall e, In e es -> ep e = true -> integrable (geom e) (q e) (vol e) (h e) (mf e)) by (intros e' I; apply H; right; exact I).
    destruct (ep e) eqn:E; [|apply IH; exact H'].
    rewrite local_ok by (apply H; [left; reflexivity|exact E]). cbn [bind]. rewrite IH by exact H'. f_equal.
    unfold sum_over. cbn [map fold_right]. ring.
Qed.
Lemma integrate_rejected : forall ep codim e r, entities m codim = e :: r -> ep e = false ->
  (forall e', In e' (entities m codim) -> e' = e \/ ep e' = true -> integrable (geom e') (q e') (vol e') (h e') (mf e')) ->
  IntegrateMeshFunction m geom mf q ep codim = Ok (local_sum e + sum_over (filter ep (entities m codim)) local_sum).
Proof.
  intros ep codim e r E F H. unfold IntegrateMeshFunction. rewrite E in *. rewrite local_ok by (apply H; [left|left]; reflexivity). cbn [bind filter].
  rewrite F. apply loop_ok. intros e' I T. apply H; [right; exact I|right; exact T].
Qed.
Lemma integrate_ok : forall ep codim,
  (forall e, In e (entities m codim) -> ep e = true -> integrable (geom e) (q e) (vol e) (h e) (mf e)) ->
  first_accepted (entities m codim) ep ->
  IntegrateMeshFunction m geom mf q ep codim = Ok (sum_over (filter ep (entities m codim)) local_sum).
Proof.
  intros ep codim H (e & r & E & T). unfold IntegrateMeshFunction. rewrite E in *.
  rewrite local_ok by (apply H; [left; reflexivity|exact T]). cbn [bind filter]. rewrite T.
  rewrite loop_ok by (intros e' I; apply H; right; exact I). reflexivity.
Qed.
End Loop.

(** *** Accuracy *)
Lemma poly_scaled : forall es a c x, poly es (fun e => a * c e) x = a * poly es c x.
Proof. intros es a c x. unfold poly. induction es as [|e es IH]; cbn [map rsum fold_right]; [ring|]. unfold rsum in IH. rewrite IH. ring. Qed.
Lemma flat_vol : forall g vol p p', flat g vol -> length p = dim_local (go_kind g) -> length p' = dim_local (go_kind g) -> vol p = vol p'.
Proof.
  intros g vol p p' [A S V] L L'. destruct (V p L) as [J [HJ E]]. destruct (V p' L') as [J' [HJ' E']].
  rewrite (proj2 (affine_true g A S) p p' L L'), HJ' in HJ. injection HJ as <-. congruence.
Qed.
Lemma el_dim_dimension : forall k, dim_local k = dimension (kind_el k).
Proof. destruct k; reflexivity. Qed.
Lemma flat_rule : forall g vol q k tol, flat g vol -> rule_within tol (kind_el (go_kind g)) k q -> rule_on q g vol.
Proof.
  intros g vol q k tol F Rq. split; [apply Rq|].
  assert (L : forall p, In p (qr_points q) -> length p = dim_local (go_kind g)) by (intros p I; rewrite el_dim_dimension; apply Rq; exact I).
  split; intros p I.
  - split; [apply L; exact I|]. rewrite (fl_straight _ _ F). discriminate.
  - apply F, L, I.
Qed.
Lemma flat_accuracy : forall g vol k c h, flat g vol ->
  (forall p, length p = dim_local (go_kind g) -> h p = poly (exponents (kind_el (go_kind g)) k) c p) ->
  exists C, 0 <= C /\ forall tol q, rule_within tol (kind_el (go_kind g)) k q ->
    Rabs (quadrature q (fun p => vol p * h p) - integral (kind_el (go_kind g)) (fun p => vol p * h p)) <= tol * C.
Proof.
  intros g vol k c h F H. set (el := kind_el (go_kind g)) in *. set (v0 := vol (repeat 0 (dim_local (go_kind g)))).
  exists (rsum (map (fun e => Rabs (v0 * c e)) (exponents el k))). split; [apply rs_nonneg; intros; apply Rabs_pos|].
  intros tol q Rq.
  assert (X : forall p, length p = dimension el -> vol p * h p = poly (exponents el k) (fun e => v0 * c e) p).
  { intros p L. unfold el in L. rewrite <- el_dim_dimension in L. rewrite poly_scaled, (H p L). f_equal. apply (flat_vol g); auto. apply repeat_length. }
  rewrite (quadrature_ext q _ (poly (exponents el k) (fun e => v0 * c e))) by (intros p I; apply X, Rq, I).
  rewrite (integral_ext el _ (poly (exponents el k) (fun e => v0 * c e))) by exact X.
  pose proof (rw_exact _ _ _ _ Rq (fun e => v0 * c e)) as Y. rewrite (rw_el _ _ _ _ Rq) in Y. exact Y.
Qed.
Section Accuracy.
Variables (m : mesh) (geom : ent -> geo) (mf : meshfun) (vol h : ent -> list R -> R) (c : ent -> list nat -> R) (k codim : nat) (ep : ent -> bool).
Hypothesis Fl : forall e, In e (entities m codim) -> ep e = true -> flat (geom e) (vol e) /\
  forall p, length p = dim_local (go_kind (geom e)) -> mf e p = Ok (h e p) /\ h e p = poly (exponents (kind_el (go_kind (geom e))) k) (c e) p.
Hypothesis Fa : first_accepted (entities m codim) ep.
Definition exact_sum : R := sum_over (filter ep (entities m codim)) (fun e => integral (kind_el (go_kind (geom e))) (fun p => vol e p * h e p)).
Lemma integrate_accuracy : exists C, 0 <= C /\ forall q tol,
  (forall e, In e (entities m codim) -> ep e = true -> rule_within tol (kind_el (go_kind (geom e))) k (q e) /\ (0 < NumPoints (q e))%nat) ->
  exists s, IntegrateMeshFunction m geom mf q ep codim = Ok s /\ Rabs (s - exact_sum) <= tol * C.
Proof.
  assert (B : exists C, 0 <= C /\ forall q tol,
    (forall e, In e (entities m codim) -> ep e = true -> rule_within tol (kind_el (go_kind (geom e))) k (q e) /\ (0 < NumPoints (q e))%nat) ->
    Rabs (sum_over (filter ep (entities m codim)) (local_sum q vol h) - exact_sum) <= tol * C).
  { unfold exact_sum. clear Fa. induction (entities m codim) as [|e es IH].
    - exists 0. split; [lra|]. intros q tol _. unfold sum_over. cbn. rewrite Rminus_0_r, Rabs_R0. lra.
    - destruct IH as (C & C0 & HC). { intros e' I. apply Fl. right. exact I. }
      cbn [filter]. destruct (ep e) eqn:T.
      + destruct (Fl e (or_introl eq_refl) T) as (Fe & He).
        destruct (flat_accuracy (geom e) (vol e) k (c e) (h e) Fe) as (D & D0 & HD). { intros p L. apply He, L. }
        exists (D + C). split; [lra|]. intros q tol Rq. destruct (Rq e (or_introl eq_refl) T) as (R1 & _).
        specialize (HD tol (q e) R1). specialize (HC q tol). unfold sum_over in *. cbn [map fold_right].
        match goal with |- Rabs ((?a + ?b) - (?a' + ?b')) <= _ => replace ((a + b) - (a' + b')) with ((a - a') + (b - b')) by ring end.
        eapply Rle_trans; [apply Rabs_triang|]. rewrite Rmult_plus_distr_l. apply Rplus_le_compat; [exact HD|]. apply HC.
        intros e' I. apply Rq. right. exact I.
      + exists C. split; [exact C0|]. intros q tol Rq. apply HC. intros e' I. apply Rq. right. exact I. }
  destruct B as (C & C0 & HC). exists C. split; [exact C0|]. intros q tol Rq. eexists. split; [|apply HC; exact Rq].
  apply integrate_ok; [|exact Fa]. intros e I T. destruct (Fl e I T) as (Fe & He). destruct (Rq e I T) as (R1 & R2).
  split; [exact (flat_rule _ _ _ _ _ Fe R1)|]. split; [exact R2|]. intros p Ip. apply He. rewrite el_dim_dimension. apply R1, Ip.
Qed.
Lemma integrate_exact : forall q,
  (forall e, In e (entities m codim) -> ep e = true -> rule_for (kind_el (go_kind (geom e))) k (q e) /\ (0 < NumPoints (q e))%nat) ->
  IntegrateMeshFunction m geom mf q ep codim = Ok exact_sum.
Proof.
  intros q Rq. destruct integrate_accuracy as (C & _ & H). destruct (H q 0) as (s & E & B).
  - intros e I T. destruct (Rq e I T) as (A1 & A2). split; [|exact A2]. destruct A1 as [Q1 Q2 Q3 Q4]. split; auto.
    intros c'. rewrite (Q4 c'). rewrite Rminus_eq_0, Rabs_R0. lra.
  - rewrite E. f_equal. rewrite Rmult_0_l in B. pose proof (Rabs_pos (s - exact_sum)). assert (Z : Rabs (s - exact_sum) = 0) by lra.
    destruct (Req_dec (s - exact_sum) 0) as [Q|Q]; [lra|]. apply Rabs_no_R0 in Q. contradiction.
Qed.
(** The overload with a degree. *)
Lemma integrate_degree : forall make qs qt qq,
  make kSegment k = Ok qs -> make kTria k = Ok qt -> make kQuad k = Ok qq ->
  (forall e, In e (entities m codim) -> ep e = true -> kind_el (go_kind (geom e)) = ent_type m e) -> (codim <= 1)%nat ->
  exists C, 0 <= C /\ forall tol, 
    rule_within tol kSegment k qs -> rule_within tol kTria k qt -> rule_within tol kQuad k qq ->
    (0 < NumPoints qs /\ 0 < NumPoints qt /\ 0 < NumPoints qq)%nat ->
    exists s, IntegrateMeshFunctionDegree make m geom mf k ep codim = Ok s /\ Rabs (s - exact_sum) <= tol * C.
Proof.
  intros make qs qt qq E1 E2 E3 Ty Nc. destruct integrate_accuracy as (C & C0 & H). exists C. split; [exact C0|]. intros tol R1 R2 R3 (N1 & N2 & N3).
  unfold IntegrateMeshFunctionDegree. rewrite E1, E2, E3. cbn [bind]. apply H. intros e I T. rewrite (Ty e I T).
  destruct (ent_type m e) eqn:Et; auto. exfalso. destruct codim as [|[|n]].
  - destruct (in_cells m e I) as (i & cc & -> & Hc). cbn in Et. unfold cv_type, cell_type in Et. match type of Et with (if ?b then _ else _) = _ => destruct b end; discriminate Et.
  - destruct (in_edges m e I) as (i & -> & _). discriminate Et.
  - lia.
Qed.
End Accuracy.
Lemma degree_points : forall make m geom mf deg ep qs qt qq, make kSegment deg = Ok qs -> make kTria deg = Ok qt -> make kQuad deg = Ok qq ->
  IntegrateMeshFunctionDegree make m geom mf deg ep 2 = Assert.
Proof.
  intros make m geom mf deg ep qs qt qq E1 E2 E3. unfold IntegrateMeshFunctionDegree. rewrite E1, E2, E3. cbn [bind].
  unfold IntegrateMeshFunction. destruct (entities m 2) as [|e r] eqn:E; [reflexivity|].
  assert (T : ent_type m e = kPoint).
  { assert (I : In e (entities m 2)) by (rewrite E; left; reflexivity). cbn in I. apply in_map_iff in I. destruct I as (i & <- & _). reflexivity. }
  unfold LocalIntegral. rewrite T. reflexivity.
Qed.
Lemma integrate_empty : forall m geom mf q ep codim, entities m codim = [] -> IntegrateMeshFunction m geom mf q ep codim = Assert.
Proof. intros m geom mf q ep codim E. unfold IntegrateMeshFunction. rewrite E. reflexivity. Qed.
