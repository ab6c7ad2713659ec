(** Element matrices on affine cells against exact integrals. *)
From Coq Require Import Reals List Arith Bool Lia Lra Permutation.
Import ListNotations.
From Verif Require Import Base MeshModel MeshView DofModel RefPatModel GeoModel GeoSpec GeoProofs GeoProofs2 GeoProofs3 GeoProofs4 FeModel LagrModel LagrProofs LagrProofs2 QuadModel FeSpec QuadSpec
  GaussSpec TriaSpec TriaProofs2 QuadRuleModel HierProofs HierProofs3 PolyProofs QuadProofs ElemModel ElemSpec ElemProofs ElemProofs2 ElemProofs3 ElemProofs4 ElemProofs5 ElemProofs6 ElemProofs7.
Local Open Scope R_scope.

Lemma within_zero : forall t k q, rule_for t k q -> rule_within 0 t k q.
Proof.
  intros t k q [E P W X]. constructor; auto. intros c. rewrite X, Rminus_diag_eq, Rabs_R0 by reflexivity. lra.
Qed.
Lemma rsum_perm : forall l l', Permutation l l' -> rsum l = rsum l'.
Proof. unfold rsum. induction 1; cbn [fold_right]; lra. Qed.
Lemma rsum_zeros : forall (h : list nat -> R) l l', (forall e, In e l' -> h e = 0) -> rsum (map h (l ++ l')) = rsum (map h l).
Proof.
  intros h l l' Z. induction l as [|e l IH].
  - induction l' as [|e l' IH']; [reflexivity|]. unfold rsum in *. cbn [app map fold_right] in *. rewrite (Z e (or_introl eq_refl)), IH'; [ring|].
    intros; apply Z; right; assumption.
  - unfold rsum in *. cbn [app map fold_right]. rewrite IH. reflexivity.
Qed.
Lemma sub_sum : forall (h : list nat -> R) l l', NoDup l -> NoDup l' -> incl l l' -> (forall e, ~ In e l -> h e = 0) ->
  rsum (map h l') = rsum (map h l).
Proof.
  intros h l l' N N' I Z. set (out := fun e => negb (existsb (eqb_exp e) l)).
  assert (Out : forall e, out e = true <-> ~ In e l).
  { intros e. unfold out. rewrite negb_true_iff. split.
    - intros B Ie. enough (existsb (eqb_exp e) l = true) by congruence. apply existsb_exists. exists e. split; [exact Ie|].
      unfold eqb_exp. destruct (list_eq_dec Nat.eq_dec e e); congruence.
    - intros Ne. destruct (existsb (eqb_exp e) l) eqn:B; [|reflexivity]. apply existsb_exists in B. destruct B as [e' [I' B]].
      unfold eqb_exp in B. destruct (list_eq_dec Nat.eq_dec e e'); [congruence|discriminate]. }
  transitivity (rsum (map h (l ++ filter out l'))).
  - apply rsum_perm, Permutation_map, NoDup_Permutation; [exact N'| |].
    + apply nodup_app; [exact N|apply NoDup_filter, N'|]. intros e I1 I2. apply filter_In in I2. destruct I2 as [_ O]. apply Out in O. contradiction.
    + intros e. rewrite in_app_iff, filter_In, Out. split.
      * intros Ie. destruct (in_dec (list_eq_dec Nat.eq_dec) e l); auto.
      * intros [Ie|[Ie _]]; auto.
  - apply rsum_zeros. intros e Ie. apply filter_In in Ie. apply Z, Out, Ie.
Qed.

Lemma within_less : forall tol t k k' q, t = kTria \/ t = kQuad -> (k <= k')%nat -> rule_within tol t k' q -> rule_within tol t k q.
Proof.
  intros tol t k k' q Ht L [E P W X]. constructor; auto. intros c. red in X. rewrite E in *.
  set (c' := fun e => if existsb (eqb_exp e) (exponents t k) then c e else 0).
  assert (Incl : incl (exponents t k) (exponents t k')).
  { intros e I. pose proof (exponents_len t k e I) as Ln. assert (Dt : dimension t = 2%nat) by (destruct Ht as [-> | ->]; reflexivity).
    rewrite Dt in Ln. destruct e as [|a [|b [|]]]; try discriminate Ln.
    pose proof (deg_in t k a b Ht I) as Dg. destruct Ht as [-> | ->]; apply (in_exponents k' a b); revert Dg; unfold deg, tdeg, qdeg; lia. }
  assert (C1 : forall e, In e (exponents t k) -> c' e = c e).
  { intros e I. unfold c'. replace (existsb (eqb_exp e) (exponents t k)) with true; [reflexivity|]. symmetry. apply existsb_exists.
    exists e. split; [exact I|]. unfold eqb_exp. destruct (list_eq_dec Nat.eq_dec e e); congruence. }
  assert (C0 : forall e, ~ In e (exponents t k) -> c' e = 0).
  { intros e I. unfold c'. destruct (existsb (eqb_exp e) (exponents t k)) eqn:B; [|reflexivity]. apply existsb_exists in B.
    destruct B as [e' [I' B]]. unfold eqb_exp in B. destruct (list_eq_dec Nat.eq_dec e e'); [congruence|discriminate]. }
  assert (Py : forall x, poly (exponents t k') c' x = poly (exponents t k) c x).
  { intros x. unfold poly. rewrite (sub_sum (fun e => c' e * monomial e x) (exponents t k)); auto using exponents_nodup.
    - f_equal. apply map_ext_in. intros e I. rewrite C1 by exact I. reflexivity.
    - intros e I. rewrite C0 by exact I. ring. }
  specialize (X c'). rewrite (quadrature_ext q _ (poly (exponents t k) c)) in X by (intros; apply Py).
  rewrite (integral_ext t (poly (exponents t k') c') (poly (exponents t k) c)) in X by (intros; apply Py).
  rewrite (sub_sum (fun e => Rabs (c' e)) (exponents t k)) in X; auto using exponents_nodup.
  - eapply Rle_trans; [exact X|]. right. f_equal. f_equal. apply map_ext_in. intros e I. rewrite C1 by exact I. reflexivity.
  - intros e I. rewrite C0 by exact I. apply Rabs_R0.
Qed.
Lemma table_within : forall tol k k' q, (k <= k')%nat -> table_rule tol k' q -> rule_within tol kTria k q.
Proof.
  intros tol k k' q L T. apply (within_less tol kTria k k' q (or_introl eq_refl) L). destruct T as [E _ _ W [_ I] X]. constructor; auto.
  intros p Hp. specialize (I p Hp). rewrite E in I. destruct p as [|x [|y [|]]]; cbn in I; try contradiction. reflexivity.
Qed.

Section Acc.
Variable (g : geo) (f : srfe) (k : nat) (vol : list R -> R).
Hypothesis (AC : affine_cell g f k vol).
Local Notation el := (kind_el (go_kind g)).
Lemma ac_rule : forall tol q, rule_within tol el (2 * k) q -> rule_on q g vol.
Proof.
  intros tol q Rq. destruct AC as [Aff No2 Dl Ef Dg Cn HV].
  assert (L2 : forall p, In p (qr_points q) -> length p = 2%nat).
  { intros p I. rewrite (rw_points _ _ _ _ Rq p I). destruct (cell_el g Dl) as [-> | ->]; reflexivity. }
  split; [apply Rq|]. split; intros p I; [apply adm2; auto|apply HV, L2, I].
Qed.
Lemma ac_all : forall tol q (P : list R -> Prop), rule_within tol el (2 * k) q -> everywhere P -> at_points q P.
Proof.
  intros tol q P Rq H p I. apply H. rewrite (rw_points _ _ _ _ Rq p I). destruct (cell_el g (ac_dim _ _ _ _ AC)) as [-> | ->]; reflexivity.
Qed.
Lemma mass_accuracy : forall b c i j, everywhere (shape_at f b) -> (i < fe_total f)%nat -> (j < fe_total f)%nat ->
  exists C, 0 <= C /\ forall get q tol gamma M, rule_within tol el (2 * k) q -> get el (2 * k)%nat = Ok q ->
    everywhere (value_at gamma (fun _ => c)) -> MassEval get g f gamma = Ok M ->
    Rabs (em_at M i j - integral el (fun p => vol p * (c * b i p * b j p))) <= tol * C.
Proof.
  intros b c i j HB Hi Hj. destruct AC as [Aff No2 Dl Ef Dg Cn HV].
  destruct (mass_integrand g f k vol Aff No2 Dl Ef Cn HV c b i j HB Hi Hj) as [F [MF EF]].
  destruct (close_fun el (2 * k) F (fun p => vol p * (c * b i p * b j p)) (cell_el g Dl) MF EF) as [C [C0 HC]].
  exists C. split; [exact C0|]. intros get q tol gamma M Rq Q HG E.
  destruct (mass_matrix q g f vol (ac_rule tol q Rq) b (ac_all tol q _ Rq HB) get gamma (fun _ => c) Dl ltac:(rewrite Dg; exact Q) (ac_all tol q _ Rq HG)) as [M' [E' [_ H]]].
  rewrite E in E'. injection E' as <-. rewrite H by assumption. apply HC, Rq.
Qed.
Lemma load_accuracy : forall b h c i, everywhere (shape_at f b) -> everywhere (fun p => h p = poly (exponents el k) c p) -> (i < fe_total f)%nat ->
  exists C, 0 <= C /\ forall get q tol src v, rule_within tol el (2 * k) q -> get el (2 * k)%nat = Ok q ->
    everywhere (value_at src h) -> LoadEval get g f src = Ok v ->
    Rabs (nth i v 0 - integral el (fun p => vol p * (h p * b i p))) <= tol * C.
Proof.
  intros b h c i HB HP Hi. destruct AC as [Aff No2 Dl Ef Dg Cn HV].
  destruct (load_integrand g f k vol Aff No2 Dl Ef Cn HV h c b i HP HB Hi) as [F [MF EF]].
  destruct (close_fun el (2 * k) F (fun p => vol p * (h p * b i p)) (cell_el g Dl) MF EF) as [C [C0 HC]].
  exists C. split; [exact C0|]. intros get q tol src v Rq Q HG E.
  destruct (load_vector q g f vol (ac_rule tol q Rq) b (ac_all tol q _ Rq HB) get src h Dl ltac:(rewrite Dg; exact Q) (ac_all tol q _ Rq HG)) as [M' [E' [_ H]]].
  rewrite E in E'. injection E' as <-. rewrite H by assumption. apply HC, Rq.
Qed.
Lemma diffusion_accuracy : forall G A i j, gradients_ok f -> everywhere (gradient_at g f G) -> (i < fe_total f)%nat -> (j < fe_total f)%nat ->
  exists C, 0 <= C /\ forall get q tol alpha M, rule_within tol el (2 * k) q -> get el (2 * k)%nat = Ok q ->
    everywhere (value_at alpha (fun _ => A)) -> DiffusionEval get g f alpha = Ok M ->
    Rabs (em_at M i j - integral el (fun p => vol p * inner (go_dim g) (G i p) (flux (go_dim g) A (G j p)))) <= tol * C.
Proof.
  intros G A i j Gr HG Hi Hj. destruct AC as [Aff No2 Dl Ef Dg Cn HV].
  destruct (diffusion_integrand g f k vol Aff No2 Dl Ef Cn HV A G i j Gr HG Hi Hj) as [F [MF EF]].
  destruct (close_fun el (2 * k) F (fun p => vol p * inner (go_dim g) (G i p) (flux (go_dim g) A (G j p))) (cell_el g Dl) MF EF) as [C [C0 HC]].
  exists C. split; [exact C0|]. intros get q tol alpha M Rq Q HA E.
  destruct (diffusion_matrix q g f vol (ac_rule tol q Rq) get alpha G (fun _ => A) Dl ltac:(rewrite Dg; exact Q) (ac_all tol q _ Rq HG) (ac_all tol q _ Rq HA)) as [M' [E' [_ H]]].
  rewrite E in E'. injection E' as <-. rewrite H by assumption. apply HC, Rq.
Qed.
(** Rules that are exact. *)
Lemma zero_err : forall x y C, Rabs (x - y) <= 0 * C -> x = y.
Proof. intros x y C H. rewrite Rmult_0_l in H. pose proof (Rabs_pos (x - y)). assert (Z : Rabs (x - y) = 0) by lra. destruct (Req_dec (x - y) 0); [lra|]. apply Rabs_no_R0 in H1. contradiction. Qed.
Lemma mass_exact : forall get q gamma b c, rule_for el (2 * k) q -> get el (2 * k)%nat = Ok q -> everywhere (shape_at f b) -> everywhere (value_at gamma (fun _ => c)) ->
  is_matrix (MassEval get g f gamma) (fe_total f) (fun i j => integral el (fun p => vol p * (c * b i p * b j p))).
Proof.
  intros get q gamma b c Rq Q HB HG. apply within_zero in Rq. assert (Dg := ac_degree _ _ _ _ AC).
  destruct (mass_matrix q g f vol (ac_rule 0 q Rq) b (ac_all 0 q _ Rq HB) get gamma (fun _ => c) (ac_dim _ _ _ _ AC) ltac:(rewrite Dg; exact Q) (ac_all 0 q _ Rq HG)) as [M [E [N _]]].
  exists M. split; [exact E|]. split; [exact N|]. intros i j Hi Hj.
  destruct (mass_accuracy b c i j HB Hi Hj) as [C [_ H]]. apply (zero_err _ _ C). eapply H; eassumption.
Qed.
Lemma load_exact : forall get q src b h c, rule_for el (2 * k) q -> get el (2 * k)%nat = Ok q -> everywhere (shape_at f b) ->
  everywhere (fun p => h p = poly (exponents el k) c p) -> everywhere (value_at src h) ->
  is_vector (LoadEval get g f src) (fe_total f) (fun i => integral el (fun p => vol p * (h p * b i p))).
Proof.
  intros get q src b h c Rq Q HB HP HG. apply within_zero in Rq. assert (Dg := ac_degree _ _ _ _ AC).
  destruct (load_vector q g f vol (ac_rule 0 q Rq) b (ac_all 0 q _ Rq HB) get src h (ac_dim _ _ _ _ AC) ltac:(rewrite Dg; exact Q) (ac_all 0 q _ Rq HG)) as [M [E [N _]]].
  exists M. split; [exact E|]. split; [exact N|]. intros i Hi.
  destruct (load_accuracy b h c i HB HP Hi) as [C [_ H]]. apply (zero_err _ _ C). eapply H; eassumption.
Qed.
Lemma diffusion_exact : forall get q alpha G A, rule_for el (2 * k) q -> get el (2 * k)%nat = Ok q -> gradients_ok f -> everywhere (gradient_at g f G) -> everywhere (value_at alpha (fun _ => A)) ->
  is_matrix (DiffusionEval get g f alpha) (fe_total f) (fun i j => integral el (fun p => vol p * inner (go_dim g) (G i p) (flux (go_dim g) A (G j p)))).
Proof.
  intros get q alpha G A Rq Q Gr HG HA. apply within_zero in Rq. assert (Dg := ac_degree _ _ _ _ AC).
  destruct (diffusion_matrix q g f vol (ac_rule 0 q Rq) get alpha G (fun _ => A) (ac_dim _ _ _ _ AC) ltac:(rewrite Dg; exact Q) (ac_all 0 q _ Rq HG) (ac_all 0 q _ Rq HA)) as [M [E [N _]]].
  exists M. split; [exact E|]. split; [exact N|]. intros i j Hi Hj.
  destruct (diffusion_accuracy G A i j Gr HG Hi Hj) as [C [_ H]]. apply (zero_err _ _ C). eapply H; eassumption.
Qed.
End Acc.
