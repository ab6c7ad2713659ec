(** Proofs for C74: straight cells, exact integrals. *)
From Coq Require Import Reals List Arith Lia Lra Bool.
Import ListNotations.
From Verif Require Import Base Scalars MeshModel MeshView DofModel DofSpec RefPatModel GeoModel GeoSpec GeoProofs GeoProofs3 GeoProofs4 FeModel LagrModel QuadModel AssembleModel AssembleSpec
  FeSpec FeProofs LagrProofs LagrProofs2 LagrProofs3 QuadSpec TriaSpec HierProofs3 PolyProofs ElemModel ElemSpec ElemProofs ElemProofs2 ElemProofs3 ElemProofs5 ElemProofs7 ElemProofs8 ElemProofs9 FeToolsModel FeToolsSpec FeToolsProofs FeToolsProofs2
  ProlongProofs2 GalerkinModel GalerkinSpec GalerkinProofs GalerkinProofs2 GalerkinProofs3 GalerkinProofs4 GalerkinProofs5 GalerkinProofs8 GalerkinProofs9.
Local Open Scope R_scope.

Lemma mono_sum_to : forall P n (h : nat -> R -> R -> R), (forall i, (i < n)%nat -> mono P (h i)) -> mono P (fun x y => sum_to n (fun i => h i x y)).
Proof.
  intros P n h H. apply (mono_eq P (fun x y => rsum (map (fun i => h i x y) (seq 0 n)))); [reflexivity|]. apply mono_sum. intros i I. apply in_seq in I. apply H. lia.
Qed.
(** Sums over cells. *)
Lemma over_close : forall es (t : ent -> refel) n (H : ent -> list R -> R),
  (forall e, In e es -> exists C, 0 <= C /\ forall tol q, rule_within tol (t e) n q -> Rabs (quadrature q (H e) - integral (t e) (H e)) <= tol * C) ->
  exists C, 0 <= C /\ forall tol q, (forall e, In e es -> rule_within tol (t e) n (q e)) ->
    Rabs (sum_over es (fun e => quadrature (q e) (H e)) - sum_over es (fun e => integral (t e) (H e))) <= tol * C.
Proof.
  intros es t n H. induction es as [|e es IH]; intros HE.
  - exists 0. split; [lra|]. intros tol q _. unfold sum_over. cbn. rewrite Rminus_0_r, Rabs_R0. lra.
  - destruct IH as (C & C0 & HC); [intros; apply HE; right; auto|]. destruct (HE e (or_introl eq_refl)) as (C1 & C10 & H1).
    exists (C1 + C). split; [lra|]. intros tol q Rq. specialize (HC tol q (fun e' I => Rq e' (or_intror I))). specialize (H1 tol (q e) (Rq e (or_introl eq_refl))).
    unfold sum_over in *. cbn [map fold_right]. eapply Rle_trans; [|rewrite Rmult_plus_distr_l; apply Rplus_le_compat; [exact H1|exact HC]].
    eapply Rle_trans; [|apply Rabs_triang]. right. f_equal. ring.
Qed.

Section Flat.
Variables (k : order) (m : mesh) (V : fe_space) (geom : ent -> geo) (sel : ent -> bool).
Hypothesis W : wf_mesh m.
Hypothesis EV : lagrange_space k m = Ok V.
Let es := filter sel (entities (sp_mesh V) 0).
Let N := NumDofs (sp_dofs V).
Hypothesis FC : flat_cells V geom es.

Lemma flat_in : forall e, In e es -> In e (entities m 0).
Proof. intros e I. unfold es in I. apply filter_In in I. rewrite (lagrange_mesh k m V EV) in I. apply I. Qed.
Lemma flat_dim : of_dim geom 2 es.
Proof. intros e I. destruct (FC e I) as (_ & _ & [-> | ->] & _); reflexivity. Qed.
Lemma flat_adm : all_over es (fun e => admissible (geom e)).
Proof. intros e I p L. split; [rewrite (flat_dim e I); exact L|]. destruct (FC e I) as (_ & _ & [-> | ->] & _); discriminate. Qed.
Lemma flat_nondeg : all_over es (fun e => nondegenerate (geom e)).
Proof.
  intros e I p L. destruct (FC e I) as (C & Ex & K & _). pose proof (flat_adm e I p L) as A. destruct (jacobian_derivative (geom e) p A) as [J [HJ _]]. exists J. split; [exact HJ|].
  pose proof (affine_nondegenerate (geom e) p J C Ex K A HJ). lra.
Qed.
Lemma flat_type : forall e, In e es -> kind_el (go_kind (geom e)) = ent_type m e.
Proof. intros e I. rewrite <- (lagrange_mesh k m V EV). apply (FC e I). Qed.
Lemma flat_dimension : forall e, In e es -> dimension (ent_type m e) = 2%nat.
Proof. intros e I. rewrite <- (flat_type e I). destruct (FC e I) as (_ & _ & [-> | ->] & _); reflexivity. Qed.
Lemma flat_evaluates : all_over es (fun e => evaluates (lagrange k (ent_type m e))).
Proof. intros e I p L. destruct (lagrange_describes k (ent_type m e)) as (Ef & _ & Co & _). apply (co_eval _ Co). rewrite Ef, (flat_dimension e I). exact L. Qed.
Lemma flat_differentiates : all_over es (fun e => differentiates (lagrange k (ent_type m e))).
Proof.
  intros e I p L. destruct (lagrange_gradients k (ent_type m e) (lagrange_shape m W 0 e (or_introl eq_refl) (flat_in e I)) p) as (gr & Eg & Lg & _); [|exists gr; auto].
  rewrite (proj1 (lagrange_describes k _)), (flat_dimension e I). exact L.
Qed.
Lemma flat_affine : forall vol, all_over es (fun e => volume_at (geom e) (vol e)) -> forall e, In e es -> affine_cell (geom e) (lagrange k (ent_type m e)) (ord k) (vol e).
Proof.
  intros vol HV e I. destruct (FC e I) as (C & Ex & K & _). destruct (lagrange_affine (geom e) k C Ex K) as (vol' & b & G & AC & _). rewrite (flat_type e I) in AC.
  destruct AC. constructor; auto. exact (HV e I).
Qed.
Lemma flat_value : forall u e p, length u = N -> In e es -> length p = 2%nat ->
  exists l, element_of V e (lagrange k (ent_type m e)) l /\ fe_value V u e p = Ok (sum_to (length l) (fun i => loc l u i * shapes (lagrange k (ent_type m e)) i p)).
Proof.
  intros u e p Lu I L. destruct (lagrange_element k m V W EV 0 e (or_introl eq_refl) (flat_in e I)) as (l & El). exists l. split; [exact El|].
  apply value_shapes; [exact El|exact Lu|]. apply flat_evaluates; assumption.
Qed.
Lemma flat_gradient : forall u e p, length u = N -> In e es -> length p = 2%nat ->
  exists l w, element_of V e (lagrange k (ent_type m e)) l /\ fe_grad_value V geom u e p = Ok w /\
    forall c, w c = sum_to (length l) (fun i => loc l u i * grads (geom e) (lagrange k (ent_type m e)) i p c).
Proof.
  intros u e p Lu I L. destruct (lagrange_element k m V W EV 0 e (or_introl eq_refl) (flat_in e I)) as (l & El).
  destruct (flat_nondeg e I p L) as (J & HJ & ND).
  destruct (gradient_grads V geom e _ l u p J El Lu (flat_differentiates e I p L) (flat_adm e I p L) (flat_dim e I)) as (w & Ew & Hw); auto.
  - apply (FC e I).
  - exists l, w. auto.
Qed.
Lemma element_unique : forall e f l l', element_of V e f l -> element_of V e f l' -> l = l'.
Proof. intros e f l l' A B. pose proof (eo_dofs _ _ _ _ A) as X. pose proof (eo_dofs _ _ _ _ B) as Y. unfold has_dofs in *. congruence. Qed.

(** Everything has a value on all of the cells. *)
Lemma flat_data : forall u, length u = N -> exists vol U G, all_over es (fun e => volume_at (geom e) (vol e)) /\
  all_over es (fun e p => fe_value V u e p = Ok (U e p)) /\ all_over es (fun e => has_gradient V geom u e (G e)).
Proof.
  intros u Lu.
  exists (fun e p => match Jacobian (geom e) p with Ok J => sqrt (gramian_det (go_dim (geom e)) J) | _ => 0 end),
    (fun e p => match fe_value V u e p with Ok w => w | _ => 0 end), (fun e p => match fe_grad_value V geom u e p with Ok w => w | _ => vzero end).
  split; [|split].
  - intros e I p L. destruct (flat_nondeg e I p L) as (J & HJ & _). exists J. rewrite HJ. auto.
  - intros e I p L. destruct (flat_value u e p Lu I L) as (l & _ & ->). reflexivity.
  - intros e I p L. destruct (flat_gradient u e p Lu I L) as (l & w & _ & E & _). exists w. rewrite E. auto.
Qed.

Section Data.
Variables (vol : ent -> list R -> R) (u v : list R).
Hypothesis HV : all_over es (fun e => volume_at (geom e) (vol e)).
Hypothesis (Lu : length u = N) (Lv : length v = N).

Lemma diffusion_close : forall U X (A : ent -> coeff) e, all_over es (fun e => has_gradient V geom u e (U e)) -> all_over es (fun e => has_gradient V geom v e (X e)) ->
  In e es -> let H := fun p => vol e p * inner (go_dim (geom e)) (X e p) (flux (go_dim (geom e)) (A e) (U e p)) in
  exists C, 0 <= C /\ forall tol q, rule_within tol (ent_type m e) (2 * ord k) q -> Rabs (quadrature q H - integral (ent_type m e) H) <= tol * C.
Proof.
  intros U X A e HU HX I H. destruct (flat_affine vol HV e I) as [Aff No2 Dl Ef Dg Cn HVe]. set (f := lagrange k (ent_type m e)) in *.
  destruct (lagrange_element k m V W EV 0 e (or_introl eq_refl) (flat_in e I)) as (l & El). fold f in El.
  assert (GA : everywhere (gradient_at (geom e) f (grads (geom e) f))).
  { intros p L. destruct (flat_nondeg e I p L) as (J & HJ & ND). eapply grads_at; eauto; [apply flat_differentiates; assumption|apply flat_adm; assumption]. }
  pose proof (lagrange_gradients k (ent_type m e) (lagrange_shape m W 0 e (or_introl eq_refl) (flat_in e I))) as Gr. fold f in Gr.
  assert (GX : forall (w : list R) Y, length w = N -> all_over es (fun e => has_gradient V geom w e (Y e)) -> forall p, length p = 2%nat -> forall c, (c < go_dim (geom e))%nat ->
     Y e p c = sum_to (length l) (fun i => loc l w i * grads (geom e) f i p c)).
  { intros w Y Lw HY p L c Hc. destruct (HY e I p L) as (z & Ez & Hz). destruct (flat_gradient w e p Lw I L) as (l' & z' & El' & Ez' & Hz'). fold f in El'.
    rewrite (element_unique e f l' l El' El) in Hz'. rewrite Ez in Ez'. injection Ez' as <-. rewrite <- (Hz c Hc). apply Hz'. }
  set (F := fun i j x y => vol e [x; y] * inner (go_dim (geom e)) (grads (geom e) f i [x; y]) (flux (go_dim (geom e)) (A e) (grads (geom e) f j [x; y]))).
  assert (MF : forall i j, (i < length l)%nat -> (j < length l)%nat -> mono (deg (ent_type m e) (2 * ord k)) (F i j)).
  { intros i j Hi Hj. rewrite (eo_total _ _ _ _ El) in Hi, Hj.
    destruct (diffusion_integrand (geom e) f (ord k) (vol e) Aff No2 Dl Ef Cn HVe (A e) (grads (geom e) f) i j Gr GA Hi Hj) as (F' & M' & E').
    rewrite (flat_type e I) in M'. apply (mono_eq _ F'); [|exact M']. intros x y. symmetry. apply E'. }
  apply (close_fun (ent_type m e) (2 * ord k) (fun x y => sum_to (length l) (fun i => loc l v i * sum_to (length l) (fun j => loc l u j * F i j x y)))).
  - apply (lagrange_cell m W). apply flat_in, I.
  - apply mono_sum_to. intros i Hi. apply (mono_scale _ (fun x y => sum_to (length l) (fun j => loc l u j * F i j x y))). apply mono_sum_to. intros j Hj. apply (mono_scale _ (F i j)). apply MF; assumption.
  - intros x y. unfold H. rewrite <- (diffusion_bilinear (go_dim (geom e)) (A e) (length l) (loc l v) (loc l u) (fun i => grads (geom e) f i [x; y]) (vol e [x; y]) (X e [x; y]) (U e [x; y])).
    + apply sum_to_ext. intros i _. f_equal. apply sum_to_ext. intros j _. unfold F. ring.
    + intros c Hc. apply (GX v X Lv HX); auto.
    + intros c Hc. apply (GX u U Lu HU); auto.
Qed.
Lemma values_close : forall (w : list R) Y e l, length w = N -> all_over es (fun e p => fe_value V w e p = Ok (Y e p)) -> In e es -> element_of V e (lagrange k (ent_type m e)) l ->
  forall p, length p = 2%nat -> Y e p = sum_to (length l) (fun i => loc l w i * shapes (lagrange k (ent_type m e)) i p).
Proof.
  intros w Y e l Lw HY I El p L. pose proof (HY e I p L) as E. destruct (flat_value w e p Lw I L) as (l' & El' & E'). rewrite (element_unique _ _ _ _ El' El) in E'.
  cbn beta in E. rewrite E in E'. injection E' as ->. reflexivity.
Qed.
Lemma mass_close : forall U X (c : ent -> R) e, all_over es (fun e p => fe_value V u e p = Ok (U e p)) -> all_over es (fun e p => fe_value V v e p = Ok (X e p)) ->
  In e es -> let H := fun p => vol e p * (c e * X e p * U e p) in
  exists C, 0 <= C /\ forall tol q, rule_within tol (ent_type m e) (2 * ord k) q -> Rabs (quadrature q H - integral (ent_type m e) H) <= tol * C.
Proof.
  intros U X c e HU HX I H. destruct (flat_affine vol HV e I) as [Aff No2 Dl Ef Dg Cn HVe]. 
  destruct (lagrange_element k m V W EV 0 e (or_introl eq_refl) (flat_in e I)) as (l & El).
  pose proof (values_close u U e l Lu HU I El) as QU. pose proof (values_close v X e l Lv HX I El) as QX. set (f := lagrange k (ent_type m e)) in *.
  assert (SA : everywhere (shape_at f (shapes f))) by (intros p L; apply shapes_at, flat_evaluates; assumption).
  set (F := fun i j x y => vol e [x; y] * (c e * shapes f i [x; y] * shapes f j [x; y])).
  assert (MF : forall i j, (i < length l)%nat -> (j < length l)%nat -> mono (deg (ent_type m e) (2 * ord k)) (F i j)).
  { intros i j Hi Hj. rewrite (eo_total _ _ _ _ El) in Hi, Hj.
    destruct (mass_integrand (geom e) f (ord k) (vol e) Aff No2 Dl Ef Cn HVe (c e) (shapes f) i j SA Hi Hj) as (F' & M' & E').
    rewrite (flat_type e I) in M'. apply (mono_eq _ F'); [|exact M']. intros x y. symmetry. apply E'. }
  apply (close_fun (ent_type m e) (2 * ord k) (fun x y => sum_to (length l) (fun i => loc l v i * sum_to (length l) (fun j => loc l u j * F i j x y)))).
  - apply (lagrange_cell m W). apply flat_in, I.
  - apply mono_sum_to. intros i Hi. apply (mono_scale _ (fun x y => sum_to (length l) (fun j => loc l u j * F i j x y))). apply mono_sum_to. intros j Hj. apply (mono_scale _ (F i j)). apply MF; assumption.
  - intros x y. unfold H. rewrite QU, QX by reflexivity. rewrite <- (mass_bilinear (c e) (length l) (loc l v) (loc l u) (fun i => shapes f i [x; y]) (vol e [x; y])).
    apply sum_to_ext. intros i _. f_equal. apply sum_to_ext. intros j _. unfold F. ring.
Qed.
Lemma load_close : forall X h (c : ent -> list nat -> R) e, all_over es (fun e p => fe_value V v e p = Ok (X e p)) ->
  all_over es (fun e p => h e p = poly (exponents (ent_type m e) (ord k)) (c e) p) ->
  In e es -> let H := fun p => vol e p * (h e p * X e p) in
  exists C, 0 <= C /\ forall tol q, rule_within tol (ent_type m e) (2 * ord k) q -> Rabs (quadrature q H - integral (ent_type m e) H) <= tol * C.
Proof.
  intros X h c e HX HP I H. destruct (flat_affine vol HV e I) as [Aff No2 Dl Ef Dg Cn HVe]. 
  destruct (lagrange_element k m V W EV 0 e (or_introl eq_refl) (flat_in e I)) as (l & El).
  pose proof (values_close v X e l Lv HX I El) as QX. set (f := lagrange k (ent_type m e)) in *.
  assert (SA : everywhere (shape_at f (shapes f))) by (intros p L; apply shapes_at, flat_evaluates; assumption).
  set (F := fun i x y => vol e [x; y] * (h e [x; y] * shapes f i [x; y])).
  assert (MF : forall i, (i < length l)%nat -> mono (deg (ent_type m e) (2 * ord k)) (F i)).
  { intros i Hi. rewrite (eo_total _ _ _ _ El) in Hi.
    destruct (load_integrand (geom e) f (ord k) (vol e) Aff No2 Dl Ef Cn HVe (h e) (c e) (shapes f) i) as (F' & M' & E'); [rewrite (flat_type e I); exact (HP e I)|exact SA|exact Hi|].
    rewrite (flat_type e I) in M'. apply (mono_eq _ F'); [|exact M']. intros x y. symmetry. apply E'. }
  apply (close_fun (ent_type m e) (2 * ord k) (fun x y => sum_to (length l) (fun i => loc l v i * F i x y))).
  - apply (lagrange_cell m W). apply flat_in, I.
  - apply mono_sum_to. intros i Hi. apply (mono_scale _ (F i)). apply MF; assumption.
  - intros x y. unfold H. rewrite QX by reflexivity. rewrite <- sum_to_scal, <- sum_to_scal.
    apply sum_to_ext. intros i _. unfold F. ring.
Qed.

(** The assembled matrices. *)
Lemma rules_apart : forall tol get q, rules_within V tol get (2 * ord k) q es -> forall e, In e es -> rule_within tol (ent_type m e) (2 * ord k) (q e).
Proof. intros tol get q Rq e I. rewrite <- (lagrange_mesh k m V EV). apply Rq, I. Qed.
Lemma rule_point : forall tol get q e p, rules_within V tol get (2 * ord k) q es -> In e es -> In p (qr_points (q e)) -> length p = 2%nat.
Proof. intros tol get q e p Rq I Ip. rewrite (rw_points _ _ _ _ (rules_apart tol get q Rq e I) p Ip). apply flat_dimension, I. Qed.
Lemma flat_prepared : forall tol get q, rules_within V tol get (2 * ord k) q es -> prepared V geom get q vol es /\ regular V geom q es.
Proof.
  intros tol get q Rq. assert (EM : filter sel (entities m 0) = es) by (unfold es; rewrite (lagrange_mesh k m V EV); reflexivity).
  pose proof (lagrange_prepared k m V W EV 0 sel geom get q (or_introl eq_refl)) as LP. cbv zeta in LP. rewrite EM in LP.
  destruct LP as (vol' & VO & Pr & Re).
  { intros e I. destruct (Rq e I) as (Eg & RW). rewrite (lagrange_mesh k m V EV) in Eg. split; [apply flat_type, I|]. split; [exact Eg|]. split; [apply RW|].
    intros p Ip. apply flat_adm; [exact I|]. exact (rule_point tol get q e p Rq I Ip). }
  split.
  - destruct Pr as [P1 P2 P3]. constructor; auto. intros e I. destruct (P3 e I) as (A & B & _). split; [exact A|]. split; [exact B|]. intros p Ip. apply HV; [exact I|]. exact (rule_point tol get q e p Rq I Ip).
  - apply Re. intros e I p Ip. apply flat_nondeg; [exact I|]. exact (rule_point tol get q e p Rq I Ip).
Qed.

Theorem diffusion_galerkin_accuracy : forall U X (A : ent -> coeff), all_over es (fun e => has_gradient V geom u e (U e)) -> all_over es (fun e => has_gradient V geom v e (X e)) ->
  exists C, 0 <= C /\ forall tol get q alpha Mat D, rules_within V tol get (2 * ord k) q es -> all_over es (fun e => value_at (alpha e) (fun _ => A e)) ->
    AssembleMatrixWith (sp_mesh V) 0 (sp_dofs V) (sp_dofs V) sel (diffusion_provider get V geom alpha) = Ok Mat -> AssembleSpec.is_matrix Rring Mat N N D ->
    Rabs (form Rring N N D (comp Rring v) (comp Rring u) -
      sum_over es (fun e => integral (ent_type m e) (fun p => vol e p * inner (go_dim (geom e)) (X e p) (flux (go_dim (geom e)) (A e) (U e p))))) <= tol * C.
Proof.
  intros U X A HU HX. destruct (over_close es (ent_type m) (2 * ord k) (fun e p => vol e p * inner (go_dim (geom e)) (X e p) (flux (go_dim (geom e)) (A e) (U e p)))) as (C & C0 & HC).
  { intros e I. apply diffusion_close; assumption. }
  exists C. split; [exact C0|]. intros tol get q alpha Mat D Rq HA EM MD. destruct (flat_prepared tol get q Rq) as (Pr & Re).
  assert (Q : form Rring N N D (comp Rring v) (comp Rring u) = sum_over es (fun e => quadrature (q e) (fun p => vol e p * inner (go_dim (geom e)) (X e p) (flux (go_dim (geom e)) (A e) (U e p))))).
  { apply (matrix_entries V _ _ Mat D (diffusion_assembled V geom get q vol 0 sel Pr alpha (fun e _ => A e) flat_dim Re (fun e I p Ip => HA e I p (rule_point tol get q e p Rq I Ip))) EM MD u v); [exact Lu|exact Lv|]. exists U, X. split; [|split; [|reflexivity]]; intros e I p Ip; [apply HU|apply HX]; try assumption; eapply rule_point; eauto. }
  rewrite Q. apply HC. apply (rules_apart tol get q Rq).
Qed.
Theorem mass_galerkin_accuracy : forall U X (c : ent -> R), all_over es (fun e p => fe_value V u e p = Ok (U e p)) -> all_over es (fun e p => fe_value V v e p = Ok (X e p)) ->
  exists C, 0 <= C /\ forall tol get q gamma Mat D, rules_within V tol get (2 * ord k) q es -> all_over es (fun e => value_at (gamma e) (fun _ => c e)) ->
    AssembleMatrixWith (sp_mesh V) 0 (sp_dofs V) (sp_dofs V) sel (mass_provider get V geom gamma) = Ok Mat -> AssembleSpec.is_matrix Rring Mat N N D ->
    Rabs (form Rring N N D (comp Rring v) (comp Rring u) -
      sum_over es (fun e => integral (ent_type m e) (fun p => vol e p * (c e * X e p * U e p)))) <= tol * C.
Proof.
  intros U X c HU HX. destruct (over_close es (ent_type m) (2 * ord k) (fun e p => vol e p * (c e * X e p * U e p))) as (C & C0 & HC).
  { intros e I. apply mass_close; assumption. }
  exists C. split; [exact C0|]. intros tol get q gamma Mat D Rq HA EM MD. destruct (flat_prepared tol get q Rq) as (Pr & Re).
  assert (Q : form Rring N N D (comp Rring v) (comp Rring u) = sum_over es (fun e => quadrature (q e) (fun p => vol e p * (c e * X e p * U e p)))).
  { apply (matrix_entries V _ _ Mat D (mass_assembled V geom get q vol 0 sel Pr gamma (fun e _ => c e) flat_dim (fun e I p Ip => HA e I p (rule_point tol get q e p Rq I Ip))) EM MD u v); [exact Lu|exact Lv|]. exists U, X. split; [|split; [|reflexivity]]; intros e I p Ip; [apply HU|apply HX]; try assumption; eapply rule_point; eauto. }
  rewrite Q. apply HC. apply (rules_apart tol get q Rq).
Qed.
Theorem load_galerkin_accuracy : forall X h (c : ent -> list nat -> R), all_over es (fun e p => fe_value V v e p = Ok (X e p)) ->
  all_over es (fun e p => h e p = poly (exponents (ent_type m e) (ord k)) (c e) p) ->
  exists C, 0 <= C /\ forall tol get q src b, rules_within V tol get (2 * ord k) q es -> all_over es (fun e => value_at (src e) (h e)) ->
    AssembleVectorWith (sp_mesh V) 0 (sp_dofs V) sel (load_provider get V geom src) = Ok b ->
    Rabs (sum_to N (fun i => nth i b 0 * nth i v 0) - sum_over es (fun e => integral (ent_type m e) (fun p => vol e p * (h e p * X e p)))) <= tol * C.
Proof.
  intros X h c HX HP. destruct (over_close es (ent_type m) (2 * ord k) (fun e p => vol e p * (h e p * X e p))) as (C & C0 & HC).
  { intros e I. apply (load_close X h c); assumption. }
  exists C. split; [exact C0|]. intros tol get q src b Rq HA Eb. destruct (flat_prepared tol get q Rq) as (Pr & Re).
  destruct (load_assembled V geom get q vol 0 sel Pr src h flat_dim (fun e I p Ip => HA e I p (rule_point tol get q e p Rq I Ip))) as (b' & Eb' & Lb & Fb). rewrite Eb in Eb'. injection Eb' as <-. fold N in Fb, Lb.
  rewrite (Fb v (sum_over es (fun e => quadrature (q e) (fun p => vol e p * (h e p * X e p)))) Lv).
  - apply HC. apply (rules_apart tol get q Rq).
  - exists X. split; [|reflexivity]. intros e I p Ip. apply HX; [assumption|]. eapply rule_point; eauto.
Qed.
End Data.
End Flat.
