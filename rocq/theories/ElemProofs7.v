(** Element matrices: results in the form used by the property theorems. *)
From Coq Require Import Reals List Arith Bool Lia Lra.
Import ListNotations.
From Verif Require Import Base MeshModel MeshView DofModel RefPatModel GeoModel GeoSpec GeoProofs GeoProofs2 GeoProofs3 GeoProofs4 FeModel LagrModel LagrProofs LagrProofs2 QuadModel FeSpec QuadSpec
  HierProofs HierProofs3 ElemModel ElemSpec ElemProofs ElemProofs2 ElemProofs3 ElemProofs4 ElemProofs5 ElemProofs6.
Local Open Scope R_scope.

Section Cell.
Variable (q : quadrule) (g : geo) (f : srfe) (vol : list R -> R).
Hypothesis (HR : rule_on q g vol).

Lemma diffusion_matrix : forall get alpha G a, dim_local (go_kind g) = 2%nat ->
  get (kind_el (go_kind g)) (2 * fe_degree f)%nat = Ok q -> at_points q (gradient_at g f G) -> at_points q (value_at alpha a) ->
  is_matrix (DiffusionEval get g f alpha) (fe_total f)
    (fun i j => quadrature q (fun p => vol p * inner (go_dim g) (G i p) (flux (go_dim g) (a p) (G j p)))).
Proof. intros. destruct HR as [W [A V]]. apply diffusion_entries; assumption. Qed.
Lemma diffusion_props : forall get alpha G a M, dim_local (go_kind g) = 2%nat ->
  get (kind_el (go_kind g)) (2 * fe_degree f)%nat = Ok q -> at_points q (gradient_at g f G) -> at_points q (value_at alpha a) ->
  DiffusionEval get g f alpha = Ok M ->
  (forall u, quadratic_form M u = quadrature q (fun p => vol p *
     inner (go_dim g) (fe_gradient (fe_total f) u G p) (flux (go_dim g) (a p) (fe_gradient (fe_total f) u G p)))) /\
  (at_points q (fun p => symmetric_coeff (go_dim g) (a p)) -> symmetric M) /\
  (nonnegative_weights q -> at_points q (fun p => nonnegative_coeff (go_dim g) (a p)) -> positive_semidefinite M) /\
  (counts f -> partition_of_unity f -> gradients_ok f -> fe_el f = kind_el (go_kind g) ->
     forall i, (i < fe_total f)%nat -> image M (fun _ => 1) i = 0).
Proof.
  intros get alpha G a M D Q HG HA E. destruct (diffusion_matrix get alpha G a D Q HG HA) as [M' [E' [N H]]].
  rewrite E in E'. injection E' as <-. destruct HR as [W [A V]].
  assert (F : forall u, quadratic_form M u = quadrature q (fun p => vol p *
     inner (go_dim g) (fe_gradient (fe_total f) u G p) (flux (go_dim g) (a p) (fe_gradient (fe_total f) u G p)))).
  { intros u. rewrite (form_entries M _ _ u N H). apply diff_form, W. }
  split; [exact F|]. split; [|split].
  - intros S i j Hi Hj. rewrite N in Hi, Hj. rewrite !H by assumption. apply quad_ext. intros p Hp. f_equal. apply flux_symmetric, S, Hp.
  - intros NW NC u. rewrite F. apply quad_nonneg; [exact W|exact NW|]. intros p Hp. apply Rmult_le_pos; [|apply (NC p Hp)].
    apply (vol_nonneg g vol p (V p Hp)).
  - intros Co Un Gr Ef i Hi. rewrite (image_entries M _ _ (fun _ => 1) i N H Hi).
    rewrite (sum_to_ext _ _ (fun j => quadrature q (fun p => 1 * (vol p * inner (go_dim g) (G i p) (flux (go_dim g) (a p) (G j p)))))).
    2:{ intros j _. rewrite quad_scal by exact W. ring. }
    rewrite <- quad_sum by exact W. rewrite (quad_ext q _ (fun _ => 0 * 0)).
    + rewrite quad_scal by exact W. ring.
    + intros p Hp.
      assert (Dm : dimension (fe_el f) = 2%nat). { rewrite Ef. destruct (cell_el g D) as [-> | ->]; reflexivity. }
      pose proof (gradients_sum g f G p Co Un Gr Dm D (A p Hp) (HG p Hp)) as Z.
      destruct (flux_zero (go_dim g) (a p) (combo (fe_total f) (fun _ => 1) (fun j => G j p)) Z (G i p)) as [Z1 _].
      rewrite inner_flux_combo in Z1. transitivity (vol p * 0); [|ring]. rewrite <- Z1, <- sum_to_scal. apply sum_to_ext. intros. ring.
Qed.

Variable (b : nat -> list R -> R).
Hypothesis (HB : at_points q (shape_at f b)).
Lemma mass_props_of : forall r c M, is_matrix r (fe_total f) (fun i j => quadrature q (fun p => vol p * (c p * b i p * b j p))) -> r = Ok M ->
  (forall u, quadratic_form M u = quadrature q (fun p => vol p * (c p * fe_fun (fe_total f) u b p ^ 2))) /\
  symmetric M /\
  (nonnegative_weights q -> at_points q (fun p => 0 <= c p) -> positive_semidefinite M).
Proof.
  intros r c M [M' [E' [N H]]] E. rewrite E in E'. injection E' as <-. destruct HR as [W [A V]].
  assert (F : forall u, quadratic_form M u = quadrature q (fun p => vol p * (c p * fe_fun (fe_total f) u b p ^ 2))).
  { intros u. rewrite (form_entries M _ _ u N H). apply mass_form, W. }
  split; [exact F|]. split.
  - intros i j Hi Hj. rewrite N in Hi, Hj. rewrite !H by assumption. apply quad_ext. intros. ring.
  - intros NW NC u. rewrite F. apply quad_nonneg; [exact W|exact NW|]. intros p Hp. apply Rmult_le_pos; [apply (vol_nonneg g vol p (V p Hp))|].
    apply Rmult_le_pos; [apply NC, Hp|]. apply pow2_ge_0.
Qed.
Lemma mass_matrix : forall get gamma c, dim_local (go_kind g) = 2%nat ->
  get (kind_el (go_kind g)) (2 * fe_degree f)%nat = Ok q -> at_points q (value_at gamma c) ->
  is_matrix (MassEval get g f gamma) (fe_total f) (fun i j => quadrature q (fun p => vol p * (c p * b i p * b j p))).
Proof. intros. destruct HR as [W [A V]]. apply mass_entries; assumption. Qed.
Lemma mass_edge_matrix : forall get gamma c, 
  get (kind_el (go_kind g)) (2 * fe_degree f)%nat = Ok q -> at_points q (value_at gamma c) ->
  is_matrix (MassEdgeEval get g f gamma) (fe_total f) (fun i j => quadrature q (fun p => vol p * (c p * b i p * b j p))).
Proof. intros. destruct HR as [W [A V]]. apply mass_edge_entries; assumption. Qed.
Lemma load_vector : forall get src h, dim_local (go_kind g) = 2%nat ->
  get (kind_el (go_kind g)) (2 * fe_degree f)%nat = Ok q -> at_points q (value_at src h) ->
  is_vector (LoadEval get g f src) (fe_total f) (fun i => quadrature q (fun p => vol p * (h p * b i p))).
Proof. intros. destruct HR as [W [A V]]. apply load_entries; assumption. Qed.
Lemma load_edge_vector : forall get src h, dim_local (go_kind g) = 1%nat ->
  get (kind_el (go_kind g)) (2 * fe_degree f)%nat = Ok q -> at_points q (value_at src h) ->
  is_vector (LoadEdgeEval get g f src) (fe_total f) (fun i => quadrature q (fun p => vol p * (h p * b i p))).
Proof. intros. destruct HR as [W [A V]]. apply load_edge_entries; assumption. Qed.
(** Totals *)
Lemma unity_at : counts f -> partition_of_unity f -> fe_el f = kind_el (go_kind g) -> at_points q (fun p => sum_to (fe_total f) (fun i => b i p) = 1).
Proof.
  intros Co Un Ef p Hp. destruct HR as [_ [A _]]. destruct (A p Hp) as [L _].
  assert (Lp : length p = dimension (fe_el f)) by (rewrite Ef, L; destruct (go_kind g); reflexivity).
  destruct (Un p Lp) as [w [Ew S1]]. destruct (HB p Hp) as [v [Ev [Lv Vv]]]. rewrite Ew in Ev. injection Ev as <-.
  rewrite <- S1, sum_to_rsum. unfold rsum. f_equal. rewrite <- (map_ext_in (fun i => nth i w 0)).
  - rewrite <- Lv. clear. induction w as [|x w IH] using rev_ind; [reflexivity|].
    rewrite app_length. cbn [length]. rewrite Nat.add_1_r, seq_S, map_app. cbn [map Nat.add]. f_equal.
    + rewrite <- IH at 2. apply map_ext_in. intros i Hi. apply in_seq in Hi. apply app_nth1. lia.
    + rewrite app_nth2, Nat.sub_diag by lia. reflexivity.
  - intros i Hi. apply in_seq in Hi. apply Vv. lia.
Qed.
Lemma load_total : forall r h v, is_vector r (fe_total f) (fun i => quadrature q (fun p => vol p * (h p * b i p))) -> r = Ok v ->
  counts f -> partition_of_unity f -> fe_el f = kind_el (go_kind g) -> rsum v = quadrature q (fun p => vol p * h p).
Proof.
  intros r h v [v' [E' [N H]]] E Co Un Ef. rewrite E in E'. injection E' as <-. destruct HR as [W _].
  transitivity (sum_to (fe_total f) (fun i => quadrature q (fun p => vol p * (h p * b i p)))).
  - rewrite sum_to_rsum. unfold rsum. f_equal. rewrite <- (map_ext_in (fun i => nth i v 0)).
    + rewrite <- N. clear. induction v as [|x w IH] using rev_ind; [reflexivity|].
      rewrite app_length. cbn [length]. rewrite Nat.add_1_r, seq_S, map_app. cbn [map Nat.add]. f_equal.
      * rewrite IH at 1. apply map_ext_in. intros i Hi. apply in_seq in Hi. symmetry. apply app_nth1. lia.
      * rewrite app_nth2, Nat.sub_diag by lia. reflexivity.
    + intros i Hi. apply in_seq in Hi. apply H. lia.
  - rewrite <- quad_sum by exact W. apply quad_ext. intros p Hp.
    transitivity (vol p * h p * sum_to (fe_total f) (fun i => b i p)).
    + rewrite <- sum_to_scal. apply sum_to_ext. intros. ring.
    + rewrite (unity_at Co Un Ef p Hp). ring.
Qed.
Lemma mass_total : forall r c M, is_matrix r (fe_total f) (fun i j => quadrature q (fun p => vol p * (c p * b i p * b j p))) -> r = Ok M ->
  counts f -> partition_of_unity f -> fe_el f = kind_el (go_kind g) ->
  sum_to (em_n M) (fun i => sum_to (em_n M) (em_at M i)) = quadrature q (fun p => vol p * c p).
Proof.
  intros r c M HM E Co Un Ef. destruct (mass_props_of r c M HM E) as [F _]. specialize (F (fun _ => 1)).
  transitivity (quadratic_form M (fun _ => 1)).
  - unfold quadratic_form. apply sum_to_ext. intros i _. apply sum_to_ext. intros j _. ring.
  - rewrite F. apply quad_ext. intros p Hp. unfold fe_fun. rewrite (sum_to_ext _ _ (fun i => b i p)) by (intros; ring).
    rewrite (unity_at Co Un Ef p Hp). ring.
Qed.

(** *** lf::uscalfe *)
Lemma rd_matrix : forall P pfe alpha gamma G a c, pcs_get P (kind_el (go_kind g)) = Some pfe -> precompute f q = Ok pfe ->
  dim_local (go_kind g) = 2%nat ->
  at_points q (gradient_at g f G) -> at_points q (value_at alpha a) -> at_points q (value_at gamma c) ->
  is_matrix (ReactionDiffusionEval P g alpha gamma) (fe_total f)
    (fun i j => quadrature q (fun p => vol p * (inner (go_dim g) (G i p) (flux (go_dim g) (a p) (G j p)) + c p * b i p * b j p))).
Proof. intros. destruct HR as [W [A V]]. eapply rd_entries; eassumption. Qed.
Lemma rd_default : forall make layout P alpha gamma G a c, precompute_default make layout = Ok P ->
  layout (kind_el (go_kind g)) = Some f -> make (kind_el (go_kind g)) (2 * fe_degree f)%nat = Ok q ->
  dim_local (go_kind g) = 2%nat ->
  at_points q (gradient_at g f G) -> at_points q (value_at alpha a) -> at_points q (value_at gamma c) ->
  is_matrix (ReactionDiffusionEval P g alpha gamma) (fe_total f)
    (fun i j => quadrature q (fun p => vol p * (inner (go_dim g) (G i p) (flux (go_dim g) (a p) (G j p)) + c p * b i p * b j p))).
Proof.
  intros make layout P alpha gamma G a c HP HL HQ D HG HA HC. pose proof (default_get _ _ _ _ HP (cell_el g D)) as X. rewrite HL in X.
  destruct X as [q' [pfe [E1 [E2 E3]]]]. rewrite HQ in E1. injection E1 as <-. eapply rd_matrix; eassumption.
Qed.
Lemma rd_given : forall coll layout P alpha gamma G a c, precompute_given false coll layout = Ok P ->
  layout (kind_el (go_kind g)) = Some f -> coll (kind_el (go_kind g)) = Some q ->
  dim_local (go_kind g) = 2%nat ->
  at_points q (gradient_at g f G) -> at_points q (value_at alpha a) -> at_points q (value_at gamma c) ->
  is_matrix (ReactionDiffusionEval P g alpha gamma) (fe_total f)
    (fun i j => quadrature q (fun p => vol p * (inner (go_dim g) (G i p) (flux (go_dim g) (a p) (G j p)) + c p * b i p * b j p))).
Proof.
  intros coll layout P alpha gamma G a c HP HL HQ D HG HA HC. pose proof (given_get _ _ _ _ _ HP (cell_el g D)) as X. rewrite HL, HQ in X.
  destruct X as [_ [pfe [E2 E3]]]. eapply rd_matrix; eassumption.
Qed.
Lemma rd_props : forall r G a c M,
  is_matrix r (fe_total f)
    (fun i j => quadrature q (fun p => vol p * (inner (go_dim g) (G i p) (flux (go_dim g) (a p) (G j p)) + c p * b i p * b j p))) -> r = Ok M ->
  (forall u, quadratic_form M u = quadrature q (fun p => vol p *
     (inner (go_dim g) (fe_gradient (fe_total f) u G p) (flux (go_dim g) (a p) (fe_gradient (fe_total f) u G p)) +
      c p * fe_fun (fe_total f) u b p ^ 2))) /\
  (at_points q (fun p => symmetric_coeff (go_dim g) (a p)) -> symmetric M) /\
  (nonnegative_weights q -> at_points q (fun p => nonnegative_coeff (go_dim g) (a p)) -> at_points q (fun p => 0 <= c p) -> positive_semidefinite M).
Proof.
  intros r G a c M [M' [E' [N H]]] E. rewrite E in E'. injection E' as <-. destruct HR as [W [A V]].
  assert (F : forall u, quadratic_form M u = quadrature q (fun p => vol p *
     (inner (go_dim g) (fe_gradient (fe_total f) u G p) (flux (go_dim g) (a p) (fe_gradient (fe_total f) u G p)) +
      c p * fe_fun (fe_total f) u b p ^ 2))).
  { intros u. rewrite (form_entries M _ _ u N H).
    rewrite (quad_ext q (fun p => vol p * (inner (go_dim g) (fe_gradient (fe_total f) u G p) (flux (go_dim g) (a p) (fe_gradient (fe_total f) u G p)) +
      c p * fe_fun (fe_total f) u b p ^ 2))
      (fun p => vol p * inner (go_dim g) (fe_gradient (fe_total f) u G p) (flux (go_dim g) (a p) (fe_gradient (fe_total f) u G p)) +
                vol p * (c p * fe_fun (fe_total f) u b p ^ 2))) by (intros; ring).
    rewrite quad_plus by exact W. unfold fe_gradient, fe_fun. rewrite <- (diff_form q (go_dim g) (fe_total f) vol G a u W), <- (mass_form q (fe_total f) vol b c u W).
    rewrite <- sum_to_plus. apply sum_to_ext. intros i _. rewrite <- sum_to_plus. apply sum_to_ext. intros j _.
    rewrite (quad_ext q _ (fun p => vol p * inner (go_dim g) (G i p) (flux (go_dim g) (a p) (G j p)) + vol p * (c p * b i p * b j p))) by (intros; ring).
    rewrite quad_plus by exact W. ring. }
  split; [exact F|]. split.
  - intros S i j Hi Hj. rewrite N in Hi, Hj. rewrite !H by assumption. apply quad_ext. intros p Hp. f_equal. f_equal; [apply flux_symmetric, S, Hp|ring].
  - intros NW NC N0 u. rewrite F. apply quad_nonneg; [exact W|exact NW|]. intros p Hp. apply Rmult_le_pos; [apply (vol_nonneg g vol p (V p Hp))|].
    apply Rplus_le_le_0_compat; [apply (NC p Hp)|]. apply Rmult_le_pos; [apply N0, Hp|apply pow2_ge_0].
Qed.
Lemma uload_default : forall make layout P src h, precompute_default make layout = Ok P ->
  layout (kind_el (go_kind g)) = Some f -> make (kind_el (go_kind g)) (2 * fe_degree f)%nat = Ok q ->
  dim_local (go_kind g) = 2%nat -> at_points q (value_at src h) ->
  is_vector (ULoadEval P g src) (fe_total f) (fun i => quadrature q (fun p => vol p * (h p * b i p))).
Proof.
  intros make layout P src h HP HL HQ D HC. pose proof (default_get _ _ _ _ HP (cell_el g D)) as X. rewrite HL in X.
  destruct X as [q' [pfe [E1 [E2 E3]]]]. rewrite HQ in E1. injection E1 as <-. destruct HR as [W [A V]]. eapply uload_entries; eassumption.
Qed.
Lemma uload_given : forall coll layout P src h, precompute_given true coll layout = Ok P ->
  layout (kind_el (go_kind g)) = Some f -> coll (kind_el (go_kind g)) = Some q ->
  dim_local (go_kind g) = 2%nat -> at_points q (value_at src h) ->
  is_vector (ULoadEval P g src) (fe_total f) (fun i => quadrature q (fun p => vol p * (h p * b i p))).
Proof.
  intros coll layout P src h HP HL HQ D HC. pose proof (given_get _ _ _ _ _ HP (cell_el g D)) as X. rewrite HL, HQ in X.
  destruct X as [_ [pfe [E2 E3]]]. destruct HR as [W [A V]]. eapply uload_entries; eassumption.
Qed.
Lemma edge_rule_inv : forall make layout rule pfe, precompute_edge make layout rule = Ok pfe -> layout kSegment = Some f ->
  match rule with None => make kSegment (2 * fe_degree f)%nat = Ok q | Some q' => q' = q end -> precompute f q = Ok pfe.
Proof.
  intros make layout rule pfe H HL HQ. unfold precompute_edge in H. rewrite HL in H. destruct rule as [q'|].
  - subst q'. apply bind_ok in H. destruct H as [u [_ H]]. exact H.
  - rewrite HQ in H. exact H.
Qed.
Lemma umass_edge : forall make layout rule pfe gamma c, precompute_edge make layout rule = Ok pfe -> layout kSegment = Some f ->
  match rule with None => make kSegment (2 * fe_degree f)%nat = Ok q | Some q' => q' = q end ->
  kind_el (go_kind g) = kSegment -> at_points q (value_at gamma c) ->
  is_matrix (UMassEdgeEval pfe g gamma) (fe_total f) (fun i j => quadrature q (fun p => vol p * (c p * b i p * b j p))).
Proof. intros. destruct HR as [W [A V]]. eapply umass_edge_entries; try eassumption. eapply edge_rule_inv; eassumption. Qed.
Lemma uload_edge : forall make layout rule pfe src h, precompute_edge make layout rule = Ok pfe -> layout kSegment = Some f ->
  match rule with None => make kSegment (2 * fe_degree f)%nat = Ok q | Some q' => q' = q end ->
  kind_el (go_kind g) = kSegment -> at_points q (value_at src h) ->
  is_vector (ULoadEdgeEval pfe g src) (fe_total f) (fun i => quadrature q (fun p => vol p * (h p * b i p))).
Proof. intros. destruct HR as [W [A V]]. eapply uload_edge_entries; try eassumption. eapply edge_rule_inv; eassumption. Qed.
End Cell.
Lemma rd_missing : forall P g alpha gamma make coll layout,
  (precompute_default make layout = Ok P /\ layout (kind_el (go_kind g)) = None) \/
  (precompute_given false coll layout = Ok P /\ (layout (kind_el (go_kind g)) = None \/ coll (kind_el (go_kind g)) = None)) ->
  dim_local (go_kind g) = 2%nat -> ReactionDiffusionEval P g alpha gamma = Throw.
Proof.
  intros P g alpha gamma make coll layout H D. unfold ReactionDiffusionEval.
  enough (E : pcs_get P (kind_el (go_kind g)) = None) by (rewrite E; reflexivity). destruct H as [[HP HL]|[HP HL]].
  - pose proof (default_get _ _ _ _ HP (cell_el g D)) as X. rewrite HL in X. exact X.
  - pose proof (given_get _ _ _ _ _ HP (cell_el g D)) as X. destruct HL as [HL|HL].
    + rewrite HL in X. exact X.
    + rewrite HL in X. destruct (layout (kind_el (go_kind g))); [apply X|exact X].
Qed.

(** *** The hypotheses can be met *)
Lemma data_exist : forall g f, constructed g -> exact_parallelogram g -> go_kind g = GTriaO1 \/ go_kind g = GParallelogram ->
  fe_el f = kind_el (go_kind g) -> counts f -> gradients_ok f ->
  exists vol b G, forall p, length p = 2%nat ->
    admissible g p /\ volume_at g vol p /\ shape_at f b p /\ gradient_at g f G p.
Proof.
  intros g f C Ex K Ef Co Gr.
  assert (Dl : dim_local (go_kind g) = 2%nat) by (destruct K as [-> | ->]; reflexivity).
  assert (Df : dimension (fe_el f) = 2%nat) by (rewrite Ef; destruct K as [-> | ->]; reflexivity).
  exists (fun p => match Jacobian g p with Ok J => sqrt (gramian_det (go_dim g) J) | _ => 0 end),
         (fun i p => match fe_eval f p with Ok v => nth i v 0 | _ => 0 end),
         (fun i p => match JacobianInverseGramian g p, fe_grad f p with Ok M, Ok gr => trf_grad M gr i | _, _ => vzero end).
  intros p L. assert (A : admissible g p). { split; [congruence|]. destruct K as [-> | ->]; discriminate. }
  destruct (jacobian_derivative g p A) as [J [HJ _]].
  assert (P : 0 < gramian_det (go_dim g) J) by (apply (affine_nondegenerate g p J C Ex K A HJ)).
  split; [exact A|]. split; [|split].
  - exists J. split; [exact HJ|]. rewrite HJ. reflexivity.
  - destruct (co_eval f Co p ltac:(congruence)) as [v [Ev Lv]]. exists v. rewrite Ev. auto.
  - destruct (Gr p ltac:(congruence)) as [gr [Eg _]].
    assert (ND : gramian_det (go_dim g) J <> 0) by lra.
    destruct (inverse_gramian g p J A HJ ltac:(lia) ND) as [M [HM IM]].
    exists J, gr. split; [exact HJ|]. split; [exact ND|]. split; [exact Eg|]. intros i Hi. rewrite HM, Eg.
    pose proof (jacobian_cols g p J A HJ) as LJ. rewrite Dl in LJ. apply trf_world; assumption.
Qed.

(** *** Linear elements *)
Lemma sum4 : forall h, sum_to 4 h = h 0%nat + h 1%nat + h 2%nat + h 3%nat.
Proof. intros. unfold sum_to. cbn [seq map fold_right]. ring. Qed.
Lemma laplace_tria_props : forall g M, kind_el (go_kind g) = kTria -> go_dim g = 2%nat -> constructed g ->
  polygon_area [col g 0; col g 1; col g 2] <> 0 -> LinearFELaplaceEval g = Ok M ->
  symmetric M /\ positive_semidefinite M /\ (forall i, image M (fun _ => 1) i = 0).
Proof.
  intros g M E D C N H. destruct (bary_exists (col g) N) as [c [gr B]].
  destruct (laplace_tria_ok g c gr E D C B) as [M' [E' [N4 [H1 H2]]]]. rewrite H in E'. injection E' as <-.
  assert (S : forall r, (r < 2)%nat -> gr 0%nat r + gr 1%nat r + gr 2%nat r = 0) by (apply (bary_sum _ _ _ B)).
  set (A := polygon_area [col g 0; col g 1; col g 2]) in *.
  assert (A0 : 0 <= A). { unfold A, polygon_area. apply Rmult_le_pos; [lra|apply Rabs_pos]. }
  split; [|split].
  - intros i j Hi Hj. destruct (Nat.lt_ge_cases i 3), (Nat.lt_ge_cases j 3); try (rewrite !H2 by lia; reflexivity).
    rewrite !H1 by assumption. rewrite inner_comm. reflexivity.
  - intros u. unfold quadratic_form. rewrite N4, sum4, !sum4.
    rewrite !(H1 0 0)%nat, !(H1 0 1)%nat, !(H1 0 2)%nat, !(H1 1 0)%nat, !(H1 1 1)%nat, !(H1 1 2)%nat, !(H1 2 0)%nat, !(H1 2 1)%nat, !(H1 2 2)%nat by lia.
    rewrite !(H2 0 3)%nat, !(H2 1 3)%nat, !(H2 2 3)%nat, !(H2 3 0)%nat, !(H2 3 1)%nat, !(H2 3 2)%nat, !(H2 3 3)%nat by lia.
    rewrite !inner2.
    match goal with |- 0 <= ?e => replace e with (A * ((u 0%nat * gr 0%nat 0%nat + u 1%nat * gr 1%nat 0%nat + u 2%nat * gr 2%nat 0%nat) ^ 2 +
      (u 0%nat * gr 0%nat 1%nat + u 1%nat * gr 1%nat 1%nat + u 2%nat * gr 2%nat 1%nat) ^ 2)) by ring end.
    apply Rmult_le_pos; [exact A0|]. apply Rplus_le_le_0_compat; apply pow2_ge_0.
  - intros i. unfold image. rewrite N4, sum4. destruct (Nat.lt_ge_cases i 3) as [Hi|Hi]; [|rewrite !H2 by lia; ring].
    rewrite !H1, (H2 i 3%nat) by lia. rewrite !inner2.
    pose proof (S 0%nat ltac:(lia)) as S0. pose proof (S 1%nat ltac:(lia)) as S1.
    replace (gr 2%nat 0%nat) with (- gr 0%nat 0%nat - gr 1%nat 0%nat) by lra.
    replace (gr 2%nat 1%nat) with (- gr 0%nat 1%nat - gr 1%nat 1%nat) by lra. ring.
Qed.
Lemma gauss4_nonneg : nonnegative_weights gauss4.
Proof. intros w I. cbn in I. intuition (subst w; lra). Qed.
Lemma laplace_quad_props : forall g vol G M, go_kind g = GQuadO1 \/ go_kind g = GParallelogram -> go_dim g = 2%nat -> constructed g ->
  exact_parallelogram g -> at_points gauss4 (volume_at g vol) -> at_points gauss4 (gradient_at g o1_quad G) ->
  LinearFELaplaceEval g = Ok M ->
  symmetric M /\ positive_semidefinite M /\ (forall i, (i < 4)%nat -> image M (fun _ => 1) i = 0).
Proof.
  intros g vol G M K D C Ex HV HG E.
  assert (Dl : dim_local (go_kind g) = 2%nat) by (destruct K as [-> | ->]; reflexivity).
  assert (Ek : kind_el (go_kind g) = kQuad) by (destruct K as [-> | ->]; reflexivity).
  assert (A : at_points gauss4 (admissible g)).
  { intros p I. split; [rewrite Dl; cbn in I; intuition (subst p; reflexivity)|]. destruct K as [-> | ->]; discriminate. }
  assert (R0 : rule_on gauss4 g vol) by (split; [reflexivity|split; assumption]).
  pose proof (laplace_quad_ok g vol G K D C Ex HV HG) as [M1 [E1 [N1 H1]]]. rewrite E in E1. injection E1 as <-.
  (* the same matrix as that of the general provider with this rule *)
  set (get := fun (_ : refel) (_ : nat) => Ok gauss4). set (alpha := fun _ : list R => Ok (Scal 1)).
  assert (HA : at_points gauss4 (value_at alpha (fun _ => Scal 1))) by (intros p _; reflexivity).
  pose proof (diffusion_matrix gauss4 g o1_quad vol R0 get alpha G (fun _ => Scal 1) Dl eq_refl HG HA) as [M2 [E2 [N2 H2]]].
  change (fe_total o1_quad) with 4%nat in *. rewrite D in *.
  assert (Same : forall i j, (i < 4)%nat -> (j < 4)%nat -> em_at M i j = em_at M2 i j).
  { intros i j Hi Hj. rewrite H1, H2 by assumption. apply quad_ext. intros p _. f_equal. apply inner_ext; [reflexivity|].
    intros k _. cbn [flux]. ring. }
  destruct (diffusion_props gauss4 g o1_quad vol R0 get alpha G (fun _ => Scal 1) M2 Dl eq_refl HG HA E2) as [_ [S [P I]]].
  split; [|split].
  - intros i j Hi Hj. rewrite N1 in Hi, Hj. rewrite !Same by assumption. apply S; [intros p _; exact Logic.I| |]; rewrite N2; assumption.
  - intros u. specialize (P gauss4_nonneg). assert (NC : at_points gauss4 (fun p => nonnegative_coeff (go_dim g) (Scal 1))).
    { intros p _ v. rewrite (inner_ext (go_dim g) v (flux (go_dim g) (Scal 1) v) v v); [|reflexivity|intros; cbn [flux]; ring]. rewrite inner_rsum. apply rs_nonneg. intros k _. apply Rle_0_sqr. }
    specialize (P NC u). unfold quadratic_form in *. rewrite N2 in P. rewrite N1. eapply Rle_trans; [exact P|]. right.
    apply sum_to_ext. intros i Hi. apply sum_to_ext. intros j Hj. rewrite Same by assumption. reflexivity.
  - intros i Hi. rewrite <- (I (lagrange_counts O1 kQuad) (lagrange_unity O1 kQuad) (lagrange_gradients O1 kQuad ltac:(discriminate)) (eq_sym Ek) i Hi). unfold image. rewrite N1, N2.
    apply sum_to_ext. intros j Hj. rewrite Same by assumption. reflexivity.
Qed.
