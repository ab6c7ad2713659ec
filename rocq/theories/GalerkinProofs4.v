From Coq Require Import Reals List Arith Lia Lra Bool.
Import ListNotations.
From Verif Require Import Base Scalars MeshModel MeshView DofModel DofSpec RefPatModel GeoModel GeoSpec GeoProofs3 FeModel QuadModel AssembleModel AssembleSpec
  FeSpec FeProofs QuadSpec ElemModel ElemSpec ElemProofs ElemProofs2 ElemProofs3 ElemProofs7 FeToolsModel FeToolsSpec FeToolsProofs GalerkinModel GalerkinSpec GalerkinProofs GalerkinProofs2 GalerkinProofs3.
Local Open Scope R_scope.

Lemma matrix_weaken : forall V r (a a' : list R -> list R -> R -> Prop),
  (forall u v x, length u = NumDofs (sp_dofs V) -> length v = NumDofs (sp_dofs V) -> a' u v x -> a u v x) -> galerkin_matrix V r a -> galerkin_matrix V r a'.
Proof. intros V r a a' H (A & D & E & M & F). exists A, D. split; [exact E|]. split; [exact M|]. intros. apply F; auto. Qed.
Lemma over_plus : forall es F G, sum_over es (fun e => F e + G e) = sum_over es F + sum_over es G.
Proof. intros es F G. exact (rs_plus F G es). Qed.

Section Galerkin.
Variable (V : fe_space) (geom : ent -> geo) (get : refel -> nat -> res quadrule) (q : ent -> quadrule) (vol : ent -> list R -> R) (codim : nat) (sel : ent -> bool).
Let es := filter sel (entities (sp_mesh V) codim).
Let N := NumDofs (sp_dofs V).
Hypothesis (Pr : prepared V geom get q vol es).
Let assemble := AssembleMatrixWith (sp_mesh V) codim (sp_dofs V) (sp_dofs V) sel.
Let assemble_vec := AssembleVectorWith (sp_mesh V) codim (sp_dofs V) sel.

Lemma form_diffusion : forall eval a, of_dim geom 2 es -> regular V geom q es ->
  (forall e, In e es -> ElemSpec.is_matrix (eval e) (fe_total (el_of V e))
     (fun i j => quadrature (q e) (fun p => vol e p * inner (go_dim (geom e)) (grads (geom e) (el_of V e) i p) (flux (go_dim (geom e)) (a e p) (grads (geom e) (el_of V e) j p))))) ->
  galerkin_matrix V (assemble eval) (diffusion_form V geom q vol es a).
Proof.
  intros eval a Dim Reg HM.
  apply (matrix_weaken V _ _ (diffusion_form V geom q vol es a)) with
    (2 := bilinear_assembled V geom get q vol sel codim Pr eval _ (fun GU U GW W e p => vol e p * inner (go_dim (geom e)) (GW e p) (flux (go_dim (geom e)) (a e p) (GU e p))) true HM
     (fun u v GU U GW W e p Lu Lv HU _ HW _ I Ip => diffusion_bilinear (go_dim (geom e)) (a e p) _ _ _ (fun i => grads (geom e) (el_of V e) i p) (vol e p) (GW e p) (GU e p)
        (gradients_sum V geom get q vol sel codim Pr Dim Reg v GW e Lv (HW eq_refl) I p Ip)
        (gradients_sum V geom get q vol sel codim Pr Dim Reg u GU e Lu (HU eq_refl) I p Ip))).
  intros u v x Lu Lv (GU & GW & H1 & H2 & ->).
  destruct (values_exist V geom get q vol sel codim Pr u Lu) as [U HU]. destruct (values_exist V geom get q vol sel codim Pr v Lv) as [W HW].
  exists GU, U, GW, W. auto.
Qed.
Lemma form_mass : forall eval c,
  (forall e, In e es -> ElemSpec.is_matrix (eval e) (fe_total (el_of V e))
     (fun i j => quadrature (q e) (fun p => vol e p * (c e p * shapes (el_of V e) i p * shapes (el_of V e) j p)))) ->
  galerkin_matrix V (assemble eval) (mass_form V q vol es c).
Proof.
  intros eval c HM.
  apply (matrix_weaken V _ _ (mass_form V q vol es c)) with
    (2 := bilinear_assembled V geom get q vol sel codim Pr eval _ (fun GU U GW W e p => vol e p * (c e p * W e p * U e p)) false HM
     (fun u v GU U GW W e p Lu Lv _ HU _ HW I Ip => eq_trans (mass_bilinear (c e p) _ _ _ (fun i => shapes (el_of V e) i p) (vol e p))
        (f_equal2 (fun y x => vol e p * (c e p * y * x)) (eq_sym (values_sum V geom get q vol sel codim Pr v W e Lv HW I p Ip))
            (eq_sym (values_sum V geom get q vol sel codim Pr u U e Lu HU I p Ip))))).
  intros u v x Lu Lv (U & W & H1 & H2 & ->). exists (fun _ _ => vzero), U, (fun _ _ => vzero), W.
  split; [discriminate|]. split; [assumption|]. split; [discriminate|]. auto.
Qed.
Lemma form_both : forall eval a c, of_dim geom 2 es -> regular V geom q es ->
  (forall e, In e es -> ElemSpec.is_matrix (eval e) (fe_total (el_of V e))
     (fun i j => quadrature (q e) (fun p => vol e p * (inner (go_dim (geom e)) (grads (geom e) (el_of V e) i p) (flux (go_dim (geom e)) (a e p) (grads (geom e) (el_of V e) j p)) +
        c e p * shapes (el_of V e) i p * shapes (el_of V e) j p)))) ->
  galerkin_matrix V (assemble eval) (sum_form (diffusion_form V geom q vol es a) (mass_form V q vol es c)).
Proof.
  intros eval a c Dim Reg HM.
  pose proof (bilinear_assembled V geom get q vol sel codim Pr eval _
    (fun GU U GW W e p => vol e p * inner (go_dim (geom e)) (GW e p) (flux (go_dim (geom e)) (a e p) (GU e p)) + vol e p * (c e p * W e p * U e p)) true HM) as B.
  eapply matrix_weaken; [|apply B].
  - intros u v x Lu Lv (y & z & (GU & GW & H1 & H2 & ->) & (U & W & H3 & H4 & ->) & ->). exists GU, U, GW, W.
    split; [auto|]. split; [exact H3|]. split; [auto|]. split; [exact H4|]. rewrite <- over_plus. apply over_ext. intros e I.
    symmetry. apply quad_plus. apply (weights_ok V geom get q vol sel codim Pr e I).
  - intros u v GU U GW W e p Lu Lv HU HV HW HX I Ip.
    pose proof (diffusion_bilinear (go_dim (geom e)) (a e p) _ _ _ (fun i => grads (geom e) (el_of V e) i p) (vol e p) (GW e p) (GU e p)
        (gradients_sum V geom get q vol sel codim Pr Dim Reg v GW e Lv (HW eq_refl) I p Ip)
        (gradients_sum V geom get q vol sel codim Pr Dim Reg u GU e Lu (HU eq_refl) I p Ip)) as E1.
    pose proof (mass_bilinear (c e p) (length (idx_of V e)) (loc (idx_of V e) v) (loc (idx_of V e) u) (fun i => shapes (el_of V e) i p) (vol e p)) as E2.
    cbv beta in E1, E2. rewrite <- (values_sum V geom get q vol sel codim Pr v W e Lv HX I p Ip), <- (values_sum V geom get q vol sel codim Pr u U e Lu HV I p Ip) in E2.
    rewrite <- E1, <- E2, <- sum_to_plus. apply sum_to_ext. intros i _. rewrite <- Rmult_plus_distr_l, <- sum_to_plus. f_equal. apply sum_to_ext. intros j _. ring.
Qed.
Lemma form_load : forall eval h,
  (forall e, In e es -> is_vector (eval e) (fe_total (el_of V e)) (fun i => quadrature (q e) (fun p => vol e p * (h e p * shapes (el_of V e) i p)))) ->
  galerkin_vector V (assemble_vec eval) (load_form V q vol es h).
Proof.
  intros eval h HM. apply (linear_assembled V geom get q vol sel codim Pr eval _ (fun W e p => vol e p * (h e p * W e p)) HM).
  intros v W e p Lv HW I Ip. rewrite (values_sum V geom get q vol sel codim Pr v W e Lv HW I p Ip), <- !sum_to_scal. apply sum_to_ext. intros. ring.
Qed.

Ltac entity e I := destruct (prepared_el V geom get q vol sel codim Pr e I) as (?l & ?El & _ & ?Lo & ?Eq & ?At).
Lemma prepared_shapes : forall e, In e es -> at_points (q e) (shape_at (el_of V e) (shapes (el_of V e))).
Proof. intros e I p Ip. entity e I. apply shapes_at, At, Ip. Qed.

Lemma diffusion_assembled : forall alpha a, of_dim geom 2 es -> regular V geom q es -> given_by alpha a q es ->
  galerkin_matrix V (assemble (diffusion_provider get V geom alpha)) (diffusion_form V geom q vol es a).
Proof.
  intros alpha a Dim Reg Gv. apply form_diffusion; [exact Dim|exact Reg|]. intros e I. entity e I.
  unfold diffusion_provider, on_layout. rewrite Lo.
  apply diffusion_matrix; [apply (pr_rule _ _ _ _ _ _ Pr e I)|apply Dim, I|exact Eq|apply (prepared_grads V geom get q vol sel codim Pr Dim Reg e I)|apply Gv, I].
Qed.
Lemma mass_assembled : forall gamma c, of_dim geom 2 es -> given_by gamma c q es ->
  galerkin_matrix V (assemble (mass_provider get V geom gamma)) (mass_form V q vol es c).
Proof.
  intros gamma c Dim Gv. apply form_mass. intros e I. entity e I. unfold mass_provider, on_layout. rewrite Lo.
  apply mass_matrix; [apply (pr_rule _ _ _ _ _ _ Pr e I)|apply prepared_shapes, I|apply Dim, I|exact Eq|apply Gv, I].
Qed.
Lemma mass_edge_assembled : forall gamma c, given_by gamma c q es ->
  galerkin_matrix V (assemble (mass_edge_provider get V geom gamma)) (mass_form V q vol es c).
Proof.
  intros gamma c Gv. apply form_mass. intros e I. entity e I. unfold mass_edge_provider, on_layout. rewrite Lo.
  apply mass_edge_matrix; [apply (pr_rule _ _ _ _ _ _ Pr e I)|apply prepared_shapes, I|exact Eq|apply Gv, I].
Qed.
Lemma load_assembled : forall src h, of_dim geom 2 es -> given_by src h q es ->
  galerkin_vector V (assemble_vec (load_provider get V geom src)) (load_form V q vol es h).
Proof.
  intros src h Dim Gv. apply form_load. intros e I. entity e I. unfold load_provider, on_layout. rewrite Lo.
  apply load_vector; [apply (pr_rule _ _ _ _ _ _ Pr e I)|apply prepared_shapes, I|apply Dim, I|exact Eq|apply Gv, I].
Qed.
Lemma load_edge_assembled : forall src h, of_dim geom 1 es -> given_by src h q es ->
  galerkin_vector V (assemble_vec (load_edge_provider get V geom src)) (load_form V q vol es h).
Proof.
  intros src h Dim Gv. apply form_load. intros e I. entity e I. unfold load_edge_provider, on_layout. rewrite Lo.
  apply load_edge_vector; [apply (pr_rule _ _ _ _ _ _ Pr e I)|apply prepared_shapes, I|apply Dim, I|exact Eq|apply Gv, I].
Qed.
End Galerkin.

(** *** lf::uscalfe *)
Ltac entity2 Pr e I := destruct (prepared_el _ _ _ _ _ _ _ Pr e I) as (?l & ?El & _ & ?Lo & ?Eq & ?At).
Lemma layout_of : forall V geom get q vol es layout e f, prepared V geom get q vol es -> uniform_layout V layout -> In e es -> sp_layout V e = Some f ->
  layout (kind_el (go_kind (geom e))) = Some f.
Proof. intros V geom get q vol es layout e f Pr U I E. rewrite (pr_shape _ _ _ _ _ _ Pr e I), <- U. exact E. Qed.
Lemma rd_assembled : forall V geom make q vol codim sel layout P alpha gamma a c, let es := filter sel (entities (sp_mesh V) codim) in
  prepared V geom make q vol es -> uniform_layout V layout -> precompute_default make layout = Ok P ->
  of_dim geom 2 es -> regular V geom q es -> given_by alpha a q es -> given_by gamma c q es ->
  galerkin_matrix V (AssembleMatrixWith (sp_mesh V) codim (sp_dofs V) (sp_dofs V) sel (rd_provider P geom alpha gamma))
    (sum_form (diffusion_form V geom q vol es a) (mass_form V q vol es c)).
Proof.
  intros V geom make q vol codim sel layout P alpha gamma a c es Pr Un EP Dim Reg Ga Gc.
  apply (form_both V geom make q vol codim sel Pr); [exact Dim|exact Reg|]. intros e I. entity2 Pr e I.
  eapply rd_default; [apply (pr_rule _ _ _ _ _ _ Pr e I)|apply (prepared_shapes V geom make q vol codim sel Pr e I)|exact EP|exact (layout_of _ _ _ _ _ _ _ _ _ Pr Un I Lo)|
    exact Eq|apply Dim, I|apply (prepared_grads V geom make q vol sel codim Pr Dim Reg e I)|apply Ga, I|apply Gc, I].
Qed.
Lemma chosen_inv : forall coll t n r, chosen coll t n = Ok r -> coll t = Some r.
Proof. intros coll t n r. unfold chosen. destruct (coll t); intros H; [injection H as ->; reflexivity|discriminate]. Qed.
Lemma rd_given_assembled : forall V geom coll q vol codim sel layout P alpha gamma a c, let es := filter sel (entities (sp_mesh V) codim) in
  prepared V geom (chosen coll) q vol es -> uniform_layout V layout -> precompute_given false coll layout = Ok P ->
  of_dim geom 2 es -> regular V geom q es -> given_by alpha a q es -> given_by gamma c q es ->
  galerkin_matrix V (AssembleMatrixWith (sp_mesh V) codim (sp_dofs V) (sp_dofs V) sel (rd_provider P geom alpha gamma))
    (sum_form (diffusion_form V geom q vol es a) (mass_form V q vol es c)).
Proof.
  intros V geom coll q vol codim sel layout P alpha gamma a c es Pr Un EP Dim Reg Ga Gc.
  apply (form_both V geom (chosen coll) q vol codim sel Pr); [exact Dim|exact Reg|]. intros e I. entity2 Pr e I.
  eapply rd_given; [apply (pr_rule _ _ _ _ _ _ Pr e I)|apply (prepared_shapes V geom _ q vol codim sel Pr e I)|exact EP|exact (layout_of _ _ _ _ _ _ _ _ _ Pr Un I Lo)|
    exact (chosen_inv _ _ _ _ Eq)|apply Dim, I|apply (prepared_grads V geom _ q vol sel codim Pr Dim Reg e I)|apply Ga, I|apply Gc, I].
Qed.
Lemma uload_assembled : forall V geom make q vol codim sel layout P src h, let es := filter sel (entities (sp_mesh V) codim) in
  prepared V geom make q vol es -> uniform_layout V layout -> precompute_default make layout = Ok P ->
  of_dim geom 2 es -> given_by src h q es ->
  galerkin_vector V (AssembleVectorWith (sp_mesh V) codim (sp_dofs V) sel (uload_provider P geom src)) (load_form V q vol es h).
Proof.
  intros V geom make q vol codim sel layout P src h es Pr Un EP Dim Gh. apply (form_load V geom make q vol codim sel Pr). intros e I. entity2 Pr e I.
  eapply uload_default; [apply (pr_rule _ _ _ _ _ _ Pr e I)|apply (prepared_shapes V geom make q vol codim sel Pr e I)|exact EP|exact (layout_of _ _ _ _ _ _ _ _ _ Pr Un I Lo)|
    exact Eq|apply Dim, I|apply Gh, I].
Qed.
Lemma uload_given_assembled : forall V geom coll q vol codim sel layout P src h, let es := filter sel (entities (sp_mesh V) codim) in
  prepared V geom (chosen coll) q vol es -> uniform_layout V layout -> precompute_given true coll layout = Ok P ->
  of_dim geom 2 es -> given_by src h q es ->
  galerkin_vector V (AssembleVectorWith (sp_mesh V) codim (sp_dofs V) sel (uload_provider P geom src)) (load_form V q vol es h).
Proof.
  intros V geom coll q vol codim sel layout P src h es Pr Un EP Dim Gh. apply (form_load V geom (chosen coll) q vol codim sel Pr). intros e I. entity2 Pr e I.
  eapply uload_given; [apply (pr_rule _ _ _ _ _ _ Pr e I)|apply (prepared_shapes V geom _ q vol codim sel Pr e I)|exact EP|exact (layout_of _ _ _ _ _ _ _ _ _ Pr Un I Lo)|
    exact (chosen_inv _ _ _ _ Eq)|apply Dim, I|apply Gh, I].
Qed.
Lemma seg_kind : forall g, dim_local (go_kind g) = 1%nat -> kind_el (go_kind g) = kSegment.
Proof. intros g H. destruct (go_kind g); try discriminate H; reflexivity. Qed.
Lemma umass_edge_assembled : forall V geom make rule q vol codim sel layout pfe gamma c, let es := filter sel (entities (sp_mesh V) codim) in
  prepared V geom (edge_rule make rule) q vol es -> uniform_layout V layout -> precompute_edge make layout rule = Ok pfe ->
  of_dim geom 1 es -> given_by gamma c q es ->
  galerkin_matrix V (AssembleMatrixWith (sp_mesh V) codim (sp_dofs V) (sp_dofs V) sel (umass_edge_provider pfe geom gamma)) (mass_form V q vol es c).
Proof.
  intros V geom make rule q vol codim sel layout pfe gamma c es Pr Un EP Dim Gh. apply (form_mass V geom _ q vol codim sel Pr). intros e I. entity2 Pr e I.
  pose proof (seg_kind _ (Dim e I)) as K. pose proof (layout_of _ _ _ _ _ _ _ _ _ Pr Un I Lo) as Ly. rewrite K in Ly, Eq.
  eapply umass_edge; [apply (pr_rule _ _ _ _ _ _ Pr e I)|apply (prepared_shapes V geom _ q vol codim sel Pr e I)|exact EP|exact Ly| |exact K|apply Gh, I].
  unfold edge_rule in Eq. destruct rule; [injection Eq as ->; reflexivity|exact Eq].
Qed.
Lemma uload_edge_assembled : forall V geom make rule q vol codim sel layout pfe src h, let es := filter sel (entities (sp_mesh V) codim) in
  prepared V geom (edge_rule make rule) q vol es -> uniform_layout V layout -> precompute_edge make layout rule = Ok pfe ->
  of_dim geom 1 es -> given_by src h q es ->
  galerkin_vector V (AssembleVectorWith (sp_mesh V) codim (sp_dofs V) sel (uload_edge_provider pfe geom src)) (load_form V q vol es h).
Proof.
  intros V geom make rule q vol codim sel layout pfe gamma c es Pr Un EP Dim Gh. apply (form_load V geom _ q vol codim sel Pr). intros e I. entity2 Pr e I.
  pose proof (seg_kind _ (Dim e I)) as K. pose proof (layout_of _ _ _ _ _ _ _ _ _ Pr Un I Lo) as Ly. rewrite K in Ly, Eq.
  eapply uload_edge; [apply (pr_rule _ _ _ _ _ _ Pr e I)|apply (prepared_shapes V geom _ q vol codim sel Pr e I)|exact EP|exact Ly| |exact K|apply Gh, I].
  unfold edge_rule in Eq. destruct rule; [injection Eq as ->; reflexivity|exact Eq].
Qed.
