(** Proofs for C76: rules that settle an element, unique solutions. *)
From Coq Require Import Reals List Arith Lia Lra Bool.
Import ListNotations.
From Verif Require Import Base Scalars MeshModel MeshView DofModel DofSpec DofProofs4 RefPatModel GeoModel GeoSpec GeoProofs GeoProofs3 FeModel LagrModel QuadModel AssembleModel AssembleSpec AssembleProofs
  FeSpec FeProofs LagrProofs LagrProofs2 LagrProofs3 HierSpec HierProofs QuadSpec ElemModel ElemSpec ElemProofs ElemProofs2 ElemProofs3 ElemProofs7 FeToolsModel FeToolsSpec FeToolsProofs FeToolsProofs2 TransferProofs3 ProlongSpec ProlongProofs ProlongProofs2
  GalerkinModel GalerkinSpec GalerkinProofs GalerkinProofs2 GalerkinProofs3 GalerkinProofs4 GalerkinProofs5 GalerkinProofs6 GalerkinProofs7 GalerkinProofs8 GalerkinProofs9 GalerkinProofs10 GalerkinProofs11 GalerkinProofs13 DirichletSpec.
From Verif Require FisherProofs8.
Local Open Scope R_scope.

Lemma over_zero : forall (es : list ent) F, (forall e, In e es -> 0 <= F e) -> sum_over es F = 0 -> forall e, In e es -> F e = 0.
Proof.
  intros es F. unfold sum_over. induction es as [|x es IH]; intros P H e I; [destruct I|]. cbn [map fold_right] in H.
  pose proof (P x (or_introl eq_refl)). assert (Q : 0 <= sum_over es F) by (apply over_nonneg; intros y Iy; apply P; right; exact Iy). unfold sum_over in Q.
  destruct I as [<-|I]; [lra|]. apply IH; [intros y Iy; apply P; right; exact Iy|lra|exact I].
Qed.
Lemma rsum_zero : forall A (F : A -> R) l, (forall x, In x l -> 0 <= F x) -> rsum (map F l) = 0 -> forall x, In x l -> F x = 0.
Proof.
  intros A F l. induction l as [|y l IH]; intros P H x I; [destruct I|]. cbn [map] in H. change (F y + rsum (map F l) = 0) in H.
  pose proof (P y (or_introl eq_refl)). assert (Q : 0 <= rsum (map F l)) by (apply rs_nonneg; intros z Iz; apply P; right; exact Iz).
  destruct I as [<-|I]; [lra|]. apply IH; [intros z Iz; apply P; right; exact Iz|lra|exact I].
Qed.
(** A rule that gives zero for a function that is not negative: the function is zero at the
    points with positive weights. *)
Lemma quad_zero : forall q F, length (qr_weights q) = length (qr_points q) -> nonnegative_weights q -> (forall p, In p (qr_points q) -> 0 <= F p) -> quadrature q F = 0 ->
  forall j p w, nth_error (qr_points q) j = Some p -> nth_error (qr_weights q) j = Some w -> 0 < w -> F p = 0.
Proof.
  intros q F L NW NF H j p w Ep Ew Pw. rewrite (quad_idx q F L) in H. assert (Hj : (j < length (qr_points q))%nat) by (apply nth_error_Some; congruence).
  assert (Z : nth j (qr_weights q) 0 * F (nth j (qr_points q) []) = 0).
  { refine (rsum_zero nat (fun k => nth k (qr_weights q) 0 * F (nth k (qr_points q) [])) (seq 0 (NumPoints q)) _ H j _).
    - intros k Hk. apply in_seq in Hk. unfold NumPoints in Hk. apply Rmult_le_pos; [apply NW|apply NF]; apply nth_In; lia.
    - apply in_seq. unfold NumPoints. lia. }
  rewrite (nth_error_nth _ _ _ Ep), (nth_error_nth _ _ _ Ew) in Z. apply Rmult_integral in Z as [Z|Z]; [lra|exact Z].
Qed.
Lemma volume_pos : forall g vol p, volume_at g vol p -> nondegenerate g p -> 0 < vol p.
Proof.
  intros g vol p (J & HJ & ->) (J' & HJ' & ND). rewrite HJ in HJ'. injection HJ' as <-. apply sqrt_lt_R0.
  pose proof (FisherProofs8.gramian_nonneg (go_dim g) J). lra.
Qed.
(** Energy zero: the gradient vanishes at the points with positive weights. *)
Lemma diffusion_zero : forall V geom get q vol es a u, prepared V geom get q vol es ->
  (forall e, In e es -> nonnegative_weights (q e)) -> (forall e p, In e es -> In p (qr_points (q e)) -> nondegenerate (geom e) p) ->
  (forall e p, In e es -> In p (qr_points (q e)) -> positive_coeff (go_dim (geom e)) (a e p)) ->
  forall x, diffusion_form V geom q vol es a u u x -> 0 <= x /\ (x = 0 -> forall e j p w, In e es -> nth_error (qr_points (q e)) j = Some p -> nth_error (qr_weights (q e)) j = Some w -> 0 < w ->
    exists g, fe_grad_value V geom u e p = Ok g /\ forall k, (k < go_dim (geom e))%nat -> g k = 0).
Proof.
  intros V geom get q vol es a u Pr NW ND PC x (U & X & HU & HX & ->).
  assert (IN : forall e p, In e es -> In p (qr_points (q e)) -> inner (go_dim (geom e)) (X e p) (flux (go_dim (geom e)) (a e p) (U e p)) =
    inner (go_dim (geom e)) (U e p) (flux (go_dim (geom e)) (a e p) (U e p))).
  { intros e p Ie Ip. apply inner_ext; [|reflexivity]. intros k Hk. exact (gradients_agree V geom u q es X U e p k HX HU Ie Ip Hk). }
  assert (NC : forall e p, In e es -> In p (qr_points (q e)) -> 0 <= inner (go_dim (geom e)) (X e p) (flux (go_dim (geom e)) (a e p) (U e p)) /\
    (inner (go_dim (geom e)) (X e p) (flux (go_dim (geom e)) (a e p) (U e p)) = 0 -> forall k, (k < go_dim (geom e))%nat -> U e p k = 0)).
  { intros e p Ie Ip. rewrite (IN e p Ie Ip).
    assert (D : (forall k, (k < go_dim (geom e))%nat -> U e p k = 0) \/ exists k, (k < go_dim (geom e))%nat /\ U e p k <> 0).
    { induction (go_dim (geom e)) as [|n IHn]; [left; intros; lia|]. destruct IHn as [A|(k & Hk & A)]; [|right; exists k; split; [lia|exact A]].
      destruct (Req_dec (U e p n) 0) as [E|E]; [left; intros k Hk; destruct (Nat.eq_dec k n) as [-> |]; [exact E|apply A; lia]|right; exists n; split; [lia|exact E]]. }
    destruct D as [D|(k & Hk & D)].
    - split; [|intros _; exact D]. rewrite (inner_ext _ (U e p) (flux (go_dim (geom e)) (a e p) (U e p)) (fun _ => 0) (flux (go_dim (geom e)) (a e p) (U e p)) D ltac:(reflexivity)).
      rewrite inner_rsum. apply rs_nonneg. intros; lra.
    - pose proof (PC e p Ie Ip (U e p) k Hk D). split; [lra|intros E; lra]. }
  assert (NN : forall e, In e es -> 0 <= quadrature (q e) (fun p => vol e p * inner (go_dim (geom e)) (X e p) (flux (go_dim (geom e)) (a e p) (U e p)))).
  { intros e Ie. destruct (pr_rule _ _ _ _ _ _ Pr e Ie) as (Lw & _ & Vl). apply quad_nonneg; [exact Lw|apply NW, Ie|]. intros p Ip.
    apply Rmult_le_pos; [eapply vol_nonneg, Vl, Ip|apply NC; assumption]. }
  split; [apply over_nonneg, NN|]. intros Z e j p w Ie Ep Ew Pw. pose proof (over_zero es _ NN Z e Ie) as Ze. cbv beta in Ze.
  destruct (pr_rule _ _ _ _ _ _ Pr e Ie) as (Lw & _ & Vl). pose proof (nth_error_In _ _ Ep) as Ip.
  pose proof (quad_zero (q e) _ Lw (NW e Ie) (fun p Ip => Rmult_le_pos _ _ (vol_nonneg _ _ _ (Vl p Ip)) (proj1 (NC e p Ie Ip))) Ze j p w Ep Ew Pw) as Zp. cbv beta in Zp.
  pose proof (volume_pos _ _ _ (Vl p Ip) (ND e p Ie Ip)) as PV. apply Rmult_integral in Zp as [Zp|Zp]; [lra|].
  destruct (HU e Ie p Ip) as (x & Ex & Hx). exists x. split; [exact Ex|]. intros k Hk. rewrite (Hx k Hk). apply (proj2 (NC e p Ie Ip) Zp k Hk).
Qed.

(** A function whose gradient in world coordinates vanishes has derivatives zero. *)
Lemma flat_at : forall V geom u e f l p w gr, element_of V e f l -> length u = NumDofs (sp_dofs V) -> dim_local (go_kind (geom e)) = 2%nat ->
  kind_el (go_kind (geom e)) = ent_type (sp_mesh V) e -> admissible (geom e) p -> nondegenerate (geom e) p -> fe_grad f p = Ok gr -> length gr = fe_total f ->
  fe_grad_value V geom u e p = Ok w -> (forall k, (k < go_dim (geom e))%nat -> w k = 0) ->
  forall c, (c < 2)%nat -> sum_to (fe_total f) (fun i => loc l u i * nth c (nth i gr []) 0) = 0.
Proof.
  intros V geom u e f l p w gr El Lu D2 Kt Ad (J & HJ & ND) Eg Lg Ew Zw c Hc.
  destruct (inverse_gramian (geom e) p J Ad HJ ltac:(lia) ND) as (M & EM & IG). pose proof (jacobian_cols (geom e) p J Ad HJ) as LJ.
  assert (LM : length M = 2%nat) by (destruct IG as (Q & _); lia).
  assert (DM : dimension (ent_type (sp_mesh V) e) = 2%nat) by (rewrite <- Kt, <- D2; destruct (go_kind (geom e)); reflexivity).
  destruct (grad_sum V geom e f l u El Lu p gr M Eg Lg EM) as (w' & Ew' & Hw); [rewrite DM; exact LM|].
  rewrite Ew in Ew'. injection Ew' as <-.
  set (r := fun c => sum_to (fe_total f) (fun i => loc l u i * nth c (nth i gr []) 0)) in *.
  assert (WG : world_gradient (go_dim (geom e)) J [r 0%nat; r 1%nat] w).
  { apply (world_any _ J M); [right; lia|exact ND|exact IG|]. intros k. rewrite Hw, LM. reflexivity. }
  destruct WG as (WG & _). specialize (WG c ltac:(lia)). assert (Z : inner (go_dim (geom e)) (nth c J vzero) w = 0).
  { rewrite inner_rsum. apply sum_all_zero. intros k Hk. apply in_seq in Hk. rewrite Zw by lia. ring. }
  rewrite Z in WG. destruct c as [|[|c]]; [symmetry; exact WG|symmetry; exact WG|lia].
Qed.

Section Spaces.
Variables (k : order) (m : mesh) (V : fe_space).
Hypothesis W : wf_mesh m.
Hypothesis EV : lagrange_space k m = Ok V.
Let d := lagrange_dofs k m.

(** The coefficient at a node. *)
Lemma node_dof : forall v, (v < mv_nodes m)%nat -> exists g, own d (ENode v) [g].
Proof.
  intros v Hv. destruct (pa_own _ _ _ (Pd k m W) (ENode v) Hv) as (l & O & L & _). destruct l as [|g [|]]; try discriminate L. exists g. exact O.
Qed.
(** All coefficients of a cell agree. *)
Definition level_on (u : list R) (i : nat) : Prop := forall l g g', has_dofs V (ECell i) l -> In g l -> In g' l -> nth g u 0 = nth g' u 0.
Lemma node_of_cell : forall i c v g l, nth_error (mv_cells m) i = Some c -> In v (cv_nodes c) -> own d (ENode v) [g] -> has_dofs V (ECell i) l -> In g l.
Proof.
  intros i c v g l Hc Iv O HD. destruct (V_is k m V EV) as (VM & VD & VL). unfold has_dofs in HD. rewrite VD in HD.
  destruct (ca_cell _ _ _ (Cd k m W) i c Hc) as (lv & le & lo & Fv & _ & _ & _ & G). rewrite G in HD. injection HD as <-. apply in_app_iff. left. apply in_concat.
  clear - Fv Iv O. induction Fv as [|x y xs ys H F IH]; [destruct Iv|]. destruct Iv as [<-|Iv]; [|destruct (IH Iv) as (z & Iz & Ig); exists z; split; [right; exact Iz|exact Ig]].
  exists y. split; [left; reflexivity|]. rewrite (own_fun _ _ _ _ H O). left. reflexivity.
Qed.
Lemma held_zero : forall u sel, length u = NumDofs (sp_dofs V) -> vanishes_on V u sel -> (forall i, (i < length (mv_cells m))%nat -> level_on u i) ->
  forall v, held m sel v -> forall g, own d (ENode v) [g] -> nth g u 0 = 0.
Proof.
  intros u sel Lu Va LV. destruct (V_is k m V EV) as (VM & VD & VL).
  assert (T : forall i a b, nth_error (mv_edges m) i = Some (a, b) -> sel (EEdge i) = true -> forall g, own d (ENode a) [g] \/ own d (ENode b) [g] -> nth g u 0 = 0).
  { intros i a b E S g O. assert (Ie : In (EEdge i) (entities (sp_mesh V) 1)) by (rewrite VM; cbn; apply in_map, in_seq; assert (i < length (mv_edges m))%nat by (apply nth_error_Some; congruence); cbn; lia).
    assert (TY : forall e, In e (entities m 1) -> ent_type m e = kSegment) by (intros e Ie'; destruct (in_edges m e Ie') as (j & -> & _); reflexivity).
    refine (proj1 (vanish_dofs V sel _ _ _ u Lu) Va (EEdge i) g Ie S _).
    - intros e Ie' _. rewrite VM in Ie'. apply (lagrange_elements k m V W EV). exact Ie'.
    - intros e f x Ie' _ Lo Hx. rewrite VM in Ie', Hx. rewrite VL in Lo. injection Lo as <-. destruct (lagrange_describes k (ent_type m e)) as (EL & _ & CO & _).
      apply (co_eval _ CO x). rewrite EL, (in_ref_length _ _ Hx), (TY e Ie'). reflexivity.
    - intros e f p Ie' _ Lo Ip. rewrite VM in *. rewrite VL in Lo. injection Lo as <-. rewrite (TY e Ie') in *. eapply segment_nodes_in; eauto.
    - destruct (ca_edge _ _ _ (Cd k m W) i a b E) as (la & lb & l & Oa & Ob & _ & G). exists (la ++ lb ++ l). split; [unfold has_dofs; rewrite VD; exact G|].
      destruct O as [O|O]; [rewrite (own_fun _ _ _ _ Oa O)|rewrite (own_fun _ _ _ _ Ob O)]; rewrite !in_app_iff; cbn; auto. }
  intros v H. induction H as [i a b E S|i a b E S|c v v' Ic Iv Iv' Hv IH]; intros g O.
  - apply (T i a b E S g). auto.
  - apply (T i a b E S g). auto.
  - assert (Vv : (v < mv_nodes m)%nat) by (pose proof (proj1 (Forall_forall _ _) (wm_cells _ W) c Ic) as Wc; apply (proj1 (Forall_forall _ _) (wc_nodes _ _ Wc) v Iv)).
    destruct (node_dof v Vv) as (g0 & O0). apply In_nth_error in Ic as (i & Hi). assert (Li : (i < length (mv_cells m))%nat) by (apply nth_error_Some; congruence).
    destruct (lagrange_element k m V W EV 0 (ECell i) (or_introl eq_refl)) as (l & El); [cbn; apply in_map, in_seq; cbn; lia|].
    rewrite (LV i Li l g g0 (eo_dofs _ _ _ _ El)); [apply IH, O0| |].
    + exact (node_of_cell i c v' g l Hi Iv' O (eo_dofs _ _ _ _ El)).
    + exact (node_of_cell i c v g0 l Hi Iv O0 (eo_dofs _ _ _ _ El)).
Qed.
Lemma held_all : forall u sel, length u = NumDofs (sp_dofs V) -> vanishes_on V u sel -> (forall i, (i < length (mv_cells m))%nat -> level_on u i) -> complete_mesh m -> all_held m sel ->
  u = repeat 0 (NumDofs (sp_dofs V)).
Proof.
  intros u sel Lu Va LV CM AH. destruct (V_is k m V EV) as (VM & VD & VL). apply same_lists; [rewrite repeat_length; exact Lu|]. intros x Hx. rewrite nth_repeat.
  destruct (lagrange_elements k m V W EV) as (_ & _ & _ & _ & TO). destruct (TO CM x ltac:(rewrite <- Lu; exact Hx)) as (e & Ie & l & HD & Ix).
  destruct (in_cells m e Ie) as (i & c & -> & Hc). pose proof (proj1 (Forall_forall _ _) (wm_cells _ W) c (nth_error_In _ _ Hc)) as Wc. pose proof (wc_nodes _ _ Wc) as Vn. rewrite Forall_forall in Vn.
  assert (NE : exists v, In v (cv_nodes c)) by (destruct (cv_nodes c) as [|v vs] eqn:E; [destruct (wc_shape _ _ Wc) as [Q|Q]; rewrite E in Q; discriminate Q|exists v; left; reflexivity]).
  destruct NE as (v & Iv). destruct (node_dof v (Vn v Iv)) as (g & O).
  rewrite (LV i ltac:(apply nth_error_Some; congruence) l x g HD Ix (node_of_cell i c v g l Hc Iv O HD)). exact (held_zero u sel Lu Va LV v (AH v (Vn v Iv)) g O).
Qed.
End Spaces.

(** - div (a grad u) + c u = h with boundary values g: exactly one solution. *)
Theorem settled_problem : forall k m V geom make P q bd g alpha gamma src a c h, let es := filter (fun _ => true) (entities (sp_mesh V) 0) in
  wf_mesh m -> complete_mesh m -> all_held m bd -> lagrange_space k m = Ok V -> continuous_function m g -> precompute_default make (fun t => Some (lagrange k t)) = Ok P ->
  (forall e, In e es -> kind_el (go_kind (geom e)) = ent_type m e /\ make (ent_type m e) (2 * ord k)%nat = Ok (q e) /\
     length (qr_weights (q e)) = length (qr_points (q e)) /\ nonnegative_weights (q e) /\ settles (q e) (lagrange k (ent_type m e)) /\
     at_points (q e) (fun p => admissible (geom e) p /\ nondegenerate (geom e) p /\ positive_coeff (go_dim (geom e)) (a e p) /\ 0 <= c e p)) ->
  given_by alpha a q es -> given_by gamma c q es -> given_by src h q es -> let N := NumDofs (sp_dofs V) in
  exists vol, (forall e p, In e es -> admissible (geom e) p -> volume_at (geom e) (vol e) p) /\
  let form := sum_form (diffusion_form V geom q vol es a) (mass_form V q vol es c) in let load := load_form V q vol es h in
  exists A b fv A' b' D',
    AssembleMatrixWith (sp_mesh V) 0 (sp_dofs V) (sp_dofs V) (fun _ => true) (rd_provider P geom alpha gamma) = Ok A /\
    AssembleVectorWith (sp_mesh V) 0 (sp_dofs V) (fun _ => true) (uload_provider P geom src) = Ok b /\
    InitEssentialConditionFromFunction V bd g = Ok fv /\
    FixFlaggedSolutionComponents Rring (fun i => nth i fv (false, 0)) A b = Ok (A', b') /\
    AssembleSpec.is_matrix Rring A' N N D' /\ length b' = N /\
    exists mu, length mu = N /\ solves Rring N D' (comp Rring b') (comp Rring mu) /\ weak_solution V bd g form load mu /\
      forall mu', length mu' = N -> solves Rring N D' (comp Rring b') (comp Rring mu') \/ weak_solution V bd g form load mu' -> mu' = mu.
Proof.
  intros k m V geom make P q bd g alpha gamma src a c h es W CM AH EV CG EP H Ga Gc Gs N. unfold es in *. pose proof (lagrange_mesh k m V EV) as VM. rewrite VM in H.
  destruct (lagrange_prepared k m V W EV 0 (fun _ => true) geom make q (or_introl eq_refl)) as (vol & VO & Pr & Re).
  { intros e I. destruct (H e I) as (A1 & A2 & A3 & A4 & A5 & A6). do 3 (split; [assumption|]). intros p Ip. apply A6, Ip. }
  specialize (Re (fun e I p Ip => proj1 (proj2 (proj2 (proj2 (proj2 (proj2 (proj2 (H e I))))) p Ip)))).
  assert (Dim : of_dim geom 2 (filter (fun _ => true) (entities m 0))).
  { intros e I. destruct (H e I) as (A1 & _). apply filter_In in I as (I & _). destruct (lagrange_cell m W e I) as [E|E]; rewrite E in A1; destruct (go_kind (geom e)); try discriminate; reflexivity. }
  assert (DE : forall v, length v = N -> vanishes_on V v bd ->
    sum_form (diffusion_form V geom q vol (filter (fun _ => true) (entities m 0)) a) (mass_form V q vol (filter (fun _ => true) (entities m 0)) c) v v 0 -> v = repeat 0 N).
  { intros v Lv Va (y & z & Hy & Hz & E).
    destruct (diffusion_zero V geom make q vol _ a v Pr) with (x := y) as (Py & Zy); [intros e I; apply (H e I)|intros e p I Ip; apply (H e I), Ip|intros e p I Ip; apply (H e I), Ip|exact Hy|].
    assert (Pz : 0 <= z) by (eapply mass_nonneg; [exact Pr| | |exact Hz]; [intros e I; apply (H e I)|intros e p I Ip; apply (H e I), Ip]).
    specialize (Zy ltac:(lra)).
    apply (held_all k m V W EV v bd Lv Va); [|exact CM|exact AH]. intros i Hi.
    assert (IC : In (ECell i) (entities m 0)) by (cbn; apply in_map, in_seq; cbn; lia).
    assert (I : In (ECell i) (filter (fun _ => true) (entities m 0))) by (apply filter_In; split; [exact IC|reflexivity]).
    destruct (H (ECell i) I) as (A1 & _ & A3 & _ & A5 & A6). destruct (lagrange_element k m V W EV 0 (ECell i) (or_introl eq_refl) IC) as (l & El).
    assert (S : forall s, (s < length l)%nat -> loc l v s = loc l v 0).
    { intros s Hs. apply A5; [|rewrite <- (eo_total _ _ _ _ El); exact Hs]. intros j p w gr Ep Ew Pw Eg. pose proof (nth_error_In _ _ Ep) as Ip. destruct (A6 p Ip) as (B1 & B2 & _).
      destruct (Zy (ECell i) j p w I Ep Ew Pw) as (gv & Egv & Zg).
      apply (flat_at V geom v (ECell i) _ l p gv gr El Lv (Dim _ I)); auto; [rewrite VM; exact A1|].
      destruct (lagrange_gradients k (ent_type m (ECell i)) (lagrange_shape m W 0 (ECell i) (or_introl eq_refl) IC) p) as (gr' & Eg' & Lg' & _); [|congruence].
      rewrite (proj1 (lagrange_describes k (ent_type m (ECell i)))), <- A1, (proj1 B1). destruct (go_kind (geom (ECell i))); reflexivity. }
    intros l' x x' HD Ix Ix'. pose proof (eo_dofs _ _ _ _ El) as HD0. unfold has_dofs in HD, HD0. rewrite HD0 in HD. injection HD as <-.
    destruct (In_nth l x 0%nat Ix) as (s & Hs & <-). destruct (In_nth l x' 0%nat Ix') as (s' & Hs' & <-).
    pose proof (S s Hs) as Q1. pose proof (S s' Hs') as Q2. unfold loc in Q1, Q2. congruence. }
  rewrite <- VM in VO, Pr, Re, Dim, DE.
  assert (UL : uniform_layout V (fun t => Some (lagrange k t))) by (intros e; rewrite VM; apply (V_is k m V EV)).
  exists vol. split; [exact VO|]. cbv zeta.
  apply (lagrange_unique k m V g W EV CG bd).
  - eapply rd_assembled; eauto.
  - eapply uload_assembled; eauto.
  - split.
    + intros u v Lu Lv. apply sum_defined; [eapply diffusion_defined; eauto|eapply mass_defined; eauto].
    + intros v Lv. eapply load_defined; eauto.
  - exact DE.
Qed.
