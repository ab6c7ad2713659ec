(** Proofs for C76: impedance conditions with the library's rules. *)
From Coq Require Import Reals List Arith Lia Lra Bool.
From Coquelicot Require Import Coquelicot.
Import ListNotations.
From Verif Require Import Base Scalars MeshModel MeshView DofModel DofSpec RefPatModel GeoModel GeoSpec FeModel LagrModel QuadModel TriaTab QuadRuleModel AssembleModel AssembleSpec
  FeSpec QuadSpec GaussSpec QuadProofs GaussProofs GaussProofs5 GaussProofs5 ElemModel ElemSpec FeToolsModel FeToolsSpec FeToolsProofs2 LagrProofs3 FeToolsProofs5 PropGeo ProlongSpec GalerkinModel GalerkinSpec DirichletSpec FisherModel2
  GalerkinProofs9 GalerkinProofs12 GalerkinProofs15 GalerkinProofs16 GalerkinProofs19 GalerkinProofs20 GalerkinProofs21 GalerkinProofs25.
Local Open Scope R_scope.

Lemma segment_points : forall stop degree q, finds_legendre_zeros stop (degree / 2 + 1) -> make_segment (GaussLegendre stop) degree = Ok q ->
  exists l, NoDup l /\ length l = (degree / 2 + 1)%nat /\ forall s, In s l -> exists j w, nth_error (qr_points q) j = Some [s] /\ nth_error (qr_weights q) j = Some w /\ 0 < w.
Proof.
  intros stop degree q F Eq. set (n := (degree / 2 + 1)%nat) in *. assert (Hn : (1 <= n)%nat) by (unfold n; lia).
  destruct (gauss_legendre stop n Hn F) as (pw & E & L & L' & Pw & Zp & X). exists (fst pw). split; [eapply legendre_nodup; eauto|]. split; [exact L|].
  unfold make_segment in Eq. cbv zeta in Eq. fold n in Eq. rewrite E in Eq. cbn [bind] in Eq. apply rule_fields in Eq. destruct Eq as (El & Ep & Ew & _).
  intros s Hs. apply In_nth_error in Hs as (j & Hj). assert (Lj : (j < length (fst pw))%nat) by (apply nth_error_Some; congruence).
  destruct (nth_error (snd pw) j) as [w|] eqn:Ej; [|exfalso; apply nth_error_None in Ej; lia].
  exists j, w. rewrite Ep, Ew. split; [rewrite nth_error_map, Hj; reflexivity|]. split; [exact Ej|]. apply Pw. eapply nth_error_In, Ej.
Qed.
Lemma segment_zero : forall n f l q (x : nat -> R) ev, (forall i, isp n (fun s => nth i (ev s) 0)) -> (forall s, fe_eval f [s] = Ok (ev s)) ->
  (forall j p w v, nth_error (qr_points q) j = Some p -> nth_error (qr_weights q) j = Some w -> 0 < w -> fe_eval f p = Ok v -> sum_to (fe_total f) (fun i => x i * nth i v 0) = 0) ->
  NoDup l -> length l = n -> (forall s, In s l -> exists j w, nth_error (qr_points q) j = Some [s] /\ nth_error (qr_weights q) j = Some w /\ 0 < w) ->
  forall s, sum_to (fe_total f) (fun i => x i * nth i (ev s) 0) = 0.
Proof.
  intros n f l q x ev HE FE H ND L G. apply (isp_equal n (fun s => sum_to (fe_total f) (fun i => x i * nth i (ev s) 0)) (fun _ => 0) l); [|apply isp_zero|exact ND|exact L|].
  - apply (isp_sums n (fe_total f) (fun i s => x i * nth i (ev s) 0)). intros i. apply isp_scale, HE.
  - intros s Hs. destruct (G s Hs) as (j & w & Ep & Ew & Pw). exact (H j [s] w (ev s) Ep Ew Pw (FE s)).
Qed.
Ltac at_end Z s := pose proof (Z s) as A; clear Z; unfold sum_to in A; cbn in A; lra.
Lemma library_pins_segment : forall stop jac tab k q, finds_legendre_zeros stop (ord k + 1) -> make_QuadRule (GaussLegendre stop) jac tab kSegment (2 * ord k) = Ok q ->
  pins q (lagrange k kSegment).
Proof.
  intros stop jac tab k q F E x H. change (make_segment (GaussLegendre stop) (2 * ord k) = Ok q) in E.
  destruct (segment_points stop (2 * ord k) q) as (l & ND & L & G); [destruct k; exact F|exact E|]. destruct k; cbn in L.
  - assert (Z : forall s, sum_to 2 (fun i => x i * nth i [1 - s; s] 0) = 0).
    { apply (segment_zero 2 (lagrange O1 kSegment) l q x (fun s => [1 - s; s])); auto.
      intros i. exists (fun j => nth j (nth i [[1; -1]; [0; 1]] []) 0). intros s. destruct i as [|[|[|i]]]; cbn; try ring; destruct i; cbn; ring. }
    clear H G ND L E. intros i Hi. cbn in Hi. destruct i as [|i]; [at_end Z 0|]. destruct i as [|i]; [at_end Z 1|]. lia.
  - assert (Z : forall s, sum_to 3 (fun i => x i * nth i (o2_seg_eval s) 0) = 0).
    { apply (segment_zero 3 (lagrange O2 kSegment) l q x o2_seg_eval); auto. intros i. apply newton3. intros s. destruct i as [|[|[|[|i]]]]; cbn; field. }
    clear H G ND L E. intros i Hi. cbn in Hi. destruct i as [|i]; [at_end Z 0|]. destruct i as [|i]; [at_end Z 1|]. destruct i as [|i]; [at_end Z (1 / 2)|]. lia.
  - assert (Z : forall s, sum_to 4 (fun i => x i * nth i (o3_seg_eval s) 0) = 0).
    { apply (segment_zero 4 (lagrange O3 kSegment) l q x o3_seg_eval); auto. intros i. apply newton4. intros s. destruct i as [|[|[|[|[|i]]]]]; cbn; field. }
    clear H G ND L E. intros i Hi. cbn in Hi. destruct i as [|i]; [at_end Z 0|]. destruct i as [|i]; [at_end Z 1|]. destruct i as [|i]; [at_end Z (1 / 3)|]. destruct i as [|i]; [at_end Z (2 / 3)|]. lia.
Qed.
Theorem library_robin : forall stop jac k m V geom bd rob g a c h et, let es := filter (fun _ => true) (entities (sp_mesh V) 0) in let eb := filter rob (entities (sp_mesh V) 1) in
  let make := make_QuadRule (GaussLegendre stop) jac HardcodedQuadRule in
  finds_legendre_zeros stop (ord k + 1) -> wf_mesh m -> complete_mesh m -> all_held m (fun e => bd e || rob e) -> lagrange_space k m = Ok V -> continuous_function m g ->
  (forall e, In e es \/ In e eb -> kind_el (go_kind (geom e)) = ent_type m e) ->
  (forall e p, In e es -> in_ref (ent_type m e) p -> admissible (geom e) p /\ nondegenerate (geom e) p /\ positive_coeff (go_dim (geom e)) (a e p) /\ 0 <= c e p) ->
  (forall e p, In e eb -> in_ref kSegment p -> admissible (geom e) p /\ nondegenerate (geom e) p /\ 0 < et e p) ->
  exists P pfe q qb, precompute_default make (fun t => Some (lagrange k t)) = Ok P /\ precompute_edge make (fun t => Some (lagrange k t)) None = Ok pfe /\
  (forall e, In e es -> make (ent_type m e) (2 * ord k)%nat = Ok (q e)) /\ (forall e, In e eb -> make kSegment (2 * ord k)%nat = Ok (qb e)) /\
  forall alpha gamma eta src, given_by alpha a q es -> given_by gamma c q es -> given_by src h q es -> given_by eta et qb eb -> let N := NumDofs (sp_dofs V) in
  exists vol, (forall e p, In e es \/ In e eb -> admissible (geom e) p -> volume_at (geom e) (vol e) p) /\
  let form := sum_form (sum_form (diffusion_form V geom q vol es a) (mass_form V q vol es c)) (mass_form V qb vol eb et) in let load := load_form V q vol es h in
  exists A0 A b fv A' b' D',
    AssembleMatrixWith (sp_mesh V) 0 (sp_dofs V) (sp_dofs V) (fun _ => true) (rd_provider P geom alpha gamma) = Ok A0 /\
    assemble_onto (sp_mesh V) 1 (sp_dofs V) rob (umass_edge_provider pfe geom eta) A0 = Ok A /\
    AssembleVectorWith (sp_mesh V) 0 (sp_dofs V) (fun _ => true) (uload_provider P geom src) = Ok b /\
    InitEssentialConditionFromFunction V bd g = Ok fv /\
    FixFlaggedSolutionComponents Rring (fun i => nth i fv (false, 0)) A b = Ok (A', b') /\
    AssembleSpec.is_matrix Rring A' N N D' /\ length b' = N /\
    exists mu, length mu = N /\ solves Rring N D' (comp Rring b') (comp Rring mu) /\ weak_solution V bd g form load mu /\
      forall mu', length mu' = N -> solves Rring N D' (comp Rring b') (comp Rring mu') \/ weak_solution V bd g form load mu' -> mu' = mu.
Proof.
  intros stop jac k m V geom bd rob g a c h et es eb make F W CM AH EV CG HK HP HB. destruct (library_rules stop jac k F) as (P & q & EP & R).
  assert (T : forall e, In e es -> ent_type m e = kTria \/ ent_type m e = kQuad).
  { intros e I. unfold es in I. rewrite (lagrange_mesh k m V EV) in I. apply filter_In in I as (I & _). apply (lagrange_cell m W e I). }
  assert (TY : forall e, In e eb -> ent_type m e = kSegment).
  { intros e I. unfold eb in I. rewrite (lagrange_mesh k m V EV) in I. apply filter_In in I as (I & _). destruct (in_edges m e I) as (j & -> & _). reflexivity. }
  destruct (segment_rule stop (2 * ord k)) as (qs & Es & _ & Rs & _ & (Ps & Is)); [destruct k; exact F|].
  assert (AP : at_points qs (in_ref kSegment)).
  { intros p Hp. specialize (Is p Hp). rewrite (rf_el _ _ _ Rs) in Is. destruct p as [|x [|]]; cbn in Is |- *; try tauto; lra. }
  destruct (FisherProofs5.precompute_ok k kSegment qs ltac:(discriminate) AP) as (pfe & Ep).
  exists P, pfe, (fun e => q (ent_type m e)), (fun _ => qs). split; [exact EP|]. split.
  { unfold precompute_edge. replace (fe_degree (lagrange k kSegment)) with (ord k) by (destruct k; reflexivity). change (make kSegment (2 * ord k)%nat) with (make_segment (GaussLegendre stop) (2 * ord k)). rewrite Es. exact Ep. }
  split; [intros e I; apply R, T, I|]. split; [intros; exact Es|]. intros alpha gamma eta src Ga Gc Gs Ge.
  apply (robin_problem k m V geom make P pfe (fun e => q (ent_type m e)) (fun _ => qs) bd rob g alpha gamma eta src a c h et W CM AH EV CG EP); try assumption.
  - unfold precompute_edge. replace (fe_degree (lagrange k kSegment)) with (ord k) by (destruct k; reflexivity). change (make kSegment (2 * ord k)%nat) with (make_segment (GaussLegendre stop) (2 * ord k)). rewrite Es. exact Ep.
  - intros e I. destruct (R _ (T e I)) as (E1 & _ & E3 & E4 & E5 & E6). split; [apply HK; left; exact I|]. split; [exact E1|]. split; [exact E3|]. split; [exact E4|]. split; [exact E5|].
    intros p Ip. apply HP; [exact I|]. apply E6, Ip.
  - intros e I. split; [rewrite (HK e (or_intror I)); apply TY, I|]. split; [exact Es|]. split; [apply Rs|]. split; [intros w Hw; left; apply Ps, Hw|].
    split; [exact (library_pins_segment stop jac HardcodedQuadRule k qs F Es)|]. intros p Ip. apply HB; [exact I|]. apply AP, Ip.
Qed.
Definition one_geom (e : ent) : geo := match e with DofModel.ECell _ => tri | _ => mkGeo GSegmentO1 2 [(fun _ => 0); (fun k => match k with 0%nat => 2 | _ => 0 end)] end.
Lemma robin_example : (exists stop, finds_legendre_zeros stop (ord O2 + 1)) /\ wf_mesh one_mesh /\ complete_mesh one_mesh /\
  all_held one_mesh (fun e => (fun _ => false) e || (fun e => match e with DofModel.EEdge 0 => true | _ => false end) e) /\ (exists V, lagrange_space O2 one_mesh = Ok V) /\
  (forall e, In e (entities one_mesh 0) \/ In e (filter (fun e => match e with DofModel.EEdge 0 => true | _ => false end) (entities one_mesh 1)) -> kind_el (go_kind (one_geom e)) = ent_type one_mesh e) /\
  (forall e p, In e (entities one_mesh 0) -> in_ref kTria p -> admissible (one_geom e) p /\ nondegenerate (one_geom e) p /\ positive_coeff (go_dim (one_geom e)) (Scal 1)) /\
  forall e p, In e (entities one_mesh 1) -> in_ref kSegment p -> admissible (one_geom e) p /\ nondegenerate (one_geom e) p.
Proof.
  destruct library_example as (_ & B & C). split; [apply legendre_zeros_exist|]. split; [apply one_wf|]. split; [apply one_wf|]. split; [apply dirichlet_example|]. split.
  { destruct (lagrange_space_ok O2 one_mesh) as (lo & E & _). eauto. }
  split; [intros e [[<-|[]]|[<-|[]]]; reflexivity|]. split.
  - intros e p [<-|[]] Hp. destruct (C p Hp) as (C1 & C2 & C3 & _). auto.
  - intros e p I Hp. assert (X : one_geom e = mkGeo GSegmentO1 2 [(fun _ => 0); (fun k => match k with 0%nat => 2 | _ => 0 end)]) by (destruct I as [<-|[<-|[<-|[]]]]; reflexivity). rewrite X.
    destruct p as [|s [|]]; try contradiction. split; [split; [reflexivity|discriminate]|]. eexists. split; [reflexivity|]. cbn. unfold vsub. cbn. lra.
Qed.
