(** Proofs for C103: the library's rules; the theorems; an example. *)
From Coq Require Import Reals List Arith ZArith Lia Lra Bool.
Import ListNotations.
From Verif Require Import Base Scalars MeshModel MeshView DofModel DofSpec RefPatModel GeoModel GeoSpec GeoProofs GeoProofs3 PropGeo FeModel LagrModel QuadModel AssembleModel AssembleSpec AssembleProofs
  FeSpec FeProofs LagrProofs LagrProofs2 LagrProofs3 QuadSpec GaussSpec QuadRuleModel TriaTab TriaSpec QuadProofs TriaProofs2 CacheProofs2 ElemModel ElemSpec ElemProofs ElemProofs2 ElemProofs3 ElemProofs7 FeToolsModel FeToolsSpec
  FeToolsProofs2 FeToolsProofs5 FlagModel ProlongProofs2 GalerkinModel GalerkinSpec GalerkinProofs GalerkinProofs2 GalerkinProofs3 GalerkinProofs4 GalerkinProofs8 GalerkinProofs9
  FisherModel FisherSpec FisherModel2 FisherSpec2 FisherProofs5 FisherProofs6 FisherProofs7 FisherProofs8.
From Verif Require StokesProofs3 PolyProofs PropQuad FisherProofs FisherProofs2 FisherProofs3 FisherProofs4.
Local Open Scope R_scope.

Lemma inside_ref : forall t p, inside t p -> GeoSpec.in_ref t p.
Proof. intros t p H. destruct t, p as [|x [|y [|z l]]]; cbn in *; try contradiction; try exact I; lra. Qed.
Lemma sum3' : forall h, sum_to 3 h = h 0%nat + h 1%nat + h 2%nat. Proof. intros. unfold sum_to. cbn. ring. Qed.
Lemma sum4' : forall h, sum_to 4 h = h 0%nat + h 1%nat + h 2%nat + h 3%nat. Proof. intros. unfold sum_to. cbn. ring. Qed.

Lemma tria_determining : forall q, HardcodedQuadRule 2 = Ok q -> forall a : nat -> R,
  (forall p v, In p (qr_points q) -> fe_eval (lagrange O1 kTria) p = Ok v -> sum_to 3 (fun i => a i * nth i v 0) = 0) -> forall i, (i < 3)%nat -> a i = 0.
Proof.
  intros q E a H. unfold HardcodedQuadRule in E. cbn [tria_table] in E. unfold QuadRule in E. cbn [tab_2 map forallb length fst snd] in E.
  cbn [lf_assert Nat.eqb andb bind dimension] in E. injection E as <-. cbn [qr_points] in H.
  pose proof (H _ _ (or_introl eq_refl) eq_refl) as H1. pose proof (H _ _ (or_intror (or_introl eq_refl)) eq_refl) as H2. pose proof (H _ _ (or_intror (or_intror (or_introl eq_refl))) eq_refl) as H3.
  rewrite sum3' in H1, H2, H3. cbn [nth] in H1, H2, H3. unfold tab_real, dec in H1, H2, H3.
  intros i Hi. destruct i as [|[|[|i]]]; [| | |lia]; lra.
Qed.
Lemma quad_determining : forall q, rule_for kQuad 3 q -> forall a : nat -> R,
  (forall p v, In p (qr_points q) -> fe_eval (lagrange O1 kQuad) p = Ok v -> sum_to 4 (fun i => a i * nth i v 0) = 0) -> forall i, (i < 4)%nat -> a i = 0.
Proof.
  intros q [El Pt Lw Ex] a H.
  set (b0 := a 0%nat). set (b1 := a 1%nat - a 0%nat). set (b2 := a 3%nat - a 0%nat). set (b3 := a 0%nat - a 1%nat + a 2%nat - a 3%nat).
  assert (M : forall i j, (i <= 3)%nat -> (j <= 3)%nat -> quadrature q (monomial [i; j]) = 1 / ((INR i + 1) * (INR j + 1))).
  { intros i j Hi Hj. rewrite (PolyProofs.exact_monomial q 3 [i; j] Ex).
    - rewrite El. apply (integral_monomial kQuad [i; j] eq_refl).
    - rewrite El. cbn [exponents]. apply in_map_iff. exists (i, j). split; [reflexivity|]. apply in_prod; apply in_seq; lia. }
  assert (Eq : forall i j, (i <= 2)%nat -> (j <= 2)%nat ->
    b0 * (1 / ((INR i + 1) * (INR j + 1))) + b1 * (1 / ((INR (S i) + 1) * (INR j + 1))) + b2 * (1 / ((INR i + 1) * (INR (S j) + 1))) + b3 * (1 / ((INR (S i) + 1) * (INR (S j) + 1))) = 0).
  { intros i j Hi Hj. rewrite <- !M by lia. rewrite <- !PolyProofs.quadrature_scal, <- !PolyProofs.quadrature_plus.
    rewrite (PolyProofs.quadrature_ext q _ (fun _ => 0)); [apply PolyProofs.quadrature_zero|]. intros p Ip. pose proof (Pt p Ip) as Lp. destruct p as [|x [|y [|z l]]]; try discriminate Lp.
    pose proof (H _ _ Ip eq_refl) as E. rewrite sum4' in E. cbn [nth] in E. cbn [monomial combine map fold_right fst snd pow].
    unfold monomial. cbn [combine map fold_right fst snd pow]. transitivity (x ^ i * y ^ j * (a 0%nat * ((1 - x) * (1 - y)) + a 1%nat * (x * (1 - y)) + a 2%nat * (x * y) + a 3%nat * ((1 - x) * y))); [unfold b0, b1, b2, b3; ring|].
    rewrite E. ring. }
  pose proof (Eq 0%nat 0%nat ltac:(lia) ltac:(lia)) as E1. pose proof (Eq 1%nat 0%nat ltac:(lia) ltac:(lia)) as E2. pose proof (Eq 0%nat 1%nat ltac:(lia) ltac:(lia)) as E3. pose proof (Eq 1%nat 1%nat ltac:(lia) ltac:(lia)) as E4.
  cbn [INR] in E1, E2, E3, E4.
  assert (Z0 : b0 = 0 /\ b1 = 0 /\ b2 = 0 /\ b3 = 0). { clearbody b0 b1 b2 b3. clear - E1 E2 E3 E4. repeat split; lra. }
  destruct Z0 as (Z0 & Z1 & Z2 & Z3). unfold b0, b1, b2, b3 in *. intros i Hi. destruct i as [|[|[|[|i]]]]; [| | | |lia]; lra.
Qed.
Theorem library_rules_ok : forall stop stopj, finds_legendre_zeros stop 2 -> finds_jacobi_zeros stopj 2 -> exists rule,
  rules_for (make_QuadRule (GaussLegendre stop) (GaussJacobi stopj) HardcodedQuadRule) rule /\ determining rule /\ positive_weights rule.
Proof.
  intros stop stopj F F'.
  destruct (tria_tables (GaussLegendre stop) (GaussJacobi stopj) 2 ltac:(lia)) as (qt & k & Et & _ & Tt).
  destruct (gauss_rules stop stopj HardcodedQuadRule kQuad 2 ltac:(discriminate) ltac:(discriminate) F F') as (qq & Eq & Dq & _ & Rq & _ & Pq).
  destruct (gauss_rules stop stopj HardcodedQuadRule kSegment 2 ltac:(discriminate) ltac:(discriminate) F F') as (qs & Es & Ds & _ & Rs & _ & Ps).
  exists (fun t => match t with kTria => qt | kQuad => qq | _ => qs end). split; [|split].
  - intros t NP. destruct t; [contradiction| | |].
    + split; [exact Es|]. split; [exact (rf_weights _ _ _ Rs)|]. intros p Ip. apply inside_ref. rewrite <- (rf_el _ _ _ Rs). apply Ps, Ip.
    + split; [exact Et|]. split; [exact (tr_weights _ _ _ Tt)|]. intros p Ip. apply inside_ref. rewrite <- (tr_el _ _ _ Tt). apply (proj2 (tr_inside _ _ _ Tt)), Ip.
    + split; [exact Eq|]. split; [exact (rf_weights _ _ _ Rq)|]. intros p Ip. apply inside_ref. rewrite <- (rf_el _ _ _ Rq). apply Pq, Ip.
  - intros t [-> | ->].
    + apply tria_determining. exact Et.
    + apply quad_determining. rewrite Dq in Rq. exact Rq.
  - intros t NP w Hw. destruct t; [contradiction| | |]; [apply Ps|apply (proj1 (tr_inside _ _ _ Tt))|apply Pq]; exact Hw.
Qed.

(** *** The theorems *)
Section Theorems.
Variables (m : mesh) (V : fe_space) (geom : ent -> geo) (make : refel -> nat -> res quadrule) (rule : refel -> quadrule) (c h : vec -> R) (L : dense Rring) (cc hh vol : ent -> list R -> R).
Hypothesis FD : fisher_data m V geom make rule c h L cc hh vol.
Let N := NumDofs (sp_dofs V).
Let q := fun e => rule (ent_type m e).
Let cells := entities m 0.
Let bd := filter (boundary_edge m) (entities m 1).

Theorem galerkin_matrices : exists A M, assembleGalerkinMatrices make m geom (sp_dofs V) c h L = Ok (A, M) /\
  d_rows Rring A = N /\ d_cols Rring A = N /\ d_rows Rring M = N /\ d_cols Rring M = N /\
  forall u v, length u = N -> length v = N -> exists x y z,
    diffusion_form V geom q vol cells (fun e p => Scal (cc e p)) u v x /\ mass_form V q vol bd hh u v y /\ mass_form V q vol cells (fun _ _ => 1) u v z /\
    pairing N (d_coef Rring A) (vector v) (vector u) = x + y - pairing N (d_coef Rring L) (vector v) (vector u) /\
    pairing N (d_coef Rring M) (vector v) (vector u) = z.
Proof.
  destruct FD as [W EV NN RU PG R1 R2 HC HH VC VE].
  destruct (matrices_ok m V geom make rule c h L (d_coef Rring L) W EV NN RU PG) with (cc := cc) (hh := hh) (vol := vol) (vole := vol) as (A & M & DA & DM & E & (A1 & A2 & A3) & (M1 & M2 & M3) & F);
    [split; [exact R1|split; [exact R2|reflexivity]]|exact HC|exact HH|exact (volumes_good m V geom make rule W EV RU PG vol vol VC VE)|].
  exists A, M. split; [exact E|]. do 4 (split; [assumption|]). intros u v Lu Lv. destruct (F u v Lu Lv) as (F1 & F2).
  destruct (diffusion_some m V geom make rule W EV RU PG cc vol vol VC VE u v Lu Lv) as (x & Hx). destruct (edge_some m V geom make rule W EV RU PG vol vol VC VE hh u v Lu Lv) as (y & Hy).
  destruct (mass_some m V geom make rule W EV RU PG vol vol VC VE (fun _ _ => 1) u v Lu Lv) as (z & Hz).
  exists x, y, z. split; [exact Hx|]. split; [exact Hy|]. split; [exact Hz|]. split.
  - rewrite (pairing_ext N (d_coef Rring A) DA _ _ (vector v) (vector u)) by (intros; auto). apply F1; assumption.
  - rewrite (pairing_ext N (d_coef Rring M) DM _ _ (vector v) (vector u)) by (intros; auto). apply F2; assumption.
Qed.
(** The values of forms are unique. *)
Lemma galerkin_unique : forall A M, assembleGalerkinMatrices make m geom (sp_dofs V) c h L = Ok (A, M) ->
  (forall u v, length u = N -> length v = N -> forall x y, diffusion_form V geom q vol cells (fun e p => Scal (cc e p)) u v x ->
    mass_form V q vol bd hh u v y -> pairing N (d_coef Rring A) (vector v) (vector u) = x + y - pairing N (d_coef Rring L) (vector v) (vector u)) /\
  (forall u v, length u = N -> length v = N -> forall x, mass_form V q vol cells (fun _ _ => 1) u v x -> pairing N (d_coef Rring M) (vector v) (vector u) = x).
Proof.
  intros A M E. destruct FD as [W EV NN RU PG R1 R2 HC HH VC VE].
  destruct (matrices_ok m V geom make rule c h L (d_coef Rring L) W EV NN RU PG) with (cc := cc) (hh := hh) (vol := vol) (vole := vol) as (A' & M' & DA & DM & E' & (A1 & A2 & A3) & (M1 & M2 & M3) & F);
    [split; [exact R1|split; [exact R2|reflexivity]]|exact HC|exact HH|exact (volumes_good m V geom make rule W EV RU PG vol vol VC VE)|].
  rewrite E in E'. injection E' as <- <-. split; intros u v Lu Lv; destruct (F u v Lu Lv) as (F1 & F2).
  - intros x y Hx Hy. rewrite (pairing_ext N (d_coef Rring A) DA _ _ (vector v) (vector u)) by (intros; auto). apply F1; assumption.
  - intros x Hx. rewrite (pairing_ext N (d_coef Rring M) DM _ _ (vector v) (vector u)) by (intros; auto). apply F2; assumption.
Qed.
Section Result.
Variables (A M : dense Rring).
Hypothesis E : assembleGalerkinMatrices make m geom (sp_dofs V) c h L = Ok (A, M).
Theorem galerkin_symmetric : (forall i j, (i < N)%nat -> (j < N)%nat -> d_coef Rring L i j = d_coef Rring L j i) ->
  symmetric N (d_coef Rring A) /\ symmetric N (d_coef Rring M).
Proof.
  intros SL. destruct (galerkin_unique A M E) as (FA & FM). destruct FD as [W EV NN RU PG R1 R2 HC HH VC VE].
  exact (matrix_symmetric m V geom make rule (d_coef Rring L) W EV RU PG cc hh vol vol VC VE _ _ FA FM SL).
Qed.
Theorem galerkin_nonneg : positive_weights rule -> dissipative c h N L -> nonnegative_form N (d_coef Rring A) /\ nonnegative_form N (d_coef Rring M).
Proof.
  intros PW (P1 & P2 & P3). destruct (galerkin_unique A M E) as (FA & FM). destruct FD as [W EV NN RU PG R1 R2 HC HH VC VE].
  apply (matrix_nonneg m V geom make rule (d_coef Rring L) W EV RU PG cc hh vol vol VC VE _ _ FA FM).
  - intros t NP w Hw. left. exact (PW t NP w Hw).
  - intros e p I Ip. destruct (cell_fits m geom make rule W RU PG e I) as (_ & _ & _ & Ad & _). rewrite (HC e p _ (Global_ok _ _ (Ad p Ip))). apply P1.
  - intros e p I Ip. destruct (edge_fits m geom make rule RU PG e I) as (_ & _ & _ & Ad). rewrite (HH e p _ (Global_ok _ _ (Ad p Ip))). apply P2.
  - exact P3.
Qed.
Theorem galerkin_positive : positive_weights rule -> determining rule -> complete_mesh m -> positive_form N (d_coef Rring M).
Proof.
  intros PW DR Cm. destruct (galerkin_unique A M E) as (_ & FM). destruct FD as [W EV NN RU PG R1 R2 HC HH VC VE].
  exact (mass_positive m V geom make rule W Cm EV RU PG DR PW vol vol VC VE _ FM).
Qed.
Theorem galerkin_constants : (forall x, h x = 0) ->
  (forall i, (i < N)%nat -> sum_to N (fun j => d_coef Rring A i j) = - sum_to N (fun j => d_coef Rring L i j)) /\
  (forall j, (j < N)%nat -> sum_to N (fun i => d_coef Rring A i j) = - sum_to N (fun i => d_coef Rring L i j)).
Proof.
  intros Z0. destruct (galerkin_unique A M E) as (FA & FM). destruct FD as [W EV NN RU PG R1 R2 HC HH VC VE].
  apply (matrix_constants m V geom make rule (d_coef Rring L) W EV RU PG cc hh vol vol VC VE _ FA).
  intros e p I Ip. destruct (edge_fits m geom make rule RU PG e I) as (_ & _ & _ & Ad). rewrite (HH e p _ (Global_ok _ _ (Ad p Ip))). apply Z0.
Qed.
Theorem galerkin_total : forall u x, length u = N -> total m V rule vol u x -> pairing N (d_coef Rring M) (fun _ => 1) (vector u) = x.
Proof.
  intros u x Lu (U & HU & ->). destruct (galerkin_unique A M E) as (_ & FM). destruct FD as [W EV NN RU PG R1 R2 HC HH VC VE].
  exact (matrix_population m V geom make rule W EV RU PG vol vol VC VE _ FM u U Lu HU).
Qed.
(** A diffusion step keeps the integral if nothing crosses the boundary. *)
Theorem galerkin_population : (forall x, h x = 0) -> (forall j, (j < N)%nat -> sum_to N (fun i => d_coef Rring L i j) = 0) ->
  forall t u v x y, length u = N -> length v = N -> sdirk_step N (d_coef Rring M) (d_coef Rring A) t (vector u) (vector v) ->
  total m V rule vol u x -> total m V rule vol v y -> y = x.
Proof.
  intros Hh HL t u v x y Lu Lv St Hx Hy. rewrite <- (galerkin_total u x Lu Hx), <- (galerkin_total v y Lv Hy).
  apply (FisherProofs.step_conserves N (d_coef Rring M) (d_coef Rring A) t (fun _ => 1) (vector u) (vector v)); [|exact St].
  intros j Hj. rewrite (sum_to_ext N _ (fun i => d_coef Rring A i j)) by (intros; apply Rmult_1_l). rewrite (proj2 (galerkin_constants Hh) j Hj), (HL j Hj). apply Ropp_0.
Qed.
End Result.
Theorem galerkin_evolution : positive_weights rule -> determining rule -> complete_mesh m -> dissipative c h N L -> symmetric N (d_coef Rring L) ->
  exists A M, assembleGalerkinMatrices make m geom (sp_dofs V) c h L = Ok (A, M) /\
  (forall t u v, 0 <= t -> sdirk_step N (d_coef Rring M) (d_coef Rring A) t u v -> pairing N (d_coef Rring M) v v <= pairing N (d_coef Rring M) u u) /\
  forall lu T steps lambda cap mu, exact_lu lu -> 0 <= T -> (0 < steps)%nat -> 0 <= lambda ->
  length cap = N -> (forall i, (i < N)%nat -> 0 < nth i cap 0) -> length mu = N -> nonnegative N (vector mu) ->
  (forall t u v, t = T / INR steps / 2 \/ t = T / INR steps -> nonnegative N u -> sdirk_step N (d_coef Rring M) (d_coef Rring A) t u v -> nonnegative N v) ->
  exists self sol, StrangSplit lu N T steps lambda A M = Ok self /\ Evolution self cap mu = Ok (map Fin sol) /\
    run N (d_coef Rring M) (d_coef Rring A) (vector cap) lambda (schedule steps (T / INR steps)) (vector mu) (vector sol).
Proof.
  intros PW DR Cm Di Sy. destruct galerkin_matrices as (A & M & E & A1 & A2 & M1 & M2 & _). exists A, M. split; [exact E|].
  destruct (galerkin_symmetric A M E Sy) as (SA & SM). destruct (galerkin_nonneg A M E PW Di) as (NA & NM). pose proof (galerkin_positive A M E PW DR Cm) as PM. split.
  - intros t u v Ht St. exact (FisherProofs.step_energy N (d_coef Rring M) (d_coef Rring A) t u v SM NM SA NA Ht St).
  - intros lu T steps lambda cap mu Hlu HT Hs Hl Lc Pc Lm Pm Keep.
    destruct (FisherProofs3.evolution_ok N M A (d_coef Rring M) (d_coef Rring A)) with (T := T) (lambda := lambda) (m := steps) (lu := lu) (cap := cap) (mu := mu)
      as (self & sol & E1 & E2 & _ & _ & E3); auto; [split; auto|split; auto|]. exists self, sol. split; [exact E1|]. split; [exact E2|]. exact E3.
Qed.
End Theorems.

(** *** Example: one triangle *)
Definition side_geo (i : nat) : geo := mkGeo GSegmentO1 2 [nth i (go_cols tri) vzero; nth ((i + 1) mod 3) (go_cols tri) vzero].
Definition one_geom (e : ent) : geo := match e with EEdge i => side_geo i | _ => tri end.
Lemma one_proper : forall rule, at_points (rule kTria) (GeoSpec.in_ref kTria) -> proper_geometry one_mesh one_geom rule.
Proof.
  intros rule H. split.
  - intros e I. cbn in I. destruct I as [<-|[]]. split; [reflexivity|]. intros p Ip. specialize (H p Ip). destruct p as [|x [|y [|z l]]]; cbn in H; try contradiction.
    eexists. split; [reflexivity|]. cbn. unfold vsub. lra.
  - intros e I. apply filter_In in I as (I & _). cbn in I. destruct I as [<-|[<-|[<-|[]]]]; reflexivity.
Qed.
Lemma fisher_example : exists V make rule cc hh vol, let L := mkDense Rring 3 3 (fun _ _ => 0) in
  fisher_data one_mesh V one_geom make rule (fun x => 1 + x 0%nat ^ 2) (fun _ => 1) L cc hh vol /\ determining rule /\ positive_weights rule /\
  complete_mesh one_mesh /\ dissipative (fun x => 1 + x 0%nat ^ 2) (fun _ => 1) 3 L /\ NumDofs (sp_dofs V) = 3%nat /\ boundary_edge one_mesh (EEdge 0) = true.
Proof.
  destruct (PropQuad.C53_zeros_exist 2) as ((stop & F) & (stopj & F')). destruct (library_rules_ok stop stopj F F') as (rule & RU & DR & PW).
  destruct (lagrange_continuous O1 one_mesh (proj1 one_wf)) as (V & EV & _).
  exists V, (make_QuadRule (GaussLegendre stop) (GaussJacobi stopj) HardcodedQuadRule), rule,
    (fun e p => match Global (one_geom e) p with Ok x => 1 + x 0%nat ^ 2 | _ => 0 end), (fun _ _ => 1),
    (fun e p => match Jacobian (one_geom e) p with Ok J => sqrt (gramian_det (go_dim (one_geom e)) J) | _ => 0 end).
  assert (N3 : NumDofs (sp_dofs V) = 3%nat). { rewrite (proj1 (proj2 (V_is O1 one_mesh V EV))). reflexivity. }
  assert (VO : forall es, volumes one_geom (fun e p => match Jacobian (one_geom e) p with Ok J => sqrt (gramian_det (go_dim (one_geom e)) J) | _ => 0 end) es).
  { intros es e p _ Ad. destruct (jacobian_derivative (one_geom e) p Ad) as (J & HJ & _). exists J. rewrite HJ. auto. }
  cbv zeta. split; [constructor; try apply VO; auto; try (rewrite N3; reflexivity)|].
  - apply one_wf.
  - rewrite N3. lia.
  - apply one_proper. apply (RU kTria). discriminate.
  - intros e p x Ex. rewrite Ex. reflexivity.
  - intros e p x Ex. reflexivity.
  - split; [exact DR|]. split; [exact PW|]. split; [apply one_wf|]. split; [|split; [exact N3|reflexivity]].
    split; [intros x; pose proof (pow2_ge_0 (x 0%nat)); lra|]. split; [intros; lra|]. intros u. unfold pairing, act. cbn [d_coef].
    rewrite (sum_to_ext 3 _ (fun _ => 0)); [rewrite sum3'; lra|]. intros i _. rewrite sum3'. ring.
Qed.
Lemma integral_example : exists q vol h, forall e, In e (filter (fun _ => true) (entities one_mesh 0)) ->
  rule_on (q e) (one_geom e) (vol e) /\ values_at_points one_geom (fun x => x 0%nat * x 1%nat) h /\ qr_points (q e) <> [].
Proof.
  destruct (PropQuad.C53_zeros_exist 2) as ((stop & F) & (stopj & F')). destruct (library_rules_ok stop stopj F F') as (rule & RU & DR & PW).
  exists (fun _ => rule kTria), (fun e p => match Jacobian (one_geom e) p with Ok J => sqrt (gramian_det (go_dim (one_geom e)) J) | _ => 0 end),
    (fun e p => match Global (one_geom e) p with Ok x => x 0%nat * x 1%nat | _ => 0 end).
  intros e I. cbn in I. destruct I as [<-|[]]. destruct (RU kTria ltac:(discriminate)) as (_ & Lw & Ip). split; [|split].
  - split; [exact Lw|]. split; intros p Hp; specialize (Ip p Hp); destruct p as [|x [|y [|z l]]]; cbn in Ip; try contradiction.
    + split; [reflexivity|discriminate].
    + eexists. split; reflexivity.
  - intros e p x Ex. rewrite Ex. reflexivity.
  - intros Em. apply (R1_neq_R0). apply (DR kTria (or_introl eq_refl) (fun _ => 1)) with (i := 0%nat); [|cbn; lia]. intros p v Hp. rewrite Em in Hp. destruct Hp.
Qed.
