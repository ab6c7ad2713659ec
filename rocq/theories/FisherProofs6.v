(** Proofs for C103: the matrices of the Fisher-KPP project. *)
From Coq Require Import Reals List Arith Lia Lra Bool.
Import ListNotations.
From Verif Require Import Base Scalars MeshModel MeshView DofModel DofSpec RefPatModel GeoModel GeoSpec GeoProofs GeoProofs3 FeModel LagrModel QuadModel AssembleModel AssembleSpec AssembleProofs
  FeSpec FeProofs LagrProofs LagrProofs2 LagrProofs3 QuadSpec ElemModel ElemSpec ElemProofs ElemProofs2 ElemProofs3 ElemProofs7 FeToolsModel FeToolsSpec
  FeToolsProofs2 FlagModel ProlongProofs2 GalerkinModel GalerkinSpec GalerkinProofs GalerkinProofs2 GalerkinProofs3 GalerkinProofs4 GalerkinProofs8 GalerkinProofs9 FisherSpec FisherModel2 FisherSpec2 FisherProofs5.
Local Open Scope R_scope.

Section Matrices.
Variables (m : mesh) (V : fe_space) (geom : ent -> geo) (make : refel -> nat -> res quadrule) (rule : refel -> quadrule) (c h : vec -> R) (L : dense Rring) (DL : nat -> nat -> R).
Let N := NumDofs (sp_dofs V).
Let q := fun e => rule (ent_type m e).
Let cells := entities m 0.
Let bd := filter (boundary_edge m) (entities m 1).
Hypothesis W : wf_mesh m.
Hypothesis EV : lagrange_space O1 m = Ok V.
Hypothesis NN : (0 < N)%nat.
Hypothesis RU : rules_for make rule.
Hypothesis PG : proper_geometry m geom rule.
Hypothesis HL : square N L DL.
Variables (cc hh : ent -> list R -> R).
Hypothesis HC : values_at_points geom c cc.
Hypothesis HH : values_at_points geom h hh.

Lemma cells_all : filter (fun _ : ent => true) (entities m 0) = cells.
Proof. unfold cells. induction (entities m 0) as [|e l IH]; [reflexivity|]. cbn [filter]. rewrite IH. reflexivity. Qed.
Lemma layouts : uniform_layout V (fun t => Some (lagrange O1 t)).
Proof. intros e. rewrite (lagrange_mesh O1 m V EV). apply (V_is O1 m V EV). Qed.
Lemma cell_fits : forall e, In e cells -> kind_el (go_kind (geom e)) = ent_type m e /\ make (ent_type m e) 2%nat = Ok (q e) /\
  length (qr_weights (q e)) = length (qr_points (q e)) /\ at_points (q e) (GeoSpec.admissible (geom e)) /\ at_points (q e) (nondegenerate (geom e)).
Proof.
  intros e I. destruct (proj1 PG e I) as (K & ND). destruct (RU (ent_type m e)) as (Em & Lw & IR); [destruct (lagrange_cell m W e I) as [-> | ->]; discriminate|].
  do 3 (split; [assumption|]). split; [|exact ND]. intros p Ip. apply (rules_admissible _ _ _ K), IR, Ip.
Qed.
Lemma edge_fits : forall e, In e bd -> kind_el (go_kind (geom e)) = kSegment /\ make kSegment 2%nat = Ok (q e) /\
  length (qr_weights (q e)) = length (qr_points (q e)) /\ at_points (q e) (GeoSpec.admissible (geom e)).
Proof.
  intros e I. pose proof (proj2 PG e I) as K. apply filter_In in I as (I & _). destruct (in_edges m e I) as (i & -> & _). cbn [ent_type] in K. unfold q. cbn [ent_type] in *.
  destruct (RU kSegment) as (Em & Lw & IR); [discriminate|]. do 3 (split; [assumption|]). intros p Ip. apply (rules_admissible _ _ _ K), IR, Ip.
Qed.
Lemma cell_dim : of_dim geom 2 cells.
Proof.
  intros e I. destruct (cell_fits e I) as (K & _). destruct (lagrange_cell m W e I) as [E|E]; rewrite E in K; destruct (go_kind (geom e)); try discriminate; reflexivity.
Qed.
Lemma edge_dim : of_dim geom 1 bd.
Proof. intros e I. destruct (edge_fits e I) as (K & _). destruct (go_kind (geom e)); try discriminate; reflexivity. Qed.

(** The data of the forms. *)
Definition good_volumes (vol vole : ent -> list R -> R) : Prop :=
  volumes geom vol cells /\ volumes geom vole bd /\ prepared V geom make q vol cells /\ regular V geom q cells /\ prepared V geom (edge_rule make None) q vole bd.
Lemma volumes_exist : exists vol vole, good_volumes vol vole.
Proof.
  destruct (lagrange_prepared O1 m V W EV 0 (fun _ => true) geom make q (or_introl eq_refl)) as (vol & VO & Pr & Re).
  { intros e I. rewrite cells_all in I. destruct (cell_fits e I) as (A1 & A2 & A3 & A4 & _). do 3 (split; [assumption|]). exact A4. }
  rewrite cells_all in *. specialize (Re (fun e I => proj2 (proj2 (proj2 (proj2 (cell_fits e I)))))).
  destruct (lagrange_prepared O1 m V W EV 1 (boundary_edge m) geom (edge_rule make None) q (or_intror eq_refl)) as (vole & VO' & Pr' & _).
  { intros e I. destruct (edge_fits e I) as (A1 & A2 & A3 & A4). assert (T : ent_type m e = kSegment). { apply filter_In in I as (I & _). destruct (in_edges m e I) as (i & -> & _). reflexivity. }
    rewrite T. do 3 (split; [assumption|]). exact A4. }
  exists vol, vole. split; [exact VO|]. split; [exact VO'|]. split; [exact Pr|]. split; [exact Re|exact Pr'].
Qed.

Theorem matrices_ok : forall vol vole, good_volumes vol vole -> exists A M DA DM,
  assembleGalerkinMatrices make m geom (sp_dofs V) c h L = Ok (A, M) /\ square N A DA /\ square N M DM /\
  forall u v, length u = N -> length v = N ->
    (forall x y, diffusion_form V geom q vol cells (fun e p => Scal (cc e p)) u v x -> mass_form V q vole bd hh u v y ->
       pairing N DA (vector v) (vector u) = x + y - pairing N DL (vector v) (vector u)) /\
    (forall x, mass_form V q vol cells (fun _ _ => 1) u v x -> pairing N DM (vector v) (vector u) = x).
Proof.
  intros vol vole (_ & _ & Pr & Re & Pr').
  destruct (precomps_ok make rule RU) as (P & pfe & EP & Ee). destruct (boundary_flags m W) as (d & Ed & Eb).
  assert (EM := lagrange_mesh O1 m V EV).
  assert (Ad : forall e, In e cells -> at_points (q e) (GeoSpec.admissible (geom e))) by (intros e I; apply (cell_fits e I)).
  pose proof (rd_assembled V geom make q vol 0 (fun _ => true) (fun t => Some (lagrange O1 t)) P
    (mf_global geom (fun x => Scal (c x))) (mf_global geom (fun _ => 0)) (fun e p => Scal (cc e p)) (fun _ _ => 0)) as G1.
  cbv zeta in G1. rewrite EM, cells_all in G1. specialize (G1 Pr layouts EP cell_dim Re).
  pose proof (rd_assembled V geom make q vol 0 (fun _ => true) (fun t => Some (lagrange O1 t)) P
    (mf_global geom (fun x => Scal 0)) (mf_global geom (fun _ => 1)) (fun e p => Scal 0) (fun _ _ => 1)) as G2.
  cbv zeta in G2. rewrite EM, cells_all in G2. specialize (G2 Pr layouts EP cell_dim Re).
  pose proof (umass_edge_assembled V geom make None q vole 1 (edges_predicate d) (fun t => Some (lagrange O1 t)) pfe (mf_global geom h) hh) as G3.
  cbv zeta in G3. rewrite EM, Eb in G3. fold bd in G3. specialize (G3 Pr' layouts Ee edge_dim).
  destruct G1 as (A0 & D0 & E0 & M0 & F0).
  { apply global_given; [|exact Ad]. intros e p x E. cbv beta. rewrite (HC e p x E). reflexivity. }
  { apply global_given; [|exact Ad]. intros e p x E. reflexivity. }
  destruct G2 as (A1 & D1 & E1 & M1 & F1).
  { apply global_given; [|exact Ad]. intros e p x E. reflexivity. }
  { apply global_given; [|exact Ad]. intros e p x E. reflexivity. }
  destruct G3 as (A2 & D2 & E2 & M2 & F2).
  { apply global_given; [exact HH|]. intros e I. apply (edge_fits e I). }
  destruct (onto_matrix _ _ _ _ _ _ A0 D0 A2 D2 M0 E2 M2) as (A3 & E3 & M3). fold N in M3, M1, E3, F0, F1, F2.
  destruct (sparse_square _ _ _ NN M3) as (As & Es & (R1 & R2 & R3)). destruct (sparse_square _ _ _ NN M1) as (Ms & Em & Sm).
  exists (mkDense Rring (d_rows Rring As) (d_cols Rring As) (fun i j => d_coef Rring As i j - d_coef Rring L i j)), Ms, (fun i j => D0 i j + D2 i j - DL i j), D1.
  split; [|split; [|split; [exact Sm|]]].
  - unfold assembleGalerkinMatrices, assemble_onto. cbv zeta. rewrite Ed. cbn [bind]. rewrite EP. cbn [bind]. rewrite Ee. cbn [bind].
    unfold AssembleMatrixWith in E0, E1. fold N in E0, E1. fold N. change (setZero Rring (coo_new Rring N N)) with (coo_new Rring N N) in E0, E1. rewrite E0. cbn [bind]. rewrite E1. cbn [bind].
    rewrite E3. cbn [bind]. rewrite Es. cbn [bind]. rewrite Em. cbn [bind]. destruct HL as (L1 & L2 & _). rewrite L1, L2, R1, R2, Nat.eqb_refl. reflexivity.
  - split; [exact R1|]. split; [exact R2|]. intros i j Hi Hj. cbn [d_coef]. rewrite R3 by assumption. destruct HL as (_ & _ & L3). rewrite L3 by assumption. reflexivity.
  - intros u v Lu Lv. split.
    + intros x y Hx Hy. rewrite (pairing_minus N (fun i j => D0 i j + D2 i j) DL), (pairing_plus N D0 D2). rewrite <- !form_pairing.
      destruct (mass_defined V geom make q vol 0 (fun _ => true) (fun _ _ => 0) u v) as (z & Hz); [rewrite EM, cells_all; exact Pr|exact Lu|exact Lv|].
      rewrite EM, cells_all in Hz.
      rewrite (F0 u v (x + z) Lu Lv) by (exists x, z; auto). rewrite (F2 u v y Lu Lv Hy).
      replace z with 0; [ring|]. destruct Hz as (U & X & _ & _ & ->). symmetry. apply sum_all_zero. intros e _.
      rewrite (quad_ext (q e) _ (fun _ => 0)); [apply PolyProofs.quadrature_zero|]. intros. ring.
    + intros x Hx. rewrite <- form_pairing.
      destruct (diffusion_defined V geom make q vol 0 (fun _ => true) (fun _ _ => Scal 0) u v) as (z & Hz); try rewrite EM, cells_all; [exact Pr|exact cell_dim|exact Re|exact Lu|exact Lv|].
      rewrite EM, cells_all in Hz. rewrite (F1 u v (z + x) Lu Lv) by (exists z, x; auto). rewrite (no_diffusion _ _ _ _ _ _ _ _ Hz). ring.
Qed.
End Matrices.
