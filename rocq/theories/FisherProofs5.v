(** Proofs for C103: assembling onto a matrix. *)
From Coq Require Import Reals List Arith Lia Lra Bool.
Import ListNotations.
From Verif Require Import Base Scalars MeshModel MeshView DofModel DofSpec RefPatModel GeoModel GeoSpec GeoProofs GeoProofs3 FeModel LagrModel QuadModel AssembleModel AssembleSpec AssembleProofs
  FeSpec FeProofs LagrProofs LagrProofs2 LagrProofs3 QuadSpec ElemModel ElemSpec ElemProofs ElemProofs2 ElemProofs3 ElemProofs7 FeToolsModel FeToolsSpec
  FeToolsProofs2 FlagModel ProlongProofs2 GalerkinModel GalerkinSpec GalerkinProofs GalerkinProofs2 GalerkinProofs3 GalerkinProofs4 GalerkinProofs8 GalerkinProofs9 FisherSpec FisherModel2 FisherSpec2.
From Verif Require HierProofs PolyProofs FlagProofs FlagProofs2 RefineSpec.
Local Open Scope R_scope.

(** *** Adding to a matrix *)
Definition behind (T : list (nat * nat * R)) (A B : coo Rring) : Prop :=
  c_rows Rring A = c_rows Rring B /\ c_cols Rring A = c_cols Rring B /\ c_trip Rring B = T ++ c_trip Rring A.
Lemma behind_add : forall T i j v A B, behind T A B -> behind T (AddToEntry Rring i j v A) (AddToEntry Rring i j v B).
Proof. intros T i j v A B (H1 & H2 & H3). unfold behind, AddToEntry. cbn [c_rows c_cols c_trip]. rewrite H1, H2, H3, app_assoc. auto. Qed.
Lemma behind_local : forall T rows cols nr nc M A B, behind T A B -> behind T (add_local Rring rows cols nr nc M A) (add_local Rring rows cols nr nc M B).
Proof.
  intros T rows cols nr nc M. unfold add_local. induction (seq 0 nr) as [|i l IH]; intros A B H; [exact H|]. cbn [fold_left]. apply IH.
  clear IH. revert A B H. induction (seq 0 nc) as [|j k IH]; intros A B H; [exact H|]. cbn [fold_left]. apply IH, behind_add, H.
Qed.
Lemma behind_loop : forall T trial test active eval es A B A', behind T A B -> assemble_with_loop trial test active eval es A = Ok A' ->
  exists B', assemble_with_loop trial test active eval es B = Ok B' /\ behind T A' B'.
Proof.
  intros T trial test active eval es. induction es as [|e es IH]; intros A B A' H E; cbn [assemble_with_loop] in *.
  - injection E as <-. exists B. auto.
  - destruct (assemble_with trial test active eval e A) as [A1| |] eqn:E1; try discriminate E. cbn [bind] in E.
    assert (X : exists B1, assemble_with trial test active eval e B = Ok B1 /\ behind T A1 B1).
    { unfold assemble_with in *. destruct (active e); [|injection E1 as E1; exists B; rewrite <- E1; auto].
      destruct (NumLocalDofs test e); try discriminate E1. destruct (NumLocalDofs trial e); try discriminate E1.
      destruct (GlobalDofIndices test e); try discriminate E1. destruct (GlobalDofIndices trial e); try discriminate E1.
      destruct (eval e); try discriminate E1. cbn [bind] in *.
      destruct (lf_assert _); try discriminate E1. cbn [bind] in *. destruct (lf_assert _); try discriminate E1. cbn [bind] in *.
      destruct (lf_assert _); try discriminate E1. cbn [bind] in *. injection E1 as E1. eexists. split; [reflexivity|]. rewrite <- E1. apply behind_local, H. }
    destruct X as (B1 & -> & H1). cbn [bind]. eapply IH; eauto.
Qed.
Lemma onto_matrix : forall N trial test active eval es A D A1 D1, AssembleSpec.is_matrix Rring A N N D ->
  assemble_with_loop trial test active eval es (coo_new Rring N N) = Ok A1 -> AssembleSpec.is_matrix Rring A1 N N D1 ->
  exists B, assemble_with_loop trial test active eval es A = Ok B /\ AssembleSpec.is_matrix Rring B N N (fun i j => D i j + D1 i j).
Proof.
  intros N trial test active eval es A D A1 D1 HA E H1. destruct (is_matrix_ok Rring _ _ _ _ HA) as (O & R1 & C1 & V1). destruct (is_matrix_ok Rring _ _ _ _ H1) as (O' & R2 & C2 & V2).
  destruct (behind_loop (c_trip Rring A) trial test active eval es (coo_new Rring N N) A A1) as (B & EB & B1 & B2 & B3).
  { split; [cbn; congruence|]. split; [cbn; congruence|]. cbn. rewrite app_nil_r. reflexivity. }
  { exact E. }
  exists B. split; [exact EB|]. apply is_matrix_intro.
  - unfold coo_ok in *. rewrite B3, <- B1, <- B2. apply Forall_app. split; [rewrite R2, C2; rewrite R1, C1 in O; exact O|exact O'].
  - congruence.
  - congruence.
  - intros i j Hi Hj. rewrite B3. rewrite tval_app, V1, V2 by assumption. reflexivity.
Qed.
Lemma sparse_square : forall A N D, (0 < N)%nat -> AssembleSpec.is_matrix Rring A N N D -> exists M, makeSparse Rring A = Ok M /\ square N M D.
Proof.
  intros A N D P (H1 & H2 & M & E & R1 & R2 & H). exists M. unfold makeSparse, verify. rewrite H1, H2, (proj2 (Nat.ltb_lt 0 N) P). cbn [andb bind]. split; [exact E|].
  split; [exact R1|]. split; [exact R2|exact H].
Qed.

(** *** Forms *)
Lemma form_pairing : forall N D u v, form Rring N N D (comp Rring v) (comp Rring u) = pairing N D (vector v) (vector u).
Proof.
  intros N D u v. unfold form, pairing. rewrite sumn_to. apply sum_to_ext. intros i _. unfold mv, act. rewrite sumn_to. reflexivity.
Qed.
Lemma pairing_plus : forall N D E v u, pairing N (fun i j => D i j + E i j) v u = pairing N D v u + pairing N E v u.
Proof.
  intros N D E v u. unfold pairing, act. rewrite <- sum_to_plus. apply sum_to_ext. intros i _. rewrite <- Rmult_plus_distr_l. f_equal. rewrite <- sum_to_plus.
  apply sum_to_ext. intros. ring.
Qed.
Lemma pairing_minus : forall N D E v u, pairing N (fun i j => D i j - E i j) v u = pairing N D v u - pairing N E v u.
Proof.
  intros N D E v u. assert (H : pairing N D v u = pairing N (fun i j => D i j - E i j) v u + pairing N E v u); [|lra].
  rewrite <- pairing_plus. unfold pairing, act. apply sum_to_ext. intros. f_equal. apply sum_to_ext. intros. ring.
Qed.
Lemma no_diffusion : forall V geom q vol es u v x, diffusion_form V geom q vol es (fun _ _ => Scal 0) u v x -> x = 0.
Proof.
  intros V geom q vol es u v x (U & X & HU & HX & ->). transitivity (sum_over es (fun _ => 0)).
  - apply over_ext. intros e _. rewrite (quad_ext (q e) _ (fun _ => 0)); [apply PolyProofs.quadrature_zero|]. intros p _.
    replace (inner (go_dim (geom e)) (X e p) (flux (go_dim (geom e)) (Scal 0) (U e p))) with 0; [ring|].
    symmetry. rewrite inner_rsum. apply sum_all_zero. intros k _. cbn [flux]. ring.
  - apply sum_all_zero. reflexivity.
Qed.

(** *** Rules and coefficients *)
Lemma rules_admissible : forall g t p, kind_el (go_kind g) = t -> GeoSpec.in_ref t p -> GeoSpec.admissible g p.
Proof.
  intros g t p <- H. unfold GeoSpec.admissible. destruct (go_kind g), p as [|a [|b [|c l]]]; cbn in *; try contradiction; split; try reflexivity; try discriminate;
    intros _ s I; repeat destruct I as [<-|I]; try contradiction; lra.
Qed.
Lemma ref_length : forall t p, GeoSpec.in_ref t p -> length p = dimension t.
Proof. intros t p H. destruct t, p as [|a [|b [|c l]]]; cbn in *; try contradiction; reflexivity. Qed.
Lemma global_given : forall A geom (f : vec -> A) h q es, values_at_points geom f h ->
  (forall e, In e es -> at_points (q e) (GeoSpec.admissible (geom e))) -> given_by (mf_global geom f) h q es.
Proof.
  intros A geom f h q es H Ad e I p Ip. unfold value_at, mf_global. rewrite (Global_ok _ _ (Ad e I p Ip)). cbn [bind]. f_equal. symmetry. apply (H e p), Global_ok, Ad; assumption.
Qed.
Lemma precompute_ok : forall k t q, t <> kPoint -> at_points q (GeoSpec.in_ref t) -> exists p, precompute (lagrange k t) q = Ok p.
Proof.
  intros k t q NP H. destruct (lagrange_describes k t) as (E1 & _ & E3 & _).
  destruct (HierProofs.traverse_all _ _ (fe_eval (lagrange k t)) (qr_points q)) as (sh & Es).
  { intros p I. destruct (co_eval _ E3 p) as (v & Ev & _); [rewrite E1; apply ref_length, H, I|eauto]. }
  destruct (HierProofs.traverse_all _ _ (fe_grad (lagrange k t)) (qr_points q)) as (gr & Eg).
  { intros p I. destruct (lagrange_gradients k t NP p) as (v & Ev & _); [rewrite E1; apply ref_length, H, I|eauto]. }
  unfold precompute. rewrite Es, Eg. cbn [bind]. eauto.
Qed.
Lemma precomps_ok : forall make rule, rules_for make rule -> exists P pfe,
  precompute_default make (fun t => Some (lagrange O1 t)) = Ok P /\ precompute_edge make (fun t => Some (lagrange O1 t)) None = Ok pfe.
Proof.
  intros make rule H. destruct (H kTria ltac:(discriminate)) as (T1 & _ & T2). destruct (H kQuad ltac:(discriminate)) as (Q1 & _ & Q2). destruct (H kSegment ltac:(discriminate)) as (S1 & _ & S2).
  destruct (precompute_ok O1 kTria (rule kTria)) as (a & Ea); [discriminate|exact T2|]. destruct (precompute_ok O1 kQuad (rule kQuad)) as (b & Eb); [discriminate|exact Q2|].
  destruct (precompute_ok O1 kSegment (rule kSegment)) as (s & Esg); [discriminate|exact S2|].
  exists (mkPrecomps (Some a) (Some b)), s. unfold precompute_default, precompute_edge.
  change (2 * fe_degree (lagrange O1 kTria))%nat with 2%nat. change (2 * fe_degree (lagrange O1 kQuad))%nat with 2%nat. change (2 * fe_degree (lagrange O1 kSegment))%nat with 2%nat.
  rewrite T1, Q1, S1. cbn [bind]. rewrite Ea. cbn [bind]. rewrite Eb. cbn [bind]. auto.
Qed.
Lemma boundary_flags : forall m, wf_mesh m -> exists d, flag_boundary m 1 = Ok d /\ filter (edges_predicate d) (entities m 1) = filter (boundary_edge m) (entities m 1).
Proof.
  intros m W. destruct (FlagProofs.flag_boundary_correct m 1 W) as (F & _). destruct F as (d & E & Cd & L & _); [lia|].
  destruct (FlagProofs2.edge_flags m W) as (d' & E' & _ & H). rewrite E in E'. injection E' as <-.
  exists d. split; [exact E|]. apply filter_ext_in. intros e I. destruct (in_edges m e I) as (i & -> & Ve). cbn [edges_predicate boundary_edge]. unfold dget.
  rewrite Cd. cbn [Nat.eqb lf_assert bind]. destruct (nth_error (d_data d) i) as [x|] eqn:Hx.
  - specialize (H i x Hx). destruct (Nat.eqb_spec (RefineSpec.adjacent m i) 1) as [E2|E2]; [apply H, E2|]. destruct x; [exfalso; apply E2, H; reflexivity|reflexivity].
  - exfalso. apply nth_error_None in Hx. rewrite L in Hx. cbn in Ve, Hx. lia.
Qed.
