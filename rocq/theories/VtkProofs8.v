(** Proofs for C71 - C73: examples and counterexamples. *)
From Coq Require Import Reals String List Arith Bool Lia Lra.
Import ListNotations.
From Verif Require Import Base PropRefine MeshModel MeshView DofModel DofSpec AssembleModel GeoModel GeoSpec FeModel FeSpec FeToolsModel TransferSpec ProlongSpec
  ConformSpec ConformProofs3 ConformProofs4 VtkModel VtkSpec VtkProofs VtkProofs2 VtkProofs3 VtkProofs4 VtkProofs5 VtkProofs6 VtkProofs7.
Local Open Scope R_scope.
Definition flat : ent -> geo := plain places closure_mesh.
Lemma closure_writable : forall codim n, (codim < 2)%nat -> (1 <= n <= 10)%nat -> writable closure_mesh 2 flat codim n.
Proof.
  intros codim n HC Hn. pose proof closure_mesh_wf as [W _]. split; [exact W|]. split; [apply straight_watertight with places; [exact W|exact straight_example]|].
  split; [intros e V; apply (straight_example e V)|]. auto.
Qed.
Lemma written0 : written closure_mesh 0 (ECell 0). Proof. split; [cbn; lia|reflexivity]. Qed.
Lemma written2 : written closure_mesh 0 (ECell 2). Proof. split; [cbn; lia|reflexivity]. Qed.
(** Order 7: a point of the inner triangle. *)
Lemma order7 : exists m d geom w c p v, writable m d geom 0 7 /\ new_writer m geom d (fun x => x) 0 7 = Ok w /\ written m 0 (ECell 0) /\ ent_type m (ECell 0) = kTria /\
  (33 < vtk_size kTria 7)%nat /\ nth_error (g_cells (vf_grid (vw_file w))) 0 = Some c /\ nth_error c 33 = Some p /\
  place d (fun x => x) geom (ECell 0) (vtk_position kTria 7 33) = Ok v /\ nth_error (g_points (vf_grid (vw_file w))) p <> Some (Some v).
Proof.
  pose proof (closure_writable 0 7 ltac:(lia) ltac:(lia)) as WR. pose proof WR as (W & WT & HS & Hd & HC & Hn).
  destruct (new_writer_ok closure_mesh 2 flat (fun x => x) 0 7 W WT HS Hd HC Hn) as (w & E & SD & VC & VT & FL & _).
  exists closure_mesh, 2%nat, flat, w. eexists. exists (vidx closure_mesh 7 (InCell 0 12)). eexists. split; [exact WR|]. split; [exact E|]. split; [exact written0|]. split; [reflexivity|]. split; [vm_compute; lia|].
  split; [apply (VC _ written0)|]. split; [reflexivity|].
  assert (PV : forall x y, place 2 (fun z => z) flat (ECell 0) [x; y] = Ok (0 + (x * (1 - 0) + y * (1 - 0)), 0 + (x * (0 - 0) + y * (1 - 0)), 0)).
  { intros x y. unfold place. cbn. unfold in_file, vsub. cbn. f_equal. f_equal. f_equal; ring. }
  assert (VP : vtk_position kTria 7 33 = [INR 2 / INR 7; INR 2 / INR 7]) by reflexivity.
  rewrite VP, PV. split; [reflexivity|]. destruct FL as [_ FL]. destruct (FL (InCell 0 12)) as (v & F1 & F2). { split; [reflexivity|]. eexists. split; [reflexivity|]. vm_compute. lia. }
  assert (AP : loc_point closure_mesh 7 (InCell 0 12) = [1 / 4 * (INR 7 - 6) / INR 7 + 2 / INR 7; 1 / 4 * (INR 7 - 6) / INR 7 + 2 / INR 7]) by reflexivity.
  rewrite AP in F1. cbn [loc_ent] in F1. rewrite PV in F1. apply Ok_inj in F1. subst v. rewrite F2. intros X. injection X as _ X. cbn in X. lra.
Qed.
(** Quadrilaterals: the value is not the one at the centre. *)
Lemma quad_centre : exists m d geom w w' u data, writable m d geom 0 1 /\ new_writer m geom d (fun x => x) 0 1 = Ok w /\ agreeing m 1 u /\ (forall e x, written m 0 e -> in_ref (ent_type m e) x -> exists v, u e x = Ok v) /\
  vtk_step m w (CellFunction "f" TDouble u) = Ok w' /\ vf_cell (vw_file w') = [ScalarData "f" TDouble data] /\ written m 0 (ECell 2) /\
  exists v, u (ECell 2) (centre (ent_type m (ECell 2))) = Ok v /\ nth_error data 2 <> Some (Some v).
Proof.
  pose proof (closure_writable 0 1 ltac:(lia) ltac:(lia)) as WR. pose proof WR as (W & WT & HS & Hd & HC & Hn).
  destruct (new_writer_ok closure_mesh 2 flat (fun x => x) 0 1 W WT HS Hd HC Hn) as (w & E & SD & _ & _ & _ & P1 & P2 & P3).
  set (u := fun (e : ent) (x : list R) => match e with ECell _ => Ok (nth 0 x 0) | _ => Ok 0 end).
  destruct (cell_values R closure_mesh 2 flat (fun x => x) 0 1 w (fun e => u e (barycenter (ent_type closure_mesh e))) WR) as (data & D1 & CO & D2).
  { exists w, []. split; auto. } { intros e _. destruct e; cbn; eauto. }
  exists closure_mesh, 2%nat, flat, w, (add_cell w (ScalarData "f" TDouble data)), u, data. split; [exact WR|]. split; [exact E|]. split.
  { split; try discriminate; [intros e x _ _ _; destruct e; cbn; eauto|]. intros e a b _. cbn. auto. }
  split; [intros e x _ _; destruct e; cbn; eauto|]. split.
  { cbn [vtk_step]. rewrite check_accepts. 2: { split; [rewrite P2; intros []|reflexivity]. } cbn [bind]. rewrite D1. reflexivity. }
  split; [cbn; rewrite P2; reflexivity|]. split; [exact written2|]. exists (1 / 2). split; [reflexivity|]. destruct (D2 _ written2) as (v & V1 & V2). cbn in V1. apply Ok_inj in V1. subst v. cbn [ent_index] in V2. rewrite V2. intros X. injection X as X. lra.
Qed.
(** Vectors of other sizes: an assertion. *)
Lemma long_vector : exists m d geom w, writable m d geom 0 1 /\ new_writer m geom d (fun x => x) 0 1 = Ok w /\ acceptable (point_names w) "v" /\
  forall t ds, vtk_step m w (PointVectors "v" t ds [1; 2; 3; 4]) = Assert.
Proof.
  pose proof (closure_writable 0 1 ltac:(lia) ltac:(lia)) as WR. pose proof WR as (W & WT & HS & Hd & HC & Hn).
  destruct (new_writer_ok closure_mesh 2 flat (fun x => x) 0 1 W WT HS Hd HC Hn) as (w & E & SD & _ & _ & _ & P1 & P2 & P3).
  assert (AC : acceptable (point_names w) "v") by (split; [unfold point_names; rewrite P1; intros []|reflexivity]).
  exists closure_mesh, 2%nat, flat, w. split; [exact WR|]. split; [exact E|]. split; [exact AC|]. intros t ds. cbn [vtk_step]. rewrite (sd_order _ _ _ _ _ SD). cbn [Nat.eqb lf_assert bind]. fold (point_names w). rewrite check_accepts by exact AC. reflexivity.
Qed.
(** An example of a history. *)
Definition sum_of (f : geo) (x : list R) : res R := do p <- Global f x; Ok (p 0%nat + p 1%nat).
Lemma sum_agrees : forall codim, agreeing closure_mesh codim (fun e x => sum_of (flat e) x).
Proof.
  intros codim. pose proof (closure_writable 0 1 ltac:(lia) ltac:(lia)) as (W & WT & HS & _).
  assert (SP : forall e x e' x', same_point (flat e) x (flat e') x' -> sum_of (flat e) x = sum_of (flat e') x').
  { intros e x e' x' (D & p & q & Gp & Gq & EQ). unfold sum_of. rewrite Gp, Gq. cbn [bind]. rewrite !EQ by (cbn; lia). reflexivity. }
  split.
  - intros e x V _ Hx. destruct (shape_value closure_mesh flat e x HS V Hx) as (v & Ev). unfold sum_of. rewrite Ev. cbn. eauto.
  - intros. apply SP. eapply wt_edge; eauto.
  - intros. apply SP. eapply wt_corner; eauto.
  - intros e a b Ee. destruct (wt_ends _ _ _ WT e a b Ee). auto.
Qed.
Definition history : list vtk_op :=
  [SetBinary true; PointFunction "u" TFloat (fun e x => sum_of (flat e) x); CellScalars "index" TInt (fun e => Some (INR (ent_index e))) 0; PointFunction "u" TDouble (fun e x => sum_of (flat e) x);
   CellScalars "a b" TInt (fun e => None) 0; CellVectorFunction "v" TDouble (fun e x => Ok [1; 2]); GlobalData "time" TDouble [1]].
Lemma sum_safe : forall e x, valid closure_mesh e -> in_ref (ent_type closure_mesh e) x -> sum_of (flat e) x <> Assert.
Proof. intros e x V Hx. destruct (ag_value _ _ _ (sum_agrees 0) e x V ltac:(lia) Hx) as (v & Ev). rewrite Ev. discriminate. Qed.
Lemma history_harmless : Forall (harmless closure_mesh 3) history.
Proof.
  assert (NA := sum_safe). unfold history. repeat (apply Forall_cons || apply Forall_nil); cbn [harmless]; auto; try exact I; try exact NA.
  intros e x _ _. split; [discriminate|]. intros v X. injection X as <-. left; reflexivity.
Qed.
Lemma run_app : forall m a b x y, run_vtk m a b = Ok x -> run_vtk m x y = run_vtk m a (b ++ y).
Proof. intros m a b. revert a. induction b as [|o b IH]; intros a x y X; cbn [run_vtk app] in *; [apply Ok_inj in X; subst; reflexivity|]. destruct (vtk_step m a o); try discriminate; apply IH; auto. Qed.
Lemma history_example : exists w0 w, writable closure_mesh 2 flat 0 3 /\ new_writer closure_mesh flat 2 (fun x => x) 0 3 = Ok w0 /\ run_vtk closure_mesh w0 history = Ok w /\ length (g_points (vf_grid (vw_file w))) = 28%nat /\ point_names w = ["u"%string] /\ cell_names w = ["index"; "v"]%string /\ map fd_name (vf_field (vw_file w)) = ["time"%string] /\ vf_binary (vw_file w) = true.
Proof.
  pose proof (closure_writable 0 3 ltac:(lia) ltac:(lia)) as WR. pose proof WR as (W & WT & HS & Hd & HC & Hn).
  destruct (new_writer_ok closure_mesh 2 flat (fun x => x) 0 3 W WT HS Hd HC Hn) as (w & E & SD & _ & _ & _ & P1 & P2 & P3).
  pose (cast := fun x : R => x). assert (MD : forall ops w', run_vtk closure_mesh w ops = Ok w' -> made closure_mesh 2 flat cast 0 3 w') by (intros ops w' X; exists w, ops; auto).
  set (u := fun e x => sum_of (flat e) x). unfold history. fold u.
  exists w. cbn [run_vtk vtk_step]. set (w1 := with_file w _).
  assert (M1 : made closure_mesh 2 flat cast 0 3 w1) by (exists w, [SetBinary true]; split; [exact E|reflexivity]).
  destruct (point_function closure_mesh 2 flat cast 0 3 w1 "u" TFloat u WR M1 (sum_agrees 0)) as (w2 & d2 & S2 & Q2 & _). { split; [cbn; rewrite P1; intros []|reflexivity]. }
  destruct M1 as (wi & ops & A1 & A2).
  pose proof (run_app closure_mesh) as RA.
  assert (M2 : made closure_mesh 2 flat cast 0 3 w2). { exists wi, (ops ++ [PointFunction "u" TFloat u]). split; auto. rewrite <- (RA _ _ _ _ A2). cbn [run_vtk]. rewrite S2. reflexivity. }
  destruct Q2 as (_ & _ & _ & _ & _ & B2 & G2 & F2 & PP2 & C2).
  destruct (cell_scalars closure_mesh 2 flat cast 0 3 w2 "index" TInt (fun e => Some (INR (ent_index e))) 0 WR M2) as (w3 & d3 & S3 & Q3 & _). { split; [unfold cell_names; rewrite C2; cbn; rewrite P2; intros []|reflexivity]. }
  assert (M3 : made closure_mesh 2 flat cast 0 3 w3). { destruct M2 as (a & b & X1 & X2). exists a, (b ++ [CellScalars "index" TInt (fun e => Some (INR (ent_index e))) 0]). split; auto. rewrite <- (RA _ _ _ _ X2). cbn [run_vtk]. rewrite S3. reflexivity. }
  destruct Q3 as (_ & _ & _ & _ & _ & B3 & G3 & F3 & PP3 & C3).
  assert (N3 : point_names w3 = ["u"%string]) by (unfold point_names; rewrite PP3, PP2; cbn; rewrite P1; reflexivity).
  assert (K3 : cell_names w3 = ["index"%string]) by (unfold cell_names; rewrite C3, C2; cbn; rewrite P2; reflexivity).
  assert (R4 : vtk_step closure_mesh w3 (PointFunction "u" TDouble u) = Throw). { eapply rejected; [exact WR|exact M3|exact sum_safe|reflexivity|]. cbn [names_for]. rewrite N3. intros [X _]. apply X. left; reflexivity. }
  assert (R5 : vtk_step closure_mesh w3 (CellScalars "a b" TInt (fun e => None) 0) = Throw). { eapply rejected; [exact WR|exact M3|exact I|reflexivity|]. intros [_ X]. discriminate. }
  destruct (cell_vector_function closure_mesh 2 flat cast 0 3 w3 "v" TDouble (fun e x => Ok [1; 2]) WR M3) as (w6 & d6 & S6 & Q6 & _). { split; [rewrite K3; intros [X|[]]; discriminate|reflexivity]. } { intros. eexists. split; [reflexivity|left; reflexivity]. }
  destruct Q6 as (_ & _ & _ & _ & _ & B6 & G6 & F6 & PP6 & C6).
  change (do _ <- CheckAttributeSetName (map a_name (vf_point (vw_file w1))) "u"; do data <- mf_points closure_mesh w1 u; Ok (add_point w1 (ScalarData "u" TFloat data))) with (vtk_step closure_mesh w1 (PointFunction "u" TFloat u)). rewrite S2.
  match goal with |- context [match ?t with _ => _ end] => change t with (vtk_step closure_mesh w2 (CellScalars "index" TInt (fun e => Some (INR (ent_index e))) 0)) end. rewrite S3.
  match goal with |- context [match ?t with _ => _ end] => change t with (vtk_step closure_mesh w3 (PointFunction "u" TDouble u)) end. rewrite R4.
  match goal with |- context [match ?t with _ => _ end] => change t with (vtk_step closure_mesh w3 (CellScalars "a b" TInt (fun e => None) 0)) end. rewrite R5.
  match goal with |- context [match ?t with _ => _ end] => change t with (vtk_step closure_mesh w3 (CellVectorFunction "v" TDouble (fun e x => Ok [1; 2]))) end. rewrite S6.
  assert (FE : vf_field (vw_file w6) = []) by (rewrite F6, F3, F2; cbn; exact P3). rewrite FE. cbn [map]. rewrite check_accepts by (split; [intros []|reflexivity]). cbn [bind].
  eexists. split; [exact WR|]. split; [exact E|]. split; [reflexivity|]. cbn [with_file vw_file vf_grid point_names cell_names vf_point vf_cell vf_field map]. unfold point_names, cell_names. cbn [with_file vw_file vf_grid vf_point vf_cell vf_field vf_binary].
  split; [rewrite G6, G3, G2; cbn; rewrite (sd_length _ _ _ _ _ SD); reflexivity|]. split; [rewrite PP6; exact N3|]. split; [rewrite C6, map_app; change (map a_name (vf_cell (vw_file w3))) with (cell_names w3); rewrite K3; reflexivity|].
  split; [reflexivity|]. rewrite B6, B3, B2. reflexivity.
Qed.
