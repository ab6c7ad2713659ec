(** Proofs for C71 - C73: the properties. *)
From Coq Require Import Reals String List Arith Bool Lia Lra.
Import ListNotations.
From Verif Require Import Base MeshModel MeshView DofModel DofSpec AssembleModel GeoModel GeoSpec FeModel FeSpec FeToolsModel TransferSpec ProlongSpec TransferProofs2 TransferProofs3 GeoProofs ProlongProofs
  ConformSpec ConformProofs2 VtkModel VtkSpec VtkProofs VtkProofs2 VtkProofs3 VtkProofs4 VtkProofs5 VtkProofs6.
Local Open Scope nat_scope.

Theorem grid_ok : forall m d geom cast codim n, writable m d geom codim n -> exists w idx, new_writer m geom d cast codim n = Ok w /\
  let g := vf_grid (vw_file w) in
  numbering m codim n (length (g_points g)) idx /\ length (g_cells g) = mv_count m codim /\ length (g_types g) = mv_count m codim /\
  (forall e, written m codim e -> nth_error (g_cells g) (ent_index e) = Some (map (fun r => idx (ent_location m n e r)) (seq 0 (vtk_size (ent_type m e) n))) /\
     nth_error (g_types g) (ent_index e) = Some (vtk_type (ent_type m e) n)) /\
  complete (length (g_points g)) (g_points g) /\ samples m codim n (g_cells g) (g_points g) (place d cast geom) /\
  vf_point (vw_file w) = [] /\ vf_cell (vw_file w) = [] /\ vf_field (vw_file w) = [].
Proof.
  intros m d geom cast codim n (W & WT & HS & Hd & HC & Hn). destruct (new_writer_ok m d geom cast codim n W WT HS Hd HC Hn) as (w & E & SD & VC & VT & FL & P1 & P2 & P3).
  exists w, (vidx m n). split; [exact E|]. cbv zeta. rewrite (sd_length _ _ _ _ _ SD). split; [apply vidx_numbering; auto; lia|]. split; [apply SD|]. split; [apply SD|]. split; [intros e He; split; auto|].
  split; [eapply filled_complete; eauto; lia|]. split; [|auto]. apply samples_ok; auto; [lia|]. apply place_agrees; auto.
Qed.
Lemma made_sound : forall m d geom cast codim n w, writable m d geom codim n -> made m d geom cast codim n w -> exists w0, new_writer m geom d cast codim n = Ok w0 /\
  sound m codim n (vf_grid (vw_file w0)) w /\ vtk_cells m n codim (g_cells (vf_grid (vw_file w0))).
Proof.
  intros m d geom cast codim n w (W & WT & HS & Hd & HC & Hn) (w0 & ops & E0 & ER). destruct (new_writer_ok m d geom cast codim n W WT HS Hd HC Hn) as (w0' & E & SD & VC & _).
  rewrite E in E0. apply Ok_inj in E0. subst w0'. exists w0. split; auto. split; auto. eapply sound_run; eauto. lia.
Qed.
Theorem grid_kept : forall m d geom cast codim n w w0, writable m d geom codim n -> made m d geom cast codim n w -> new_writer m geom d cast codim n = Ok w0 -> vf_grid (vw_file w) = vf_grid (vw_file w0).
Proof.
  intros m d geom cast codim n w w0 WR MD E. destruct (made_sound _ _ _ _ _ _ _ WR MD) as (w0' & E' & SD & _). rewrite E in E'. apply Ok_inj in E'. subst w0'. apply SD.
Qed.
Lemma values_written : forall A m d geom cast codim n w (u : ent -> list R -> res A), writable m d geom codim n -> made m d geom cast codim n w -> agreeing m codim u ->
  exists data, mf_points m w u = Ok data /\ complete (length (g_points (vf_grid (vw_file w)))) data /\ samples m codim n (g_cells (vf_grid (vw_file w))) data u.
Proof.
  intros A m d geom cast codim n w u WR MD AG. destruct (made_sound _ _ _ _ _ _ _ WR MD) as (w0 & E & SD & VC). destruct WR as (W & WT & HS & Hd & HC & Hn). assert (N1 : 1 <= n) by lia.
  pose proof SD as [SC SO OF GR LP LC LT HD FP FC PN CN FN]. rewrite GR.
  destruct (function_points m W n N1 A codim u w) as (r & Er & F); auto.
  { intros e x V C X. apply (ag_value _ _ _ AG); auto. } { rewrite GR. exact LP. }
  exists r. split; auto. split; [rewrite LP; eapply filled_complete; eauto|]. apply samples_ok; auto.
Qed.
Lemma add_point_more : forall w a, more_point_data w (add_point w a) a.
Proof. intros w a. unfold more_point_data. cbn. auto 15. Qed.
Lemma add_cell_more : forall w a, more_cell_data w (add_cell w a) a.
Proof. intros w a. unfold more_cell_data. cbn. auto 15. Qed.
Theorem point_function : forall m d geom cast codim n w name t u, writable m d geom codim n -> made m d geom cast codim n w -> agreeing m codim u -> acceptable (point_names w) name ->
  exists w' data, vtk_step m w (PointFunction name t u) = Ok w' /\ more_point_data w w' (ScalarData name t data) /\
    complete (length (g_points (vf_grid (vw_file w)))) data /\ samples m codim n (g_cells (vf_grid (vw_file w))) data u.
Proof.
  intros m d geom cast codim n w name t u WR MD AG AC. destruct (values_written _ _ _ _ _ _ _ _ u WR MD AG) as (data & E & CO & SA). exists (add_point w (ScalarData name t data)), data. cbn [vtk_step].
  rewrite check_accepts by exact AC. cbn [bind]. rewrite E. cbn [bind]. split; auto. split; auto. apply add_point_more.
Qed.
Lemma pad_small : forall v, small v -> PadWithZeros v = Ok (in_three v).
Proof. intros v [H|H]; destruct v as [|a [|b [|c [|e v]]]]; cbn in H; try lia; reflexivity. Qed.
Theorem point_vector_function : forall m d geom cast codim n w name t u, writable m d geom codim n -> made m d geom cast codim n w -> agreeing m codim u -> (forall e x v, u e x = Ok v -> small v) ->
  acceptable (point_names w) name ->
  exists w' data, vtk_step m w (PointVectorFunction name t u) = Ok w' /\ more_point_data w w' (VectorData name t data) /\
    complete (length (g_points (vf_grid (vw_file w)))) data /\ samples m codim n (g_cells (vf_grid (vw_file w))) data (fun e x => do v <- u e x; Ok (in_three v)).
Proof.
  intros m d geom cast codim n w name t u WR MD AG SM AC.
  set (u3 := fun e x => do v <- u e x; PadWithZeros v).
  assert (U3 : forall e x, u3 e x = do v <- u e x; Ok (in_three v)). { intros e x. unfold u3. destruct (u e x) eqn:X; cbn [bind]; auto. apply pad_small. eapply SM; eauto. }
  assert (AG3 : agreeing m codim u3).
  { destruct AG as [A1 A2 A3 A4]. split; intros; rewrite ?U3.
    - destruct (A1 e x) as (v & Ev); auto. rewrite Ev. cbn. eauto.
    - erewrite A2; eauto.
    - erewrite A3; eauto.
    - destruct (A4 e a b H) as [-> ->]. auto. }
  destruct (values_written _ _ _ _ _ _ _ _ u3 WR MD AG3) as (data & E & CO & SA). exists (add_point w (VectorData name t data)), data. cbn [vtk_step].
  rewrite check_accepts by exact AC. cbn [bind]. fold u3. rewrite E. cbn [bind]. split; auto. split; [apply add_point_more|]. split; auto.
  intros e r We Hr ST. destruct (SA e r We Hr ST) as (c & p & v & Q1 & Q2 & Q3 & Q4). rewrite U3 in Q3. exists c, p, v. auto.
Qed.
(** Cell data *)
Lemma cell_values : forall A m d geom cast codim n w (f : ent -> res A), writable m d geom codim n -> made m d geom cast codim n w -> (forall e, written m codim e -> exists v, f e = Ok v) ->
  exists data, node_loop f (entities m (vw_codim w)) (repeat None (mv_count m (vw_codim w))) = Ok data /\ complete (mv_count m codim) data /\
    forall e, written m codim e -> exists v, f e = Ok v /\ nth_error data (ent_index e) = Some (Some v).
Proof.
  intros A m d geom cast codim n w f WR MD HV. destruct (made_sound _ _ _ _ _ _ _ WR MD) as (w0 & E & SD & VC). destruct WR as (W & WT & HS & Hd & HC & Hn). rewrite (sd_codim _ _ _ _ _ SD).
  assert (IX : map ent_index (entities m codim) = seq 0 (mv_count m codim)) by (unfold entities; apply ent_index_seq; intros; destruct codim as [|[|q]]; reflexivity).
  assert (N1 : 1 <= n) by lia.
  destruct (node_loop_ok A f (entities m codim) (repeat None (mv_count m codim))) as (r & Er & LR & R1 & _).
  { intros e He. apply HV. apply (written_entities m W n N1 codim HC _ _ (sd_off _ _ _ _ _ SD)); exact He. } { intros e H. rewrite repeat_length. apply (in_map ent_index) in H. rewrite IX in H. apply in_seq in H. lia. } { rewrite IX. apply seq_NoDup. }
  exists r. split; auto. destruct (entities_values A f m codim _ r ltac:(lia) eq_refl Er) as [CO VV]. split; auto. intros e He. apply VV. apply (written_entities m W n N1 codim HC _ _ (sd_off _ _ _ _ _ SD)); exact He.
Qed.
Theorem cell_scalars : forall m d geom cast codim n w name t ds u, writable m d geom codim n -> made m d geom cast codim n w -> acceptable (cell_names w) name ->
  exists w' data, vtk_step m w (CellScalars name t ds u) = Ok w' /\ more_cell_data w w' (ScalarData name t data) /\ complete (mv_count m codim) data /\
    forall e, written m codim e -> nth_error data (ent_index e) = Some (Some (match ds e with Some v => v | None => u end)).
Proof.
  intros m d geom cast codim n w name t ds u WR MD AC. destruct (cell_values _ _ _ _ _ _ _ _ (ds_value ds u) WR MD) as (data & E & CO & VV). { intros e _. eexists; reflexivity. }
  exists (add_cell w (ScalarData name t data)), data. cbn [vtk_step]. rewrite check_accepts by exact AC. cbn [bind]. rewrite E. cbn [bind]. split; auto. split; [apply add_cell_more|]. split; auto.
  intros e He. destruct (VV e He) as (v & Q1 & Q2). rewrite Q2. unfold ds_value in Q1. apply Ok_inj in Q1. subst v. reflexivity.
Qed.
Theorem cell_vectors : forall m d geom cast codim n w name t ds u, writable m d geom codim n -> made m d geom cast codim n w -> acceptable (cell_names w) name -> small u ->
  (forall e v, ds e = Some v -> small v) ->
  exists w' data, vtk_step m w (CellVectors name t ds u) = Ok w' /\ more_cell_data w w' (VectorData name t data) /\ complete (mv_count m codim) data /\
    forall e, written m codim e -> nth_error data (ent_index e) = Some (Some (in_three (match ds e with Some v => v | None => u end))).
Proof.
  intros m d geom cast codim n w name t ds u WR MD AC SU SD.
  assert (DV : forall e, ds_vector ds (in_three u) e = Ok (in_three (match ds e with Some v => v | None => u end))). { intros e. unfold ds_vector. destruct (ds e) eqn:X; auto. apply pad_small. eapply SD; eauto. }
  destruct (cell_values _ _ _ _ _ _ _ _ (ds_vector ds (in_three u)) WR MD) as (data & E & CO & VV). { intros e _. rewrite DV. eauto. }
  exists (add_cell w (VectorData name t data)), data. cbn [vtk_step]. rewrite check_accepts by exact AC. cbn [bind]. rewrite pad_small by exact SU. cbn [bind]. rewrite E. cbn [bind]. split; auto. split; [apply add_cell_more|]. split; auto.
  intros e He. destruct (VV e He) as (v & Q1 & Q2). rewrite Q2. rewrite DV in Q1. apply Ok_inj in Q1. subst v. reflexivity.
Qed.
Lemma bary_centre : forall el, el <> kQuad -> barycenter el = centre el.
Proof. intros el H. destruct el; try tauto; unfold barycenter, centre; cbn; auto; [|f_equal; [|f_equal]]; try (f_equal; lra); lra. Qed.
Theorem cell_function : forall m d geom cast codim n w name t u, writable m d geom codim n -> made m d geom cast codim n w -> acceptable (cell_names w) name ->
  (forall e x, written m codim e -> in_ref (ent_type m e) x -> exists v, u e x = Ok v) ->
  exists w' data, vtk_step m w (CellFunction name t u) = Ok w' /\ more_cell_data w w' (ScalarData name t data) /\ complete (mv_count m codim) data /\
    forall e, written m codim e -> ent_type m e <> kQuad -> exists v, u e (centre (ent_type m e)) = Ok v /\ nth_error data (ent_index e) = Some (Some v).
Proof.
  intros m d geom cast codim n w name t u WR MD AC HV.
  assert (BR : forall el, in_ref el (barycenter el)) by (intros []; cbn; lra).
  destruct (cell_values _ _ _ _ _ _ _ _ (fun e => u e (barycenter (ent_type m e))) WR MD) as (data & E & CO & VV). { intros e He. apply HV; auto. }
  exists (add_cell w (ScalarData name t data)), data. cbn [vtk_step]. rewrite check_accepts by exact AC. cbn [bind]. rewrite E. cbn [bind]. split; auto. split; [apply add_cell_more|]. split; auto.
  intros e He NQ. destruct (VV e He) as (v & Q1 & Q2). exists v. rewrite <- bary_centre by exact NQ. auto.
Qed.
Theorem cell_vector_function : forall m d geom cast codim n w name t u, writable m d geom codim n -> made m d geom cast codim n w -> acceptable (cell_names w) name ->
  (forall e x, written m codim e -> in_ref (ent_type m e) x -> exists v, u e x = Ok v /\ small v) ->
  exists w' data, vtk_step m w (CellVectorFunction name t u) = Ok w' /\ more_cell_data w w' (VectorData name t data) /\ complete (mv_count m codim) data /\
    forall e, written m codim e -> ent_type m e <> kQuad -> exists v, u e (centre (ent_type m e)) = Ok v /\ nth_error data (ent_index e) = Some (Some (in_three v)).
Proof.
  intros m d geom cast codim n w name t u WR MD AC HV.
  assert (BR : forall el, in_ref el (barycenter el)) by (intros []; cbn; lra).
  destruct (cell_values _ _ _ _ _ _ _ _ (fun e => do v <- u e (barycenter (ent_type m e)); PadWithZeros v) WR MD) as (data & E & CO & VV).
  { intros e He. destruct (HV e (barycenter (ent_type m e)) He (BR _)) as (v & Ev & Sv). rewrite Ev. cbn [bind]. rewrite pad_small by exact Sv. eauto. }
  exists (add_cell w (VectorData name t data)), data. cbn [vtk_step]. rewrite check_accepts by exact AC. cbn [bind]. rewrite E. cbn [bind]. split; auto. split; [apply add_cell_more|]. split; auto.
  intros e He NQ. destruct (VV e He) as (v3 & Q1 & Q2). destruct (HV e (barycenter (ent_type m e)) He (BR _)) as (v & Ev & Sv). rewrite Ev in Q1. cbn [bind] in Q1. rewrite pad_small in Q1 by exact Sv. apply Ok_inj in Q1. subst v3.
  exists v. rewrite <- bary_centre by exact NQ. auto.
Qed.
(** Data at the nodes *)
Lemma node_points : forall m d geom cast codim n w, writable m d geom codim n -> made m d geom cast codim n w ->
  length (g_points (vf_grid (vw_file w))) = num_points m codim n /\
  forall e r nd, written m codim e -> nth_error (ent_nodes m e) r = Some nd -> exists c, nth_error (g_cells (vf_grid (vw_file w))) (ent_index e) = Some c /\ nth_error c r = Some nd.
Proof.
  intros m d geom cast codim n w WR MD. destruct (made_sound _ _ _ _ _ _ _ WR MD) as (w0 & E & SD & VC). destruct WR as (W & WT & HS & Hd & HC & Hn). rewrite (sd_grid _ _ _ _ _ SD). split; [apply SD|].
  intros e r nd We Hr. eexists. split; [apply VC; exact We|].
  assert (LR : r < corners (ent_type m e) /\ vidx m n (ent_location m n e r) = nd).
  { destruct We as [Ve Ce]. destruct e as [i|i|i]; [cbn in Ce; lia| |].
    - cbn in Ve, Hr. cbn [ent_type ent_location]. unfold edge_at. destruct (nth_error (mv_edges m) i) as [[a b]|] eqn:X; [|destruct r; discriminate]. rewrite (nth_error_nth _ _ _ X).
      destruct r as [|[|r]]; [| |destruct r; discriminate]; cbn in Hr; injection Hr as <-; cbn; split; auto; lia.
    - cbn in Hr. destruct (nth_error (mv_cells m) i) as [c|] eqn:Ec; [|destruct r; discriminate]. destruct (cell_ty m W i c Ec) as [TY T]. rewrite TY.
      assert (WC := cell_wf_of _ _ _ W Ec). assert (NF : length (cv_nodes c) = corners (cv_type c)) by (destruct (wf_type _ _ WC) as [[-> ->]|[-> ->]]; reflexivity).
      assert (LR : r < corners (cv_type c)) by (rewrite <- NF; apply nth_error_Some; congruence). split; auto.
      cbn [ent_location]. replace (cell_at m i) with c by (unfold cell_at; symmetry; apply nth_error_nth; exact Ec). unfold cell_location. rewrite (proj2 (Nat.ltb_lt _ _) LR). cbn. apply nth_error_nth. exact Hr. }
  destruct LR as [LR EV]. erewrite map_nth_error; [rewrite EV; reflexivity|]. rewrite (nth_error_nth' _ 0) by (rewrite seq_length; unfold vtk_size; generalize (num_sides (ent_type m e) * (n - 1)); intros; lia). rewrite seq_nth by (unfold vtk_size; generalize (num_sides (ent_type m e) * (n - 1)); intros; lia). reflexivity.
Qed.
Lemma node_values : forall A m d geom cast codim n w (f : ent -> res A), writable m d geom codim n -> made m d geom cast codim n w -> (forall e, exists v, f e = Ok v) ->
  exists data, node_loop f (entities m 2) (repeat None (mv_count m 2)) = Ok data /\ complete (mv_nodes m) data /\
    forall i, i < mv_nodes m -> exists v, f (ENode i) = Ok v /\ nth_error data i = Some (Some v).
Proof.
  intros A m d geom cast codim n w f WR MD HV.
  assert (IX : map ent_index (entities m 2) = seq 0 (mv_count m 2)) by (apply ent_index_seq; reflexivity).
  destruct (node_loop_ok A f (entities m 2) (repeat None (mv_count m 2))) as (r & Er & LR & R1 & _).
  { intros e He. apply HV. } { intros e H. rewrite repeat_length. apply (in_map ent_index) in H. rewrite IX in H. apply in_seq in H. lia. } { rewrite IX. apply seq_NoDup. }
  exists r. split; auto. destruct (entities_values A f m 2 _ r ltac:(lia) eq_refl Er) as [CO VV]. split; auto. intros i Hi. apply (VV (ENode i)). apply in_map_iff. exists i. split; auto. apply in_seq. cbn. lia.
Qed.
Lemma order_one : forall m d geom cast codim w, writable m d geom codim 1 -> made m d geom cast codim 1 w -> vw_order w = 1.
Proof. intros m d geom cast codim w WR MD. destruct (made_sound _ _ _ _ _ _ _ WR MD) as (w0 & E & SD & VC). apply SD. Qed.
Lemma node_bound : forall m codim e r nd, wf_mesh m -> written m codim e -> nth_error (ent_nodes m e) r = Some nd -> nd < mv_nodes m.
Proof.
  intros m codim e r nd W [Ve _] H. destruct e as [i|i|i]; cbn in Ve, H.
  - destruct r as [|r]; [cbn in H; injection H as <-; exact Ve|destruct r; discriminate].
  - destruct (nth_error (mv_edges m) i) as [[a b]|] eqn:X; [|destruct r; discriminate]. destruct (wm_edges _ W _ _ _ X) as (_ & Va & Vb). destruct r as [|[|r]]; [| |destruct r; discriminate]; cbn in H; injection H as <-; auto.
  - destruct (nth_error (mv_cells m) i) as [c|] eqn:Ec; [|destruct r; discriminate]. pose proof (wc_nodes _ _ (cell_wf_of _ _ _ W Ec)) as WN. rewrite Forall_forall in WN. apply WN. eapply nth_error_In; eauto.
Qed.
Theorem point_scalars : forall m d geom cast codim w name t ds u, writable m d geom codim 1 -> made m d geom cast codim 1 w -> acceptable (point_names w) name ->
  exists w' data, vtk_step m w (PointScalars name t ds u) = Ok w' /\ more_point_data w w' (ScalarData name t data) /\ complete (mv_nodes m) data /\
    forall e r nd, written m codim e -> nth_error (ent_nodes m e) r = Some nd -> exists c p, nth_error (g_cells (vf_grid (vw_file w))) (ent_index e) = Some c /\ nth_error c r = Some p /\
      nth_error data p = Some (Some (match ds (ENode nd) with Some v => v | None => u end)).
Proof.
  intros m d geom cast codim w name t ds u WR MD AC. destruct (node_values _ _ _ _ _ _ _ _ (ds_value ds u) WR MD) as (data & E & CO & VV). { intros e. eexists; reflexivity. }
  exists (add_point w (ScalarData name t data)), data. cbn [vtk_step]. rewrite (order_one _ _ _ _ _ _ WR MD). cbn [Nat.eqb lf_assert bind]. rewrite check_accepts by exact AC. cbn [bind]. rewrite E. cbn [bind]. split; auto. split; [apply add_point_more|]. split; auto.
  intros e r nd We Hr. destruct (node_points _ _ _ _ _ _ _ WR MD) as [_ NP]. destruct (NP e r nd We Hr) as (c & C1 & C2). exists c, nd. split; auto. split; auto.
  destruct (VV nd) as (v & Q1 & Q2); [eapply node_bound; eauto; apply WR|]. rewrite Q2. unfold ds_value in Q1. apply Ok_inj in Q1. subst v. reflexivity.
Qed.
Theorem point_vectors : forall m d geom cast codim w name t ds u, writable m d geom codim 1 -> made m d geom cast codim 1 w -> acceptable (point_names w) name -> small u -> (forall e v, ds e = Some v -> small v) ->
  exists w' data, vtk_step m w (PointVectors name t ds u) = Ok w' /\ more_point_data w w' (VectorData name t data) /\ complete (mv_nodes m) data /\
    forall e r nd, written m codim e -> nth_error (ent_nodes m e) r = Some nd -> exists c p, nth_error (g_cells (vf_grid (vw_file w))) (ent_index e) = Some c /\ nth_error c r = Some p /\
      nth_error data p = Some (Some (in_three (match ds (ENode nd) with Some v => v | None => u end))).
Proof.
  intros m d geom cast codim w name t ds u WR MD AC SU SD.
  assert (DV : forall e, ds_vector ds (in_three u) e = Ok (in_three (match ds e with Some v => v | None => u end))). { intros e. unfold ds_vector. destruct (ds e) eqn:X; auto. apply pad_small. eapply SD; eauto. }
  destruct (node_values _ _ _ _ _ _ _ _ (ds_vector ds (in_three u)) WR MD) as (data & E & CO & VV). { intros e. rewrite DV. eauto. }
  exists (add_point w (VectorData name t data)), data. cbn [vtk_step]. rewrite (order_one _ _ _ _ _ _ WR MD). cbn [Nat.eqb lf_assert bind]. rewrite check_accepts by exact AC. cbn [bind]. rewrite pad_small by exact SU. cbn [bind]. rewrite E. cbn [bind]. split; auto. split; [apply add_point_more|]. split; auto.
  intros e r nd We Hr. destruct (node_points _ _ _ _ _ _ _ WR MD) as [_ NP]. destruct (NP e r nd We Hr) as (c & C1 & C2). exists c, nd. split; auto. split; auto.
  destruct (VV nd) as (v & Q1 & Q2); [eapply node_bound; eauto; apply WR|]. rewrite Q2. rewrite DV in Q1. apply Ok_inj in Q1. subst v. reflexivity.
Qed.
(** *** All histories *)
Theorem valid_file : forall m d geom cast codim n w, writable m d geom codim n -> made m d geom cast codim n w ->
  let f := vw_file w in
  ValidateVtkFile f = Ok tt /\ vf_header f = EmptyString /\
  Forall (complete_attribute (length (g_points (vf_grid f)))) (vf_point f) /\ Forall (complete_attribute (length (g_cells (vf_grid f)))) (vf_cell f) /\
  NoDup (point_names w) /\ NoDup (cell_names w) /\ NoDup (map fd_name (vf_field f)) /\
  forall s, In s (point_names w ++ cell_names w ++ map fd_name (vf_field f)) -> contains space s = false.
Proof.
  intros m d geom cast codim n w WR MD. destruct (made_sound _ _ _ _ _ _ _ WR MD) as (w0 & E & SD & VC). cbv zeta. split; [eapply sound_valid; eauto|]. split; [apply SD|].
  pose proof SD as [SC SO OF GR LP LC LT HD FP FC [PN PS] [CN CS] [FN FS]]. rewrite GR. split; auto. split; auto. split; auto. split; auto. split; auto. intros s Hs.
  rewrite Forall_forall in PS, CS, FS. rewrite !in_app_iff in Hs. destruct Hs as [Hs|[Hs|Hs]]; auto.
Qed.
Theorem rejected : forall m d geom cast codim n w op name, writable m d geom codim n -> made m d geom cast codim n w -> harmless m n op -> op_name op = Some name -> ~ acceptable (names_for w op) name -> vtk_step m w op = Throw.
Proof.
  intros m d geom cast codim n w op name WR MD HL ON NA. destruct (made_sound _ _ _ _ _ _ _ WR MD) as (w0 & E & SD & VC). pose proof (sd_order _ _ _ _ _ SD) as SO.
  destruct op; cbn [op_name] in ON; try discriminate; injection ON as ->; cbn [vtk_step harmless] in *; rewrite ?SO.
  all: try match type of HL with ?k = 1 => rewrite HL | ?k = 1 /\ _ => rewrite (proj1 HL) end; cbn [Nat.eqb lf_assert bind]; rewrite check_rejects by exact NA; reflexivity.
Qed.
Lemma node_loop_safe : forall A (f : ent -> res A) es data, (forall e, In e es -> f e <> Assert /\ ent_index e < length data) -> node_loop f es data <> Assert.
Proof.
  induction es as [|e es IH]; intros data H; cbn [node_loop]; [discriminate|]. destruct (H e (or_introl eq_refl)) as [H1 H2]. destruct (f e); cbn [bind]; try congruence. rewrite (proj2 (Nat.ltb_lt _ _) H2). cbn [lf_assert bind].
  apply IH. intros e' He. rewrite upd_length. apply H. right; auto.
Qed.
Lemma traverse_safe : forall A B (f : A -> res B) l, (forall a, In a l -> f a <> Assert) -> traverse f l <> Assert.
Proof. intros A B f l H. induction l as [|a l IH]; cbn [traverse]; [discriminate|]. pose proof (H a (or_introl eq_refl)) as Ha. specialize (IH (fun b Hb => H b (or_intror Hb))). destruct (f a); cbn [bind]; try congruence. destruct (traverse f l); cbn [bind]; congruence. Qed.
Lemma traverse_length : forall A B (f : A -> res B) l r, traverse f l = Ok r -> length r = length l.
Proof. intros A B f l. induction l as [|a l IH]; intros r E; cbn [traverse] in E; [apply Ok_inj in E; subst; reflexivity|]. invb E. apply Ok_inj in E. subst. cbn. f_equal. auto. Qed.
Lemma mf_loop_safe : forall A m n off (f : ent -> list R -> res A) N es (data : list (option A)), 1 <= n -> length data = N ->
  (forall e, In e es -> ent_type m e <> kPoint /\ (forall x, in_ref (ent_type m e) x -> f e x <> Assert) /\ (2 <= n -> skip m n e = false -> exists o, nth_error off (ent_index e) = Some o /\ o + share m n e <= N)) -> mf_loop m n off f es data <> Assert /\ forall r, mf_loop m n off f es data = Ok r -> length r = N.
Proof.
  intros A m n off f N es. induction es as [|e es IH]; intros data N1 LD H; cbn [mf_loop]; [split; [discriminate|intros r X; apply Ok_inj in X; subst; auto]|].
  assert (HT : forall e, In e es -> ent_type m e <> kPoint /\ (forall x, in_ref (ent_type m e) x -> f e x <> Assert) /\ (2 <= n -> skip m n e = false -> exists o, nth_error off (ent_index e) = Some o /\ o + share m n e <= N)) by (intros; apply H; right; auto).
  destruct ((n =? 1) || _) eqn:SK; [auto|]. apply orb_false_iff in SK. destruct SK as [K1 K2]. apply Nat.eqb_neq in K1. assert (N2 : 2 <= n) by lia. destruct (H e (or_introl eq_refl)) as (NP & HF & HO).
  destruct (aux_length m n N2 e NP) as (l & AL & LL). rewrite AL. cbn [bind]. destruct (traverse (f e) l) as [vs| |] eqn:TV; cbn [bind].
  - destruct HO as (o & Eo & Bo); auto. { unfold skip. destruct (refel_eqb (ent_type m e) kTria) eqn:RT; [|reflexivity]. try rewrite RT in K2. rewrite andb_true_r in K2. apply Nat.eqb_neq in K2. cbn [andb]. apply Nat.ltb_ge. lia. }
    rewrite Eo. apply traverse_length in TV. destruct (set_block_ok _ o (map Some vs) data) as (d1 & S1 & SL & _). { rewrite map_length. lia. } rewrite S1. cbn [bind]. apply IH; auto. lia.
  - split; [discriminate|intros r X; discriminate].
  - exfalso. apply (traverse_safe _ _ (f e) l); auto. intros x Hx. apply HF. eapply aux_in_ref; eauto.
Qed.
Lemma mf_points_safe : forall A m codim n g0 w (mf : ent -> list R -> res A), wf_mesh m -> 1 <= n -> codim < 2 -> sound m codim n g0 w -> (forall e x, valid m e -> in_ref (ent_type m e) x -> mf e x <> Assert) -> mf_points m w mf <> Assert.
Proof.
  intros A m codim n g0 w mf W N1 HC SD HF. pose proof SD as [SC SO OF GR LP LC LT HD FP FC PN CN FN]. unfold mf_points. rewrite GR, SC, SO. pose proof (num_points_total m W n N1 codim HC) as NP.
  destruct OF as (LO1 & LO0 & O1 & O0).
  assert (VN : mv_nodes m <= length (g_points g0)). { rewrite LP, NP. unfold coff, eoff. destruct (codim =? 0); lia. }
  destruct (node_loop _ _ _) as [d0| |] eqn:E0; cbn [bind]; [|discriminate|].
  2: { exfalso. revert E0. apply node_loop_safe. intros e He. rewrite repeat_length. apply in_map_iff in He. destruct He as (i & <- & Hi). apply in_seq in Hi. cbn in Hi |- *. split; [|lia]. apply HF; [cbn; lia|exact I]. }
  assert (L0 : length d0 = num_points m codim n).
  { assert (Q : forall es (dd : list (option A)) r, node_loop (fun e => mf e []) es dd = Ok r -> length r = length dd). { induction es as [|e es IH]; intros dd r X; cbn [node_loop] in X; [apply Ok_inj in X; subst; auto|]. invb X. apply IH in X. rewrite upd_length in X. exact X. }
    rewrite (Q _ _ _ E0), repeat_length. exact LP. }
  destruct (mf_loop_safe A m n (vw_off1 w) mf (num_points m codim n) (entities m 1) d0 N1 L0) as [S1 S2].
  { intros e He. apply in_map_iff in He. destruct He as (i & <- & Hi). apply in_seq in Hi. cbn in Hi. split; [discriminate|]. split; [intros x Hx; apply HF; [cbn; lia|exact Hx]|]. intros N2 _. exists (eoff m n i). split; [apply O1; [lia|exact N2]|].
    pose proof (before_lt (shareE n) i (length (mv_edges m)) ltac:(lia)) as B. rewrite NP. change (share m n (EEdge i)) with (shareE n i). unfold coff, eoff. destruct (codim =? 0); lia. }
  destruct (mf_loop m n (vw_off1 w) mf (entities m 1) d0) as [d1| |] eqn:E1; cbn [bind]; [|discriminate|congruence]. specialize (S2 _ eq_refl). destruct (codim =? 0) eqn:CZ; [|discriminate]. apply Nat.eqb_eq in CZ.
  apply (mf_loop_safe A m n (vw_off0 w) mf (num_points m codim n) (entities m 0) d1 N1 S2).
  intros e He. apply in_map_iff in He. destruct He as (i & <- & Hi). apply in_seq in Hi. cbn in Hi. destruct (cells_below m n N1 i ltac:(lia)) as (c & Ec). destruct (cell_ty m W i c Ec) as [TY T].
  split; [rewrite TY; destruct T as [-> | ->]; discriminate|]. split; [intros x Hx; apply HF; [cbn; lia|exact Hx]|]. intros N2 SK. exists (coff m n i). split; [apply O0; auto; lia|].
  pose proof (before_lt (shareC m n) i (length (mv_cells m)) ltac:(lia)) as B. rewrite NP. change (share m n (ECell i)) with (shareC m n i). unfold coff. lia.
Qed.
Lemma step_safe : forall m codim n g0 w op, wf_mesh m -> 1 <= n -> codim < 2 -> sound m codim n g0 w -> harmless m n op -> vtk_step m w op <> Assert.
Proof.
  intros m codim n g0 w op W N1 HC SD HL. pose proof (sd_order _ _ _ _ _ SD) as SO. pose proof (sd_codim _ _ _ _ _ SD) as SC.
  assert (CK : forall used name, CheckAttributeSetName used name <> Assert). { intros used name X. unfold CheckAttributeSetName in X. destruct (existsb _ _); cbn [negb verify bind] in X; [discriminate|]. destruct (contains space name); discriminate. }
  assert (EI : forall k e, k <= 2 -> In e (entities m k) -> ent_index e < length (repeat (@None R) (mv_count m k)) /\ ent_index e < length (repeat (@None vec3) (mv_count m k))).
  { intros k e Hk He. rewrite !repeat_length. apply in_map_iff in He. destruct He as (i & <- & Hi). apply in_seq in Hi. destruct k as [|[|k]]; cbn in *; lia. }
  destruct op as [b|name t ds u|name t ds u|name t ds u|name t ds u|name t mf|name t mf|name t mf|name t mf|name t data]; cbn [vtk_step harmless] in *; rewrite ?SO, ?SC.
  - discriminate.
  - rewrite HL. cbn [Nat.eqb lf_assert bind]. destruct (CheckAttributeSetName _ _) eqn:X; cbn [bind]; [|discriminate|destruct (CK _ _ X)].
    destruct (node_loop _ _ _) eqn:E; cbn [bind]; try discriminate. exfalso. revert E. apply node_loop_safe. intros e He. split; [discriminate|]. apply EI; auto.
  - destruct HL as (-> & SU & SV). cbn [Nat.eqb lf_assert bind]. destruct (CheckAttributeSetName _ _) eqn:X; cbn [bind]; [|discriminate|destruct (CK _ _ X)]. rewrite pad_small by exact SU. cbn [bind].
    destruct (node_loop _ _ _) eqn:E; cbn [bind]; try discriminate. exfalso. revert E. apply node_loop_safe. intros e He. split; [|apply EI; auto]. unfold ds_vector. destruct (ds e) eqn:D; [|discriminate]. rewrite pad_small by (eapply SV; eauto). discriminate.
  - destruct (CheckAttributeSetName _ _) eqn:X; cbn [bind]; [|discriminate|destruct (CK _ _ X)].
    destruct (node_loop _ _ _) eqn:E; cbn [bind]; try discriminate. exfalso. revert E. apply node_loop_safe. intros e He. split; [discriminate|]. apply EI; auto. lia.
  - destruct HL as (SU & SV). destruct (CheckAttributeSetName _ _) eqn:X; cbn [bind]; [|discriminate|destruct (CK _ _ X)]. rewrite pad_small by exact SU. cbn [bind].
    destruct (node_loop _ _ _) eqn:E; cbn [bind]; try discriminate. exfalso. revert E. apply node_loop_safe. intros e He. split; [|apply EI; auto; lia]. unfold ds_vector. destruct (ds e) eqn:D; [|discriminate]. rewrite pad_small by (eapply SV; eauto). discriminate.
  - destruct (CheckAttributeSetName _ _) eqn:X; cbn [bind]; [|discriminate|destruct (CK _ _ X)]. destruct (mf_points _ _ _) eqn:E; cbn [bind]; try discriminate. exfalso. revert E. eapply mf_points_safe; eauto.
  - destruct (CheckAttributeSetName _ _) eqn:X; cbn [bind]; [|discriminate|destruct (CK _ _ X)]. destruct (mf_points _ _ _) eqn:E; cbn [bind]; try discriminate. exfalso. revert E. eapply mf_points_safe; eauto.
    intros e x Ve Hx. destruct (HL e x Ve Hx) as [H1 H2]. destruct (mf e x) eqn:Y; cbn [bind]; try congruence. rewrite pad_small by auto. discriminate.
  - destruct (CheckAttributeSetName _ _) eqn:X; cbn [bind]; [|discriminate|destruct (CK _ _ X)].
    destruct (node_loop _ _ _) eqn:E; cbn [bind]; try discriminate. exfalso. revert E. apply node_loop_safe. intros e He. split; [apply HL; [apply (written_entities m W n N1 codim HC _ _ (sd_off _ _ _ _ _ SD)); exact He|destruct (ent_type m e); cbn; lra]|]. apply EI; auto. lia.
  - destruct (CheckAttributeSetName _ _) eqn:X; cbn [bind]; [|discriminate|destruct (CK _ _ X)].
    destruct (node_loop _ _ _) eqn:E; cbn [bind]; try discriminate. exfalso. revert E. apply node_loop_safe. intros e He. split; [|apply EI; auto; lia].
    destruct (HL e (barycenter (ent_type m e))) as [H1 H2]; [apply (written_entities m W n N1 codim HC _ _ (sd_off _ _ _ _ _ SD)); exact He|destruct (ent_type m e); cbn; lra|]. destruct (mf e _) eqn:Y; cbn [bind]; try congruence. rewrite pad_small by auto. discriminate.
  - destruct (CheckAttributeSetName _ _) eqn:X; cbn [bind]; [|discriminate|destruct (CK _ _ X)]. discriminate.
Qed.
Lemma run_safe : forall m codim n g0 ops w, wf_mesh m -> 1 <= n -> codim < 2 -> sound m codim n g0 w -> Forall (harmless m n) ops -> exists w', run_vtk m w ops = Ok w'.
Proof.
  intros m codim n g0 ops. induction ops as [|op ops IH]; intros w W N1 HC SD FA; cbn [run_vtk]; [eauto|]. inversion FA as [|x l H1 H2]; subst.
  pose proof (step_safe m codim n g0 w op W N1 HC SD H1) as SF. destruct (vtk_step m w op) as [w1| |] eqn:E; [|apply IH; auto|congruence]. apply IH; auto. eapply sound_step; eauto.
Qed.
Theorem no_assertion : forall m d geom cast codim n ops, writable m d geom codim n -> Forall (harmless m n) ops -> exists w0 w, new_writer m geom d cast codim n = Ok w0 /\ run_vtk m w0 ops = Ok w.
Proof.
  intros m d geom cast codim n ops (W & WT & HS & Hd & HC & Hn) FA. destruct (new_writer_ok m d geom cast codim n W WT HS Hd HC Hn) as (w & E & SD & _).
  destruct (run_safe m codim n _ ops w W ltac:(lia) HC SD FA) as (w' & E'). eauto.
Qed.
Lemma continuous_agrees : forall m codim u, continuous_function m u -> agreeing m codim u.
Proof. intros m codim u [A1 A2 A3 A4]. split; intros; eauto. Qed.
