(** C97: the assembled system. *)
From Coq Require Import Reals List Arith Lia Lra Bool.
Import ListNotations.
From Verif Require Import Base Scalars MeshModel MeshView RefPatModel GeoModel GeoSpec GeoProofs GeoProofs2 GeoProofs3 GeoProofs4 DofModel DofSpec FlagSpec FlagModel FlagProofs RefineSpec FeModel QuadModel LagrModel
  AssembleModel AssembleSpec ElemModel ElemSpec ElemProofs ElemProofs3 FeSpec FeToolsModel FeToolsSpec GalerkinModel GalerkinSpec GalerkinProofs GalerkinProofs5 GalerkinProofs7 HierProofs DpgModel DpgProofs6 NormalModel NormalSpec NormalProofs NormalProofs2 NormalProofs3 NormalProofs4 NormalProofs5
  StokesModel StokesSpec StokesProofs StokesProofs2 StokesProofs3 StokesProofs4.
Local Open Scope R_scope.

Lemma const_nth : forall A B (x : B) (l : list A) k, nth k (map (fun _ => x) l) x = x.
Proof. intros A B x l. induction l as [|a l IH]; intros [|k]; cbn [map nth]; auto. Qed.

Section System.
Variables (m : mesh) (geom : ent -> geo) (pos : nat -> vec) (n : nat -> nat -> vec).
Hypothesis TR : triangulation m geom pos.
Hypothesis NO : normals_of m geom n.
Variables (sigma : R) (modified : bool) (q : quadrule) (f : vec -> vec) (g : ent -> vec) (check : bool).
Hypothesis SG : sigma <> 0.
Hypothesis RQ : tria_rule q.
Hypothesis FP : of_points f.
Variable bd : adset.
Hypothesis BE : forall e, (e < size m 1)%nat -> adget bd 1 e = Ok (boundary_edge m e).

Notation d := (u_handler (uniform m stokes_map check)).
Notation nv := (size m 2).
Notation ne := (size m 1).

(** The diagonal entry of one cell. *)
Definition diagonal (e : nat) : R :=
  let x := if modified then - 1 / sigma / StokesSpec.edge_length m pos e else - 1 / sigma in if boundary_edge m e then x else x / 2.
Lemma penalty_is : forall e, (e < ne)%nat -> penalty_entry geom sigma bd modified e = Ok (diagonal e).
Proof.
  intros e H. unfold penalty_entry, diagonal. rewrite (edge_volume m geom pos TR e H), (BE e H). destruct modified; cbn [bind]; reflexivity.
Qed.
Definition tang (c i : nat) : vec := turn (n c i).
Lemma jump_is : forall c i k, (c < size m 0)%nat -> (i < 3)%nat -> jump_entry (normals_at geom c) (basis_at geom c) i k = inner 2 (nth k (basis_at geom c) vzero) (tang c i).
Proof.
  intros c i k H Hi. unfold jump_entry, tang. destruct (normals_is m geom pos n TR NO c H) as [_ S]. specialize (S i Hi).
  rewrite dot2, inner2. unfold tangential, turn, vec2. rewrite (S 0%nat), (S 1%nat) by lia. reflexivity.
Qed.
Lemma inner_comb : forall a b c B t, inner 2 (comb a b c B) t = a * inner 2 (nth 0 B vzero) t + b * inner 2 (nth 1 B vzero) t + c * inner 2 (nth 2 B vzero) t.
Proof. intros. rewrite !inner2. unfold comb. ring. Qed.

Definition entry_of (c i j : nat) : R :=
  if (i <? 3)%nat then
    if (j <? 3)%nat then 0 else inner 2 (nth i (basis_at geom c) vzero) (tang c (j - 3))
  else
    if (j <? 3)%nat then inner 2 (nth j (basis_at geom c) vzero) (tang c (i - 3))
    else if (i =? j)%nat then diagonal (side_at m c (i - 3)) else 0.
Definition entries (e : ent) : nat -> nat -> R := match e with DofModel.ECell c => entry_of c | _ => fun _ _ => 0 end.
Lemma matrix_is : forall c, (c < size m 0)%nat -> ElemSpec.is_matrix (StokesMatrixEval m geom sigma bd modified (DofModel.ECell c)) 6 (entry_of c).
Proof.
  intros c H. unfold StokesMatrixEval. destruct (normals_is m geom pos n TR NO c H) as [-> _]. destruct (basis_is m geom pos TR c H) as [-> _]. cbn [bind].
  cbn [sub_entities bind].
  rewrite (traverse_map _ _ _ (fun i => diagonal (side_at m c i))).
  - cbn [bind]. eexists. split; [reflexivity|]. split; [reflexivity|]. intros i j Hi Hj. cbn [em_at em_n] in *. unfold entry_of.
    destruct (Nat.ltb_spec i 3), (Nat.ltb_spec j 3); [reflexivity| | |].
    + apply jump_is; [exact H|lia].
    + apply jump_is; [exact H|lia].
    + destruct (i =? j)%nat; [|reflexivity].
      rewrite (nth_indep _ 0 (diagonal (side_at m c 0))) by (rewrite map_length, seq_length; lia).
      rewrite (map_nth (fun k => diagonal (side_at m c k))), seq_nth by lia. reflexivity.
  - intros i Hi. apply in_seq in Hi. unfold elem_at. destruct (cell_view m c H) as (v & E & EC). rewrite EC.
    destruct (cell_shape m c v (tr_trias _ _ _ TR) E) as (n0 & n1 & n2 & e0 & e1 & e2 & _ & Ee & _).
    rewrite (nth_error_nth' _ 0%nat) by (rewrite Ee; cbn [length]; lia). cbn [bind].
    rewrite penalty_is; [unfold side_at; rewrite EC; reflexivity|].
    replace (nth i (cv_edges v) 0%nat) with (side_at m c i) by (unfold side_at; rewrite EC; reflexivity). apply side_range; [apply (tr_trias _ _ _ TR)|exact H|lia].
Qed.

(** The load vector. *)
Lemma load_entry : forall B P Wt i, (i < 3)%nat -> nth i (load_entries f B P Wt) 0 =
  sum_to (length P) (fun k => GeoModel.dot 2 (fun j => nth i B vzero j * nth k Wt 0) (f (nth k P vzero))) /\ length (load_entries f B P Wt) = 3%nat.
Proof.
  intros B P Wt i Hi. unfold load_entries. generalize (length P). intros N.
  set (body := fun (v : list R) (k : nat) => _).
  assert (G : nth i (fold_left body (seq 0 N) [0; 0; 0]) 0 = sum_to N (fun k => GeoModel.dot 2 (fun j => nth i B vzero j * nth k Wt 0) (f (nth k P vzero))) /\
    length (fold_left body (seq 0 N) [0; 0; 0]) = 3%nat); [|exact G].
  induction N as [|N [IH IL]].
  - split; [destruct i as [|[|[|]]]; [reflexivity..|lia]|reflexivity].
  - rewrite seq_S, fold_left_app. cbn [fold_left Nat.add]. rewrite sum_to_S, <- IH. split; [|unfold body at 1; cbv zeta; rewrite map_length, seq_length; reflexivity]. unfold body at 1. cbv zeta.
    destruct i as [|[|[|]]]; [| | |lia]; reflexivity.
Qed.
Definition flux_data (e : nat) : R := if boundary_edge m e then 1 else 0.
Definition load_at (c i : nat) : R :=
  if (i <? 3)%nat then sum_to (length (qr_points q)) (fun k => nth k (qr_weights q) 0 * triangle_det geom c * inner 2 (f (point_of geom c (nth k (qr_points q) []))) (nth i (basis_at geom c) vzero))
  else flux_data (side_at m c (i - 3)) * inner 2 (g (EEdge (side_at m c (i - 3)))) (tang c (i - 3)).
Definition loads (e : ent) : nat -> R := match e with DofModel.ECell c => load_at c | _ => fun _ => 0 end.
Variable ds : dset vec.
Hypothesis DS : forall e, (e < ne)%nat -> dget ds 1 e = Ok (g (EEdge e)).
Lemma vector_is : forall c, (c < size m 0)%nat -> is_vector (StokesVectorEval m geom f q bd ds (DofModel.ECell c)) 6 (load_at c).
Proof.
  intros c H. unfold StokesVectorEval. destruct (basis_is m geom pos TR c H) as [-> LB]. cbn [bind].
  destruct (cell_geo m geom pos TR c H) as (K & D & C). destruct (tria_points _ K D C) as (pa & pb & pc & EC & A & _).
  destruct RQ as [LW LP].
  assert (Ec : col (geom (DofModel.ECell c)) = fun i => nth i [pa; pb; pc] vzero) by (unfold col; rewrite EC; reflexivity).
  assert (GP : forall p, In p (qr_points q) -> exists y, Global (geom (DofModel.ECell c)) p = Ok y /\ same_points y (point_of geom c p)).
  { intros p I. pose proof (LP p I) as L2. destruct p as [|s [|t [|]]]; try discriminate L2.
    unfold Global, range_check, with_local, global_at, dim_local. rewrite K, Ec. cbn [is_o2 bind kind_el RefPatModel.el_dim length Nat.eqb lf_assert nth].
    eexists. split; [reflexivity|]. intros k _. unfold point_of, polygon. rewrite EC. cbn [nth]. ring. }
  assert (IP : forall p, In p (qr_points q) -> IntegrationElement (geom (DofModel.ECell c)) p = Ok (triangle_det geom c)).
  { intros p I. pose proof (LP p I) as L2. destruct p as [|s [|t [|]]]; try discriminate L2.
    unfold IntegrationElement, range_check, with_local, jac_cols, dim_local. rewrite K, D, Ec. cbn [is_o2 bind kind_el RefPatModel.el_dim length Nat.eqb lf_assert nth].
    unfold triangle_det, polygon. rewrite EC. cbn [nth]. rewrite det_area. reflexivity. }
  destruct (HierProofs.traverse_all _ _ (Global (geom (DofModel.ECell c))) (qr_points q)) as [ps EP].
  { intros p I. destruct (GP p I) as (y & E & _). eauto. }
  rewrite EP. cbn [bind]. rewrite (traverse_map _ _ _ (fun _ => triangle_det geom c)) by exact IP. cbn [bind].
  rewrite map_length, LW, Nat.eqb_refl. cbn [lf_assert bind].
  destruct (normals_is m geom pos n TR NO c H) as [-> SN]. cbn [bind sub_entities].
  rewrite (traverse_map _ _ _ (fun i => flux_data (side_at m c i) * inner 2 (g (EEdge (side_at m c i))) (tang c i))).
  - cbn [bind]. eexists. split; [reflexivity|]. split.
    + rewrite app_length, map_length, seq_length. rewrite (proj2 (load_entry _ _ _ 0 ltac:(lia))). reflexivity.
    + intros i Hi. unfold load_at. destruct (Nat.ltb_spec i 3) as [L3|L3].
      * rewrite app_nth1 by (rewrite (proj2 (load_entry _ _ _ 0 ltac:(lia))); exact L3). rewrite (proj1 (load_entry _ _ _ i L3)).
        destruct (traverse_nth _ _ _ _ _ EP) as [Lp Np]. rewrite Lp.
        apply sum_to_ext. intros k Hk.
        assert (SP : same_points (nth k ps vzero) (point_of geom c (nth k (qr_points q) []))).
        { specialize (Np k [] vzero Hk). destruct (GP (nth k (qr_points q) [])) as (y & E & S); [apply nth_In, Hk|]. rewrite E in Np. injection Np as <-. exact S. }
        assert (Wk : nth k (map (fun p : R * R => fst p * snd p) (combine (map (fun _ : list R => triangle_det geom c) (qr_points q)) (qr_weights q))) 0 = triangle_det geom c * nth k (qr_weights q) 0).
        { rewrite (nth_indep _ 0 ((fun p : R * R => fst p * snd p) (triangle_det geom c, 0))) by (rewrite map_length, combine_length, map_length, LW, Nat.min_id; exact Hk).
          rewrite (map_nth (fun p : R * R => fst p * snd p) _ (triangle_det geom c, 0)), combine_nth by (rewrite map_length; symmetry; exact LW). cbn [fst snd].
          rewrite const_nth. reflexivity. }
        rewrite Wk. rewrite dot2, inner2. pose proof (FP _ _ SP) as S. rewrite (S 0%nat), (S 1%nat) by lia. ring.
      * rewrite app_nth2 by (rewrite (proj2 (load_entry _ _ _ 0 ltac:(lia))); exact L3). rewrite (proj2 (load_entry _ _ _ 0 ltac:(lia))).
        assert (L6 : (i - 3 < 3)%nat) by lia. set (j := (i - 3)%nat) in *. clearbody j. destruct j as [|[|[|]]]; [reflexivity..|lia].
  - intros i Hi. apply in_seq in Hi. unfold dirichlet_entry, elem_at. destruct (cell_view m c H) as (v & E & ECv). rewrite ECv.
    destruct (cell_shape m c v (tr_trias _ _ _ TR) E) as (n0 & n1 & n2 & e0 & e1 & e2 & _ & Ee & _).
    rewrite (nth_error_nth' _ 0%nat) by (rewrite Ee; cbn [length]; lia). cbn [bind].
    replace (nth i (cv_edges v) 0%nat) with (side_at m c i) by (unfold side_at; rewrite ECv; reflexivity).
    assert (RG : (side_at m c i < ne)%nat) by (apply side_range; [apply (tr_trias _ _ _ TR)|exact H|lia]).
    rewrite (BE _ RG). cbn [bind]. unfold flux_data. destruct (boundary_edge m (side_at m c i)); [|f_equal; ring].
    rewrite (DS _ RG). cbn [bind]. f_equal. rewrite dot2, inner2. specialize (SN i ltac:(lia)). unfold tangential, turn, tang, vec2. rewrite (SN 0%nat), (SN 1%nat) by lia. cbn [turn]. ring.
Qed.

(** * The forms *)
Definition dummy : srfe := {|
  fe_el := kTria; fe_degree := 1; fe_total := 6; fe_num1 := fe_num1 o1_tria; fe_num2 := fe_num2 o1_tria;
  fe_eval := fe_eval o1_tria; fe_grad := fe_grad o1_tria; fe_nodes := []; fe_num_nodes := 0; fe_n2d := fe_n2d o1_tria |}.
Definition space : fe_space := mkSpace m (fun _ => Some dummy) d.
Lemma sum6 : forall F, sum_to 6 F = F 0%nat + (F 1%nat + (F 2%nat + (F 3%nat + (F 4%nat + (F 5%nat + 0))))).
Proof. reflexivity. Qed.
Lemma element_is : forall c, (c < size m 0)%nat -> exists l, element_of space (DofModel.ECell c) dummy l /\ l = [node_at m c 0; node_at m c 1; node_at m c 2; (nv + side_at m c 0)%nat; (nv + side_at m c 1)%nat; (nv + side_at m c 2)%nat].
Proof.
  intros c H. destruct (tr_trias _ _ _ TR) as [W T]. destruct (cell_view m c H) as (v & E & EC).
  destruct (cell_unknowns m check W T c v E) as (G & L & _). destruct (cell_shape m c v (tr_trias _ _ _ TR) E) as (n0 & n1 & n2 & e0 & e1 & e2 & En & Ee & WC).
  rewrite En, Ee in G. cbn [map app] in G. eexists. split; [|reflexivity].
  assert (EQ : [node_at m c 0; node_at m c 1; node_at m c 2; (nv + side_at m c 0)%nat; (nv + side_at m c 1)%nat; (nv + side_at m c 2)%nat] = [n0; n1; n2; (nv + e0)%nat; (nv + e1)%nat; (nv + e2)%nat]).
  { unfold node_at, side_at. rewrite EC, En, Ee. reflexivity. }
  rewrite EQ. constructor; [reflexivity|exact G|exact L| |reflexivity].
  intros k I. cbn [space sp_dofs]. rewrite (total_dofs m check W T). 
  assert (Nn : forall x, In x (cv_nodes v) -> (x < mv_nodes m)%nat) by (pose proof (wc_nodes _ _ WC) as F; rewrite Forall_forall in F; exact F).
  assert (Ne : forall i, (i < 3)%nat -> (nth i [e0; e1; e2] 0 < length (mv_edges m))%nat).
  { intros i Hi. pose proof (side_range m c i (tr_trias _ _ _ TR) H Hi) as Q. unfold side_at in Q. rewrite EC, Ee in Q. exact Q. }
  rewrite En in Nn. pose proof (Ne 0%nat ltac:(lia)) as Q0. pose proof (Ne 1%nat ltac:(lia)) as Q1. pose proof (Ne 2%nat ltac:(lia)) as Q2. cbn [nth] in Q0, Q1, Q2. unfold size in I. cbn [In] in I.
  pose proof (Nn n0 (or_introl eq_refl)). pose proof (Nn n1 (or_intror (or_introl eq_refl))). pose proof (Nn n2 (or_intror (or_intror (or_introl eq_refl)))).
  repeat (destruct I as [I|I]; [lia|]). destruct I.
Qed.
Lemma cells_are : entities m 0 = map DofModel.ECell (seq 0 (size m 0)).
Proof. reflexivity. Qed.
Lemma over_cells : forall F, sum_over (filter (fun _ => true) (entities m 0)) F = sum_to (size m 0) (fun c => F (DofModel.ECell c)).
Proof.
  intros F. assert (FT : forall A (l : list A), filter (fun _ => true) l = l) by (intros A l; induction l as [|a l IH]; cbn; [reflexivity|f_equal; exact IH]).
  rewrite FT. unfold sum_over. rewrite cells_are, map_map. reflexivity.
Qed.
Notation N := (nv + ne)%nat.
Notation J := (jump m n).
Notation fld := (field_at m geom).

Lemma matrix_form : exists A D, AssembleMatrixWith m 0 d d (fun _ => true) (StokesMatrixEval m geom sigma bd modified) = Ok A /\ AssembleSpec.is_matrix Rring A N N D /\ forall v u : nat -> R, form Rring N N D v u = sum_to ne (fun e =>
    u (nv + e)%nat * J (fld v) e + v (nv + e)%nat * J (fld u) e + INR (adjacent m e) * diagonal e * (v (nv + e)%nat * u (nv + e)%nat)).
Proof.
  destruct (tr_trias _ _ _ TR) as [W T].
  destruct (GalerkinProofs.assembled space 0 (fun _ => true) (StokesMatrixEval m geom sigma bd modified) entries) as (A & D & EA & MA & FA).
  { intros e I. apply filter_In in I as [I _]. cbn [space sp_mesh] in I. rewrite cells_are in I. apply in_map_iff in I as (c & <- & Hc). apply in_seq in Hc.
    destruct (element_is c ltac:(lia)) as (l & El & _). exists dummy, l. split; [exact El|]. apply matrix_is. lia. }
  cbn [space sp_mesh sp_dofs] in EA, MA, FA. rewrite (total_dofs m check W T) in MA, FA. exists A, D. split; [exact EA|]. split; [exact MA|].
  intros v u. rewrite FA, over_cells.
  transitivity (sum_to (size m 0) (fun c => sum_to 3 (fun i => inner 2 (fld v c) (tang c i) * u (nv + side_at m c i)%nat) +
     sum_to 3 (fun i => inner 2 (fld u c) (tang c i) * v (nv + side_at m c i)%nat) +
     sum_to 3 (fun i => 1 * (diagonal (side_at m c i) * (v (nv + side_at m c i)%nat * u (nv + side_at m c i)%nat))))).
  - apply sum_to_ext. intros c Hc. cbv zeta. destruct (element_is c Hc) as (l & El & Ll). rewrite (idx_is _ _ _ (eo_dofs _ _ _ _ El)), Ll. cbn [length nth].
    rewrite !sum6. rewrite !sum3. cbn [nth entries]. unfold entry_of. cbn [Nat.ltb Nat.leb Nat.sub Nat.eqb]. unfold field_at. rewrite !inner_comb. ring.
  - rewrite !sum_to_plus. rewrite (by_edges m (fun c i => inner 2 (fld v c) (tang c i)) (fun e => u (nv + e)%nat) (tr_trias _ _ _ TR)).
    rewrite (by_edges m (fun c i => inner 2 (fld u c) (tang c i)) (fun e => v (nv + e)%nat) (tr_trias _ _ _ TR)).
    rewrite (by_edges m (fun _ _ => 1) (fun e => diagonal e * (v (nv + e)%nat * u (nv + e)%nat)) (tr_trias _ _ _ TR)).
    rewrite <- !sum_to_plus. apply sum_to_ext. intros e He. rewrite side_count by exact (tr_trias _ _ _ TR). rewrite !jump_over. unfold tang. ring.
Qed.
Definition cell_load (w : nat -> vec) : R := sum_to (size m 0) (fun c => sum_to (length (qr_points q)) (fun k =>
    nth k (qr_weights q) 0 * triangle_det geom c * inner 2 (f (point_of geom c (nth k (qr_points q) []))) (w c))).
Definition data_at (e : nat) : R := if boundary_edge m e then tangential_part m n e (g (EEdge e)) else 0.
Lemma vector_form : exists b, AssembleVectorWith m 0 d (fun _ => true) (StokesVectorEval m geom f q bd ds) = Ok b /\ length b = N /\ forall v : nat -> R, sum_to N (fun i => nth i b 0 * v i) = cell_load (fld v) + sum_to ne (fun e => v (nv + e)%nat * data_at e).
Proof.
  destruct (tr_trias _ _ _ TR) as [W T].
  destruct (GalerkinProofs.assembled_vec space 0 (fun _ => true) (StokesVectorEval m geom f q bd ds) loads) as (b & Eb & Lb & Hb).
  { intros e I. apply filter_In in I as [I _]. cbn [space sp_mesh] in I. rewrite cells_are in I. apply in_map_iff in I as (c & <- & Hc). apply in_seq in Hc.
    destruct (element_is c ltac:(lia)) as (l & El & _). exists dummy, l. split; [exact El|]. apply vector_is. lia. }
  cbn [space sp_mesh sp_dofs] in Eb, Lb, Hb. rewrite (total_dofs m check W T) in Lb, Hb. exists b. split; [exact Eb|]. split; [exact Lb|].
  intros v. rewrite Hb, over_cells. unfold cell_load.
  transitivity (sum_to (size m 0) (fun c => sum_to (length (qr_points q)) (fun k =>
      nth k (qr_weights q) 0 * triangle_det geom c * inner 2 (f (point_of geom c (nth k (qr_points q) []))) (fld v c)) +
     sum_to 3 (fun i => flux_data (side_at m c i) * inner 2 (g (EEdge (side_at m c i))) (tang c i) * v (nv + side_at m c i)%nat))).
  - apply sum_to_ext. intros c Hc. cbv zeta. destruct (element_is c Hc) as (l & El & Ll). rewrite (idx_is _ _ _ (eo_dofs _ _ _ _ El)), Ll. cbn [length nth].
    rewrite sum6, sum3. cbn [nth loads]. unfold load_at. cbn [Nat.ltb Nat.leb Nat.sub].
    transitivity (v (node_at m c 0) * sum_to (length (qr_points q)) (fun k => nth k (qr_weights q) 0 * triangle_det geom c * inner 2 (f (point_of geom c (nth k (qr_points q) []))) (nth 0 (basis_at geom c) vzero)) +
      v (node_at m c 1) * sum_to (length (qr_points q)) (fun k => nth k (qr_weights q) 0 * triangle_det geom c * inner 2 (f (point_of geom c (nth k (qr_points q) []))) (nth 1 (basis_at geom c) vzero)) +
      v (node_at m c 2) * sum_to (length (qr_points q)) (fun k => nth k (qr_weights q) 0 * triangle_det geom c * inner 2 (f (point_of geom c (nth k (qr_points q) []))) (nth 2 (basis_at geom c) vzero)) +
      sum_to 3 (fun i => flux_data (side_at m c i) * inner 2 (g (EEdge (side_at m c i))) (tang c i) * v (nv + side_at m c i)%nat)); [rewrite sum3; ring|].
    rewrite <- !sum_to_scal. rewrite <- !sum_to_plus. rewrite sum3. f_equal. apply sum_to_ext. intros k Hk. unfold field_at. rewrite !inner2. unfold comb. ring.
  - rewrite sum_to_plus. f_equal.
    transitivity (sum_to (size m 0) (fun c => sum_to 3 (fun i => flux_data (side_at m c i) * inner 2 (g (EEdge (side_at m c i))) (tang c i) * v (nv + side_at m c i)%nat))); [reflexivity|].
    transitivity (sum_to (size m 0) (fun c => sum_to ne (fun e => sum_to 3 (fun i => if is_side m c i e then flux_data e * inner 2 (g (EEdge e)) (tang c i) * v (nv + e)%nat else 0)))).
    + apply sum_to_ext. intros c Hc. rewrite <- sum_swap. apply sum_to_ext. intros i Hi.
      etransitivity; [symmetry; apply (sum_one ne (side_at m c i) (fun e => flux_data e * inner 2 (g (EEdge e)) (tang c i) * v (nv + e)%nat)), side_range; [exact (tr_trias _ _ _ TR)|exact Hc|exact Hi]|].
      apply sum_to_ext. intros e He. rewrite is_side_at by (try exact (tr_trias _ _ _ TR); assumption). reflexivity.
    + rewrite sum_swap. apply sum_to_ext. intros e He. unfold data_at, tangential_part, flux_data. destruct (boundary_edge m e).
      * rewrite jump_over. unfold over_sides. rewrite <- sum_to_scal. apply sum_to_ext. intros c Hc. rewrite <- sum_to_scal. apply sum_to_ext. intros i Hi. unfold tang. destruct (is_side m c i e); ring.
      * rewrite Rmult_0_r. apply sum_zero. intros c Hc. apply sum_zero. intros i Hi. destruct (is_side m c i e); ring.
Qed.
End System.
