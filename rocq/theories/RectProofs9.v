(** All levels of uniformly refined triangular meshes. *)
From Coq Require Import Reals List Arith Lia Bool Lra.
Import ListNotations.
From Verif Require Import Base Scalars MeshModel MeshSpec MeshView RefPatModel RefPatSpec RefineModel RefineSpec RefineProofs5 BuilderModel BuilderSpec BuilderProofs3 BuilderProofs5
  DofModel DofSpec FlagSpec FlagModel GeoModel GeoSpec GeoProofs2 FeModel FeSpec FeToolsModel QuadModel LagrModel AssembleModel AssembleSpec
  TransferModel TransferSpec TransferProofs TransferProofs2 TransferProofs4 TransferProofs5 TransferProofs7 ConformSpec ConformProofs2 ConformProofs3 PropTransfer PropConform NormalSpec NormalProofs2 NormalProofs3 NormalProofs4
  StokesModel StokesSpec StokesProofs StokesProofs2 StokesProofs7 StokesProofs8 StokesProofs9 StokesProofs10 StokesProofs11 StokesProofs16 StokesProofs17 FlowSpec
  RectSpec RectProofs RectProofs2 RectProofs3 RectProofs4 RectProofs5 RectProofs6 RectProofs7 RectProofs8.
Local Open Scope nat_scope.

Lemma boundary_split : forall L L', wf_mesh (l_mesh L) -> refined_to L (l_mesh L') -> RefineSpec.linked L L' -> tri_mesh (l_mesh L) -> regular_level L -> forall e, boundary_edge (l_mesh L) e = true -> is_split L e.
Proof.
  intros L L' W RF LK T RG e B. unfold boundary_edge in B. apply Nat.eqb_eq in B.
  assert (I : In e (flat_map cv_edges (mv_cells (l_mesh L)))) by (apply (count_occ_In Nat.eq_dec); unfold adjacent in B; rewrite B; lia).
  apply in_flat_map in I as (c & Hc & He). apply In_nth_error in Hc as (i & Hi). apply In_nth_error in He as (j & Hj).
  apply (split_all L L' W RF T RG i j e). exists c. auto.
Qed.
Section Levels.
Variables (m : mesh) (geom0 : ent -> geo) (pos : nat -> vec).
Hypothesis V : valid_mesh m.
Hypothesis ST : straight_at m 2 pos geom0.
Hypothesis T : tri_mesh m.
Hypothesis F : fit_for_stokes m geom0 pos.

Lemma levels_fit : forall lgs longest check, (forall i, longest i < 3) -> Forall (fun lg => forall i, lg i < 3) lgs ->
  exists H, run_hops (uniformly lgs) (new_hierarchy longest m (new_factory check)) = Ok H /\ length (levels H) = S (length lgs) /\
    (exists geom, geom 0 = geom0 /\ geometric (levels H) geom) /\
    forall geom, geom 0 = geom0 -> geometric (levels H) geom -> forall l L, nth_error (levels H) l = Some L -> fit_for_stokes (l_mesh L) (geom l) (at_node (geom l)).
Proof.
  intros lgs longest check HL FL. destruct V as (W & SM & CM). destruct F as (F1 & F2 & F3 & F4 & F5 & F6 & F7 & F8).
  destruct (valid_refined m V (uniformly lgs) longest check HL (uniformly_good lgs FL)) as (H & R & Len & (L0 & E0 & M0) & VL & RE).
  exists H. split; [exact R|]. split.
  { rewrite Len. f_equal. unfold uniformly. clear. induction lgs as [|a lgs IH]; cbn; [reflexivity|]. rewrite IH. reflexivity. }
  assert (AS : all_stepped (levels H)).
  { apply (uniformly_stepped lgs _ check m H (new_good longest check m W SM HL) (fun _ => CM) FL); [|exact R].
    intros i L L' _ E. unfold new_hierarchy, levels in E. cbn in E. destruct i; discriminate. }
  pose proof (reached_levels H RE) as GL.
  assert (B : forall e, valid m e -> constructed (geom0 e) /\ exact_parallelogram (geom0 e) /\ kind_el (go_kind (geom0 e)) = ent_type m e /\ tame (geom0 e)).
  { intros e Ve. destruct (ST e Ve) as (A1 & A2 & A3 & A4 & _). do 3 (split; [assumption|]). intros K.
    assert (Q : ent_type m e = kQuad) by (rewrite <- A3; destruct K as [-> | ->]; reflexivity).
    destruct e as [i|i|i]; try discriminate. cbn [ent_type valid] in *. unfold DofModel.cell_at in Q.
    destruct (nth_error (mv_cells m) i) as [c|] eqn:E; [|apply nth_error_None in E; lia]. rewrite (nth_error_nth _ _ _ E) in Q.
    unfold cv_type, cell_type in Q. rewrite (T c (nth_error_In _ _ E)) in Q. discriminate. }
  split.
  { apply C60_geometries; [exact RE| |right].
    - intros L e E. rewrite E0 in E. injection E as <-. rewrite M0. apply B.
    - intros l L ci Hl E Hc. right. destruct (nth_error (levels H) (S l)) as [L'|] eqn:E'; [|apply nth_error_None in E'; lia]. exact (st_pat _ _ (AS l L L' E E') ci Hc). }
  intros geom G0 GE.
  assert (O : forall l L e, nth_error (levels H) l = Some L -> valid (l_mesh L) e -> is_o2 (go_kind (geom l e)) = false).
  { apply (levels_order H geom GL GE). intros L e E. rewrite E0 in E. injection E as <-. rewrite M0, G0. intros Ve. exact (proj1 (proj2 (proj2 (proj2 (ST e Ve))))). }
  assert (WT : forall l L, nth_error (levels H) l = Some L -> watertight (l_mesh L) 2 (geom l)).
  { apply (levels_watertight H geom 2 L0 RE GE E0). rewrite M0, G0. exact (C70_first_order m 2 pos geom0 W ST). }
  assert (TM : forall l L, nth_error (levels H) l = Some L -> tri_mesh (l_mesh L) /\ manifold (l_mesh L) /\ all_reached (l_mesh L)) by (apply (levels_mesh H GL AS L0 E0); rewrite M0; assumption).
  assert (PT : forall l L, nth_error (levels H) l = Some L -> forall i, i < length (mv_cells (l_mesh L)) -> plane_tria (geom l (DofModel.ECell i))).
  { intros l L E i Hi. pose proof (all_fit H geom GL GE l L (DofModel.ECell i) E Hi) as Q. pose proof (O l L (DofModel.ECell i) E Hi) as K.
    destruct (nth_error (mv_cells (l_mesh L)) i) as [c|] eqn:Ec; [|apply nth_error_None in Ec; lia].
    assert (Tc : ent_type (l_mesh L) (DofModel.ECell i) = kTria).
    { cbn [ent_type]. unfold DofModel.cell_at. rewrite (nth_error_nth _ _ _ Ec). unfold cv_type, cell_type. rewrite (proj1 (TM l L E) c (nth_error_In _ _ Ec)). reflexivity. }
    rewrite Tc in Q. split; [exact (tria_kind _ K (proj2 (proj2 Q)))|]. split; [exact (wt_dim _ _ _ (WT l L E) (DofModel.ECell i) Hi)|exact Q]. }
  assert (ALL : forall l L, nth_error (levels H) l = Some L -> no_overlap (l_mesh L) (geom l) /\ (exists v, boundary_node (l_mesh L) v) /\ closed_curves (l_mesh L) /\ connected_boundary (l_mesh L)).
  { induction l as [|l IH]; intros L' E'.
    - rewrite E0 in E'. injection E' as <-. rewrite M0, G0. auto.
    - destruct (nth_error (levels H) l) as [L|] eqn:E.
      2: { apply nth_error_None in E. assert (S l < length (levels H)) by (apply nth_error_Some; congruence). lia. }
      destruct (IH L eq_refl) as (A1 & A2 & A3 & A4). destruct (nth_in H GL _ _ E) as [Wl Sl]. destruct (nth_in H GL _ _ E') as [W' S']. destruct (gl_step _ GL _ _ _ E E') as [RF LK].
      destruct (AS l L L' E E') as [P AE AC]. pose proof (proj1 (TM l L E)) as Tl. pose proof (boundary_split L L' Wl RF LK Tl P) as SP.
      split; [exact (fine_apart L L' Wl W' Sl RF LK Tl P (geom l) (geom (S l)) (PT l L E) (PT (S l) L' E') (fun e => ge_fine _ _ GE l L L' e E E') A1)|].
      split; [exact (fine_boundary L L' RF AE SP A2)|]. split; [exact (fine_curves L L' Wl RF LK AE AC SP A3)|exact (fine_connected L L' RF LK AE AC SP A4)]. }
  intros l L E. destruct (TM l L E) as (T1 & T2 & T3). destruct (ALL l L E) as (A1 & A2 & A3 & A4). destruct (nth_in H GL _ _ E) as [Wl Sl].
  split; [|split; [exact T2|split; [exact A1|split; [exact T3|split; [exact (proj2 (proj2 (VL L (nth_error_In _ _ E))))|auto]]]]].
  apply straight_triangulation; [exact Wl|exact T1|exact (WT l L E)|]. intros e Ve. split; [exact (all_fit H geom GL GE l L e E Ve)|exact (O l L e E Ve)].
Qed.
End Levels.
Local Open Scope R_scope.
Lemma fit_no_flow : forall m geom pos, fit_for_stokes m geom pos -> let N := (size m 2 + size m 1)%nat in
  forall sigma modified q check f b, 0 < sigma -> tria_rule q -> of_points f ->
  exists A rhs D, buildSystemMatrixNoFlow m geom (u_handler (uniform m stokes_map check)) f b sigma q modified = Ok (A, rhs) /\
  AssembleSpec.is_matrix Rring A N N D /\ length rhs = N /\
  exists x, solves Rring N D (comp Rring rhs) x /\ forall y, solves Rring N D (comp Rring rhs) y -> forall i, (i < N)%nat -> y i = x i.
Proof.
  intros m geom pos (T1 & T2 & T3 & T4 & T5 & T6 & T7 & T8) N sigma modified q check f b S0 T O. destruct (normals_exist _ _ _ T1) as (n & Hn & _).
  exact (no_flow_solution m geom pos n T1 Hn T2 sigma modified q check S0 T4 T5 f b T O).
Qed.
Lemma fit_in_out_flow : forall m geom pos, fit_for_stokes m geom pos -> let N := (size m 2 + size m 1)%nat in
  forall solver, exact_solver solver -> forall sigma modified q check f b, 0 < sigma -> tria_rule q -> of_points f ->
  exists A rhs D off, buildSystemMatrixInOutFlow m geom solver (u_handler (uniform m stokes_map check)) f b sigma q modified = Ok (A, rhs, off) /\
  AssembleSpec.is_matrix Rring A N N D /\ length rhs = N /\
  exists x, solves Rring N D (comp Rring rhs) x /\ forall y, solves Rring N D (comp Rring rhs) y -> forall i, (i < N)%nat -> y i = x i.
Proof.
  intros m geom pos (T1 & T2 & T3 & T4 & T5 & T6 & T7 & T8) N solver Es sigma modified q check f b S0 T O. destruct (normals_exist _ _ _ T1) as (n & Hn & _).
  exact (in_out_solution m geom pos n T1 Hn T2 T3 T6 T7 T8 solver Es sigma modified q f b check (Rgt_not_eq _ _ S0) T O S0 T4 T5).
Qed.
Lemma rect_levels : forall p check, proper p -> well_shaped p -> exists M g, tp_triag_build p check = Ok (Some (M, g)) /\ forall geom0, given g geom0 ->
  forall lgs longest check', (forall i, longest i < 3)%nat -> Forall (fun lg => forall i, lg i < 3)%nat lgs ->
  exists H, run_hops (uniformly lgs) (new_hierarchy longest (view M) (new_factory check')) = Ok H /\ length (levels H) = S (length lgs) /\
    (exists geom, geom 0%nat = geom0 /\ geometric (levels H) geom) /\
    forall geom, geom 0%nat = geom0 -> geometric (levels H) geom -> forall l L, nth_error (levels H) l = Some L -> fit_for_stokes (l_mesh L) (geom l) (at_node (geom l)).
Proof.
  intros p check P W. destruct (triag_detail p P W check) as (M & E & _ & D). exists M, (sites3 p). split; auto. intros geom0 G.
  destruct (triag_valid p P W check) as (M' & E' & _ & V). assert (M' = M) by congruence. subst M'.
  apply (levels_fit (view M) geom0 (position (sites3 p)) V (rect_straight p P W M D geom0 G) (rect_tri p M D)).
  split; [exact (rect_triangulation p P W M D geom0 G)|]. split; [exact (rect_manifold p P M D)|].
  split; [exact (rect_apart p P W M D geom0 G)|]. split; [exact (rect_reached p P M D)|]. split; [exact (dt_complete p M D)|].
  split; [exact (rect_corner p P M D)|]. split; [exact (rect_curves p P M D)|exact (rect_connected p P M D)].
Qed.
