(** Proofs for C70: geometries on all levels fit together. *)
From Coq Require Import Reals List Arith Bool ZArith Lia Lra Permutation.
Import ListNotations.
From Verif Require Import Base MeshModel MeshView RefPatModel RefPatSpec RefineModel RefineSpec RefineProofs2 RefineProofs3 RefineProofs4 RefineProofs5
  DofModel DofSpec GeoModel GeoSpec GeoProofs GeoProofs7 PropGeo FeModel FeSpec FeToolsModel HierProofs TransferModel TransferSpec TransferProofs TransferProofs2 TransferProofs3
  TransferProofs4 TransferProofs5 ProlongSpec ProlongProofs ConformSpec ConformProofs.
Local Open Scope R_scope.

(** A geometry of the right type has a value at every point of its reference element. *)
Lemma global_ok : forall t g x, fits t g -> in_ref t x -> exists v, Global g x = Ok v.
Proof.
  intros t g x (_ & _ & K) Hx.
  assert (LX : length x = dim_local (go_kind g)) by (unfold dim_local; rewrite K; apply in_ref_length; auto).
  unfold Global, with_local. rewrite (proj2 (Nat.eqb_eq _ _) LX). unfold range_check.
  destruct (is_o2 (go_kind g)); cbn [bind lf_assert]; eauto.
  assert (R : in_range x = true); [|rewrite R; cbn; eauto].
  unfold in_range, leb. rewrite <- K in Hx. destruct (go_kind g); cbn in Hx; destruct x as [|a [|b [|]]]; try tauto; cbn;
  repeat (destruct (Rle_dec _ _); [|lra]); reflexivity.
Qed.
Lemma coord_same : forall geom e x e' x' geom' d k, same_point (geom e) x (geom' e') x' -> go_dim (geom e) = d -> (k < d)%nat -> coord geom k e x = coord geom' k e' x'.
Proof. intros geom e x e' x' geom' d k (_ & p & q & A & B & E) D Hk. unfold coord, world_function. rewrite A, B. cbn [bind]. f_equal. apply E. lia. Qed.
Lemma same_coord : forall geom e x e' x' d, go_dim (geom e) = d -> go_dim (geom e') = d -> (exists v, Global (geom e) x = Ok v) -> (exists v, Global (geom e') x' = Ok v) ->
  (forall k, (k < d)%nat -> coord geom k e x = coord geom k e' x') -> same_point (geom e) x (geom e') x'.
Proof.
  intros geom e x e' x' d D D' (p & A) (q & B) H. split; [congruence|]. exists p, q. split; auto. split; auto. intros k Hk. specialize (H k ltac:(lia)).
  unfold coord, world_function in H. rewrite A, B in H. cbn [bind] in H. congruence.
Qed.

(** Watertight means: every coordinate is a continuous function. *)
Lemma watertight_coord : forall m d geom, wf_mesh m -> (forall e, valid m e -> fits (ent_type m e) (geom e)) -> (forall e, valid m e -> go_dim (geom e) = d) ->
  (watertight m d geom <-> forall k, (k < d)%nat -> continuous_function m (coord geom k)).
Proof.
  intros m d geom W FT DM. split.
  - intros WT k Hk. split.
    + intros e x V Hx. destruct (global_ok _ _ _ (FT e V) Hx) as (v & E). unfold coord, world_function. rewrite E. cbn. eauto.
    + intros i c j e o t Ec Ee Eo Ht. eapply coord_same; [apply (wt_edge _ _ _ WT i c j e o t Ec Ee Eo Ht)|apply DM; eapply valid_cell_i; eauto|exact Hk].
    + intros i c j n Ec En. eapply coord_same; [apply (wt_corner _ _ _ WT i c j n Ec En)|apply DM; eapply valid_cell_i; eauto|exact Hk].
    + intros e a b Ee. assert (V : valid m (EEdge e)) by (cbn; apply nth_error_Some; congruence).
      destruct (wt_ends _ _ _ WT e a b Ee) as [A B]. split; (eapply coord_same; [eassumption|apply DM, V|exact Hk]).
  - intros CT. split.
    + exact DM.
    + intros i c j e o t Ec Ee Eo Ht. pose proof (valid_cell_i _ _ _ Ec) as V. pose proof (cell_wf_of _ _ _ W Ec) as WC. pose proof (tq _ _ WC) as T.
      assert (NF : num_nodes (cv_type c) = length (cv_nodes c)) by (destruct (wf_type _ _ WC) as [[-> ->]|[-> ->]]; reflexivity).
      assert (Hj : (j < length (cv_nodes c))%nat) by (rewrite <- (wc_edges _ _ WC); apply nth_error_Some; congruence).
      destruct (wc_local _ _ WC j Hj) as (e1 & o1 & p0 & p1 & A1 & A2 & A3 & A4). rewrite Ee in A1. injection A1 as <-.
      assert (VE : valid m (EEdge e)) by (cbn; apply nth_error_Some; congruence).
      assert (TI : ent_type m (ECell i) = cv_type c) by (cbn; unfold DofModel.cell_at; rewrite (nth_error_nth _ _ _ Ec); reflexivity).
      apply same_coord with (d := d); auto.
      * eapply global_ok; [apply FT, V|]. rewrite TI. apply edge_point_in; auto. lia.
      * eapply global_ok; [apply FT, VE|]. exact Ht.
      * intros k Hk. apply (ct_edge _ _ (CT k Hk)); auto.
    + intros i c j n Ec En. pose proof (valid_cell_i _ _ _ Ec) as V. pose proof (cell_wf_of _ _ _ W Ec) as WC. pose proof (tq _ _ WC) as T.
      assert (NF : num_nodes (cv_type c) = length (cv_nodes c)) by (destruct (wf_type _ _ WC) as [[-> ->]|[-> ->]]; reflexivity).
      assert (Hj : (j < length (cv_nodes c))%nat) by (apply nth_error_Some; congruence).
      assert (VN : valid m (ENode n)) by (pose proof (wc_nodes _ _ WC) as WN; rewrite Forall_forall in WN; apply WN; eapply nth_error_In; eauto).
      assert (TI : ent_type m (ECell i) = cv_type c) by (cbn; unfold DofModel.cell_at; rewrite (nth_error_nth _ _ _ Ec); reflexivity).
      apply same_coord with (d := d); auto.
      * eapply global_ok; [apply FT, V|]. rewrite TI. apply ref_node_in; auto. lia.
      * eapply global_ok; [apply FT, VN|]. exact Logic.I.
      * intros k Hk. apply (ct_node _ _ (CT k Hk)); auto.
    + intros e a b Ee. assert (VE : valid m (EEdge e)) by (cbn; apply nth_error_Some; congruence). destruct (wm_edges _ W _ _ _ Ee) as (_ & Va & Vb).
      split; apply same_coord with (d := d); auto; try (eapply global_ok; [apply FT, VE|]; cbn; lra); try (eapply global_ok; [apply FT; first [exact Va|exact Vb]|exact Logic.I]);
      intros k Hk; apply (ct_ends _ _ (CT k Hk) e a b Ee).
Qed.

(** The curve of a geometry in one coordinate. *)
Lemma curve_arc : forall geom p k a b t q, curve (geom p) a b t q -> (k < go_dim (geom p))%nat -> arc_of (coord geom k p) (is_o2 (go_kind (geom p))) a b t (q k).
Proof.
  intros geom p k a b t q (pa & pb & pm & A & B & D & E) Hk. exists (pa k), (pb k), (pm k). unfold coord, world_function. rewrite A, B, D. cbn [bind].
  split; auto. split; auto. split; auto. rewrite (E k Hk). unfold arc. reflexivity.
Qed.
Lemma arc_exact : forall geom p k a b t r, go_kind (geom p) <> GPoint -> closed_class (geom p) [a; b] -> 0 <= t <= 1 -> (k < go_dim (geom p))%nat ->
  arc_of (coord geom k p) (is_o2 (go_kind (geom p))) a b t r -> coord geom k p (between a b t) = Ok r.
Proof.
  intros geom p k a b t r NP CC Ht Hk (va & vb & vm & A & B & D & ->). unfold coord, world_function in A, B, D.
  apply bind_ok in A as (pa & A & A'). apply bind_ok in B as (pb & B & B'). apply bind_ok in D as (pm & D & D').
  injection A' as <-. injection B' as <-. injection D' as <-.
  set (q := fun k => arc (is_o2 (go_kind (geom p))) (pa k) (pb k) (pm k) t).
  assert (CQ : curve (geom p) a b t q) by (exists pa, pb, pm; split; auto).
  destruct (curve_exact _ _ _ _ _ NP CC (fun _ => Ht) CQ) as (v & V & E). unfold coord, world_function. rewrite V. cbn [bind]. f_equal. symmetry. exact (E k Hk).
Qed.
Lemma quad_sides : forall s, on_edge kQuad 0 s = [s; 0] /\ on_edge kQuad 1 s = [1; s] /\ on_edge kQuad 2 s = [1 - s; 1] /\ on_edge kQuad 3 s = [0; 1 - s].
Proof. intros s. unfold on_edge, between. cbn. repeat split; vec_eq. Qed.
Lemma side_closed : forall g t j o al be, (t = kTria \/ t = kQuad) -> (j < num_nodes t)%nat -> kind_el (go_kind g) = t ->
  closed_class g [edge_point t j o al; edge_point t j o be].
Proof.
  intros g t j o al be T Hj K. unfold closed_class, edge_point.
  assert (Q : t = kQuad -> axis_parallel [on_edge t j (if o then al else 1 - al); on_edge t j (if o then be else 1 - be)]).
  { intros ->. cbn in Hj. destruct (quad_sides (if o then al else 1 - al)) as (A0 & A1 & A2 & A3). destruct (quad_sides (if o then be else 1 - be)) as (B0 & B1 & B2 & B3).
    right. destruct j as [|[|[|[|j]]]]; try lia; [rewrite A0, B0|rewrite A1, B1|rewrite A2, B2|rewrite A3, B3]; do 4 eexists; first [left; reflexivity|right; left; reflexivity]. }
  destruct (go_kind g); auto; apply Q; cbn in K; congruence.
  Unshelve. all: exact 0.
Qed.
Lemma between_side : forall t j o al be s, (t = kTria \/ t = kQuad) -> (j < num_nodes t)%nat ->
  between (edge_point t j o al) (edge_point t j o be) s = edge_point t j o ((1 - s) * al + s * be).
Proof. intros t j o al be s T K. unfold edge_point, on_edge, between. cells2 t T; destruct j as [|[|[|[|j]]]]; try lia; destruct o; cbn; vec_eq. Qed.

Lemma map_nth_id : forall z : list R, map (fun j => nth j z 0) (seq 0 (length z)) = z.
Proof.
  induction z as [|a z IH] using rev_ind; [reflexivity|].
  rewrite app_length. cbn [length]. rewrite seq_app, map_app. cbn [seq map Nat.add]. rewrite app_nth2, Nat.sub_diag by lia. cbn [nth]. f_equal.
  rewrite <- IH at 2. apply map_ext_in. intros j Hj. apply in_seq in Hj. apply app_nth1. lia.
Qed.
Lemma onto_ref : forall t w j n, length w = num_nodes t -> (forall y, In y w -> length y = n) -> (j < num_nodes t)%nat -> onto w (ref_node t j) = nth j w [].
Proof.
  intros t w j n LW LN Hj.
  assert (H0 : length (nth 0 w []) = n) by (apply LN, nth_In; rewrite LW; lia). assert (HJ : length (nth j w []) = n) by (apply LN, nth_In; rewrite LW; exact Hj).
  transitivity (map (fun i => nth i (nth j w []) 0) (seq 0 (length (nth j w [])))); [|apply map_nth_id]. rewrite HJ, <- H0.
  destruct t; cbn [num_nodes] in *.
  - destruct w as [|y0 [|]]; try discriminate. destruct j as [|j]; try lia. unfold onto. cbn [length nth combine map fst snd fold_right]. apply map_ext_in. intros i _. cbn. ring.
  - destruct w as [|y0 [|y1 [|]]]; try discriminate. destruct j as [|[|j]]; try lia; unfold onto; cbn [length nth combine map fst snd fold_right]; apply map_ext_in; intros i _; unfold ref_node; cbn [ref_nodes nth]; ring.
  - destruct w as [|y0 [|y1 [|y2 [|]]]]; try discriminate. destruct j as [|[|[|j]]]; try lia; unfold onto; cbn [length nth combine map fst snd fold_right]; apply map_ext_in; intros i _; unfold ref_node; cbn [ref_nodes nth]; ring.
  - destruct w as [|y0 [|y1 [|y2 [|y3 [|]]]]]; try discriminate. destruct j as [|[|[|[|j]]]]; try lia; unfold onto; cbn [length nth combine map fst snd fold_right]; apply map_ext_in; intros i _; unfold ref_node; cbn [ref_nodes nth]; ring.
Qed.

Section Step.
Variables L L' : level.
Hypothesis W : wf_mesh (l_mesh L).
Hypothesis W' : wf_mesh (l_mesh L').
Hypothesis S0 : simple_mesh (l_mesh L).
Hypothesis RF : refined_to L (l_mesh L').
Hypothesis LK : linked L L'.
Let m := l_mesh L.
Let m' := l_mesh L'.
Variables geom geom' : ent -> geo.
Variable d : nat.
Hypothesis FT : forall e, valid m e -> fits (ent_type m e) (geom e).
Hypothesis FG : forall e, valid m' e -> fine_geometry L L' geom e = Ok (geom' e).
Hypothesis WT : watertight m d geom.

Lemma inside_valid : forall e p w, valid m' e -> inside L L' e p w -> valid m p.
Proof.
  intros e p w V IN. destruct (up_of L L' W W' RF LK e V) as (p' & w' & Vp & _ & IN'). destruct (inside_unique L L' W S0 LK _ _ _ _ _ IN IN') as [-> _]. exact Vp.
Qed.
Lemma child_fits : forall e, valid m' e -> fits (ent_type m' e) (geom' e) /\ go_dim (geom' e) = d.
Proof.
  intros e V. destruct (up_of L L' W W' RF LK e V) as (p & w & Vp & _ & IN).
  destruct (fine_fits L L' W W' S0 RF LK geom e p w _ V Vp IN (FT p Vp) (FG e V)) as (A & B & _). split; auto. rewrite B. apply (wt_dim _ _ _ WT), Vp.
Qed.
Lemma child_cases : forall e p w, valid m' e -> inside L L' e p w ->
  (exists i, p = ENode i /\ geom' e = geom p /\ w = [[]]) \/ (go_kind (geom p) <> GPoint /\ child_of (geom p) (ent_codim e - ent_codim p) w (geom' e)).
Proof. intros e p w V IN. pose proof (inside_valid e p w V IN) as Vp. apply (child_of_fine L L' W W' S0 RF LK geom e p w _ V Vp IN (FT p Vp) (FG e V)). Qed.

Theorem step_geometries : watertight m' d geom'.
Proof.
  apply (watertight_coord m' d geom' W').
  - intros e V. apply child_fits, V.
  - intros e V. apply child_fits, V.
  - intros k Hk. pose proof (proj1 (watertight_coord m d geom W FT (wt_dim _ _ _ WT)) WT k Hk) as CU.
    apply (step_watertight L L' W W' S0 RF LK (coord geom k) (coord geom' k) (fun e => is_o2 (go_kind (geom e))) CU).
    + intros e x V Hx. destruct (global_ok _ _ _ (proj1 (child_fits e V)) Hx) as (v & E). unfold coord, world_function. rewrite E. cbn. eauto.
    + intros e p w j V IN Hj. change (l_mesh L') with m' in V |- *. pose proof (inside_valid e p w V IN) as Vp. destruct (child_fits e V) as [FE DE]. destruct FE as (_ & _ & KE).
      destruct (child_cases e p w V IN) as [(i & -> & G & ->)|(NP & CO)].
      * assert (T : ent_type m' e = kPoint).
        { rewrite <- KE, G. destruct (FT _ Vp) as (_ & _ & K). exact K. }
        rewrite T. cbn in Hj. destruct j; [|lia]. unfold coord, world_function. rewrite G. reflexivity.
      * destruct CO as (_ & _ & _ & _ & NW & CP & _). rewrite KE in NW.
        assert (EQ : onto w (ref_node (ent_type m' e) j) = nth j w []).
        { apply onto_ref with (n := dimension (ent_type m p)); [exact (eq_sym NW)| |lia]. intros y Hy. destruct IN as [_ F].
          destruct (In_nth _ _ [] Hy) as (r & Hr & <-). rewrite <- (F2_len _ _ _ _ _ F) in Hr.
          destruct (F2_nth _ _ _ _ _ r (nth r (ent_nodes (l_mesh L') e) 0%nat) F ltac:(apply nth_error_nth'; exact Hr)) as (y & Ey & Py).
          rewrite (nth_error_nth _ _ _ Ey). apply in_ref_length. apply (placed_in _ _ _ _ W Py). }
        specialize (CP (ref_node (ent_type m' e) j)). rewrite EQ in CP.
        assert (IN' : In (ref_node (ent_type m' e) j) (control_points (go_kind (geom' e)))).
        { unfold control_points. apply in_or_app. left. rewrite KE. unfold ref_node. apply nth_In. destruct (ent_type m' e); cbn in NW |- *; lia. }
        specialize (CP IN'). unfold coord, world_function. unfold same_outcome in CP.
        destruct (Global (geom' e) _) as [v| |]; destruct (Global (geom p) _) as [v'| |]; try contradiction; cbn [bind]; auto. f_equal. apply CP. rewrite (wt_dim _ _ _ WT p Vp). exact Hk.
    + intros e p a b t V IN Ht. pose proof (inside_valid _ p _ V IN) as Vp. destruct (child_fits _ V) as [FE DE].
      destruct (global_ok _ _ [t] FE Ht) as (v & E). exists (v k). split; [unfold coord, world_function; rewrite E; reflexivity|].
      destruct (child_cases _ p _ V IN) as [(i & -> & G & X)|(NP & CO)]; [discriminate|].
      destruct CO as (_ & _ & _ & _ & _ & _ & _ & CE & _). apply curve_arc; [|rewrite (wt_dim _ _ _ WT p Vp); exact Hk].
      apply (CE ltac:(unfold dim_local; rewrite (proj2 (proj2 FE)); reflexivity) t v E).
    + intros i I w j t V IN Hj Ht. change (l_mesh L') with m' in V |- *. pose proof (inside_valid _ _ _ V IN) as Vp. destruct (child_fits _ V) as [FE DE].
      assert (WC : wf_cell m' (DofModel.cell_at m' i)) by (apply (proj1 (Forall_forall _ _) (wm_cells _ W')); apply nth_In; exact V). pose proof (tq _ _ WC) as T.
      destruct (child_cases _ _ _ V IN) as [(i' & X & _)|(NP & CO)]; [discriminate|].
      destruct CO as (_ & _ & _ & _ & NW & _ & _ & _ & CS). rewrite (proj2 (proj2 FE)) in *.
      destruct (global_ok _ _ (on_edge (ent_type m' (ECell i)) j t) FE) as (v & E).
      { apply (edge_point_in _ j true t); auto. rewrite NW. exact Hj. }
      exists (v k). split; [unfold coord, world_function; rewrite E; reflexivity|]. apply curve_arc; [|rewrite (wt_dim _ _ _ WT _ Vp); exact Hk].
      apply CS; auto. unfold dim_local. rewrite (proj2 (proj2 FE)). cbn [ent_type]. destruct T as [-> | ->]; reflexivity.
    + intros i c j o al be t r Ec Hj Ha Hb Ht A. pose proof (valid_cell_i _ _ _ Ec) as V. pose proof (cell_wf_of _ _ _ W Ec) as WC. pose proof (tq _ _ WC) as T.
      assert (NF : num_nodes (cv_type c) = length (cv_nodes c)) by (destruct (wf_type _ _ WC) as [[-> ->]|[-> ->]]; reflexivity).
      assert (TI : ent_type m (ECell i) = cv_type c) by (cbn; unfold DofModel.cell_at; change (mv_cells m) with (mv_cells (l_mesh L)) in *; rewrite (nth_error_nth _ _ _ Ec); reflexivity).
      destruct (FT _ V) as (_ & _ & K). rewrite TI in K.
      rewrite <- between_side by (auto; lia). eapply arc_exact; [|eapply side_closed; auto; lia|exact Ht|rewrite (wt_dim _ _ _ WT _ V); exact Hk|exact A].
      intros X. rewrite X in K. destruct T as [Y|Y]; rewrite Y in K; discriminate.
    + intros e al be t r V Ha Hb Ht A. destruct (FT _ V) as (_ & _ & K). cbn in K.
      change [(1 - t) * al + t * be] with (between [al] [be] t). eapply arc_exact; [| |exact Ht|rewrite (wt_dim _ _ _ WT _ V); exact Hk|exact A].
      * intros X. rewrite X in K. discriminate.
      * unfold closed_class. destruct (go_kind (geom (EEdge e))); auto; discriminate.
Qed.
End Step.
