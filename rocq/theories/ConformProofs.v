(** Proofs for C70: refinement keeps geometries that fit together. *)
From Coq Require Import Reals List Arith Bool ZArith Lia Lra Permutation.
Import ListNotations.
From Verif Require Import Base MeshModel MeshView RefPatModel RefPatSpec RefineModel RefineSpec RefineProofs2 RefineProofs3 RefineProofs4 RefineProofs5
  DofModel DofSpec GeoModel GeoSpec GeoProofs GeoProofs7 PropGeo FeModel FeSpec FeToolsModel HierProofs TransferModel TransferSpec TransferProofs TransferProofs2 TransferProofs3
  TransferProofs4 TransferProofs5 ProlongSpec ProlongProofs ConformSpec.
Local Open Scope R_scope.

(** A coordinate of the world as a mesh function. *)
Definition coord (geom : ent -> geo) (k : nat) : meshfun := world_function (fun p => p k) geom.

(** The curve through three points. *)
Definition arc (o2 : bool) (a b m t : R) : R :=
  if o2 then (1 - t) * (1 - 2 * t) * a + t * (2 * t - 1) * b + 4 * t * (1 - t) * m else (1 - t) * a + t * b.
Definition arc_of (u : list R -> res R) (o2 : bool) (a b : list R) (t : R) (r : R) : Prop :=
  exists va vb vm, u a = Ok va /\ u b = Ok vb /\ u (between a b (1 / 2)) = Ok vm /\ r = arc o2 va vb vm t.
Lemma arc_unique : forall u o2 a b t r r', arc_of u o2 a b t r -> arc_of u o2 a b t r' -> r = r'.
Proof. intros u o2 a b t r r' (va & vb & vm & A & B & D & ->) (va' & vb' & vm' & A' & B' & D' & ->). rewrite A in A'. rewrite B in B'. rewrite D in D'. congruence. Qed.
Lemma arc_reverse : forall u o2 a b t r, arc_of u o2 a b t r -> arc_of u o2 b a (1 - t) r.
Proof.
  intros u o2 a b t r (va & vb & vm & A & B & D & ->). exists vb, va, vm. rewrite between_sym. split; auto. split; auto. split; auto. unfold arc. destruct o2; ring.
Qed.

Section Step.
Variables L L' : level.
Hypothesis W : wf_mesh (l_mesh L).
Hypothesis W' : wf_mesh (l_mesh L').
Hypothesis S0 : simple_mesh (l_mesh L).
Hypothesis RF : refined_to L (l_mesh L').
Hypothesis LK : linked L L'.
Let m := l_mesh L.
Let m' := l_mesh L'.
Variables u u' : meshfun.
Variable o2 : ent -> bool.
Hypothesis CU : continuous_function m u.
Hypothesis HV : forall e x, valid m' e -> in_ref (ent_type m' e) x -> exists r, u' e x = Ok r.
Hypothesis HN : forall e p w j, valid m' e -> inside L L' e p w -> (j < length w)%nat -> u' e (ref_node (ent_type m' e) j) = u p (nth j w []).
Hypothesis HE : forall e p a b t, valid m' (EEdge e) -> inside L L' (EEdge e) p [a; b] -> 0 <= t <= 1 ->
  exists r, u' (EEdge e) [t] = Ok r /\ arc_of (u p) (o2 p) a b t r.
Hypothesis HS : forall i I w j t, valid m' (ECell i) -> inside L L' (ECell i) (ECell I) w -> (j < length w)%nat -> 0 <= t <= 1 ->
  exists r, u' (ECell i) (on_edge (ent_type m' (ECell i)) j t) = Ok r /\ arc_of (u (ECell I)) (o2 (ECell I)) (nth j w []) (nth ((j + 1) mod length w) w []) t r.
Hypothesis HX : forall i c j o al be t r, nth_error (mv_cells m) i = Some c -> (j < length (cv_nodes c))%nat -> 0 <= al <= 1 -> 0 <= be <= 1 -> 0 <= t <= 1 ->
  arc_of (u (ECell i)) (o2 (ECell i)) (edge_point (cv_type c) j o al) (edge_point (cv_type c) j o be) t r ->
  u (ECell i) (edge_point (cv_type c) j o ((1 - t) * al + t * be)) = Ok r.
Hypothesis HX1 : forall e al be t r, valid m (EEdge e) -> 0 <= al <= 1 -> 0 <= be <= 1 -> 0 <= t <= 1 ->
  arc_of (u (EEdge e)) (o2 (EEdge e)) [al] [be] t r -> u (EEdge e) [(1 - t) * al + t * be] = Ok r.

Lemma node_places : forall p n y, valid m p -> (n < mv_nodes m')%nat -> placed L p n y -> u p y = u' (ENode n) [].
Proof.
  apply (node_place0 L L' W W' S0 RF LK u u' CU). intros n p w Vn IN. assert (V : valid m' (ENode n)) by exact Vn.
  assert (LW : length w = 1%nat) by (destruct IN as [_ F]; rewrite <- (F2_len _ _ _ _ _ F); reflexivity).
  pose proof (HN (ENode n) p w 0 V IN ltac:(lia)) as X0. change (u' (ENode n) [] = u p (nth 0 w [])) in X0. rewrite X0. f_equal. destruct w as [|z [|]]; try discriminate. symmetry. cbn [nth].
  unfold onto. cbn [length nth combine map fst snd fold_right].
  transitivity (map (fun j => nth j z 0) (seq 0 (length z))); [apply map_ext_in; intros; ring|]. clear. induction z as [|a z IH] using rev_ind; [reflexivity|].
  rewrite app_length. cbn [length]. rewrite seq_app, map_app. cbn [seq map Nat.add]. rewrite app_nth2, Nat.sub_diag by lia. cbn [nth]. f_equal.
  rewrite <- IH at 2. apply map_ext_in. intros j Hj. apply in_seq in Hj. apply app_nth1. lia.
Qed.

Theorem step_watertight : continuous_function m' u'.
Proof.
  split.
  - exact HV.
  - intros i F j e o t EF Ee Eo Ht. pose proof (cell_wf_of _ _ _ W' EF) as WF. pose proof (tq _ _ WF) as TF.
    assert (NF : num_nodes (cv_type F) = length (cv_nodes F)) by (destruct (wf_type _ _ WF) as [[-> ->]|[-> ->]]; reflexivity).
    assert (Hj : (j < length (cv_nodes F))%nat) by (rewrite <- (wc_edges _ _ WF); apply nth_error_Some; congruence).
    pose proof (valid_cell_i _ _ _ EF) as VF. destruct (up_of L L' W W' RF LK _ VF) as (p & w & Vp & Hc & IN).
    destruct p as [I|I|I]; cbn in Hc; try lia.
    assert (TI : ent_type m' (ECell i) = cv_type F) by (cbn; unfold DofModel.cell_at; rewrite (nth_error_nth _ _ _ EF); reflexivity).
    pose proof IN as IN0. destruct IN as [IC IP]. cbn [ent_index ent_codim ent_nodes] in IC, IP. change (l_mesh L') with m' in IP. rewrite EF in IP.
    pose proof (F2_len _ _ _ _ _ IP) as LW.
    destruct (nth_error (mv_cells m) I) as [c|] eqn:Ec; [|apply nth_error_None in Ec; unfold m in Ec; cbn in Vp; lia].
    destruct (wc_local _ _ WF j Hj) as (e1 & o1 & p0 & p1 & A1 & A2 & A3 & A4). rewrite Ee in A1. injection A1 as <-. rewrite Eo in A2. injection A2 as <-.
    set (j' := (S j mod num_nodes (cv_type F))%nat) in *.
    assert (Hj' : (j' < length (cv_nodes F))%nat) by (unfold j'; rewrite NF; apply Nat.mod_upper_bound; lia).
    unfold next_corner in A4. rewrite <- NF in A4. fold j' in A4.
    assert (PL : forall r, (r < length (cv_nodes F))%nat -> placed L (ECell I) (nth r (cv_nodes F) 0%nat) (nth r w [])).
    { intros r Hr. destruct (F2_nth _ _ _ _ _ r (nth r (cv_nodes F) 0%nat) IP ltac:(apply nth_error_nth'; exact Hr)) as (y & Ey & Py).
      rewrite (nth_error_nth _ _ _ Ey). exact Py. }
    set (wa := if o then nth j w [] else nth j' w []). set (wb := if o then nth j' w [] else nth j w []).
    assert (PA : placed L (ECell I) p0 wa) by (unfold wa; destruct o; destruct A4 as [-> ->]; apply PL; auto).
    assert (PB : placed L (ECell I) p1 wb) by (unfold wb; destruct o; destruct A4 as [-> ->]; apply PL; auto).
    change (nth_error (mv_edges m') e = Some (p0, p1)) in A3.
    (* the side of the child *)
    assert (SIDE : exists r, u' (ECell i) (edge_point (cv_type F) j o t) = Ok r /\ arc_of (u (ECell I)) (o2 (ECell I)) wa wb t r).
    { unfold edge_point. rewrite <- TI. destruct (HS i I w j (if o then t else 1 - t) VF IN0 ltac:(lia) ltac:(destruct o; lra)) as (r & R1 & R2).
      exists r. split; [exact R1|]. replace ((j + 1) mod length w)%nat with j' in R2 by (unfold j'; rewrite NF, LW; f_equal; lia).
      unfold wa, wb. destruct o; [exact R2|]. apply arc_reverse in R2. replace (1 - (1 - t)) with t in R2 by ring. exact R2. }
    destruct SIDE as (r & R1 & R2). rewrite R1.
    assert (VE : valid m' (EEdge e)) by (cbn; apply nth_error_Some; congruence).
    destruct (up_of L L' W W' RF LK _ VE) as (q & we & Vq & Hq & IE). pose proof IE as IE0.
    destruct IE as [JC JP]. cbn [ent_index ent_codim ent_nodes] in JC, JP. change (l_mesh L') with m' in JP. rewrite A3 in JP.
    inversion JP as [|n0 y0 l0 w0 P0 F0]; subst. inversion F0 as [|n1 y1 l1 w1 P1 F1]; subst. inversion F1; subst. clear JP F0 F1.
    destruct (HE e q y0 y1 t VE IE0 Ht) as (r' & R3 & R4). rewrite R3. f_equal.
    destruct (side_parent L L' W W' RF i F I c j e EF Ec IC Ee) as [SP|(j0 & E0 & B1 & SP)].
    + destruct (parent_unique L L' LK 1 _ _ _ _ _ ltac:(lia) JC SP) as [Q1 Q2]. destruct q as [s|s|s]; cbn in Q1, Q2; try discriminate. subst s.
      rewrite (placed_unique L L' W S0 LK _ _ _ _ P0 PA), (placed_unique L L' W S0 LK _ _ _ _ P1 PB) in R4. eapply arc_unique; eauto.
    + destruct (parent_unique L L' LK 1 _ _ _ _ _ ltac:(lia) JC SP) as [Q1 Q2]. destruct q as [s|s|s]; cbn in Q1, Q2; try discriminate. subst s.
      pose proof (cell_wf_of _ _ _ W Ec) as Wc. pose proof (tq _ _ Wc) as T.
      assert (NN : num_nodes (cv_type c) = length (cv_nodes c)) by (destruct (wf_type _ _ Wc) as [[-> ->]|[-> ->]]; reflexivity).
      assert (K : (j0 < length (cv_nodes c))%nat) by (rewrite <- (wc_edges _ _ Wc); apply nth_error_Some; congruence).
      destruct (nth_error (cv_ori c) j0) as [o0|] eqn:Eo0; [|apply nth_error_None in Eo0; rewrite (wc_oris _ _ Wc) in Eo0; lia].
      pose proof (placed_in _ _ _ _ W P0) as R5. pose proof (placed_in _ _ _ _ W P1) as R6.
      destruct (placed_edge_cell L W I c j0 E0 o0 p0 y0 Ec B1 Eo0 P0) as (al & -> & PA').
      destruct (placed_edge_cell L W I c j0 E0 o0 p1 y1 Ec B1 Eo0 P1) as (be & -> & PB').
      rewrite (placed_unique L L' W S0 LK _ _ _ _ PA PA'), (placed_unique L L' W S0 LK _ _ _ _ PB PB') in R2. cbn in R5, R6.
      pose proof (HX I c j0 o0 al be t r Ec K R5 R6 Ht R2) as X1. pose proof (HX1 E0 al be t r' Vq R5 R6 Ht R4) as X2.
      rewrite (ct_edge _ _ CU I c j0 E0 o0 _ Ec B1 Eo0) in X1; [congruence|].
      split.
      * assert (0 <= (1 - t) * al) by (apply Rmult_le_pos; lra). assert (0 <= t * be) by (apply Rmult_le_pos; lra). lra.
      * assert (0 <= (1 - t) * (1 - al)) by (apply Rmult_le_pos; lra). assert (0 <= t * (1 - be)) by (apply Rmult_le_pos; lra). lra.
  - intros i F j n EF En. pose proof (cell_wf_of _ _ _ W' EF) as WF.
    assert (Hj : (j < length (cv_nodes F))%nat) by (apply nth_error_Some; congruence).
    pose proof (valid_cell_i _ _ _ EF) as VF. destruct (up_of L L' W W' RF LK _ VF) as (p & w & Vp & Hc & IN).
    assert (TI : ent_type m' (ECell i) = cv_type F) by (cbn; unfold DofModel.cell_at; rewrite (nth_error_nth _ _ _ EF); reflexivity).
    pose proof IN as IN0. destruct IN as [IC IP]. cbn [ent_index ent_codim ent_nodes] in IC, IP. change (l_mesh L') with m' in IP. rewrite EF in IP.
    pose proof (F2_len _ _ _ _ _ IP) as LW.
    rewrite <- TI. rewrite (HN (ECell i) p w j VF IN0) by lia.
    destruct (F2_nth _ _ _ _ _ j n IP En) as (y & Ey & Py). rewrite (nth_error_nth _ _ _ Ey).
    apply node_places; auto. pose proof (wc_nodes _ _ WF) as WN. rewrite Forall_forall in WN. apply WN. eapply nth_error_In; eauto.
  - intros e a b Ee. assert (VE : valid m' (EEdge e)) by (cbn; apply nth_error_Some; congruence).
    destruct (wm_edges _ W' _ _ _ Ee) as (_ & Va & Vb).
    destruct (up_of L L' W W' RF LK _ VE) as (q & we & Vq & Hq & IE). pose proof IE as IE0.
    destruct IE as [JC JP]. cbn [ent_index ent_codim ent_nodes] in JC, JP. change (l_mesh L') with m' in JP. rewrite Ee in JP.
    inversion JP as [|n0 y0 l0 w0 P0 F0]; subst. inversion F0 as [|n1 y1 l1 w1 P1 F1]; subst. inversion F1; subst. clear JP F0 F1.
    pose proof (HN (EEdge e) q [y0; y1] 0 VE IE0 ltac:(cbn; lia)) as X0. pose proof (HN (EEdge e) q [y0; y1] 1 VE IE0 ltac:(cbn; lia)) as X1.
    cbn [ent_type ref_node ref_nodes nth] in X0, X1. change (ref_node kSegment 0) with [0] in X0. change (ref_node kSegment 1) with [1] in X1. rewrite X0, X1.
    split; apply node_places; auto.
Qed.
End Step.
