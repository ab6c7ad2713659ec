(** Proofs for C70: all levels; straight meshes. *)
From Coq Require Import Reals List Arith Bool ZArith Lia Lra Permutation.
Import ListNotations.
From Verif Require Import Base MeshModel MeshView RefPatModel RefPatSpec RefineModel RefineSpec RefineProofs2 RefineProofs3 RefineProofs4 RefineProofs5
  DofModel DofSpec GeoModel GeoSpec GeoProofs GeoProofs7 PropGeo FeModel FeSpec FeToolsModel HierProofs TransferModel TransferSpec TransferProofs TransferProofs2 TransferProofs3
  TransferProofs4 TransferProofs5 TransferProofs6 TransferProofs7 ProlongSpec ProlongProofs ConformSpec ConformProofs ConformProofs2.
Local Open Scope R_scope.

Theorem levels_watertight : forall H geom d L0, reached H -> geometric (levels H) geom -> nth_error (levels H) 0 = Some L0 -> watertight (l_mesh L0) d (geom 0%nat) ->
  forall l L, nth_error (levels H) l = Some L -> watertight (l_mesh L) d (geom l).
Proof.
  intros H geom d L0 RE GE E0 WT. pose proof (reached_levels H RE) as GL. induction l as [|l IH]; intros L' E'.
  - rewrite E0 in E'. injection E' as <-. exact WT.
  - destruct (nth_error (levels H) l) as [L|] eqn:E.
    2: { apply nth_error_None in E. assert (S l < length (levels H))%nat by (apply nth_error_Some; congruence). lia. }
    destruct (nth_in H GL _ _ E) as [W S0]. destruct (nth_in H GL _ _ E') as [W' _]. destruct (gl_step _ GL _ _ _ E E') as [RF LK].
    apply (step_geometries L L' W W' S0 RF LK (geom l) (geom (S l)) d).
    + intros e V. apply (all_fit H geom GL GE _ _ _ E V).
    + intros e V. apply (ge_fine _ _ GE _ _ _ _ E E' V).
    + apply IH. reflexivity.
Qed.
Theorem neighbours : forall m d geom i i' c c' j j' e o o' t, watertight m d geom ->
  nth_error (mv_cells m) i = Some c -> nth_error (cv_edges c) j = Some e -> nth_error (cv_ori c) j = Some o ->
  nth_error (mv_cells m) i' = Some c' -> nth_error (cv_edges c') j' = Some e -> nth_error (cv_ori c') j' = Some o' -> 0 <= t <= 1 ->
  same_point (geom (ECell i)) (edge_point (cv_type c) j o t) (geom (ECell i')) (edge_point (cv_type c') j' o' t).
Proof.
  intros m d geom i i' c c' j j' e o o' t WT A1 A2 A3 B1 B2 B3 Ht.
  destruct (wt_edge _ _ _ WT _ _ _ _ _ _ A1 A2 A3 Ht) as (D & p & q & P & Q & E). destruct (wt_edge _ _ _ WT _ _ _ _ _ _ B1 B2 B3 Ht) as (D' & p' & q' & P' & Q' & E').
  split; [congruence|]. exists p, p'. split; auto. split; auto. intros k Hk. rewrite Q in Q'. injection Q' as <-. rewrite E by lia. symmetry. apply E'. congruence.
Qed.

(** *** Meshes with straight sides *)
Definition straight_sides (d : nat) (g : geo) (el : refel) (P : nat -> vec) : Prop :=
  forall j t, (j < num_nodes el)%nat -> 0 <= t <= 1 -> exists v, Global g (on_edge el j t) = Ok v /\ forall k, (k < d)%nat -> v k = (1 - t) * P j k + t * P (S j mod num_nodes el)%nat k.
Lemma traces_watertight : forall m d pos geom, wf_mesh m -> (forall e, valid m e -> go_dim (geom e) = d) ->
  (forall i c, nth_error (mv_cells m) i = Some c -> straight_sides d (geom (ECell i)) (cv_type c) (fun j => pos (nth j (cv_nodes c) 0%nat))) ->
  (forall e a b t, nth_error (mv_edges m) e = Some (a, b) -> 0 <= t <= 1 -> exists v, Global (geom (EEdge e)) [t] = Ok v /\ forall k, (k < d)%nat -> v k = (1 - t) * pos a k + t * pos b k) ->
  (forall n, (n < mv_nodes m)%nat -> exists v, Global (geom (ENode n)) [] = Ok v /\ forall k, (k < d)%nat -> v k = pos n k) ->
  watertight m d geom.
Proof.
  intros m d pos geom W DM HC HE HN. split.
  - exact DM.
  - intros i c j e o t Ec Ee Eo Ht. pose proof (valid_cell_i _ _ _ Ec) as V. pose proof (cell_wf_of _ _ _ W Ec) as WC. pose proof (tq _ _ WC) as T.
    assert (NF : num_nodes (cv_type c) = length (cv_nodes c)) by (destruct (wf_type _ _ WC) as [[-> ->]|[-> ->]]; reflexivity).
    assert (Hj : (j < length (cv_nodes c))%nat) by (rewrite <- (wc_edges _ _ WC); apply nth_error_Some; congruence).
    destruct (wc_local _ _ WC j Hj) as (e1 & o1 & p0 & p1 & A1 & A2 & A3 & A4). rewrite Ee in A1. injection A1 as <-. rewrite Eo in A2. injection A2 as <-.
    assert (VE : valid m (EEdge e)) by (cbn; apply nth_error_Some; congruence).
    split; [rewrite !DM; auto|]. destruct (HC i c Ec j (if o then t else 1 - t)) as (v & Gv & Ev); [lia|destruct o; lra|]. destruct (HE e p0 p1 t A3 Ht) as (w & Gw & Ew).
    exists v, w. split; [exact Gv|]. split; [exact Gw|]. intros k Hk. rewrite (DM _ V) in Hk. rewrite Ev, Ew by exact Hk. unfold next_corner in A4. rewrite NF.
    destruct o; destruct A4 as [-> ->]; ring.
  - intros i c j n Ec En. pose proof (valid_cell_i _ _ _ Ec) as V. pose proof (cell_wf_of _ _ _ W Ec) as WC. pose proof (tq _ _ WC) as T.
    assert (NF : num_nodes (cv_type c) = length (cv_nodes c)) by (destruct (wf_type _ _ WC) as [[-> ->]|[-> ->]]; reflexivity).
    assert (Hj : (j < length (cv_nodes c))%nat) by (apply nth_error_Some; congruence).
    assert (VN : valid m (ENode n)) by (pose proof (wc_nodes _ _ WC) as WN; rewrite Forall_forall in WN; apply WN; eapply nth_error_In; eauto).
    split; [rewrite !DM; auto|]. destruct (HC i c Ec j 0) as (v & Gv & Ev); [lia|lra|]. destruct (HN n VN) as (w & Gw & Ew).
    rewrite edge_start in Gv by (auto; lia). exists v, w. split; [exact Gv|]. split; [exact Gw|]. intros k Hk. rewrite (DM _ V) in Hk. rewrite Ev, Ew by exact Hk.
    rewrite (nth_error_nth _ _ _ En). ring.
  - intros e a b Ee. assert (VE : valid m (EEdge e)) by (cbn; apply nth_error_Some; congruence). destruct (wm_edges _ W _ _ _ Ee) as (_ & Va & Vb).
    destruct (HN a Va) as (va & Ga & Ea). destruct (HN b Vb) as (vb & Gb & Eb).
    destruct (HE e a b 0 Ee ltac:(lra)) as (v0 & G0 & E0). destruct (HE e a b 1 Ee ltac:(lra)) as (v1 & G1 & E1).
    assert (VA : valid m (ENode a)) by exact Va. assert (VB : valid m (ENode b)) by exact Vb.
    split; (split; [rewrite !DM; auto|]).
    + exists v0, va. split; auto. split; auto. intros k Hk. rewrite (DM _ VE) in Hk. rewrite E0, Ea by exact Hk. ring.
    + exists v1, vb. split; auto. split; auto. intros k Hk. rewrite (DM _ VE) in Hk. rewrite E1, Eb by exact Hk. ring.
Qed.

Lemma global_o1 : forall g x, is_o2 (go_kind g) = false -> length x = dim_local (go_kind g) -> Global g x = Ok (global_at g (nth 0 x 0) (nth 1 x 0)).
Proof. intros g x O LX. unfold Global, range_check, with_local. rewrite O, (proj2 (Nat.eqb_eq _ _) LX). reflexivity. Qed.
Lemma side_length : forall t j s, (t = kTria \/ t = kQuad) -> (j < num_nodes t)%nat -> length (on_edge t j s) = 2%nat.
Proof. intros t j s T Hj. cells2 t T; destruct j as [|[|[|[|j]]]]; try lia; reflexivity. Qed.
(** Straight geometries have straight sides. *)
Lemma o1_sides : forall g el d, is_o2 (go_kind g) = false -> exact_parallelogram g -> kind_el (go_kind g) = el -> (el = kTria \/ el = kQuad) -> straight_sides d g el (col g).
Proof.
  intros g el d O EX K T j t Hj Ht. rewrite global_o1; [|exact O|unfold dim_local; rewrite K, side_length by auto; destruct T as [-> | ->]; reflexivity].
  eexists. split; [reflexivity|]. intros k Hk. unfold global_at. unfold exact_parallelogram in EX.
  destruct (go_kind g); cbn in K, O; try discriminate; subst el; try (destruct T; discriminate); cbn [num_nodes] in Hj;
  destruct j as [|[|[|[|j]]]]; try lia; unfold on_edge, between; cbn; try (specialize (EX eq_refl k)); try lra.
  all: try ring.
  all: try (replace (col g 2%nat k) with (col g 1%nat k + col g 3%nat k - col g 0%nat k) by lra; ring).
Qed.
Theorem straight_watertight : forall m d pos geom, wf_mesh m -> straight_at m d pos geom -> watertight m d geom.
Proof.
  intros m d pos geom W ST. apply traces_watertight with (pos := pos); auto.
  - intros e V. apply (ST e V).
  - intros i c Ec j t Hj Ht. pose proof (valid_cell_i _ _ _ Ec) as V. pose proof (cell_wf_of _ _ _ W Ec) as WC. pose proof (tq _ _ WC) as T.
    destruct (ST _ V) as (C & EX & K & O & D & CO). assert (TI : ent_type m (ECell i) = cv_type c) by (cbn; unfold DofModel.cell_at; rewrite (nth_error_nth _ _ _ Ec); reflexivity).
    assert (NF : num_nodes (cv_type c) = length (cv_nodes c)) by (destruct (wf_type _ _ WC) as [[-> ->]|[-> ->]]; reflexivity).
    rewrite TI in K. destruct (o1_sides _ _ d O EX K T j t Hj Ht) as (v & Gv & Ev). exists v. split; auto. intros k Hk. rewrite (Ev k Hk).
    cbn [ent_nodes] in CO. rewrite Ec in CO.
    assert (CP : forall r, (r < length (cv_nodes c))%nat -> col (geom (ECell i)) r k = pos (nth r (cv_nodes c) 0%nat) k).
    { intros r Hr. destruct (F2_nth _ _ _ _ _ r (nth r (cv_nodes c) 0%nat) CO ltac:(apply nth_error_nth'; exact Hr)) as (y & Ey & Py). unfold col. rewrite (nth_error_nth _ _ _ Ey). apply Py, Hk. }
    rewrite !CP; auto; [|lia]. rewrite <- NF. apply Nat.mod_upper_bound. lia.
  - intros e a b t Ee Ht. assert (V : valid m (EEdge e)) by (cbn; apply nth_error_Some; congruence). destruct (ST _ V) as (C & EX & K & O & D & CO). cbn in K.
    rewrite global_o1; [|exact O|unfold dim_local; rewrite K; reflexivity]. eexists. split; [reflexivity|]. intros k Hk. cbn [ent_nodes] in CO. rewrite Ee in CO.
    inversion CO as [|n0 c0 l0 w0 P0 F0 Q1 Q2]; subst. inversion F0 as [|n1 c1 l1 w1 P1 F1 Q3 Q4]; subst.
    assert (C0 : col (geom (EEdge e)) 0 = c0) by (unfold col; rewrite <- Q2; reflexivity). assert (C1 : col (geom (EEdge e)) 1 = c1) by (unfold col; rewrite <- Q2; reflexivity).
    unfold global_at. destruct (go_kind (geom (EEdge e))); try discriminate. cbn [nth]. rewrite C0, C1, (P0 k), (P1 k) by lia. ring.
  - intros n Hn. assert (V : valid m (ENode n)) by exact Hn. destruct (ST _ V) as (C & EX & K & O & D & CO). cbn in K.
    rewrite global_o1; [|exact O|unfold dim_local; rewrite K; reflexivity]. eexists. split; [reflexivity|]. intros k Hk. cbn [ent_nodes] in CO.
    inversion CO as [|n0 c0 l0 w0 P0 F0 Q1 Q2]; subst. assert (C0 : col (geom (ENode n)) 0 = c0) by (unfold col; rewrite <- Q2; reflexivity).
    unfold global_at. destruct (go_kind (geom (ENode n))); try discriminate. rewrite C0. apply P0. lia.
Qed.
