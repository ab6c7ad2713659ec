(** Proofs for C70: meshes of second-order cells; an example. *)
From Coq Require Import Reals List Arith Bool ZArith Lia Lra Permutation.
Import ListNotations.
From Verif Require Import Base PropRefine PropRefine2 MeshModel MeshView RefPatModel RefPatSpec RefineModel RefineSpec RefineProofs2 RefineProofs3 RefineProofs4 RefineProofs5
  DofModel DofSpec GeoModel GeoSpec GeoProofs GeoProofs7 GeoProofs8 PropGeo FeModel FeSpec FeToolsModel HierProofs TransferModel TransferSpec TransferProofs TransferProofs2 TransferProofs3
  TransferProofs4 TransferProofs5 TransferProofs6 TransferProofs7 ProlongSpec ProlongProofs ConformSpec ConformProofs ConformProofs2 ConformProofs3.
Local Open Scope R_scope.

Definition parab (a b c : R) (t : R) : R := (1 - t) * (1 - 2 * t) * a + t * (2 * t - 1) * b + 4 * t * (1 - t) * c.
Definition curve_sides (d : nat) (g : geo) (el : refel) (P Q : nat -> vec) : Prop :=
  forall j t, (j < num_nodes el)%nat -> 0 <= t <= 1 -> exists v, Global g (on_edge el j t) = Ok v /\
    forall k, (k < d)%nat -> v k = parab (P j k) (P (S j mod num_nodes el)%nat k) (Q j k) t.
Lemma parabs_watertight : forall m d pos mid geom, wf_mesh m -> (forall e, valid m e -> go_dim (geom e) = d) ->
  (forall i c, nth_error (mv_cells m) i = Some c -> curve_sides d (geom (ECell i)) (cv_type c) (fun j => pos (nth j (cv_nodes c) 0%nat)) (fun j => mid (nth j (cv_edges c) 0%nat))) ->
  (forall e a b t, nth_error (mv_edges m) e = Some (a, b) -> 0 <= t <= 1 -> exists v, Global (geom (EEdge e)) [t] = Ok v /\ forall k, (k < d)%nat -> v k = parab (pos a k) (pos b k) (mid e k) t) ->
  (forall n, (n < mv_nodes m)%nat -> exists v, Global (geom (ENode n)) [] = Ok v /\ forall k, (k < d)%nat -> v k = pos n k) ->
  watertight m d geom.
Proof.
  intros m d pos mid geom W DM HC HE HN. split.
  - exact DM.
  - intros i c j e o t Ec Ee Eo Ht. pose proof (valid_cell_i _ _ _ Ec) as V. pose proof (cell_wf_of _ _ _ W Ec) as WC. pose proof (tq _ _ WC) as T.
    assert (NF : num_nodes (cv_type c) = length (cv_nodes c)) by (destruct (wf_type _ _ WC) as [[-> ->]|[-> ->]]; reflexivity).
    assert (Hj : (j < length (cv_nodes c))%nat) by (rewrite <- (wc_edges _ _ WC); apply nth_error_Some; congruence).
    destruct (wc_local _ _ WC j Hj) as (e1 & o1 & p0 & p1 & A1 & A2 & A3 & A4). rewrite Ee in A1. injection A1 as <-. rewrite Eo in A2. injection A2 as <-.
    assert (VE : valid m (EEdge e)) by (cbn; apply nth_error_Some; congruence).
    split; [rewrite !DM; auto|]. destruct (HC i c Ec j (if o then t else 1 - t)) as (v & Gv & Ev); [lia|destruct o; lra|]. destruct (HE e p0 p1 t A3 Ht) as (w & Gw & Ew).
    exists v, w. split; [exact Gv|]. split; [exact Gw|]. intros k Hk. rewrite (DM _ V) in Hk. rewrite Ev, Ew by exact Hk. unfold next_corner in A4. rewrite NF.
    rewrite (nth_error_nth _ _ _ Ee). destruct o; destruct A4 as [-> ->]; unfold parab; ring.
  - intros i c j n Ec En. pose proof (valid_cell_i _ _ _ Ec) as V. pose proof (cell_wf_of _ _ _ W Ec) as WC. pose proof (tq _ _ WC) as T.
    assert (NF : num_nodes (cv_type c) = length (cv_nodes c)) by (destruct (wf_type _ _ WC) as [[-> ->]|[-> ->]]; reflexivity).
    assert (Hj : (j < length (cv_nodes c))%nat) by (apply nth_error_Some; congruence).
    assert (VN : valid m (ENode n)) by (pose proof (wc_nodes _ _ WC) as WN; rewrite Forall_forall in WN; apply WN; eapply nth_error_In; eauto).
    split; [rewrite !DM; auto|]. destruct (HC i c Ec j 0) as (v & Gv & Ev); [lia|lra|]. destruct (HN n VN) as (w & Gw & Ew).
    rewrite edge_start in Gv by (auto; lia). exists v, w. split; [exact Gv|]. split; [exact Gw|]. intros k Hk. rewrite (DM _ V) in Hk. rewrite Ev, Ew by exact Hk.
    rewrite (nth_error_nth _ _ _ En). unfold parab. ring.
  - intros e a b Ee. assert (VE : valid m (EEdge e)) by (cbn; apply nth_error_Some; congruence). destruct (wm_edges _ W _ _ _ Ee) as (_ & Va & Vb).
    destruct (HN a Va) as (va & Ga & Ea). destruct (HN b Vb) as (vb & Gb & Eb).
    destruct (HE e a b 0 Ee ltac:(lra)) as (v0 & G0 & E0). destruct (HE e a b 1 Ee ltac:(lra)) as (v1 & G1 & E1).
    assert (VA : valid m (ENode a)) by exact Va. assert (VB : valid m (ENode b)) by exact Vb.
    split; (split; [rewrite !DM; auto|]).
    + exists v0, va. split; auto. split; auto. intros k Hk. rewrite (DM _ VE) in Hk. rewrite E0, Ea by exact Hk. unfold parab. ring.
    + exists v1, vb. split; auto. split; auto. intros k Hk. rewrite (DM _ VE) in Hk. rewrite E1, Eb by exact Hk. unfold parab. ring.
Qed.
Lemma global_o2 : forall g x, in_range x = true -> length x = dim_local (go_kind g) -> Global g x = Ok (global_at g (nth 0 x 0) (nth 1 x 0)).
Proof. intros g x O LX. unfold Global, range_check, with_local. rewrite O, (proj2 (Nat.eqb_eq _ _) LX). destruct (is_o2 _); reflexivity. Qed.
Lemma side_range : forall el j t, (el = kTria \/ el = kQuad) -> (j < num_nodes el)%nat -> 0 <= t <= 1 -> in_range (on_edge el j t) = true.
Proof.
  intros el j t T Hj Ht. apply in_range_true. intros z Hz. cells2 el T; destruct j as [|[|[|[|j]]]]; try lia; cbn in Hz; destruct Hz as [<-|[<-|[]]]; lra.
Qed.
Lemma o2_sides : forall g el d, is_o2 (go_kind g) = true -> kind_el (go_kind g) = el -> (el = kTria \/ el = kQuad) -> curve_sides d g el (col g) (fun j => col g (num_nodes el + j)).
Proof.
  intros g el d O K T j t Hj Ht. rewrite global_o2; [|apply side_range; auto|unfold dim_local; rewrite K, side_length by auto; destruct T as [-> | ->]; reflexivity].
  eexists. split; [reflexivity|]. intros k Hk. unfold global_at.
  destruct (go_kind g); cbn in K, O; try discriminate; subst el; try (destruct T; discriminate); cbn [num_nodes] in Hj;
  destruct j as [|[|[|[|j]]]]; try lia; unfold on_edge, between; cbn [nth combine map ref_node num_nodes Nat.modulo]; cbn.
  all: unfold t2_beta0, t2_beta1, t2_gamma0, t2_gamma1, t2_delta, t2_alpha, q2_beta0, q2_beta1, q2_gamma0, q2_gamma1, q2_delta, q2_eps0, q2_eps1, q2_alpha, parab, Rsqr; cbn; field.
Qed.

Theorem second_order_watertight : forall m d pos mid geom, wf_mesh m -> second_order_at m d pos mid geom -> watertight m d geom.
Proof.
  intros m d pos mid geom W (ST & SC & SE & SN). apply parabs_watertight with (pos := pos) (mid := mid); auto.
  - intros e V. apply (ST e V).
  - intros i c Ec j t Hj Ht. pose proof (valid_cell_i _ _ _ Ec) as V. pose proof (cell_wf_of _ _ _ W Ec) as WC. pose proof (tq _ _ WC) as T.
    destruct (ST _ V) as (C & K & O & D). assert (TI : ent_type m (ECell i) = cv_type c) by (cbn; unfold DofModel.cell_at; rewrite (nth_error_nth _ _ _ Ec); reflexivity).
    assert (NF : num_nodes (cv_type c) = length (cv_nodes c)) by (destruct (wf_type _ _ WC) as [[-> ->]|[-> ->]]; reflexivity).
    assert (NE : length (cv_edges c) = length (cv_nodes c)) by apply (wc_edges _ _ WC).
    rewrite TI in K. destruct O as [O|O]; [|rewrite O in K; cbn in K; destruct T; congruence].
    destruct (o2_sides _ _ d O K T j t Hj Ht) as (v & Gv & Ev). exists v. split; auto. intros k Hk. rewrite (Ev k Hk). cbv beta.
    specialize (SC i c Ec).
    assert (CP : forall r, (r < length (cv_nodes c))%nat -> col (geom (ECell i)) r k = pos (nth r (cv_nodes c) 0%nat) k).
    { intros r Hr. destruct (F2_nth _ _ _ _ _ r (pos (nth r (cv_nodes c) 0%nat)) SC) as (y & Ey & Py).
      - rewrite nth_error_app1 by (rewrite map_length; exact Hr). apply map_nth_error, nth_error_nth'. exact Hr.
      - unfold col. rewrite (nth_error_nth _ _ _ Ey). apply Py, Hk. }
    assert (CQ : forall r, (r < length (cv_nodes c))%nat -> col (geom (ECell i)) (num_nodes (cv_type c) + r) k = mid (nth r (cv_edges c) 0%nat) k).
    { intros r Hr. destruct (F2_nth _ _ _ _ _ (num_nodes (cv_type c) + r)%nat (mid (nth r (cv_edges c) 0%nat)) SC) as (y & Ey & Py).
      - rewrite nth_error_app2 by (rewrite map_length; lia). rewrite map_length, NF. replace (length (cv_nodes c) + r - length (cv_nodes c))%nat with r by lia. apply map_nth_error, nth_error_nth'. lia.
      - unfold col. rewrite (nth_error_nth _ _ _ Ey). apply Py, Hk. }
    rewrite CQ, !CP; auto; try lia. rewrite <- NF. apply Nat.mod_upper_bound. lia.
  - intros e a b t Ee Ht. assert (V : valid m (EEdge e)) by (cbn; apply nth_error_Some; congruence). destruct (ST _ V) as (C & K & O & D). cbn in K.
    rewrite global_o2; [|apply in_range_true; intros z [<-|[]]; exact Ht|unfold dim_local; rewrite K; reflexivity]. eexists. split; [reflexivity|]. intros k Hk. specialize (SE _ _ _ Ee).
    inversion SE as [|n0 c0 l0 w0 P0 F0 Q1 Q2]; subst. inversion F0 as [|n1 c1 l1 w1 P1 F1 Q3 Q4]; subst. inversion F1 as [|n2 c2 l2 w2 P2 F2 Q5 Q6]; subst.
    assert (C0 : col (geom (EEdge e)) 0 = c0) by (unfold col; rewrite <- Q2; reflexivity). assert (C1 : col (geom (EEdge e)) 1 = c1) by (unfold col; rewrite <- Q2; reflexivity).
    assert (C2 : col (geom (EEdge e)) 2 = c2) by (unfold col; rewrite <- Q2; reflexivity).
    unfold global_at. destruct (go_kind (geom (EEdge e))); try discriminate; try (destruct O; discriminate). cbn [nth]. unfold s2_alpha, s2_beta, s2_gamma, parab. cbn. rewrite C0, C1, C2, (P0 k), (P1 k), (P2 k) by lia. field.
  - intros n Hn. assert (V : valid m (ENode n)) by exact Hn. destruct (ST _ V) as (C & K & O & D). cbn in K. specialize (SN n Hn).
    rewrite global_o2; [|reflexivity|unfold dim_local; rewrite K; reflexivity]. eexists. split; [reflexivity|]. intros k Hk.
    inversion SN as [|n0 c0 l0 w0 P0 F0 Q1 Q2]; subst. assert (C0 : col (geom (ENode n)) 0 = c0) by (unfold col; rewrite <- Q2; reflexivity).
    unfold global_at. destruct (go_kind (geom (ENode n))); try discriminate. rewrite C0. apply P0. lia.
Qed.

(** *** An example: three levels, the coarsest with arbitrary places of nodes and midpoints *)
Definition bent (pos mid : nat -> vec) (m : mesh) (e : ent) : geo :=
  match e with
  | ENode n => mkGeo GPoint 2 [pos n]
  | EEdge n => match nth_error (mv_edges m) n with Some (a, b) => mkGeo GSegmentO2 2 [pos a; pos b; mid n] | None => mkGeo GPoint 2 [] end
  | ECell i => match nth_error (mv_cells m) i with
               | Some c => mkGeo (match cv_type c with kTria => GTriaO2 | _ => GQuadO2 end) 2 (map pos (cv_nodes c) ++ map mid (cv_edges c))
               | None => mkGeo GPoint 2 [] end
  end.
Lemma F2_refl : forall (d : nat) (l : list vec), Forall2 (fun p c : vec => forall k, (k < d)%nat -> c k = p k) l l.
Proof. induction l; constructor; auto. Qed.
Lemma bent_constructed : forall pos mid m e, wf_mesh m -> valid m e ->
  constructed (bent pos mid m e) /\ kind_el (go_kind (bent pos mid m e)) = ent_type m e /\
  (is_o2 (go_kind (bent pos mid m e)) = true \/ go_kind (bent pos mid m e) = GPoint) /\ go_dim (bent pos mid m e) = 2%nat.
Proof.
  intros pos mid m e W V. destruct e as [n|n|i]; cbn [bent].
  - split; [|auto]. left. exists GPoint, 2%nat, [pos n]. reflexivity.
  - cbn in V. destruct (nth_error (mv_edges m) n) as [[a b]|] eqn:E; [|apply nth_error_None in E; lia].
    split; [|auto]. left. exists GSegmentO2, 2%nat, [pos a; pos b; mid n]. reflexivity.
  - cbn in V. destruct (nth_error (mv_cells m) i) as [c|] eqn:E; [|apply nth_error_None in E; lia]. pose proof (cell_wf_of _ _ _ W E) as WC.
    assert (TI : ent_type m (ECell i) = cv_type c) by (cbn; unfold DofModel.cell_at; rewrite (nth_error_nth _ _ _ E); reflexivity). rewrite TI.
    pose proof (wc_edges _ _ WC) as LE. destruct (wf_type _ _ WC) as [[T LN]|[T LN]]; rewrite T; (split; [|cbn; auto]).
    + left. exists GTriaO2, 2%nat, (map pos (cv_nodes c) ++ map mid (cv_edges c)). unfold new_geo. rewrite app_length, !map_length, LE, LN. reflexivity.
    + left. exists GQuadO2, 2%nat, (map pos (cv_nodes c) ++ map mid (cv_edges c)). unfold new_geo. rewrite app_length, !map_length, LE, LN. reflexivity.
Qed.
Lemma bent_second : forall pos mid m, wf_mesh m -> second_order_at m 2 pos mid (bent pos mid m).
Proof.
  intros pos mid m W. split; [intros e V; apply bent_constructed; auto|]. split; [|split].
  - intros i c E. cbn [bent]. rewrite E. apply F2_refl.
  - intros e a b E. cbn [bent]. rewrite E. apply F2_refl.
  - intros n E. apply F2_refl.
Qed.
Definition longest0 (i : nat) : nat := if (i =? 0)%nat then 2%nat else 0%nat.
Lemma level_two : match run_hops closure_ops (new_hierarchy longest0 closure_mesh (new_factory true)) with
  | Ok H => match nth_error (levels H) 2 with
            | Some L => length (levels H) = 3%nat /\ option_map (fun c => (cv_edges c, cv_ori c)) (nth_error (mv_cells (l_mesh L)) 0) = Some ([6; 34; 5]%nat, [true; true; true]) /\
                option_map (fun c => (cv_edges c, cv_ori c)) (nth_error (mv_cells (l_mesh L)) 3) = Some ([35; 36; 34]%nat, [true; false; false])
            | None => False end
  | _ => False end.
Proof. vm_compute. split; [|split]; reflexivity. Qed.
Lemma reached_example2 : exists H L c c', reached H /\ length (levels H) = 3%nat /\ nth_error (levels H) 2 = Some L /\
  nth_error (mv_cells (l_mesh L)) 0 = Some c /\ cv_edges c = [6; 34; 5]%nat /\ cv_ori c = [true; true; true] /\
  nth_error (mv_cells (l_mesh L)) 3 = Some c' /\ cv_edges c' = [35; 36; 34]%nat /\ cv_ori c' = [true; false; false].
Proof.
  destruct C28_example as (GO & _). destruct (geo_history closure_ops longest0 true closure_mesh) as (H & G1 & G2 & _); auto.
  - apply closure_mesh_wf.
  - apply closure_mesh_simple.
  - intros _. apply closure_mesh_wf.
  - intros i. unfold longest0. destruct (i =? 0)%nat; lia.
  - pose proof level_two as X. rewrite G2 in X. destruct (nth_error (levels H) 2) as [L|] eqn:E2; [|tauto]. destruct X as (LN & X & Y).
    destruct (nth_error (mv_cells (l_mesh L)) 0) as [c|] eqn:E; [|discriminate]. destruct (nth_error (mv_cells (l_mesh L)) 3) as [c'|] eqn:E'; [|discriminate].
    cbn [option_map] in X, Y. injection X as X1 X2. injection Y as Y1 Y2. exists H, L, c, c'. split.
    + exists closure_ops, longest0, true, closure_mesh. split; [apply closure_mesh_wf|]. split; [apply closure_mesh_simple|]. split; [intros _; apply closure_mesh_wf|].
      split; [intros i; unfold longest0; destruct (i =? 0)%nat; lia|]. split; auto.
    + auto 10.
Qed.
Lemma conform_example : forall pos mid, exists H geom L0, reached H /\ length (levels H) = 3%nat /\ geometric (levels H) geom /\
  nth_error (levels H) 0 = Some L0 /\ second_order_at (l_mesh L0) 2 pos mid (geom 0%nat) /\
  exists L i i' c c' j j' e o o', nth_error (levels H) 2 = Some L /\ i <> i' /\
    nth_error (mv_cells (l_mesh L)) i = Some c /\ nth_error (cv_edges c) j = Some e /\ nth_error (cv_ori c) j = Some o /\
    nth_error (mv_cells (l_mesh L)) i' = Some c' /\ nth_error (cv_edges c') j' = Some e /\ nth_error (cv_ori c') j' = Some o'.
Proof.
  intros pos mid. destruct reached_example2 as (H & L2 & c & c' & RE & LE & E2 & A1 & A2 & A3 & D1 & D2 & D3).
  assert (WL : forall L, nth_error (levels H) 0 = Some L -> wf_mesh (l_mesh L)) by (intros L HL; eapply nth_in; [apply reached_levels, RE|exact HL]).
  destruct (nth_error (levels H) 0) as [L0|] eqn:E0; [|apply nth_error_None in E0; lia].
  specialize (WL L0 eq_refl).
  destruct (geometries_exist H (bent pos mid (l_mesh L0))) as (geom & G0 & G).
  - apply reached_levels, RE.
  - intros L e HL V. rewrite E0 in HL. injection HL as <-. destruct (bent_constructed pos mid _ e WL V) as (B1 & B2 & B3 & B4).
    assert (NQ : go_kind (bent pos mid (l_mesh L0) e) <> GQuadO1 /\ go_kind (bent pos mid (l_mesh L0) e) <> GParallelogram) by (split; intros X; rewrite X in B3; destruct B3; discriminate).
    split; [exact B1|]. split; [intros X; tauto|]. split; [exact B2|]. intros X. tauto.
  - left. intros L e HL V. rewrite E0 in HL. injection HL as <-. apply bent_constructed; auto.
  - exists H, geom, L0. split; auto. split; auto. split; auto. split; auto. split; [rewrite G0; apply bent_second, WL|].
    exists L2, 0%nat, 3%nat, c, c', 1%nat, 2%nat, 34%nat, true, false. rewrite A2, A3, D2, D3. repeat split; auto.
Qed.

(** Straight geometries on a mesh of two triangles and a square. *)
Definition places (n : nat) : vec := fun k => nth k (nth n [[0; 0]; [1; 0]; [1; 1]; [0; 1]; [-1; 1]; [-1; 0]] []) 0.
Definition plain (pos : nat -> vec) (m : mesh) (e : ent) : geo :=
  mkGeo (match ent_type m e with kPoint => GPoint | kSegment => GSegmentO1 | kTria => GTriaO1 | kQuad => GQuadO1 end) 2 (map pos (ent_nodes m e)).
Lemma tol_small : 0 < tol /\ tol * 8 < 1.
Proof. unfold tol. split; [apply Rinv_0_lt_compat; lra|lra]. Qed.
Lemma plain_cells : forall c, In c [[0; 1; 2]; [0; 2; 3]]%nat -> check_tria 2 (fun i => nth i (map places c) vzero) = Ok tt.
Proof.
  intros c H. apply check_tria_spec. split; auto. unfold tri_ok, heron, sqnorm, vsub, places. pose proof tol_small as T.
  destruct H as [<-|[<-|[]]]; cbn; (split; [lra|split; [lra|split; [lra|]]]);
    (match goal with |- _ < sqrt ?a => replace a with 1 by field; rewrite sqrt_1; lra end).
Qed.
Lemma plain_quad : check_quad 2 (fun i => nth i (map places [0; 3; 4; 5]%nat) vzero) = Ok tt.
Proof.
  apply check_quad_spec; [intros k; destruct k as [|[|k]]; cbn; try lra; destruct k; lra|]. split; auto. unfold para_ok, sqnorm, vsub, places. pose proof tol_small as T.
  cbn; (split; [lra|split; [lra|]]).
  match goal with |- _ < _ * sqrt ?a => replace a with 1 by field; rewrite sqrt_1; lra end.
Qed.
Lemma straight_example : straight_at closure_mesh 2 places (plain places closure_mesh).
Proof.
  intros e V. assert (F : Forall2 (fun n c => forall k, (k < 2)%nat -> c k = places n k) (ent_nodes closure_mesh e) (go_cols (plain places closure_mesh e))).
  { unfold plain. cbn [go_cols]. induction (ent_nodes closure_mesh e); constructor; auto. }
  destruct e as [n|n|i]; cbn in V.
  - split; [left; exists GPoint, 2%nat, [places n]; reflexivity|]. split; [discriminate|]. repeat (split; [reflexivity|]). exact F.
  - assert (NG : new_geo GSegmentO1 2 (map places (ent_nodes closure_mesh (EEdge n))) = Ok (plain places closure_mesh (EEdge n))).
    { do 8 (destruct n as [|n]; [reflexivity|]). lia. }
    split; [left; do 3 eexists; exact NG|]. split; [discriminate|]. repeat (split; [reflexivity|]). exact F.
  - assert (CS : (i = 0 \/ i = 1 \/ i = 2)%nat) by lia.
    assert (NG : exists k, new_geo k 2 (map places (ent_nodes closure_mesh (ECell i))) = Ok (plain places closure_mesh (ECell i)) /\ go_kind (plain places closure_mesh (ECell i)) = k /\ kind_el k = ent_type closure_mesh (ECell i) /\ is_o2 k = false /\ k <> GParallelogram).
    { destruct CS as [->|[->| ->]].
      - exists GTriaO1. split; [|repeat split; discriminate]. unfold new_geo. cbn [num_cols]. change (ent_nodes closure_mesh (ECell 0)) with [0; 1; 2]%nat. rewrite plain_cells by (left; reflexivity). reflexivity.
      - exists GTriaO1. split; [|repeat split; discriminate]. unfold new_geo. cbn [num_cols]. change (ent_nodes closure_mesh (ECell 1)) with [0; 2; 3]%nat. rewrite plain_cells by (right; left; reflexivity). reflexivity.
      - exists GQuadO1. split; [|repeat split; discriminate]. unfold new_geo. cbn [num_cols]. change (ent_nodes closure_mesh (ECell 2)) with [0; 3; 4; 5]%nat. rewrite plain_quad. reflexivity. }
    destruct NG as (k & N1 & N2 & N3 & N4 & N5). split; [left; do 3 eexists; exact N1|]. split; [intros X; congruence|]. split; [congruence|]. split; [congruence|]. split; [reflexivity|exact F].
Qed.
