(** Proofs for C60: one step of the hierarchy. *)
From Coq Require Import Reals List Arith Bool ZArith Lia Lra.
Import ListNotations.
From Verif Require Import Base MeshModel MeshView RefPatModel RefPatSpec RefineModel RefineSpec RefineProofs2 RefineProofs3 DofModel DofSpec GeoModel GeoSpec FeModel TransferModel TransferSpec TransferProofs.
Local Open Scope R_scope.

Lemma F2_nth : forall A B (P : A -> B -> Prop) l l' k x, Forall2 P l l' -> nth_error l k = Some x -> exists y, nth_error l' k = Some y /\ P x y.
Proof.
  intros A B P l l' k x F. revert k. induction F as [|a b l l' H F IH]; intros [|k] E; try discriminate.
  - injection E as <-. exists b. auto.
  - apply IH. exact E.
Qed.
Lemma get_ok : forall A (l : list A) i x, nth_error l i = Some x -> get l i = Ok x.
Proof. intros A l i x H. unfold get. rewrite H. reflexivity. Qed.
Lemma wf_type : forall m c, wf_cell m c -> (cv_type c = kTria /\ length (cv_nodes c) = 3%nat) \/ (cv_type c = kQuad /\ length (cv_nodes c) = 4%nat).
Proof. intros m c W. unfold cv_type, cell_type. destruct (wc_shape _ _ W) as [H|H]; rewrite H; auto. Qed.

Section Step.
Variables L L' : level.
Hypothesis W : wf_mesh (l_mesh L).
Hypothesis W' : wf_mesh (l_mesh L').
Hypothesis RF : refined_to L (l_mesh L').
Hypothesis LK : linked L L'.

Definition has_geometry (e p : ent) (w : list (list R)) : Prop :=
  exists g, relative_geometry L L' (ent_codim e) (ent_index e) = Ok g /\ go_dim g = ent_dim p /\
    forall x, length x = ent_dim e -> exists v, Global g x = Ok v /\ to_local g v = onto w x.

(** The places are the corners of child polygon [k]. *)
Definition from_polygon (e p : ent) (k : nat) (w : list (list R)) : Prop :=
  match p with
  | ENode _ => k = 0%nat /\ w = [[]]
  | EEdge i => exists ci polys poly, nth_error (l_edges L) i = Some ci /\
      ChildPolygons (mkPattern kSegment (ec_pat ci) None 6) (ent_codim e - 1) = Ok polys /\ nth_error polys k = Some poly /\ w = corners 6 poly
  | ECell i => exists c ci P polys poly, nth_error (mv_cells (l_mesh L)) i = Some c /\ nth_error (l_cells L) i = Some ci /\
      new_pattern (cv_type c) (cc_pat ci) (cc_anchor ci) = Ok P /\ p_lc P = 6%Z /\
      ChildPolygons P (ent_codim e) = Ok polys /\ nth_error polys k = Some poly /\ w = corners 6 poly
  end.
Lemma ent_of_self : forall e, ent_of (ent_codim e) (ent_index e) = e.
Proof. intros []; reflexivity. Qed.
Lemma ent_ex : forall cd i, (cd < 3)%nat -> exists p, ent_codim p = cd /\ ent_index p = i /\ ent_of cd i = p.
Proof.
  intros cd i H. destruct cd as [|[|[|]]]; [exists (ECell i)|exists (EEdge i)|exists (ENode i)|lia]; auto.
Qed.
Lemma valid_entities : forall m e, valid m e <-> (ent_index e < entities m (ent_codim e))%nat.
Proof. intros m []; cbn; tauto. Qed.
Lemma codim3 : forall e, (ent_codim e < 3)%nat.
Proof. intros []; cbn; lia. Qed.

(** The parent of an entity. *)
Lemma parent_info : forall e, valid (l_mesh L') e -> exists p k,
  nth_error (parent_infos L' (ent_codim e)) (ent_index e) = Some (mkPar (Some (ent_codim p, ent_index p)) (Some (ent_index p)) (Some k)) /\
  (ent_codim p <= ent_codim e)%nat /\ valid (l_mesh L) p /\
  nth_error (children L (ent_codim p) (ent_index p) (ent_codim e)) k = Some (ent_index e).
Proof.
  intros e V. apply valid_entities in V. destruct (LK _ (codim3 e)) as (A & B & D).
  destruct (nth_error (parents L' (ent_codim e)) (ent_index e)) as [pa|] eqn:E; [|apply nth_error_None in E; lia].
  destruct (B _ _ E) as (cd & i & k & -> & Hc & Hi). pose proof (codim3 e).
  destruct (ent_ex cd i ltac:(lia)) as (p & P1 & P2 & _). subst cd i. exists p, k.
  split; [exact E|]. split; [auto|]. split.
  - apply valid_entities. auto.
  - apply D. exact E.
Qed.

Lemma pattern_ok : forall c ci, cell_compatible L c ci -> exists P, new_pattern (cv_type c) (cc_pat ci) (cc_anchor ci) = Ok P /\
  p_el P = cv_type c /\ p_pat P = cc_pat ci /\ p_anchor P = cc_anchor ci /\ p_lc P = 6%Z.
Proof.
  intros c ci [_ _ G _]. unfold new_pattern. destruct (cc_anchor ci) as [k|].
  - cbn in G. rewrite (proj2 (Nat.ltb_lt _ _) G). eexists. split; [reflexivity|]. auto.
  - eexists. split; [reflexivity|]. auto.
Qed.
Lemma tq : forall m c, wf_cell m c -> cv_type c = kTria \/ cv_type c = kQuad.
Proof. intros m c H. destruct (wf_type m c H) as [[-> _]|[-> _]]; auto. Qed.

Lemma geo_cell : forall e i k, valid (l_mesh L') e -> (i < length (mv_cells (l_mesh L)))%nat ->
  nth_error (parent_infos L' (ent_codim e)) (ent_index e) = Some (mkPar (Some (0%nat, i)) (Some i) (Some k)) ->
  nth_error (children L 0 i (ent_codim e)) k = Some (ent_index e) ->
  exists w, inside L L' e (ECell i) w /\ has_geometry e (ECell i) w /\ from_polygon e (ECell i) k w.
Proof.
  intros e i k V Hi HP HC. destruct (rf_counts _ _ RF) as [NC _].
  destruct (nth_error (mv_cells (l_mesh L)) i) as [c|] eqn:Ec; [|apply nth_error_None in Ec; lia].
  destruct (nth_error (l_cells L) i) as [ci|] eqn:Eci; [|apply nth_error_None in Eci; lia].
  assert (Wc : wf_cell (l_mesh L) c) by (apply (proj1 (Forall_forall _ _) (wm_cells _ W)); eapply nth_error_In; eauto).
  pose proof (tq _ _ Wc) as T. pose proof (rf_compatible _ _ RF i c ci Ec Eci) as CM.
  destruct (rf_cell _ _ RF i c ci Ec Eci) as (lc & CO & X1 & X2 & FC & FE).
  destruct (pattern_ok c ci CM) as (P & HNP & P1 & P2 & P3 & P4).
  destruct (topology_matches P lc ltac:(rewrite P1, P2, P3; exact CO)) as (T0 & T1 & T2). rewrite P1, P4 in T0, T1, T2.
  change (6 / 2)%Z with 3%Z in T0, T1, T2. change (6 / 3)%Z with 2%Z in T0, T1, T2.
  destruct (tables_valid _ _ _ _ CO) as [V1 V2].
  assert (ZK := tables_zok _ _ _ _ (cm_anchor _ _ _ CM) CO).
  unfold has_geometry, relative_geometry. rewrite (get_ok _ _ _ _ HP). cbn [bind pa_num pa_ptr]. cbn [Nat.leb lf_assert bind].
  unfold geometry_in_cell. rewrite (get_ok _ _ _ _ Eci), (get_ok _ _ _ _ Ec). cbn [bind]. rewrite HNP. cbn [bind].
  assert (IN : In (ent_index e) (children L (ent_codim (ECell i)) (ent_index (ECell i)) (ent_codim e))) by (eapply nth_error_In; exact HC).
  destruct e as [j|j|j]; cbn [ent_codim ent_index ent_of ent_type] in *.
  - (* node *)
    rewrite T2. cbn [bind]. destruct (lc_centre lc) eqn:CE.
    2: { rewrite (X2 eq_refl) in HC. destruct k; discriminate. }
    destruct (X1 eq_refl) as (u & U1 & U2). rewrite U1 in HC. destruct k as [|[|k]]; try discriminate. cbn in HC. injection HC as <-.
    exists [xy (loc (cv_type c) RefineModel.C)]. split; [|split; [|cbn [from_polygon ent_codim]; exists c, ci, P; do 2 eexists; split; [exact Ec|]; split; [exact Eci|]; split; [exact HNP|]; split; [exact P4|]; split; [exact T2|]; split; [reflexivity|]; symmetry; apply (corners_all _ [RefineModel.C] T); intros n [<-|[]]; exact I]].
    + split; [exact IN|]. constructor; [|constructor]. apply pl_cell; auto.
    + assert (R2 : has_rows 2 [place 3 2 6 (cv_type c) RefineModel.C] = true) by (destruct T as [-> | ->]; reflexivity).
      assert (VC : valid_lnode (cv_type c) RefineModel.C) by exact I.
      rewrite (get_ok _ _ _ [place 3 2 6 (cv_type c) RefineModel.C]) by reflexivity. cbn [bind]. rewrite R2. cbn [lf_assert bind].
      assert (CP : cc_points ci = [u]) by (cbn in U1; rewrite Eci in U1; exact U1).
      rewrite CP. rewrite (get_ok _ _ _ u) by reflexivity. cbn [bind]. rewrite Nat.eqb_refl. cbn [refel_eqb lf_assert bind length Nat.eqb]. rewrite P4.
      unfold new_geo. cbn [child_corners map length num_cols Nat.eqb lf_assert bind]. eexists. split; [reflexivity|]. split; [reflexivity|].
      intros x Hx.
      destruct (onto_local GPoint 2 [place 3 2 6 (cv_type c) RefineModel.C] x R2 eq_refl eq_refl ltac:(discriminate) Hx) as (v & G1 & G2).
      exists v. split; [exact G1|]. unfold to_local. cbn [go_dim]. rewrite G2.
      change [place 3 2 6 (cv_type c) RefineModel.C] with (map (place 3 2 6 (cv_type c)) [RefineModel.C]).
      rewrite corners_all; auto. intros n [<-|[]]. exact I.
  - (* edge *)
    rewrite T1. cbn [bind]. destruct (F2_nth _ _ _ _ _ _ _ FE HC) as ((n1, n2) & Hl & u & v & Ee & S1 & S2). cbn [fst snd] in S1, S2.
    assert (VV := V2 _ (nth_error_In _ _ Hl)). cbn [fst snd] in VV. destruct VV as [VN1 VN2].
    assert (VL : forall n, In n [n1; n2] -> valid_lnode (cv_type c) n) by (intros n [<-|[<-|[]]]; auto).
    pose proof (rows_all _ _ T VL) as R2. pose proof (corners_all _ _ T VL) as C2. cbn [map] in R2, C2.
    exists [xy (loc (cv_type c) n1); xy (loc (cv_type c) n2)]. split; [|split; [|cbn [from_polygon ent_codim]; exists c, ci, P; do 2 eexists; split; [exact Ec|]; split; [exact Eci|]; split; [exact HNP|]; split; [exact P4|]; split; [exact T1|]; split; [rewrite nth_error_map, Hl; reflexivity|]; symmetry; exact C2]].
    + split; [exact IN|]. cbn [ent_nodes]. rewrite Ee. constructor; [apply pl_cell; auto|constructor; [apply pl_cell; auto|constructor]].
    + rewrite (get_ok _ _ _ [place 3 2 6 (cv_type c) n1; place 3 2 6 (cv_type c) n2]) by (rewrite nth_error_map, Hl; reflexivity).
      cbn [bind]. rewrite R2. cbn [lf_assert bind].
      assert (CP : nth_error (cc_edges ci) k = Some j) by (cbn in HC; rewrite Eci in HC; exact HC).
      rewrite (get_ok _ _ _ _ CP). cbn [bind]. rewrite Nat.eqb_refl. cbn [refel_eqb lf_assert bind length Nat.eqb]. rewrite P4.
      unfold new_geo. cbn [child_corners map length num_cols Nat.eqb lf_assert bind]. eexists. split; [reflexivity|]. split; [reflexivity|].
      intros x Hx.
      destruct (onto_local GSegmentO1 2 [place 3 2 6 (cv_type c) n1; place 3 2 6 (cv_type c) n2] x R2 eq_refl eq_refl ltac:(discriminate) Hx) as (v0 & G1 & G2).
      exists v0. split; [exact G1|]. unfold to_local. cbn [go_dim]. rewrite G2, C2. reflexivity.
  - (* cell *)
    rewrite T0. cbn [bind]. destruct (F2_nth _ _ _ _ _ _ _ FC HC) as (l & Hl & f & Ef & SF).
    assert (VL : forall n, In n l -> valid_lnode (cv_type c) n) by (intros n Hn; eapply V1; [eapply nth_error_In; exact Hl|auto]).
    pose proof (rows_all _ _ T VL) as R2. pose proof (corners_all _ _ T VL) as C2.
    assert (Zl : zpoly_ok (map (place 3 2 6 (cv_type c)) l) = true).
    { rewrite forallb_forall in ZK. apply ZK. apply in_map. eapply nth_error_In; exact Hl. }
    assert (Ll : length l = length (cv_nodes f)) by (clear - SF; induction SF; cbn; auto).
    exists (map (fun n => xy (loc (cv_type c) n)) l). split; [|split; [|cbn [from_polygon ent_codim]; exists c, ci, P; do 2 eexists; split; [exact Ec|]; split; [exact Eci|]; split; [exact HNP|]; split; [exact P4|]; split; [exact T0|]; split; [rewrite nth_error_map, Hl; reflexivity|]; symmetry; exact C2]].
    + split; [exact IN|]. cbn [ent_nodes]. rewrite Ef. clear - SF Ec. induction SF; constructor; auto. apply pl_cell; auto.
    + rewrite (get_ok _ _ _ (map (place 3 2 6 (cv_type c)) l)) by (rewrite nth_error_map, Hl; reflexivity).
      cbn [bind]. rewrite R2. cbn [lf_assert bind].
      assert (CP : nth_error (cc_cells ci) k = Some j) by (cbn in HC; rewrite Eci in HC; exact HC).
      rewrite (get_ok _ _ _ _ CP). cbn [bind]. rewrite Nat.eqb_refl. cbn [lf_assert bind]. rewrite P4.
      assert (CJ : DofModel.cell_at (l_mesh L') j = f) by (apply nth_error_nth; exact Ef). rewrite CJ.
      assert (Wf : wf_cell (l_mesh L') f) by (apply (proj1 (Forall_forall _ _) (wm_cells _ W')); eapply nth_error_In; eauto).
      destruct (wf_type _ _ Wf) as [[TF LF]|[TF LF]]; rewrite TF; destruct (new_cell _ Zl) as [[A B]|[A B]]; rewrite map_length in A; try lia;
      rewrite map_length, A; cbn [refel_eqb lf_assert bind]; rewrite B; (eexists; split; [reflexivity|]; split; [reflexivity|]); intros x Hx.
      * destruct (onto_local GTriaO1 2 (map (place 3 2 6 (cv_type c)) l) x R2 ltac:(rewrite map_length; exact A) eq_refl ltac:(discriminate) Hx) as (v0 & G1 & G2).
        exists v0. split; [exact G1|]. unfold to_local. cbn [go_dim]. rewrite G2, C2. reflexivity.
      * destruct (onto_local GQuadO1 2 (map (place 3 2 6 (cv_type c)) l) x R2 ltac:(rewrite map_length; exact A) eq_refl ltac:(discriminate) Hx) as (v0 & G1 & G2).
        exists v0. split; [exact G1|]. unfold to_local. cbn [go_dim]. rewrite G2, C2. reflexivity.
Qed.

Lemma seg_points : corners 6 [[0%Z]; [6%Z]] = [[0]; [1]] /\ corners 6 [[0%Z]; [3%Z]] = [[0]; [1 / 2]] /\
  corners 6 [[3%Z]; [6%Z]] = [[1 / 2]; [1]] /\ corners 6 [[3%Z]] = [[1 / 2]].
Proof.
  assert (A : IZR 0 / IZR 6 = 0) by lra. assert (B : IZR 3 / IZR 6 = 1 / 2) by lra. assert (D : IZR 6 / IZR 6 = 1) by lra.
  unfold corners. cbn [map]. rewrite A, B, D. auto.
Qed.
Lemma geo_edge : forall e i k, valid (l_mesh L') e -> (i < length (mv_edges (l_mesh L)))%nat -> (1 <= ent_codim e)%nat ->
  nth_error (parent_infos L' (ent_codim e)) (ent_index e) = Some (mkPar (Some (1%nat, i)) (Some i) (Some k)) ->
  nth_error (children L 1 i (ent_codim e)) k = Some (ent_index e) ->
  exists w, inside L L' e (EEdge i) w /\ has_geometry e (EEdge i) w /\ from_polygon e (EEdge i) k w.
Proof.
  intros e i k V Hi Hcd HP HC. destruct (rf_counts _ _ RF) as [_ NE].
  destruct (nth_error (mv_edges (l_mesh L)) i) as [[a b]|] eqn:Ec; [|apply nth_error_None in Ec; lia].
  destruct (nth_error (l_edges L) i) as [ci|] eqn:Eci; [|apply nth_error_None in Eci; lia].
  assert (IN : In (ent_index e) (children L (ent_codim (EEdge i)) (ent_index (EEdge i)) (ent_codim e))) by (eapply nth_error_In; exact HC).
  destruct seg_points as (Q06 & Q03 & Q36 & Q3).
  assert (SEG : forall poly, has_rows 1 poly = true -> length poly = 2%nat -> forall x, length x = 1%nat ->
     exists v, Global (mkGeo GSegmentO1 1 (child_corners 6 poly)) x = Ok v /\ map v (seq 0 1) = onto (corners 6 poly) x).
  { intros poly R1 Lp x Hx. apply onto_local; auto. discriminate. }
  unfold has_geometry, relative_geometry. rewrite (get_ok _ _ _ _ HP). cbn [bind pa_num pa_ptr].
  rewrite (proj2 (Nat.leb_le _ _) Hcd). cbn [lf_assert bind].
  unfold geometry_in_edge. rewrite (get_ok _ _ _ _ Eci). cbn [bind new_pattern].
  destruct (rf_decided _ _ RF i Hi) as [D|D].
  - destruct (rf_copied _ _ RF _ _ _ Ec D) as (f & a' & b' & C1 & C2 & C3 & C4 & EF).
    destruct D as (ci' & Eci' & D). rewrite Eci in Eci'. injection Eci' as <-. rewrite D.
    destruct e as [j|j|j]; cbn [ent_codim ent_index ent_of ent_type] in *; [rewrite C2 in HC; destruct k; discriminate| |lia].
    rewrite C1 in HC. destruct k as [|[|k]]; try discriminate. cbn in HC. injection HC as <-.
    exists [[0]; [1]]. split; [|split; [|cbn [from_polygon ent_codim]; exists ci; do 2 eexists; split; [exact Eci|]; split; [rewrite D; reflexivity|]; split; [reflexivity|]; symmetry; exact Q06]].
    + split; [exact IN|]. cbn [ent_nodes]. rewrite EF. constructor; [eapply pl_start; eauto|constructor; [eapply pl_end; eauto|constructor]].
    + assert (CP : ec_edges ci = [f]) by (cbn in C1; rewrite Eci in C1; exact C1).
      unfold ChildPolygons. cbn. rewrite CP. cbn. rewrite Nat.eqb_refl. cbn [lf_assert bind]. eexists. split; [reflexivity|]. split; [reflexivity|].
      intros x Hx. destruct (SEG [[0%Z]; [6%Z]] eq_refl eq_refl x Hx) as (v & G1 & G2). exists v. split; [exact G1|].
      unfold to_local. cbn [go_dim]. rewrite G2. exact (f_equal (fun w => onto w x) Q06).
  - destruct (rf_split _ _ RF _ _ _ Ec D) as (f & g & a' & b' & q & C1 & C2 & C3 & C4 & EF & EG & QL).
    destruct D as (ci' & Eci' & D). rewrite Eci in Eci'. injection Eci' as <-. rewrite D.
    destruct e as [j|j|j]; cbn [ent_codim ent_index ent_of ent_type] in *; [| |lia].
    + rewrite C2 in HC. destruct k as [|[|k]]; try discriminate. cbn in HC. injection HC as <-.
      exists [[1 / 2]]. split; [|split; [|cbn [from_polygon ent_codim]; exists ci; do 2 eexists; split; [exact Eci|]; split; [rewrite D; reflexivity|]; split; [reflexivity|]; symmetry; exact Q3]].
      * split; [exact IN|]. constructor; [apply pl_middle; auto|constructor].
      * assert (CP : ec_points ci = [q]) by (cbn in C2; rewrite Eci in C2; exact C2).
        unfold ChildPolygons. cbn. rewrite CP. cbn. rewrite Nat.eqb_refl. cbn [lf_assert bind]. eexists. split; [reflexivity|]. split; [reflexivity|].
        intros x Hx. destruct (onto_local GPoint 1 [[3%Z]] x eq_refl eq_refl eq_refl ltac:(discriminate) Hx) as (v & G1 & G2). exists v. split; [exact G1|].
        unfold to_local. cbn [go_dim]. rewrite G2. exact (f_equal (fun w => onto w x) Q3).
    + assert (CP : ec_edges ci = [f; g]) by (cbn in C1; rewrite Eci in C1; exact C1).
      rewrite C1 in HC. destruct k as [|[|[|k]]]; try discriminate; cbn in HC; injection HC as <-.
      * exists [[0]; [1 / 2]]. split; [|split; [|cbn [from_polygon ent_codim]; exists ci; do 2 eexists; split; [exact Eci|]; split; [rewrite D; reflexivity|]; split; [reflexivity|]; symmetry; exact Q03]].
        -- split; [exact IN|]. cbn [ent_nodes]. rewrite EF. constructor; [eapply pl_start; eauto|constructor; [apply pl_middle; auto|constructor]].
        -- unfold ChildPolygons. cbn. rewrite CP. cbn. rewrite Nat.eqb_refl. cbn [lf_assert bind]. eexists. split; [reflexivity|]. split; [reflexivity|].
           intros x Hx. destruct (SEG [[0%Z]; [3%Z]] eq_refl eq_refl x Hx) as (v & G1 & G2). exists v. split; [exact G1|].
           unfold to_local. cbn [go_dim]. rewrite G2. exact (f_equal (fun w => onto w x) Q03).
      * exists [[1 / 2]; [1]]. split; [|split; [|cbn [from_polygon ent_codim]; exists ci; do 2 eexists; split; [exact Eci|]; split; [rewrite D; reflexivity|]; split; [reflexivity|]; symmetry; exact Q36]].
        -- split; [exact IN|]. cbn [ent_nodes]. rewrite EG. constructor; [apply pl_middle; auto|constructor; [eapply pl_end; eauto|constructor]].
        -- unfold ChildPolygons. cbn. rewrite CP. cbn. rewrite Nat.eqb_refl. cbn [lf_assert bind]. eexists. split; [reflexivity|]. split; [reflexivity|].
           intros x Hx. destruct (SEG [[3%Z]; [6%Z]] eq_refl eq_refl x Hx) as (v & G1 & G2). exists v. split; [exact G1|].
           unfold to_local. cbn [go_dim]. rewrite G2. exact (f_equal (fun w => onto w x) Q36).
Qed.
Lemma geo_node : forall e i k, valid (l_mesh L') e -> (i < mv_nodes (l_mesh L))%nat -> (2 <= ent_codim e)%nat ->
  nth_error (parent_infos L' (ent_codim e)) (ent_index e) = Some (mkPar (Some (2%nat, i)) (Some i) (Some k)) ->
  nth_error (children L 2 i (ent_codim e)) k = Some (ent_index e) ->
  exists w, inside L L' e (ENode i) w /\ has_geometry e (ENode i) w /\ from_polygon e (ENode i) k w.
Proof.
  intros e i k V Hi Hcd HP HC. destruct (rf_nodes _ _ RF i Hi) as (u & C1 & C2).
  assert (IN : In (ent_index e) (children L (ent_codim (ENode i)) (ent_index (ENode i)) (ent_codim e))) by (eapply nth_error_In; exact HC).
  destruct e as [j|j|j]; cbn [ent_codim ent_index] in *; try lia. rewrite C1 in HC. destruct k as [|[|k]]; try discriminate. injection HC as <-.
  exists [[]]. split; [|split; [|split; reflexivity]].
  - split; [exact IN|]. constructor; [apply pl_node; auto|constructor].
  - unfold has_geometry, relative_geometry. cbn [ent_codim ent_index]. rewrite (get_ok _ _ _ _ HP). cbn. eexists. split; [reflexivity|]. split; [reflexivity|].
    intros [|x0 x] Hx; [|discriminate]. eexists. split; reflexivity.
Qed.

Theorem step_geometry : forall e, valid (l_mesh L') e -> exists p w k, valid (l_mesh L) p /\ (ent_codim p <= ent_codim e)%nat /\
  nth_error (parent_infos L' (ent_codim e)) (ent_index e) = Some (mkPar (Some (ent_codim p, ent_index p)) (Some (ent_index p)) (Some k)) /\
  inside L L' e p w /\ has_geometry e p w /\ from_polygon e p k w.
Proof.
  intros e V. destruct (parent_info e V) as (p & k & HP & Hc & Vp & HC).
  assert (exists w, inside L L' e p w /\ has_geometry e p w /\ from_polygon e p k w) as (w & A & B).
  { destruct p as [i|i|i]; [eapply geo_node|eapply geo_edge|eapply geo_cell]; eauto. }
  exists p, w, k. auto.
Qed.
End Step.
