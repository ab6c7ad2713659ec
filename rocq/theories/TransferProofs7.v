(** Proofs for C60: the geometries of refined meshes can be constructed. *)
From Coq Require Import Reals List Arith Bool ZArith Lia Lra.
Import ListNotations.
From Verif Require Import Base MeshModel MeshView RefPatModel RefPatSpec RefineModel RefineSpec RefineProofs2 RefineProofs5
  DofModel DofSpec GeoModel GeoSpec GeoProofs8 PropGeo FeModel FeToolsModel FeToolsProofs HierProofs TransferModel TransferSpec TransferProofs TransferProofs2 TransferProofs3 TransferProofs4 TransferProofs5 TransferProofs6.
Local Open Scope R_scope.

Lemma point_succeeds : forall g, constructed g -> go_kind g = GPoint -> ChildGeometry g (mkPattern kPoint rp_copy None 6) 0 = Ok [g].
Proof.
  intros g [(k & d & cs & H)|(d & p0 & p1 & p2 & H)] K.
  - unfold new_geo in H. apply bind_ok in H as ([] & H0 & H). apply bind_ok in H as ([] & _ & H2). injection H2 as <-. cbn in K. subst k.
    unfold ChildGeometry. cbn [go_kind p_el kind_el same_el verify bind Nat.eqb NumChildren el_dim p_pat Nat.leb go_dim go_cols].
    unfold new_geo. rewrite H0. reflexivity.
  - unfold new_parallelogram3 in H. apply bind_ok in H as ([] & H1 & H2). injection H2 as <-. discriminate.
Qed.
Section Step.
Variables L L' : level.
Hypothesis W : wf_mesh (l_mesh L).
Hypothesis W' : wf_mesh (l_mesh L').
Hypothesis S0 : simple_mesh (l_mesh L).
Hypothesis RF : refined_to L (l_mesh L').
Hypothesis LK : linked L L'.
Variable geom : ent -> geo.
Lemma child_nth : forall g P codim k polys poly, constructed g -> exact_parallelogram g -> tame g -> go_kind g <> GPoint -> p_lc P = 6%Z -> p_el P = kind_el (go_kind g) ->
  implemented (p_el P) (p_pat P) = true -> good_anchor (p_el P) (p_pat P) (p_anchor P) -> (codim <= dim_local (go_kind g))%nat ->
  (is_o2 (go_kind g) = false -> dim_local (go_kind g) = 2%nat -> p_pat P = rp_copy \/ p_pat P = rp_regular) ->
  ChildPolygons P codim = Ok polys -> nth_error polys k = Some poly ->
  exists c, (do gs <- ChildGeometry g P codim; get gs k) = Ok c /\ tame c /\ (is_o2 (go_kind g) = true -> o2ish c).
Proof.
  intros g P codim k polys poly C X T NP LC EL IM GA HC PT HP HK.
  destruct (children_succeed g P codim C T NP LC EL IM GA HC PT) as (cs & H1 & H2).
  destruct (C42_children _ _ _ _ X NP H1) as (_ & polys' & Q1 & _ & Q2). rewrite HP in Q1. injection Q1 as <-.
  destruct (F2_nth _ _ _ _ _ _ _ Q2 HK) as (c & Q3 & _). exists c. rewrite H1. cbn [bind]. rewrite (get_ok _ _ _ _ Q3). split; auto.
  apply nth_error_In in Q3. exact (proj1 (Forall_forall _ _) H2 c Q3).
Qed.
Lemma fine_succeeds : forall e, valid (l_mesh L') e -> (forall p, valid (l_mesh L) p -> fits (ent_type (l_mesh L) p) (geom p) /\ tame (geom p)) ->
  (forall i ci, nth_error (l_cells L) i = Some ci -> is_o2 (go_kind (geom (ECell i))) = false -> cc_pat ci = rp_copy \/ cc_pat ci = rp_regular) ->
  exists c, fine_geometry L L' geom e = Ok c /\ tame c /\ ((forall p, valid (l_mesh L) p -> o2ish (geom p)) -> o2ish c).
Proof.
  intros e V FT PT. destruct (step_geometry L L' W W' RF LK e V) as (p & w & k & Vp & Hc & HP & IN & _ & FP).
  destruct (FT p Vp) as [(FC & FE & FK) FTa].
  unfold fine_geometry. rewrite (get_ok _ _ _ _ HP). cbn [bind pa_num pa_ptr]. rewrite ent_of_self.
  assert (fin : forall r, (exists c, r = Ok c /\ tame c /\ (is_o2 (go_kind (geom p)) = true -> o2ish c)) -> go_kind (geom p) <> GPoint ->
     exists c, r = Ok c /\ tame c /\ ((forall q, valid (l_mesh L) q -> o2ish (geom q)) -> o2ish c)).
  { intros r (c & A & B & C) NP. exists c. split; auto. split; auto. intros D. apply C. destruct (D p Vp); congruence. }
  destruct p as [i|i|i]; cbn [child_geometry from_polygon ent_type ent_codim] in *.
  - destruct FP as [-> ->]. cbn [new_pattern bind].
    assert (GP : go_kind (geom (ENode i)) = GPoint) by (destruct (go_kind (geom (ENode i))); cbn in FK; congruence).
    rewrite (point_succeeds _ FC GP). cbn [bind]. exists (geom (ENode i)). split; [reflexivity|]. split; auto.
  - assert (GP : go_kind (geom (EEdge i)) <> GPoint) by (intros X; rewrite X in FK; discriminate).
    destruct FP as (ci & polys & poly & E1 & E2 & E3 & ->). rewrite (get_ok _ _ _ _ E1). cbn [bind new_pattern].
    apply fin; auto. apply (child_nth _ _ _ _ polys poly); auto.
    + cbn [p_el p_pat]. destruct (rf_decided _ _ RF i Vp) as [D|D]; unfold is_copied, is_split in D; destruct D as (ci' & D1 & D2); rewrite E1 in D1; injection D1 as <-; rewrite D2; reflexivity.
    + cbn. destruct (ec_pat ci); reflexivity.
    + unfold dim_local. rewrite FK. cbn [el_dim]. pose proof (codim3 e). lia.
    + intros _ D2. unfold dim_local in D2. rewrite FK in D2. discriminate.
  - destruct FP as (cl & ci & P & polys & poly & E0 & E1 & EP & LC & E2 & E3 & ->). rewrite (get_ok _ _ _ _ E1), (get_ok _ _ _ _ E0). cbn [bind].
    assert (CA : DofModel.cell_at (l_mesh L) i = cl) by (unfold DofModel.cell_at; apply nth_error_nth; exact E0).
    assert (Wc : wf_cell (l_mesh L) cl) by (apply (proj1 (Forall_forall _ _) (wm_cells _ W)); eapply nth_error_In; exact E0).
    assert (GP : go_kind (geom (ECell i)) <> GPoint).
    { intros X. rewrite X in FK. cbn in FK. rewrite CA in FK. destruct (tq _ _ Wc) as [Y|Y]; rewrite Y in FK; discriminate. }
    rewrite EP. cbn [bind]. pose proof (rf_compatible _ _ RF i cl ci E0 E1) as CM.
    destruct (RefPatProofs2.constructed _ _ _ _ EP) as (P1 & P2 & P3 & _).
    apply fin; auto. apply (child_nth _ _ _ _ polys poly); auto.
    + rewrite P1, FK, CA. reflexivity.
    + rewrite P1, P2. apply (cm_implemented _ _ _ CM).
    + rewrite P1, P2, P3. apply (cm_anchor _ _ _ CM).
    + unfold dim_local. rewrite FK, CA. pose proof (codim3 e). destruct (tq _ _ Wc) as [Y|Y]; rewrite Y; cbn; lia.
    + intros O2 _. rewrite P2. eapply PT; eauto.
Qed.
End Step.

Fixpoint geometries (Ls : list level) (g0 : ent -> geo) (l : nat) (e : ent) : geo :=
  match l with
  | O => g0 e
  | S l' => match nth_error Ls l', nth_error Ls (S l') with
            | Some L, Some L' => match fine_geometry L L' (geometries Ls g0 l') e with Ok g => g | _ => g0 e end
            | _, _ => g0 e
            end
  end.
Theorem geometries_exist : forall H g0, good_levels (levels H) ->
  (forall L e, nth_error (levels H) 0 = Some L -> valid (l_mesh L) e ->
     constructed (g0 e) /\ exact_parallelogram (g0 e) /\ kind_el (go_kind (g0 e)) = ent_type (l_mesh L) e /\ tame (g0 e)) ->
  (forall L e, nth_error (levels H) 0 = Some L -> valid (l_mesh L) e -> is_o2 (go_kind (g0 e)) = true \/ go_kind (g0 e) = GPoint) \/
  (forall l L ci, (S l < length (levels H))%nat -> nth_error (levels H) l = Some L -> In ci (l_cells L) -> cc_pat ci = rp_copy \/ cc_pat ci = rp_regular) ->
  exists geom, geom 0%nat = g0 /\ geometric (levels H) geom.
Proof.
  intros H g0 GL B0 ALT. exists (geometries (levels H) g0). split; [reflexivity|].
  assert (INV : forall l L, nth_error (levels H) l = Some L ->
    (forall e, valid (l_mesh L) e -> fits (ent_type (l_mesh L) e) (geometries (levels H) g0 l e) /\ tame (geometries (levels H) g0 l e)) /\
    ((forall L e, nth_error (levels H) 0 = Some L -> valid (l_mesh L) e -> o2ish (g0 e)) -> forall e, valid (l_mesh L) e -> o2ish (geometries (levels H) g0 l e)) /\
    (forall L' e, nth_error (levels H) (S l) = Some L' -> valid (l_mesh L') e -> fine_geometry L L' (geometries (levels H) g0 l) e = Ok (geometries (levels H) g0 (S l) e))).
  { assert (STEP : forall l L L', nth_error (levels H) l = Some L -> nth_error (levels H) (S l) = Some L' ->
      (forall e, valid (l_mesh L) e -> fits (ent_type (l_mesh L) e) (geometries (levels H) g0 l e) /\ tame (geometries (levels H) g0 l e)) ->
      ((forall L e, nth_error (levels H) 0 = Some L -> valid (l_mesh L) e -> o2ish (g0 e)) -> forall e, valid (l_mesh L) e -> o2ish (geometries (levels H) g0 l e)) ->
      forall e, valid (l_mesh L') e -> fine_geometry L L' (geometries (levels H) g0 l) e = Ok (geometries (levels H) g0 (S l) e) /\
        tame (geometries (levels H) g0 (S l) e) /\ fits (ent_type (l_mesh L') e) (geometries (levels H) g0 (S l) e) /\
        ((forall L e, nth_error (levels H) 0 = Some L -> valid (l_mesh L) e -> o2ish (g0 e)) -> o2ish (geometries (levels H) g0 (S l) e))).
    { intros l L L' HL HL' F O e V. destruct (nth_in H GL l L HL) as [W S0]. destruct (nth_in H GL (S l) L' HL') as [W' _].
      destruct (gl_step _ GL l L L' HL HL') as [RF LK].
      destruct (fine_succeeds L L' W W' RF LK (geometries (levels H) g0 l) e V F) as (c & C1 & C2 & C3).
      { intros i ci Hi NO. destruct ALT as [A|A].
        - assert (VC : valid (l_mesh L) (ECell i)). { cbn. rewrite <- (proj1 (rf_counts _ _ RF)). apply nth_error_Some. congruence. }
          destruct (O A _ VC) as [X|X]; [congruence|]. destruct (F _ VC) as [(_ & _ & X2) _]. rewrite X in X2. cbn in X2.
          assert (Wc : wf_cell (l_mesh L) (DofModel.cell_at (l_mesh L) i)) by (apply (proj1 (Forall_forall _ _) (wm_cells _ W)); apply nth_In; exact VC).
          destruct (tq _ _ Wc) as [Y|Y]; rewrite Y in X2; discriminate.
        - eapply A; [|exact HL|eapply nth_error_In; exact Hi]. apply nth_error_Some. congruence. }
      assert (EG : geometries (levels H) g0 (S l) e = c) by (cbn [geometries]; rewrite HL, HL', C1; reflexivity).
      rewrite EG. split; auto. split; auto. split.
      - destruct (step_geometry L L' W W' RF LK e V) as (p & w & k & Vp & _ & _ & IN & _).
        exact (proj1 (fine_fits L L' W W' S0 RF LK (geometries (levels H) g0 l) e p w c V Vp IN (proj1 (F p Vp)) C1)).
      - intros A. apply C3. intros p Vp. apply O; auto. }
    induction l as [|l IH]; intros L HL.
    - assert (F : forall e, valid (l_mesh L) e -> fits (ent_type (l_mesh L) e) (geometries (levels H) g0 0 e) /\ tame (geometries (levels H) g0 0 e)).
      { intros e V. destruct (B0 L e HL V) as (A & B & C & D). split; [split; auto|auto]. }
      assert (O : (forall L e, nth_error (levels H) 0 = Some L -> valid (l_mesh L) e -> o2ish (g0 e)) -> forall e, valid (l_mesh L) e -> o2ish (geometries (levels H) g0 0 e)).
      { intros A e V. apply (A L); auto. }
      split; [exact F|]. split; [exact O|]. intros L' e HL' V. eapply STEP; eauto.
    - assert (HL0 : exists L0, nth_error (levels H) l = Some L0).
      { destruct (nth_error (levels H) l) as [L0|] eqn:E; eauto. apply nth_error_None in E. assert (nth_error (levels H) (S l) = None) by (apply nth_error_None; lia). congruence. }
      destruct HL0 as (L0 & HL0). destruct (IH L0 HL0) as (F & O & _).
      assert (F' : forall e, valid (l_mesh L) e -> fits (ent_type (l_mesh L) e) (geometries (levels H) g0 (S l) e) /\ tame (geometries (levels H) g0 (S l) e)).
      { intros e V. destruct (STEP l L0 L HL0 HL F O e V) as (_ & A & B & _). auto. }
      assert (O' : (forall L e, nth_error (levels H) 0 = Some L -> valid (l_mesh L) e -> o2ish (g0 e)) -> forall e, valid (l_mesh L) e -> o2ish (geometries (levels H) g0 (S l) e)).
      { intros A e V. destruct (STEP l L0 L HL0 HL F O e V) as (_ & _ & _ & B). auto. }
      split; [exact F'|]. split; [exact O'|]. intros L' e HL' V. eapply STEP; eauto. }
  constructor.
  - intros L e HL V. destruct (B0 L e HL V) as (A & B & C & D). auto.
  - intros l L L' e HL HL' V. destruct (INV l L HL) as (_ & _ & A). apply A; auto.
Qed.
(** Six-node triangles, eight-node quadrilaterals and three-node edges with the given corners. *)
Definition avg (a b : vec) : vec := fun k => (a k + b k) / 2.
Definition curved (pos : nat -> vec) (m : mesh) (e : ent) : geo :=
  let c := map pos (ent_nodes m e) in let p i := nth i c vzero in
  match ent_type m e with
  | kPoint => mkGeo GPoint 2 c
  | kSegment => mkGeo GSegmentO2 2 (c ++ [avg (p 0%nat) (p 1%nat)])
  | kTria => mkGeo GTriaO2 2 (c ++ [avg (p 0%nat) (p 1%nat); avg (p 1%nat) (p 2%nat); avg (p 2%nat) (p 0%nat)])
  | kQuad => mkGeo GQuadO2 2 (c ++ [avg (p 0%nat) (p 1%nat); avg (p 1%nat) (p 2%nat); avg (p 2%nat) (p 3%nat); avg (p 3%nat) (p 0%nat)])
  end.
Lemma geometric_example : forall pos, exists H geom, reached H /\ length (levels H) = 3%nat /\ geometric (levels H) geom /\
  forall L, nth_error (levels H) 0 = Some L -> geom 0%nat = curved pos (l_mesh L).
Proof.
  intros pos. destruct TransferProofs6.reached_example as (H & RE & EH).
  assert (LE : length (levels H) = 3%nat) by (apply (f_equal (@length _)) in EH; rewrite map_length in EH; exact EH).
  assert (WL : forall L, nth_error (levels H) 0 = Some L -> wf_mesh (l_mesh L)) by (intros L HL; eapply nth_in; [apply reached_levels, RE|exact HL]).
  destruct (nth_error (levels H) 0) as [L0|] eqn:E0; [|apply nth_error_None in E0; lia].
  specialize (WL L0 eq_refl).
  assert (KD : forall e, exists k, go_kind (curved pos (l_mesh L0) e) = k /\ kind_el k = ent_type (l_mesh L0) e /\ (is_o2 k = true \/ k = GPoint)).
  { intros e. unfold curved. destruct (ent_type (l_mesh L0) e); eexists; (split; [reflexivity|]); split; try reflexivity; auto. }
  destruct (geometries_exist H (curved pos (l_mesh L0))) as (geom & G0 & G).
  - apply reached_levels, RE.
  - intros L e HL V. rewrite E0 in HL. injection HL as <-. destruct (KD e) as (k & K1 & K2 & K3).
    assert (NQ : k <> GQuadO1 /\ k <> GParallelogram) by (split; intros ->; destruct K3; discriminate).
    split; [|split; [|split]].
    + pose proof (ent_nodes_length (l_mesh L0) e WL V) as LN.
      left. exists k, 2%nat, (go_cols (curved pos (l_mesh L0) e)). revert K1. unfold curved.
      destruct (ent_type (l_mesh L0) e); cbn [go_kind go_cols]; intros <-; unfold new_geo; rewrite ?app_length, map_length, LN; reflexivity.
    + intros X. rewrite K1 in X. tauto.
    + rewrite K1. exact K2.
    + intros X. rewrite K1 in X. tauto.
  - left. intros L e HL V. destruct (KD e) as (k & K1 & K2 & K3). rewrite K1. exact K3.
  - exists H, geom. split; auto. split; auto. split; auto. intros L E. rewrite E0 in E. injection E as <-. exact G0.
Qed.
