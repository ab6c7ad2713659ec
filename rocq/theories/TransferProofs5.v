(** Proofs for C60: geometries of refined meshes. *)
From Coq Require Import Reals List Arith Bool ZArith Lia Lra.
Import ListNotations.
From Verif Require Import Base MeshModel MeshView RefPatModel RefPatSpec RefineModel RefineSpec RefineProofs2 RefineProofs5
  DofModel DofSpec GeoModel GeoSpec PropGeo FeModel FeToolsModel FeToolsProofs HierProofs TransferModel TransferSpec TransferProofs TransferProofs2 TransferProofs3 TransferProofs4.
Local Open Scope R_scope.

Lemma get_inv : forall A (l : list A) i x, get l i = Ok x -> nth_error l i = Some x.
Proof. intros A l i x H. unfold get in H. destruct (nth_error l i); congruence. Qed.
Lemma nodes_type : forall t t', num_nodes t = num_nodes t' -> t = t'.
Proof. intros [] []; cbn; intros; congruence. Qed.

Section Geo.
Variables L L' : level.
Hypothesis W : wf_mesh (l_mesh L).
Hypothesis W' : wf_mesh (l_mesh L').
Hypothesis S0 : simple_mesh (l_mesh L).
Hypothesis RF : refined_to L (l_mesh L').
Hypothesis LK : linked L L'.
Variable geom : ent -> geo.

(** What is known about a geometry of an entity of given type. *)
Definition fits (t : refel) (g : geo) : Prop := constructed g /\ exact_parallelogram g /\ kind_el (go_kind g) = t.

Lemma child_of_fine : forall e p w c, valid (l_mesh L') e -> valid (l_mesh L) p -> inside L L' e p w -> fits (ent_type (l_mesh L) p) (geom p) ->
  fine_geometry L L' geom e = Ok c ->
  (exists i, p = ENode i /\ c = geom p /\ w = [[]]) \/ (go_kind (geom p) <> GPoint /\ child_of (geom p) (ent_codim e - ent_codim p) w c).
Proof.
  intros e p w c V Vp IN (FC & FE & FK) HF.
  destruct (step_geometry L L' W W' RF LK e V) as (p' & w' & k & Vp' & Hc & HP & IN' & _ & FP).
  destruct (inside_unique L L' W S0 LK _ _ _ _ _ IN IN') as [<- <-].
  unfold fine_geometry in HF. rewrite (get_ok _ _ _ _ HP) in HF. cbn [bind pa_num pa_ptr] in HF. rewrite ent_of_self in HF.
  destruct p as [i|i|i]; cbn [child_geometry from_polygon ent_type ent_codim] in *.
  - left. exists i. split; auto. destruct FP as [-> ->]. cbn [new_pattern bind] in HF. apply bind_ok in HF as (gs & G1 & G2).
    assert (GP : go_kind (geom (ENode i)) = GPoint) by (destruct (go_kind (geom (ENode i))); cbn in FK; congruence).
    destruct (C42_point _ _ _ _ FC GP G1) as (_ & _ & ->). apply get_inv in G2. cbn in G2. split; congruence.
  - right. assert (GP : go_kind (geom (EEdge i)) <> GPoint) by (intros X; rewrite X in FK; discriminate). split; auto.
    destruct FP as (ci & polys & poly & E1 & E2 & E3 & ->). rewrite (get_ok _ _ _ _ E1) in HF. cbn [bind new_pattern] in HF.
    apply bind_ok in HF as (gs & G1 & G2). apply get_inv in G2.
    destruct (C42_children _ _ _ _ FE GP G1) as (_ & polys' & Q1 & _ & Q2). rewrite E2 in Q1. injection Q1 as <-.
    destruct (F2_nth _ _ _ _ _ _ _ Q2 E3) as (c' & Q3 & Q4). rewrite G2 in Q3. injection Q3 as <-. exact Q4.
  - right. assert (GP : go_kind (geom (ECell i)) <> GPoint).
    { intros X. rewrite X in FK. cbn in FK. assert (wf_cell (l_mesh L) (DofModel.cell_at (l_mesh L) i)) as Wc by (apply (proj1 (Forall_forall _ _) (wm_cells _ W)); apply nth_In; exact Vp).
      destruct (tq _ _ Wc) as [Y|Y]; rewrite Y in FK; discriminate. }
    split; auto.
    destruct FP as (cl & ci & P & polys & poly & E0 & E1 & EP & LC & E2 & E3 & ->). rewrite (get_ok _ _ _ _ E1), (get_ok _ _ _ _ E0) in HF. cbn [bind] in HF.
    rewrite EP in HF. cbn [bind] in HF. apply bind_ok in HF as (gs & G1 & G2). apply get_inv in G2.
    destruct (C42_children _ _ _ _ FE GP G1) as (_ & polys' & Q1 & _ & Q2). rewrite E2 in Q1. injection Q1 as <-.
    destruct (F2_nth _ _ _ _ _ _ _ Q2 E3) as (c' & Q3 & Q4). rewrite G2 in Q3. injection Q3 as <-. rewrite LC in Q4.
    rewrite Nat.sub_0_r. exact Q4.
Qed.

Lemma fine_fits : forall e p w c, valid (l_mesh L') e -> valid (l_mesh L) p -> inside L L' e p w -> fits (ent_type (l_mesh L) p) (geom p) ->
  fine_geometry L L' geom e = Ok c -> fits (ent_type (l_mesh L') e) c /\ go_dim c = go_dim (geom p) /\
  (closed_class (geom p) w -> forall x, in_ref (ent_type (l_mesh L') e) x ->
     exists P Q, Global c x = Ok P /\ Global (geom p) (onto w x) = Ok Q /\ forall k, (k < go_dim (geom p))%nat -> P k = Q k).
Proof.
  intros e p w c V Vp IN FT HF. pose proof (child_of_fine e p w c V Vp IN FT HF) as D.
  assert (NW : length w = num_nodes (ent_type (l_mesh L') e)).
  { destruct IN as [_ F]. rewrite <- (F2_len _ _ _ _ _ F). apply ent_nodes_length; auto. }
  destruct D as [(i & -> & -> & ->)|[NP D]].
  - cbn [length] in NW. assert (TE : ent_type (l_mesh L') e = kPoint) by (symmetry; apply nodes_type; exact NW). rewrite TE.
    split; [exact FT|]. split; auto. intros _ [|a r] Hx; [|destruct Hx]. unfold onto. cbn [length nth seq map].
    destruct FT as (_ & _ & K). cbn in K. assert (GP : go_kind (geom (ENode i)) = GPoint) by (destruct (go_kind (geom (ENode i))); cbn in K; congruence).
    unfold Global, range_check, with_local. rewrite GP. cbn. do 2 eexists. split; [reflexivity|]. split; [reflexivity|]. auto.
  - destruct D as (D1 & D2 & D3 & D4 & D5 & D6 & D7 & _).
    assert (TE : kind_el (go_kind c) = ent_type (l_mesh L') e) by (apply nodes_type; rewrite D5; exact NW).
    split; [split; auto|]. split; auto. intros CC x Hx. apply D7; auto. rewrite TE. destruct (is_o2 (go_kind (geom p))); auto.
    rewrite (in_ref_length _ _ Hx). unfold dim_local. rewrite TE. reflexivity.
Qed.
End Geo.

Section Hier.
Variables (H : hierarchy) (geom : nat -> ent -> geo).
Hypothesis GL : good_levels (levels H).
Hypothesis GE : geometric (levels H) geom.

Lemma all_fit : forall l L e, nth_error (levels H) l = Some L -> valid (l_mesh L) e -> fits (ent_type (l_mesh L) e) (geom l e).
Proof.
  induction l as [|l IH]; intros L' e E' V.
  - destruct (ge_base _ _ GE L' e E' V) as (A & B & D). split; auto.
  - destruct (nth_error (levels H) l) as [L|] eqn:E.
    2: { apply nth_error_None in E. assert (S l < length (levels H))%nat by (apply nth_error_Some; congruence). lia. }
    destruct (up H GL _ _ _ _ E E' V) as (p & w & _ & Vp & _ & IN & _). destruct (nth_in H GL _ _ E) as [W S0]. destruct (nth_in H GL _ _ E') as [W' _].
    destruct (gl_step _ GL _ _ _ E E') as [RF LK].
    eapply (fine_fits L L' W W' S0 RF LK (geom l)); eauto. apply (ge_fine _ _ GE _ _ _ _ E E' V).
Qed.
Theorem same_place : (forall l L L' e p w, nth_error (levels H) l = Some L -> nth_error (levels H) (S l) = Some L' -> valid (l_mesh L) p -> valid (l_mesh L') e -> inside L L' e p w -> closed_class (geom l p) w) ->
  forall l e x k q y, image (levels H) l e x k q y -> forall L, nth_error (levels H) l = Some L -> valid (l_mesh L) e -> in_ref (ent_type (l_mesh L) e) x ->
  same_point (geom l e) x (geom k q) y.
Proof.
  intros CC l e x k q y I. induction I as [l e x|l e x L L' p w k q y E E' IN I IH]; intros M EM V Hx.
  - destruct (all_fit _ _ _ EM V) as (_ & _ & K). split; auto.
    assert (LX : length x = dim_local (go_kind (geom l e))) by (unfold dim_local; rewrite K; apply in_ref_length; auto).
    assert (GO : exists v, Global (geom l e) x = Ok v); [|destruct GO as (v & ->); eauto].
    unfold Global, with_local. rewrite (proj2 (Nat.eqb_eq _ _) LX). unfold range_check.
    destruct (is_o2 (go_kind (geom l e))); cbn [bind lf_assert]; eauto.
    assert (R : in_range x = true); [|rewrite R; cbn; eauto].
    unfold in_range, leb. rewrite <- K in Hx. destruct (go_kind (geom l e)); cbn in Hx; destruct x as [|a [|b [|]]]; try tauto; cbn;
    repeat (destruct (Rle_dec _ _); [|lra]); reflexivity.
  - rewrite E' in EM. injection EM as <-. destruct (up H GL _ _ _ _ E E' V) as (p' & w' & _ & Vp & _ & IN' & _).
    destruct (nth_in H GL _ _ E) as [W S0]. destruct (nth_in H GL _ _ E') as [W' _]. destruct (gl_step _ GL _ _ _ E E') as [RF LK].
    destruct (inside_unique L L' W S0 LK _ _ _ _ _ IN IN') as [<- <-].
    destruct (fine_fits L L' W W' S0 RF LK (geom l) e p w _ V Vp IN (all_fit _ _ _ E Vp) (ge_fine _ _ GE _ _ _ _ E E' V)) as (_ & DM & X).
    destruct (X (CC _ _ _ _ _ _ E E' Vp V IN) x Hx) as (P & Q & G1 & G2 & EQ).
    assert (IR : in_ref (ent_type (l_mesh L) p) (onto w x)) by (eapply inside_in; [..|exact IN|]; auto).
    destruct (IH L E Vp IR) as (DM2 & P2 & Q2 & G3 & G4 & EQ2). split; [congruence|]. exists P, Q2. split; auto. split; auto.
    intros j Hj. rewrite G2 in G3. injection G3 as <-. rewrite EQ by congruence. apply EQ2. congruence.
Qed.

(** ** Patterns that keep quadrilaterals *)
Lemma kept_closed : quads_kept (levels H) geom ->
  forall l L L' e p w, nth_error (levels H) l = Some L -> nth_error (levels H) (S l) = Some L' -> valid (l_mesh L) p -> valid (l_mesh L') e -> inside L L' e p w -> closed_class (geom l p) w.
Proof.
  intros QK l L L' e p w E E' Vp V IN. destruct (nth_in H GL _ _ E) as [W S0]. destruct (nth_in H GL _ _ E') as [W' _]. destruct (gl_step _ GL _ _ _ E E') as [RF LK].
  destruct (all_fit _ _ _ E Vp) as (_ & _ & K).
  unfold closed_class.
  assert (QQ : go_kind (geom l p) = GQuadO1 \/ go_kind (geom l p) = GQuadO2 -> axis_parallel w); [|destruct (go_kind (geom l p)); auto].
  intros HK. destruct (step_geometry L L' W W' RF LK e V) as (p' & w' & k & _ & _ & _ & IN' & _ & FP).
  destruct (inside_unique L L' W S0 LK _ _ _ _ _ IN IN') as [<- <-].
  assert (TQ : ent_type (l_mesh L) p = kQuad) by (rewrite <- K; destruct HK as [-> | ->]; reflexivity).
  destruct p as [i|i|i]; try discriminate. cbn [from_polygon] in FP.
  destruct FP as (c & ci & P & polys & poly & E0 & E1 & EP & LC & E2 & E3 & ->).
  pose proof (QK _ _ _ _ _ E E' E1 HK) as KQ. cbn [ent_type] in TQ. unfold DofModel.cell_at in TQ. rewrite (nth_error_nth _ _ _ E0) in TQ.
  pose proof (rf_compatible _ _ RF i c ci E0 E1) as [_ _ GA _]. rewrite TQ in *.
  destruct (rf_cell _ _ RF i c ci E0 E1) as (lc & CO & _). rewrite TQ in CO.
  assert (KK : exists a, (a < 4)%nat /\ In poly (
     match ent_codim e with
     | 0%nat => match cc_pat ci with rp_copy => [[[0;0];[6;0];[6;6];[0;6]]%Z] | rp_bisect | rp_split => [[q_node 6 (q_mod 0 a); q_mid 3 6 (q_mod 0 a); q_mid 3 6 (q_mod 2 a); q_node 6 (q_mod 3 a)]; [q_node 6 (q_mod 1 a); q_node 6 (q_mod 2 a); q_mid 3 6 (q_mod 2 a); q_mid 3 6 (q_mod 0 a)]]
           | _ => [[[0;0];[3;0];[3;3];[0;3]]; [[6;0];[6;3];[3;3];[3;0]]; [[6;6];[6;3];[3;3];[3;6]]; [[0;6];[3;6];[3;3];[0;3]]]%Z end
     | 1%nat => match cc_pat ci with rp_copy => [] | rp_bisect | rp_split => [[q_mid 3 6 (q_mod 0 a); q_mid 3 6 (q_mod 2 a)]] | _ => [[[3;0];[3;3]];[[6;3];[3;3]];[[3;6];[3;3]];[[0;3];[3;3]]]%Z end
     | _ => match cc_pat ci with rp_regular | rp_barycentric => [[[3;3]]%Z] | _ => [] end
     end)).
  { destruct (topology_matches P lc) as (T0 & T1 & T2).
    { unfold new_pattern in EP. destruct (cc_anchor ci); [apply bind_ok in EP as (? & _ & EP)|]; injection EP as <-; exact CO. }
    assert (PE : p_el P = kQuad) by (unfold new_pattern in EP; destruct (cc_anchor ci); [apply bind_ok in EP as (? & _ & EP)|]; injection EP as <-; reflexivity).
    rewrite PE, LC in *. change (6 / 2)%Z with 3%Z in *. change (6 / 3)%Z with 2%Z in *.
    assert (IP : In poly polys) by (eapply nth_error_In; eauto).
    cbn [children_of quad_children] in CO.
    destruct (cc_anchor ci) as [a|] eqn:CA.
    - cbn in GA. exists a. split; [exact GA|].
      destruct KQ as [Z|[Z|[Z|[Z|Z]]]]; rewrite Z in *; cbn [anchored] in CO; injection CO as <-; destruct e; cbn [ent_codim] in *;
      (let X := fresh in assert (X : forall A, Ok polys = Ok A -> In poly A) by (intros A HX; injection HX as <-; exact IP); apply X); rewrite <- E2; first [exact T0 | exact T1 | exact T2].
    - exists 0%nat. split; [lia|].
      destruct KQ as [Z|[Z|[Z|[Z|Z]]]]; rewrite Z in *; cbn [anchored] in CO; try discriminate; injection CO as <-; destruct e; cbn [ent_codim] in *;
      (let X := fresh in assert (X : forall A, Ok polys = Ok A -> In poly A) by (intros A HX; injection HX as <-; exact IP); apply X); rewrite <- E2; first [exact T0 | exact T1 | exact T2]. }
  destruct KK as (a & Ha & KK). destruct a as [|[|[|[|a]]]]; try lia;
  destruct e as [j|j|j]; cbn [ent_codim] in KK; destruct KQ as [Z|[Z|[Z|[Z|Z]]]]; rewrite Z in KK; cbn in KK;
  repeat (destruct KK as [<-|KK]; [|]); try contradiction; unfold corners; cbn [map];
  first [left; eexists; reflexivity
        | right; do 4 eexists; first [left; reflexivity | right; left; reflexivity | right; right; left; reflexivity | right; right; right; reflexivity]].
  Unshelve. all: exact 0.
Qed.
End Hier.
