(** Uniform hierarchies over triangular meshes, and their geometries. *)
From Coq Require Import Reals List Arith Lia Bool ZArith Lra.
Import ListNotations.
From Verif Require Import Base Scalars MeshModel MeshView RefPatModel RefPatSpec RefineModel RefineSpec RefineProofs2 RefineProofs3 RefineProofs5 DofModel DofSpec FlagSpec FlagModel
  GeoModel GeoSpec FeModel FeSpec FeToolsModel NormalSpec StokesModel StokesSpec TransferModel TransferSpec TransferProofs TransferProofs2 TransferProofs4 TransferProofs5 TransferProofs7 ConformSpec ConformProofs2 ConformProofs3 RectSpec RectProofs4.
Local Open Scope nat_scope.

Lemma uniformly_good : forall lgs, Forall (fun lg => forall i, lg i < 3) lgs -> Forall good_hop (uniformly lgs).
Proof. intros lgs F. unfold uniformly. induction F; cbn; constructor; auto. cbn. auto. Qed.

(** What one step carries on from one level to the next. *)
Record stepped (L L' : level) : Prop := {
  st_pat : regular_level L;
  st_edge : forall e f, In f (children L 1 e 1) -> adjacent (l_mesh L') f = adjacent (l_mesh L) e;
  st_cell : forall c f, In f (children L 0 c 1) -> adjacent (l_mesh L') f = 2
}.
Definition all_stepped (Ls : list level) : Prop := forall i L L', nth_error Ls i = Some L -> nth_error Ls (S i) = Some L' -> stepped L L'.

Lemma regular_step : forall lg H check m0, good_hier check m0 H -> (check = true -> complete_mesh m0) -> (forall i, lg i < 3) ->
  exists L1 L', RefineRegular lg rp_regular H = Ok (mkHier (h_coarser H ++ [L1]) L' (new_factory check)) /\
    l_mesh L1 = l_mesh (h_finest H) /\ stepped L1 L'.
Proof.
  intros lg H check m0 G HC HL. destruct (gh_meshes _ _ _ G _ (finest_in H)) as (W & SS & C').
  destruct (uniform_flags rp_regular (h_finest H) W (gh_finest _ _ _ G) (or_introl eq_refl)) as (Lf & F1 & F2 & F3 & F4 & F5 & F6 & F7 & F8 & F9).
  unfold RefineRegular. rewrite F1. cbn [bind]. rewrite (gh_factory _ _ _ G).
  destruct (step lg Lf check) as (L1 & L' & P & (K & _) & _ & _ & AE & AC & _); try rewrite F3; auto.
  { rewrite F4. destruct (gh_finest _ _ _ G) as (_ & _ & _ & _ & X). exact X. }
  rewrite P. cbn [bind push]. exists L1, L'. split; [reflexivity|].
  destruct K as (K1 & K2 & K3 & K4 & _). split; [congruence|]. constructor; auto.
  - intros ci Hi. apply In_nth_error in Hi as (i & Hi). destruct (pats_kept _ _ _ _ _ K4 i ci Hi) as (cj & Hj & E). injection E as E _. rewrite E. eauto.
  - intros e f Hf. rewrite (AE e f Hf). congruence.
Qed.
Lemma push_stepped : forall H L1 L' check, all_stepped (levels H) -> l_mesh L1 = l_mesh (h_finest H) -> stepped L1 L' ->
  all_stepped (levels (mkHier (h_coarser H ++ [L1]) L' (new_factory check))).
Proof.
  intros H L1 L' check A HM ST i L L2. unfold levels. cbn [h_coarser h_finest]. rewrite <- app_assoc. cbn [app]. intros E1 E2.
  set (n := length (h_coarser H)) in *. destruct (Nat.lt_ge_cases i n) as [Hi|Hi].
  - rewrite nth_error_app1 in E1 by auto. assert (E1' : nth_error (levels H) i = Some L) by (unfold levels; rewrite nth_error_app1; auto).
    destruct (Nat.lt_ge_cases (S i) n) as [Hj|Hj].
    + rewrite nth_error_app1 in E2 by auto. apply (A i); auto. unfold levels. rewrite nth_error_app1; auto.
    + rewrite nth_error_app2 in E2 by auto. fold n in E2. replace (S i - n) with 0 in E2 by lia. cbn in E2. injection E2 as <-.
      assert (E2' : nth_error (levels H) (S i) = Some (h_finest H)) by (unfold levels; rewrite nth_error_app2 by auto; fold n; replace (S i - n) with 0 by lia; reflexivity).
      destruct (A i L (h_finest H) E1' E2') as [X Y Z]. constructor; auto; intros; rewrite HM; eauto.
  - rewrite nth_error_app2 in E1, E2 by lia. fold n in E1, E2. destruct (i - n) as [|[|k]] eqn:D.
    + replace (S i - n) with 1 in E2 by lia. cbn in E1, E2. injection E1 as <-. injection E2 as <-. exact ST.
    + replace (S i - n) with 2 in E2 by lia. discriminate.
    + cbn in E1. destruct k; discriminate.
Qed.
Lemma uniformly_stepped : forall lgs H check m0 H', good_hier check m0 H -> (check = true -> complete_mesh m0) -> Forall (fun lg => forall i, lg i < 3) lgs ->
  all_stepped (levels H) -> run_hops (uniformly lgs) H = Ok H' -> all_stepped (levels H').
Proof.
  induction lgs as [|lg lgs IH]; intros H check m0 H' G HC F A E.
  - cbn in E. injection E as <-. exact A.
  - inversion F as [|? ? F1 F2]; subst. cbn [uniformly map run_hops apply_hop] in E.
    destruct (regular_step lg H check m0 G HC F1) as (L1 & L' & E1 & HM & ST).
    destruct (hop_good (Regular lg rp_regular) check m0 H G HC) as (H1 & E2 & G1 & _); [cbn; auto|]. cbn [apply_hop] in E2.
    rewrite E2 in E. cbn [bind] in E. rewrite E1 in E2. injection E2 as <-.
    apply (IH _ check m0 H' G1 HC F2 (push_stepped H L1 L' check A HM ST) E).
Qed.
(** The properties of the meshes of all levels. *)
Lemma levels_mesh : forall H, good_levels (levels H) -> all_stepped (levels H) -> forall L0, nth_error (levels H) 0 = Some L0 ->
  tri_mesh (l_mesh L0) -> manifold (l_mesh L0) -> all_reached (l_mesh L0) ->
  forall l L, nth_error (levels H) l = Some L -> tri_mesh (l_mesh L) /\ manifold (l_mesh L) /\ all_reached (l_mesh L).
Proof.
  intros H GL A L0 E0 T M R. induction l as [|l IH]; intros L' E'.
  - rewrite E0 in E'. injection E' as <-. auto.
  - destruct (nth_error (levels H) l) as [L|] eqn:E.
    2: { apply nth_error_None in E. assert (S l < length (levels H)) by (apply nth_error_Some; congruence). lia. }
    destruct (IH L eq_refl) as (T1 & M1 & R1). destruct (nth_in H GL _ _ E) as [W S0]. destruct (nth_in H GL _ _ E') as [W' S'].
    destruct (gl_step _ GL _ _ _ E E') as [RF LK]. destruct (A l L L' E E') as [P AE AC].
    split; [exact (fine_tri L L' RF LK T1 P)|]. split; [exact (fine_manifold L L' LK AE AC M1)|exact (fine_reached L L' W W' S' RF LK T1 P AE R1)].
Qed.

(** ** Geometries *)
Lemma from_kind : forall g k pts c, child_from g k pts = Ok c -> go_kind c = k.
Proof. intros g k pts c H. unfold child_from in H. apply bind_ok in H as (ps & _ & H). unfold new_geo in H. apply bind_ok in H as ([] & _ & H). apply bind_ok in H as ([] & _ & H). injection H as <-. reflexivity. Qed.
Lemma child_order : forall g lc codim poly c, is_o2 (go_kind g) = false -> child g lc codim poly = Ok c -> is_o2 (go_kind c) = false.
Proof.
  intros g lc codim poly c O H. unfold child in H. apply bind_ok in H as ([] & _ & H).
  assert (F : forall k pts, is_o2 k = false -> child_from g k pts = Ok c -> is_o2 (go_kind c) = false) by (intros k pts E1 E2; rewrite (from_kind _ _ _ _ E2); exact E1).
  destruct (go_kind g) eqn:K; try discriminate; cbn [kind_el is_o2] in H; try discriminate;
    repeat match type of H with
    | bind (verify ?b) _ = _ => apply bind_ok in H as ([] & _ & H)
    | bind (isParallelogram ?b) _ = _ => apply bind_ok in H as (? & _ & H)
    | match ?x with _ => _ end = _ => destruct x; try discriminate
    | child_from _ _ _ = _ => revert H; apply F; reflexivity
    end.
Qed.
Lemma children_order : forall g P codim gs c, is_o2 (go_kind g) = false -> ChildGeometry g P codim = Ok gs -> In c gs -> is_o2 (go_kind c) = false.
Proof.
  intros g P codim gs c O H I. unfold ChildGeometry in H. apply bind_ok in H as ([] & _ & H).
  assert (MM : forall polys, mapM (child g (p_lc P) codim) polys = Ok gs -> is_o2 (go_kind c) = false).
  { intros polys E. apply GeoProofs5.mapM_ok in E. clear H. induction E as [|a b l l' E1 E2 IH]; [destruct I|].
    destruct I as [<-|I]; [exact (child_order _ _ _ _ _ O E1)|exact (IH I)]. }
  destruct (go_kind g) eqn:K; try discriminate O.
  1: { apply bind_ok in H as ([] & _ & H). apply bind_ok in H as (n & _ & H). apply bind_ok in H as ([] & _ & H). apply bind_ok in H as (x & E & H). injection H as <-.
       destruct I as [<-|[]]. unfold new_geo in E. apply bind_ok in E as ([] & _ & E). apply bind_ok in E as ([] & _ & E). injection E as <-. reflexivity. }
  all: apply bind_ok in H as ([] & _ & H); apply bind_ok in H as (polys & _ & H); apply bind_ok in H as (n & _ & H); apply bind_ok in H as ([] & _ & H); exact (MM _ H).
Qed.
Lemma fine_order : forall L L' geom e c, wf_mesh (l_mesh L) -> wf_mesh (l_mesh L') -> refined_to L (l_mesh L') -> RefineSpec.linked L L' ->
  valid (l_mesh L') e -> (forall p, valid (l_mesh L) p -> is_o2 (go_kind (geom p)) = false) -> fine_geometry L L' geom e = Ok c -> is_o2 (go_kind c) = false.
Proof.
  intros L L' geom e c W W' RF LK V O HF. destruct (TransferProofs2.step_geometry L L' W W' RF LK e V) as (p & w & k & Vp & Hc & HP & _). specialize (O p Vp).
  unfold fine_geometry in HF. rewrite (get_ok _ _ _ _ HP) in HF. cbn [bind pa_num pa_ptr] in HF. rewrite ent_of_self in HF.
  assert (R : forall P codim, (do gs <- ChildGeometry (geom p) P codim; get gs k) = Ok c -> is_o2 (go_kind c) = false).
  { intros P codim E. apply bind_ok in E as (gs & E1 & E2). apply get_inv in E2. apply nth_error_In in E2. exact (children_order _ _ _ _ _ O E1 E2). }
  destruct p as [i|i|i]; cbn [child_geometry] in HF.
  - apply bind_ok in HF as (P & _ & HF). eauto.
  - apply bind_ok in HF as (ci & _ & HF). apply bind_ok in HF as (P & _ & HF). eauto.
  - apply bind_ok in HF as (ci & _ & HF). apply bind_ok in HF as (cl & _ & HF). apply bind_ok in HF as (P & _ & HF). eauto.
Qed.
Lemma levels_order : forall H geom, good_levels (levels H) -> geometric (levels H) geom ->
  (forall L0 e, nth_error (levels H) 0 = Some L0 -> valid (l_mesh L0) e -> is_o2 (go_kind (geom 0 e)) = false) ->
  forall l L e, nth_error (levels H) l = Some L -> valid (l_mesh L) e -> is_o2 (go_kind (geom l e)) = false.
Proof.
  intros H geom GL GE O0. induction l as [|l IH]; intros L' e E' V; [eauto|].
  destruct (nth_error (levels H) l) as [L|] eqn:E.
  2: { apply nth_error_None in E. assert (S l < length (levels H)) by (apply nth_error_Some; congruence). lia. }
  destruct (nth_in H GL _ _ E) as [W S0]. destruct (nth_in H GL _ _ E') as [W' S']. destruct (gl_step _ GL _ _ _ E E') as [RF LK].
  apply (fine_order L L' (geom l) e _ W W' RF LK V); [|exact (ge_fine _ _ GE _ _ _ _ E E' V)]. intros p Vp. exact (IH L p eq_refl Vp).
Qed.

Local Open Scope R_scope.
Lemma global_inv : forall g x v, Global g x = Ok v -> v = global_at g (nth 0 x 0) (nth 1 x 0).
Proof. intros g x v H. unfold Global, with_local in H. repeat (apply bind_ok in H as ([] & _ & H)). congruence. Qed.
Lemma tria_kind : forall k, is_o2 k = false -> kind_el k = kTria -> k = GTriaO1.
Proof. intros []; cbn; congruence. Qed.
Lemma segment_kind : forall k, is_o2 k = false -> kind_el k = kSegment -> k = GSegmentO1.
Proof. intros []; cbn; congruence. Qed.
Lemma straight_triangulation : forall m geom, wf_mesh m -> tri_mesh m -> watertight m 2 geom -> (forall e, valid m e -> fits (ent_type m e) (geom e) /\ is_o2 (go_kind (geom e)) = false) ->
  triangulation m geom (at_node geom).
Proof.
  intros m geom W T WT F. constructor; auto.
  - intros c v H. assert (V : valid m (DofModel.ECell c)) by (cbn; apply nth_error_Some; congruence).
    assert (Tc : cv_type v = kTria).
    { pose proof (T v (nth_error_In _ _ H)) as Q. unfold cv_type, cell_type. rewrite Q. reflexivity. }
    destruct (F _ V) as [(F1 & F2 & F3) F4]. cbn [ent_type] in F3. unfold DofModel.cell_at in F3. rewrite (nth_error_nth _ _ _ H), Tc in F3.
    pose proof (tria_kind _ F4 F3) as K. split; auto. split; auto. split; [exact (wt_dim _ _ _ WT _ V)|]. split; auto.
    intros i q Hi. destruct (wt_corner _ _ _ WT c v i q H Hi) as (_ & a & b & A & B & E). rewrite (wt_dim _ _ _ WT _ V) in E. rewrite Tc in A.
    apply global_inv in A. apply global_inv in B. cbn [nth] in B.
    intros k Hk. specialize (E k Hk). subst a b. unfold at_node. rewrite <- E. unfold polygon.
    assert (Hi3 : (i < 3)%nat) by (rewrite <- (T v (nth_error_In _ _ H)); apply nth_error_Some; congruence).
    unfold global_at. rewrite K. unfold col. destruct i as [|[|[|]]]; [| | |lia]; cbn [ref_node ref_nodes nth]; ring.
  - intros e a b H. assert (V : valid m (EEdge e)) by (cbn; apply nth_error_Some; congruence).
    destruct (F _ V) as [(F1 & F2 & F3) F4]. pose proof (segment_kind _ F4 F3) as K. split; auto. split; [exact (wt_dim _ _ _ WT _ V)|].
    destruct (wt_ends _ _ _ WT e a b H) as [(_ & x & y & A & B & E) (_ & x' & y' & A' & B' & E')]. rewrite (wt_dim _ _ _ WT _ V) in E, E'.
    apply global_inv in A. apply global_inv in B. apply global_inv in A'. apply global_inv in B'. cbn [nth] in A, A', B, B'.
    split; intros k Hk.
    + specialize (E k Hk). subst x y. unfold at_node. rewrite <- E. unfold global_at. rewrite K. unfold col. ring.
    + specialize (E' k Hk). subst x' y'. unfold at_node. rewrite <- E'. unfold global_at. rewrite K. unfold col. ring.
Qed.
