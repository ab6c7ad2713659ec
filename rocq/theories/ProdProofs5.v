(** C91: the factory of product spaces. *)
From Coq Require Import Reals List Arith Lia Lra Bool.
Import ListNotations.
From Verif Require Import Base Scalars MeshModel MeshView DofModel DofSpec DofProofs3 DofProofs4 RefPatModel GeoModel GeoSpec FeModel LagrModel FeSpec HierSpec FeProofs LagrProofs LagrProofs2 LagrProofs3
  AssembleModel FeToolsModel FeToolsSpec FeToolsProofs FeToolsProofs2 ElemProofs ElemProofs2 DpgModel DpgSpec DpgProofs ProdModel ProdSpec ProdProofs ProdProofs2 ProdProofs3 ProdProofs4.
Local Open Scope nat_scope.

Definition addable (k : component) : Prop := match k with Trace 0 => True | _ => offered k end.
Definition pushed (fa : factory) (ks : list component) : factory :=
  mkFactory (fa_mesh fa) (fa_tria fa ++ map (fun k => functions k kTria) ks) (fa_quad fa ++ map (fun k => functions k kQuad) ks)
    (fa_edge fa ++ map (fun k => functions k kSegment) ks) (fa_point fa ++ map (fun k => functions k kPoint) ks) (fa_num fa + length ks).

Lemma add_ok : forall fa k, addable k -> add fa k = Ok (fa_num fa, pushed fa [k]).
Proof.
  intros fa k H. destruct k as [d|d|d|d]; cbn in H; (destruct d as [|[|[|[|d]]]]; [| | | |exfalso; try lia]); try lia; try reflexivity.
Qed.
Lemma add_fails : forall fa k, ~ addable k -> add fa k = Assert.
Proof.
  intros fa k H. destruct k as [d|d|d|d]; cbn in H; (destruct d as [|[|[|[|d]]]]; try (exfalso; apply H; lia); try (exfalso; exact (H I))); try reflexivity.
Qed.
Lemma pushed_app : forall fa a b, pushed (pushed fa a) b = pushed fa (a ++ b).
Proof.
  intros fa a b. unfold pushed. cbn [fa_mesh fa_tria fa_quad fa_edge fa_point fa_num]. rewrite !map_app, !app_assoc, app_length, Nat.add_assoc. reflexivity.
Qed.
Lemma pushed_nil : forall fa, pushed fa [] = fa.
Proof. intros [m a b c d n]. unfold pushed. cbn. rewrite !app_nil_r, Nat.add_0_r. reflexivity. Qed.
Lemma add_all_ok : forall ks fa, Forall addable ks -> add_all fa ks = Ok (seq (fa_num fa) (length ks), pushed fa ks).
Proof.
  induction ks as [|k ks IH]; intros fa F; cbn [add_all length seq]; [rewrite pushed_nil; reflexivity|].
  inversion F as [|? ? A B]; subst. rewrite (add_ok fa k A). cbn [bind snd fst]. rewrite (IH _ B). cbn [bind snd fst fa_num pushed].
  rewrite Nat.add_1_r. change (pushed (pushed fa [k]) ks) with (pushed (pushed fa [k]) ks).
  match goal with |- Ok (_, ?x) = _ => replace x with (pushed fa (k :: ks)) by (symmetry; exact (pushed_app fa [k] ks)) end. reflexivity.
Qed.
Lemma addable_dec : forall k, addable k \/ ~ addable k.
Proof.
  intros [d|d|d|d]; cbn; try lia. destruct d; [auto|]. cbn. lia.
Qed.
Lemma add_all_fails : forall ks fa, ~ Forall addable ks -> add_all fa ks = Assert.
Proof.
  induction ks as [|k ks IH]; intros fa F; [destruct F; constructor|]. cbn [add_all].
  destruct (addable_dec k) as [A|A]; [|rewrite (add_fails fa k A); reflexivity].
  rewrite (add_ok fa k A). cbn [bind]. rewrite IH; [reflexivity|]. intros B. apply F. constructor; assumption.
Qed.
Lemma own_of4 : forall k t, own_functions k t = of4 (own_functions k kPoint, own_functions k kSegment, own_functions k kTria, own_functions k kQuad) t.
Proof. intros k []; reflexivity. Qed.
Definition own4 (k : component) := (own_functions k kPoint, own_functions k kSegment, own_functions k kTria, own_functions k kQuad).
Lemma functions_component : forall k, offered k -> ps_component (functions k kTria) (functions k kQuad) (functions k kSegment) = Ok (own4 k).
Proof.
  intros k H. destruct k as [d|d|d|d]; cbn in H; (destruct d as [|[|[|[|d]]]]; try lia; reflexivity).
Qed.
Lemma trace0_component : ps_component (functions (Trace 0) kTria) (functions (Trace 0) kQuad) (functions (Trace 0) kSegment) = Assert.
Proof. reflexivity. Qed.

Lemma element_in_map : forall ks c k t, nth_error ks c = Some k ->
  element_in (map (fun k => functions k kTria) ks) (map (fun k => functions k kQuad) ks) (map (fun k => functions k kSegment) ks) (map (fun k => functions k kPoint) ks) c t = functions k t.
Proof.
  intros ks c k t H. unfold element_in.
  assert (X : forall t, nth c (map (fun k => functions k t) ks) None = functions k t).
  { intros t'. apply nth_error_nth. rewrite nth_error_map, H. reflexivity. }
  destruct t; apply X.
Qed.
Definition factory_space (m : mesh) (ks : list component) : res product_space :=
  ProductUniformFESpace m (map (fun k => functions k kTria) ks) (map (fun k => functions k kQuad) ks) (map (fun k => functions k kSegment) ks) (map (fun k => functions k kPoint) ks).
Lemma build_fresh : forall m ks n, Build (pushed (mkFactory m [] [] [] [] n) ks) = do s <- factory_space m ks; Ok (s, mkFactory m [] [] [] [] (n + length ks)).
Proof. reflexivity. Qed.
Lemma own_agree : forall k, offered k -> agree (functions k) (own_functions k).
Proof.
  intros k H. pose proof (functions_component k H) as P. apply component_sound in P. destruct P as (A & _).
  intros t f N Hf. specialize (A t f N). assert (X : of4 (own4 k) = of4 (own4 k)) by reflexivity.
  assert (Y : three (functions k kTria) (functions k kQuad) (functions k kSegment) t = functions k t) by (destruct t; [congruence|reflexivity|reflexivity|reflexivity]).
  rewrite Y in A. specialize (A Hf). destruct t; exact A.
Qed.
Theorem factory_space_ok : forall m ks, wf_mesh m -> ks <> [] -> Forall offered ks -> exists s, factory_space m ks = Ok s /\
  has_components m (length ks) (fun c => functions (nth c ks (L2 0))) (fun c => own_functions (nth c ks (L2 0))) s.
Proof.
  intros m ks W NE F.
  assert (At : forall c, c < length ks -> exists k, nth_error ks c = Some k /\ nth c ks (L2 0) = k /\ offered k).
  { intros c Hc. destruct (nth_error ks c) as [k|] eqn:E; [|apply nth_error_None in E; lia]. exists k. split; [reflexivity|]. split; [apply nth_error_nth; exact E|].
    rewrite Forall_forall in F. apply F. eapply nth_error_In. exact E. }
  destruct (proj2 (space_accepts m (map (fun k => functions k kTria) ks) (map (fun k => functions k kQuad) ks) (map (fun k => functions k kSegment) ks) (map (fun k => functions k kPoint) ks) W)) as [s Hs].
  { rewrite !map_length. split; [destruct ks; [congruence|discriminate]|]. split; [reflexivity|]. split; [reflexivity|]. split; [reflexivity|].
    intros c Hc. destruct (At c Hc) as (k & E & _ & O). exists (own_functions k). intros t f N Hf. rewrite (element_in_map ks c k t E) in Hf. exact (own_agree k O t f N Hf). }
  exists s. split; [exact Hs|]. destruct (space_parts _ _ _ _ _ _ W Hs) as (nums & LN & Nn & K & _). rewrite !map_length in *.
  assert (NK : forall c, c < length ks -> forall t, of4 (nth c nums (0, 0, 0, 0)) t = own_functions (nth c ks (L2 0)) t).
  { intros c Hc t. specialize (Nn c Hc). destruct (At c Hc) as (k & E & -> & O). unfold nums_at in Nn. rewrite !(element_in_map ks c k _ E), (functions_component k O) in Nn. injection Nn as <-. symmetry. apply own_of4. }
  destruct K as [K1 K2 K3 K4 K5 K6]. split; [exact K1|exact K2| | |exact K5|].
  - intros c t Hc. rewrite (K3 c t Hc). destruct (At c Hc) as (k & E & -> & O). rewrite (element_in_map ks c k t E). reflexivity.
  - intros c t Hc. rewrite (K4 c t Hc), (NK c Hc). reflexivity.
  - destruct K6 as (ds & L & S & D). exists ds. split; [exact L|]. split; [exact S|]. intros c Hc. destruct (D c Hc) as (d & E & P). exists d. split; [exact E|].
    pose proof (NK c Hc) as Q. destruct P as [P1 P2 P3 P4 P5]. split; [|exact P2| | |].
    + eapply partitions_ext; [|exact P1]. intros e. cbv beta. apply Q.
    + rewrite P3, !Q. reflexivity.
    + intros i V. rewrite (P4 i V), !Q. reflexivity.
    + intros i V. cbv zeta. rewrite (P5 i V), !Q. reflexivity.
Qed.
Lemma offered_addable : forall ks, Forall offered ks -> Forall addable ks.
Proof. intros ks F. eapply Forall_impl; [|exact F]. intros [d|d|d|d] H; cbn in *; auto. destruct d; [lia|]. exact H. Qed.
Theorem factory_ok : forall m ks, wf_mesh m -> ks <> [] -> Forall offered ks -> exists fa s fa',
  add_all (ProductUniformFESpaceFactory m) ks = Ok (seq 0 (length ks), fa) /\ Build fa = Ok (s, fa') /\
  has_components m (length ks) (fun c => functions (nth c ks (L2 0))) (fun c => own_functions (nth c ks (L2 0))) s.
Proof.
  intros m ks W NE F. destruct (factory_space_ok m ks W NE F) as (s & Hs & K).
  eexists. exists s. eexists. split; [apply add_all_ok; apply offered_addable; exact F|]. split; [|exact K].
  unfold ProductUniformFESpaceFactory. rewrite build_fresh, Hs. reflexivity.
Qed.
Theorem factory_rejects : forall m ks, ks = [] \/ ~ Forall offered ks ->
  (do r <- add_all (ProductUniformFESpaceFactory m) ks; Build (snd r)) = Assert.
Proof.
  intros m ks H. assert (AD : Forall addable ks \/ ~ Forall addable ks).
  { clear. induction ks as [|k ks [IH|IH]]; [left; constructor| |right; intros F; inversion F; auto].
    destruct (addable_dec k); [left; constructor; assumption|right; intros F; inversion F; auto]. }
  destruct AD as [A|A]; [|rewrite add_all_fails by exact A; reflexivity].
  rewrite (add_all_ok ks _ A). cbn [bind snd]. unfold ProductUniformFESpaceFactory. rewrite build_fresh. unfold factory_space, ProductUniformFESpace.
  destruct H as [-> | H]; [reflexivity|].
  assert (NE : ks <> []) by (intros ->; apply H; constructor). rewrite !map_length, Nat.eqb_refl.
  replace (negb (length ks =? 0)) with true by (destruct ks; [congruence|reflexivity]). cbn [andb lf_assert bind].
  replace (length ks) with (length (map (fun k => functions k kTria) ks)) by apply map_length.
  rewrite (nums_loop _ _ _ (map (fun k => functions k kPoint) ks)) by (rewrite !map_length; reflexivity). rewrite map_length.
  match goal with |- (do s <- (do nums <- traverse ?f ?l; _); _) = _ => assert (X : traverse f l = Assert) end; [|rewrite X; reflexivity].
  assert (Q : forall l, (forall c, In c l -> c < length ks) -> (exists c, In c l /\ nth_error ks c = Some (Trace 0)) ->
    traverse (nums_at (map (fun k => functions k kTria) ks) (map (fun k => functions k kQuad) ks) (map (fun k => functions k kSegment) ks) (map (fun k => functions k kPoint) ks)) l = Assert).
  { induction l as [|c l IH]; intros B (c0 & I & E0); [destruct I|]. cbn [traverse].
    assert (Hc := B c (or_introl eq_refl)). destruct (nth_error ks c) as [k|] eqn:E; [|apply nth_error_None in E; lia].
    unfold nums_at at 1. rewrite !(element_in_map ks c k _ E).
    assert (Ak : addable k). { rewrite Forall_forall in A. apply A. eapply nth_error_In. exact E. }
    assert (D : k = Trace 0 \/ offered k) by (destruct k as [d|d|d|d]; auto; destruct d; auto).
    destruct D as [-> | O]; [rewrite trace0_component; reflexivity|]. rewrite (functions_component k O). cbn [bind].
    rewrite IH; [reflexivity|intros; apply B; right; assumption|]. destruct I as [<-|I]; [|exists c0; auto].
    rewrite E in E0. injection E0 as ->. destruct O; lia. }
  apply Q; [intros c I; apply in_seq in I; lia|].
  assert (T0 : In (Trace 0) ks).
  { clear -A H. induction ks as [|k ks IH]; [destruct H; constructor|]. inversion A as [|? ? Ak As]; subst.
    assert (D : k = Trace 0 \/ offered k) by (destruct k as [d|d|d|d]; auto; destruct d; auto).
    destruct D as [-> | O]; [left; reflexivity|]. right. apply IH; [|exact As]. intros F. apply H. constructor; assumption. }
  apply In_nth_error in T0. destruct T0 as [c E]. exists c. split; [|exact E]. apply in_seq. assert (c < length ks) by (apply nth_error_Some; congruence). lia.
Qed.

(** * Component spaces of the factory *)
Theorem factory_components : forall m ks s c k, wf_mesh m -> Forall offered ks -> factory_space m ks = Ok s -> nth_error ks c = Some k ->
  (~ is_flux k -> exists V, ComponentFESpace s c = Ok V /\ sp_mesh V = m /\ p_ComponentDofHandler (ps_dofs s) c = Ok (sp_dofs V) /\
     provides m (own_functions k) (sp_dofs V) /\ forall e, sp_layout V e = functions k (ent_type m e)) /\
  (is_flux k -> ComponentFESpace s c = Throw).
Proof.
  intros m ks s c k W F Hs E.
  assert (O : offered k) by (rewrite Forall_forall in F; apply F; eapply nth_error_In; exact E).
  assert (Hc : c < length ks) by (apply nth_error_Some; congruence).
  assert (NE : ks <> []) by (intros ->; destruct c; discriminate).
  destruct (factory_space_ok m ks W NE F) as (s' & Hs' & K). rewrite Hs in Hs'. injection Hs' as <-.
  split.
  - intros NF. unfold factory_space in Hs. destruct (component_space _ _ _ _ _ _ c W Hs) as (S & C). rewrite map_length in *.
    assert (NS : forall t, t = kTria \/ t = kQuad -> functions k t <> None) by (intros t [-> | ->]; destruct k; try discriminate; destruct (NF I)).
    destruct (proj2 C) as [V HV].
    { split; [exact Hc|]. split; [|split].
      - exists (own_functions k kPoint). split; [rewrite (hc_number _ _ _ _ _ K c kPoint Hc), (nth_error_nth _ _ (L2 0) E); reflexivity|]. destruct k; cbn; lia.
      - left. rewrite (element_in_map ks c k _ E). apply NS. auto.
      - intros t Ht _. rewrite (element_in_map ks c k _ E). apply NS. exact Ht. }
    exists V. destruct (S V HV) as (_ & Em & Ed & El). split; [exact HV|]. split; [exact Em|]. split; [exact Ed|]. split.
    + destruct (hc_dofs _ _ _ _ _ K) as (ds & _ & St & Pv). destruct (Pv c Hc) as (d & Nd & P). rewrite (nth_error_nth _ _ (L2 0) E) in P.
      destruct (sk_component_handler _ _ _ St c d Nd) as (Ed' & _). rewrite Ed in Ed'. injection Ed' as ->. exact P.
    + intros e. rewrite (El e). apply element_in_map. exact E.
  - intros FL. destruct k as [d|d|d|d]; try destruct FL. unfold factory_space in Hs. destruct (space_parts _ _ _ _ _ _ W Hs) as (nums & _ & _ & _ & ST & SQ & SE & SP & _).
    unfold ComponentFESpace. rewrite ST, SQ, SE, SP.
    assert (X : forall t, elem_at (map (fun k => functions k t) ks) c = Ok (functions (Flux d) t)) by (intros t; apply elem_at_ok; rewrite nth_error_map, E; reflexivity).
    rewrite !X. reflexivity.
Qed.
(** * Used again *)
Theorem factory_reuse : forall m ks ks', wf_mesh m -> ks <> [] -> Forall offered ks -> Forall offered ks' -> exists fa s fa' fa'',
  add_all (ProductUniformFESpaceFactory m) ks = Ok (seq 0 (length ks), fa) /\ Build fa = Ok (s, fa') /\
  add_all fa' ks' = Ok (seq (length ks) (length ks'), fa'') /\
  (ks' <> [] -> exists s' f, Build fa'' = Ok (s', f) /\ NumComponents s' = length ks').
Proof.
  intros m ks ks' W NE F F'. destruct (factory_space_ok m ks W NE F) as (s & Hs & _).
  eexists. exists s. eexists. eexists. split; [apply add_all_ok; apply offered_addable; exact F|].
  split; [unfold ProductUniformFESpaceFactory; rewrite build_fresh, Hs; reflexivity|].
  split; [apply add_all_ok; apply offered_addable; exact F'|].
  intros NE'. destruct (factory_space_ok m ks' W NE' F') as (s' & Hs' & K'). exists s'. eexists. split; [rewrite build_fresh, Hs'; reflexivity|apply (hc_count _ _ _ _ _ K')].
Qed.
