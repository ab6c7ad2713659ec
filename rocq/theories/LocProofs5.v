(** C106: the functions of flux components; C105: builders. *)
From Coq Require Import Reals List Arith ZArith Bool Lia Lra.
Import ListNotations.
From Verif Require Import Base Scalars MeshModel MeshView DofModel DofSpec RefPatModel GeoModel GeoSpec FlagModel LagrModel FeModel QuadModel FeSpec QuadSpec
  AssembleModel AssembleSpec ElemModel ElemSpec DpgModel DpgSpec DpgProofs2 DpgProofs3 DpgProofs4 ProdModel ProdSpec ProdProofs8 NormalModel NormalSpec LocModel LocSpec LocProofs LocProofs2 LocProofs3 LocProofs4 PropMeshView PropDof.
Local Open Scope R_scope.

(** *** Dofs of flux components *)
Lemma nth_blocks : forall A (n : nat) (ls : list (list A)) i j l, Forall (fun x => length x = n) ls -> nth_error ls i = Some l -> (j < n)%nat ->
  nth_error (concat ls) (i * n + j) = nth_error l j.
Proof.
  intros A n ls. induction ls as [|x ls IH]; intros [|i] j l F H Hj; try discriminate; inversion F as [|? ? Lx F']; subst; cbn [concat].
  - injection H as <-. cbn [Nat.mul Nat.add]. apply nth_error_app1. exact Hj.
  - rewrite nth_error_app2 by (cbn [Nat.mul]; lia). replace (S i * length x + j - length x)%nat with (i * length x + j)%nat by (cbn [Nat.mul]; lia). apply IH; assumption.
Qed.
Lemma nth_error_rev : forall A (l : list A) j, (j < length l)%nat -> nth_error (rev l) j = nth_error l (length l - 1 - j).
Proof.
  intros A l j Hj. destruct l as [|a l0] eqn:E; [cbn in Hj; lia|]. rewrite <- E in *.
  rewrite !(nth_error_nth' _ a) by (rewrite ?rev_length; lia). f_equal. rewrite rev_nth by exact Hj. f_equal. lia.
Qed.
Lemma F2_nth : forall A B (P : A -> B -> Prop) l l' i a, Forall2 P l l' -> nth_error l i = Some a -> exists b, nth_error l' i = Some b /\ P a b.
Proof.
  intros A B P l l' i a F. revert i. induction F as [|x y l l' Hxy F IH]; intros [|i] H; try discriminate.
  - injection H as <-. exists y. split; [reflexivity|exact Hxy].
  - exact (IH i H).
Qed.
Lemma F2_len : forall A B (P : A -> B -> Prop) l l', Forall2 P l l' -> length l = length l'.
Proof. intros A B P l l' F. induction F; cbn; congruence. Qed.
Lemma nth_combine : forall A B (l : list A) (l' : list B) i a b, nth_error l i = Some a -> nth_error l' i = Some b -> nth_error (combine l l') i = Some (a, b).
Proof. intros A B l. induction l as [|x l IH]; intros [|y l'] [|i] a b H H'; try discriminate; cbn in *; [congruence|apply IH; assumption]. Qed.
Lemma combine_nth_inv : forall A B (l : list A) (l' : list B) i a b, nth_error (combine l l') i = Some (a, b) -> nth_error l i = Some a /\ nth_error l' i = Some b.
Proof. intros A B l. induction l as [|x l IH]; intros [|y l'] [|i] a b H; try discriminate; cbn in *; [injection H as -> ->; auto|apply IH; assumption]. Qed.

Lemma cell_edge : forall m c v i e, wf_mesh m -> nth_error (mv_cells m) c = Some v -> nth_error (cv_edges v) i = Some e -> valid m (EEdge e).
Proof.
  intros m c v i e W Hv He. pose proof (wm_cells _ W) as F. rewrite Forall_forall in F. pose proof (F v (nth_error_In _ _ Hv)) as Wc.
  assert (Hi : (i < length (cv_nodes v))%nat) by (rewrite <- (wc_edges _ _ Wc); apply nth_error_Some; congruence).
  destruct (wc_local _ _ Wc i Hi) as (e' & o & p0 & p1 & E1 & _ & E2 & _). rewrite He in E1. injection E1 as <-. cbn. apply nth_error_Some. congruence.
Qed.
Lemma flux_dofs : forall m k d c v l i e o, wf_mesh m -> provides m (own_functions (Flux k)) d -> nth_error (mv_cells m) c = Some v ->
  GlobalDofIndices d (ECell c) = Ok l -> nth_error (cv_edges v) i = Some e -> nth_error (cv_ori v) i = Some o ->
  exists y, own d (EEdge e) y /\ length y = (k + 1)%nat /\ NoDup y /\
    forall j, (j < k + 1)%nat -> nth_error l (i * (k + 1) + j) = nth_error y (if o then j else k - j)%nat.
Proof.
  intros m k d c v l i e o W Pv Hv Hl He Ho. destruct (pv_canonical _ _ _ Pv) as [_ _ CC _]. destruct (CC c v Hv) as (lv & le & l0 & F1 & F2 & Lle & _ & HG).
  rewrite Hl in HG. injection HG as ->.
  pose proof (wm_cells _ W) as WF. rewrite Forall_forall in WF. pose proof (WF v (nth_error_In _ _ Hv)) as Wc.
  destruct (pv_partition _ _ _ Pv) as [_ PO _ _].
  assert (NV : concat lv = []).
  { pose proof (wc_nodes _ _ Wc) as NN. clear - F1 NN PO. induction F1 as [|a x ns lv Hx F1 IH]; [reflexivity|]. inversion NN as [|? ? Na NN']; subst. cbn [concat].
    destruct (PO (ENode a) Na) as (y & Oy & Ly & _). unfold own in Hx, Oy. rewrite Hx in Oy. injection Oy as <-. cbn in Ly. destruct x; [|discriminate]. exact (IH NN'). }
  rewrite NV. cbn [app].
  assert (FL : Forall (fun x => length x = (k + 1)%nat) le).
  { apply Forall_forall. intros x Hx. apply In_nth_error in Hx. destruct Hx as [n Hn].
    assert (Hc : exists eo, nth_error (combine (cv_edges v) (cv_ori v)) n = Some eo).
    { destruct (nth_error (combine (cv_edges v) (cv_ori v)) n) as [eo|] eqn:E; [eauto|]. exfalso. apply nth_error_None in E. rewrite (F2_len _ _ _ _ _ F2) in E.
      assert (n < length le)%nat by (apply nth_error_Some; congruence). lia. }
    destruct Hc as [[e0 o0] Hc]. destruct (F2_nth _ _ _ _ _ _ _ F2 Hc) as (x' & Hx' & y & Oy & Ey). rewrite Hn in Hx'. injection Hx' as <-. cbn [fst snd] in *.
    destruct (combine_nth_inv _ _ _ _ _ _ _ Hc) as [He0 _]. destruct (PO (EEdge e0) (cell_edge _ _ _ _ _ W Hv He0)) as (y' & Oy' & Ly' & _).
    unfold own in Oy, Oy'. rewrite Oy in Oy'. injection Oy' as <-. cbn in Ly'. rewrite Ey. destruct (_ && _); rewrite ?rev_length; exact Ly'. }
  destruct (F2_nth _ _ _ _ _ _ _ F2 (nth_combine _ _ _ _ _ _ _ He Ho)) as (x & Hx & y & Oy & Ey). cbn [fst snd andb] in *.
  destruct (PO (EEdge e) (cell_edge _ _ _ _ _ W Hv He)) as (y' & Oy' & Ly' & ND & _). pose proof Oy as Oy2. unfold own in Oy2, Oy'. rewrite Oy2 in Oy'. injection Oy' as <-.
  cbn in Ly'. exists y. split; [exact Oy|]. split; [exact Ly'|]. split; [exact ND|]. intros j Hj.
  assert (Lx : length x = (k + 1)%nat) by (rewrite Forall_forall in FL; apply FL; eapply nth_error_In; exact Hx).
  assert (Hb : (i * (k + 1) + j < length (concat le))%nat).
  { apply nth_error_Some. rewrite (nth_blocks _ _ _ _ _ _ FL Hx Hj). apply nth_error_Some. lia. }
  rewrite nth_error_app1 by exact Hb. rewrite (nth_blocks _ _ _ _ _ _ FL Hx Hj), Ey. destruct o; cbn [negb]; [reflexivity|].
  rewrite nth_error_rev by lia. f_equal. lia.
Qed.
Lemma flux_handler : forall m ks s c k d, wf_mesh m -> ProdSpec.built m ks s -> nth_error ks c = Some (Flux k) -> p_ComponentDofHandler (ps_dofs s) c = Ok d ->
  provides m (own_functions (Flux k)) d /\ (k <= 3)%nat.
Proof.
  intros m ks s c k d W B E Hd. assert (Hc : (c < length ks)%nat) by (apply nth_error_Some; congruence).
  destruct (hc_dofs _ _ _ _ _ (built_ok _ _ _ W B)) as (ds & Lds & St & Pv). destruct (Pv c Hc) as (d' & Nd & P').
  destruct (sk_component_handler _ _ _ St c d' Nd) as (Hd' & _). rewrite Hd in Hd'. injection Hd' as <-.
  rewrite (nth_error_nth ks c (L2 0) E) in P'. split; [exact P'|].
  destruct (built_inv _ _ _ B) as (_ & F & _). rewrite Forall_forall in F. exact (F _ (nth_error_In _ _ E)).
Qed.
Theorem flux_single_valued : forall m ks s c k d f, wf_mesh m -> ProdSpec.built m ks s -> nth_error ks c = Some (Flux k) -> (k <= 1)%nat ->
  p_ComponentDofHandler (ps_dofs s) c = Ok d -> functions (Flux k) kSegment = Some f -> single_valued m d f.
Proof.
  intros m ks s c0 k d f W B E Hk Hd Hf. destruct (flux_handler _ _ _ _ _ _ W B E Hd) as [Pv _].
  assert (Tf : fe_total f = (k + 1)%nat) by (destruct k as [|[|?]]; try lia; injection Hf as <-; reflexivity).
  intros c c' v v' l l' i i' e o o' j j' x Hv Hv' Hl Hl' He Ho He' Ho' Hj Hj' Hx Hx' t. rewrite Tf in *.
  destruct (flux_dofs _ _ _ _ _ _ _ _ _ W Pv Hv Hl He Ho) as (y & Oy & Ly & ND & Ey). destruct (flux_dofs _ _ _ _ _ _ _ _ _ W Pv Hv' Hl' He' Ho') as (y' & Oy' & _ & _ & Ey').
  unfold own in Oy, Oy'. rewrite Oy in Oy'. injection Oy' as <-. rewrite Ey in Hx by exact Hj. rewrite Ey' in Hx' by exact Hj'.
  assert (Eq : (if o then j else k - j)%nat = (if o' then j' else k - j')%nat).
  { rewrite NoDup_nth_error in ND. apply ND; [rewrite Ly; destruct o; lia|congruence]. }
  destruct k as [|[|?]]; try lia; injection Hf as <-.
  - exists [1], [1]. split; [reflexivity|]. split; [reflexivity|]. assert (j = 0%nat) by lia. assert (j' = 0%nat) by lia. subst. reflexivity.
  - eexists. eexists. split; [reflexivity|]. split; [reflexivity|].
    assert (Cj : j = 0%nat \/ j = 1%nat) by lia. assert (Cj' : j' = 0%nat \/ j' = 1%nat) by lia.
    destruct o, o', Cj as [-> | ->], Cj' as [-> | ->]; cbn in Eq; try lia; cbn [along_cell]; cbn; lra.
Qed.
Theorem flux_single_valued_refuted : forall k, k = 2%nat \/ k = 3%nat -> exists m ks s c d f, wf_mesh m /\ ProdSpec.built m ks s /\ nth_error ks c = Some (Flux k) /\
  p_ComponentDofHandler (ps_dofs s) c = Ok d /\ functions (Flux k) kSegment = Some f /\ ~ single_valued m d f.
Proof.
  intros k Hk. assert (Of : [Flux k] <> [] /\ Forall offered [Flux k]) by (split; [discriminate|]; constructor; [cbn; lia|constructor]).
  destruct (proj2 (built_iff example_mesh [Flux k] example_wf) Of) as [s B].
  destruct (hc_dofs _ _ _ _ _ (built_ok _ _ _ example_wf B)) as (ds & Lds & St & PvC). destruct (PvC 0%nat ltac:(cbn; lia)) as (d & Nd & Pv). cbn [nth] in Pv.
  destruct (sk_component_handler _ _ _ St 0 d Nd) as (Hd & _).
  exists example_mesh, [Flux k], s, 0%nat, d, (discontinuous_element (polynomials k kSegment)).
  split; [exact example_wf|]. split; [exact B|]. split; [reflexivity|]. split; [exact Hd|]. split; [reflexivity|].
  intros SV. destruct (pv_canonical _ _ _ Pv) as [_ _ _ CN].
  destruct (CN (ECell 0) ltac:(cbn; lia)) as (l & Hl & _). destruct (CN (ECell 1) ltac:(cbn; lia)) as (l' & Hl' & _).
  assert (Hv : nth_error (mv_cells example_mesh) 0 = Some (mkCellv [0; 1; 2] [1; 3; 2] [true; true; true])%nat) by reflexivity.
  assert (Hv' : nth_error (mv_cells example_mesh) 1 = Some (mkCellv [2; 1; 4; 3] [3; 0; 5; 4] [false; false; true; true])%nat) by reflexivity.
  destruct (flux_dofs _ _ _ _ _ _ 1%nat 3%nat true example_wf Pv Hv Hl eq_refl eq_refl) as (y & Oy & Ly & ND & Ey).
  destruct (flux_dofs _ _ _ _ _ _ 0%nat 3%nat false example_wf Pv Hv' Hl' eq_refl eq_refl) as (y' & Oy' & _ & _ & Ey').
  unfold own in Oy, Oy'. rewrite Oy in Oy'. injection Oy' as <-.
  destruct (nth_error y 0) as [x|] eqn:Ex; [|apply nth_error_None in Ex; lia].
  specialize (Ey 0%nat ltac:(lia)). specialize (Ey' k ltac:(lia)). cbn [Nat.add] in *. rewrite Nat.sub_diag, Ex in Ey'. rewrite Ex in Ey.
  assert (Tf : fe_total (discontinuous_element (polynomials k kSegment)) = (k + 1)%nat) by (destruct Hk as [-> | ->]; reflexivity).
  destruct (SV 0 1 _ _ l l' 1 0 3 true false 0 k x Hv Hv' Hl Hl' eq_refl eq_refl eq_refl eq_refl)%nat with (t := 0) as (w & w' & E1 & E2 & E3); try (rewrite Tf; first [lia|exact Ey|exact Ey']).
  destruct Hk as [-> | ->]; cbn in E1, E2; injection E1 as <-; injection E2 as <-; cbn in E3; lra.
Qed.

(** *** Builders *)
Lemma placed_ok : forall make geom trial test tc vc t s, provider make geom trial test tc vc t = Ok s -> placed s tc vc.
Proof.
  intros make geom trial test tc vc t s H. unfold provider in H. cbv beta zeta in H.
  destruct t; apply bind_ok in H; destruct H as [P [_ H]]; injection H as <-; (split; [reflexivity|split; reflexivity]).
Qed.
Lemma add_terms_ok : forall make geom ts b b', add_terms make geom b ts = Ok b' -> bl_trial b' = bl_trial b /\ bl_test b' = bl_test b /\
  exists subs, bl_subs b' = bl_subs b ++ subs /\ Forall2 (provides_term make geom (bl_trial b) (bl_test b)) ts subs.
Proof.
  intros make geom ts. induction ts as [|[[tc vc] t] ts IH]; intros b b' H; cbn [add_terms] in H.
  - injection H as <-. split; [reflexivity|]. split; [reflexivity|]. exists []. rewrite app_nil_r. auto.
  - apply bind_ok in H. destruct H as [b1 [H1 H]]. unfold AddTerm in H1. apply bind_ok in H1. destruct H1 as [s [Hs H1]]. injection H1 as <-.
    destruct (IH _ _ H) as [E1 [E2 [subs [E3 F]]]]. cbn [bl_trial bl_test bl_subs] in *. split; [exact E1|]. split; [exact E2|]. exists (s :: subs).
    rewrite E3, <- app_assoc. split; [reflexivity|]. constructor; [|exact F]. split; [exact Hs|exact (placed_ok _ _ _ _ _ _ _ _ Hs)].
Qed.
Lemma add_loads_ok : forall make geom fs b b', add_loads make geom b fs = Ok b' -> vb_test b' = vb_test b /\
  exists subs, vb_subs b' = vb_subs b ++ subs /\ Forall2 (provides_load make geom (vb_test b)) fs subs.
Proof.
  intros make geom fs. induction fs as [|[vc f] fs IH]; intros b b' H; cbn [add_loads] in H.
  - injection H as <-. split; [reflexivity|]. exists []. rewrite app_nil_r. auto.
  - apply bind_ok in H. destruct H as [b1 [H1 H]]. unfold AddLoad in H1. apply bind_ok in H1. destruct H1 as [P [HP H1]]. injection H1 as <-.
    destruct (IH _ _ H) as [E1 [subs [E3 F]]]. cbn [vb_test vb_subs] in *. split; [exact E1|]. exists (mkSubVec Rring (fun _ => true) vc (LoadVec geom P f) :: subs).
    rewrite E3, <- app_assoc. split; [reflexivity|]. constructor; [|exact F]. unfold provides_load, AddLoad. cbn [NewVBuilder vb_test vb_subs]. rewrite HP. cbn [bind app].
    eexists. split; [reflexivity|]. split; [reflexivity|]. split; reflexivity.
Qed.
Lemma filter_true : forall A (f : A -> bool) l, Forall (fun a => f a = true) l -> filter f l = l.
Proof. intros A f l F. induction F as [|a l Ha F IH]; cbn; [reflexivity|]. rewrite Ha, IH. reflexivity. Qed.
Theorem builder_matrix : forall make geom trial test ts b, add_terms make geom (NewBuilder trial test) ts = Ok b ->
  exists ev subs, BuildMat b = (ev, NewBuilder trial test) /\ Forall2 (provides_term make geom trial test) ts subs /\
  forall m dmu dmv cell bs, wf_mesh m -> product m dmu = Ok (ps_dofs trial) -> product m dmv = Ok (ps_dofs test) -> valid m cell ->
    Forall2 (local_block Rring (ps_dofs trial) (ps_dofs test) cell) subs bs ->
    exists M, ev cell = Ok M /\ p_NumLocal (ps_dofs test) cell = Ok (d_rows Rring M) /\ p_NumLocal (ps_dofs trial) cell = Ok (d_cols Rring M) /\
      sum_of_blocks Rring (d_rows Rring M) (d_cols Rring M) (d_coef Rring M) bs.
Proof.
  intros make geom trial test ts b H. destruct (add_terms_ok _ _ _ _ _ H) as [E1 [E2 [subs [E3 F]]]]. cbn [NewBuilder bl_trial bl_test bl_subs app] in *.
  unfold BuildMat. rewrite E1, E2, E3. eexists. exists subs. split; [reflexivity|]. split; [exact F|]. intros m dmu dmv cell bs W P1 P2 V FB.
  apply (product_matrix_local Rring m dmu dmv _ _ subs cell bs W P1 P2 V). rewrite filter_true; [exact FB|].
  clear - F. induction F as [|[[tc vc] t] s ts subs H F IH]; constructor; [|exact IH]. apply H.
Qed.
Theorem builder_vector : forall make geom test fs b, add_loads make geom (NewVBuilder test) fs = Ok b ->
  exists ev subs, BuildVec b = (ev, NewVBuilder test) /\ Forall2 (provides_load make geom test) fs subs /\
  forall m dmv cell bs, wf_mesh m -> product m dmv = Ok (ps_dofs test) -> valid m cell ->
    Forall2 (local_segment Rring (ps_dofs test) cell) subs bs ->
    exists w, ev cell = Ok w /\ p_NumLocal (ps_dofs test) cell = Ok (length w) /\ sum_of_segments Rring (length w) (comp Rring w) bs.
Proof.
  intros make geom test fs b H. destruct (add_loads_ok _ _ _ _ _ H) as [E1 [subs [E3 F]]]. cbn [NewVBuilder vb_test vb_subs app] in *.
  unfold BuildVec. rewrite E1, E3. eexists. exists subs. split; [reflexivity|]. split; [exact F|]. intros m dmv cell bs W P V FB.
  apply (product_vector_local Rring m dmv _ subs cell bs W P V). rewrite filter_true; [exact FB|].
  clear - F. induction F as [|[vc f] s fs subs H F IH]; constructor; [|exact IH]. destruct H as [? [_ [_ [_ H]]]]. apply H.
Qed.
