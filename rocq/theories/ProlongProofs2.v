(** Proofs for C66: nodal projection onto a Lagrangian space interpolates continuous
    functions. *)
From Coq Require Import Reals List Arith Bool ZArith Lia Lra.
Import ListNotations.
From Verif Require Import Base Scalars MeshModel MeshView DofModel DofSpec DofProofs4 RefPatModel GeoModel GeoSpec FeModel LagrModel AssembleModel
  FeSpec FeProofs LagrProofs LagrProofs2 LagrProofs3 HierProofs FeToolsModel FeToolsSpec FeToolsProofs FeToolsProofs2 ProlongSpec ProlongProofs.
Local Open Scope R_scope.

(** Evaluation nodes in the interior. *)
Definition own_node (k : order) (t : refel) (r : nat) : list R :=
  nth (match t with kPoint => 0 | kSegment => 2 | _ => num_nodes t + num_nodes t * edge_num k end + r)%nat (fe_nodes (lagrange k t)) [].
Lemma node_at : forall k t j, (t = kTria \/ t = kQuad) -> (j < num_nodes t)%nat -> nth_error (fe_nodes (lagrange k t)) j = Some (ref_node t j).
Proof. intros k t j T K. destruct T as [-> | ->]; cbn [num_nodes] in K; destruct j as [|[|[|[|j]]]]; try lia; destruct k; reflexivity. Qed.
Definition param (k : order) (r : nat) : R := nth 0 (own_node k kSegment r) 0.
Lemma param_ok : forall k r, (r < edge_num k)%nat -> own_node k kSegment r = [param k r] /\ 0 <= param k r <= 1.
Proof.
  intros k r H. destruct k; cbn [edge_num] in H; [lia| |]; destruct r as [|[|r]]; try lia; (split; [reflexivity|]); unfold param; cbn; lra.
Qed.
Lemma edge_at : forall k t j r (o : bool), (t = kTria \/ t = kQuad) -> (j < num_nodes t)%nat -> (r < edge_num k)%nat ->
  nth_error (fe_nodes (lagrange k t)) (num_nodes t + j * edge_num k + (if o then r else edge_num k - 1 - r)) = Some (edge_point t j o (param k r)).
Proof.
  intros k t j r o T K H.
  destruct T as [-> | ->]; cbn [num_nodes] in K; destruct k; cbn [edge_num] in H; try lia; destruct r as [|[|r]]; try lia;
  destruct j as [|[|[|[|j]]]]; try lia; destruct o; cbn; apply f_equal; vec_eq.
Qed.
Lemma nodes_in : forall k t p, (t = kTria \/ t = kQuad) -> In p (fe_nodes (lagrange k t)) -> in_ref t p.
Proof.
  intros k t p T H. destruct T as [-> | ->]; destruct k; cbn in H; repeat (destruct H as [<-|H]; [cbn; lra|]); destruct H.
Qed.
Lemma nodes_count : forall k t, (t = kTria \/ t = kQuad) -> length (fe_nodes (lagrange k t)) = (num_nodes t + num_nodes t * edge_num k + cell_num k t)%nat.
Proof. intros k t [-> | ->]; destruct k; reflexivity. Qed.

Lemma nth_concat : forall A n (ls : list (list A)) j r, Forall (fun l => length l = n) ls -> (r < n)%nat ->
  nth_error (concat ls) (j * n + r) = match nth_error ls j with Some l => nth_error l r | None => None end.
Proof.
  intros A n ls j r F Hr. revert j. induction F as [|l ls Hl F IH]; intros j.
  - destruct j; apply nth_error_None; cbn; lia.
  - destruct j as [|j]; cbn [concat nth_error].
    + rewrite Nat.mul_0_l, Nat.add_0_l. apply nth_error_app1. lia.
    + rewrite nth_error_app2 by lia. rewrite <- IH. f_equal. lia.
Qed.
Lemma concat_length : forall A n (ls : list (list A)), Forall (fun l => length l = n) ls -> length (concat ls) = (length ls * n)%nat.
Proof. intros A n ls F. induction F; cbn [concat length]; [lia|]. rewrite app_length, IHF. lia. Qed.
Lemma nth_rev : forall A (l : list A) r, (r < length l)%nat -> nth_error (rev l) (length l - 1 - r) = nth_error l r.
Proof.
  intros A l r H. destruct l as [|d l']; [cbn in H; lia|]. remember (d :: l') as l.
  rewrite (nth_error_nth' (rev l) d) by (rewrite rev_length; lia). rewrite (nth_error_nth' l d H). f_equal. rewrite rev_nth by lia. f_equal. lia.
Qed.
Lemma list_of : forall (P : nat -> R -> Prop) n, (forall g, (g < n)%nat -> exists v, P g v) -> exists l, length l = n /\ forall g, (g < n)%nat -> P g (nth g l 0).
Proof.
  intros P n. induction n as [|n IH]; intros H; [exists []; split; [reflexivity|lia]|].
  destruct IH as (l & L & A); [intros; apply H; lia|]. destruct (H n ltac:(lia)) as (v & Hv). exists (l ++ [v]). rewrite app_length. cbn [length]. split; [lia|].
  intros g Hg. destruct (Nat.eq_dec g n) as [->|N]; [rewrite app_nth2, L, Nat.sub_diag by lia; exact Hv|rewrite app_nth1 by lia; apply A; lia].
Qed.

Section Interpolation.
Variables (k : order) (m : mesh) (V : fe_space) (u : meshfun).
Hypothesis W : wf_mesh m.
Hypothesis EV : lagrange_space k m = Ok V.
Hypothesis CU : continuous_function m u.
Let d := lagrange_dofs k m.
Let dm := [(kPoint, 1%nat); (kSegment, edge_num k); (kTria, cell_num k kTria); (kQuad, cell_num k kQuad)].

Lemma V_is : sp_mesh V = m /\ sp_dofs V = d /\ forall e, sp_layout V e = Some (lagrange k (ent_type m e)).
Proof. destruct (lagrange_space_ok k m) as (lo & E & Lo). rewrite EV in E. injection E as ->. cbn. auto. Qed.
Lemma Pd : partitions m (prescribed dm m) d. Proof. exact (uniform_partitions m dm true W). Qed.
Lemma Cd : canonical m true d. Proof. exact (uniform_canonical m dm true W). Qed.

Lemma coefficients_exist : exists coef, length coef = NumDofs d /\
  forall e l r g w, valid m e -> own d e l -> nth_error l r = Some g -> u e (own_node k (ent_type m e) r) = Ok w -> nth g coef 0 = w.
Proof.
  destruct (list_of (fun g v => forall e l r w, valid m e -> own d e l -> nth_error l r = Some g -> u e (own_node k (ent_type m e) r) = Ok w -> v = w) (NumDofs d)) as (coef & L & A).
  - intros g Hg. destruct (pa_entity _ _ _ Pd g Hg) as (e & Ee & Ve). destruct (pa_own _ _ _ Pd e Ve) as (l & O & _ & ND & _ & IN).
    assert (Ig : In g l) by (apply IN; auto). apply In_nth_error in Ig as (r & Hr).
    assert (UQ : forall e' l' r', valid m e' -> own d e' l' -> nth_error l' r' = Some g -> e' = e /\ r' = r).
    { intros e' l' r' Ve' O' Hr'. destruct (pa_own _ _ _ Pd e' Ve') as (l'' & O'' & _ & _ & _ & IN'). rewrite <- (own_fun _ _ _ _ O' O'') in IN'.
      assert (Entity d g = Ok e') as Q by (apply IN'; eapply nth_error_In; eauto). rewrite Ee in Q. injection Q as <-. split; [reflexivity|].
      rewrite (own_fun _ _ _ _ O' O) in Hr'. apply (proj1 (NoDup_nth_error l) ND); [apply nth_error_Some; congruence|congruence]. }
    destruct (u e (own_node k (ent_type m e) r)) as [v| |] eqn:Eu.
    + exists v. intros e' l' r' w Ve' O' Hr' Ew. destruct (UQ _ _ _ Ve' O' Hr') as [-> ->]. congruence.
    + exists 0. intros e' l' r' w Ve' O' Hr' Ew. destruct (UQ _ _ _ Ve' O' Hr') as [-> ->]. congruence.
    + exists 0. intros e' l' r' w Ve' O' Hr' Ew. destruct (UQ _ _ _ Ve' O' Hr') as [-> ->]. congruence.
  - exists coef. split; [exact L|]. intros e l r g w Ve O Hr Ew. destruct (pa_own _ _ _ Pd e Ve) as (l' & O' & _ & _ & _ & IN).
    rewrite <- (own_fun _ _ _ _ O O') in IN. assert (Hg : (g < NumDofs d)%nat) by (apply IN; eapply nth_error_In; eauto). exact (A g Hg e l r w Ve O Hr Ew).
Qed.

(** Dof number [q] of a cell and the value at its node. *)
Lemma dof_value : forall coef, length coef = NumDofs d ->
  (forall e l r g w, valid m e -> own d e l -> nth_error l r = Some g -> u e (own_node k (ent_type m e) r) = Ok w -> nth g coef 0 = w) ->
  forall i c q p, nth_error (mv_cells m) i = Some c -> nth_error (fe_nodes (lagrange k (cv_type c))) q = Some p ->
  exists l g, GlobalDofIndices d (ECell i) = Ok l /\ nth_error l q = Some g /\ u (ECell i) p = Ok (nth g coef 0).
Proof.
  intros coef Lc A i c q p Ec Hq. destruct (cell_wf m W i c Ec) as (Wc & Vn & Ve).
  assert (TT : (cv_type c = kTria \/ cv_type c = kQuad) /\ num_nodes (cv_type c) = length (cv_nodes c)).
  { unfold cv_type, cell_type. destruct (wc_shape _ _ Wc) as [-> | ->]; cbn; auto. }
  destruct TT as (T & NN). set (nn := num_nodes (cv_type c)) in *.
  assert (VC : valid m (ECell i)) by (cbn; apply nth_error_Some; congruence).
  assert (Tc : ent_type m (ECell i) = cv_type c) by (cbn; unfold DofModel.cell_at; rewrite (nth_error_nth _ _ _ Ec); reflexivity).
  destruct (ca_cell _ _ _ Cd i c Ec) as (lv & le & l & Fv & Fe & Le & Oc & G).
  assert (LV : Forall (fun x => length x = 1%nat) lv).
  { clear - Fv Vn W dm. induction Fv as [|v x ns lv O F IH]; constructor; [|apply IH; intros; apply Vn; right; auto].
    exact (own_length m _ d Pd (ENode v) x (Vn v (or_introl eq_refl)) O). }
  assert (LE : Forall (fun x => length x = edge_num k) le).
  { assert (Ve' : forall z, In z (combine (cv_edges c) (cv_ori c)) -> valid m (EEdge (fst z))).
    { intros [e o] I. apply in_combine_l in I. exact (Ve e I). }
    clear - Fe Ve' W dm. induction Fe as [|z x zs le (y & Oy & Ey) F IH]; constructor; [|apply IH; intros; apply Ve'; right; auto].
    transitivity (length y); [subst x; destruct (true && negb (snd z)); [apply rev_length|reflexivity]|].
    exact (own_length m _ d Pd (EEdge (fst z)) y (Ve' z (or_introl eq_refl)) Oy). }
  assert (CV : length (concat lv) = nn) by (rewrite (concat_length _ 1 _ LV), <- (Forall2_len _ _ _ Fv), NN; lia).
  assert (CE : length (concat le) = (nn * edge_num k)%nat) by (rewrite (concat_length _ _ _ LE), Le, (wc_edges _ _ Wc), NN; lia).
  assert (CL : length l = cell_num k (cv_type c)).
  { rewrite (own_length m _ d Pd _ _ VC Oc). unfold prescribed. rewrite Tc. destruct T as [-> | ->]; reflexivity. }
  assert (PI : in_ref (ent_type m (ECell i)) p) by (rewrite Tc; apply (nodes_in k _ _ T); eapply nth_error_In; eauto).
  destruct (ct_value _ _ CU _ _ VC PI) as (w & Ew).
  assert (Hq' : (q < nn + nn * edge_num k + cell_num k (cv_type c))%nat).
  { unfold nn. rewrite <- (nodes_count k _ T). apply nth_error_Some. congruence. }
  exists (concat lv ++ concat le ++ l).
  assert (GOAL : exists g, nth_error (concat lv ++ concat le ++ l) q = Some g /\ nth g coef 0 = w).
  2: { destruct GOAL as (g & G1 & G2). exists g. split; [exact G|]. split; [exact G1|]. rewrite G2. exact Ew. }
  destruct (Nat.lt_ge_cases q nn) as [Q1|Q1]; [|destruct (Nat.lt_ge_cases q (nn + nn * edge_num k)) as [Q2|Q2]].
  - rewrite nth_error_app1 by lia. rewrite (node_at k _ q T Q1) in Hq. injection Hq as <-.
    destruct (nth_error (cv_nodes c) q) as [n|] eqn:En; [|apply nth_error_None in En; lia].
    destruct (Forall2_nth _ _ _ Fv q n En) as (x & Ex & Ox).
    assert (VN : valid m (ENode n)) by (apply Vn; eapply nth_error_In; eauto).
    assert (Lx : length x = 1%nat) by exact (own_length m _ d Pd (ENode n) x VN Ox). destruct x as [|g [|]]; try discriminate Lx.
    exists g. split.
    + pose proof (nth_concat _ 1 lv q 0 LV ltac:(lia)) as NC. rewrite Nat.mul_1_r, Nat.add_0_r, Ex in NC. exact NC.
    + apply (A (ENode n) [g] 0%nat g w VN Ox eq_refl). rewrite <- Ew. symmetry.
      replace (own_node k (ent_type m (ENode n)) 0) with (@nil R) by (clear; destruct k; reflexivity). eapply (ct_node _ _ CU); eauto.
  - rewrite nth_error_app2 by lia. rewrite nth_error_app1 by lia. rewrite CV.
    set (en := edge_num k) in *. assert (EN : (0 < en)%nat) by (destruct en; lia).
    set (j := ((q - nn) / en)%nat). set (r' := ((q - nn) mod en)%nat).
    assert (DM : (q - nn = j * en + r')%nat) by (unfold j, r'; rewrite (Nat.div_mod (q - nn) en) at 1 by lia; lia).
    assert (R' : (r' < en)%nat) by (apply Nat.mod_upper_bound; lia).
    assert (J : (j < nn)%nat) by (apply Nat.div_lt_upper_bound; lia).
    destruct (nth_error (cv_edges c) j) as [e|] eqn:Ee; [|apply nth_error_None in Ee; rewrite (wc_edges _ _ Wc) in Ee; lia].
    destruct (nth_error (cv_ori c) j) as [o|] eqn:Eo; [|apply nth_error_None in Eo; rewrite (wc_oris _ _ Wc) in Eo; lia].
    assert (Ez : forall j, nth_error (cv_edges c) j = Some e -> nth_error (cv_ori c) j = Some o -> nth_error (combine (cv_edges c) (cv_ori c)) j = Some (e, o)).
    { clear. generalize (cv_ori c). induction (cv_edges c) as [|a es IH]; intros [|b os] [|j] E1 E2; try discriminate; cbn in *.
      - congruence.
      - eapply IH; eauto. }
    specialize (Ez j Ee Eo). destruct (Forall2_nth _ _ _ Fe j _ Ez) as (x & Ex & y & Oy & Exy). cbn [fst snd] in Oy, Exy.
    assert (VE : valid m (EEdge e)) by (apply Ve; eapply nth_error_In; eauto).
    assert (Ly : length y = en) by exact (own_length m _ d Pd (EEdge e) y VE Oy).
    set (r := if o then r' else (en - 1 - r')%nat). assert (R0 : (r < en)%nat) by (unfold r; destruct o; lia).
    assert (RR : r' = if o then r else (en - 1 - r)%nat) by (unfold r; destruct o; lia).
    pose proof (edge_at k (cv_type c) j r o T J R0) as EA. fold nn en in EA. rewrite <- RR in EA.
    replace (nn + j * en + r')%nat with q in EA by lia. rewrite Hq in EA. injection EA as ->.
    destruct (nth_error y r) as [g|] eqn:Eg; [|apply nth_error_None in Eg; lia].
    exists g. split.
    + rewrite DM, (nth_concat _ en le j r' LE R'), Ex, Exy, RR. destruct o; cbn [negb andb]; [exact Eg|]. rewrite <- Ly. rewrite nth_rev by lia. exact Eg.
    + apply (A (EEdge e) y r g w VE Oy Eg). destruct (param_ok k r R0) as (PO & PR).
      change (ent_type m (EEdge e)) with kSegment. rewrite PO, <- Ew. symmetry. eapply (ct_edge _ _ CU); eauto.
  - rewrite nth_error_app2 by lia. rewrite nth_error_app2 by lia. rewrite CV, CE.
    set (r := (q - nn - nn * edge_num k)%nat). destruct (nth_error l r) as [g|] eqn:Eg; [|apply nth_error_None in Eg; unfold r in *; lia].
    exists g. split; [reflexivity|]. apply (A (ECell i) l r g w VC Oc Eg). rewrite <- Ew. f_equal. rewrite Tc. unfold own_node.
    replace (match cv_type c with kPoint => 0 | kSegment => 2 | _ => num_nodes (cv_type c) + num_nodes (cv_type c) * edge_num k end + r)%nat with q.
    + apply nth_error_nth. exact Hq.
    + unfold r, nn in *. destruct T as [T|T]; rewrite T in *; lia.
Qed.

Lemma value_at_node : forall coef, length coef = NumDofs d -> forall i c q p l g, nth_error (mv_cells m) i = Some c ->
  nth_error (fe_nodes (lagrange k (cv_type c))) q = Some p -> GlobalDofIndices d (ECell i) = Ok l -> nth_error l q = Some g ->
  fe_value V coef (ECell i) p = Ok (nth g coef 0).
Proof.
  intros coef Lc i c q p l g Ec Hq G Hg. destruct V_is as (VM & VD & VL).
  assert (VC : valid m (ECell i)) by (cbn; apply nth_error_Some; congruence).
  assert (Tc : ent_type m (ECell i) = cv_type c) by (cbn; unfold DofModel.cell_at; rewrite (nth_error_nth _ _ _ Ec); reflexivity).
  destruct (lagrange_elements k m V W EV) as (_ & EO & _). destruct (EO (ECell i)) as (f & l' & Lo & HD & _ & RG & LT & _ & EVL & _).
  { apply cells_in. exact VC. }
  unfold has_dofs in HD. rewrite VD in HD, RG. rewrite G in HD. injection HD as <-. rewrite VL, Tc in Lo. injection Lo as <-.
  destruct (lagrange_cardinal k (cv_type c)) as (C1 & C2 & C3). destruct (C3 q p Hq) as (v & Ev & D).
  destruct (EVL p) as (v' & Ev' & Lv); [eapply nth_error_In; eauto|]. rewrite Ev in Ev'. injection Ev' as <-.
  rewrite (fe_value_ok V coef (ECell i) (lagrange k (cv_type c)) p v l); [|rewrite VL, Tc; reflexivity|exact Ev|rewrite VD; exact G|lia|rewrite Lc; exact RG].
  f_equal. rewrite (dot_delta _ v q).
  - exact (nth_error_nth _ _ 0 (map_nth_error (fun g => nth g coef 0) _ _ Hg)).
  - rewrite map_length. lia.
  - rewrite map_length. intros r Hr. apply D. lia.
  - rewrite map_length. apply nth_error_Some. congruence.
Qed.

Theorem interpolates : exists c, NodalProjection V u (fun _ => true) = Ok c /\ length c = NumDofs (sp_dofs V) /\
  forall i cl p, nth_error (mv_cells m) i = Some cl -> In p (fe_nodes (lagrange k (cv_type cl))) -> fe_value V c (ECell i) p = u (ECell i) p.
Proof.
  destruct V_is as (VM & VD & VL). destruct coefficients_exist as (coef & Lc & A).
  destruct (lagrange_elements k m V W EV) as (_ & EO & _).
  destruct (projection_fe V coef u ltac:(rewrite VD; exact Lc) (fun _ => true)) as (c & Ec & Lcc & Q).
  { intros e He _. rewrite VM in He. split; [apply EO; exact He|]. intros f p Lo Hp.
    destruct (in_cells m e He) as (i & cl & -> & Hc). apply In_nth_error in Hp as (q & Hq).
    assert (Tc : ent_type m (ECell i) = cv_type cl) by (cbn; unfold DofModel.cell_at; rewrite (nth_error_nth _ _ _ Hc); reflexivity).
    rewrite VL, Tc in Lo. injection Lo as <-.
    destruct (dof_value coef Lc A i cl q p Hc Hq) as (l & g & G & Hg & U). rewrite (value_at_node coef Lc i cl q p l g Hc Hq G Hg). exact U. }
  exists c. split; [exact Ec|]. split; [exact Lcc|]. intros i cl p Hc Hp. apply In_nth_error in Hp as (q & Hq).
  destruct (dof_value coef Lc A i cl q p Hc Hq) as (l & g & G & Hg & U). rewrite VD in Lcc.
  rewrite (value_at_node c Lcc i cl q p l g Hc Hq G Hg), U. f_equal.
  assert (VC : valid m (ECell i)) by (cbn; apply nth_error_Some; congruence).
  assert (IE : In (ECell i) (entities m 0)) by (apply cells_in; exact VC).
  destruct (EO _ IE) as (f & l' & _ & HD & _ & RG & _). unfold has_dofs in HD. rewrite VD, G in HD. injection HD as <-. rewrite VD in RG.
  destruct (Q g) as [(UT & _)|(_ & E)]; [rewrite VD; apply RG; eapply nth_error_In; eauto| |exact E].
  exfalso. rewrite VM in UT. apply (UT _ IE eq_refl). exists l. split; [unfold has_dofs; rewrite VD; exact G|eapply nth_error_In; eauto].
Qed.
End Interpolation.
