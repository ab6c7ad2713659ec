(** Proofs for C66: the transfer of a continuous function to the next level is
    continuous. *)
From Coq Require Import Reals List Arith Bool ZArith Lia Lra Permutation.
Import ListNotations.
From Verif Require Import Base MeshModel MeshView RefPatModel RefPatSpec RefineModel RefineSpec RefineProofs2 RefineProofs3 RefineProofs4 RefineProofs5
  DofModel DofSpec GeoModel GeoSpec FeModel FeSpec FeToolsModel HierProofs TransferModel TransferSpec TransferProofs TransferProofs2 TransferProofs3 ProlongSpec.
Local Open Scope R_scope.

(** *** Reference elements *)
Ltac vec_eq := repeat (apply (f_equal2 (@cons R)); [try field|]); try reflexivity.
Ltac cells2 t H := destruct H as [-> | ->]; cbn [num_nodes] in *.
Lemma corner_place : forall t k, (t = kTria \/ t = kQuad) -> (k < num_nodes t)%nat ->
  [fst (loc t (V k)); snd (loc t (V k))] = ref_node t k.
Proof. intros t k T K. cells2 t T; destruct k as [|[|[|[|k]]]]; try lia; reflexivity. Qed.
Lemma edge_start : forall t j, (t = kTria \/ t = kQuad) -> (j < num_nodes t)%nat -> on_edge t j 0 = ref_node t j.
Proof. intros t j T K. cells2 t T; destruct j as [|[|[|[|j]]]]; try lia; cbn; vec_eq. Qed.
Lemma edge_end : forall t j, (t = kTria \/ t = kQuad) -> (j < num_nodes t)%nat -> on_edge t j 1 = ref_node t (S j mod num_nodes t).
Proof. intros t j T K. cells2 t T; destruct j as [|[|[|[|j]]]]; try lia; cbn; vec_eq. Qed.
Lemma edge_middle : forall t j o, (t = kTria \/ t = kQuad) -> (j < num_nodes t)%nat ->
  [fst (loc t (M j)); snd (loc t (M j))] = edge_point t j o (1 / 2).
Proof.
  intros t j o T K. unfold edge_point. replace (if o then 1 / 2 else 1 - 1 / 2) with (1 / 2) by (destruct o; field).
  cells2 t T; destruct j as [|[|[|[|j]]]]; try lia; cbn; vec_eq.
Qed.
Lemma edge_point_in : forall t j o s, (t = kTria \/ t = kQuad) -> (j < num_nodes t)%nat -> 0 <= s <= 1 -> in_ref t (edge_point t j o s).
Proof.
  intros t j o s T K Hs. unfold edge_point. set (r := if o then s else 1 - s). assert (Hr : 0 <= r <= 1) by (unfold r; destruct o; lra).
  clearbody r. cells2 t T; destruct j as [|[|[|[|j]]]]; try lia; cbn; lra.
Qed.
Lemma ref_node_in : forall t j, (t = kTria \/ t = kQuad) -> (j < num_nodes t)%nat -> in_ref t (ref_node t j).
Proof. intros t j T K. cells2 t T; destruct j as [|[|[|[|j]]]]; try lia; cbn; lra. Qed.

Definition planar (w : list (list R)) : Prop := Forall (fun y => length y = 2%nat) w.
Ltac split_planar w L H :=
  repeat (let y := fresh "y" in destruct w as [|y w]; try discriminate L; cbn [length] in L);
  repeat match goal with F : Forall _ (?y :: _) |- _ => inversion F; clear F; subst end.
Lemma planar3 : forall w, planar w -> length w = 3%nat -> exists a b c d e f, w = [[a; b]; [c; d]; [e; f]].
Proof.
  intros w P L. destruct w as [|x [|y [|z [|]]]]; try discriminate. unfold planar in P. rewrite Forall_forall in P.
  pose proof (P x ltac:(cbn; auto)). pose proof (P y ltac:(cbn; auto)). pose proof (P z ltac:(cbn; auto)).
  destruct x as [|a [|b [|]]]; try discriminate; destruct y as [|c [|d [|]]]; try discriminate; destruct z as [|e [|f [|]]]; try discriminate. do 6 eexists. reflexivity.
Qed.
Lemma planar4 : forall w, planar w -> length w = 4%nat -> exists a b c d e f g h, w = [[a; b]; [c; d]; [e; f]; [g; h]].
Proof.
  intros w P L. destruct w as [|x [|y [|z [|z' [|]]]]]; try discriminate. unfold planar in P. rewrite Forall_forall in P.
  pose proof (P x ltac:(cbn; auto)). pose proof (P y ltac:(cbn; auto)). pose proof (P z ltac:(cbn; auto)). pose proof (P z' ltac:(cbn; auto)).
  destruct x as [|a [|b [|]]]; try discriminate; destruct y as [|c [|d [|]]]; try discriminate; destruct z as [|e [|f [|]]]; try discriminate;
  destruct z' as [|g [|h [|]]]; try discriminate. do 8 eexists. reflexivity.
Qed.
Lemma onto_edge : forall t w j (o : bool) s, (t = kTria \/ t = kQuad) -> planar w -> length w = num_nodes t -> (j < num_nodes t)%nat ->
  onto w (edge_point t j o s) =
  onto (if o then [nth j w []; nth (S j mod num_nodes t) w []] else [nth (S j mod num_nodes t) w []; nth j w []]) [s].
Proof.
  intros t w j o s T P Lw K. cells2 t T.
  - destruct (planar3 w P Lw) as (a & b & c & d & e & f & ->).
    destruct j as [|[|[|j]]]; try lia; destruct o; cbn; vec_eq.
  - destruct (planar4 w P Lw) as (a & b & c & d & e & f & g & h & ->).
    destruct j as [|[|[|[|j]]]]; try lia; destruct o; cbn; vec_eq.
Qed.
Lemma onto_node : forall t w j, (t = kTria \/ t = kQuad) -> planar w -> length w = num_nodes t -> (j < num_nodes t)%nat ->
  onto w (ref_node t j) = nth j w [].
Proof.
  intros t w j T P Lw K. cells2 t T.
  - destruct (planar3 w P Lw) as (a & b & c & d & e & f & ->). destruct j as [|[|[|j]]]; try lia; cbn; vec_eq.
  - destruct (planar4 w P Lw) as (a & b & c & d & e & f & g & h & ->). destruct j as [|[|[|[|j]]]]; try lia; cbn; vec_eq.
Qed.
Lemma onto_part : forall t j (o : bool) al be s, (t = kTria \/ t = kQuad) -> (j < num_nodes t)%nat ->
  onto [edge_point t j o al; edge_point t j o be] [s] = edge_point t j o ((1 - s) * al + s * be).
Proof.
  intros t j o al be s T K. cells2 t T; destruct j as [|[|[|[|j]]]]; try lia; destruct o; cbn; vec_eq.
Qed.

(** *** One step *)
Section Step.
Variables L L' : level.
Hypothesis W : wf_mesh (l_mesh L).
Hypothesis W' : wf_mesh (l_mesh L').
Hypothesis S0 : simple_mesh (l_mesh L).
Hypothesis RF : refined_to L (l_mesh L').
Hypothesis LK : linked L L'.
Let m := l_mesh L.
Let m' := l_mesh L'.

Lemma cell_wf_of : forall M i c, wf_mesh M -> nth_error (mv_cells M) i = Some c -> wf_cell M c.
Proof. intros M i c WM E. apply (proj1 (Forall_forall _ _) (wm_cells _ WM)). eapply nth_error_In; eauto. Qed.
Lemma stands_fun : forall i c n u u', stands_for L i c n u -> stands_for L i c n u' -> u = u'.
Proof.
  intros i c n u u' A B. destruct n as [k|k|]; cbn [stands_for] in A, B.
  - destruct A as (v & E & A), B as (v' & E' & B). rewrite E in E'. injection E' as <-. congruence.
  - destruct A as (v & E & A), B as (v' & E' & B). rewrite E in E'. injection E' as <-. congruence.
  - congruence.
Qed.
Lemma sides_in : forall A (l : list A) j d, length l = 3%nat \/ length l = 4%nat -> (j < length l)%nat ->
  In (nth j l d, nth (S j mod length l) l d) (sides l).
Proof.
  intros A l j d Hl Hj. destruct Hl as [E|E].
  - destruct l as [|a [|b [|c [|]]]]; try discriminate. cbn [length] in *. destruct j as [|[|[|j]]]; try lia; cbn; auto.
  - destruct l as [|a [|b [|c [|e [|]]]]]; try discriminate. cbn [length] in *. destruct j as [|[|[|[|j]]]]; try lia; cbn; auto.
Qed.
Lemma segs_find : forall A (l l' : list (A * A)) x, same_segs l l' -> In x l -> exists y, In y l' /\ same_seg x y.
Proof.
  intros A l l' x (l2 & P & F) H. apply (Permutation_in _ P) in H. clear P l.
  induction F as [|a b l2 l' S F IH]; [destruct H|]. destruct H as [<-|H]; [exists b; cbn; auto|]. destruct (IH H) as (y & I & S'). exists y. cbn; auto.
Qed.
Lemma same_edge : forall e f a b u w, nth_error (mv_edges m') e = Some (a, b) -> nth_error (mv_edges m') f = Some (u, w) ->
  (a = u /\ b = w) \/ (a = w /\ b = u) -> e = f.
Proof. intros e f a b u w E F H. eapply (wm_unique _ W'); eauto. Qed.

(** An edge of a child of a cell is a child of the cell or of one of its edges. *)
Lemma side_parent : forall i F I c j e, nth_error (mv_cells m') i = Some F -> nth_error (mv_cells m) I = Some c ->
  In i (children L 0 I 0) -> nth_error (cv_edges F) j = Some e ->
  In e (children L 0 I 1) \/ exists j0 E0, nth_error (cv_edges c) j0 = Some E0 /\ In e (children L 1 E0 1).
Proof.
  intros i F I c j e EF Ec IN Ee. destruct (rf_counts _ _ RF) as [NC NE].
  destruct (nth_error (l_cells L) I) as [ci|] eqn:Eci.
  2: { apply nth_error_None in Eci. assert (I < length (mv_cells m))%nat by (apply nth_error_Some; congruence). unfold m in *. lia. }
  pose proof (cell_wf_of _ _ _ W Ec) as Wc. pose proof (cell_wf_of _ _ _ W' EF) as WF.
  pose proof (tq _ _ Wc) as T. pose proof (rf_compatible _ _ RF I c ci Ec Eci) as CM.
  destruct (rf_cell _ _ RF I c ci Ec Eci) as (lc & CO & X1 & X2 & FC & FE).
  destruct (tables_ok (cv_type c) (cc_pat ci) (cc_anchor ci) T (cm_not_nil _ _ _ CM) (cm_implemented _ _ _ CM) (cm_anchor _ _ _ CM)) as (lc' & CO' & TO).
  rewrite CO in CO'. injection CO' as <-.
  apply In_nth_error in IN as (k & IN). destruct (F2_nth _ _ _ _ _ _ _ FC IN) as (l & Hl & f & Ef & SF).
  change (nth_error (mv_cells m') i = Some f) in Ef. rewrite EF in Ef. injection Ef as <-.
  pose proof (F2_len _ _ _ _ _ SF) as LL.
  assert (Hj : (j < length (cv_nodes F))%nat) by (rewrite <- (wc_edges _ _ WF); apply nth_error_Some; congruence).
  assert (L34 : length l = 3%nat \/ length l = 4%nat) by (rewrite LL; apply (wc_shape _ _ WF)).
  pose proof (sides_in _ l j (V 0) L34 ltac:(lia)) as SI.
  destruct (segs_find _ _ _ (nth j l (V 0), nth (S j mod length l) l (V 0)) (ta_segs _ _ _ TO)) as (x & Ix & Sx).
  { apply in_flat_map. exists l. split; [eapply nth_error_In; exact Hl|exact SI]. }
  destruct (wc_local _ _ WF j Hj) as (e1 & o & p0 & p1 & A1 & A2 & A3 & A4). rewrite Ee in A1. injection A1 as <-.
  set (j' := (S j mod length l)%nat) in *.
  assert (Hj' : (j' < length l)%nat) by (apply Nat.mod_upper_bound; lia).
  assert (ST : forall r, (r < length l)%nat -> stands_for L I c (nth r l (V 0)) (nth r (cv_nodes F) 0%nat)).
  { intros r Hr. destruct (F2_nth _ _ _ _ _ r (nth r l (V 0)) SF ltac:(apply nth_error_nth'; exact Hr)) as (u & Eu & Su).
    rewrite (nth_error_nth _ _ _ Eu). exact Su. }
  pose proof (ST j ltac:(lia)) as Sj. pose proof (ST j' Hj') as Sj'.
  assert (PP : (p0 = nth j (cv_nodes F) 0 /\ p1 = nth j' (cv_nodes F) 0)%nat \/ (p0 = nth j' (cv_nodes F) 0 /\ p1 = nth j (cv_nodes F) 0)%nat).
  { unfold next_corner in A4. unfold j'. rewrite LL. destruct o; [left|right]; exact A4. }
  clear A4.
  (* any edge of the finer mesh between the two nodes is e *)
  assert (FIND : forall f u w, nth_error (mv_edges m') f = Some (u, w) -> stands_for L I c (fst x) u -> stands_for L I c (snd x) w -> f = e).
  { intros f u w Ef Su Sw. symmetry. apply (same_edge _ _ _ _ _ _ A3 Ef).
    destruct Sx as [Sx|Sx]; [|]; destruct x as [x1 x2]; cbn [fst snd] in *; injection Sx as <- <-.
    - pose proof (stands_fun _ _ _ _ _ Su Sj). pose proof (stands_fun _ _ _ _ _ Sw Sj'). subst. tauto.
    - pose proof (stands_fun _ _ _ _ _ Su Sj'). pose proof (stands_fun _ _ _ _ _ Sw Sj). subst. tauto. }
  apply in_app_or in Ix. destruct Ix as [Ix|Ix].
  - right. apply in_flat_map in Ix as (j0 & I0 & Ix). apply in_seq in I0.
    assert (NN : num_edges (cv_type c) = length (cv_nodes c)) by (destruct (wf_type _ _ Wc) as [[-> ->]|[-> ->]]; reflexivity).
    destruct (wc_local _ _ Wc j0 ltac:(lia)) as (E0 & o0 & q0 & q1 & B1 & B2 & B3 & B4).
    exists j0, E0. split; [exact B1|].
    destruct (nth_error (cv_nodes c) j0) as [v|] eqn:EV; [|apply nth_error_None in EV; lia].
    destruct (nth_error (cv_nodes c) (S j0 mod length (cv_nodes c))) as [v'|] eqn:EV'.
    2: { apply nth_error_None in EV'. pose proof (Nat.mod_upper_bound (S j0) (length (cv_nodes c))). lia. }
    unfold next_corner in B4. rewrite (nth_error_nth _ _ _ EV), (nth_error_nth _ _ _ EV') in B4.
    assert (HV : forall u, children L 2 v 2 = [u] -> stands_for L I c (V j0) u) by (intros u Hu; exists v; auto).
    assert (HV' : forall u, children L 2 v' 2 = [u] -> stands_for L I c (V (S j0 mod num_edges (cv_type c))) u).
    { intros u Hu. exists v'. rewrite NN. auto. }
    assert (HM : forall u, children L 1 E0 2 = [u] -> stands_for L I c (M j0) u) by (intros u Hu; exists E0; auto).
    unfold ltrace in Ix. destruct (existsb (Nat.eqb j0) (split_edges (cv_type c) (cc_pat ci) (anchor_nat (cc_anchor ci)))) eqn:EX.
    + assert (SP : is_split L E0).
      { apply (cm_edges _ _ _ CM j0 E0 B1). apply existsb_exists in EX as (y & Y1 & Y2). apply Nat.eqb_eq in Y2. subst y. exact Y1. }
      destruct (rf_split _ _ RF E0 q0 q1 B3 SP) as (f & g & a' & b' & q & C1 & C2 & C3 & C4 & C5 & C6 & _). rewrite C1.
      destruct o0; destruct B4 as [-> ->].
      * destruct Ix as [<-|[<-|[]]]; [left; apply (FIND _ _ _ C5); auto|right; left; apply (FIND _ _ _ C6); auto].
      * assert (SW : forall f u w y z, x = (y, z) -> nth_error (mv_edges m') f = Some (u, w) -> stands_for L I c z u -> stands_for L I c y w -> f = e).
        { intros f0 u w y z -> Ef Su Sw. symmetry. apply (same_edge _ _ _ _ _ _ A3 Ef).
          destruct Sx as [Sx|Sx]; cbn [fst snd] in *; injection Sx as <- <-.
          - pose proof (stands_fun _ _ _ _ _ Su Sj'). pose proof (stands_fun _ _ _ _ _ Sw Sj). subst. tauto.
          - pose proof (stands_fun _ _ _ _ _ Su Sj). pose proof (stands_fun _ _ _ _ _ Sw Sj'). subst. tauto. }
        destruct Ix as [Ix|[Ix|[]]]; symmetry in Ix; [right; left; apply (SW _ _ _ _ _ Ix C6); auto|left; apply (SW _ _ _ _ _ Ix C5); auto].
    + assert (NS : ~ is_split L E0).
      { intros SP. apply (cm_edges _ _ _ CM j0 E0 B1) in SP. assert (existsb (Nat.eqb j0) (split_edges (cv_type c) (cc_pat ci) (anchor_nat (cc_anchor ci))) = true); [|congruence].
        apply existsb_exists. exists j0. split; [exact SP|apply Nat.eqb_refl]. }
      destruct (rf_decided _ _ RF E0) as [CP|SP]; [apply nth_error_Some; congruence| |contradiction].
      destruct (rf_copied _ _ RF E0 q0 q1 B3 CP) as (f & a' & b' & C1 & C2 & C3 & C4 & C5). rewrite C1. left.
      destruct Ix as [<-|[]]. destruct o0; destruct B4 as [-> ->]; [apply (FIND _ _ _ C5); auto|].
      symmetry. apply (same_edge _ _ _ _ _ _ A3 C5). cbn [fst snd] in *.
      destruct Sx as [Sx|Sx]; cbn [fst snd] in *; injection Sx as Sx1 Sx2; rewrite Sx1 in Sj; rewrite Sx2 in Sj'.
      * pose proof (stands_fun _ _ _ _ _ (HV _ C4) Sj). pose proof (stands_fun _ _ _ _ _ (HV' _ C3) Sj'). subst. tauto.
      * pose proof (stands_fun _ _ _ _ _ (HV _ C4) Sj'). pose proof (stands_fun _ _ _ _ _ (HV' _ C3) Sj). subst. tauto.
  - left. assert (Ix' : In x (lc_edges lc)) by (apply in_app_or in Ix; tauto).
    apply In_nth_error in Ix' as (r & Hr).
    assert (exists f, nth_error (children L 0 I 1) r = Some f) as (f & Hf).
    { destruct (nth_error (children L 0 I 1) r) eqn:E; [eauto|]. apply nth_error_None in E. pose proof (F2_len _ _ _ _ _ FE).
      assert (r < length (lc_edges lc))%nat by (apply nth_error_Some; congruence). lia. }
    destruct (F2_nth _ _ _ _ _ _ _ FE Hf) as (x' & Hx' & u & w & Ef & Su & Sw). rewrite Hr in Hx'. injection Hx' as <-.
    rewrite <- (FIND _ _ _ Ef Su Sw). eapply nth_error_In; eauto.
Qed.

(** A node on an edge of a cell. *)
Lemma placed_edge_cell : forall I c j E o u y, nth_error (mv_cells m) I = Some c -> nth_error (cv_edges c) j = Some E -> nth_error (cv_ori c) j = Some o ->
  placed L (EEdge E) u y -> exists al, y = [al] /\ placed L (ECell I) u (edge_point (cv_type c) j o al).
Proof.
  intros I c j E o u y Ec EE Eo P. pose proof (cell_wf_of _ _ _ W Ec) as Wc. pose proof (tq _ _ Wc) as T.
  assert (NN : num_nodes (cv_type c) = length (cv_nodes c)) by (destruct (wf_type _ _ Wc) as [[-> ->]|[-> ->]]; reflexivity).
  assert (Hj : (j < length (cv_nodes c))%nat) by (rewrite <- (wc_edges _ _ Wc); apply nth_error_Some; congruence).
  destruct (wc_local _ _ Wc j Hj) as (e1 & o1 & p0 & p1 & A1 & A2 & A3 & A4). rewrite EE in A1. injection A1 as <-. rewrite Eo in A2. injection A2 as <-.
  set (j' := (S j mod length (cv_nodes c))%nat) in *.
  assert (Hj' : (j' < length (cv_nodes c))%nat) by (apply Nat.mod_upper_bound; lia).
  destruct (nth_error (cv_nodes c) j) as [v|] eqn:EV; [|apply nth_error_None in EV; lia].
  destruct (nth_error (cv_nodes c) j') as [v'|] eqn:EV'; [|apply nth_error_None in EV'; lia].
  unfold next_corner in A4. fold j' in A4. rewrite (nth_error_nth _ _ _ EV), (nth_error_nth _ _ _ EV') in A4.
  assert (AT : forall r v u, nth_error (cv_nodes c) r = Some v -> children L 2 v 2 = [u] -> placed L (ECell I) u (ref_node (cv_type c) r)).
  { intros r v0 u0 Er Cv. assert (Hr : (r < length (cv_nodes c))%nat) by (apply nth_error_Some; congruence).
    rewrite <- (corner_place _ r T) by lia. apply pl_cell; auto. exists v0. auto. }
  assert (E0 : on_edge (cv_type c) j 0 = ref_node (cv_type c) j) by (apply edge_start; auto; lia).
  assert (E1 : on_edge (cv_type c) j 1 = ref_node (cv_type c) j') by (unfold j'; rewrite <- NN; apply edge_end; auto; lia).
  inversion P as [ |e a b u' Ee Cu|e a b u' Ee Cu|e u' He Cu| ]; subst; eexists; (split; [reflexivity|]).
  - change (nth_error (mv_edges m) E = Some (a, b)) in Ee. change (nth_error (mv_edges m) E = Some (p0, p1)) in A3. rewrite A3 in Ee. injection Ee as <- <-.
    destruct o; destruct A4 as [-> ->]; unfold edge_point.
    + rewrite E0. eapply AT; eauto.
    + rewrite Rminus_0_r, E1. eapply AT; eauto.
  - change (nth_error (mv_edges m) E = Some (a, b)) in Ee. change (nth_error (mv_edges m) E = Some (p0, p1)) in A3. rewrite A3 in Ee. injection Ee as <- <-.
    destruct o; destruct A4 as [-> ->]; unfold edge_point.
    + rewrite E1. eapply AT; eauto.
    + replace (1 - 1) with 0 by ring. rewrite E0. eapply AT; eauto.
  - rewrite <- (edge_middle _ j o T) by lia. apply pl_cell; auto. exists E. auto.
Qed.

Lemma placed_planar : forall I l w, Forall2 (placed L (ECell I)) l w -> planar w.
Proof.
  intros I l w F. induction F as [|u y l w H F IH]; constructor; auto. inversion H; subst. reflexivity.
Qed.

(** Continuity. *)
Variables u u' : meshfun.
Hypothesis CU : continuous_function m u.

Lemma valid_cell_i : forall M i (c : cellv), nth_error (mv_cells M) i = Some c -> valid M (ECell i).
Proof. intros M i c E. cbn. apply nth_error_Some. congruence. Qed.
Lemma up_of : forall e, valid m' e -> exists p w, valid m p /\ (ent_codim p <= ent_codim e)%nat /\ inside L L' e p w.
Proof.
  intros e V. destruct (step_geometry L L' W W' RF LK e V) as (p & w & k & Vp & Hc & _ & IN & _). eauto.
Qed.
(** The value at a node is that at any of its places. *)
Lemma node_place0 : (forall n p w, (n < mv_nodes m')%nat -> inside L L' (ENode n) p w -> u' (ENode n) [] = u p (onto w [])) ->
  forall p n y, valid m p -> (n < mv_nodes m')%nat -> placed L p n y -> u p y = u' (ENode n) [].
Proof.
  intros HN p n y Vp Vn P. assert (V : valid m' (ENode n)) by exact Vn. destruct (up_of _ V) as (q & w & Vq & Hc & IN).
  rewrite (HN _ _ _ Vn IN). destruct IN as [IC IP]. cbn [ent_index ent_codim ent_nodes] in IC, IP.
  inversion IP as [|n0 y0 l0 w0 P0 F0]; subst. inversion F0; subst. clear IP F0.
  assert (ON : forall z, onto [z] [] = z).
  { intros z. unfold onto. cbn [length nth combine map fst snd fold_right].
    transitivity (map (fun j => nth j z 0) (seq 0 (length z))); [apply map_ext_in; intros; ring|]. clear. induction z as [|a z IH] using rev_ind; [reflexivity|].
    rewrite app_length. cbn [length]. rewrite seq_app, map_app. cbn [seq map Nat.add]. rewrite app_nth2, Nat.sub_diag by lia. cbn [nth]. f_equal.
    rewrite <- IH at 2. apply map_ext_in. intros j Hj. apply in_seq in Hj. apply app_nth1. lia. }
  rewrite ON.
  (* the entity that the node is a child of *)
  assert (UQ : forall cd i, In n (children L cd i 2) -> ent_codim q = cd /\ ent_index q = i).
  { intros cd i IN. apply (parent_unique L L' LK 2 _ _ _ _ n ltac:(lia) IC IN). }
  assert (NODE : forall v, children L 2 v 2 = [n] -> q = ENode v).
  { intros v Cv. destruct (UQ 2%nat v (one _ _ Cv)) as [A B]. destruct q; cbn in A, B; try discriminate. congruence. }
  assert (EDGE : forall v, children L 1 v 2 = [n] -> q = EEdge v).
  { intros v Cv. destruct (UQ 1%nat v (one _ _ Cv)) as [A B]. destruct q; cbn in A, B; try discriminate. congruence. }
  assert (CELL : forall v, children L 0 v 2 = [n] -> q = ECell v).
  { intros v Cv. destruct (UQ 0%nat v (one _ _ Cv)) as [A B]. destruct q; cbn in A, B; try discriminate. congruence. }
  assert (SAME : q = p -> u p y = u q y0) by (intros ->; rewrite (placed_unique L L' W S0 LK _ _ _ _ P P0); reflexivity).
  assert (PN : forall v, q = ENode v -> y0 = []) by (intros v ->; inversion P0; auto).
  destruct P as [i c k n Ec St|e a b n Ee Cn|e a b n Ee Cn|e n He Cn|v n Hv Cn].
  - pose proof (cell_wf_of _ _ _ W Ec) as Wc. pose proof (tq _ _ Wc) as T.
    assert (NN : num_nodes (cv_type c) = length (cv_nodes c)) by (destruct (wf_type _ _ Wc) as [[-> ->]|[-> ->]]; reflexivity).
    destruct k as [k|k|]; cbn [stands_for] in St.
    + destruct St as (v & Ev & Cv). pose proof (NODE _ Cv) as Q. rewrite (PN _ Q), Q.
      assert (k < length (cv_nodes c))%nat by (apply nth_error_Some; congruence).
      rewrite corner_place by (auto; lia). eapply (ct_node _ _ CU); eauto.
    + destruct St as (E & EE & Cv). pose proof (EDGE _ Cv) as Q.
      assert (K : (k < length (cv_nodes c))%nat) by (rewrite <- (wc_edges _ _ Wc); apply nth_error_Some; congruence).
      destruct (nth_error (cv_ori c) k) as [o|] eqn:Eo; [|apply nth_error_None in Eo; rewrite (wc_oris _ _ Wc) in Eo; lia].
      rewrite (edge_middle _ k o T) by lia. rewrite (ct_edge _ _ CU i c k E o (1 / 2) Ec EE Eo) by lra. subst q. f_equal.
      assert (PM : placed L (EEdge E) n [1 / 2]) by (apply pl_middle; auto). exact (placed_unique L L' W S0 LK _ _ _ _ PM P0).
    + apply SAME, CELL. exact St.
  - pose proof (NODE _ Cn) as Q. rewrite (PN _ Q), Q. apply (ct_ends _ _ CU e a b Ee).
  - pose proof (NODE _ Cn) as Q. rewrite (PN _ Q), Q. apply (ct_ends _ _ CU e a b Ee).
  - apply SAME, EDGE, Cn.
  - apply SAME, NODE, Cn.
Qed.

Hypothesis HU : forall e p w x, valid m' e -> in_ref (ent_type m' e) x -> inside L L' e p w -> u' e x = u p (onto w x).
Lemma node_place : forall p n y, valid m p -> (n < mv_nodes m')%nat -> placed L p n y -> u p y = u' (ENode n) [].
Proof. apply node_place0. intros n p w Vn IN. apply HU; [exact Vn|exact I|exact IN]. Qed.
Theorem step_continuous : continuous_function m' u'.
Proof.
  split.
  - intros e x V Hx. destruct (up_of e V) as (p & w & Vp & _ & IN). rewrite (HU _ _ _ _ V Hx IN).
    apply (ct_value _ _ CU); auto. eapply inside_in; eauto.
  - intros i F j e o t EF Ee Eo Ht. pose proof (cell_wf_of _ _ _ W' EF) as WF. pose proof (tq _ _ WF) as TF.
    assert (NF : num_nodes (cv_type F) = length (cv_nodes F)) by (destruct (wf_type _ _ WF) as [[-> ->]|[-> ->]]; reflexivity).
    assert (Hj : (j < length (cv_nodes F))%nat) by (rewrite <- (wc_edges _ _ WF); apply nth_error_Some; congruence).
    pose proof (valid_cell_i _ _ _ EF) as VF. destruct (up_of _ VF) as (p & w & Vp & Hc & IN).
    destruct p as [I|I|I]; cbn in Hc; try lia.
    assert (TI : ent_type m' (ECell i) = cv_type F) by (cbn; unfold DofModel.cell_at; rewrite (nth_error_nth _ _ _ EF); reflexivity).
    rewrite (HU (ECell i) (ECell I) w (edge_point (cv_type F) j o t) VF); auto.
    2: { rewrite TI. apply edge_point_in; auto. lia. }
    destruct IN as [IC IP]. cbn [ent_index ent_codim ent_nodes] in IC, IP. change (l_mesh L') with m' in IP. rewrite EF in IP.
    pose proof (F2_len _ _ _ _ _ IP) as LW. pose proof (placed_planar _ _ _ IP) as PW.
    rewrite onto_edge by (auto; lia).
    destruct (nth_error (mv_cells m) I) as [c|] eqn:Ec; [|apply nth_error_None in Ec; cbn in Vp; lia].
    destruct (wc_local _ _ WF j Hj) as (e1 & o1 & p0 & p1 & A1 & A2 & A3 & A4). rewrite Ee in A1. injection A1 as <-. rewrite Eo in A2. injection A2 as <-.
    set (j' := (S j mod num_nodes (cv_type F))%nat) in *.
    assert (Hj' : (j' < length (cv_nodes F))%nat) by (unfold j'; rewrite NF; apply Nat.mod_upper_bound; lia).
    unfold next_corner in A4. rewrite <- NF in A4. fold j' in A4.
    assert (PL : forall r, (r < length (cv_nodes F))%nat -> placed L (ECell I) (nth r (cv_nodes F) 0%nat) (nth r w [])).
    { intros r Hr. destruct (F2_nth _ _ _ _ _ r (nth r (cv_nodes F) 0%nat) IP ltac:(apply nth_error_nth'; exact Hr)) as (y & Ey & Py).
      rewrite (nth_error_nth _ _ _ Ey). exact Py. }
    set (wa := if o then nth j w [] else nth j' w []). set (wb := if o then nth j' w [] else nth j w []).
    replace (if o then [nth j w []; nth j' w []] else [nth j' w []; nth j w []]) with [wa; wb] by (unfold wa, wb; destruct o; reflexivity).
    assert (PA : placed L (ECell I) p0 wa) by (unfold wa; destruct o; destruct A4 as [-> ->]; apply PL; auto).
    assert (PB : placed L (ECell I) p1 wb) by (unfold wb; destruct o; destruct A4 as [-> ->]; apply PL; auto).
    change (nth_error (mv_edges m') e = Some (p0, p1)) in A3.
    assert (VE : valid m' (EEdge e)) by (cbn; apply nth_error_Some; congruence).
    destruct (up_of _ VE) as (q & we & Vq & Hq & IE).
    rewrite (HU _ _ _ [t] VE Ht IE). destruct IE as [JC JP]. cbn [ent_index ent_codim ent_nodes] in JC, JP. change (l_mesh L') with m' in JP. rewrite A3 in JP.
    inversion JP as [|n0 y0 l0 w0 P0 F0]; subst. inversion F0 as [|n1 y1 l1 w1 P1 F1]; subst. inversion F1; subst. clear JP F0 F1.
    destruct (side_parent i F I c j e EF Ec IC Ee) as [SP|(j0 & E0 & B1 & SP)].
    + destruct (parent_unique L L' LK 1 _ _ _ _ _ ltac:(lia) JC SP) as [Q1 Q2]. destruct q as [r|r|r]; cbn in Q1, Q2; try discriminate. subst r.
      rewrite (placed_unique L L' W S0 LK _ _ _ _ P0 PA), (placed_unique L L' W S0 LK _ _ _ _ P1 PB). reflexivity.
    + destruct (parent_unique L L' LK 1 _ _ _ _ _ ltac:(lia) JC SP) as [Q1 Q2]. destruct q as [r|r|r]; cbn in Q1, Q2; try discriminate. subst r.
      pose proof (cell_wf_of _ _ _ W Ec) as Wc. pose proof (tq _ _ Wc) as T.
      assert (NN : num_nodes (cv_type c) = length (cv_nodes c)) by (destruct (wf_type _ _ Wc) as [[-> ->]|[-> ->]]; reflexivity).
      assert (K : (j0 < length (cv_nodes c))%nat) by (rewrite <- (wc_edges _ _ Wc); apply nth_error_Some; congruence).
      destruct (nth_error (cv_ori c) j0) as [o0|] eqn:Eo0; [|apply nth_error_None in Eo0; rewrite (wc_oris _ _ Wc) in Eo0; lia].
      pose proof (placed_in _ _ _ _ W P0) as R0. pose proof (placed_in _ _ _ _ W P1) as R1.
      destruct (placed_edge_cell I c j0 E0 o0 p0 y0 Ec B1 Eo0 P0) as (al & -> & PA').
      destruct (placed_edge_cell I c j0 E0 o0 p1 y1 Ec B1 Eo0 P1) as (be & -> & PB').
      rewrite (placed_unique L L' W S0 LK _ _ _ _ PA PA'), (placed_unique L L' W S0 LK _ _ _ _ PB PB').
      rewrite onto_part by (auto; lia). cbn in R0, R1.
      rewrite (ct_edge _ _ CU I c j0 E0 o0 _ Ec B1 Eo0).
      * f_equal. cbn. f_equal. ring.
      * split; [|].
        -- assert (0 <= (1 - t) * al) by (apply Rmult_le_pos; lra). assert (0 <= t * be) by (apply Rmult_le_pos; lra). lra.
        -- assert (0 <= (1 - t) * (1 - al)) by (apply Rmult_le_pos; lra). assert (0 <= t * (1 - be)) by (apply Rmult_le_pos; lra). lra.
  - intros i F j n EF En. pose proof (cell_wf_of _ _ _ W' EF) as WF. pose proof (tq _ _ WF) as TF.
    assert (NF : num_nodes (cv_type F) = length (cv_nodes F)) by (destruct (wf_type _ _ WF) as [[-> ->]|[-> ->]]; reflexivity).
    assert (Hj : (j < length (cv_nodes F))%nat) by (apply nth_error_Some; congruence).
    pose proof (valid_cell_i _ _ _ EF) as VF. destruct (up_of _ VF) as (p & w & Vp & Hc & IN).
    destruct p as [I|I|I]; cbn in Hc; try lia.
    assert (TI : ent_type m' (ECell i) = cv_type F) by (cbn; unfold DofModel.cell_at; rewrite (nth_error_nth _ _ _ EF); reflexivity).
    rewrite (HU (ECell i) (ECell I) w (ref_node (cv_type F) j) VF); auto.
    2: { rewrite TI. apply ref_node_in; auto. lia. }
    destruct IN as [IC IP]. cbn [ent_index ent_codim ent_nodes] in IC, IP. change (l_mesh L') with m' in IP. rewrite EF in IP.
    pose proof (F2_len _ _ _ _ _ IP) as LW. pose proof (placed_planar _ _ _ IP) as PW.
    rewrite onto_node by (auto; lia).
    destruct (F2_nth _ _ _ _ _ j n IP En) as (y & Ey & Py). rewrite (nth_error_nth _ _ _ Ey).
    apply node_place; auto. pose proof (wc_nodes _ _ WF) as WN. rewrite Forall_forall in WN. apply WN. eapply nth_error_In; eauto.
  - intros e a b Ee. assert (VE : valid m' (EEdge e)) by (cbn; apply nth_error_Some; congruence).
    destruct (wm_edges _ W' _ _ _ Ee) as (_ & Va & Vb).
    destruct (up_of _ VE) as (q & we & Vq & Hq & IE).
    rewrite (HU _ _ _ [0] VE ltac:(cbn; lra) IE), (HU _ _ _ [1] VE ltac:(cbn; lra) IE). destruct IE as [JC JP]. cbn [ent_index ent_codim ent_nodes] in JC, JP. change (l_mesh L') with m' in JP. rewrite Ee in JP.
    inversion JP as [|n0 y0 l0 w0 P0 F0]; subst. inversion F0 as [|n1 y1 l1 w1 P1 F1]; subst. inversion F1; subst. clear JP F0 F1.
    assert (LEN : length y0 = length y1).
    { rewrite (in_ref_length _ _ (placed_in _ _ _ _ W P0)), (in_ref_length _ _ (placed_in _ _ _ _ W P1)). reflexivity. }
    assert (ON : onto [y0; y1] [0] = y0 /\ onto [y0; y1] [1] = y1).
    { assert (ID : forall z, map (fun j => nth j z 0) (seq 0 (length z)) = z).
      { clear. induction z as [|a z IH] using rev_ind; [reflexivity|].
        rewrite app_length. cbn [length]. rewrite seq_app, map_app. cbn [seq map Nat.add]. rewrite app_nth2, Nat.sub_diag by lia. cbn [nth]. f_equal.
        rewrite <- IH at 2. apply map_ext_in. intros j Hj. apply in_seq in Hj. apply app_nth1. lia. }
      unfold onto. cbn [length nth combine map fst snd fold_right]. split.
      - rewrite <- (ID y0) at 2. apply map_ext_in. intros; ring.
      - rewrite LEN. rewrite <- (ID y1) at 2. apply map_ext_in. intros; ring. }
    destruct ON as [-> ->]. split; apply node_place; auto.
Qed.
End Step.
