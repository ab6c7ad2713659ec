(** Proofs for C60: places of nodes are unique and lie in the reference element; images
    through several levels; transfer of mesh functions. *)
From Coq Require Import Reals List Arith Bool ZArith Lia Lra.
Import ListNotations.
From Verif Require Import Base MeshModel MeshView RefPatModel RefPatSpec RefineModel RefineSpec RefineProofs2 RefineProofs3 RefineProofs4 RefineProofs5
  DofModel DofSpec GeoModel GeoSpec FeModel FeToolsModel HierProofs TransferModel TransferSpec TransferProofs TransferProofs2.
Local Open Scope R_scope.

Section Unique.
Variables L L' : level.
Hypothesis W : wf_mesh (l_mesh L).
Hypothesis S0 : simple_mesh (l_mesh L).
Hypothesis LK : linked L L'.

Lemma parent_unique : forall d cd i cd' i' j, (d < 3)%nat -> In j (children L cd i d) -> In j (children L cd' i' d) -> cd = cd' /\ i = i'.
Proof.
  intros d cd i cd' i' j Hd H1 H2. apply In_nth_error in H1 as (k & H1). apply In_nth_error in H2 as (k' & H2).
  destruct (LK d Hd) as (_ & _ & D). apply D in H1, H2. rewrite H1 in H2. injection H2. auto.
Qed.
Lemma one : forall (u : nat) l, l = [u] -> In u l.
Proof. intros u l ->. left. reflexivity. Qed.
Lemma placed_unique : forall p u y y', placed L p u y -> placed L p u y' -> y = y'.
Proof.
  intros p u y y' H1 H2. destruct H1.
  - inversion H2 as [i' c' n' u' Ec' S' E1 E2 E3 | | | | ]; subst. rewrite H in Ec'. injection Ec' as <-.
    assert (n = n'); [|subst; reflexivity]. assert (Hi : (i < length (mv_cells (l_mesh L)))%nat) by (apply nth_error_Some; congruence).
    assert (CA : RefineProofs4.cell_at (l_mesh L) i = c) by (apply nth_error_nth; exact H).
    destruct (shape (l_mesh L) W i Hi) as (_ & SN & SE & _). rewrite CA in *.
    destruct n as [k|k|], n' as [k'|k'|]; cbn [stands_for] in H0, S'; auto.
    + destruct H0 as (v & Hv & Cv), S' as (v' & Hv' & Cv').
      destruct (parent_unique 2 2 v 2 v' u ltac:(lia) (one _ _ Cv) (one _ _ Cv')) as [_ <-]. f_equal.
      assert (ND : NoDup (cv_nodes c)) by (apply S0; eapply nth_error_In; exact H).
      apply (proj1 (NoDup_nth_error _) ND); [apply nth_error_Some; congruence|congruence].
    + destruct H0 as (v & Hv & Cv), S' as (v' & Hv' & Cv').
      destruct (parent_unique 2 2 v 1 v' u ltac:(lia) (one _ _ Cv) (one _ _ Cv')) as [X _]. discriminate.
    + destruct H0 as (v & Hv & Cv).
      destruct (parent_unique 2 2 v 0 i u ltac:(lia) (one _ _ Cv) (one _ _ S')) as [X _]. discriminate.
    + destruct H0 as (v & Hv & Cv), S' as (v' & Hv' & Cv').
      destruct (parent_unique 2 1 v 2 v' u ltac:(lia) (one _ _ Cv) (one _ _ Cv')) as [X _]. discriminate.
    + destruct H0 as (v & Hv & Cv), S' as (v' & Hv' & Cv').
      destruct (parent_unique 2 1 v 1 v' u ltac:(lia) (one _ _ Cv) (one _ _ Cv')) as [_ <-]. f_equal.
      assert (K1 : (k < length (cv_edges c))%nat) by (apply nth_error_Some; congruence).
      assert (K2 : (k' < length (cv_edges c))%nat) by (apply nth_error_Some; congruence).
      apply (edges_inj (l_mesh L) (repeat fresh_eci (length (mv_edges (l_mesh L)))) (repeat fresh_cci (length (mv_cells (l_mesh L)))) W (repeat_length _ _) (repeat_length _ _) S0 i k k'); auto; try lia; rewrite CA; auto.
      rewrite (nth_error_nth _ _ _ Hv), (nth_error_nth _ _ _ Hv'). reflexivity.
    + destruct H0 as (v & Hv & Cv).
      destruct (parent_unique 2 1 v 0 i u ltac:(lia) (one _ _ Cv) (one _ _ S')) as [X _]. discriminate.
    + destruct S' as (v & Hv & Cv).
      destruct (parent_unique 2 2 v 0 i u ltac:(lia) (one _ _ Cv) (one _ _ H0)) as [X _]. discriminate.
    + destruct S' as (v & Hv & Cv).
      destruct (parent_unique 2 1 v 0 i u ltac:(lia) (one _ _ Cv) (one _ _ H0)) as [X _]. discriminate.
  - destruct (wm_edges _ W _ _ _ H) as (NE & _). inversion H2 as [|e' a' b' u' E' C' |e' a' b' u' E' C' |e' u' Q C'| ]; subst; auto.
    + rewrite H in E'. injection E' as <- <-. destruct (parent_unique 2 2 a 2 b u ltac:(lia) (one _ _ H0) (one _ _ C')) as [_ X]. congruence.
    + destruct (parent_unique 2 2 a 1 e u ltac:(lia) (one _ _ H0) (one _ _ C')) as [X _]. discriminate.
  - destruct (wm_edges _ W _ _ _ H) as (NE & _). inversion H2 as [|e' a' b' u' E' C' |e' a' b' u' E' C' |e' u' Q C'| ]; subst; auto.
    + rewrite H in E'. injection E' as <- <-. destruct (parent_unique 2 2 b 2 a u ltac:(lia) (one _ _ H0) (one _ _ C')) as [_ X]. congruence.
    + destruct (parent_unique 2 2 b 1 e u ltac:(lia) (one _ _ H0) (one _ _ C')) as [X _]. discriminate.
  - inversion H2 as [|e' a' b' u' E' C' |e' a' b' u' E' C' |e' u' Q C'| ]; subst; auto.
    + destruct (parent_unique 2 2 a' 1 e u ltac:(lia) (one _ _ C') (one _ _ H0)) as [X _]. discriminate.
    + destruct (parent_unique 2 2 b' 1 e u ltac:(lia) (one _ _ C') (one _ _ H0)) as [X _]. discriminate.
  - inversion H2; subst; auto.
Qed.
Lemma placed_list : forall p l w w', Forall2 (placed L p) l w -> Forall2 (placed L p) l w' -> w = w'.
Proof.
  intros p l w w' F. revert w'. induction F as [|u y l w H F IH]; intros w' F'; inversion F'; subst; auto. f_equal; auto. eapply placed_unique; eauto.
Qed.
Lemma same_ent : forall p p', ent_codim p = ent_codim p' -> ent_index p = ent_index p' -> p = p'.
Proof. intros [] []; cbn; intros; congruence. Qed.
Lemma inside_unique : forall e p w p' w', inside L L' e p w -> inside L L' e p' w' -> p = p' /\ w = w'.
Proof.
  intros e p w p' w' [I1 P1] [I2 P2]. destruct (parent_unique _ _ _ _ _ _ (codim3 e) I1 I2) as [A B].
  assert (p = p') by (apply same_ent; auto). subst p'. split; auto. eapply placed_list; eauto.
Qed.
End Unique.

(** ** Places lie in the reference element *)
Lemma loc_in : forall t n, (t = kTria \/ t = kQuad) -> in_ref t [fst (loc t n); snd (loc t n)].
Proof.
  assert (A3 : forall k, In (nth k (ref_corners kTria) (0, 0)) (ref_corners kTria)).
  { intros k. destruct (Nat.lt_ge_cases k 3); [apply nth_In; auto|rewrite nth_overflow by auto; left; auto]. }
  assert (A4 : forall k, In (nth k (ref_corners kQuad) (0, 0)) (ref_corners kQuad)).
  { intros k. destruct (Nat.lt_ge_cases k 4); [apply nth_In; auto|rewrite nth_overflow by auto; left; auto]. }
  intros t n [-> | ->]; destruct n as [k|k|]; cbn [loc]; unfold midpoint; cbn [fst snd].
  - destruct (A3 k) as [<-|[<-|[<-|[]]]]; cbn; lra.
  - destruct (A3 k) as [<-|[<-|[<-|[]]]]; destruct (A3 (S k mod length (ref_corners kTria))) as [<-|[<-|[<-|[]]]]; cbn; lra.
  - cbn; lra.
  - destruct (A4 k) as [<-|[<-|[<-|[<-|[]]]]]; cbn; lra.
  - destruct (A4 k) as [<-|[<-|[<-|[<-|[]]]]]; destruct (A4 (S k mod length (ref_corners kQuad))) as [<-|[<-|[<-|[<-|[]]]]]; cbn; lra.
  - cbn; lra.
Qed.
Lemma placed_in : forall L p u y, wf_mesh (l_mesh L) -> placed L p u y -> in_ref (ent_type (l_mesh L) p) y.
Proof.
  intros L p u y W H. destruct H; cbn [ent_type].
  - unfold DofModel.cell_at. rewrite (nth_error_nth _ _ _ H). apply loc_in. eapply tq.
    apply (proj1 (Forall_forall _ _) (wm_cells _ W)). eapply nth_error_In; eauto.
  - cbn; lra.
  - cbn; lra.
  - cbn; lra.
  - exact I.
Qed.
Lemma in_ref_length : forall t y, in_ref t y -> length y = el_dim t.
Proof. intros t y H. destruct t, y as [|a [|b [|]]]; cbn in *; tauto. Qed.
Lemma type_dim : forall m e, wf_mesh m -> valid m e -> el_dim (ent_type m e) = ent_dim e.
Proof.
  intros m e W V. destruct e as [i|i|i]; auto. cbn [ent_type valid] in *.
  assert (wf_cell m (DofModel.cell_at m i)) as Wc by (apply (proj1 (Forall_forall _ _) (wm_cells _ W)); apply nth_In; auto).
  destruct (tq _ _ Wc) as [-> | ->]; reflexivity.
Qed.

(** *** Convex combinations *)
Definition conv1 (c : list R) (w : list (list R)) (j : nat) : R := fold_right Rplus 0 (map (fun p => fst p * nth j (snd p) 0) (combine c w)).
Lemma conv_linear : forall al be ga c w, length c = length w -> Forall (fun a => 0 <= a) c ->
  Forall (fun y => 0 <= al * nth 0 y 0 + be * nth 1 y 0 + ga) w ->
  0 <= al * conv1 c w 0 + be * conv1 c w 1 + ga * fold_right Rplus 0 c.
Proof.
  intros al be ga c. induction c as [|a c IH]; intros [|y w] Hl Hc Hw; try discriminate.
  - cbn. lra.
  - inversion Hc; subst. inversion Hw; subst. cbn [conv1 combine map fold_right fst snd]. unfold conv1 in IH.
    specialize (IH w ltac:(cbn in Hl; lia) H2 H4). pose proof (Rmult_le_pos _ _ H1 H3). 
    set (s0 := fold_right Rplus 0 (map _ _)) in *. set (s1 := fold_right Rplus 0 (map (fun p => fst p * nth 1 (snd p) 0) (combine c w))) in *.
    replace (al * (a * nth 0 y 0 + s0) + be * (a * nth 1 y 0 + s1) + ga * (a + fold_right Rplus 0 c)) with
      (a * (al * nth 0 y 0 + be * nth 1 y 0 + ga) + (al * s0 + be * s1 + ga * fold_right Rplus 0 c)) by ring.
    unfold conv1 in *. lra.
Qed.
Definition weights (n : nat) (x : list R) : list R :=
  let s := nth 0 x 0 in let t := nth 1 x 0 in
  match n with
  | 1%nat => [1] | 2%nat => [1 - s; s] | 3%nat => [1 - s - t; s; t]
  | _ => [(1 - s) * (1 - t); s * (1 - t); s * t; (1 - s) * t]
  end.
Lemma onto_weights : forall w x, onto w x = map (conv1 (weights (length w) x) w) (seq 0 (length (nth 0 w []))).
Proof. intros w x. unfold onto, weights. destruct (length w) as [|[|[|[|n]]]]; reflexivity. Qed.
Lemma weights_ok : forall t x, in_ref t x -> length (weights (num_nodes t) x) = num_nodes t /\ Forall (fun a => 0 <= a) (weights (num_nodes t) x) /\
  fold_right Rplus 0 (weights (num_nodes t) x) = 1.
Proof.
  intros t x H. destruct t; destruct x as [|s [|u [|]]]; cbn in H; try tauto; cbn [num_nodes weights nth].
  - split; [reflexivity|]. split; [repeat (apply Forall_cons; [lra|]); apply Forall_nil|cbn; lra].
  - split; [reflexivity|]. split; [repeat (apply Forall_cons; [lra|]); apply Forall_nil|cbn; lra].
  - split; [reflexivity|]. split; [repeat (apply Forall_cons; [lra|]); apply Forall_nil|cbn; lra].
  - split; [reflexivity|]. split; [|cbn; ring].
    repeat (apply Forall_cons; [apply Rmult_le_pos; lra|]). apply Forall_nil.
Qed.
Lemma onto_in_ref : forall t t' w x, in_ref t' x -> length w = num_nodes t' -> Forall (in_ref t) w -> in_ref t (onto w x).
Proof.
  intros t t' w x Hx Hl Hw. destruct (weights_ok t' x Hx) as (A & B & D). rewrite onto_weights, Hl. set (c := weights (num_nodes t') x) in *.
  assert (Lc : length c = length w) by lia.
  assert (Q : length (nth 0 w []) = el_dim t).
  { destruct w as [|y r]; [destruct t'; discriminate|]. inversion Hw; subst. apply in_ref_length. auto. }
  rewrite Q.
  assert (K : forall al be ga, (forall y, in_ref t y -> 0 <= al * nth 0 y 0 + be * nth 1 y 0 + ga) -> 0 <= al * conv1 c w 0 + be * conv1 c w 1 + ga).
  { intros al be ga HK. pose proof (conv_linear al be ga c w Lc B) as X. rewrite D in X. rewrite Rmult_1_r in X. apply X.
    eapply Forall_impl; [|exact Hw]. exact HK. }
  destruct t; cbn [el_dim seq map in_ref]; auto.
  - pose proof (K 1 0 0) as K1. pose proof (K (-1) 0 1) as K2.
    assert (0 <= 1 * conv1 c w 0 + 0 * conv1 c w 1 + 0) by (apply K1; intros [|a [|]]; cbn; try tauto; lra).
    assert (0 <= -1 * conv1 c w 0 + 0 * conv1 c w 1 + 1) by (apply K2; intros [|a [|]]; cbn; try tauto; lra). lra.
  - assert (0 <= 1 * conv1 c w 0 + 0 * conv1 c w 1 + 0) by (apply K; intros [|a [|b [|]]]; cbn; try tauto; lra).
    assert (0 <= 0 * conv1 c w 0 + 1 * conv1 c w 1 + 0) by (apply K; intros [|a [|b [|]]]; cbn; try tauto; lra).
    assert (0 <= -1 * conv1 c w 0 + -1 * conv1 c w 1 + 1) by (apply K; intros [|a [|b [|]]]; cbn; try tauto; lra). lra.
  - assert (0 <= 1 * conv1 c w 0 + 0 * conv1 c w 1 + 0) by (apply K; intros [|a [|b [|]]]; cbn; try tauto; lra).
    assert (0 <= 0 * conv1 c w 0 + 1 * conv1 c w 1 + 0) by (apply K; intros [|a [|b [|]]]; cbn; try tauto; lra).
    assert (0 <= -1 * conv1 c w 0 + 0 * conv1 c w 1 + 1) by (apply K; intros [|a [|b [|]]]; cbn; try tauto; lra).
    assert (0 <= 0 * conv1 c w 0 + -1 * conv1 c w 1 + 1) by (apply K; intros [|a [|b [|]]]; cbn; try tauto; lra). lra.
Qed.
Lemma ent_nodes_length : forall m e, wf_mesh m -> valid m e -> length (ent_nodes m e) = num_nodes (ent_type m e).
Proof.
  intros m e W V. destruct e as [i|i|i]; cbn [ent_nodes ent_type valid] in *; auto.
  - destruct (nth_error (mv_edges m) i) as [[a b]|] eqn:E; auto. apply nth_error_None in E. lia.
  - assert (wf_cell m (DofModel.cell_at m i)) as Wc by (apply (proj1 (Forall_forall _ _) (wm_cells _ W)); apply nth_In; auto).
    assert (E : nth_error (mv_cells m) i = Some (DofModel.cell_at m i)) by (apply nth_error_nth'; auto). rewrite E.
    destruct (wf_type _ _ Wc) as [[-> ->]|[-> ->]]; reflexivity.
Qed.
Lemma F2_len : forall A B (P : A -> B -> Prop) l l', Forall2 P l l' -> length l = length l'.
Proof. intros A B P l l' F. induction F; cbn; auto. Qed.
Lemma inside_in : forall L L' e p w x, wf_mesh (l_mesh L) -> wf_mesh (l_mesh L') -> valid (l_mesh L') e -> inside L L' e p w ->
  in_ref (ent_type (l_mesh L') e) x -> in_ref (ent_type (l_mesh L) p) (onto w x).
Proof.
  intros L L' e p w x W W' V [_ F] Hx. apply (onto_in_ref _ (ent_type (l_mesh L') e)); auto.
  - rewrite <- (F2_len _ _ _ _ _ F). apply ent_nodes_length; auto.
  - clear - F W. induction F; constructor; auto. eapply placed_in; eauto.
Qed.
Lemma inside_dim : forall L L' e p w x, wf_mesh (l_mesh L) -> wf_mesh (l_mesh L') -> valid (l_mesh L') e -> valid (l_mesh L) p -> inside L L' e p w ->
  length (onto w x) = ent_dim p.
Proof.
  intros L L' e p w x W W' V Vp [_ F]. rewrite onto_weights, map_length, seq_length.
  pose proof (ent_nodes_length _ _ W' V) as N. rewrite (F2_len _ _ _ _ _ F) in N.
  inversion F as [|u y l w' P F' E1 E2]; subst; [destruct (ent_type (l_mesh L') e); discriminate|]. cbn [nth].
  rewrite (in_ref_length _ _ (placed_in _ _ _ _ W P)). apply type_dim; auto.
Qed.
