(** Meshes given by lists of nodes, edges and cells, and counting their edges and
    adjacent cells through tags for the edges. *)
From Coq Require Import List Arith Lia Bool.
Import ListNotations.
From Verif Require Import Base MeshModel MeshSpec MeshView MeshProofs4 MeshProofs5 MeshViewProofs RefineSpec.

Definition raw_history (n : nat) (es : list (nat * nat)) (cs : list (list nat)) : list call :=
  repeat (CPoint true) n ++ map (fun e => CEntity kSegment [fst e; snd e] true) es ++
  map (fun c => CEntity (cell_type c) c true) cs.

Section Raw.
Variables (n : nat) (es : list (nat * nat)) (cs : list (list nat)).
Hypothesis Shape : forall c, In c cs -> length c = 3 \/ length c = 4.
Let h := raw_history n es cs.

Lemma raw_type : forall c, In c cs -> (cell_type c = kTria \/ cell_type c = kQuad) /\
  length c = num_nodes (cell_type c).
Proof. intros c H. unfold cell_type. destruct (Shape c H) as [E|E]; rewrite E; simpl; auto. Qed.

Lemma raw_split : filter is_point_call h = repeat (CPoint true) n /\
  filter is_segment_call h = map (fun e => CEntity kSegment [fst e; snd e] true) es /\
  filter is_cell_call h = map (fun c => CEntity (cell_type c) c true) cs.
Proof.
  unfold h, raw_history. rewrite !filter_app.
  assert (P : forall f, f (CPoint true) = true -> filter f (repeat (CPoint true) n) = repeat (CPoint true) n).
  { intros f H. apply filter_all. intros x Hx. apply repeat_spec in Hx. subst; auto. }
  assert (P' : forall f, f (CPoint true) = false -> filter f (repeat (CPoint true) n) = []).
  { intros f H. apply filter_none. intros x Hx. apply repeat_spec in Hx. subst; auto. }
  assert (E' : forall f, (forall e : nat * nat, f (CEntity kSegment [fst e; snd e] true) = false) ->
    filter f (map (fun e => CEntity kSegment [fst e; snd e] true) es) = []).
  { intros f H. apply filter_none. intros x Hx. apply in_map_iff in Hx as (e & <- & _). apply H. }
  assert (Q' : forall f, (forall c, f (CEntity kTria c true) = false) -> (forall c, f (CEntity kQuad c true) = false) ->
    filter f (map (fun c => CEntity (cell_type c) c true) cs) = []).
  { intros f H H'. apply filter_none. intros x Hx. apply in_map_iff in Hx as (c & <- & Hc).
    destruct (proj1 (raw_type c Hc)) as [-> | ->]; auto. }
  rewrite (P is_point_call), (P' is_segment_call), (P' is_cell_call), (E' is_point_call),
    (E' is_cell_call), (Q' is_point_call), (Q' is_segment_call) by reflexivity.
  rewrite !app_nil_r. simpl. split; auto. split.
  - apply filter_all. intros x Hx. apply in_map_iff in Hx as (e & <- & _). reflexivity.
  - apply filter_all. intros x Hx. apply in_map_iff in Hx as (c & <- & Hc).
    destruct (proj1 (raw_type c Hc)) as [-> | ->]; auto.
Qed.

Lemma raw_points : points_of h = n.
Proof. unfold points_of, count_calls. rewrite (proj1 raw_split). apply repeat_length. Qed.
Lemma raw_segments : segments_of h = map (fun e => ([fst e; snd e], true)) es.
Proof. unfold segments_of. rewrite (proj1 (proj2 raw_split)), map_map. reflexivity. Qed.
Lemma raw_cells : cells_of h = map (fun c => (c, true)) cs.
Proof. unfold cells_of. rewrite (proj2 (proj2 raw_split)), map_map. reflexivity. Qed.

Hypothesis Nodes : forall c v, In c cs -> In v c -> v < n.
Hypothesis Edges : forall a b, In (a, b) es -> a < n /\ b < n.

Lemma raw_legal : legal h.
Proof.
  intros i c H. unfold h, raw_history in H |- *.
  set (ps := repeat (CPoint true) n) in *.
  destruct (Nat.lt_ge_cases i (length ps)) as [Hi|Hi].
  - rewrite nth_error_app1 in H by auto. apply nth_error_In in H. apply repeat_spec in H as ->. reflexivity.
  - rewrite nth_error_app2 in H by auto. rewrite firstn_app, points_of_app.
    rewrite firstn_all2 by auto.
    assert (Hp : points_of ps = n).
    { unfold points_of, count_calls. rewrite filter_all; [apply repeat_length|].
      intros x Hx; apply repeat_spec in Hx as ->; auto. }
    rewrite Hp. apply nth_error_In in H. apply in_app_or in H as [H|H].
    + apply in_map_iff in H as ([a b] & <- & Hin). destruct (Edges a b Hin). simpl.
      split; [discriminate|]. split; auto. repeat constructor; lia.
    + apply in_map_iff in H as (v & <- & Hin). destruct (raw_type v Hin) as [Hv Hl]. simpl.
      split; [destruct Hv as [-> | ->]; discriminate|]. split; auto.
      apply Forall_forall. intros w Hw. specialize (Nodes v w Hin Hw). lia.
Qed.

Lemma raw_run : forall check, exists rets, run h (new_factory check) =
  Ok (rets, mkFactory check n (map (fun e => (e, true)) es) (map (fun c => (c, true)) cs)).
Proof.
  intros check. destruct (run_spec h (new_factory check)) as [R _].
  destruct R as (rets & E & _); [apply legal_from_0, raw_legal|].
  exists rets. rewrite E, raw_points, raw_segments, raw_cells. simpl. f_equal. f_equal. f_equal.
  rewrite map_map. apply map_ext. intros [a b]. reflexivity.
Qed.
End Raw.

(** ** Tags for edges *)
Section Tagged.
Context {T : Type} (Tdec : forall a b : T, {a = b} + {a <> b}).
Variables (n : nat) (cs : list (list nat)) (pr : T -> nat * nat) (U Sup : list T)
  (tags : list (list T)).
Hypothesis Shape : forall c, In c cs -> length c = 3 \/ length c = 4.
Hypothesis Nodes : forall c v, In c cs -> In v c -> v < n.
Hypothesis Sides : Forall2 (fun c ts => length ts = length c /\
  forall j, j < length c -> exists t, nth_error ts j = Some t /\ In t U /\ same_pair (pr t) (side c j)) cs tags.
Hypothesis Proper : forall t, In t U -> fst (pr t) <> snd (pr t).
Hypothesis Inj : forall t t', In t U -> In t' U -> same_pair (pr t) (pr t') -> t = t'.
Hypothesis Nodup : NoDup U.
Hypothesis Used : forall t, In t U -> In t (concat tags).
Hypothesis SupU : incl Sup U.
Hypothesis SupN : NoDup Sup.
Hypothesis Touch : forall v, v < n -> exists c, In c cs /\ In v c.
Let h := raw_history n (map pr Sup) cs.

Lemma same_pair_refl : forall a, same_pair a a.
Proof. left; auto. Qed.
Lemma same_pair_sym : forall a b, same_pair a b -> same_pair b a.
Proof. unfold same_pair; intuition. Qed.
Lemma same_pair_trans : forall a b c, same_pair a b -> same_pair b c -> same_pair a c.
Proof. unfold same_pair; intuition congruence. Qed.

Lemma tag_of_side : forall c j, In c cs -> j < length c ->
  exists t, In t U /\ same_pair (pr t) (side c j).
Proof.
  intros c j Hc Hj. pose proof Sides as F. clear Used Touch.
  assert (G : forall c, In c cs -> exists ts, length ts = length c /\
    forall j, j < length c -> exists t, nth_error ts j = Some t /\ In t U /\ same_pair (pr t) (side c j)).
  { clear -F. induction F; intros c Hc; [destruct Hc|]. destruct Hc as [<-|Hc]; eauto. }
  destruct (G c Hc) as (ts & _ & G'). destruct (G' j Hj) as (t & _ & ? & ?). eauto.
Qed.

Lemma side_of_tag : forall t, In t (concat tags) -> exists c j, In c cs /\ j < length c /\
  In t U /\ same_pair (pr t) (side c j).
Proof.
  intros t H. apply in_concat in H as (ts & Hts & Ht).
  assert (G : forall ts, In ts tags -> exists c, In c cs /\ length ts = length c /\
    forall j, j < length c -> exists t, nth_error ts j = Some t /\ In t U /\ same_pair (pr t) (side c j)).
  { pose proof Sides as F. clear -F. induction F; intros c Hc; [destruct Hc|]. destruct Hc as [<-|Hc].
    - exists x. simpl. split; auto.
    - destruct (IHF c Hc) as (x' & ? & ?). exists x'. simpl; auto. }
  destruct (G ts Hts) as (c & Hc & L & H1).
  apply In_nth_error in Ht as [j Hj].
  assert (j < length c) by (rewrite <- L; apply nth_error_Some; congruence).
  destruct (H1 j H) as (t' & Hj' & Hu & HS). assert (t' = t) by congruence. subst t'.
  exists c, j. auto.
Qed.

Lemma is_side_iff : forall p, is_side h p <-> exists t, In t U /\ same_pair p (pr t).
Proof.
  intros p. unfold is_side. unfold h. rewrite raw_cells by auto. split.
  - intros (c & g & j & Hc & Hj & E). apply in_map_iff in Hc as (c' & [= -> <-] & Hc).
    destruct (tag_of_side c j Hc Hj) as (t & Ht & E'). exists t. split; auto.
    eapply same_pair_trans; eauto using same_pair_sym.
  - intros (t & Ht & E). destruct (side_of_tag t (Used t Ht)) as (c & j & Hc & Hj & _ & E').
    exists c, true, j. split; [apply in_map_iff; eauto|]. split; auto.
    eapply same_pair_trans; eauto.
Qed.
Lemma supplied_is_side : forall p, is_supplied h p -> is_side h p.
Proof.
  intros p (a & b & g & H & E). apply is_side_iff. unfold h in H. rewrite raw_segments in H by auto.
  apply in_map_iff in H as (e & [= <- <- <-] & He). apply in_map_iff in He as (t & <- & Ht).
  exists t. split; auto; destruct (pr t); auto.
Qed.

Lemma tagged_edges : forall a b, In (a, b) (map pr Sup) -> a < n /\ b < n.
Proof.
  intros a b H. apply in_map_iff in H as (t & E & Ht).
  destruct (side_of_tag t (Used t (SupU t Ht))) as (c & j & Hc & Hj & _ & S').
  assert (L : length c <> 0) by (destruct (Shape c Hc); lia).
  assert (A : fst (side c j) < n) by (apply (Nodes c); auto; apply nth_In; auto).
  assert (A' : snd (side c j) < n).
  { apply (Nodes c); auto. unfold side; simpl snd. apply nth_In. apply Nat.mod_upper_bound. auto. }
  rewrite E in S'. destruct S' as [[S1 S2]|[S1 S2]]; cbn [fst snd] in S1, S2; lia.
Qed.

Lemma tagged_consistent : consistent h.
Proof.
  split; [|split].
  - intros a b g H. unfold h in H. rewrite raw_segments in H by auto.
    apply in_map_iff in H as (e & [= <- <- <-] & He). split; auto.
    apply in_map_iff in He as (t & <- & Ht). apply Proper. auto.
  - intros k l a b g a' b' g' H H' E. unfold h in *. rewrite raw_segments in * by auto.
    rewrite map_map in *. rewrite nth_error_map in H, H'.
    destruct (nth_error Sup k) as [t|] eqn:Ek; [|discriminate].
    destruct (nth_error Sup l) as [t'|] eqn:El; [|discriminate].
    simpl in H, H'. injection H as <- <- <-. injection H' as <- <- <-.
    assert (t = t').
    { apply Inj; [apply SupU; eapply nth_error_In; eauto..|].
      destruct (pr t), (pr t'); auto. }
    subst t'. eapply (proj1 (NoDup_nth_error Sup) SupN); [apply nth_error_Some; congruence|congruence].
  - intros c g j Hc Hj. unfold h in Hc. rewrite raw_cells in Hc by auto.
    apply in_map_iff in Hc as (c' & [= -> <-] & Hc).
    destruct (tag_of_side c j Hc Hj) as (t & Ht & E'). pose proof (Proper t Ht).
    destruct E' as [[? ?]|[? ?]]; congruence.
Qed.

Lemma tagged_complete : complete h.
Proof.
  split.
  - intros a b g H. apply supplied_is_side. exists a, b, g. split; auto. apply same_pair_refl.
  - intros v Hv. unfold h in Hv. rewrite raw_points in Hv by auto.
    destruct (Touch v Hv) as (c & Hc & Hcv). apply In_nth with (d := 0) in Hcv as (j & Hj & E).
    exists (side c j). split; [right|exact E]. exists c, true, j. unfold h. rewrite raw_cells by auto.
    split; [apply in_map_iff; eauto|]. split; auto. apply same_pair_refl.
Qed.

Theorem tagged_built : forall check, exists M,
  mesh_ctor check n (map (fun e => (e, true)) (map pr Sup)) (map (fun c => (c, true)) cs) = Ok M /\
  built check h M.
Proof.
  intros check. destruct (raw_run n (map pr Sup) cs Shape Nodes tagged_edges check) as [rets R].
  destruct (build_outcome check h) as (_ & _ & O). destruct (O _ _ R) as [O1 _].
  destruct O1 as [_ O1]. destruct O1 as [M HM].
  { split; [apply tagged_consistent|]. intros; apply tagged_complete. }
  exists M. split; [exact HM|]. eexists; eexists; split; eauto.
Qed.

Section Mesh.
Variables (check : bool) (M : mesh_obj).
Hypothesis B : built check h M.
Let m := view M.

Definition rel (e : nat) (t : T) : Prop :=
  In t U /\ exists p, nth_error (mv_edges m) e = Some p /\ same_pair p (pr t).

Lemma rel_fun : forall e t t', rel e t -> rel e t' -> t = t'.
Proof.
  intros e t t' (H & p & Hp & E) (H' & p' & Hp' & E'). apply Inj; auto.
  assert (p = p') by congruence. subst p'. eapply same_pair_trans; eauto using same_pair_sym.
Qed.
Lemma rel_inj : forall e e' t, rel e t -> rel e' t -> e = e'.
Proof.
  intros e e' t (H & [a b] & Hp & E) (H' & [a' b'] & Hp' & E').
  eapply (wm_unique _ (view_wf check h M B)); eauto.
  assert (S' : same_pair (a, b) (a', b')) by (eapply same_pair_trans; [eauto|apply same_pair_sym; auto]).
  exact S'.
Qed.
Lemma rel_total : forall e, e < length (mv_edges m) -> exists t, rel e t.
Proof.
  intros e He. destruct (nth_error (mv_edges m) e) as [p|] eqn:Ep; [|apply nth_error_None in Ep; lia].
  pose proof Ep as Ep'. unfold m in Ep'. rewrite (view_edges_lookup check h M B) in Ep'.
  destruct (edge_by_index M e) as [s|] eqn:Es; [|discriminate]. injection Ep' as Ep'.
  destruct (one_edge_per_pair check h M B) as (_ & X & _).
  assert (X' : is_supplied h p \/ is_side h p) by (apply X; exists e, s; split; auto; rewrite Ep'; apply same_pair_refl).
  assert (X'' : is_side h p) by (destruct X'; auto using supplied_is_side).
  apply is_side_iff in X'' as (t & Ht & E). exists t. split; auto. exists p; auto.
Qed.
Lemma rel_onto : forall t, In t U -> exists e, e < length (mv_edges m) /\ rel e t.
Proof.
  intros t Ht. destruct (one_edge_per_pair check h M B) as (_ & X & _).
  destruct (proj2 (X (pr t))) as (i & s & Hi & E).
  { right. apply is_side_iff. exists t. split; auto. apply same_pair_refl. }
  assert (Hp : nth_error (mv_edges m) i = Some (ends s)).
  { unfold m. rewrite (view_edges_lookup check h M B), Hi. reflexivity. }
  exists i. split; [apply nth_error_Some; congruence|]. split; auto. exists (ends s). auto.
Qed.

Lemma Forall2_length : forall A C (P : A -> C -> Prop) l l', Forall2 P l l' -> length l = length l'.
Proof. induction 1; simpl; auto. Qed.
Lemma forall_rel : forall A C (P : A -> C -> Prop) l, (forall x, In x l -> exists y, P x y) ->
  exists l', Forall2 P l l'.
Proof.
  induction l as [|x l IH]; intros H; [exists []; auto|].
  destruct (H x) as [y Hy]; simpl; auto. destruct IH as [l' Hl]; [intros; apply H; simpl; auto|].
  exists (y :: l'); auto.
Qed.
Lemma forall2_nodup : forall A C (P : A -> C -> Prop) l l', (forall x x' y, P x y -> P x' y -> x = x') ->
  Forall2 P l l' -> NoDup l -> NoDup l'.
Proof.
  intros A C P l l' I F. induction F; intros N; constructor; inversion N; subst; auto.
  intros Hy. apply H2. clear -F Hy I H. induction F; [destruct Hy|].
  destruct Hy as [<-|Hy]; [left; eauto|right; auto].
Qed.

Theorem tagged_count : length (mv_edges m) = length U.
Proof.
  apply Nat.le_antisymm.
  - destruct (forall_rel _ _ rel (seq 0 (length (mv_edges m)))) as [l F].
    { intros x Hx. apply in_seq in Hx. apply rel_total; lia. }
    rewrite <- (seq_length (length (mv_edges m)) 0), (Forall2_length _ _ _ _ _ F).
    apply NoDup_incl_length.
    + eapply forall2_nodup; eauto; [apply rel_inj|apply seq_NoDup].
    + intros t Ht. clear -F Ht. induction F; [destruct Ht|]. destruct Ht as [<-|Ht]; auto. apply H.
  - destruct (forall_rel _ _ (fun t e => rel e t /\ e < length (mv_edges m)) U) as [l F].
    { intros t Ht. destruct (rel_onto t Ht) as (e & ? & ?). eauto. }
    rewrite (Forall2_length _ _ _ _ _ F), <- (seq_length (length (mv_edges m)) 0).
    apply NoDup_incl_length.
    + eapply forall2_nodup; eauto. simpl. intros x x' y [H _] [H' _]. eapply rel_fun; eauto.
    + intros e He. apply in_seq. clear -F He.
      induction F; [destruct He|]. destruct He as [<-|He]; auto. destruct H; lia.
Qed.

Theorem tagged_nodes : mv_nodes m = n /\ map cv_nodes (mv_cells m) = cs.
Proof.
  destruct B as (rets & f & R & Bd).
  pose proof (index_contract check h rets f M R Bd) as (_ & _ & NP & _ & NC & CL).
  destruct (view_counts check h M B) as (V1 & _ & V3). split.
  - unfold m. rewrite V1, NP. apply raw_points; auto.
  - apply nth_error_ext. intros i. rewrite nth_error_map.
    unfold m. rewrite (view_cells_lookup check h M B).
    unfold h in CL. rewrite raw_cells in CL by auto.
    destruct (nth_error cs i) as [c|] eqn:Ec.
    + destruct (CL i c true) as (x & Hx & _ & N & _); [rewrite nth_error_map, Ec; reflexivity|].
      rewrite Hx. simpl. unfold cell_view; simpl. congruence.
    + destruct (cell_by_index M i) as [x|] eqn:Ex; auto.
      exfalso. pose proof (view_cells_lookup check h M B i) as V. rewrite Ex in V. cbn [option_map] in V.
      assert (i < length (mv_cells (view M))) by (apply nth_error_Some; rewrite V; discriminate).
      rewrite V3, NC in H. unfold h in H. rewrite raw_cells, map_length in H by auto.
      apply nth_error_None in Ec. lia.
Qed.

Lemma count_rel : forall l l' e t, Forall2 rel l l' -> rel e t ->
  count_occ Nat.eq_dec l e = count_occ Tdec l' t.
Proof.
  intros l l' e t F R. induction F; simpl; auto.
  destruct (Nat.eq_dec x e) as [->|N]; destruct (Tdec y t) as [->|N']; auto.
  - destruct N'. eapply rel_fun; eauto.
  - destruct N. eapply rel_inj; eauto.
Qed.

Lemma forall2_ext : forall A C (P : A -> C -> Prop) l l', length l = length l' ->
  (forall j x y, nth_error l j = Some x -> nth_error l' j = Some y -> P x y) -> Forall2 P l l'.
Proof.
  induction l as [|x l IH]; intros [|y l'] L H; try discriminate; constructor.
  - apply (H 0); auto.
  - apply IH; auto. intros j. apply (H (S j)).
Qed.

Lemma cells_rel : Forall2 rel (flat_map cv_edges (mv_cells m)) (concat tags).
Proof.
  pose proof (view_wf check h M B) as W. pose proof (wm_cells _ W) as WC. fold m in W, WC.
  pose proof (proj2 tagged_nodes) as E.
  assert (G : forall l, Forall (wf_cell m) l -> forall tg, Forall2 (fun c ts => length ts = length c /\
     forall j, j < length c -> exists t, nth_error ts j = Some t /\ In t U /\ same_pair (pr t) (side c j))
     (map cv_nodes l) tg -> Forall2 rel (flat_map cv_edges l) (concat tg)).
  { induction l as [|c l IH]; intros WL tg F; inversion F; subst; simpl; auto.
    inversion WL; subst. apply Forall2_app; auto. destruct H1 as [L H1].
    apply forall2_ext; [rewrite (wc_edges _ _ H2); auto|].
    intros j e t He Ht.
    assert (Hj : j < length (cv_nodes c)) by (rewrite <- L; apply nth_error_Some; congruence).
    destruct (H1 j Hj) as (t' & Ht' & Hu & HS). assert (t' = t) by congruence. subst t'.
    destruct (wc_local _ _ H2 j Hj) as (e' & o & p0 & p1 & He' & Ho & Hp & Ho').
    assert (e' = e) by congruence. subst e'. split; auto. exists (p0, p1). split; auto.
    apply same_pair_sym. eapply same_pair_trans; eauto. unfold side, same_pair, next_corner in *; simpl in *.
    destruct o; intuition. }
  apply G; auto. rewrite E. exact Sides.
Qed.

Theorem tagged_adjacent : forall e a b, nth_error (mv_edges m) e = Some (a, b) ->
  exists t, In t U /\ same_pair (a, b) (pr t) /\ adjacent m e = count_occ Tdec (concat tags) t.
Proof.
  intros e a b H. destruct (rel_total e) as [t R]; [apply nth_error_Some; congruence|].
  exists t. destruct R as (Hu & p & Hp & HS). split; auto. split; [congruence|].
  unfold adjacent. apply count_rel; [apply cells_rel|]. split; auto. eauto.
Qed.

Lemma tagged_supplied : forall k t, nth_error Sup k = Some t -> nth_error (mv_edges m) k = Some (pr t).
Proof.
  intros k t H. destruct B as (rets & f & R & Bd).
  pose proof (index_contract check h rets f M R Bd) as (_ & _ & _ & SG & _).
  unfold h in SG. rewrite raw_segments in SG by auto.
  destruct (SG k [fst (pr t); snd (pr t)] true) as (s & Hs & _ & E & _).
  { rewrite map_map, nth_error_map, H. reflexivity. }
  unfold m. rewrite (view_edges_lookup check h M B), Hs. simpl. injection E as E1 E2.
  unfold ends. destruct (pr t); simpl in *; congruence.
Qed.
End Mesh.
End Tagged.
