(** Proofs for C60: several levels. *)
From Coq Require Import Reals List Arith Bool ZArith Lia Lra.
Import ListNotations.
From Verif Require Import Base MeshModel MeshView RefPatModel RefPatSpec RefineModel RefineSpec RefineProofs5
  DofModel DofSpec GeoModel GeoSpec FeModel FeToolsModel FeToolsProofs HierProofs TransferModel TransferSpec TransferProofs TransferProofs2 TransferProofs3.
Local Open Scope R_scope.

Record good_levels (Ls : list level) : Prop := {
  gl_mesh : forall L, In L Ls -> wf_mesh (l_mesh L) /\ simple_mesh (l_mesh L);
  gl_step : forall i L L', nth_error Ls i = Some L -> nth_error Ls (S i) = Some L' -> refined_to L (l_mesh L') /\ linked L L'
}.

Lemma init_ok : forall L L', wf_mesh (l_mesh L) -> wf_mesh (l_mesh L') -> refined_to L (l_mesh L') -> linked L L' ->
  exists gs, initGeometryInParent L L' = Ok gs /\
    forall e, valid (l_mesh L') e -> exists g, relative_geometry L L' (ent_codim e) (ent_index e) = Ok g /\
      nth_error (match ent_codim e with O => fst (fst gs) | 1%nat => snd (fst gs) | _ => snd gs end) (ent_index e) = Some g.
Proof.
  intros L L' W W' RF LK. unfold initGeometryInParent.
  assert (ALL : forall e, valid (l_mesh L') e -> exists g, relative_geometry L L' (ent_codim e) (ent_index e) = Ok g).
  { intros e V. destruct (step_geometry L L' W W' RF LK e V) as (p & w & k & _ & _ & _ & _ & (g & G & _) & _). eauto. }
  destruct (traverse_all _ _ (relative_geometry L L' 0) (seq 0 (length (mv_cells (l_mesh L'))))) as (cs & T0).
  { intros a Ha. apply in_seq in Ha. apply (ALL (ECell a)). cbn. lia. }
  destruct (traverse_all _ _ (relative_geometry L L' 1) (seq 0 (length (mv_edges (l_mesh L'))))) as (es & T1).
  { intros a Ha. apply in_seq in Ha. apply (ALL (EEdge a)). cbn. lia. }
  destruct (traverse_all _ _ (relative_geometry L L' 2) (seq 0 (mv_nodes (l_mesh L')))) as (ns & T2).
  { intros a Ha. apply in_seq in Ha. apply (ALL (ENode a)). cbn. lia. }
  rewrite T0, T1, T2. cbn [bind]. eexists. split; [reflexivity|].
  intros e V. assert (Q : forall d n bs i, traverse (relative_geometry L L' d) (seq 0 n) = Ok bs -> (i < n)%nat ->
     exists g, relative_geometry L L' d i = Ok g /\ nth_error bs i = Some g).
  { intros d n bs i T Hi. apply traverse_Forall2 in T.
    assert (X : nth_error (seq 0 n) i = Some i) by (rewrite nth_error_nth' with (d := O) by (rewrite seq_length; auto); rewrite seq_nth; auto).
    destruct (F2_nth _ _ _ _ _ _ _ T X) as (g & A & B). eauto. }
  destruct e as [i|i|i]; cbn [ent_codim ent_index fst snd]; eapply Q; eauto.
Qed.

Section Levels.
Variable H : hierarchy.
Hypothesis GL : good_levels (levels H).
Lemma nth_in : forall i L, nth_error (levels H) i = Some L -> wf_mesh (l_mesh L) /\ simple_mesh (l_mesh L).
Proof. intros i L E. apply (gl_mesh _ GL). eapply nth_error_In; eauto. Qed.

Lemma up : forall l L L' e, nth_error (levels H) l = Some L -> nth_error (levels H) (S l) = Some L' -> valid (l_mesh L') e ->
  exists p w g, valid (l_mesh L) p /\ (ent_codim p <= ent_codim e)%nat /\ inside L L' e p w /\ GeometryInParent H (S l) e = Ok g /\ ParentEntity H (S l) e = Ok p /\
    go_dim g = ent_dim p /\ forall x, length x = ent_dim e -> exists v, Global g x = Ok v /\ to_local g v = onto w x.
Proof.
  intros l L L' e E E' V. destruct (nth_in _ _ E) as [W _]. destruct (nth_in _ _ E') as [W' _].
  destruct (gl_step _ GL _ _ _ E E') as [RF LK].
  destruct (step_geometry L L' W W' RF LK e V) as (p & w & k & Vp & Hc & HP & IN & (g & G1 & G2 & G3) & _).
  destruct (init_ok L L' W W' RF LK) as (gs & IG & IG2). destruct (IG2 e V) as (g' & G1' & GN). rewrite G1 in G1'. injection G1' as <-.
  exists p, w, g. split; auto. split; auto. split; auto. split; [|split; [|split]]; auto.
  - unfold GeometryInParent. cbn [Nat.ltb Nat.leb lf_assert bind]. replace (S l - 1)%nat with l by lia.
    change (all_levels H) with (levels H). rewrite (get_ok _ _ _ _ E), (get_ok _ _ _ _ E'). cbn [bind]. rewrite IG. cbn [bind]. apply get_ok. exact GN.
  - unfold ParentEntity. cbn [Nat.ltb Nat.leb lf_assert bind]. change (all_levels H) with (levels H). rewrite (get_ok _ _ _ _ E'). cbn [bind].
    rewrite (get_ok _ _ _ _ HP). cbn [bind pa_ptr]. rewrite ent_of_self. reflexivity.
Qed.

Lemma climb_image : forall lc lev L e x, (lc <= lev)%nat -> nth_error (levels H) lev = Some L -> valid (l_mesh L) e -> length x = ent_dim e ->
  exists Lc q y, nth_error (levels H) lc = Some Lc /\ climb H lc lev e x = Ok (q, y) /\ image (levels H) lev e x lc q y /\ valid (l_mesh Lc) q /\ length y = ent_dim q.
Proof.
  intros lc lev. induction lev as [|l IH]; intros L e x Hl EL V Hx.
  - assert (lc = 0%nat) by lia. subst lc. exists L, e, x. split; auto. split; [reflexivity|]. split; [constructor|]. auto.
  - destruct (Nat.eq_dec lc (S l)) as [->|N].
    + exists L, e, x. split; auto. cbn [climb]. rewrite Nat.ltb_irrefl. split; [reflexivity|]. split; [constructor|]. auto.
    + cbn [climb]. rewrite (proj2 (Nat.ltb_lt lc (S l))) by lia.
      destruct (nth_error (levels H) l) as [L0|] eqn:E0.
      2: { apply nth_error_None in E0. assert (S l < length (levels H))%nat by (apply nth_error_Some; congruence). lia. }
      destruct (up _ _ _ _ E0 EL V) as (p & w & g & Vp & Hc & IN & G & P & D & X). destruct (X x Hx) as (v & G1 & G2).
      rewrite G, P. cbn [bind]. rewrite G1. cbn [bind]. rewrite G2.
      destruct (IH L0 p (onto w x)) as (Lc & q & y & A & B & C & V' & Y); auto; try lia.
      { eapply inside_dim; [..|exact IN]; auto; [apply (nth_in _ _ E0)|apply (nth_in _ _ EL)]. }
      exists Lc, q, y. split; auto. split; auto. split; auto. econstructor; eauto.
Qed.
Theorem transfer_image : forall mf lc lf L e x, (lc < lf)%nat -> nth_error (levels H) lf = Some L -> valid (l_mesh L) e -> length x = ent_dim e ->
  exists Lc q y, nth_error (levels H) lc = Some Lc /\ image (levels H) lf e x lc q y /\ valid (l_mesh Lc) q /\ length y = ent_dim q /\
    transfer_eval H mf lc lf e x = mf q y.
Proof.
  intros mf lc lf L e x Hl EL V Hx. destruct (climb_image lc lf L e x ltac:(lia) EL V Hx) as (Lc & q & y & A & B & C & D & E).
  exists Lc, q, y. split; auto. split; auto. split; auto. split; auto.
  unfold transfer_eval. destruct lf as [|l]; [lia|]. cbn [climb] in B. rewrite (proj2 (Nat.ltb_lt lc (S l))) in B by lia.
  destruct (GeometryInParent H (S l) e) as [g| |]; try discriminate. cbn [bind] in *.
  destruct (ParentEntity H (S l) e) as [p| |]; try discriminate. cbn [bind] in *.
  destruct (Global g x) as [v| |]; try discriminate. cbn [bind] in *. replace (S l - 1)%nat with l by lia. rewrite B. reflexivity.
Qed.
Lemma image_le : forall l e x k q y, image (levels H) l e x k q y -> (k <= l)%nat.
Proof. intros l e x k q y I. induction I; lia. Qed.
Lemma image_unique : forall l e x k q y q' y', image (levels H) l e x k q y -> image (levels H) l e x k q' y' -> q = q' /\ y = y'.
Proof.
  intros l e x k q y q' y' I. revert q' y'. induction I as [l e x|l e x L L' p w k q y E E' IN I IH]; intros q' y' I'.
  - inversion I' as [l0 e0 x0 A1 A2 A3 A4 A5 A6 | l0 e0 x0 L L' p w k q y E E' IN I2 A1 A2 A3 A4 A5 A6]; subst; auto.
    apply image_le in I2. lia.
  - inversion I' as [l0 e0 x0 A1 A2 A3 A4 A5 A6 | l0 e0 x0 L0 L0' p0 w0 k0 q0 y0 E0 E0' IN0 I2 A1 A2 A3 A4 A5 A6]; subst; auto.
    + apply image_le in I. lia.
    + rewrite E in E0. injection E0 as <-. rewrite E' in E0'. injection E0' as <-.
      destruct (nth_in _ _ E) as [W S0]. destruct (gl_step _ GL _ _ _ E E') as [RF LK].
      destruct (inside_unique L L' W S0 LK _ _ _ _ _ IN IN0) as [<- <-]. apply IH. exact I2.
Qed.
Lemma image_in_ref : forall l e x k q y, image (levels H) l e x k q y -> forall L Lk, nth_error (levels H) l = Some L -> nth_error (levels H) k = Some Lk ->
  valid (l_mesh L) e -> in_ref (ent_type (l_mesh L) e) x -> in_ref (ent_type (l_mesh Lk) q) y.
Proof.
  intros l e x k q y I. induction I as [l e x|l e x L L' p w k q y E E' IN I IH]; intros M Mk EM EK V Hx.
  - rewrite EM in EK. injection EK as <-. auto.
  - rewrite E' in EM. injection EM as <-. destruct (nth_in _ _ E) as [W S0]. destruct (nth_in _ _ E') as [W' S0'].
    destruct (up _ _ _ _ E E' V) as (p' & w' & _ & Vp & _ & IN' & _). destruct (gl_step _ GL _ _ _ E E') as [RF LK].
    destruct (inside_unique L L' W S0 LK _ _ _ _ _ IN IN') as [<- <-].
    apply (IH L Mk); auto. eapply inside_in; [..|exact IN|]; auto.
Qed.
End Levels.

(** ** Histories *)
Lemma good_hier_levels : forall check m0 H, good_hier check m0 H -> good_levels (levels H).
Proof. intros check m0 H [_ _ A _ B]. constructor; auto. intros L HL. destruct (A L HL) as (X & Y & _). auto. Qed.
Lemma init_finest_ok : forall check m0 H, good_hier check m0 H -> (1 < length (levels H))%nat -> init_finest H = Ok tt.
Proof.
  intros check m0 H G Hl. pose proof (good_hier_levels _ _ _ G) as GL. unfold init_finest. change (all_levels H) with (levels H).
  rewrite (proj2 (Nat.ltb_lt _ _) Hl). cbn [lf_assert bind].
  destruct (nth_error (levels H) (length (levels H) - 2)) as [L|] eqn:E; [|apply nth_error_None in E; lia].
  destruct (nth_error (levels H) (length (levels H) - 1)) as [L'|] eqn:E'; [|apply nth_error_None in E'; lia].
  rewrite (get_ok _ _ _ _ E), (get_ok _ _ _ _ E'). cbn [bind].
  destruct (gl_step _ GL (length (levels H) - 2) L L' E) as [RF LK]; [replace (S (length (levels H) - 2)) with (length (levels H) - 1)%nat by lia; exact E'|].
  destruct (init_ok L L') as (gs & -> & _); auto; [apply (gl_mesh _ GL); eapply nth_error_In; eauto|apply (gl_mesh _ GL); eapply nth_error_In; eauto].
Qed.
Lemma levels_pos : forall H, (1 <= length (levels H))%nat.
Proof. intros H. unfold levels. rewrite app_length. cbn. lia. Qed.
Lemma run_geo : forall os check m0 H, good_hier check m0 H -> (check = true -> complete_mesh m0) -> Forall good_hop os ->
  exists H', run_hops_geo os H = Ok H' /\ run_hops os H = Ok H' /\ good_hier check m0 H' /\
    length (levels H') = (length (levels H) + length (filter is_refinement os))%nat.
Proof.
  induction os as [|o os IH]; intros check m0 H G HC Ho; cbn [run_hops_geo run_hops].
  - exists H. cbn. rewrite Nat.add_0_r. auto.
  - inversion Ho as [|? ? H1 H2]; subst. destruct (hop_good o check m0 H G HC H1) as (H' & E & G' & Ln).
    assert (E2 : apply_hop_geo o H = Ok H').
    { pose proof (levels_pos H). destruct o as [mk|lg p|lg]; cbn [apply_hop apply_hop_geo is_refinement] in *; auto.
      - unfold RefineRegularGeo. rewrite E. cbn [bind]. rewrite (init_finest_ok _ _ _ G') by lia. reflexivity.
      - unfold RefineMarkedGeo. rewrite E. cbn [bind]. rewrite (init_finest_ok _ _ _ G') by lia. reflexivity. }
    rewrite E, E2. cbn [bind].
    destruct (IH check m0 H' G' HC H2) as (H'' & E' & E'' & G'' & Ln'). exists H''. split; auto. split; auto. split; auto. cbn. destruct (is_refinement o); cbn; lia.
Qed.
Theorem geo_history : forall os longest check m, wf_mesh m -> simple_mesh m -> (check = true -> complete_mesh m) -> (forall i, longest i < 3)%nat ->
  Forall good_hop os -> exists H, run_hops_geo os (new_hierarchy longest m (new_factory check)) = Ok H /\
    run_hops os (new_hierarchy longest m (new_factory check)) = Ok H /\ length (levels H) = S (length (filter is_refinement os)).
Proof.
  intros os longest check m W S HC HL Ho. destruct (run_geo os check m _ (new_good longest check m W S HL) HC Ho) as (H & E & E' & G & Ln).
  exists H. split; auto.
Qed.
Lemma reached_levels : forall H, reached H -> good_levels (levels H).
Proof.
  intros H (os & lg & check & m & W & S & HC & HL & Ho & E).
  destruct (run_geo os check m _ (new_good lg check m W S HL) HC Ho) as (H' & E' & _ & G & _). rewrite E in E'. injection E' as <-.
  eapply good_hier_levels; eauto.
Qed.
