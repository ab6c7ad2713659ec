(** The triangular tensor product meshes: geometry, edges, boundary. *)
From Coq Require Import Reals Lra List Arith Lia Bool.
Import ListNotations.
From Verif Require Import Base Scalars MeshModel MeshSpec MeshView MeshProofs5 MeshViewProofs RefPatModel RefineSpec BuilderModel BuilderSpec
  BuilderProofs BuilderProofs2 BuilderProofs3 BuilderProofs4 BuilderProofs5 GeoModel GeoSpec DofModel DofSpec FeModel TransferSpec ConformSpec FlagSpec NormalSpec StokesSpec FlowSpec RectSpec RectProofs.
Local Open Scope R_scope.

(** A small square in a triangle of the grid. *)
Section Apart.
Variable p : params.
Hypothesis P : proper p.
Lemma region_covers : forall a b c x, region [as_vec a; as_vec b; as_vec c] x -> BuilderSpec.covers [a; b; c] (x 0%nat) (x 1%nat).
Proof.
  intros a b c x H. inversion H as [? ? ? ? T| |]; subst. destruct T as (r & s & t & R1 & R2 & R3 & S1 & E).
  exists [r; s; t]. split; [reflexivity|]. split; [do 3 (apply Forall_cons; [assumption|]); apply Forall_nil|]. unfold weighted, sumR. cbn [combine map fold_right fst snd].
  split; [lra|]. rewrite (E 0%nat), (E 1%nat) by lia. unfold as_vec. split; ring.
Qed.
Definition shift (x : vec) (d e : R) : vec := fun k => match k with 0%nat => x 0%nat + d | _ => x k + e end.
Lemma near : forall l x, inside l x -> exists r, 0 < r /\ forall d e, - r <= d <= r -> - r <= e <= r -> region l (shift x d e).
Proof.
  intros l x (r & R0 & H). exists (r / 2). split; [lra|]. intros d e D E. apply H. intros [|k] _; unfold shift; apply Rabs_def1; lra.
Qed.
Lemma tria_inside : forall k cs x, nth_error (geo3 p) k = Some cs -> inside (map as_vec cs) x -> covers_inside cs (x 0%nat) (x 1%nat).
Proof.
  intros k cs x H I. apply nth_error_In in H. apply in_grid in H as (i & j & Hi & Hj & [<-|[<-|[]]]); cbn [map] in I;
    apply near in I as (r & R0 & I); destruct (BuilderProofs4.h_pos p P) as [X Y];
    (assert (Q : forall d e, - r <= d <= r -> - r <= e <= r -> BuilderSpec.covers _ (x 0%nat + d) (x 1%nat + e)) by (intros d e D E; exact (region_covers _ _ _ _ (I d e D E))));
    clear I.
  - pose proof (Q 0 0 ltac:(lra) ltac:(lra)) as Q0. pose proof (Q (- r) 0 ltac:(lra) ltac:(lra)) as Q1.
    pose proof (Q r 0 ltac:(lra) ltac:(lra)) as Q2. pose proof (Q 0 r ltac:(lra) ltac:(lra)) as Q3. clear Q.
    apply upper_hull in Q0 as (s & t & [A B] & C1 & C2 & C3). apply upper_hull in Q1 as (s1 & t1 & [A1 B1] & D1 & D2 & D3).
    apply upper_hull in Q2 as (s2 & t2 & [A2 B2] & E1 & E2 & E3). apply upper_hull in Q3 as (s3 & t3 & [A3 B3] & F1 & F2 & F3).
    apply upper_hull. exists s, t. unfold at_. split; [split; lra|].
    assert (t1 = t) by nra. assert (t2 = t) by nra. assert (s3 = s) by nra. assert (s1 < s) by nra. assert (s < s2) by nra. assert (t < t3) by nra. lra.
  - pose proof (Q 0 0 ltac:(lra) ltac:(lra)) as Q0. pose proof (Q (- r) 0 ltac:(lra) ltac:(lra)) as Q1.
    pose proof (Q r 0 ltac:(lra) ltac:(lra)) as Q2. pose proof (Q 0 (- r) ltac:(lra) ltac:(lra)) as Q3. clear Q.
    apply lower_hull in Q0 as (s & t & [A B] & C1 & C2 & C3). apply lower_hull in Q1 as (s1 & t1 & [A1 B1] & D1 & D2 & D3).
    apply lower_hull in Q2 as (s2 & t2 & [A2 B2] & E1 & E2 & E3). apply lower_hull in Q3 as (s3 & t3 & [A3 B3] & F1 & F2 & F3).
    apply lower_hull. exists s, t. unfold at_. split; [split; lra|].
    assert (t1 = t) by nra. assert (t2 = t) by nra. assert (s3 = s) by nra. assert (s1 < s) by nra. assert (s < s2) by nra. assert (t3 < t) by nra. lra.
Qed.
Lemma checked : well_shaped p -> forall cs, In cs (geo3 p) -> new_geo GTriaO1 2 (map as_vec cs) = Ok (mkGeo GTriaO1 2 (map as_vec cs)).
Proof.
  intros W cs H. assert (exists a b c, cs = [a; b; c] /\ length a = 2%nat /\ cell_geometry kTria cs = Ok tt) as (a & b & c & -> & L & E).
  { apply in_grid in H as (i & j & Hi & Hj & [<-|[<-|[]]]); eexists _, _, _; (split; [reflexivity|]); (split; [reflexivity|]).
    - apply (upper_clear p P i j); auto. - apply (lower_clear p P W i j). }
  change (check_tria (length a) (fun i k => nth k (nth i [a; b; c] []) 0) = Ok tt) in E. rewrite L in E. unfold new_geo. cbn [map length num_cols Nat.eqb lf_assert bind].
  assert (K : check_tria 2 (fun i => nth i [as_vec a; as_vec b; as_vec c] vzero) = check_tria 2 (fun i k => nth k (nth i [a; b; c] []) 0)) by reflexivity.
  rewrite K, E. reflexivity.
Qed.
End Apart.

Local Open Scope nat_scope.
Section Rect.
Variable p : params.
Hypothesis P : proper p.
Hypothesis W : well_shaped p.
Let nx := p_nx p.
Let ny := p_ny p.
Let v := vertex_index p.

(** The mesh in detail. *)
Record detail (M : mesh_obj) : Prop := {
  dt_wf : wf_mesh (view M); dt_simple : simple_mesh (view M); dt_complete : complete_mesh (view M);
  dt_nodes : mv_nodes (view M) = S ny * S nx;
  dt_cells : map cv_nodes (mv_cells (view M)) = cells3 p;
  dt_edges : mv_edges (view M) = map (pr p) (U3 p);
  dt_adj : forall e t, nth_error (U3 p) e = Some t -> adjacent (view M) e = count3 p t;
  dt_geo : geometry_matches M (sites3 p)
}.
Lemma triag_detail : forall check, exists M, tp_triag_build p check = Ok (Some (M, sites3 p)) /\ (exists h, built check h M) /\ detail M.
Proof.
  intros check. destruct (triag_valid p P W check) as (M & E & C & Wf & Si & Co). exists M. split; auto.
  destruct (triag_mesh p P W check) as (M' & g & E' & _ & _ & _ & _ & _ & _ & Ge & _).
  assert (M' = M /\ g = sites3 p) as [-> ->] by (rewrite E in E'; injection E'; auto). clear E'.
  rewrite (triag_loops p P W) in E.
  destruct (tagged_built (S (p_ny p) * S (p_nx p)) (cells3 p) (pr p) (U3 p) (U3 p) (tags3 p)
    (shape3 p) (nodes3 p) (sides3 p) (U3_proper p) (U3_inj p) (used3 p P) (fun x H => H) (U3_nodup p) (touch3 p P) check) as (M' & C' & B).
  rewrite C' in E. cbn [bind] in E. injection E as <-. split; [eauto|].
  pose proof (tagged_nodes (S (p_ny p) * S (p_nx p)) (cells3 p) (pr p) (U3 p) (shape3 p) check M' B) as [N1 _].
  pose proof (tagged_count (S (p_ny p) * S (p_nx p)) (cells3 p) (pr p) (U3 p) (U3 p) (tags3 p)
    (shape3 p) (sides3 p) (U3_inj p) (U3_nodup p) (used3 p P) (fun x H => H) check M' B) as NE.
  pose proof (tagged_supplied (S (p_ny p) * S (p_nx p)) (cells3 p) (pr p) (U3 p) (shape3 p) check M' B) as Sp.
  assert (Ed : mv_edges (view M') = map (pr p) (U3 p)).
  { apply nth_error_ext. intros k. rewrite nth_error_map. destruct (nth_error (U3 p) k) as [t|] eqn:K; [apply Sp; auto|].
    apply nth_error_None. apply nth_error_None in K. lia. }
  constructor; auto.
  intros e t Et. destruct (tagged_adjacent tag_dec (S (p_ny p) * S (p_nx p)) (cells3 p) (pr p) (U3 p) (U3 p) (tags3 p)
    (shape3 p) (nodes3 p) (sides3 p) (U3_inj p) (used3 p P) (fun x H => H) (touch3 p P) check M' B e (fst (pr p t)) (snd (pr p t)))
    as (t' & Ht & HS & Hc).
  { rewrite (Sp e t Et). destruct (pr p t); reflexivity. }
  assert (t = t').
  { apply (U3_inj p); [eapply nth_error_In; eauto|exact Ht|]. destruct (pr p t); exact HS. }
  subst t'. rewrite Hc. apply (tags3_count p). apply in_U3. exact Ht.
Qed.

Section Mesh.
Variable M : mesh_obj.
Hypothesis D : detail M.
Let m := view M.

Lemma edge_tag : forall e a b, nth_error (mv_edges m) e = Some (a, b) -> exists t, nth_error (U3 p) e = Some t /\ tag_ok p t /\ pr p t = (a, b).
Proof.
  intros e a b H. unfold m in H. rewrite (dt_edges M D), nth_error_map in H. destruct (nth_error (U3 p) e) as [t|] eqn:E; [|discriminate].
  injection H as H. exists t. split; auto. split; auto. apply in_U3. eapply nth_error_In; eauto.
Qed.
Lemma tag_edge : forall t, tag_ok p t -> exists e, nth_error (U3 p) e = Some t /\ nth_error (mv_edges m) e = Some (pr p t) /\ adjacent m e = count3 p t.
Proof.
  intros t H. apply (in_U3 p) in H. apply In_nth_error in H as [e E]. exists e. split; auto. split; [|exact (dt_adj M D e t E)].
  unfold m. rewrite (dt_edges M D), nth_error_map, E. reflexivity.
Qed.
Lemma tag_edge_unique : forall e e' t, nth_error (U3 p) e = Some t -> nth_error (U3 p) e' = Some t -> e = e'.
Proof.
  intros e e' t E E'. apply (proj1 (NoDup_nth_error (U3 p)) (U3_nodup p)); [apply nth_error_Some; congruence|congruence].
Qed.
Lemma count_cases : forall t, tag_ok p t -> count3 p t = 1 \/ count3 p t = 2.
Proof.
  intros t H. destruct (P' p P) as [Q1 Q2]. destruct t as [i j|i j|i j]; cbn [tag_ok count3] in *; [| |auto].
  - destruct (Nat.ltb_spec j (p_ny p)), (Nat.leb_spec 1 j); cbn [b2n]; lia.
  - destruct (Nat.ltb_spec i (p_nx p)), (Nat.leb_spec 1 i); cbn [b2n]; lia.
Qed.
Definition outer (t : tag) : Prop :=
  match t with TH i j => i < nx /\ (j = 0 \/ j = ny) | TV i j => j < ny /\ (i = 0 \/ i = nx) | TD _ _ => False end.
Lemma outer_count : forall t, tag_ok p t -> (count3 p t = 1 <-> outer t).
Proof.
  intros t H. destruct (P' p P) as [Q1 Q2]. unfold nx, ny, outer. destruct t as [i j|i j|i j]; cbn [tag_ok count3] in *; [| |split; [discriminate|intros []]].
  - destruct (Nat.ltb_spec j (p_ny p)), (Nat.leb_spec 1 j); cbn [b2n]; unfold nx, ny in *; lia.
  - destruct (Nat.ltb_spec i (p_nx p)), (Nat.leb_spec 1 i); cbn [b2n]; unfold nx, ny in *; lia.
Qed.
Lemma outer_ok : forall t, outer t -> tag_ok p t.
Proof. intros t H. destruct t as [i j|i j|i j]; cbn [tag_ok outer] in *; unfold nx, ny in *; lia. Qed.

Lemma rect_manifold : manifold m.
Proof.
  intros e H. cbn [size] in H. destruct (nth_error (mv_edges m) e) as [[a b]|] eqn:E; [|apply nth_error_None in E; unfold size in H; lia].
  destruct (edge_tag e a b E) as (t & Et & Ok_ & _). unfold m. rewrite (dt_adj M D e t Et). apply count_cases; auto.
Qed.
Lemma boundary_tag : forall e, boundary_edge m e = true -> forall t, nth_error (U3 p) e = Some t -> outer t.
Proof.
  intros e B t E. unfold boundary_edge in B. apply Nat.eqb_eq in B. unfold m in B. rewrite (dt_adj M D e t E) in B.
  apply outer_count; auto. apply in_U3. eapply nth_error_In; eauto.
Qed.
Lemma tag_boundary : forall t, outer t -> exists e, nth_error (U3 p) e = Some t /\ boundary_edge m e = true /\ nth_error (mv_edges m) e = Some (pr p t).
Proof.
  intros t H. pose proof (outer_ok t H) as O. destruct (tag_edge t O) as (e & E & F & A). exists e. split; auto. split; auto.
  unfold boundary_edge. rewrite A. apply Nat.eqb_eq. apply outer_count; auto.
Qed.
Definition ends (w : nat) (t : tag) : Prop := outer t /\ (w = fst (pr p t) \/ w = snd (pr p t)).
Lemma ends_tag : forall w e, ends_in m w e <-> exists t, nth_error (U3 p) e = Some t /\ ends w t.
Proof.
  intros w e. split.
  - intros (B & a & b & E & H). destruct (edge_tag e a b E) as (t & Et & O & Q). exists t. split; auto. split; [exact (boundary_tag e B t Et)|]. rewrite Q. exact H.
  - intros (t & Et & O & H). destruct (tag_boundary t O) as (e' & E' & B & F). rewrite (tag_edge_unique e e' t Et E'). split; auto.
    exists (fst (pr p t)), (snd (pr p t)). split; [rewrite F; destruct (pr p t); reflexivity|exact H].
Qed.
Lemma ends_coords : forall x y t, x <= nx -> y <= ny -> (ends (v x y) t <->
  match t with TH i j => i < nx /\ (j = 0 \/ j = ny) /\ y = j /\ (x = i \/ x = i + 1)
             | TV i j => j < ny /\ (i = 0 \/ i = nx) /\ x = i /\ (y = j \/ y = j + 1) | TD _ _ => False end).
Proof.
  intros x y t X Y. unfold ends. destruct t as [i j|i j|i j]; cbn [outer pr fst snd]; fold v; [| |tauto].
  - split.
    + intros ((A & B) & [H|H]); apply (v_inj p) in H; unfold nx in *; try lia.
    + intros (A & B & -> & [-> | ->]); auto.
  - split.
    + intros ((A & B) & [H|H]); apply (v_inj p) in H; unfold nx in *; try lia.
    + intros (A & B & -> & [-> | ->]); auto.
Qed.
Definition on_rim (x y : nat) : Prop := x <= nx /\ y <= ny /\ (x = 0 \/ x = nx \/ y = 0 \/ y = ny).
Lemma two_tags : forall x y, on_rim x y -> exists t t', t <> t' /\ forall u, ends (v x y) u <-> u = t \/ u = t'.
Proof.
  intros x y (X & Y & H). destruct (P' p P) as [Q1 Q2]. fold nx in Q1. fold ny in Q2.
  assert (G : forall t t', t <> t' -> ends (v x y) t -> ends (v x y) t' -> (forall u, ends (v x y) u -> u = t \/ u = t') ->
    exists t t', t <> t' /\ forall u, ends (v x y) u <-> u = t \/ u = t').
  { intros t t' N A B C. exists t, t'. split; auto. intros u. split; auto. intros [-> | ->]; auto. }
  assert (K : (y = 0 \/ y = ny) /\ x = 0 \/ (y = 0 \/ y = ny) /\ x = nx \/ (y = 0 \/ y = ny) /\ 0 < x < nx \/ 0 < y < ny /\ (x = 0 \/ x = nx)) by lia.
  destruct K as [[K ->]|[[K ->]|[[K L]|[L K]]]].
  - apply (G (TH 0 y) (TV 0 (if y =? 0 then 0 else y - 1))); [discriminate|apply ends_coords; auto; lia|apply ends_coords; auto; destruct (Nat.eqb_spec y 0); lia|].
    intros u U. apply ends_coords in U; auto. destruct u as [i j|i j|i j]; [left; f_equal; lia|right; destruct (Nat.eqb_spec y 0); f_equal; lia|destruct U].
  - apply (G (TH (nx - 1) y) (TV nx (if y =? 0 then 0 else y - 1))); [discriminate|apply ends_coords; auto; lia|apply ends_coords; auto; destruct (Nat.eqb_spec y 0); lia|].
    intros u U. apply ends_coords in U; auto. destruct u as [i j|i j|i j]; [left; f_equal; lia|right; destruct (Nat.eqb_spec y 0); f_equal; lia|destruct U].
  - apply (G (TH (x - 1) y) (TH x y)); [intros Q; injection Q; lia|apply ends_coords; auto; lia|apply ends_coords; auto; lia|].
    intros u U. apply ends_coords in U; auto. destruct u as [i j|i j|i j]; [|lia|destruct U].
    destruct U as (U1 & U2 & U3 & [U4|U4]); [right; f_equal; lia|left; f_equal; lia].
  - apply (G (TV x (y - 1)) (TV x y)); [intros Q; injection Q; lia|apply ends_coords; auto; lia|apply ends_coords; auto; lia|].
    intros u U. apply ends_coords in U; auto. destruct u as [i j|i j|i j]; [lia| |destruct U].
    destruct U as (U1 & U2 & U3 & [U4|U4]); [right; f_equal; lia|left; f_equal; lia].
Qed.
Lemma rim_node : forall w, boundary_node m w -> exists x y, on_rim x y /\ w = v x y.
Proof.
  intros w (e & a & b & E & B & H). destruct (edge_tag e a b E) as (t & Et & O & Q). pose proof (boundary_tag e B t Et) as U.
  destruct t as [i j|i j|i j]; cbn [pr outer] in *; [| |destruct U]; fold v in Q; injection Q as <- <-; unfold on_rim;
    destruct H as [-> | ->]; eexists _, _; (split; [|reflexivity]); lia.
Qed.
Lemma rect_curves : closed_curves m.
Proof.
  intros w H. destruct (rim_node w H) as (x & y & O & ->). destruct (two_tags x y O) as (t & t' & N & T).
  destruct (tag_boundary t (proj1 (proj2 (T t) (or_introl eq_refl)))) as (e & E & _ & _).
  destruct (tag_boundary t' (proj1 (proj2 (T t') (or_intror eq_refl)))) as (e' & E' & _ & _).
  exists [e; e']. split; [|split; [reflexivity|]].
  - constructor; [intros [Q|[]]; apply N; congruence|]. constructor; [intros []|constructor].
  - intros f. rewrite ends_tag. split.
    + intros [<-|[<-|[]]]; [exists t|exists t']; (split; [auto|apply T; auto]).
    + intros (u & Eu & U). apply T in U as [-> | ->]; [left; exact (tag_edge_unique e f t E Eu)|right; left; exact (tag_edge_unique e' f t' E' Eu)].
Qed.
Lemma linked_trans : forall a b c, FlowSpec.linked m a b -> FlowSpec.linked m b c -> FlowSpec.linked m a c.
Proof. intros a b c H1 H2. induction H2; auto. eapply linked_on; eauto. Qed.
Lemma linked_sym : forall a b, FlowSpec.linked m a b -> FlowSpec.linked m b a.
Proof.
  intros a b H. induction H as [|x y e H IH E1 E2]; [constructor|]. apply linked_trans with x; auto. eapply linked_on; [constructor|exact E2|exact E1].
Qed.
Lemma one_step : forall t, outer t -> FlowSpec.linked m (fst (pr p t)) (snd (pr p t)).
Proof.
  intros t O. destruct (tag_boundary t O) as (e & E & _). apply linked_on with (fst (pr p t)) e; [constructor| |]; apply ends_tag; exists t; (split; [auto|split; auto]).
Qed.
Lemma along_row : forall y, y = 0 \/ y = ny -> forall x, x <= nx -> FlowSpec.linked m (v 0 y) (v x y).
Proof.
  intros y Y. induction x as [|x IH]; intros H; [constructor|]. apply linked_trans with (v x y); [apply IH; lia|].
  pose proof (one_step (TH x y)) as Q. cbn [pr fst snd] in Q. fold v in Q. replace (S x) with (x + 1) by lia. apply Q. cbn [outer]. lia.
Qed.
Lemma along_column : forall x, x = 0 \/ x = nx -> forall y, y <= ny -> FlowSpec.linked m (v x 0) (v x y).
Proof.
  intros x X. induction y as [|y IH]; intros H; [constructor|]. apply linked_trans with (v x y); [apply IH; lia|].
  pose proof (one_step (TV x y)) as Q. cbn [pr fst snd] in Q. fold v in Q. replace (S y) with (y + 1) by lia. apply Q. cbn [outer]. lia.
Qed.
Lemma from_corner : forall x y, on_rim x y -> FlowSpec.linked m (v 0 0) (v x y).
Proof.
  intros x y (X & Y & [->|[->|[->| ->]]]).
  - apply along_column; auto.
  - apply linked_trans with (v nx 0); [apply along_row; auto|apply along_column; auto].
  - apply along_row; auto.
  - apply linked_trans with (v 0 ny); [apply along_column; auto|apply along_row; auto].
Qed.
Lemma rect_connected : connected_boundary m.
Proof.
  intros a b A B. destruct (rim_node a A) as (x & y & O & ->). destruct (rim_node b B) as (x' & y' & O' & ->).
  apply linked_trans with (v 0 0); [apply linked_sym|]; apply from_corner; auto.
Qed.
Lemma rect_corner : exists w, boundary_node m w.
Proof.
  destruct (P' p P) as [Q1 Q2]. destruct (tag_boundary (TH 0 0)) as (e & _ & B & E); [cbn [outer]; unfold nx; lia|].
  exists (fst (pr p (TH 0 0))), e, (fst (pr p (TH 0 0))), (snd (pr p (TH 0 0))). split; [exact E|]. split; auto.
Qed.

(** Cells. *)
Lemma cell_at_grid : forall k c, nth_error (mv_cells m) k = Some c -> exists i j, i < nx /\ j < ny /\
  ((k = (i * ny + j) * 2 /\ cv_nodes c = upper p i j) \/ (k = (i * ny + j) * 2 + 1 /\ cv_nodes c = lower p i j)).
Proof.
  intros k c H. assert (Q : nth_error (cells3 p) k = Some (cv_nodes c)) by (rewrite <- (dt_cells M D), nth_error_map; fold m; rewrite H; reflexivity).
  apply grid_nth_inv with (c := 2) in Q as (i & j & r & Hi & Hj & E & Hr); auto. exists i, j. split; auto. split; auto.
  destruct r as [|[|r]]; cbn in Hr; [left|right|destruct r; discriminate]; injection Hr as <-; (split; [|reflexivity]); unfold ny; lia.
Qed.
Lemma grid_cell : forall i j r, i < nx -> j < ny -> r < 2 -> exists c, nth_error (mv_cells m) ((i * ny + j) * 2 + r) = Some c /\
  cv_nodes c = (if r =? 0 then upper p i j else lower p i j).
Proof.
  intros i j r Hi Hj Hr.
  assert (L : length (mv_cells m) = 2 * nx * ny).
  { rewrite <- (map_length cv_nodes). unfold m. rewrite (dt_cells M D). unfold cells3. rewrite (grid_length _ _ 2) by auto. fold nx ny. lia. }
  destruct (nth_error (mv_cells m) ((i * ny + j) * 2 + r)) as [c|] eqn:E; [|apply nth_error_None in E; exfalso; nia].
  exists c. split; auto. destruct (cell_at_grid _ c E) as (i' & j' & Hi' & Hj' & [[K Q]|[K Q]]).
  - assert (r = 0) by lia. subst r. assert (i * ny + j = i' * ny + j') by lia. assert (i = i') by nia. subst i'. assert (j = j') by lia. subst j'. exact Q.
  - assert (r = 1) by lia. subst r. assert (i * ny + j = i' * ny + j') by lia. assert (i = i') by nia. subst i'. assert (j = j') by lia. subst j'. exact Q.
Qed.
(** Edge number [l] of cell [k] belongs to the pair of nodes [a], [b]. *)
Lemma edge_by_ends : forall k c l t, nth_error (mv_cells m) k = Some c -> l < length (cv_nodes c) -> tag_ok p t ->
  same_pair (nth l (cv_nodes c) 0, next_corner (cv_nodes c) l) (pr p t) -> exists e, nth_error (U3 p) e = Some t /\ edge_of m k l e.
Proof.
  intros k c l t H L O S'. destruct (tag_edge t O) as (e & E & F & _). exists e. split; auto.
  pose proof (wm_cells m (dt_wf M D)) as Fo. rewrite Forall_forall in Fo. pose proof (Fo c (nth_error_In _ _ H)) as Wc.
  destruct (wc_local m c Wc l L) as (e' & o & a & b & E1 & _ & E2 & O2). exists c. split; auto.
  replace e with e'; auto. apply (wm_unique m (dt_wf M D) e' e a b (fst (pr p t)) (snd (pr p t))); auto.
  - rewrite F. destruct (pr p t); reflexivity.
  - destruct S' as [[S1 S2]|[S1 S2]]; cbn [fst snd] in S1, S2; destruct o; destruct O2; subst; auto.
Qed.
Lemma rect_reached : all_reached m.
Proof.
  assert (Col : forall i, i < nx -> forall j, j < ny -> StokesSpec.reached m ((i * ny + j) * 2 + 1)).
  { intros i Hi. induction j as [|j IH]; intros Hj.
    - destruct (grid_cell i 0 1 Hi Hj) as (c & E & Q); auto. cbn in Q.
      destruct (edge_by_ends _ c 0 (TH i 0) E) as (e & Te & Eo); [rewrite Q; cbn; lia|cbn [tag_ok]; unfold nx, ny in *; lia|rewrite Q; left; split; reflexivity|].
      apply reached_boundary with 0 e; auto. destruct (tag_boundary (TH i 0)) as (e' & Te' & B & _); [cbn [outer]; lia|].
      rewrite (tag_edge_unique e e' _ Te Te'). exact B.
    - pose proof (IH ltac:(lia)) as R0. clear IH.
      destruct (grid_cell i j 1 Hi ltac:(lia) ltac:(lia)) as (c & E & Q); cbn in Q.
      destruct (grid_cell i j 0 Hi ltac:(lia) ltac:(lia)) as (c1 & E1 & Q1); cbn [Nat.eqb] in Q1.
      destruct (grid_cell i (S j) 1 Hi ltac:(lia) ltac:(lia)) as (c2 & E2 & Q2); cbn in Q2.
      destruct (edge_by_ends _ c 2 (TD i j) E) as (e & Te & Eo); [rewrite Q; cbn; lia|cbn [tag_ok]; unfold nx, ny in *; lia|rewrite Q; right; split; reflexivity|].
      destruct (edge_by_ends _ c1 0 (TD i j) E1) as (e1 & Te1 & Eo1); [rewrite Q1; cbn; lia|cbn [tag_ok]; unfold nx, ny in *; lia|rewrite Q1; left; split; reflexivity|].
      rewrite <- (tag_edge_unique e e1 _ Te Te1) in Eo1.
      pose proof (reached_across m _ _ _ _ _ R0 Eo Eo1) as R1.
      destruct (edge_by_ends _ c1 1 (TH i (j + 1)) E1) as (e2 & Te2 & Eo2); [rewrite Q1; cbn; lia|cbn [tag_ok]; unfold nx, ny in *; lia|rewrite Q1; right; split; reflexivity|].
      destruct (edge_by_ends _ c2 0 (TH i (j + 1)) E2) as (e3 & Te3 & Eo3); [rewrite Q2; cbn; lia|cbn [tag_ok]; unfold nx, ny in *; lia|rewrite Q2; replace (j + 1) with (S j) by lia; left; split; reflexivity|].
      rewrite <- (tag_edge_unique e2 e3 _ Te2 Te3) in Eo3. exact (reached_across m _ _ _ _ _ R1 Eo2 Eo3). }
  intros k Hk. destruct (nth_error (mv_cells m) k) as [c|] eqn:E; [|apply nth_error_None in E; unfold size in Hk; lia].
  destruct (cell_at_grid k c E) as (i & j & Hi & Hj & [[-> Q]|[-> Q]]); [|apply Col; auto].
  destruct (grid_cell i j 1 Hi ltac:(lia) ltac:(lia)) as (c' & E' & Q'); cbn in Q'.
  destruct (edge_by_ends _ c' 2 (TD i j) E') as (e & Te & Eo); [rewrite Q'; cbn; lia|cbn [tag_ok]; unfold nx, ny in *; lia|rewrite Q'; right; split; reflexivity|].
  destruct (edge_by_ends _ c 0 (TD i j) E) as (e1 & Te1 & Eo1); [rewrite Q; cbn; lia|cbn [tag_ok]; unfold nx, ny in *; lia|rewrite Q; left; split; reflexivity|].
  rewrite <- (tag_edge_unique e e1 _ Te Te1) in Eo1. exact (reached_across m _ _ _ _ _ (Col i Hi j Hj) Eo Eo1).
Qed.

(** Geometry. *)
Variable geom : ent -> geo.
Hypothesis G : given (sites3 p) geom.
Lemma cell_site : forall k c, nth_error (mv_cells m) k = Some c -> exists cs, nth_error (geo3 p) k = Some cs /\ cs = map (place (sites3 p)) (cv_nodes c) /\
  geom (DofModel.ECell k) = mkGeo GTriaO1 2 (map as_vec cs) /\ constructed (geom (DofModel.ECell k)).
Proof.
  intros k c H. destruct (dt_geo M D) as (_ & L & Q & _). cbn [sites3 g_cells] in L, Q.
  destruct (nth_error (geo3 p) k) as [cs|] eqn:E; [|apply nth_error_None in E; assert (k < length (mv_cells (view M))) by (apply nth_error_Some; fold m; congruence); lia].
  exists cs. split; auto. split; [exact (Q k c cs H E)|]. pose proof (gv_cell _ _ G k cs E) as Ge.
  pose proof (checked p P W cs (nth_error_In _ _ E)) as Ck. rewrite Ck in Ge. injection Ge as Ge. rewrite <- Ge. split; auto.
  left. exists GTriaO1, 2, (map as_vec cs). exact Ck.
Qed.
Lemma rect_triangulation : triangulation m geom (position (sites3 p)).
Proof.
  constructor; [exact (dt_wf M D)| |].
  - intros k c H. destruct (cell_site k c H) as (cs & _ & -> & E & Cn). rewrite E in Cn |- *. cbn [go_kind go_dim].
    split; [|split; [reflexivity|split; [reflexivity|split; [exact Cn|]]]].
    + destruct (cell_at_grid k c H) as (i & j & _ & _ & [[_ Q]|[_ Q]]); unfold cv_type; rewrite Q; reflexivity.
    + intros i q Hq. unfold polygon. rewrite E. cbn [go_cols]. rewrite (nth_error_nth (map as_vec (map (place (sites3 p)) (cv_nodes c))) i (x := position (sites3 p) q)).
      * intros z _. reflexivity.
      * rewrite !nth_error_map, Hq. reflexivity.
  - intros e a b H. destruct (dt_geo M D) as (_ & _ & _ & Q). cbn [sites3 g_edges] in Q. destruct (edge_tag e a b H) as (t & Et & _ & _).
    assert (E : nth_error (map (tag_geo p) (U3 p)) e = Some (tag_geo p t)) by (rewrite nth_error_map, Et; reflexivity).
    pose proof (gv_edge _ _ G e _ E) as Ge. rewrite (Q e a b _ H E) in Ge. cbn [map] in Ge. unfold new_geo in Ge. cbn [map length num_cols Nat.eqb lf_assert bind] in Ge.
    injection Ge as <-. cbn [go_kind go_dim go_cols nth]. split; [reflexivity|]. split; [reflexivity|]. split; intros z _; reflexivity.
Qed.
Lemma rect_straight : straight_at m 2 (position (sites3 p)) geom.
Proof.
  assert (EP : forall g k, go_kind g = k -> k <> GParallelogram -> exact_parallelogram g) by (intros g k K N X; congruence).
  intros [k|e|k] V; cbn [valid] in V.
  - destruct (dt_geo M D) as (L & _). cbn [sites3 g_points] in L.
    destruct (nth_error (tp_points p) k) as [c|] eqn:E; [|apply nth_error_None in E; fold m in L; lia].
    pose proof (gv_node _ _ G k c E) as Ge. pose proof Ge as Ge'. unfold new_geo in Ge. cbn [length num_cols Nat.eqb lf_assert bind] in Ge. injection Ge as Ge.
    rewrite <- Ge in Ge' |- *. split; [left; eauto|]. split; [eapply EP; [reflexivity|discriminate]|]. do 3 (split; [reflexivity|]). cbn [ent_nodes go_cols].
    apply Forall2_cons; [|apply Forall2_nil]. intros z _. pose proof (nth_error_nth (tp_points p) k [] E) as Q. change (as_vec c z = as_vec (nth k (tp_points p) []) z). exact (f_equal (fun u => as_vec u z) (eq_sym Q)).
  - destruct (nth_error (mv_edges m) e) as [[a b]|] eqn:H; [|apply nth_error_None in H; lia].
    destruct (dt_geo M D) as (_ & _ & _ & Q). cbn [sites3 g_edges] in Q. destruct (edge_tag e a b H) as (t & Et & _ & _).
    assert (E : nth_error (map (tag_geo p) (U3 p)) e = Some (tag_geo p t)) by (rewrite nth_error_map, Et; reflexivity).
    pose proof (gv_edge _ _ G e _ E) as Ge. rewrite (Q e a b _ H E) in Ge. cbn [map] in Ge. pose proof Ge as Ge'. unfold new_geo in Ge. cbn [map length num_cols Nat.eqb lf_assert bind] in Ge.
    injection Ge as Ge. rewrite <- Ge in Ge' |- *. split; [left; eauto|]. split; [eapply EP; [reflexivity|discriminate]|]. do 3 (split; [reflexivity|]).
    cbn [ent_nodes go_cols]. rewrite H. apply Forall2_cons; [|apply Forall2_cons; [|apply Forall2_nil]]; intros z _; reflexivity.
  - destruct (nth_error (mv_cells m) k) as [c|] eqn:H; [|apply nth_error_None in H; lia].
    destruct (cell_site k c H) as (cs & _ & -> & E & Cn). rewrite E in Cn |- *. split; [exact Cn|]. split; [eapply EP; [reflexivity|discriminate]|].
    split; [|split; [reflexivity|split; [reflexivity|]]].
    + cbn [go_kind kind_el ent_type]. unfold DofModel.cell_at. rewrite (nth_error_nth _ _ _ H). destruct (cell_at_grid k c H) as (i & j & _ & _ & [[_ Q]|[_ Q]]); unfold cv_type; rewrite Q; reflexivity.
    + cbn [ent_nodes go_cols]. rewrite H. rewrite map_map. clear. induction (cv_nodes c) as [|n l IH]; cbn [map]; [apply Forall2_nil|apply Forall2_cons; [intros z _; reflexivity|exact IH]].
Qed.
Lemma rect_tri : forall c, In c (mv_cells m) -> length (cv_nodes c) = 3.
Proof. intros c Hc. apply In_nth_error in Hc as (k & H). destruct (cell_at_grid k c H) as (i & j & _ & _ & [[_ Q]|[_ Q]]); rewrite Q; reflexivity. Qed.
Lemma rect_apart : no_overlap m geom.
Proof.
  intros k l Hk Hl N x [I I']. apply N.
  destruct (nth_error (mv_cells m) k) as [c|] eqn:E; [|apply nth_error_None in E; unfold size in Hk; lia].
  destruct (nth_error (mv_cells m) l) as [c'|] eqn:E'; [|apply nth_error_None in E'; unfold size in Hl; lia].
  destruct (cell_site k c E) as (cs & S1 & _ & G1 & _). destruct (cell_site l c' E') as (cs' & S2 & _ & G2 & _).
  unfold polygon in I, I'. rewrite G1 in I. rewrite G2 in I'. cbn [go_cols] in I, I'.
  destruct (tiles3 p P) as (_ & _ & T). apply (T k l cs cs' (x 0) (x 1)); auto; eapply tria_inside; eauto.
Qed.
End Mesh.
Lemma rect_geom : exists geom, given (sites3 p) geom.
Proof.
  exists (fun e => match e with
    | DofModel.ECell k => mkGeo GTriaO1 2 (map as_vec (nth k (geo3 p) []))
    | EEdge k => mkGeo GSegmentO1 2 (map as_vec (nth k (map (tag_geo p) (U3 p)) []))
    | ENode k => mkGeo GPoint 2 [as_vec (nth k (tp_points p) [])] end).
  constructor; cbn [sites3 g_cells g_edges g_points].
  - intros k cs H. rewrite (nth_error_nth _ _ [] H). apply (checked p P W). eapply nth_error_In; eauto.
  - intros k cs H. rewrite (nth_error_nth _ _ [] H). apply nth_error_In, in_map_iff in H as (t & <- & _). destruct t; reflexivity.
  - intros k c H. pose proof (nth_error_nth (tp_points p) k [] H) as Q. exact (f_equal (fun u => Ok (mkGeo GPoint 2 [as_vec u])) (eq_sym Q)).
Qed.
End Rect.
