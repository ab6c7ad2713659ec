(** Meshes of the structured builders are valid starting points of refinement. *)
From Coq Require Import Reals Lra List Arith Lia Bool.
Import ListNotations.
From Verif Require Import Base MeshModel MeshSpec MeshView MeshProofs5 MeshViewProofs RefineSpec BuilderModel BuilderSpec
  BuilderProofs BuilderProofs2 BuilderProofs3 BuilderProofs4 BuilderProofs5.
Local Open Scope nat_scope.

Lemma corner_of : forall m c v, wf_cell m c -> In v (cv_nodes c) -> exists a b, In (a, b) (mv_edges m) /\ (v = a \/ v = b).
Proof.
  intros m c v W H. apply In_nth_error in H as (j & Hj). assert (j < length (cv_nodes c)) by (apply nth_error_Some; congruence).
  destruct (wc_local m c W j) as (e & o & a & b & _ & _ & E & O); auto. exists a, b.
  split; [eapply nth_error_In; eauto|]. rewrite (nth_error_nth _ _ 0 Hj) in O. destruct o; destruct O; subst; auto.
Qed.
Lemma complete_of : forall m, wf_mesh m -> (forall e, e < length (mv_edges m) -> 0 < adjacent m e) ->
  (forall v, v < mv_nodes m -> exists c, In c (mv_cells m) /\ In v (cv_nodes c)) -> complete_mesh m.
Proof.
  intros m W A N. split.
  - intros i Hi. pose proof (A i Hi) as Q. unfold adjacent in Q. apply count_occ_In in Q. apply in_flat_map in Q as (c & Hc & Q). eauto.
  - intros v Hv. destruct (N v Hv) as (c & Hc & I). pose proof (wm_cells m W) as F. rewrite Forall_forall in F.
    exact (corner_of m c v (F c Hc) I).
Qed.
Lemma simple_of : forall m cells, map cv_nodes (mv_cells m) = cells ->
  (forall c, In c cells -> NoDup c) ->
  (forall i j c d x y z, nth_error cells i = Some c -> nth_error cells j = Some d -> In x c -> In y c -> In z c -> In x d -> In y d -> In z d ->
     x <> y -> y <> z -> x <> z -> i = j) -> simple_mesh m.
Proof.
  intros m cells E N T. split.
  - intros c H. apply N. rewrite <- E. apply in_map. exact H.
  - intros i j c d x y z Hi Hj. apply (T i j (cv_nodes c) (cv_nodes d) x y z); rewrite <- E, nth_error_map; [rewrite Hi|rewrite Hj]; reflexivity.
Qed.

Lemma two_values : forall a b c d e f : nat, (b = d \/ d = f \/ b = f) -> (a <> c \/ b <> d) -> (c <> e \/ d <> f) -> (a <> e \/ b <> f) ->
  a <> c \/ c <> e \/ a <> e.
Proof. intros a b c d e f [E|[E|E]] [D1|D1] [D2|D2] [D3|D3]; tauto. Qed.

Section Rect.
Variable p : params.
Hypothesis P : proper p.
Let nx := p_nx p.
Let ny := p_ny p.
Let v := vertex_index p.

Lemma in_upper : forall i j x, In x (upper p i j) -> exists a b, x = v a b /\ i <= a <= i + 1 /\ j <= b <= j + 1 /\ a + j <= b + i.
Proof. intros i j x [<-|[<-|[<-|[]]]]; eexists _, _; (split; [reflexivity|]); lia. Qed.
Lemma in_lower : forall i j x, In x (lower p i j) -> exists a b, x = v a b /\ i <= a <= i + 1 /\ j <= b <= j + 1 /\ b + i <= a + j.
Proof. intros i j x [<-|[<-|[<-|[]]]]; eexists _, _; (split; [reflexivity|]); lia. Qed.
Lemma in_square : forall i j x, In x (square p i j) -> exists a b, x = v a b /\ i <= a <= i + 1 /\ j <= b <= j + 1.
Proof. intros i j x [<-|[<-|[<-|[<-|[]]]]]; eexists _, _; (split; [reflexivity|]); lia. Qed.
Lemma v_same : forall a b a' b', a <= nx -> a' <= nx -> v a b = v a' b' -> a = a' /\ b = b'.
Proof. exact (v_inj p). Qed.
Lemma v_diff : forall a b a' b', v a b <> v a' b' -> a <> a' \/ b <> b'.
Proof. intros a b a' b' H. destruct (Nat.eq_dec a a') as [E|E]; [|left; exact E]. right. intros F. apply H. rewrite E, F. reflexivity. Qed.

(** Three points of two cells of the grid. *)
Lemma one_of_two : forall j b d f, j <= b <= j + 1 -> j <= d <= j + 1 -> j <= f <= j + 1 -> b = d \/ d = f \/ b = f.
Proof. intros. lia. Qed.
Lemma between_same : forall i i' a c e, i <= a <= i + 1 -> i <= c <= i + 1 -> i <= e <= i + 1 -> i' <= a <= i' + 1 -> i' <= c <= i' + 1 -> i' <= e <= i' + 1 ->
  (a <> c \/ c <> e \/ a <> e) -> i = i'.
Proof. intros i i' a c e ? ? ? ? ? ? [D|[D|D]]; lia. Qed.
Lemma three_points : forall i j i' j' a b c d e f, i <= a <= i + 1 -> j <= b <= j + 1 -> i <= c <= i + 1 -> j <= d <= j + 1 ->
  i <= e <= i + 1 -> j <= f <= j + 1 -> i' <= a <= i' + 1 -> j' <= b <= j' + 1 -> i' <= c <= i' + 1 -> j' <= d <= j' + 1 ->
  i' <= e <= i' + 1 -> j' <= f <= j' + 1 -> (a <> c \/ b <> d) -> (c <> e \/ d <> f) -> (a <> e \/ b <> f) -> i = i' /\ j = j'.
Proof.
  intros i j i' j' a b c d e f A B C D E F A' B' C' D' E' F' H1 H2 H3. split.
  - apply (between_same i i' a c e); auto. apply (two_values a b c d e f); auto. apply (one_of_two j); auto.
  - apply (between_same j j' b d f); auto. apply (two_values b a d c f e); try tauto. apply (one_of_two i); auto.
Qed.
Lemma lower_upper : forall i j a b c d e f, i <= a <= i + 1 -> j <= b <= j + 1 -> i <= c <= i + 1 -> j <= d <= j + 1 ->
  i <= e <= i + 1 -> j <= f <= j + 1 -> a + j <= b + i -> c + j <= d + i -> e + j <= f + i -> b + i <= a + j -> d + i <= c + j -> f + i <= e + j ->
  (a <> c \/ b <> d) -> (c <> e \/ d <> f) -> (a <> e \/ b <> f) -> False.
Proof.
  intros i j a b c d e f A B C D E F U1 U2 U3 L1 L2 L3 H1 H2 H3.
  assert (K1 : a <> c) by lia. assert (K2 : c <> e) by lia. assert (K3 : a <> e) by lia. lia.
Qed.

Lemma nodup3 : forall c, In c (cells3 p) -> NoDup c.
Proof.
  intros c H. apply in_grid in H as (i & j & Hi & Hj & [<-|[<-|[]]]); unfold upper, lower; fold v;
    repeat (constructor; [intros Q; cbn [In] in Q; repeat destruct Q as [Q|Q]; try contradiction; apply v_same in Q; unfold nx; lia|]); constructor.
Qed.
Lemma apart3 : forall k l c d x y z, nth_error (cells3 p) k = Some c -> nth_error (cells3 p) l = Some d ->
  In x c -> In y c -> In z c -> In x d -> In y d -> In z d -> x <> y -> y <> z -> x <> z -> k = l.
Proof.
  intros k l c d x y z Hk Hl Xc Yc Zc Xd Yd Zd XY YZ XZ.
  apply grid_nth_inv with (c := 2) in Hk as (i & j & r & Hi & Hj & -> & Hr); auto.
  apply grid_nth_inv with (c := 2) in Hl as (i' & j' & r' & Hi' & Hj' & -> & Hr'); auto.
  assert (G : forall r i j c, nth_error [upper p i j; lower p i j] r = Some c -> (r = 0 /\ c = upper p i j) \/ (r = 1 /\ c = lower p i j)).
  { intros q a b e H. destruct q as [|[|q]]; cbn in H; try (injection H as <-; auto). destruct q; discriminate. }
  assert (U : forall a b a' b' i i', i < nx -> i' < nx -> i <= a <= i + 1 -> i' <= a' <= i' + 1 -> v a b = v a' b' -> a = a' /\ b = b')
    by (intros; apply v_same; auto; lia).
  destruct (G r i j c Hr) as [[-> ->]|[-> ->]]; destruct (G r' i' j' d Hr') as [[-> ->]|[-> ->]];
  [ apply in_upper in Xc, Yc, Zc; apply in_upper in Xd, Yd, Zd | apply in_upper in Xc, Yc, Zc; apply in_lower in Xd, Yd, Zd
  | apply in_lower in Xc, Yc, Zc; apply in_upper in Xd, Yd, Zd | apply in_lower in Xc, Yc, Zc; apply in_lower in Xd, Yd, Zd];
  destruct Xc as (a1 & b1 & -> & A1 & B1 & O1), Yc as (a2 & b2 & -> & A2 & B2 & O2), Zc as (a3 & b3 & -> & A3 & B3 & O3);
  destruct Xd as (a4 & b4 & E4 & A4 & B4 & O4), Yd as (a5 & b5 & E5 & A5 & B5 & O5), Zd as (a6 & b6 & E6 & A6 & B6 & O6);
  apply U with (i := i) (i' := i') in E4; auto; apply U with (i := i) (i' := i') in E5; auto; apply U with (i := i) (i' := i') in E6; auto;
  destruct E4 as [<- <-], E5 as [<- <-], E6 as [<- <-];
  apply v_diff in XY, YZ, XZ;
  destruct (three_points i j i' j' a1 b1 a2 b2 a3 b3) as [<- <-]; auto;
  exfalso; [apply (lower_upper i j a1 b1 a2 b2 a3 b3); auto|].
  apply (lower_upper i j a1 b1 a2 b2 a3 b3); auto.
Qed.
Lemma nodup4 : forall c, In c (cells4 p) -> NoDup c.
Proof.
  intros c H. apply in_grid in H as (i & j & Hi & Hj & [<-|[]]); unfold square; fold v;
    repeat (constructor; [intros Q; cbn [In] in Q; repeat destruct Q as [Q|Q]; try contradiction; apply v_same in Q; unfold nx; lia|]); constructor.
Qed.
Lemma apart4 : forall k l c d x y z, nth_error (cells4 p) k = Some c -> nth_error (cells4 p) l = Some d ->
  In x c -> In y c -> In z c -> In x d -> In y d -> In z d -> x <> y -> y <> z -> x <> z -> k = l.
Proof.
  intros k l c d x y z Hk Hl Xc Yc Zc Xd Yd Zd XY YZ XZ.
  apply grid_nth_inv with (c := 1) in Hk as (i & j & r & Hi & Hj & -> & Hr); auto.
  apply grid_nth_inv with (c := 1) in Hl as (i' & j' & r' & Hi' & Hj' & -> & Hr'); auto.
  destruct r as [|[|r]]; try discriminate. destruct r' as [|[|r']]; try discriminate. injection Hr as <-. injection Hr' as <-.
  assert (U : forall a b a' b' i i', i < nx -> i' < nx -> i <= a <= i + 1 -> i' <= a' <= i' + 1 -> v a b = v a' b' -> a = a' /\ b = b')
    by (intros; apply v_same; auto; lia).
  apply in_square in Xc, Yc, Zc, Xd, Yd, Zd.
  destruct Xc as (a1 & b1 & -> & A1 & B1), Yc as (a2 & b2 & -> & A2 & B2), Zc as (a3 & b3 & -> & A3 & B3).
  destruct Xd as (a4 & b4 & E4 & A4 & B4), Yd as (a5 & b5 & E5 & A5 & B5), Zd as (a6 & b6 & E6 & A6 & B6).
  apply U with (i := i) (i' := i') in E4; auto; apply U with (i := i) (i' := i') in E5; auto; apply U with (i := i) (i' := i') in E6; auto.
  destruct E4 as [<- <-], E5 as [<- <-], E6 as [<- <-]. apply v_diff in XY, YZ, XZ.
  destruct (three_points i j i' j' a1 b1 a2 b2 a3 b3) as [<- <-]; auto.
Qed.

(** What the mesh looks like. *)
Lemma triag_view : well_shaped p -> forall check, exists M, tp_triag_build p check = Ok (Some (M, sites3 p)) /\ (exists h, built check h M) /\
  mv_nodes (view M) = S ny * S nx /\ map cv_nodes (mv_cells (view M)) = cells3 p.
Proof.
  intros W check. rewrite (triag_loops p P W).
  destruct (tagged_built (S ny * S nx) (cells3 p) (pr p) (U3 p) (U3 p) (tags3 p)
    (shape3 p) (nodes3 p) (sides3 p) (U3_proper p) (U3_inj p) (used3 p P) (fun x H => H) (U3_nodup p) (touch3 p P) check) as (M & C & B).
  subst nx ny. rewrite C. cbn [bind]. exists M. split; auto. split; [eauto|].
  exact (tagged_nodes (S (p_ny p) * S (p_nx p)) (cells3 p) (pr p) (U3 p) (shape3 p) check M B).
Qed.
Lemma triag_valid : well_shaped p -> forall check, exists M, tp_triag_build p check = Ok (Some (M, sites3 p)) /\
  map cv_nodes (mv_cells (view M)) = cells3 p /\ wf_mesh (view M) /\ simple_mesh (view M) /\ complete_mesh (view M).
Proof.
  intros W check. destruct (triag_view W check) as (M & E & [h B] & N & C). exists M. split; auto. split; auto.
  destruct (triag_mesh p P W check) as (M' & g & E' & _ & _ & _ & _ & _ & _ & _ & _ & _ & _ & Ad).
  assert (M' = M /\ g = sites3 p) as [-> ->] by (rewrite E in E'; injection E'; auto).
  pose proof (view_wf check h M B) as Wf. split; auto. split; [exact (simple_of _ _ C nodup3 apart3)|].
  apply complete_of; auto.
  - intros e He. destruct (nth_error (mv_edges (view M)) e) as [[a b]|] eqn:Q; [|apply nth_error_None in Q; lia].
    destruct (Ad e a b Q) as [[A|A] _]; rewrite A; lia.
  - intros w Hw. rewrite N in Hw. destruct (touch3 p P w Hw) as (c & Hc & I). rewrite <- C in Hc. apply in_map_iff in Hc as (cv & <- & Hc). eauto.
Qed.
Lemma quad_view : well_shaped p -> forall check, exists M, tp_quad_build p check = Ok (Some (M, sites4 p)) /\ (exists h, built check h M) /\
  mv_nodes (view M) = S ny * S nx /\ map cv_nodes (mv_cells (view M)) = cells4 p.
Proof.
  intros W check. rewrite (quad_loops p P W).
  assert (Hn : incl (@nil tag) (U4 p)) by (intros x []).
  destruct (tagged_built (S ny * S nx) (cells4 p) (pr p) (U4 p) [] (tags4 p)
    (shape4 p) (nodes4 p) (sides4 p) (U4_proper p) (U4_inj p) (used4 p P) Hn (NoDup_nil _) (touch4 p P) check) as (M & C & B).
  subst nx ny. cbn [map] in C. rewrite C. cbn [bind]. exists M. split; auto. split; [eauto|].
  exact (tagged_nodes (S (p_ny p) * S (p_nx p)) (cells4 p) (pr p) [] (shape4 p) check M B).
Qed.
Lemma quad_valid : well_shaped p -> forall check, exists M, tp_quad_build p check = Ok (Some (M, sites4 p)) /\
  map cv_nodes (mv_cells (view M)) = cells4 p /\ wf_mesh (view M) /\ simple_mesh (view M) /\ complete_mesh (view M).
Proof.
  intros W check. destruct (quad_view W check) as (M & E & [h B] & N & C). exists M. split; auto. split; auto.
  destruct (quad_mesh p P W check) as (M' & g & E' & _ & _ & _ & _ & _ & _ & _ & _ & _ & Ad).
  assert (M' = M /\ g = sites4 p) as [-> ->] by (rewrite E in E'; injection E'; auto).
  pose proof (view_wf check h M B) as Wf. split; auto. split; [exact (simple_of _ _ C nodup4 apart4)|].
  apply complete_of; auto.
  - intros e He. destruct (nth_error (mv_edges (view M)) e) as [[a b]|] eqn:Q; [|apply nth_error_None in Q; lia].
    destruct (Ad e a b Q) as [[A|A] _]; rewrite A; lia.
  - intros w Hw. rewrite N in Hw. destruct (touch4 p P w Hw) as (c & Hc & I). rewrite <- C in Hc. apply in_map_iff in Hc as (cv & <- & Hc). eauto.
Qed.
End Rect.

Section Torus.
Variable p : params.
Hypothesis P : proper p.
Hypothesis X : 3 <= p_nx p.
Hypothesis Y : 3 <= p_ny p.
Let nx := p_nx p.
Let ny := p_ny p.
Let v := torus_index p.
Lemma in_wrapped : forall i j x, In x (wrapped p i j) -> exists a b, x = v a b /\ (a = i \/ a = sm nx i) /\ (b = j \/ b = sm ny j).
Proof. intros i j x [<-|[<-|[<-|[<-|[]]]]]; eexists _, _; (split; [reflexivity|]); auto. Qed.
Lemma around : forall n i i' a c e, 3 <= n -> i < n -> i' < n -> (a = i \/ a = sm n i) -> (c = i \/ c = sm n i) -> (e = i \/ e = sm n i) ->
  (a = i' \/ a = sm n i') -> (c = i' \/ c = sm n i') -> (e = i' \/ e = sm n i') -> (a <> c \/ c <> e \/ a <> e) -> i = i'.
Proof.
  intros n i i' a c e N I I' H1 H2 H3 H4 H5 H6 D. destruct (sm_spec n i I) as [[E1 E2]|[E1 E2]]; destruct (sm_spec n i' I') as [[F1 F2]|[F1 F2]];
    rewrite E2 in *; rewrite F2 in *; lia.
Qed.
Lemma three_around : forall i j i' j' a b c d e f, i < nx -> i' < nx -> j < ny -> j' < ny ->
  (a = i \/ a = sm nx i) -> (c = i \/ c = sm nx i) -> (e = i \/ e = sm nx i) ->
  (a = i' \/ a = sm nx i') -> (c = i' \/ c = sm nx i') -> (e = i' \/ e = sm nx i') ->
  (b = j \/ b = sm ny j) -> (d = j \/ d = sm ny j) -> (f = j \/ f = sm ny j) ->
  (b = j' \/ b = sm ny j') -> (d = j' \/ d = sm ny j') -> (f = j' \/ f = sm ny j') ->
  (a <> c \/ b <> d) -> (c <> e \/ d <> f) -> (a <> e \/ b <> f) -> i = i' /\ j = j'.
Proof.
  intros i j i' j' a b c d e f I I' J J' H1 H2 H3 H4 H5 H6 H7 H8 H9 Ha Hb Hc D1 D2 D3.
  assert (T : forall u w x y z : nat, (x = u \/ x = w) -> (y = u \/ y = w) -> (z = u \/ z = w) -> x = y \/ y = z \/ x = z).
  { intros u w x y z [-> | ->] [-> | ->] [-> | ->]; auto. }
  split; [apply (around nx i i' a c e); auto|apply (around ny j j' b d f); auto].
  - apply (two_values a b c d e f); auto. apply (T j (sm ny j)); auto.
  - apply (two_values b a d c f e); [apply (T i (sm nx i)); auto| | |]; apply or_comm; auto.
Qed.
Lemma tnodup : forall c, In c (tcells p) -> NoDup c.
Proof.
  intros c H. apply in_grid in H as (i & j & Hi & Hj & [<-|[]]). unfold wrapped.
  pose proof (sm_lt p _ _ Hi). pose proof (sm_lt p _ _ Hj).
  assert (sm (p_nx p) i <> i) by (destruct (sm_spec _ _ Hi) as [[? ?]|[? ?]]; lia).
  assert (sm (p_ny p) j <> j) by (destruct (sm_spec _ _ Hj) as [[? ?]|[? ?]]; lia).
  repeat (constructor; [intros Q; cbn [In] in Q; repeat destruct Q as [Q|Q]; try contradiction; apply (tv_inj p) in Q; lia|]); constructor.
Qed.
Lemma tapart : forall k l c d x y z, nth_error (tcells p) k = Some c -> nth_error (tcells p) l = Some d ->
  In x c -> In y c -> In z c -> In x d -> In y d -> In z d -> x <> y -> y <> z -> x <> z -> k = l.
Proof.
  intros k l c d x y z Hk Hl Xc Yc Zc Xd Yd Zd XY YZ XZ.
  apply grid_nth_inv with (c := 1) in Hk as (i & j & r & Hi & Hj & -> & Hr); auto.
  apply grid_nth_inv with (c := 1) in Hl as (i' & j' & r' & Hi' & Hj' & -> & Hr'); auto.
  destruct r as [|[|r]]; try discriminate. destruct r' as [|[|r']]; try discriminate. injection Hr as <-. injection Hr' as <-.
  assert (U : forall a b a' b' i i', i < nx -> i' < nx -> (a = i \/ a = sm nx i) -> (a' = i' \/ a' = sm nx i') -> v a b = v a' b' -> a = a' /\ b = b').
  { intros a b a' b' q q' Hq Hq' A A' E. pose proof (sm_lt p _ _ Hq). pose proof (sm_lt p _ _ Hq'). apply (tv_inj p); auto; unfold nx in *; lia. }
  assert (D : forall a b a' b', v a b <> v a' b' -> a <> a' \/ b <> b').
  { intros a b a' b' H. destruct (Nat.eq_dec a a') as [E|E]; [|left; exact E]. right. intros F. apply H. rewrite E, F. reflexivity. }
  apply in_wrapped in Xc, Yc, Zc, Xd, Yd, Zd.
  destruct Xc as (a1 & b1 & -> & A1 & B1), Yc as (a2 & b2 & -> & A2 & B2), Zc as (a3 & b3 & -> & A3 & B3).
  destruct Xd as (a4 & b4 & E4 & A4 & B4), Yd as (a5 & b5 & E5 & A5 & B5), Zd as (a6 & b6 & E6 & A6 & B6).
  apply U with (i := i) (i' := i') in E4; auto; apply U with (i := i) (i' := i') in E5; auto; apply U with (i := i) (i' := i') in E6; auto.
  destruct E4 as [<- <-], E5 as [<- <-], E6 as [<- <-]. apply D in XY, YZ, XZ.
  destruct (three_around i j i' j' a1 b1 a2 b2 a3 b3) as [<- <-]; auto.
Qed.
Lemma torus_valid : torus_shaped p -> forall check, exists M, torus_build p check = Ok (Some (M, tsites p)) /\
  map cv_nodes (mv_cells (view M)) = tcells p /\ wf_mesh (view M) /\ simple_mesh (view M) /\ complete_mesh (view M).
Proof.
  intros T check. destruct (torus_mesh p check P T X Y) as (M' & g & E' & _ & _ & _ & _ & _ & _ & _ & Ad).
  rewrite (torus_loops p P (shaped_accepted p P T Y)) in E' |- *.
  assert (Hn : incl (@nil tag) (tU p)) by (intros x []).
  assert (X2 : 2 <= p_nx p) by lia. assert (Y2 : 2 <= p_ny p) by lia.
  destruct (tagged_built (p_ny p * p_nx p) (tcells p) (tpr p) (tU p) [] (ttags p) (tshape p) (tnodes p) (tsides p X2 Y2) (tpr_proper p X2 Y2) (tpr_inj p X2 Y2) (tused p X2 Y2) Hn
    (NoDup_nil _) (ttouch p) check) as (M & C & B).
  cbn [map] in C. rewrite C in E' |- *. cbn [bind] in E' |- *. exists M. split; auto.
  injection E' as <- <-.
  pose proof (tagged_nodes (p_ny p * p_nx p) (tcells p) (tpr p) [] (tshape p) check M B) as [N1 N2]. split; auto.
  pose proof (view_wf check _ M B) as Wf. split; auto. split; [exact (simple_of _ _ N2 tnodup tapart)|].
  apply complete_of; auto.
  - intros e He. destruct (view_counts check _ M B) as (_ & V2 & _). rewrite (Ad e); lia.
  - intros w Hw. rewrite N1 in Hw. destruct (ttouch p w Hw) as (c & Hc & I). rewrite <- N2 in Hc. apply in_map_iff in Hc as (cv & <- & Hc). eauto.
Qed.
End Torus.
