(** Duality of the functionals on triangles. *)
From Coq Require Import Reals List Arith Lia Lra Bool.
From Coquelicot Require Import Coquelicot.
Import ListNotations.
From Verif Require Import Base MeshModel MeshView DofModel RefPatModel GeoModel GeoSpec
  FeModel LagrModel QuadModel HierModel FeSpec QuadSpec Calc LagrProofs2 FeProofs LegendreProofs JacobiProofs OrthoProofs
  HierProofs HierProofs2 PolyProofs HierProofs3 HierProofs4 HierProofs5.
Local Open Scope R_scope.

Lemma segment_mid : forall A (l1 l2 l3 : list A) k n, length l1 = k -> length l2 = n -> segment k n (l1 ++ l2 ++ l3) = l2.
Proof.
  intros A l1 l2 l3 k n <- <-. unfold segment. rewrite skipn_app, skipn_all, Nat.sub_diag. cbn [app skipn].
  rewrite firstn_app, firstn_all, Nat.sub_diag. cbn [firstn]. apply app_nil_r.
Qed.
Definition edge_vals (d : nat) (q : quadrule) (G : R -> R) : list R := if (1 <? d)%nat then map (at1 G) (qr_points q) else [].
Lemma edge_vals_length : forall d q G, length (edge_vals d q G) = edge_pts d q.
Proof. intros d q G. unfold edge_vals, edge_pts, NumPoints. destruct (1 <? d)%nat; [apply map_length|reflexivity]. Qed.
Lemma edge_nodes_length : forall d q o pos neg, length (edge_nodes d q o pos neg) = edge_pts d q.
Proof. intros d q G. unfold edge_nodes, edge_pts, NumPoints. destruct (1 <? d)%nat; intros; [apply map_length|reflexivity]. Qed.
Lemma edge_nodes_vals : forall F d q (o : bool) pos neg G, (forall s, F ((if o then pos else neg) s) = G s) ->
  map F (edge_nodes d q o pos neg) = edge_vals d q G.
Proof.
  intros F d q o pos neg G H. unfold edge_nodes, edge_vals. destruct (1 <? d)%nat; [|reflexivity].
  rewrite map_map. apply map_ext. intros p. rewrite H. reflexivity.
Qed.
Lemma split_list : forall A n m (l : list A), length l = (n + m)%nat -> exists a b, l = a ++ b /\ length a = n /\ length b = m.
Proof.
  intros A n m l H. exists (firstn n l), (skipn n l). rewrite firstn_skipn, firstn_length, skipn_length. repeat split; lia.
Qed.

Section Tria.
Variables (p a b c : nat) (o0 o1 o2 : bool) (q0 q1 q2 qt : quadrule).
Hypothesis (Ha : (1 <= a)%nat) (Hb : (1 <= b)%nat) (Hc : (1 <= c)%nat).
Hypothesis (R0 : rule_for kSegment (2 * (a - 1)) q0) (R1 : rule_for kSegment (2 * (b - 1)) q1)
  (R2 : rule_for kSegment (2 * (c - 1)) q2) (Rt : rule_for kTria (2 * (p - 1)) qt).
Hypothesis Hq : forall x, In x (qr_points qt) -> nth 1 x 0 <> 1.
Let ed := [a; b; c].
Let os := [o0; o1; o2].
Let qe := [q0; q1; q2].
Let f := hier_tria p ed os qe qt.

Lemma tria_nodes_len : forall x, In x (tria_nodes ed os qe qt) -> length x = 2%nat.
Proof.
  assert (E : forall d q (o : bool) pos neg x, (forall s, length (pos s) = 2%nat) -> (forall s : R, length (neg s) = 2%nat) ->
    In x (edge_nodes d q o pos neg) -> length x = 2%nat).
  { intros d q o pos neg x Hp Hn H. unfold edge_nodes in H. destruct (1 <? d)%nat; [|destruct H].
    apply in_map_iff in H. destruct H as (y & <- & _). destruct o; auto. }
  intros x H. unfold tria_nodes in H. repeat rewrite in_app_iff in H. destruct H as [H|[H|[H|[H|H]]]].
  - destruct H as [<-|[<-|[<-|[]]]]; reflexivity.
  - eapply E in H; auto.
  - eapply E in H; auto.
  - eapply E in H; auto.
  - apply (rf_points _ _ _ Rt), H.
Qed.
Lemma tria_nodes_count : length (tria_nodes ed os qe qt) = tria_num_nodes ed qe qt.
Proof. unfold tria_nodes, tria_num_nodes. rewrite !app_length, !edge_nodes_length. unfold NumPoints. cbn [length]. lia. Qed.
Lemma tria_faces : forall F, tria_face_dofs p ed os qe qt (map F (tria_nodes ed os qe qt)) =
  map (face_dual o0 qt (map F (qr_points qt))) (tria_ij p).
Proof.
  intros F. unfold tria_face_dofs. cbn [ori_at nth os]. apply map_ext. intros ij. f_equal.
  unfold tria_nodes. rewrite 3!app_assoc, !map_app.
  match goal with |- segment ?k ?n (?l1 ++ ?l2) = _ => rewrite <- (app_nil_r l2) at 1 end.
  apply segment_mid; [|apply map_length].
  rewrite !app_length, !map_length, !edge_nodes_length. cbn [length]. lia.
Qed.

Variables (u0 u1 u2 : R) (y0 y1 y2 w : list R).
Hypothesis (L0 : length y0 = (a - 1)%nat) (L1 : length y1 = (b - 1)%nat) (L2 : length y2 = (c - 1)%nat)
  (Lw : length w = tria_interior p).
Let V (x y : R) : R := dot ([u0; u1; u2] ++ concat [y0; y1; y2] ++ w) (tria_rows p ed os x y).
Lemma tria_V_edge : forall j o d va vb y s, nth_error ed j = Some d -> nth_error os j = Some o ->
  nth j [u0; u1; u2] 0 = va -> nth ((j + 1) mod 3) [u0; u1; u2] 0 = vb -> nth j [y0; y1; y2] [] = y ->
  at2 V (edge_point kTria j o s) = seg_fun d (if o then va else vb) (if o then vb else va) (if o then y else rev y) s.
Proof.
  intros j o d va vb y s Hd Ho Eva Evb Ey.
  assert (Hj : (j < 3)%nat) by (change 3%nat with (length ed); apply nth_error_Some; congruence).
  assert (Lp : length (edge_point kTria j o s) = 2%nat).
  { unfold edge_point, on_edge. destruct j as [|[|[|]]]; [reflexivity..|lia]. }
  unfold at2, V.
  assert (T : trace_ok f (hier_segment d q0) (trace_of ed) (tria_interior p) j o) by (apply tria_trace; auto).
  rewrite (trace_value f (hier_segment d q0) (trace_of ed) (tria_interior p) j o s d [u0; u1; u2] [y0; y1; y2] w _ T).
  - cbv zeta. change (num_nodes (fe_el f)) with 3%nat. rewrite Eva, Evb, Ey. reflexivity.
  - cbn. lia.
  - exact Hj.
  - reflexivity.
  - reflexivity.
  - reflexivity.
  - cbn [map trace_of ed]. rewrite L0, L1, L2. reflexivity.
  - cbn [f hier_tria fe_eval fe_el]. destruct (edge_point kTria j o s) as [|x1 [|x2 [|]]]; try discriminate Lp. reflexivity.
Qed.
Lemma tria_V_nodes : V 0 0 = u0 /\ V 1 0 = u1 /\ V 0 1 = u2.
Proof.
  pose proof (tria_V_edge 0 o0 a u0 u1 y0 (if o0 then 0 else 1) eq_refl eq_refl eq_refl eq_refl eq_refl) as E0.
  pose proof (tria_V_edge 1 o1 b u1 u2 y1 (if o1 then 0 else 1) eq_refl eq_refl eq_refl eq_refl eq_refl) as E1.
  pose proof (tria_V_edge 2 o2 c u2 u0 y2 (if o2 then 0 else 1) eq_refl eq_refl eq_refl eq_refl eq_refl) as E2.
  assert (S : forall d va vb y (o : bool), seg_fun d (if o then va else vb) (if o then vb else va) y (if o then 0 else 1) = va).
  { intros d va vb y o. destruct (seg_fun_ends d (if o then va else vb) (if o then vb else va) y) as (A & B). destruct o; auto. }
  rewrite S in E0, E1, E2. unfold at2 in E0, E1, E2.
  assert (P : forall j (o : bool), edge_point kTria j o (if o then 0 else 1) = on_edge kTria j 0).
  { intros j o. unfold edge_point. destruct o; f_equal; ring. }
  rewrite P in E0, E1, E2.
  split; [|split].
  - etransitivity; [|exact E0]. f_equal; cbn; ring.
  - etransitivity; [|exact E1]. f_equal; cbn; ring.
  - etransitivity; [|exact E2]. f_equal; cbn; ring.
Qed.
Lemma tria_n2d_ok : tria_n2d p ed os qe qt (map (at2 V) (tria_nodes ed os qe qt)) = [u0; u1; u2] ++ concat [y0; y1; y2] ++ w.
Proof.
  set (G0 := seg_fun a (if o0 then u0 else u1) (if o0 then u1 else u0) (if o0 then y0 else rev y0)).
  set (G1 := seg_fun b (if o1 then u1 else u2) (if o1 then u2 else u1) (if o1 then y1 else rev y1)).
  set (G2 := seg_fun c (if o2 then u2 else u0) (if o2 then u0 else u2) (if o2 then y2 else rev y2)).
  set (vs := map (at2 V) (tria_nodes ed os qe qt)).
  assert (Ev : vs = [u0; u1; u2] ++ edge_vals a q0 G0 ++ edge_vals b q1 G1 ++ edge_vals c q2 G2 ++ map (at2 V) (qr_points qt)).
  { unfold vs, tria_nodes. rewrite !map_app. destruct tria_V_nodes as (N0 & N1 & N2).
    f_equal; [cbn [map at2 nth]; unfold at2; cbn [nth]; rewrite N0, N1, N2; reflexivity|].
    f_equal; [|f_equal; [|f_equal]].
    - apply edge_nodes_vals. intros s. unfold G0. rewrite <- (tria_V_edge 0 o0 a u0 u1 y0 s) by reflexivity.
      f_equal. cbn [ori_at nth os]. destruct o0; cbn; (f_equal; [ring|f_equal; ring]).
    - apply edge_nodes_vals. intros s. unfold G1. rewrite <- (tria_V_edge 1 o1 b u1 u2 y1 s) by reflexivity.
      f_equal. cbn [ori_at nth os]. destruct o1; cbn; (f_equal; [ring|f_equal; ring]).
    - apply edge_nodes_vals. intros s. unfold G2. rewrite <- (tria_V_edge 2 o2 c u2 u0 y2 s) by reflexivity.
      f_equal. cbn [ori_at nth os]. destruct o2; cbn; (f_equal; [ring|f_equal; ring]). }
  assert (Ee : tria_edge_dofs ed os qe qt vs = y0 ++ y1 ++ y2).
  { unfold tria_edge_dofs. cbv zeta. cbn [edge_deg ori_at nth ed os qe].
    replace (segment 3 (edge_pts a q0) vs) with (edge_vals a q0 G0).
    2: { rewrite Ev. symmetry. apply segment_mid; [reflexivity|apply edge_vals_length]. }
    replace (segment (3 + edge_pts a q0) (edge_pts b q1) vs) with (edge_vals b q1 G1).
    2: { rewrite Ev, app_assoc. symmetry. apply segment_mid; [|apply edge_vals_length].
         rewrite app_length, edge_vals_length. reflexivity. }
    replace (segment (3 + edge_pts a q0 + edge_pts b q1) (edge_pts c q2) vs) with (edge_vals c q2 G2).
    2: { rewrite Ev, 2!app_assoc. symmetry. apply segment_mid; [|apply edge_vals_length].
         rewrite !app_length, !edge_vals_length. reflexivity. }
    rewrite Ev. cbn [app nth]. f_equal; [apply edge_dofs_ok; auto|]. f_equal; apply edge_dofs_ok; auto. }
  unfold tria_n2d. cbv zeta. rewrite Ee. unfold vs at 2. rewrite !tria_faces.
  replace (firstn 3 vs) with [u0; u1; u2] by (rewrite Ev; reflexivity).
  cbn [concat]. rewrite app_nil_r, <- !app_assoc. do 4 f_equal.
  rewrite combine_maps, map_map. cbn [fst snd].
  change (ori_at os 0) with o0 in *.
  set (B := fun x y => dot ([u0; u1; u2] ++ y0 ++ y1 ++ y2) (tria_rows p ed os x y)).
  assert (D : forall x y, V x y = B x y + dot w (map (fun kl => inner o0 kl x y) (tria_ij p))).
  { intros x y. unfold V, B, tria_rows. cbn [concat]. rewrite app_nil_r.
    change (map (fun ij => tria_edge0 (ori_at os 0) (fst ij) (1 - x - y) x * ijacobi (snd ij + 1) (2 * INR (fst ij) + 4) y) (tria_ij p))
      with (map (fun kl => inner o0 kl x y) (tria_ij p)).
    match goal with |- dot (?u ++ ?yy ++ w) (?v ++ ?e0 ++ ?e1 ++ ?e2 ++ ?m) = _ =>
      rewrite (app_assoc u yy w); replace (v ++ e0 ++ e1 ++ e2 ++ m) with ((v ++ e0 ++ e1 ++ e2) ++ m) by (rewrite <- !app_assoc; reflexivity);
      assert (LL : length (u ++ yy) = length (v ++ e0 ++ e1 ++ e2))
        by (rewrite !app_length, !edge_rows_length, L0, L1, L2; reflexivity);
      rewrite (dot_app (u ++ yy) w _ m LL);
      replace (dot (u ++ yy) ((v ++ e0 ++ e1 ++ e2) ++ m)) with (dot (u ++ yy) (v ++ e0 ++ e1 ++ e2)) ; [reflexivity|];
      transitivity (dot ((u ++ yy) ++ []) ((v ++ e0 ++ e1 ++ e2) ++ m)); [|rewrite app_nil_r; reflexivity];
      rewrite (dot_app (u ++ yy) [] _ m LL); change (dot [] m) with 0; ring
    end. }
  transitivity (map (fun ij => dot w (map (fun kl => if pair_eqb ij kl then 1 else 0) (tria_ij p))) (tria_ij p)).
  - apply map_ext_in. intros ij Hij.
    transitivity (phi o0 qt ij V - phi o0 qt ij B); [reflexivity|].
    rewrite (phi_ext o0 qt ij V _ D), (phi_plus o0 qt ij B). rewrite phi_dot.
    match goal with |- ?x + ?y - ?x = _ => transitivity y; [ring|] end.
    f_equal. apply map_ext_in. intros kl Hkl. apply (phi_basis o0 p); auto.
  - apply dot_unit; [apply pair_eqb_eq|apply tria_ij_nodup|rewrite tria_ij_length; exact Lw].
Qed.
End Tria.

Lemma tria_dual : forall p a b c os q0 q1 q2 qt, length os = 3%nat -> (1 <= a)%nat -> (1 <= b)%nat -> (1 <= c)%nat ->
  rule_for kSegment (2 * (a - 1)) q0 -> rule_for kSegment (2 * (b - 1)) q1 -> rule_for kSegment (2 * (c - 1)) q2 ->
  rule_for kTria (2 * (p - 1)) qt -> (forall x, In x (qr_points qt) -> nth 1 x 0 <> 1) ->
  let f := hier_tria p [a; b; c] os [q0; q1; q2] qt in
  forall u, length u = fe_total f -> exists vs, traverse (value f u) (fe_nodes f) = Ok vs /\ fe_n2d f vs = Ok u.
Proof.
  intros p a b c os q0 q1 q2 qt Lo Ha Hb Hc R0 R1 R2 Rt Hq f u Lu.
  destruct os as [|o0 [|o1 [|o2 [|]]]]; try discriminate Lo.
  assert (Lu' : length u = (3 + ((a - 1) + ((b - 1) + ((c - 1) + tria_interior p))))%nat).
  { rewrite Lu. cbn [f hier_tria fe_total edge_deg nth]. lia. }
  apply split_list in Lu'. destruct Lu' as (x & r & -> & Lx & Lr).
  apply split_list in Lr. destruct Lr as (y0 & r0 & -> & L0 & Lr).
  apply split_list in Lr. destruct Lr as (y1 & r1 & -> & L1 & Lr).
  apply split_list in Lr. destruct Lr as (y2 & w & -> & L2 & Lw).
  destruct x as [|u0 [|u1 [|u2 [|]]]]; try discriminate Lx.
  set (u := [u0; u1; u2] ++ concat [y0; y1; y2] ++ w).
  assert (Eu : [u0; u1; u2] ++ y0 ++ y1 ++ y2 ++ w = u).
  { unfold u. cbn [concat]. rewrite app_nil_r, <- !app_assoc. reflexivity. }
  rewrite Eu.
  exists (map (at2 (fun x y => dot u (tria_rows p [a; b; c] [o0; o1; o2] x y))) (fe_nodes f)). split.
  - apply traverse_map. intros x Hx. pose proof (tria_nodes_len p a b c o0 o1 o2 q0 q1 q2 qt Rt x Hx) as Lx'.
    destruct x as [|x1 [|x2 [|]]]; try discriminate Lx'. reflexivity.
  - cbn [f hier_tria fe_n2d fe_nodes]. unfold sized. rewrite map_length, tria_nodes_count, Nat.eqb_refl by assumption. cbn [lf_assert bind].
    f_equal. apply tria_n2d_ok; auto.
Qed.
