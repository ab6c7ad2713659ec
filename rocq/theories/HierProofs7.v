(** Duality of the functionals on quadrilaterals. *)
From Coq Require Import Reals List Arith Lia Lra Bool.
From Coquelicot Require Import Coquelicot.
Import ListNotations.
From Verif Require Import Base MeshModel MeshView DofModel RefPatModel GeoModel GeoSpec
  FeModel LagrModel QuadModel HierModel FeSpec QuadSpec Calc LagrProofs2 FeProofs LegendreProofs JacobiProofs OrthoProofs
  HierProofs HierProofs2 PolyProofs HierProofs3 HierProofs4 HierProofs5 HierProofs6.
Local Open Scope R_scope.

(** *** Reading blocks of equal length *)
Lemma segment_block : forall A B (g : A -> list B) n l i d, (forall a, length (g a) = n) -> (i < length l)%nat ->
  segment (n * i) n (concat (map g l)) = g (nth i l d).
Proof.
  intros A B g n l. induction l as [|a l IH]; intros i d Hg Hi; [inversion Hi|]. cbn [map concat].
  destruct i as [|i]; cbn [nth].
  - rewrite Nat.mul_0_r. apply (segment_mid B [] (g a)); auto.
  - cbn [length] in Hi. rewrite <- (IH i d Hg) by lia. unfold segment. rewrite skipn_app, Hg.
    replace (n * S i - n)%nat with (n * i)%nat by lia. rewrite skipn_all2; [reflexivity|]. rewrite Hg. nia.
Qed.
Lemma map_nth_all : forall A B (F : A -> B) l d, map (fun i => F (nth i l d)) (seq 0 (length l)) = map F l.
Proof.
  intros A B F l d. apply (nth_ext _ _ (F d) (F d)); [rewrite !map_length, seq_length; reflexivity|].
  intros i Hi. rewrite map_length, seq_length in Hi. rewrite (map_nth F).
  rewrite nth_map_seq by exact Hi. reflexivity.
Qed.
Definition pts1 (q : quadrule) : list R := [0; 1] ++ map (fun a => nth 0 a 0) (qr_points q).
Lemma firstn_seq : forall k n a, (k <= n)%nat -> firstn k (seq a n) = seq a k.
Proof.
  induction k as [|k IH]; intros n a H; [reflexivity|]. destruct n as [|n]; [lia|]. cbn [seq firstn]. f_equal. apply IH. lia.
Qed.
Lemma seg_n2d_lam : forall m q g p, (p <= m)%nat ->
  segment 2 (p - 1) (seg_n2d m q (map g (pts1 q))) = map (fun i => lam q (i + 2) g) (seq 0 (p - 1)).
Proof.
  intros m q g p Hp. unfold seg_n2d, pts1, segment. cbn [app map nth skipn]. rewrite firstn_map, firstn_seq by lia.
  rewrite <- !seq_shift, !map_map. apply map_ext. intros i. unfold lam.
  replace (i + 2)%nat with (S (S i)) by lia. reflexivity.
Qed.
Lemma face_lam : forall p m q V, (1 < p)%nat -> (p <= m)%nat ->
  quad_face_dofs p m q (concat (map (fun y => map (fun x => V x y) (pts1 q)) (pts1 q))) =
  map (fun kl => lam q (snd kl + 2) (fun y => lam q (fst kl + 2) (fun x => V x y))) (quad_ij p).
Proof.
  intros p m q V H1 Hp. unfold quad_face_dofs. destruct (Nat.ltb_spec 1 p) as [_|]; [|lia]. cbv zeta.
  set (nq := (NumPoints q + 2)%nat). assert (Lp : length (pts1 q) = nq).
  { unfold pts1, nq, NumPoints. rewrite app_length, map_length. cbn [length]. lia. }
  set (row := fun y => map (fun k => lam q (k + 2) (fun x => V x y)) (seq 0 (p - 1))).
  assert (E1 : map (fun i => segment 2 (p - 1) (seg_n2d m q (segment (nq * i) nq
                     (concat (map (fun y => map (fun x => V x y) (pts1 q)) (pts1 q)))))) (seq 0 nq) = map row (pts1 q)).
  { rewrite <- (map_nth_all R (list R) row (pts1 q) 0), Lp. apply map_ext_in. intros i Hi. apply in_seq in Hi.
    rewrite (segment_block R R (fun y => map (fun x => V x y) (pts1 q)) nq (pts1 q) i 0).
    - apply (seg_n2d_lam m q (fun x => V x (nth i (pts1 q) 0)) p Hp).
    - intros a. rewrite map_length. exact Lp.
    - lia. }
  rewrite E1. unfold quad_ij. rewrite concat_map, map_map. f_equal. apply map_ext_in. intros l Hl. apply in_seq in Hl.
  rewrite !map_map. apply map_ext_in. intros k Hk. apply in_seq in Hk. cbn [fst snd]. rewrite map_map.
  rewrite (map_ext (fun y => nth k (row y) 0) (fun y => lam q (k + 2) (fun x => V x y))).
  2: { intros y. unfold row. rewrite nth_map_seq by lia. reflexivity. }
  rewrite (seg_n2d_lam m q (fun y => lam q (k + 2) (fun x => V x y)) p Hp). rewrite nth_map_seq by lia. reflexivity.
Qed.

(** *** Products *)
Definition prod (r : (R -> R) * (R -> R)) (x y : R) : R := fst r x * snd r y.
Lemma lam_prod : forall q k l rs u,
  lam q l (fun y => lam q k (fun x => dot u (map (fun r => prod r x y) rs))) =
  dot u (map (fun r => lam q k (fst r) * lam q l (snd r)) rs).
Proof.
  intros q k l rs u.
  rewrite (lam_ext q l _ (fun y => dot u (map (fun r => lam q k (fst r) * snd r y) rs))).
  - rewrite (lam_dot _ q l rs (fun r y => lam q k (fst r) * snd r y) u). f_equal. apply map_ext. intros r. apply lam_scal.
  - intros y. rewrite (lam_dot _ q k rs (fun r x => prod r x y) u). f_equal. apply map_ext. intros r. unfold prod.
    rewrite (lam_ext q k _ (fun x => snd r y * fst r x)) by (intros; ring). rewrite lam_scal. ring.
Qed.
Lemma edge_rows_map : forall A B (F : A -> B) o n pos neg,
  map F (edge_rows o n pos neg) = edge_rows o n (fun i => F (pos i)) (fun i => F (neg i)).
Proof. intros A B F o n pos neg. unfold edge_rows. destruct o; rewrite ?map_rev, map_map; reflexivity. Qed.
Lemma in_edge_rows : forall A (o : bool) n (pos neg : nat -> A) (P : A -> Prop), (forall i, P (pos i)) -> (forall i, P (neg i)) ->
  forall a, In a (edge_rows o n pos neg) -> P a.
Proof.
  intros A o n pos neg P H1 H2 a H. unfold edge_rows in H. destruct o; [|apply in_rev in H]; apply in_map_iff in H;
    destruct H as (i & <- & _); auto.
Qed.
Definition bnd_rows (p : nat) (ed : list nat) (os : list bool) : list ((R -> R) * (R -> R)) :=
  let m := quad_deg p ed in
  let s k := fun x => nth k (seg_rows m x) 0 in
  let f k := fun x => nth k (seg_rows m (1 - x)) 0 in
  [(s 0%nat, s 0%nat); (s 1%nat, s 0%nat); (s 1%nat, s 1%nat); (s 0%nat, s 1%nat)]
  ++ edge_rows (ori_at os 0) (edge_deg ed 0 - 1) (fun i => (s (2 + i)%nat, s 0%nat)) (fun i => (f (2 + i)%nat, s 0%nat))
  ++ edge_rows (ori_at os 1) (edge_deg ed 1 - 1) (fun i => (s 1%nat, s (2 + i)%nat)) (fun i => (s 1%nat, f (2 + i)%nat))
  ++ edge_rows (ori_at os 2) (edge_deg ed 2 - 1) (fun i => (f (2 + i)%nat, s 1%nat)) (fun i => (s (2 + i)%nat, s 1%nat))
  ++ edge_rows (ori_at os 3) (edge_deg ed 3 - 1) (fun i => (s 0%nat, f (2 + i)%nat)) (fun i => (s 0%nat, s (2 + i)%nat)).
Definition int_rows (p : nat) (ed : list nat) : list ((R -> R) * (R -> R)) :=
  let s k := fun x => nth k (seg_rows (quad_deg p ed) x) 0 in
  map (fun ji => (s (fst ji + 2), s (snd ji + 2))%nat) (quad_ij p).
Lemma quad_rows_prod : forall p ed os x y, quad_rows p ed os x y = map (fun r => prod r x y) (bnd_rows p ed os ++ int_rows p ed).
Proof.
  intros p ed os x y. unfold bnd_rows, int_rows. cbv zeta. rewrite <- !app_assoc, !map_app, !edge_rows_map, map_map. reflexivity.
Qed.
Lemma in_quad_ij : forall p k l, In (k, l) (quad_ij p) -> (k + 2 <= p /\ l + 2 <= p)%nat.
Proof.
  intros p k l H. unfold quad_ij in H. apply in_concat in H. destruct H as (r & Hr & H).
  apply in_map_iff in Hr. destruct Hr as (i & <- & Hi). apply in_map_iff in H. destruct H as (j & E & Hj).
  injection E as -> ->. apply in_seq in Hi, Hj. lia.
Qed.
Lemma quad_ij_nodup : forall p, NoDup (quad_ij p).
Proof.
  intros p. unfold quad_ij. generalize (seq_NoDup (p - 1) 0) as N. generalize (seq 0 (p - 1)) at 1 3 as r. intros r N.
  induction N as [|i r H N IH]; cbn [map concat]; [constructor|]. apply nodup_app; [|exact IH|].
  - apply FinFun.Injective_map_NoDup; [|apply seq_NoDup]. intros x y E. congruence.
  - intros [x y] Hx Hy. apply in_map_iff in Hx. destruct Hx as (c & E & _). injection E as <- <-.
    apply in_concat in Hy. destruct Hy as (l' & Hl & Hy). apply in_map_iff in Hl. destruct Hl as (i' & <- & Hi).
    apply in_map_iff in Hy. destruct Hy as (j' & E & _). injection E as _ ->. contradiction.
Qed.
Lemma face_dual_quad : forall p ed os q bu w, (1 < p)%nat -> rule_for kSegment (2 * (quad_deg p ed - 1)) q ->
  length bu = length (bnd_rows p ed os) -> length w = length (quad_ij p) ->
  map (fun kl => lam q (snd kl + 2) (fun y => lam q (fst kl + 2) (fun x => dot (bu ++ w) (quad_rows p ed os x y)))) (quad_ij p) = w.
Proof.
  intros p ed os q bu w Hp Rq Lb Lw. set (m := quad_deg p ed) in *.
  assert (Hm : (p <= m)%nat) by (unfold m, quad_deg; lia).
  etransitivity; [|exact (dot_unit (nat * nat) pair_eqb pair_eqb_eq (quad_ij p) w (quad_ij_nodup p) Lw)].
  apply map_ext_in. intros [k l] Hkl. cbn [fst snd]. apply in_quad_ij in Hkl.
  rewrite (lam_ext q (l + 2) _ (fun y => lam q (k + 2) (fun x => dot (bu ++ w) (map (fun r => prod r x y) (bnd_rows p ed os ++ int_rows p ed))))).
  2: { intros y. apply lam_ext. intros x. rewrite quad_rows_prod. reflexivity. }
  rewrite lam_prod, map_app, dot_app by (rewrite map_length; exact Lb).
  rewrite (map_zero _ _ (bnd_rows p ed os)), dot_zeros.
  - rewrite Rplus_0_l. f_equal. unfold int_rows. rewrite map_map. apply map_ext_in. intros [k' l'] H'. apply in_quad_ij in H'.
    cbn [fst snd]. fold m. rewrite !(lam_basis q m) by (auto; lia). unfold pair_eqb. cbn [fst snd].
    destruct (Nat.eqb_spec (k + 2) (k' + 2)), (Nat.eqb_spec (l + 2) (l' + 2)), (Nat.eqb_spec k k'), (Nat.eqb_spec l l');
      try lia; cbn [andb]; ring.
  - assert (Z : forall i j, (2 <= i <= m)%nat -> (j < 2)%nat -> lam q i (fun x => nth j (seg_rows m x) 0) = 0).
    { intros i j Hi Hj. rewrite (lam_basis q m) by (auto; lia). destruct (Nat.eqb_spec i j); [lia|reflexivity]. }
    intros r Hr. unfold bnd_rows in Hr. cbv zeta in Hr. fold m in Hr. repeat rewrite in_app_iff in Hr.
    set (P := fun r : (R -> R) * (R -> R) => lam q (k + 2) (fst r) * lam q (l + 2) (snd r) = 0).
    change (P r). destruct Hr as [Hr|[Hr|[Hr|[Hr|Hr]]]].
    + destruct Hr as [<-|[<-|[<-|[<-|[]]]]]; unfold P; cbn [fst snd]; rewrite !Z by lia; ring.
    + eapply in_edge_rows in Hr; [exact Hr| |]; intros i; unfold P; cbn [fst snd]; rewrite (Z (l + 2)%nat 0%nat) by lia; ring.
    + eapply in_edge_rows in Hr; [exact Hr| |]; intros i; unfold P; cbn [fst snd]; rewrite (Z (k + 2)%nat 1%nat) by lia; ring.
    + eapply in_edge_rows in Hr; [exact Hr| |]; intros i; unfold P; cbn [fst snd]; rewrite (Z (l + 2)%nat 1%nat) by lia; ring.
    + eapply in_edge_rows in Hr; [exact Hr| |]; intros i; unfold P; cbn [fst snd]; rewrite (Z (k + 2)%nat 0%nat) by lia; ring.
Qed.

Section Quad.
Variables (p a b c e : nat) (o0 o1 o2 o3 : bool) (q0 q1 q2 q3 qi : quadrule).
Hypothesis (Ha : (1 <= a)%nat) (Hb : (1 <= b)%nat) (Hc : (1 <= c)%nat) (He : (1 <= e)%nat).
Let ed := [a; b; c; e].
Let os := [o0; o1; o2; o3].
Let qe := [q0; q1; q2; q3].
Let f := hier_quad p ed os qe qi.
Hypothesis (R0 : rule_for kSegment (2 * (a - 1)) q0) (R1 : rule_for kSegment (2 * (b - 1)) q1)
  (R2 : rule_for kSegment (2 * (c - 1)) q2) (R3 : rule_for kSegment (2 * (e - 1)) q3)
  (Ri : rule_for kSegment (2 * (quad_deg p ed - 1)) qi).

Lemma quad_nodes_len : forall x, In x (quad_nodes p ed os qe qi) -> length x = 2%nat.
Proof.
  assert (E : forall d q (o : bool) pos neg x, (forall s, length (pos s) = 2%nat) -> (forall s : R, length (neg s) = 2%nat) ->
    In x (edge_nodes d q o pos neg) -> length x = 2%nat).
  { intros d q o pos neg x Hp Hn H. unfold edge_nodes in H. destruct (1 <? d)%nat; [|destruct H].
    apply in_map_iff in H. destruct H as (y & <- & _). destruct o; auto. }
  intros x H. unfold quad_nodes in H. repeat rewrite in_app_iff in H. destruct H as [H|[H|[H|[H|[H|H]]]]].
  - destruct H as [<-|[<-|[<-|[<-|[]]]]]; reflexivity.
  - eapply E in H; auto.
  - eapply E in H; auto.
  - eapply E in H; auto.
  - eapply E in H; auto.
  - apply in_concat in H. destruct H as (l & Hl & H). apply in_map_iff in Hl. destruct Hl as (y & <- & _).
    apply in_map_iff in H. destruct H as (z & <- & _). reflexivity.
Qed.
Lemma quad_nodes_count : length (quad_nodes p ed os qe qi) = quad_num_nodes p ed qe qi.
Proof.
  unfold quad_nodes, quad_num_nodes. rewrite !app_length, !edge_nodes_length. cbn [length].
  assert (E : forall A B C (l : list A) (l' : list B) (g : A -> B -> C), length (concat (map (fun y => map (fun x => g y x) l') l)) = (length l' * length l)%nat).
  { intros A B C l l' g. induction l; cbn [map concat length]; [lia|]. rewrite app_length, map_length, IHl. lia. }
  rewrite E. unfold quad_pts1, NumPoints. destruct (1 <? p)%nat; [|cbn [length]; lia].
  rewrite app_length, map_length. cbn [length]. lia.
Qed.

Variables (u0 u1 u2 u3 : R) (y0 y1 y2 y3 w : list R).
Hypothesis (L0 : length y0 = (a - 1)%nat) (L1 : length y1 = (b - 1)%nat) (L2 : length y2 = (c - 1)%nat)
  (L3 : length y3 = (e - 1)%nat) (Lw : length w = ((p - 1) * (p - 1))%nat).
Let us := [u0; u1; u2; u3].
Let ys := [y0; y1; y2; y3].
Let V (x y : R) : R := dot (us ++ concat ys ++ w) (quad_rows p ed os x y).
Lemma quad_V_edge : forall j o d va vb y s, nth_error ed j = Some d -> nth_error os j = Some o ->
  nth j us 0 = va -> nth ((j + 1) mod 4) us 0 = vb -> nth j ys [] = y ->
  at2 V (edge_point kQuad j o s) = seg_fun d (if o then va else vb) (if o then vb else va) (if o then y else rev y) s.
Proof.
  intros j o d va vb y s Hd Ho Eva Evb Ey.
  assert (Hj : (j < 4)%nat) by (change 4%nat with (length ed); apply nth_error_Some; congruence).
  assert (Lp : length (edge_point kQuad j o s) = 2%nat).
  { unfold edge_point, on_edge. destruct j as [|[|[|[|]]]]; [reflexivity..|lia]. }
  unfold at2, V.
  assert (T : trace_ok f (hier_segment d q0) (trace_of ed) ((p - 1) * (p - 1)) j o) by (apply quad_trace; auto).
  rewrite (trace_value f (hier_segment d q0) (trace_of ed) ((p - 1) * (p - 1)) j o s d us ys w _ T).
  - cbv zeta. change (num_nodes (fe_el f)) with 4%nat. rewrite Eva, Evb, Ey. reflexivity.
  - cbn. lia.
  - exact Hj.
  - reflexivity.
  - reflexivity.
  - reflexivity.
  - cbn [map trace_of ed ys]. rewrite L0, L1, L2, L3. reflexivity.
  - cbn [f hier_quad fe_eval fe_el]. destruct (edge_point kQuad j o s) as [|x1 [|x2 [|]]]; try discriminate Lp. reflexivity.
Qed.
Lemma quad_V_nodes : V 0 0 = u0 /\ V 1 0 = u1 /\ V 1 1 = u2 /\ V 0 1 = u3.
Proof.
  pose proof (quad_V_edge 0 o0 a u0 u1 y0 (if o0 then 0 else 1) eq_refl eq_refl eq_refl eq_refl eq_refl) as E0.
  pose proof (quad_V_edge 1 o1 b u1 u2 y1 (if o1 then 0 else 1) eq_refl eq_refl eq_refl eq_refl eq_refl) as E1.
  pose proof (quad_V_edge 2 o2 c u2 u3 y2 (if o2 then 0 else 1) eq_refl eq_refl eq_refl eq_refl eq_refl) as E2.
  pose proof (quad_V_edge 3 o3 e u3 u0 y3 (if o3 then 0 else 1) eq_refl eq_refl eq_refl eq_refl eq_refl) as E3.
  assert (S : forall d va vb y (o : bool), seg_fun d (if o then va else vb) (if o then vb else va) y (if o then 0 else 1) = va).
  { intros d va vb y o. destruct (seg_fun_ends d (if o then va else vb) (if o then vb else va) y) as (A & B). destruct o; auto. }
  rewrite S in E0, E1, E2, E3. unfold at2 in E0, E1, E2, E3.
  assert (P : forall j (o : bool), edge_point kQuad j o (if o then 0 else 1) = on_edge kQuad j 0).
  { intros j o. unfold edge_point. destruct o; f_equal; ring. }
  rewrite P in E0, E1, E2, E3.
  split; [|split; [|split]].
  - etransitivity; [|exact E0]. f_equal; cbn; ring.
  - etransitivity; [|exact E1]. f_equal; cbn; ring.
  - etransitivity; [|exact E2]. f_equal; cbn; ring.
  - etransitivity; [|exact E3]. f_equal; cbn; ring.
Qed.
Lemma quad_n2d_ok : quad_n2d p ed os qe qi (map (at2 V) (quad_nodes p ed os qe qi)) = us ++ concat ys ++ w.
Proof.
  set (G0 := seg_fun a (if o0 then u0 else u1) (if o0 then u1 else u0) (if o0 then y0 else rev y0)).
  set (G1 := seg_fun b (if o1 then u1 else u2) (if o1 then u2 else u1) (if o1 then y1 else rev y1)).
  set (G2 := seg_fun c (if o2 then u2 else u3) (if o2 then u3 else u2) (if o2 then y2 else rev y2)).
  set (G3 := seg_fun e (if o3 then u3 else u0) (if o3 then u0 else u3) (if o3 then y3 else rev y3)).
  set (vs := map (at2 V) (quad_nodes p ed os qe qi)).
  set (fv := concat (map (fun y => map (fun x => V x y) (quad_pts1 p qi)) (quad_pts1 p qi))).
  assert (Ev : vs = us ++ edge_vals a q0 G0 ++ edge_vals b q1 G1 ++ edge_vals c q2 G2 ++ edge_vals e q3 G3 ++ fv).
  { unfold vs, quad_nodes. rewrite !map_app. destruct quad_V_nodes as (N0 & N1 & N2 & N3).
    f_equal; [cbn [map]; unfold at2; cbn [nth]; rewrite N0, N1, N2, N3; reflexivity|].
    f_equal; [|f_equal; [|f_equal; [|f_equal]]].
    - apply edge_nodes_vals. intros s. unfold G0. rewrite <- (quad_V_edge 0 o0 a u0 u1 y0 s) by reflexivity.
      f_equal. cbn [ori_at nth os]. destruct o0; cbn; (f_equal; [ring|f_equal; ring]).
    - apply edge_nodes_vals. intros s. unfold G1. rewrite <- (quad_V_edge 1 o1 b u1 u2 y1 s) by reflexivity.
      f_equal. cbn [ori_at nth os]. destruct o1; cbn; (f_equal; [ring|f_equal; ring]).
    - apply edge_nodes_vals. intros s. unfold G2. rewrite <- (quad_V_edge 2 o2 c u2 u3 y2 s) by reflexivity.
      f_equal. cbn [ori_at nth os]. destruct o2; cbn; (f_equal; [ring|f_equal; ring]).
    - apply edge_nodes_vals. intros s. unfold G3. rewrite <- (quad_V_edge 3 o3 e u3 u0 y3 s) by reflexivity.
      f_equal. cbn [ori_at nth os]. destruct o3; cbn; (f_equal; [ring|f_equal; ring]).
    - rewrite concat_map, map_map. unfold fv. f_equal. apply map_ext. intros y. rewrite map_map. reflexivity. }
  unfold quad_n2d. cbv zeta. cbn [edge_deg ori_at nth ed os qe].
  replace (segment 4 (edge_pts a q0) vs) with (edge_vals a q0 G0).
  2: { rewrite Ev. symmetry. apply segment_mid; [reflexivity|apply edge_vals_length]. }
  replace (segment (4 + edge_pts a q0) (edge_pts b q1) vs) with (edge_vals b q1 G1).
  2: { rewrite Ev, app_assoc. symmetry. apply segment_mid; [|apply edge_vals_length].
       rewrite app_length, edge_vals_length. reflexivity. }
  replace (segment (4 + edge_pts a q0 + edge_pts b q1) (edge_pts c q2) vs) with (edge_vals c q2 G2).
  2: { rewrite Ev, 2!app_assoc. symmetry. apply segment_mid; [|apply edge_vals_length].
       rewrite !app_length, !edge_vals_length. reflexivity. }
  replace (segment (4 + edge_pts a q0 + edge_pts b q1 + edge_pts c q2) (edge_pts e q3) vs) with (edge_vals e q3 G3).
  2: { rewrite Ev, 3!app_assoc. symmetry. apply segment_mid; [|apply edge_vals_length].
       rewrite !app_length, !edge_vals_length. reflexivity. }
  replace (skipn (4 + edge_pts a q0 + edge_pts b q1 + edge_pts c q2 + edge_pts e q3) vs) with fv.
  2: { rewrite Ev, 4!app_assoc. symmetry.
       match goal with |- skipn ?n (?l ++ fv) = _ => replace n with (length l) end.
       - rewrite skipn_app, skipn_all, Nat.sub_diag. reflexivity.
       - rewrite !app_length, !edge_vals_length. cbn [us length]. lia. }
  rewrite Ev. cbn [app nth us firstn]. do 4 f_equal. cbn [concat ys]. rewrite app_nil_r, <- !app_assoc.
  f_equal; [apply edge_dofs_ok; auto|]. f_equal; [apply edge_dofs_ok; auto|]. f_equal; [apply edge_dofs_ok; auto|].
  f_equal; [apply edge_dofs_ok; auto|].
  assert (Hm : (p <= quad_deg p ed)%nat) by (unfold quad_deg; lia).
  unfold fv, quad_pts1. destruct (Nat.ltb_spec 1 p) as [H1|H1].
  - change ([0; 1] ++ map (fun a => nth 0 a 0) (qr_points qi)) with (pts1 qi).
    rewrite (face_lam p (quad_deg p ed) qi V H1 Hm).
    etransitivity; [|apply (face_dual_quad p ed os qi (us ++ concat ys) w H1 Ri)].
    + apply map_ext. intros kl. apply lam_ext. intros y. apply lam_ext. intros x. unfold V. rewrite app_assoc. reflexivity.
    + unfold bnd_rows. cbv zeta. rewrite !app_length, !edge_rows_length. cbn [concat ys us length edge_deg nth ed].
      rewrite app_nil_r, !app_length, L0, L1, L2, L3. reflexivity.
    + rewrite quad_ij_length. exact Lw.
  - unfold quad_face_dofs. destruct (Nat.ltb_spec 1 p); [lia|]. destruct w as [|z w']; [reflexivity|].
    cbn [length] in Lw. replace (p - 1)%nat with 0%nat in Lw by lia. discriminate Lw.
Qed.
End Quad.

Lemma quad_dual : forall p a b c e os q0 q1 q2 q3 qi, length os = 4%nat ->
  (1 <= a)%nat -> (1 <= b)%nat -> (1 <= c)%nat -> (1 <= e)%nat ->
  rule_for kSegment (2 * (a - 1)) q0 -> rule_for kSegment (2 * (b - 1)) q1 -> rule_for kSegment (2 * (c - 1)) q2 ->
  rule_for kSegment (2 * (e - 1)) q3 -> rule_for kSegment (2 * (quad_deg p [a; b; c; e] - 1)) qi ->
  let f := hier_quad p [a; b; c; e] os [q0; q1; q2; q3] qi in
  forall u, length u = fe_total f -> exists vs, traverse (value f u) (fe_nodes f) = Ok vs /\ fe_n2d f vs = Ok u.
Proof.
  intros p a b c e os q0 q1 q2 q3 qi Lo Ha Hb Hc He R0 R1 R2 R3 Ri f u Lu.
  destruct os as [|o0 [|o1 [|o2 [|o3 [|]]]]]; try discriminate Lo.
  assert (Lu' : length u = (4 + ((a - 1) + ((b - 1) + ((c - 1) + ((e - 1) + (p - 1) * (p - 1))))))%nat).
  { rewrite Lu. cbn [f hier_quad fe_total edge_deg nth]. lia. }
  apply split_list in Lu'. destruct Lu' as (x & r & -> & Lx & Lr).
  apply split_list in Lr. destruct Lr as (y0 & r0 & -> & L0 & Lr).
  apply split_list in Lr. destruct Lr as (y1 & r1 & -> & L1 & Lr).
  apply split_list in Lr. destruct Lr as (y2 & r2 & -> & L2 & Lr).
  apply split_list in Lr. destruct Lr as (y3 & w & -> & L3 & Lw).
  destruct x as [|u0 [|u1 [|u2 [|u3 [|]]]]]; try discriminate Lx.
  set (u := [u0; u1; u2; u3] ++ concat [y0; y1; y2; y3] ++ w).
  assert (Eu : [u0; u1; u2; u3] ++ y0 ++ y1 ++ y2 ++ y3 ++ w = u).
  { unfold u. cbn [concat]. rewrite app_nil_r, <- !app_assoc. reflexivity. }
  rewrite Eu.
  exists (map (at2 (fun x y => dot u (quad_rows p [a; b; c; e] [o0; o1; o2; o3] x y))) (fe_nodes f)). split.
  - apply traverse_map. intros x Hx. pose proof (quad_nodes_len p a b c e o0 o1 o2 o3 q0 q1 q2 q3 qi x Hx) as Lx'.
    destruct x as [|x1 [|x2 [|]]]; try discriminate Lx'. reflexivity.
  - cbn [f hier_quad fe_n2d fe_nodes]. unfold sized. rewrite map_length, quad_nodes_count, Nat.eqb_refl by assumption.
    cbn [lf_assert bind]. f_equal. apply quad_n2d_ok; auto.
Qed.
