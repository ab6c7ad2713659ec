(** C90: quadrature rules on the boundary of reference elements. *)
From Coq Require Import Reals List Arith Lia Lra Bool.
From Coquelicot Require Import Coquelicot.
Import ListNotations.
From Verif Require Import Base MeshModel MeshView RefPatModel GeoModel GeoSpec GeoProofs DofModel FeModel QuadModel FeSpec QuadSpec PolyProofs LagrProofs2 HierProofs HierProofs3 QuadProofs QuadRuleModel QuadProofs2
  TriaProofs2 ElemModel ElemSpec ElemProofs5 NormalModel NormalSpec.
Local Open Scope R_scope.

Lemma xdeg_add : forall n l a b a' b', xdeg n a b -> xdeg l a' b' -> xdeg (n + l) (a + a') (b + b').
Proof. intros n l a b a' b'. unfold xdeg. lia. Qed.
Lemma linear_pow : forall a b n, mono (xdeg n) (fun x _ => (a + b * x) ^ n).
Proof.
  intros a b n. induction n as [|n IH].
  - eapply mono_eq; [|apply (mono_one (xdeg 0) 0 0 1)]; [intros; cbn [pow]; ring|unfold xdeg; lia].
  - assert (L : mono (xdeg 1) (fun x _ => a + b * x)).
    { eapply mono_eq; [|apply (mono_plus (xdeg 1) _ _ (mono_one (xdeg 1) 0 0 a ltac:(unfold xdeg; lia)) (mono_one (xdeg 1) 1 0 b ltac:(unfold xdeg; lia)))].
      intros. cbn [pow]. ring. }
    eapply mono_eq; [|apply (mono_mult _ _ (xdeg (1 + n)) _ _ (xdeg_add 1 n) L IH)]. intros. reflexivity.
Qed.
Lemma on_line : forall P k a0 b0 a1 b1 f, mono P f ->
  (forall i j, P i j -> mono (xdeg k) (fun x _ => (a0 + b0 * x) ^ i * (a1 + b1 * x) ^ j)) ->
  mono (xdeg k) (fun x _ => f (a0 + b0 * x) (a1 + b1 * x)).
Proof.
  intros P k a0 b0 a1 b1 f M H. induction M as [|a b c f Pab M IH|f g E M IH].
  - apply mono_zero.
  - apply (mono_plus (xdeg k)); [exact IH|]. apply (mono_scale (xdeg k)). exact (H a b Pab).
  - eapply mono_eq; [|exact IH]. intros. apply E.
Qed.
Lemma sides : forall el i, el = kTria \/ el = kQuad -> (i < num_nodes el)%nat -> exists a0 b0 a1 b1,
  (forall s, on_edge el i s = [a0 + b0 * s; a1 + b1 * s]) /\ (el = kQuad -> b0 = 0 \/ b1 = 0).
Proof.
  intros el i Hel Hi. destruct Hel as [-> | ->]; destruct i as [|[|[|[|i]]]]; cbn in Hi; try lia.
  - exists 0, 1, 0, 0. split; [|discriminate]. intros s. unfold on_edge, between. cbn. f_equal; [ring|f_equal; ring].
  - exists 1, (-1), 0, 1. split; [|discriminate]. intros s. unfold on_edge, between. cbn. f_equal; [ring|f_equal; ring].
  - exists 0, 0, 1, (-1). split; [|discriminate]. intros s. unfold on_edge, between. cbn. f_equal; [ring|f_equal; ring].
  - exists 0, 1, 0, 0. split; [|auto]. intros s. unfold on_edge, between. cbn. f_equal; [ring|f_equal; ring].
  - exists 1, 0, 0, 1. split; [|auto]. intros s. unfold on_edge, between. cbn. f_equal; [ring|f_equal; ring].
  - exists 1, (-1), 1, 0. split; [|auto]. intros s. unfold on_edge, between. cbn. f_equal; [ring|f_equal; ring].
  - exists 0, 0, 1, (-1). split; [|auto]. intros s. unfold on_edge, between. cbn. f_equal; [ring|f_equal; ring].
Qed.
Lemma edge_poly : forall el i k c, el = kTria \/ el = kQuad -> (i < num_nodes el)%nat ->
  exists c', forall s, poly (exponents el k) c (on_edge el i s) = poly (exponents kSegment k) c' [s].
Proof.
  intros el i k c Hel Hi. destruct (sides el i Hel Hi) as [a0 [b0 [a1 [b1 [S Q]]]]].
  destruct (mono_is_poly k (fun x _ => poly (exponents el k) c [a0 + b0 * x; a1 + b1 * x])) as [c' E].
  2: { exists c'. intros s. rewrite S. apply E. }
  apply (on_line (deg el k) k a0 b0 a1 b1 (fun x y => poly (exponents el k) c [x; y])); [apply poly_mono; auto|].
  intros u v D. destruct Hel as [-> | ->]; cbn [deg] in D.
  - unfold tdeg in D. apply (mono_weaken (xdeg (u + v))); [unfold xdeg; lia|]. exact (mono_mult _ _ _ _ _ (xdeg_add u v) (linear_pow a0 b0 u) (linear_pow a1 b1 v)).
  - unfold qdeg in D. destruct (Q eq_refl) as [-> | ->].
    + assert (L : mono (xdeg k) (fun x _ => (a1 + b1 * x) ^ v)) by (apply (mono_weaken (xdeg v)); [unfold xdeg; lia|apply linear_pow]).
      eapply mono_eq; [|exact (mono_scale (xdeg k) _ (a0 ^ u) L)]. intros. cbn beta. f_equal. f_equal. ring.
    + assert (L : mono (xdeg k) (fun x _ => (a0 + b0 * x) ^ u)) by (apply (mono_weaken (xdeg u)); [unfold xdeg; lia|apply linear_pow]).
      eapply mono_eq; [|exact (mono_scale (xdeg k) _ (a1 ^ v) L)]. intros. cbn beta. rewrite Rmult_comm. f_equal. f_equal. ring.
Qed.

Lemma dot_scale : forall (w : list R) (f : list R -> R) (h : R) (l : list (list R)), length w = length l -> FeModel.dot (map (fun x => x * h) w) (map f l) = h * FeModel.dot w (map f l).
Proof.
  intros w f h. induction w as [|x w IH]; intros [|p l] L; try discriminate; unfold FeModel.dot; cbn [map combine rsum fold_right fst snd]; [ring|].
  injection L as L. specialize (IH l L). unfold FeModel.dot, rsum in IH. rewrite IH. ring.
Qed.
Lemma ref_geo : forall el, el = kTria \/ el = kQuad ->
  let cs := map (fun p k => nth k p 0) (NodeCoords el) in
  (match el with kTria => new_geo GTriaO1 2 cs | kQuad => new_geo GQuadO1 2 cs | _ => Assert end) =
  Ok (mkGeo (match el with kTria => GTriaO1 | _ => GQuadO1 end) 2 cs).
Proof.
  intros el [-> | ->]; cbn [NodeCoords map].
  - unfold new_geo. cbn [length num_cols Nat.eqb lf_assert bind]. unfold check_tria. cbv zeta.
    unfold sqnorm, GeoModel.dot, vsub, cross2, tol. cbn [nth seq map fold_right].
    assert (A : Rabs ((1 - 0) * (1 - 0) - (0 - 0) * (0 - 0)) = 1) by (rewrite Rabs_pos_eq; lra).
    repeat match goal with |- context [gtb ?a ?b] => rewrite (proj2 (gtb_true a b)) by (try rewrite A; lra) end. reflexivity.
  - unfold new_geo. cbn [length num_cols Nat.eqb lf_assert bind]. unfold check_quad. cbv zeta.
    unfold sqnorm, GeoModel.dot, vsub, cross2, tol. cbn [nth seq map fold_right].
    assert (A : Rabs ((1 - 0) * (1 - 0) - (0 - 0) * (1 - 0)) = 1) by (rewrite Rabs_pos_eq; lra).
    assert (A' : Rabs ((0 - 0) * (1 - 0) - (1 - 0) * (1 - 0)) = 1) by (rewrite Rabs_left; lra).
    repeat match goal with |- context [gtb ?a ?b] => rewrite (proj2 (gtb_true a b)) by (try rewrite A; try rewrite A'; lra) end. reflexivity.
Qed.

Lemma mapM_total : forall A B (f : A -> res B) (h : A -> B) l, (forall x, In x l -> f x = Ok (h x)) -> mapM f l = Ok (map h l).
Proof.
  intros A B f h l H. induction l as [|x l IH]; [reflexivity|]. cbn [mapM map]. rewrite (H x) by (left; reflexivity). cbn [bind].
  rewrite IH by (intros y Hy; apply H; right; exact Hy). reflexivity.
Qed.
Definition edge_rule (el : refel) (qr : quadrule) (i : nat) : quadrule :=
  mkQr el (map (fun p => on_edge el i (nth 0 p 0)) (qr_points qr)) (map (fun w => w * edge_size el i) (qr_weights qr)) 0.
Lemma edge_rule_ok : forall el k qr i, el = kTria \/ el = kQuad -> rule_for kSegment k qr -> (i < num_nodes el)%nat ->
  let g := mkGeo (match el with kTria => GTriaO1 | _ => GQuadO1 end) 2 (map (fun p k => nth k p 0) (NodeCoords el)) in
  (do edge <- SubGeometry g 1 i;
   do points <- mapM (Global edge) (qr_points qr);
   do ie <- IntegrationElement edge [1 / 2];
   QuadRule el (map (column 2) points) (map (fun w => w * ie) (qr_weights qr)) 0) = Ok (edge_rule el qr i).
Proof.
  intros el k qr i Hel Rf Hi g.
  set (a := fun k => nth k (ref_node el i) 0). set (b := fun k => nth k (ref_node el ((i + 1) mod num_nodes el)) 0).
  assert (ES : SubGeometry g 1 i = Ok (mkGeo GSegmentO1 2 [a; b])).
  { unfold a, b. destruct Hel as [-> | ->]; destruct i as [|[|[|[|i]]]]; cbn in Hi; try lia; reflexivity. }
  rewrite ES. cbn [bind].
  rewrite (mapM_total _ _ (Global (mkGeo GSegmentO1 2 [a; b])) (fun p k => b k * nth 0 p 0 + a k * (1 - nth 0 p 0))).
  2: { intros p Hp. pose proof (rf_points _ _ _ Rf p Hp) as L. cbn [dimension] in L. destruct p as [|s [|? ?]]; try discriminate L. reflexivity. }
  cbn [bind].
  assert (EI : IntegrationElement (mkGeo GSegmentO1 2 [a; b]) [1 / 2] = Ok (edge_size el i)).
  { unfold IntegrationElement, with_local. cbn. f_equal. unfold edge_size, a, b, sqnorm, GeoModel.dot, vsub. cbn [seq map fold_right]. f_equal. cbn. ring. }
  rewrite EI. cbn [bind].
  assert (EP : map (column 2) (map (fun p k => b k * nth 0 p 0 + a k * (1 - nth 0 p 0)) (qr_points qr)) = map (fun p => on_edge el i (nth 0 p 0)) (qr_points qr)).
  { rewrite map_map. apply map_ext. intros p. unfold column. cbn [seq map]. unfold on_edge, between.
    destruct Hel as [-> | ->]; destruct i as [|[|[|[|i]]]]; cbn in Hi; try lia; cbn; f_equal; try ring; f_equal; ring. }
  etransitivity; [exact (f_equal (fun P => QuadRule el P (map (fun w => w * edge_size el i) (qr_weights qr)) 0) EP)|]. unfold QuadRule.
  assert (F : forallb (fun p => length p =? dimension el)%nat (map (fun p => on_edge el i (nth 0 p 0)) (qr_points qr)) = true).
  { apply forallb_forall. intros x Hx. apply in_map_iff in Hx. destruct Hx as [p [<- _]].
    destruct (sides el i Hel Hi) as [a0 [b0 [a1 [b1 [S _]]]]]. rewrite S. destruct Hel as [-> | ->]; reflexivity. }
  rewrite F, !map_length, (rf_weights _ _ _ Rf), Nat.eqb_refl. reflexivity.
Qed.
Theorem boundary_rules : forall el k qr, el = kTria \/ el = kQuad -> rule_for kSegment k qr ->
  exists L, BoundaryQuadRule el qr = Ok L /\ length L = num_nodes el /\
  forall i q, nth_error L i = Some q -> qr_el q = el /\
    qr_points q = map (fun p => on_edge el i (nth 0 p 0)) (qr_points qr) /\ length (qr_weights q) = length (qr_points q) /\
    forall c, quadrature q (poly (exponents el k) c) = edge_integral el i (poly (exponents el k) c).
Proof.
  intros el k qr Hel Rf. exists (map (edge_rule el qr) (seq 0 (num_nodes el))).
  assert (N : num_sub_entities el 1 = num_nodes el) by (destruct Hel as [-> | ->]; reflexivity).
  split; [|split].
  - unfold BoundaryQuadRule. cbv zeta. rewrite (ref_geo el Hel). cbn [bind]. rewrite N. apply mapM_total. intros i Hi. apply in_seq in Hi.
    apply (edge_rule_ok el k qr i Hel Rf). lia.
  - rewrite map_length. apply seq_length.
  - intros i q Hq.
    assert (Hi : (i < num_nodes el)%nat) by (rewrite <- (seq_length (num_nodes el) 0), <- (map_length (edge_rule el qr)); apply nth_error_Some; rewrite Hq; discriminate).
    assert (E : q = edge_rule el qr i).
    { apply (nth_error_nth _ _ (edge_rule el qr 0)) in Hq. rewrite map_nth, seq_nth in Hq by exact Hi. symmetry. exact Hq. }
    subst q. split; [reflexivity|]. split; [reflexivity|]. split; [cbn [edge_rule qr_weights qr_points]; rewrite !map_length; apply (rf_weights _ _ _ Rf)|].
    intros c. destruct (edge_poly el i k c Hel Hi) as [c' E]. unfold quadrature, edge_rule, edge_integral. cbn [qr_points qr_weights].
    rewrite map_map. rewrite dot_scale by (apply (rf_weights _ _ _ Rf)). f_equal.
    rewrite (map_ext_in _ (fun p => poly (exponents kSegment k) c' p)).
    2: { intros p Hp. pose proof (rf_points _ _ _ Rf p Hp) as L. cbn [dimension] in L. destruct p as [|s [|? ?]]; try discriminate L. cbn [nth]. apply E. }
    pose proof (rf_exact _ _ _ Rf c') as X. rewrite (rf_el _ _ _ Rf) in X. unfold quadrature in X. cbn [integral] in X.
    etransitivity; [exact X|]. apply RInt_ext. intros s _. symmetry. apply E.
Qed.
