(** Consequences of the entries: energy, symmetry, definiteness, constants. *)
From Coq Require Import Reals List Arith Bool Lia Lra.
Import ListNotations.
From Verif Require Import Base MeshModel MeshView DofModel RefPatModel GeoModel GeoSpec GeoProofs GeoProofs2 GeoProofs3 FeModel QuadModel FeSpec QuadSpec
  HierProofs HierProofs3 ElemModel ElemSpec ElemProofs ElemProofs2.
Local Open Scope R_scope.

Lemma quad_ext : forall q F H, (forall p, In p (qr_points q) -> F p = H p) -> quadrature q F = quadrature q H.
Proof. intros q F H E. unfold quadrature. f_equal. apply map_ext_in, E. Qed.
Lemma quad_sum : forall q n (F : nat -> list R -> R), length (qr_weights q) = length (qr_points q) ->
  quadrature q (fun p => sum_to n (fun i => F i p)) = sum_to n (fun i => quadrature q (F i)).
Proof.
  intros q n F L. rewrite (quad_idx q _ L), sum_to_rsum.
  transitivity (rsum (map (fun k => rsum (map (fun i => nth k (qr_weights q) 0 * F i (nth k (qr_points q) [])) (seq 0 n))) (seq 0 (NumPoints q)))).
  { apply rs_ext. intros. rewrite sum_to_rsum, <- rs_scal. reflexivity. }
  rewrite rs_swap. apply rs_ext. intros i _. rewrite (quad_idx q _ L). reflexivity.
Qed.
Lemma quad_scal : forall q t (F : list R -> R), length (qr_weights q) = length (qr_points q) ->
  quadrature q (fun p => t * F p) = t * quadrature q F.
Proof. intros q t F L. rewrite !(quad_idx q _ L), <- rs_scal. apply rs_ext. intros. ring. Qed.
Lemma quad_plus : forall q (F H : list R -> R), length (qr_weights q) = length (qr_points q) ->
  quadrature q (fun p => F p + H p) = quadrature q F + quadrature q H.
Proof. intros q F H L. rewrite !(quad_idx q _ L), <- rs_plus. apply rs_ext. intros. ring. Qed.
Lemma quad_nonneg : forall q (F : list R -> R), length (qr_weights q) = length (qr_points q) ->
  (forall w, In w (qr_weights q) -> 0 <= w) -> (forall p, In p (qr_points q) -> 0 <= F p) -> 0 <= quadrature q F.
Proof.
  intros q F L W P. rewrite (quad_idx q _ L). apply rs_nonneg. intros k Hk. apply in_seq in Hk. unfold NumPoints in Hk.
  apply Rmult_le_pos; [apply W|apply P]; apply nth_In; lia.
Qed.
Lemma sum_to_ext : forall n f g, (forall i, (i < n)%nat -> f i = g i) -> sum_to n f = sum_to n g.
Proof. intros n f g H. rewrite !sum_to_rsum. apply rs_ext. intros i Hi. apply in_seq in Hi. apply H. lia. Qed.
Lemma sum_to_scal : forall n t f, sum_to n (fun i => t * f i) = t * sum_to n f.
Proof. intros. rewrite !sum_to_rsum. apply rs_scal. Qed.
Lemma sum_to_plus : forall n f g, sum_to n (fun i => f i + g i) = sum_to n f + sum_to n g.
Proof. intros. rewrite !sum_to_rsum. apply rs_plus. Qed.
Lemma quad_double : forall q n (F : nat -> nat -> list R -> R) u, length (qr_weights q) = length (qr_points q) ->
  sum_to n (fun i => sum_to n (fun j => u i * quadrature q (F i j) * u j)) =
  quadrature q (fun p => sum_to n (fun i => sum_to n (fun j => u i * F i j p * u j))).
Proof.
  intros q n F u L. rewrite quad_sum by exact L. apply sum_to_ext. intros i _. rewrite quad_sum by exact L.
  apply sum_to_ext. intros j _.
  rewrite (quad_ext q (fun p => u i * F i j p * u j) (fun p => (u i * u j) * F i j p)) by (intros; ring).
  rewrite quad_scal by exact L. ring.
Qed.

(** *** From the entries to the quadratic form *)
Lemma vol_nonneg : forall g vol p, volume_at g vol p -> 0 <= vol p.
Proof. intros g vol p [J [_ ->]]. apply sqrt_pos. Qed.
Lemma form_entries : forall M n h u, em_n M = n -> (forall i j, (i < n)%nat -> (j < n)%nat -> em_at M i j = h i j) ->
  quadratic_form M u = sum_to n (fun i => sum_to n (fun j => u i * h i j * u j)).
Proof.
  intros M n h u <- H. unfold quadratic_form. apply sum_to_ext. intros i Hi. apply sum_to_ext. intros j Hj. rewrite H by assumption. reflexivity.
Qed.
Lemma symm_entries : forall M n h, em_n M = n -> (forall i j, (i < n)%nat -> (j < n)%nat -> em_at M i j = h i j) ->
  (forall i j, h i j = h j i) -> symmetric M.
Proof. intros M n h <- H S i j Hi Hj. rewrite !H by assumption. apply S. Qed.
Lemma image_entries : forall M n h u i, em_n M = n -> (forall i j, (i < n)%nat -> (j < n)%nat -> em_at M i j = h i j) -> (i < n)%nat ->
  image M u i = sum_to n (fun j => h i j * u j).
Proof. intros M n h u i <- H Hi. unfold image. apply sum_to_ext. intros j Hj. rewrite H by assumption. reflexivity. Qed.

Lemma diff_form : forall q d n vol G a u, length (qr_weights q) = length (qr_points q) ->
  sum_to n (fun i => sum_to n (fun j => u i * quadrature q (fun p => vol p * inner d (G i p) (flux d (a p) (G j p))) * u j)) =
  quadrature q (fun p => vol p * inner d (fun k => sum_to n (fun i => u i * G i p k))
                                        (flux d (a p) (fun k => sum_to n (fun i => u i * G i p k)))).
Proof.
  intros q d n vol G a u L. rewrite (quad_double q n (fun i j p => vol p * inner d (G i p) (flux d (a p) (G j p))) u L).
  apply quad_ext. intros p _. etransitivity; [|apply f_equal; exact (form_combo d (a p) n u (fun i => G i p))].
  rewrite <- sum_to_scal. apply sum_to_ext. intros i _. rewrite <- sum_to_scal. apply sum_to_ext. intros. ring.
Qed.
Lemma square_form : forall n u (b : nat -> R) c, sum_to n (fun i => sum_to n (fun j => u i * (c * b i * b j) * u j)) =
  c * sum_to n (fun i => u i * b i) ^ 2.
Proof.
  intros n u b c. transitivity (c * (sum_to n (fun i => u i * b i) * sum_to n (fun i => u i * b i))); [|ring].
  rewrite <- !sum_to_scal. apply sum_to_ext. intros i _.
  transitivity ((c * (u i * b i)) * sum_to n (fun j => u j * b j)); [|ring]. rewrite <- sum_to_scal. apply sum_to_ext. intros. ring.
Qed.
Lemma mass_form : forall q n vol (b : nat -> list R -> R) c u, length (qr_weights q) = length (qr_points q) ->
  sum_to n (fun i => sum_to n (fun j => u i * quadrature q (fun p => vol p * (c p * b i p * b j p)) * u j)) =
  quadrature q (fun p => vol p * (c p * sum_to n (fun i => u i * b i p) ^ 2)).
Proof.
  intros q n vol b c u L. rewrite (quad_double q n (fun i j p => vol p * (c p * b i p * b j p)) u L).
  apply quad_ext. intros p _. rewrite <- square_form, <- sum_to_scal. apply sum_to_ext. intros i _.
  rewrite <- sum_to_scal. apply sum_to_ext. intros. ring.
Qed.

(** *** Gradients of a partition of unity *)
Lemma deriv_sum : forall n F x J p, F x = Ok p -> derivative n F x J ->
  forall m, (m <= n)%nat -> forall eps, 0 < eps -> exists dl, 0 < dl /\
  forall h r, length h = length x -> (forall e, In e h -> Rabs e < dl) -> F (plus x h) = Ok r ->
    Rabs (sum_to m r - sum_to m p - sum_to m (apply J h)) <= INR m * eps * length1 h.
Proof.
  intros n F x J p HF [p' [HF' [L D]]] m. rewrite HF in HF'. injection HF' as <-.
  assert (SS : forall k f, sum_to (S k) f = sum_to k f + f k).
  { intros k f. rewrite !sum_to_rsum, seq_S, map_app. cbn [map Nat.add]. unfold rsum. rewrite fold_right_app.
    assert (forall l a, fold_right Rplus a l = fold_right Rplus 0 l + a) as X.
    { induction l as [|z l IH]; intros a; cbn [fold_right]; [lra|]. rewrite IH. lra. }
    rewrite X. cbn [fold_right]. lra. }
  induction m as [|m IH]; intros Hm eps He.
  - exists 1. split; [lra|]. intros h r _ _ _. unfold sum_to. cbn [seq map fold_right INR]. rewrite !Rminus_0_r, Rabs_R0. lra.
  - destruct (IH ltac:(lia) eps He) as [d1 [P1 H1]]. destruct (D m ltac:(lia) eps He) as [d2 [P2 H2]].
    exists (Rmin d1 d2). split; [apply Rmin_pos; assumption|]. intros h r Lh Sm E.
    specialize (H1 h r Lh (fun e I => Rlt_le_trans _ _ _ (Sm e I) (Rmin_l _ _)) E).
    specialize (H2 h r Lh (fun e I => Rlt_le_trans _ _ _ (Sm e I) (Rmin_r _ _)) E).
    rewrite !SS, S_INR. replace (sum_to m r + r m - (sum_to m p + p m) - (sum_to m (apply J h) + apply J h m))
      with ((sum_to m r - sum_to m p - sum_to m (apply J h)) + (r m - p m - apply J h m)) by ring.
    eapply Rle_trans; [apply Rabs_triang|]. lra.
Qed.
Lemma eps_zero : forall s K, (forall eps, 0 < eps -> Rabs s <= K * eps) -> 0 <= K -> s = 0.
Proof.
  intros s K H HK. destruct (Req_dec s 0) as [|N]; [assumption|exfalso].
  pose proof (Rabs_pos_lt s N) as P. specialize (H (Rabs s / (2 * (K + 1)))).
  assert (X : 0 < Rabs s / (2 * (K + 1))) by (apply Rdiv_lt_0_compat; lra).
  specialize (H X). assert (K * (Rabs s / (2 * (K + 1))) < Rabs s); [|lra].
  apply (Rmult_lt_reg_r (2 * (K + 1))); [lra|].
  replace (K * (Rabs s / (2 * (K + 1))) * (2 * (K + 1))) with (K * Rabs s) by (field; lra). nra.
Qed.
Lemma unity_gradients : forall f p gr c, counts f -> partition_of_unity f -> gradients_ok f -> dimension (fe_el f) = 2%nat ->
  length p = 2%nat -> fe_grad f p = Ok gr -> (c < 2)%nat -> sum_to (fe_total f) (fun i => nth c (nth i gr []) 0) = 0.
Proof.
  intros f p gr c Co Un Gr Dm Lp Eg Hc. destruct (Gr p ltac:(congruence)) as [gr' [E [Lg [_ D]]]]. rewrite Eg in E. injection E as <-.
  rewrite Dm in D. cbn [seq map] in D.
  assert (One : forall x v, length x = 2%nat -> shape_functions f x = Ok v -> sum_to (fe_total f) v = 1).
  { intros x v Lx E. destruct (Un x ltac:(congruence)) as [w [Ew S1]]. destruct (co_eval f Co x ltac:(congruence)) as [w' [Ew' Lw]].
    rewrite Ew in Ew'. injection Ew' as <-. unfold shape_functions in E. rewrite Ew in E. injection E as <-.
    rewrite <- S1, sum_to_rsum. unfold rsum. f_equal. rewrite <- Lw. clear. induction w as [|a w IH] using rev_ind; [reflexivity|].
    rewrite app_length. cbn [length]. rewrite Nat.add_1_r, seq_S, map_app. cbn [map Nat.add]. f_equal.
    - rewrite <- IH at 2. apply map_ext_in. intros i Hi. apply in_seq in Hi. apply app_nth1. lia.
    - rewrite app_nth2, Nat.sub_diag by lia. reflexivity. }
  assert (Ex : forall x, length x = 2%nat -> exists v, shape_functions f x = Ok v).
  { intros x Lx. destruct (co_eval f Co x ltac:(congruence)) as [w [Ew _]]. unfold shape_functions. rewrite Ew. eauto. }
  destruct (Ex p Lp) as [v Ev]. set (n := fe_total f) in *.
  apply (eps_zero _ (INR n)); [|apply pos_INR]. intros eps He.
  destruct (deriv_sum n _ p _ v Ev D n (le_n n) eps He) as [dl [Pd Hd]].
  set (t := dl / 2). set (h := if (c =? 0)%nat then [t; 0] else [0; t]).
  assert (Lh : length h = length p) by (unfold h; destruct (c =? 0)%nat; cbn [length]; congruence).
  destruct (Ex (plus p h)) as [r Er]. { unfold plus. rewrite map_length, combine_length, Lh. lia. }
  assert (Pt : 0 < t) by (unfold t; lra).
  specialize (Hd h r Lh). rewrite (One (plus p h) r) in Hd; [|unfold plus; rewrite map_length, combine_length, Lh; lia|exact Er].
  rewrite (One p v Lp Ev) in Hd.
  assert (Sm : forall e, In e h -> Rabs e < dl).
  { intros e He'. assert (e = t \/ e = 0) as [->| ->].
    { unfold h in He'. destruct (c =? 0)%nat; cbn [In] in He'; intuition congruence. }
    - rewrite Rabs_pos_eq by lra. unfold t. lra.
    - rewrite Rabs_R0. exact Pd. }
  specialize (Hd Sm Er).
  assert (L1 : length1 h = t).
  { unfold length1, h. destruct (c =? 0)%nat; cbn [map fold_right]; rewrite Rabs_R0, (Rabs_pos_eq t) by lra; ring. }
  assert (A : sum_to n (apply [fun i => nth 0 (nth i gr []) 0; fun i => nth 1 (nth i gr []) 0] h) = t * sum_to n (fun i => nth c (nth i gr []) 0)).
  { rewrite <- sum_to_scal. apply sum_to_ext. intros i _. unfold apply, h.
    assert (c = 0 \/ c = 1)%nat as [->| ->] by lia; cbn [Nat.eqb combine map fold_right fst snd]; ring. }
  rewrite A, L1 in Hd. replace (1 - 1 - t * _) with (- (t * sum_to n (fun i => nth c (nth i gr []) 0))) in Hd by ring.
  rewrite Rabs_Ropp, Rabs_mult, (Rabs_pos_eq t) in Hd by lra.
  apply (Rmult_le_reg_l t); [exact Pt|]. lra.
Qed.
Lemma inner_zero : forall d v, inner d v v = 0 -> forall k, (k < d)%nat -> v k = 0.
Proof.
  intros d v H k Hk. rewrite inner_rsum in H.
  assert (X : forall l, (forall x, 0 <= v x * v x) -> rsum (map (fun x => v x * v x) l) = 0 -> In k l -> v k * v k = 0).
  { intros l N. induction l as [|a l IH]; [intros _ []|]. cbn [map]. unfold rsum in *. cbn [fold_right]. intros E I.
    assert (0 <= fold_right Rplus 0 (map (fun x => v x * v x) l)) by (apply (rs_nonneg (fun x => v x * v x) l); intros; apply N).
    pose proof (N a). destruct I as [->|I]; [lra|]. apply IH; [lra|exact I]. }
  apply Rsqr_0_uniq. unfold Rsqr. apply (X (seq 0 d)); [intros; apply Rle_0_sqr|exact H|apply in_seq; lia].
Qed.
Lemma gradients_sum : forall g f G p, counts f -> partition_of_unity f -> gradients_ok f -> dimension (fe_el f) = 2%nat ->
  dim_local (go_kind g) = 2%nat -> admissible g p -> gradient_at g f G p ->
  forall k, (k < go_dim g)%nat -> sum_to (fe_total f) (fun i => 1 * G i p k) = 0.
Proof.
  intros g f G p Co Un Gr Dm Dl A HG. apply inner_zero.
  destruct HG as [J [gr [HJ [ND [Eg HW]]]]]. pose proof (jacobian_cols g p J A HJ) as L. rewrite Dl in L.
  change (fun k => sum_to (fe_total f) (fun i => 1 * G i p k)) with (combo (fe_total f) (fun _ => 1) (fun i => G i p)).
  set (w := combo (fe_total f) (fun _ => 1) (fun i => G i p)).
  assert (O : forall c, (c < 2)%nat -> inner (go_dim g) (nth c J vzero) w = 0).
  { intros c Hc. rewrite inner_comm. unfold w. rewrite inner_combo.
    rewrite <- (unity_gradients f p gr c Co Un Gr Dm ltac:(destruct A; congruence) Eg Hc). apply sum_to_ext. intros i Hi.
    rewrite inner_comm. rewrite (proj1 (HW i Hi) c) by lia. ring. }
  unfold w at 1. rewrite inner_combo, sum_to_rsum. apply rs_zero. intros i Hi. apply in_seq in Hi.
  destruct (HW i ltac:(lia)) as [_ [s [Ls Hs]]]. destruct (two_cols J L) as [a [b E]]. subst J.
  destruct s as [|s0 [|s1 [|? ?]]]; try discriminate.
  pose proof (O 0%nat ltac:(lia)) as O0. pose proof (O 1%nat ltac:(lia)) as O1. cbn [nth] in O0, O1.
  rewrite (inner_ext _ (G i p) w (fun k => s0 * a k + s1 * b k) w).
  - rewrite inner_lin, O0, O1. ring.
  - intros k Hk. rewrite (Hs k Hk). unfold apply. cbn [combine map fold_right fst snd]. ring.
  - reflexivity.
Qed.
Lemma flux_zero : forall d a v, (forall k, (k < d)%nat -> v k = 0) -> forall w, inner d w (flux d a v) = 0 /\ inner d v w = 0.
Proof.
  intros d a v H w. assert (Z : forall u, inner d u (fun _ => 0) = 0). { intros. rewrite inner_rsum. apply rs_zero. intros. ring. }
  split.
  - rewrite <- (Z w). apply inner_ext; [reflexivity|]. intros k Hk. rewrite (flux_ext d a v (fun _ => 0) H k Hk).
    destruct a as [s|T]; cbn [flux]; [ring|]. apply (rs_zero (fun l => T k l * 0)). intros. ring.
  - rewrite <- (Z w), inner_comm. apply inner_ext; [reflexivity|exact H].
Qed.
