(** Proofs for C76: Gauss rules settle Lagrangian elements on quadrilaterals. *)
From Coq Require Import Reals List Arith ZArith Lia Lra Bool.
Import ListNotations.
From Coquelicot Require Import Coquelicot.
From Verif Require Import Base Scalars MeshModel MeshView DofModel RefPatModel GeoModel GeoSpec FeModel LagrModel QuadModel HierModel FeSpec Calc LagrProofs2 FeProofs LegendreProofs JacobiProofs OrthoProofs HierProofs HierProofs2 HierProofs5 GaussSpec QuadSpec QuadRuleModel PolyProofs HierProofs3 QuadProofs QuadProofs2 GaussProofs GaussProofs2 GaussProofs3 GaussProofs4 GaussProofs5
  ElemModel ElemSpec DirichletSpec GalerkinProofs17.
Local Open Scope R_scope.

Lemma newton4 : forall f, (forall s, f s = f 0 + s * ((f 1 - f 0) + (s - 1) * ((f 2 - 2 * f 1 + f 0) / 2 + (s - 2) * ((f 3 - 3 * f 2 + 3 * f 1 - f 0) / 6)))) -> isp 4 f.
Proof.
  intros f H. exists (fun j => nth j [f 0; (f 1 - f 0) - (f 2 - 2 * f 1 + f 0) / 2 + (f 3 - 3 * f 2 + 3 * f 1 - f 0) / 3;
    (f 2 - 2 * f 1 + f 0) / 2 - (f 3 - 3 * f 2 + 3 * f 1 - f 0) / 2; (f 3 - 3 * f 2 + 3 * f 1 - f 0) / 6] 0).
  intros x. rewrite H. unfold pe. cbn. field.
Qed.
Lemma newton3 : forall f, (forall s, f s = f 0 + s * ((f 1 - f 0) + (s - 1) * ((f 2 - 2 * f 1 + f 0) / 2))) -> isp 3 f.
Proof.
  intros f H. exists (fun j => nth j [f 0; (f 1 - f 0) - (f 2 - 2 * f 1 + f 0) / 2; (f 2 - 2 * f 1 + f 0) / 2] 0).
  intros x. rewrite H. unfold pe. cbn. field.
Qed.
Lemma isp_sums : forall m n (F : nat -> R -> R), (forall i, isp m (F i)) -> isp m (fun x => sum_to n (fun i => F i x)).
Proof.
  intros m n F H. unfold sum_to. induction (seq 0 n) as [|i l IH]; cbn [map fold_right]; [apply isp_zero|]. apply isp_plus; [apply H|exact IH].
Qed.
Lemma grid_zero : forall n (P : R -> R -> R) l, (forall t, isp n (fun s => P s t)) -> (forall s, isp n (fun t => P s t)) -> NoDup l -> length l = n ->
  (forall s t, In s l -> In t l -> P s t = 0) -> forall s t, P s t = 0.
Proof.
  intros n P l Hs Ht ND L Z s t.
  apply (isp_equal n (fun t => P s t) (fun _ => 0) l (Ht s) (isp_zero n) ND L). intros t' It.
  apply (isp_equal n (fun s => P s t') (fun _ => 0) l (Hs t') (isp_zero n) ND L). intros s' Is. apply Z; assumption.
Qed.
Lemma isp_mulr : forall n f c, isp n f -> isp n (fun x => f x * c). Proof. intros n f c H. apply (isp_ext n (fun x => c * f x)); [intros; ring|]. apply isp_scale, H. Qed.
(** Combinations of derivatives of tensor products. *)
Lemma tensor_zero : forall n ev gr mp f l q (x : nat -> R), (forall i, isp n (fun s => nth i (ev s) 0)) -> (forall i, isp n (fun s => nth i (gr s) 0)) ->
  (forall s t, fe_grad f [s; t] = Ok (tensor_grad ev gr mp s t)) ->
  (forall j p w gr, nth_error (qr_points q) j = Some p -> nth_error (qr_weights q) j = Some w -> 0 < w -> fe_grad f p = Ok gr ->
     forall c, (c < 2)%nat -> sum_to (fe_total f) (fun i => x i * nth c (nth i gr []) 0) = 0) ->
  NoDup l -> length l = n -> (forall s t, In s l -> In t l -> good q s t) ->
  forall c, (c < 2)%nat -> forall s t, sum_to (fe_total f) (fun i => x i * nth c (nth i (tensor_grad ev gr mp s t) []) 0) = 0.
Proof.
  intros n ev gr mp f l q x HE HG FG H ND L GO c Hc s t.
  apply (grid_zero n (fun s t => sum_to (fe_total f) (fun i => x i * nth c (nth i (tensor_grad ev gr mp s t) []) 0)) l); [| |exact ND|exact L|].
  - intros t'. apply (isp_sums n (fe_total f) (fun i s => x i * nth c (nth i (tensor_grad ev gr mp s t') []) 0)). intros i. apply isp_scale.
    unfold tensor_grad. destruct (nth_error mp i) as [[a b]|] eqn:E.
    + apply (isp_ext n (fun s => nth c [nth a (gr s) 0 * nth b (ev t') 0; nth b (gr t') 0 * nth a (ev s) 0] 0)).
      * intros s'. f_equal. symmetry. apply nth_error_nth. rewrite nth_error_map, E. reflexivity.
      * destruct c as [|[|c]]; [|apply isp_scale, HE|lia]. cbn [nth]. apply isp_mulr, HG.
    + apply (isp_ext n (fun _ => 0)); [|apply isp_zero]. intros s'. rewrite nth_overflow with (n := i) by (rewrite map_length; apply nth_error_None, E). destruct c as [|[|c]]; reflexivity || lia.
  - intros s'. apply (isp_sums n (fe_total f) (fun i t => x i * nth c (nth i (tensor_grad ev gr mp s' t) []) 0)). intros i. apply isp_scale.
    unfold tensor_grad. destruct (nth_error mp i) as [[a b]|] eqn:E.
    + apply (isp_ext n (fun t => nth c [nth a (gr s') 0 * nth b (ev t) 0; nth b (gr t) 0 * nth a (ev s') 0] 0)).
      * intros t'. f_equal. symmetry. apply nth_error_nth. rewrite nth_error_map, E. reflexivity.
      * destruct c as [|[|c]]; [apply isp_scale, HE| |lia]. cbn [nth]. apply isp_mulr, HG.
    + apply (isp_ext n (fun _ => 0)); [|apply isp_zero]. intros t'. rewrite nth_overflow with (n := i) by (rewrite map_length; apply nth_error_None, E). destruct c as [|[|c]]; reflexivity || lia.
  - intros s' t' Is It. destruct (at_good q f x s' t' _ H (GO s' t' Is It) (FG s' t')) as (A & B). destruct c as [|[|c]]; [exact A|exact B|lia].
Qed.
Lemma settles_quad2 : forall q l, NoDup l -> length l = 3%nat -> (forall s t, In s l -> In t l -> good q s t) -> settles q (lagrange O2 kQuad).
Proof.
  intros q l ND L G x H.
  assert (Z : forall c, (c < 2)%nat -> forall s t, sum_to 9 (fun i => x i * nth c (nth i (tensor_grad o2_seg_eval o2_seg_grad o2_mapping s t) []) 0) = 0).
  { apply (tensor_zero 3 o2_seg_eval o2_seg_grad o2_mapping (lagrange O2 kQuad) l q x); auto.
    - intros i. apply newton3. intros s. destruct i as [|[|[|[|i]]]]; cbn; field.
    - intros i. apply newton3. intros s. destruct i as [|[|[|[|i]]]]; cbn; field. }
  pose proof (Z 0%nat ltac:(lia) 0 0) as A1. pose proof (Z 0%nat ltac:(lia) 1 0) as A2. pose proof (Z 0%nat ltac:(lia) 0 1) as A3. pose proof (Z 0%nat ltac:(lia) 1 1) as A4.
  pose proof (Z 0%nat ltac:(lia) 0 (1 / 2)) as A5. pose proof (Z 0%nat ltac:(lia) 1 (1 / 2)) as A6. pose proof (Z 1%nat ltac:(lia) 0 0) as B1. pose proof (Z 1%nat ltac:(lia) 0 1) as B2. clear Z H.
  unfold sum_to in A1, A2, A3, A4, A5, A6, B1, B2. cbn in A1, A2, A3, A4, A5, A6, B1, B2.
  intros i Hi. cbn in Hi. do 9 (destruct i as [|i]; [lra|]). lia.
Qed.
Lemma settles_quad3 : forall q l, NoDup l -> length l = 4%nat -> (forall s t, In s l -> In t l -> good q s t) -> settles q (lagrange O3 kQuad).
Proof.
  intros q l ND L G x H.
  assert (Z : forall c, (c < 2)%nat -> forall s t, sum_to 16 (fun i => x i * nth c (nth i (tensor_grad o3_seg_eval o3_seg_grad o3_mapping s t) []) 0) = 0).
  { apply (tensor_zero 4 o3_seg_eval o3_seg_grad o3_mapping (lagrange O3 kQuad) l q x); auto.
    - intros i. apply newton4. intros s. destruct i as [|[|[|[|[|i]]]]]; cbn; field.
    - intros i. apply newton4. intros s. destruct i as [|[|[|[|[|i]]]]]; cbn; field. }
  pose proof (Z 0%nat ltac:(lia) 0 0) as A1. pose proof (Z 0%nat ltac:(lia) 1 0) as A2. pose proof (Z 0%nat ltac:(lia) (1 / 2) 0) as A3.
  pose proof (Z 0%nat ltac:(lia) 0 1) as A4. pose proof (Z 0%nat ltac:(lia) 1 1) as A5. pose proof (Z 0%nat ltac:(lia) (1 / 2) 1) as A6.
  pose proof (Z 0%nat ltac:(lia) 0 (1 / 3)) as A7. pose proof (Z 0%nat ltac:(lia) 1 (1 / 3)) as A8. pose proof (Z 0%nat ltac:(lia) (1 / 2) (1 / 3)) as A9.
  pose proof (Z 0%nat ltac:(lia) 0 (2 / 3)) as A10. pose proof (Z 0%nat ltac:(lia) 1 (2 / 3)) as A11. pose proof (Z 0%nat ltac:(lia) (1 / 2) (2 / 3)) as A12.
  pose proof (Z 1%nat ltac:(lia) 0 0) as B1. pose proof (Z 1%nat ltac:(lia) 0 1) as B2. pose proof (Z 1%nat ltac:(lia) 0 (1 / 2)) as B3. clear Z H.
  unfold sum_to in *. cbn in A1, A2, A3, A4, A5, A6, A7, A8, A9, A10, A11, A12, B1, B2, B3.
  intros i Hi. cbn in Hi. do 16 (destruct i as [|i]; [lra|]). lia.
Qed.
(** The points of the Gauss-Legendre rules differ from each other. *)
Lemma legendre_nodup : forall stop n pw, (1 <= n)%nat -> finds_legendre_zeros stop n -> GaussLegendre stop n = Ok pw -> NoDup (fst pw).
Proof.
  intros stop n pw Hn F E. pose proof (fun i => stops_positive stop n i F) as Hp. destruct F as (Hz & Hd).
  rewrite (gauss_legendre_eq stop n Hn) in E. injection E as <-. cbn [fst].
  apply increasing_nodup. intros i j Hij Hj.
  assert (G : forall k, (k < (n + 1) / 2)%nat -> gl_next n (stop n k) = stop n k) by (intros k Hk; apply gl_at_root; [exact Hn|apply Hz, Hk]).
  unfold gl_point. destruct (Nat.ltb_spec (2 * i + 1) n) as [Hi|Hi], (Nat.ltb_spec (2 * j + 1) n) as [Hj'|Hj']; try lia.
  - rewrite !G by (apply half_low; assumption). pose proof (Hd i j Hij (half_low n j Hj')). lra.
  - rewrite G by (apply half_low; assumption). pose proof (half_up n j Hj Hj') as Hh. rewrite G by exact Hh. pose proof (Hp i Hi).
    pose proof (proj1 (Hz _ Hh)). lra.
  - pose proof (half_up n i ltac:(lia) Hi) as H1. pose proof (half_up n j Hj Hj') as H2. rewrite !G by assumption.
    pose proof (Hd (n - 1 - j)%nat (n - 1 - i)%nat ltac:(lia) H1). lra.
Qed.
Lemma quad_grid : forall stop degree q, finds_legendre_zeros stop (degree / 2 + 1) -> make_quad (GaussLegendre stop) degree = Ok q ->
  exists l, NoDup l /\ length l = (degree / 2 + 1)%nat /\ forall s t, In s l -> In t l -> good q s t.
Proof.
  intros stop degree q F Eq. set (n := (degree / 2 + 1)%nat) in *. assert (Hn : (1 <= n)%nat) by (unfold n; lia).
  destruct (gauss_legendre stop n Hn F) as (pw & E & L & L' & Pw & Zp & X). exists (fst pw). split; [eapply legendre_nodup; eauto|]. split; [exact L|].
  destruct (quad_ok (GaussLegendre stop) degree) as (q' & Eq' & _ & Rq); [exists pw; auto|]. rewrite Eq in Eq'. injection Eq' as <-.
  unfold make_quad in Eq. cbv zeta in Eq. fold n in Eq. rewrite E in Eq. cbn [bind] in Eq. apply rule_fields in Eq. destruct Eq as (El & Ep & Ew & _).
  intros s t Hs Ht. assert (Hx : In [s; t] (qr_points q)).
  { rewrite Ep.
    replace (repeat 1 n) with (map (fun _ => 1) (fst pw)) by (rewrite <- L; clear; induction (fst pw); cbn; congruence).
    replace (replicate n (fst pw)) with (replicate (length (fst pw)) (fst pw)) by (rewrite L; reflexivity).
    rewrite (columns_grid (fst pw) (fst pw) (fun _ => 1)). apply in_concat. exists (map (fun y => [s * 1; y]) (fst pw)). split; [exact (in_map (fun x => map (fun y => [x * 1; y]) (fst pw)) _ _ Hs)|].
    apply in_map_iff. exists t. rewrite Rmult_1_r. auto. }
  apply In_nth_error in Hx as (j & Hj). pose proof (rf_weights _ _ _ Rq) as LL.
  destruct (nth_error (qr_weights q) j) as [w|] eqn:Ej; [|exfalso; apply nth_error_None in Ej; pose proof (proj1 (nth_error_Some (qr_points q) j) ltac:(congruence)); lia].
  exists j, w. split; [exact Hj|]. split; [exact Ej|]. apply nth_error_In in Ej. rewrite Ew in Ej. apply in_kron in Ej. destruct Ej as (u & v & Hu & Hv & ->). apply Rmult_lt_0_compat; apply Pw; assumption.
Qed.
Lemma library_settles_quad : forall stop jac tab k q, finds_legendre_zeros stop (ord k + 1) -> make_QuadRule (GaussLegendre stop) jac tab kQuad (2 * ord k) = Ok q ->
  settles q (lagrange k kQuad).
Proof.
  intros stop jac tab k q F E. change (make_quad (GaussLegendre stop) (2 * ord k) = Ok q) in E.
  destruct (quad_grid stop (2 * ord k) q) as (l & ND & L & G); [destruct k; exact F|exact E|]. destruct k; cbn in L.
  - destruct l as [|a [|b [|]]]; try discriminate. apply (settles_quad1 q a a b b); [apply G; cbn; auto|apply G; cbn; auto|].
    intros X. injection X as X. inversion_clear ND. apply H0. left. congruence.
  - apply (settles_quad2 q l ND L G).
  - apply (settles_quad3 q l ND L G).
Qed.
