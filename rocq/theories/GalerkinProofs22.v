(** Proofs for C76: rules that pin Lagrangian elements. *)
From Coq Require Import Reals List Arith ZArith Lia Lra Bool.
From Coquelicot Require Import Coquelicot.
Import ListNotations.
From Verif Require Import Base Scalars MeshModel MeshView RefPatModel GeoModel FeModel LagrModel QuadModel QuadSpec TriaTab QuadRuleModel GaussSpec GaussProofs ElemModel ElemSpec DirichletSpec
  GalerkinProofs17 GalerkinProofs18 GalerkinProofs19.
Local Open Scope R_scope.

Lemma value_good : forall q f (x : nat -> R) s t v,
  (forall j p w v, nth_error (qr_points q) j = Some p -> nth_error (qr_weights q) j = Some w -> 0 < w -> fe_eval f p = Ok v -> sum_to (fe_total f) (fun i => x i * nth i v 0) = 0) ->
  good q s t -> fe_eval f [s; t] = Ok v -> sum_to (fe_total f) (fun i => x i * nth i v 0) = 0.
Proof. intros q f x s t v H (j & w & Ep & Ew & Pw) Eg. exact (H j [s; t] w v Ep Ew Pw Eg). Qed.
(** Tensor products on grids. *)
Lemma values_zero : forall n ev mp f l q (x : nat -> R), (forall i, isp n (fun s => nth i (ev s) 0)) -> (forall s t, fe_eval f [s; t] = Ok (tensor_eval ev mp s t)) ->
  (forall j p w v, nth_error (qr_points q) j = Some p -> nth_error (qr_weights q) j = Some w -> 0 < w -> fe_eval f p = Ok v -> sum_to (fe_total f) (fun i => x i * nth i v 0) = 0) ->
  NoDup l -> length l = n -> (forall s t, In s l -> In t l -> good q s t) ->
  forall s t, sum_to (fe_total f) (fun i => x i * nth i (tensor_eval ev mp s t) 0) = 0.
Proof.
  intros n ev mp f l q x HE FG H ND L GO s t.
  apply (grid_zero n (fun s t => sum_to (fe_total f) (fun i => x i * nth i (tensor_eval ev mp s t) 0)) l); [| |exact ND|exact L|].
  - intros t'. apply (isp_sums n (fe_total f) (fun i s => x i * nth i (tensor_eval ev mp s t') 0)). intros i. apply isp_scale.
    unfold tensor_eval. destruct (nth_error mp i) as [[a b]|] eqn:E.
    + apply (isp_ext n (fun s => nth a (ev s) 0 * nth b (ev t') 0)); [|apply isp_mulr, HE].
      intros s'. symmetry. apply nth_error_nth. rewrite nth_error_map, E. reflexivity.
    + apply (isp_ext n (fun _ => 0)); [|apply isp_zero]. intros s'. symmetry. apply nth_overflow. rewrite map_length. apply nth_error_None, E.
  - intros s'. apply (isp_sums n (fe_total f) (fun i t => x i * nth i (tensor_eval ev mp s' t) 0)). intros i. apply isp_scale.
    unfold tensor_eval. destruct (nth_error mp i) as [[a b]|] eqn:E.
    + apply (isp_ext n (fun t => nth a (ev s') 0 * nth b (ev t) 0)); [|apply isp_scale, HE].
      intros t'. symmetry. apply nth_error_nth. rewrite nth_error_map, E. reflexivity.
    + apply (isp_ext n (fun _ => 0)); [|apply isp_zero]. intros t'. symmetry. apply nth_overflow. rewrite map_length. apply nth_error_None, E.
  - intros s' t' Is It. exact (value_good q f x s' t' _ H (GO s' t' Is It) (FG s' t')).
Qed.
Definition lin_eval (s : R) : list R := [1 - s; s].
Lemma pins_quad1 : forall q l, NoDup l -> length l = 2%nat -> (forall s t, In s l -> In t l -> good q s t) -> pins q (lagrange O1 kQuad).
Proof.
  intros q l ND L G x H.
  assert (Z : forall s t, sum_to 4 (fun i => x i * nth i (tensor_eval lin_eval [(0, 0); (1, 0); (1, 1); (0, 1)]%nat s t) 0) = 0).
  { apply (values_zero 2 lin_eval [(0, 0); (1, 0); (1, 1); (0, 1)]%nat (lagrange O1 kQuad) l q x); auto.
    - intros i. exists (fun j => nth j (nth i [[1; -1]; [0; 1]] []) 0). intros s. destruct i as [|[|[|i]]]; cbn; try ring; destruct i; cbn; ring. }
  pose proof (Z 0 0) as A1. pose proof (Z 1 0) as A2. pose proof (Z 0 1) as A3. pose proof (Z 1 1) as A4. clear Z H.
  unfold sum_to in *. cbn in A1, A2, A3, A4. intros i Hi. cbn in Hi. do 4 (destruct i as [|i]; [lra|]). lia.
Qed.
Lemma pins_quad2 : forall q l, NoDup l -> length l = 3%nat -> (forall s t, In s l -> In t l -> good q s t) -> pins q (lagrange O2 kQuad).
Proof.
  intros q l ND L G x H.
  assert (Z : forall s t, sum_to 9 (fun i => x i * nth i (tensor_eval o2_seg_eval o2_mapping s t) 0) = 0).
  { apply (values_zero 3 o2_seg_eval o2_mapping (lagrange O2 kQuad) l q x); auto.
    intros i. apply newton3. intros s. destruct i as [|[|[|[|i]]]]; cbn; field. }
  assert (N : forall s t, In s [0; 1; 1 / 2] -> In t [0; 1; 1 / 2] -> sum_to 9 (fun i => x i * nth i (tensor_eval o2_seg_eval o2_mapping s t) 0) = 0) by (intros; apply Z).
  intros i Hi. cbn in Hi.
  pose proof (Z 0 0) as A0. pose proof (Z 1 0) as A1. pose proof (Z 1 1) as A2. pose proof (Z 0 1) as A3. pose proof (Z (1 / 2) 0) as A4. pose proof (Z 1 (1 / 2)) as A5. pose proof (Z (1 / 2) 1) as A6.
  pose proof (Z 0 (1 / 2)) as A7. pose proof (Z (1 / 2) (1 / 2)) as A8. clear Z N H. unfold sum_to in *. cbn in A0, A1, A2, A3, A4, A5, A6, A7, A8.
  destruct i as [|i]; [clear - A0; lra|]. destruct i as [|i]; [clear - A1; lra|]. destruct i as [|i]; [clear - A2; lra|]. destruct i as [|i]; [clear - A3; lra|]. destruct i as [|i]; [clear - A4; lra|].
  destruct i as [|i]; [clear - A5; lra|]. destruct i as [|i]; [clear - A6; lra|]. destruct i as [|i]; [clear - A7; lra|]. destruct i as [|i]; [clear - A8; lra|]. lia.
Qed.
Ltac at_node Z s t := pose proof (Z s t) as A; clear Z; unfold sum_to in A; cbn in A; lra.
Lemma pins_quad3 : forall q l, NoDup l -> length l = 4%nat -> (forall s t, In s l -> In t l -> good q s t) -> pins q (lagrange O3 kQuad).
Proof.
  intros q l ND L G x H.
  assert (Z : forall s t, sum_to 16 (fun i => x i * nth i (tensor_eval o3_seg_eval o3_mapping s t) 0) = 0).
  { apply (values_zero 4 o3_seg_eval o3_mapping (lagrange O3 kQuad) l q x); auto.
    intros i. apply newton4. intros s. destruct i as [|[|[|[|[|i]]]]]; cbn; field. }
  clear H G ND L. intros i Hi. cbn in Hi.
  destruct i as [|i]; [at_node Z 0 0|]. destruct i as [|i]; [at_node Z 1 0|]. destruct i as [|i]; [at_node Z 1 1|]. destruct i as [|i]; [at_node Z 0 1|].
  destruct i as [|i]; [at_node Z (1 / 3) 0|]. destruct i as [|i]; [at_node Z (2 / 3) 0|]. destruct i as [|i]; [at_node Z 1 (1 / 3)|]. destruct i as [|i]; [at_node Z 1 (2 / 3)|].
  destruct i as [|i]; [at_node Z (2 / 3) 1|]. destruct i as [|i]; [at_node Z (1 / 3) 1|]. destruct i as [|i]; [at_node Z 0 (2 / 3)|]. destruct i as [|i]; [at_node Z 0 (1 / 3)|].
  destruct i as [|i]; [at_node Z (1 / 3) (1 / 3)|]. destruct i as [|i]; [at_node Z (2 / 3) (1 / 3)|]. destruct i as [|i]; [at_node Z (2 / 3) (2 / 3)|]. destruct i as [|i]; [at_node Z (1 / 3) (2 / 3)|]. lia.
Qed.
Lemma library_pins_quad : forall stop jac tab k q, finds_legendre_zeros stop (ord k + 1) -> make_QuadRule (GaussLegendre stop) jac tab kQuad (2 * ord k) = Ok q ->
  pins q (lagrange k kQuad).
Proof.
  intros stop jac tab k q F E. change (make_quad (GaussLegendre stop) (2 * ord k) = Ok q) in E.
  destruct (quad_grid stop (2 * ord k) q) as (l & ND & L & G); [destruct k; exact F|exact E|]. destruct k; cbn in L.
  - apply (pins_quad1 q l ND L G).
  - apply (pins_quad2 q l ND L G).
  - apply (pins_quad3 q l ND L G).
Qed.
(** Triangles of order 1 and 2. *)
Lemma library_pins1 : forall leg jac q, make_QuadRule leg jac HardcodedQuadRule kTria (2 * ord O1) = Ok q -> pins q (lagrange O1 kTria).
Proof.
  intros leg jac q E x H. change (QuadRule kTria (map (fun t => [tab_real (fst (fst t)); tab_real (snd (fst t))]) tab_2) (map (fun t => tab_real (snd t)) tab_2) 2 = Ok q) in E.
  pose proof (value_good q _ x _ _ _ H (tab_good _ _ _ 0 _ _ _ E eq_refl eq_refl) eq_refl) as H0.
  pose proof (value_good q _ x _ _ _ H (tab_good _ _ _ 1 _ _ _ E eq_refl eq_refl) eq_refl) as H1.
  pose proof (value_good q _ x _ _ _ H (tab_good _ _ _ 2 _ _ _ E eq_refl eq_refl) eq_refl) as H2. clear E H.
  unfold sum_to in H0, H1, H2. cbn in H0, H1, H2. numbers. intros i Hi. cbn in Hi. destruct i as [|[|[|i]]]; [lra|lra|lra|lia].
Qed.
