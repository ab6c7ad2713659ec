From Coq Require Import Reals Lra List Arith Lia Bool ZArith.
Import ListNotations.
From Verif Require Import Base MeshModel RefPatModel GeoModel GeoSpec GeoProofs GeoProofs2 GeoProofs3.
Local Open Scope R_scope.

(** *** C41: codimension 0 and nodes *)
Lemma self_geometry : forall g, constructed g -> SubGeometry g 0 0 = Ok g.
Proof.
  intros g [(k & d & cs & H)|(d & p0 & p1 & p2 & H)].
  - pose proof (new_geo_again _ _ _ _ H) as A. unfold SubGeometry.
    destruct (go_kind g) eqn:K; exact A.
  - unfold new_parallelogram3 in H. destruct (check_quad _ _) as [u| |] eqn:EQ; try discriminate H.
    cbn [bind] in H. injection H as <-. cbn [SubGeometry go_kind go_dim go_cols].
    unfold new_geo. cbn [length num_cols Nat.eqb lf_assert bind]. unfold check_parallelogram. rewrite EQ. cbn [bind].
    match goal with |- context [gtb ?a ?b] => replace (gtb a b) with true; [reflexivity|] end.
    symmetry. apply gtb_true. pose proof EQ as ND. apply check_quad_nondegenerate in ND.
    cbn [nth] in *. set (cv := vadd p1 (vsub p2 p0)) in *.
    assert (Z : sqnorm d (vadd (vsub p2 cv) (vsub p1 p0)) = 0).
    { unfold sqnorm. rewrite (dot_ext d _ (fun k => 0 * p0 k + 0 * p0 k) _ (fun k => 0 * p0 k + 0 * p0 k)).
      - rewrite dot_lin. ring.
      - intros. unfold cv, vadd, vsub. ring.
      - intros. unfold cv, vadd, vsub. ring. }
    rewrite Z, sqrt_0. apply Rmult_gt_0_compat; [apply Rinv_0_lt_compat, pow_lt; lra|].
    apply sqrt_lt_R0. pose proof (sqnorm_pos d (vsub cv p0)) as [P|P]; [exact P|].
    exfalso. symmetry in P. unfold gram_det in ND. fold (sqnorm d (vsub cv p0)) in ND. rewrite P in ND.
    pose proof (Rle_0_sqr (dot d (vsub p1 p0) (vsub cv p0))). pose proof (Rle_0_sqr (dot d (vsub p2 p0) (vsub cv p0))).
    unfold Rsqr in *. destruct ND; lra.
Qed.

Lemma control_len : forall k, length (control_points k) = num_cols k.
Proof. intros []; reflexivity. Qed.

Lemma node_geometry : forall g i x, constructed g -> exact_parallelogram g ->
  nth_error (control_points (go_kind g)) i = Some x ->
  exists s, SubGeometry g (dim_local (go_kind g)) i = Ok s /\ go_kind s = GPoint /\ go_dim s = go_dim g /\
    same_outcome (go_dim g) (Global s []) (Global g x).
Proof.
  intros g i x C X Hx. destruct (control_images g i x C X Hx) as (p & Hp & E).
  assert (Hi : (i < num_cols (go_kind g))%nat).
  { rewrite <- control_len. apply nth_error_Some. congruence. }
  pose proof (constructed_cols g C) as L.
  exists (mkGeo GPoint (go_dim g) [col g i]). rewrite Hp.
  assert (S : SubGeometry g (dim_local (go_kind g)) i = Ok (mkGeo GPoint (go_dim g) [col g i])).
  { assert (O : forall n, (i < n)%nat -> one_col g i n = Ok (mkGeo GPoint (go_dim g) [col g i])).
    { intros n Hn. unfold one_col. destruct (Nat.ltb_spec i n); [|lia]. cbn [lf_assert bind].
      rewrite col_nth by lia. reflexivity. }
    unfold SubGeometry. destruct (go_kind g) eqn:K; cbn [dim_local kind_el el_dim num_cols] in *;
      try (apply O; lia).
    destruct i; [|lia]. unfold col. destruct (go_cols g) as [|a [|]]; try discriminate L. reflexivity. }
  split; [exact S|]. split; [reflexivity|]. split; [reflexivity|].
  cbn [same_outcome Global]. change (Global _ []) with (Ok (col g i) : res vec). cbn. intros k _. symmetry. apply E.
Qed.

Lemma sub_bounds : forall g c i s, constructed g -> SubGeometry g c i = Ok s ->
  (c <= dim_local (go_kind g))%nat /\
  (i < if (c =? 0)%nat then 1 else if (c =? dim_local (go_kind g))%nat then num_cols (go_kind g)
       else num_nodes (kind_el (go_kind g)))%nat.
Proof.
  intros g c i s C H. pose proof (constructed_cols g C) as L.
  assert (O : forall n, one_col g i n = Ok s -> (i < num_cols (go_kind g))%nat).
  { intros n Hn. unfold one_col in Hn. destruct (lf_assert _); try discriminate Hn. cbn [bind] in Hn.
    destruct (nth_error (go_cols g) i) eqn:E; [|discriminate Hn]. rewrite <- L. apply nth_error_Some. congruence. }
  unfold SubGeometry in H.
  destruct (go_kind g) eqn:K; destruct c as [|[|[|c]]]; try discriminate H;
    cbn [dim_local kind_el el_dim num_nodes num_cols Nat.eqb] in *; try (split; [lia|]; apply O in H; exact H);
    try (destruct (Nat.eqb_spec i 0); [subst; split; lia|discriminate H]);
    try (destruct i; [split; lia|discriminate H]).
  all: try (split; [lia|]; destruct (Nat.ltb_spec i 3); [lia|discriminate H]).
  all: try (split; [lia|]; destruct (Nat.ltb_spec i 4); [lia|discriminate H]).
  all: try (split; [lia|]; destruct (Nat.leb_spec i 2); [lia|discriminate H]).
  all: try (split; [lia|]; destruct (Nat.leb_spec i 3); [lia|discriminate H]).
Qed.

(** A quadrilateral within tolerance of a parallelogram. *)
Definition nearly : list vec :=
  [(fun _ => 0); (fun k => match k with 0%nat => 1 | _ => 0 end);
   (fun k => match k with 0%nat => 1 + / 10 ^ 9 | _ => 1 end);
   (fun k => match k with 0%nat => 0 | _ => 1 end)].
Lemma pow9 : 0 < / 10 ^ 9 < / 10 ^ 8 /\ / 10 ^ 8 < / 100.
Proof. split; [split|]; lra. Qed.
Lemma nearly_ok : new_geo GParallelogram 2 nearly = Ok (mkGeo GParallelogram 2 nearly).
Proof.
  pose proof pow9 as (P & P'). unfold new_geo, check_parallelogram, check_quad.
  cbv [nearly length num_cols Nat.eqb lf_assert bind nth]. unfold tol.
  set (e := / 10 ^ 9) in *. set (f := / 10 ^ 8) in *.
  assert (E : e * e < f) by nra.
  assert (N : forall a b, sqnorm 2 (vsub a b) = (a 0%nat - b 0%nat) * (a 0%nat - b 0%nat) + (a 1%nat - b 1%nat) * (a 1%nat - b 1%nat)).
  { intros. unfold sqnorm, dot, vsub. cbn. ring. }
  rewrite !N.
  repeat match goal with |- context [gtb ?a ?b] =>
    replace (gtb a b) with true; [cbv beta iota delta [verify]|symmetry; apply gtb_true] end; try reflexivity; try nra.
  - assert (S : sqnorm 2 (vadd (vsub (fun k => match k with 0%nat => 0 | _ => 1 end) (fun k => match k with 0%nat => 1 + e | _ => 1 end))
         (vsub (fun k => match k with 0%nat => 1 | _ => 0 end) (fun _ => 0))) = e * e).
    { unfold sqnorm, dot, vadd, vsub. cbn. ring. }
    rewrite S, sqrt_square by lra.
    assert (1 <= sqrt ((1 + e - 0) * (1 + e - 0) + (1 - 0) * (1 - 0))).
    { rewrite <- sqrt_1 at 1. apply sqrt_le_1; nra. }
    nra.
  - unfold cross2, vsub.
    match goal with |- Rabs ?a + Rabs ?b > _ => replace a with 1 by ring; pose proof (Rabs_pos b) end.
    rewrite Rabs_right by lra. nra.
Qed.

Lemma nearly_parallelogram :
  exists g s p q, constructed g /\ SubGeometry g 1 1 = Ok s /\ Global s [1] = Ok p /\
    Global g (on_edge (kind_el (go_kind g)) 1 1) = Ok q /\ p 0%nat <> q 0%nat.
Proof.
  exists (mkGeo GParallelogram 2 nearly). do 3 eexists.
  split; [left; exists GParallelogram, 2%nat, nearly; exact nearly_ok|].
  split; [reflexivity|]. split; [reflexivity|]. split; [reflexivity|].
  pose proof pow9. cbn -[pow]. set (e := / 10 ^ 9) in *. lra.
Qed.

(** *** C63 *)
Lemma volume_segment : forall g, go_kind g = GSegmentO1 -> Volume g = Ok (distance (go_dim g) (col g 0) (col g 1)).
Proof.
  intros g K. unfold Volume, IntegrationElement, range_check, with_local, jac_cols. rewrite K.
  cbn [kind_el is_o2 bind length dim_local el_dim Nat.eqb lf_assert]. f_equal. rewrite Rmult_1_l.
  unfold distance, sqnorm, dot. f_equal. f_equal. apply map_ext. intros k. unfold vsub. ring.
Qed.
Lemma volume_plane : forall g, go_dim g = 2%nat -> length (go_cols g) = num_cols (go_kind g) -> exact_parallelogram g ->
  go_kind g = GTriaO1 \/ go_kind g = GQuadO1 \/ go_kind g = GParallelogram ->
  Volume g = Ok (polygon_area (go_cols g)).
Proof.
  intros g D L X K. unfold exact_parallelogram in X. destruct g as [kd d cs]. cbn [go_kind go_dim go_cols] in *. subst d.
  assert (A : forall a b, a = b -> Rabs a = Rabs b) by (intros; congruence).
  destruct K as [K|[K|K]]; subst kd; cbn [num_cols] in L; repeat (destruct cs as [|? cs]; try discriminate L);
    unfold Volume, IntegrationElement, range_check, with_local, jac_cols;
    cbn [go_kind go_dim kind_el is_o2 bind length dim_local el_dim Nat.eqb lf_assert]; f_equal; unfold polygon_area;
    cbv [go_cols col nth det2 vsub length seq map fold_right Nat.add Nat.modulo Nat.divmod Nat.sub fst snd].
  - replace (1 / 2) with (/ 2) by lra. f_equal. apply A. ring.
  - rewrite <- (Rabs_right (/ 2)) by lra. rewrite Rmult_1_l, <- Rabs_mult. apply A. field.
  - pose proof (X eq_refl 0%nat) as X0. pose proof (X eq_refl 1%nat) as X1. cbv [col go_cols nth] in X0, X1.
    rewrite <- (Rabs_right (/ 2)) by lra. rewrite Rmult_1_l, <- Rabs_mult. apply A.
    replace (v1 0%nat) with (v0 0%nat + v2 0%nat - v 0%nat) by lra.
    replace (v1 1%nat) with (v0 1%nat + v2 1%nat - v 1%nat) by lra. field.
Qed.
(** In three dimensions, the cross product of two sides. *)
Lemma volume_space : forall g, go_dim g = 3%nat ->
  (go_kind g = GTriaO1 -> Volume g = Ok (/ 2 * sqrt (sqnorm 3 (cross (vsub (col g 1) (col g 0)) (vsub (col g 2) (col g 0)))))) /\
  (go_kind g = GParallelogram -> Volume g = Ok (sqrt (sqnorm 3 (cross (vsub (col g 1) (col g 0)) (vsub (col g 3) (col g 0)))))).
Proof.
  intros g D. split; intros K; unfold Volume, IntegrationElement, range_check, with_local, jac_cols; rewrite K, D;
    cbn [kind_el is_o2 bind length dim_local el_dim Nat.eqb lf_assert]; rewrite gram3; f_equal; lra.
Qed.

(** *** C64 *)
Lemma affine_true : forall g, isAffine g = true -> is_o2 (go_kind g) = false ->
  affine_map (go_dim g) (Global g) /\
  (forall x y, length x = dim_local (go_kind g) -> length y = dim_local (go_kind g) -> Jacobian g x = Jacobian g y).
Proof.
  intros g A O. split.
  - intros x y t p q r Hx Hy Hr k _.
    pose proof (Global_defined _ _ _ Hx) as (Lx & _). pose proof (Global_defined _ _ _ Hy) as (Ly & _).
    rewrite (Global_value _ _ _ Hx), (Global_value _ _ _ Hy), (Global_value _ _ _ Hr).
    unfold isAffine in A. unfold global_at.
    destruct (go_kind g); try discriminate A; try discriminate O; cbn [dim_local kind_el el_dim] in Lx, Ly;
      repeat (destruct x as [|? x]; try discriminate Lx); repeat (destruct y as [|? y]; try discriminate Ly);
      cbv [between combine map nth fst snd]; ring.
  - intros x y Lx Ly. rewrite !Jacobian_ok; [|split; [assumption|congruence]..].
    unfold isAffine in A. unfold jac_cols. destruct (go_kind g); try discriminate A; try discriminate O; reflexivity.
Qed.
Lemma affine_false : forall g, isAffine g = false -> go_kind g = GQuadO1.
Proof. intros g. unfold isAffine. destruct (go_kind g); intros; try discriminate; reflexivity. Qed.

Definition bent : list vec := [(fun _ => 0); (fun k => match k with 0%nat => 2 | _ => 0 end); (fun _ => 1)].
Lemma affine_wrong : exists g, constructed g /\ isAffine g = true /\ ~ affine_map (go_dim g) (Global g) /\
  exists x y, admissible g x /\ admissible g y /\ Jacobian g x <> Jacobian g y.
Proof.
  exists (mkGeo GSegmentO2 2 bent). split; [left; exists GSegmentO2, 2%nat, bent; reflexivity|].
  split; [reflexivity|].
  assert (B : forall t, 0 <= t <= 1 -> admissible (mkGeo GSegmentO2 2 bent) [t]).
  { intros t Ht. split; [reflexivity|]. intros _ u [<-|[]]; exact Ht. }
  split.
  - intros A. specialize (A [0] [1] (1 / 2)).
    specialize (A _ _ _ (Global_ok _ _ (B 0 ltac:(lra))) (Global_ok _ _ (B 1 ltac:(lra)))
      (Global_ok _ _ (B ((1 - 1 / 2) * 0 + 1 / 2 * 1) ltac:(lra))) 1%nat ltac:(cbn; lia)). cbn in A. unfold s2_alpha, s2_beta, s2_gamma in A. cbn in A.
    lra.
  - exists [0], [1]. split; [apply B; lra|]. split; [apply B; lra|].
    rewrite !Jacobian_ok by (apply B; lra). intros E. injection E as E.
    assert (E1 : forall f f' : vec, f = f' -> f 1%nat = f' 1%nat) by (intros; congruence).
    apply E1 in E. cbn in E. unfold s2_alpha, s2_beta in E. cbn in E. lra.
Qed.
