From Coq Require Import Reals Lra List Arith Lia Bool ZArith.
Import ListNotations.
From Verif Require Import Base MeshModel RefPatModel GeoModel GeoSpec GeoProofs GeoProofs2.
Local Open Scope R_scope.

(** *** The inner product *)
Lemma fold_plus_app : forall l l', fold_right Rplus 0 (l ++ l') = fold_right Rplus 0 l + fold_right Rplus 0 l'.
Proof. induction l; intros; cbn; [ring|]. rewrite IHl. ring. Qed.
Lemma dot_S : forall d a b, dot (S d) a b = dot d a b + a d * b d.
Proof. intros. unfold dot. rewrite seq_S, map_app, fold_plus_app. cbn. ring. Qed.
Lemma dot_0 : forall a b, dot 0 a b = 0.
Proof. reflexivity. Qed.
Lemma dot_comm : forall d a b, dot d a b = dot d b a.
Proof. induction d; intros; [reflexivity|]. rewrite !dot_S, IHd. ring. Qed.
Lemma dot_lin : forall d p q a b c, dot d (fun k => p * a k + q * b k) c = p * dot d a c + q * dot d b c.
Proof. induction d; intros; [rewrite !dot_0; ring|]. rewrite !dot_S, IHd. ring. Qed.
Lemma dot_lin_r : forall d p q a b c, dot d c (fun k => p * a k + q * b k) = p * dot d c a + q * dot d c b.
Proof. intros. rewrite dot_comm, dot_lin, !(dot_comm d c). reflexivity. Qed.
Lemma dot_ext : forall d a a' b b', (forall k, (k < d)%nat -> a k = a' k) -> (forall k, (k < d)%nat -> b k = b' k) ->
  dot d a b = dot d a' b'.
Proof. induction d; intros a a' b b' H H'; [reflexivity|]. rewrite !dot_S, H, H', (IHd a a' b b'); auto. Qed.
Lemma dot_pos : forall d a, 0 <= dot d a a.
Proof. induction d; intros; [rewrite dot_0; lra|]. rewrite dot_S. specialize (IHd a). nra. Qed.
Lemma dot_zero : forall d a, dot d a a = 0 -> forall k, (k < d)%nat -> a k = 0.
Proof.
  induction d; intros a H k Hk; [lia|]. rewrite dot_S in H. pose proof (dot_pos d a).
  assert (a d * a d = 0) by nra. destruct (Nat.eq_dec k d) as [->|]; [nra|]. apply IHd; [nra|lia].
Qed.
Lemma cauchy_schwarz : forall d a b, 0 <= gram_det d a b.
Proof.
  intros d a b. unfold gram_det. pose proof (dot_pos d a) as Pa.
  destruct (Req_dec (dot d a a) 0) as [Z|N].
  - assert (E : dot d a b = 0).
    { rewrite (dot_ext d a (fun k => 0 * a k + 0 * a k) b b); auto.
      - rewrite dot_lin. ring.
      - intros k Hk. rewrite (dot_zero d a Z k Hk). ring. }
    rewrite Z, E. lra.
  - pose proof (dot_pos d (fun k => dot d a a * b k + - dot d a b * a k)) as Q.
    rewrite dot_lin, !dot_lin_r in Q. rewrite (dot_comm d b a) in Q.
    assert (0 <= dot d a a * (dot d a a * dot d b b - dot d a b * dot d a b)) by lra. nra.
Qed.

(** *** C43 *)
Lemma gram2 : forall J0 J1, gram_det 2 J0 J1 = det2 J0 J1 * det2 J0 J1.
Proof. intros. unfold gram_det, det2, dot. cbn. ring. Qed.

Lemma inverse_two_columns : forall d J0 J1, gramian_det d [J0; J1] <> 0 ->
  is_inverse_gramian d [J0; J1] (if (d =? 2)%nat then inv_transpose J0 J1 else pseudo_inverse d J0 J1).
Proof.
  intros d J0 J1 H.
  assert (HD : gram_det d J0 J1 <> 0).
  { intros E. apply H. unfold gramian_det, gramian. cbn [length nth].
    change (inner d) with (dot d). rewrite (dot_comm d J1 J0). exact E. }
  destruct (Nat.eqb_spec d 2) as [->|Ne].
  - split; [reflexivity|]. intros j k Hj Hk. cbn [length] in Hj |- *.
    rewrite gram2 in HD. assert (D : det2 J0 J1 <> 0) by nra. unfold det2 in D.
    destruct j as [|[|]]; try lia; destruct k as [|[|]]; try lia;
      cbv [seq map fold_right nth inv_transpose gramian inner det2]; try (field; exact D).
  - split; [reflexivity|]. intros j k Hj Hk. cbn [length] in Hj |- *. unfold gramian.
    change (inner d) with (dot d).
    destruct j as [|[|]]; try lia; cbv [seq map fold_right nth pseudo_inverse];
      rewrite ?(dot_comm d J1 J0); unfold gram_det in *; field; exact HD.
Qed.

Lemma s2_jtj : forall g s, go_kind g = GSegmentO2 ->
  4 * s * (s * sqnorm (go_dim g) (s2_alpha g) + dot (go_dim g) (s2_alpha g) (s2_beta g)) + sqnorm (go_dim g) (s2_beta g)
  = dot (go_dim g) (fun k => 2 * s2_alpha g k * s + s2_beta g k) (fun k => 2 * s2_alpha g k * s + s2_beta g k).
Proof.
  intros g s _. set (d := go_dim g). set (a := s2_alpha g). set (b := s2_beta g).
  rewrite (dot_ext d (fun k => 2 * a k * s + b k) (fun k => (2 * s) * a k + 1 * b k) (fun k => 2 * a k * s + b k) (fun k => (2 * s) * a k + 1 * b k)) by (intros; ring).
  rewrite dot_lin, !dot_lin_r, (dot_comm d b a). unfold sqnorm. ring.
Qed.

Lemma one_column : forall d J0 (M : vec) (c : R), c = dot d J0 J0 -> dot d J0 J0 <> 0 ->
  is_inverse_gramian d [J0] [if (d =? 1)%nat then fun k => / J0 k else fun k => J0 k * / c].
Proof.
  intros d J0 M c -> H. split; [reflexivity|]. intros j k Hj Hk. cbn [length] in Hj.
  destruct j; [|lia]. cbv [seq map fold_right nth length gramian]. change (inner d) with (dot d).
  destruct (Nat.eqb_spec d 1) as [->|].
  - destruct k; [|lia]. unfold dot in *. cbn in *. field. intros E. apply H. rewrite E. ring.
  - field. exact H.
Qed.

Lemma inverse_gramian : forall g x J, admissible g x -> Jacobian g x = Ok J -> dim_local (go_kind g) <> 0%nat ->
  gramian_det (go_dim g) J <> 0 ->
  exists M, JacobianInverseGramian g x = Ok M /\ is_inverse_gramian (go_dim g) J M.
Proof.
  intros g x J Ad HJ D0 ND. rewrite (Jacobian_ok g x Ad) in HJ. injection HJ as <-.
  unfold JacobianInverseGramian. rewrite (admissible_ok g x _ _ Ad).
  destruct g as [kd d cs]. cbn [go_dim go_kind] in *.
  destruct kd; try (exfalso; apply D0; reflexivity); cbn [jac_cols go_kind] in *;
    try (eexists; split; [reflexivity|]; apply inverse_two_columns, ND).
  - eexists. split; [reflexivity|].
    set (J0 := vsub (col {| go_kind := GSegmentO1; go_dim := d; go_cols := cs |} 1)
               (col {| go_kind := GSegmentO1; go_dim := d; go_cols := cs |} 0)) in *.
    apply (one_column d J0 vzero (sqnorm d J0) eq_refl). exact ND.
  - eexists. split; [reflexivity|].
    set (g := {| go_kind := GSegmentO2; go_dim := d; go_cols := cs |}) in *.
    pose proof (s2_jtj g (nth 0 x 0) eq_refl) as E. cbn [go_dim g] in E. fold g in E.
    apply (one_column d (fun k => 2 * s2_alpha g k * nth 0 x 0 + s2_beta g k) vzero _ E ND).
Qed.

Lemma integration_element : forall g x J, admissible g x -> Jacobian g x = Ok J ->
  IntegrationElement g x = Ok (sqrt (gramian_det (go_dim g) J)).
Proof.
  intros g x J Ad HJ. rewrite (Jacobian_ok g x Ad) in HJ. injection HJ as <-.
  unfold IntegrationElement.
  destruct (go_kind g) eqn:K.
  1: { unfold range_check. rewrite K. cbn [is_o2 bind]. unfold jac_cols. rewrite K. cbn. rewrite sqrt_1. reflexivity. }
  all: rewrite (admissible_ok g x _ _ Ad).
  all: assert (T : forall J0 J1 b, (b = sqrt (gram_det (go_dim g) J0 J1) \/ b = sqrt (Rabs (gram_det (go_dim g) J0 J1))) ->
      (if (go_dim g =? 2)%nat then Rabs (det2 J0 J1) else b) = sqrt (gramian_det (go_dim g) [J0; J1]));
    [intros J0 J1 b Hb; unfold gramian_det, gramian; cbn [length nth];
     change (inner (go_dim g)) with (dot (go_dim g)); rewrite (dot_comm (go_dim g) J1 J0);
     change (_ * _ - _ * _) with (gram_det (go_dim g) J0 J1);
     destruct (Nat.eqb_spec (go_dim g) 2) as [E|_];
      [rewrite E, gram2; symmetry; apply sqrt_Rsqr_abs
      |destruct Hb as [->| ->]; [reflexivity|rewrite Rabs_right; [reflexivity|apply Rle_ge, cauchy_schwarz]]]|].
  all: unfold jac_cols; rewrite K; cbn [is_o2].
  1: reflexivity.
  4: { rewrite (s2_jtj g (nth 0 x 0) K). reflexivity. }
  all: rewrite T by auto; reflexivity.
Qed.

(** *** Non-degeneracy established by the constructors *)
Lemma tol_pos : 0 < tol.
Proof. unfold tol. apply Rinv_0_lt_compat, pow_lt. lra. Qed.

Lemma gram3 : forall u v, gram_det 3 u v = sqnorm 3 (cross u v).
Proof. intros. unfold gram_det, sqnorm, dot, cross. cbn. ring. Qed.

Lemma verify_ok : forall b u, verify b = Ok u -> b = true.
Proof. intros [] u H; auto; discriminate. Qed.

Lemma sqnorm_pos : forall d a, 0 <= sqnorm d a.
Proof. intros. apply dot_pos. Qed.

Lemma check_tria_nondegenerate : forall d c u, check_tria d c = Ok u ->
  0 < gram_det d (vsub (c 1%nat) (c 0%nat)) (vsub (c 2%nat) (c 0%nat)).
Proof.
  intros d c u H. unfold check_tria in H. inv_bind. repeat match goal with
    H : verify _ = Ok _ |- _ => apply verify_ok in H; apply gtb_true in H end.
  pose proof tol_pos as T.
  pose proof (sqnorm_pos d (vsub (c 1%nat) (c 0%nat))). pose proof (sqnorm_pos d (vsub (c 2%nat) (c 1%nat))).
  pose proof (sqnorm_pos d (vsub (c 0%nat) (c 2%nat))).
  set (S := sqnorm d (vsub (c 1%nat) (c 0%nat)) + sqnorm d (vsub (c 2%nat) (c 1%nat)) + sqnorm d (vsub (c 0%nat) (c 2%nat))) in *.
  assert (0 <= tol * S) by (apply Rmult_le_pos; unfold S; lra).
  destruct d as [|[|[|[|]]]]; try discriminate.
  - apply verify_ok, gtb_true in H. rewrite gram2. unfold cross2 in H. unfold det2.
    assert (N : Rabs (vsub (c 1%nat) (c 0%nat) 0%nat * vsub (c 2%nat) (c 0%nat) 1%nat -
             vsub (c 1%nat) (c 0%nat) 1%nat * vsub (c 2%nat) (c 0%nat) 0%nat) > 0) by lra.
    set (D := vsub (c 1%nat) (c 0%nat) 0%nat * vsub (c 2%nat) (c 0%nat) 1%nat -
             vsub (c 1%nat) (c 0%nat) 1%nat * vsub (c 2%nat) (c 0%nat) 0%nat) in *.
    assert (ND : D <> 0) by (intros Ez; rewrite Ez, Rabs_R0 in N; lra).
    match goal with |- 0 < ?z * ?z => replace z with D by (unfold D; ring) end. nra.
  - apply verify_ok, gtb_true in H. rewrite gram3.
    assert (N : sqrt (sqnorm 3 (cross (vsub (c 1%nat) (c 0%nat)) (vsub (c 2%nat) (c 0%nat)))) > 0) by lra.
    pose proof (sqnorm_pos 3 (cross (vsub (c 1%nat) (c 0%nat)) (vsub (c 2%nat) (c 0%nat)))) as [P|P]; [exact P|].
    rewrite <- P, sqrt_0 in N. lra.
Qed.

Lemma check_quad_nondegenerate : forall d c u, check_quad d c = Ok u ->
  (0 < gram_det d (vsub (c 1%nat) (c 0%nat)) (vsub (c 2%nat) (c 0%nat)) \/
   0 < gram_det d (vsub (c 3%nat) (c 0%nat)) (vsub (c 2%nat) (c 0%nat))).
Proof.
  intros d c u H. unfold check_quad in H. inv_bind. repeat match goal with
    H : verify _ = Ok _ |- _ => apply verify_ok in H; apply gtb_true in H end.
  pose proof tol_pos as T.
  pose proof (sqnorm_pos d (vsub (c 1%nat) (c 0%nat))). pose proof (sqnorm_pos d (vsub (c 2%nat) (c 1%nat))).
  pose proof (sqnorm_pos d (vsub (c 3%nat) (c 2%nat))). pose proof (sqnorm_pos d (vsub (c 0%nat) (c 3%nat))).
  set (S := sqnorm d (vsub (c 1%nat) (c 0%nat)) + sqnorm d (vsub (c 2%nat) (c 1%nat)) + sqnorm d (vsub (c 3%nat) (c 2%nat)) + sqnorm d (vsub (c 0%nat) (c 3%nat))) in *.
  assert (0 <= tol * S) by (apply Rmult_le_pos; unfold S; lra).
  destruct d as [|[|[|[|]]]]; try discriminate.
  - apply verify_ok, gtb_true in H. rewrite !gram2.
    set (u1 := vsub (c 1%nat) (c 0%nat)) in *. set (v := vsub (c 2%nat) (c 0%nat)) in *.
    set (w := vsub (c 3%nat) (c 0%nat)) in *. unfold cross2 in H. unfold det2.
    destruct (Req_dec (u1 0%nat * v 1%nat - u1 1%nat * v 0%nat) 0) as [Ez|Ez].
    + rewrite Ez, Rabs_R0 in H. right.
      assert (ND : w 0%nat * v 1%nat - w 1%nat * v 0%nat <> 0) by (intros Ey; rewrite Ey, Rabs_R0 in H; lra).
      assert (w 0%nat * v 1%nat - v 0%nat * w 1%nat <> 0) by (intros Ey; apply ND; lra). nra.
    + left. assert (u1 0%nat * v 1%nat - v 0%nat * u1 1%nat <> 0) by (intros Ey; apply Ez; lra). nra.
  - apply verify_ok, gtb_true in H. rewrite !gram3.
    set (p := sqnorm 3 (cross (vsub (c 1%nat) (c 0%nat)) (vsub (c 2%nat) (c 0%nat)))) in *.
    set (q := sqnorm 3 (cross (vsub (c 3%nat) (c 0%nat)) (vsub (c 2%nat) (c 0%nat)))) in *.
    assert (P : 0 <= p) by apply sqnorm_pos. assert (Q : 0 <= q) by apply sqnorm_pos.
    destruct P as [P|P]; [left; exact P|]. destruct Q as [Q|Q]; [right; exact Q|].
    rewrite <- P, <- Q, sqrt_0 in H. lra.
Qed.

Lemma affine_nondegenerate : forall g x J, constructed g -> exact_parallelogram g ->
  go_kind g = GTriaO1 \/ go_kind g = GParallelogram -> admissible g x -> Jacobian g x = Ok J ->
  0 < gramian_det (go_dim g) J.
Proof.
  intros g x J C X K Ad HJ. rewrite (Jacobian_ok g x Ad) in HJ. injection HJ as <-.
  assert (T : forall J0 J1, gramian_det (go_dim g) [J0; J1] = gram_det (go_dim g) J0 J1).
  { intros. unfold gramian_det, gramian. cbn [length nth]. change (inner (go_dim g)) with (dot (go_dim g)).
    rewrite (dot_comm _ J1 J0). reflexivity. }
  assert (Q : go_kind g = GParallelogram -> exists u, check_quad (go_dim g) (col g) = Ok u).
  { intros KP. destruct C as [(k & d & cs & H)|(d & p0 & p1 & p2 & H)].
    - destruct (new_geo_inv _ _ _ _ H) as (-> & _). cbn in KP. subst k. unfold new_geo in H.
      destruct (lf_assert _); try discriminate H. cbn [bind] in H. unfold check_parallelogram in H.
      change (col _) with (fun i => nth i cs vzero). cbn [go_dim].
      destruct (check_quad d (fun i => nth i cs vzero)) as [u| |]; try discriminate H. exists u. reflexivity.
    - unfold new_parallelogram3 in H. destruct (check_quad _ _) as [u| |] eqn:EQ; try discriminate H.
      cbn [bind] in H. injection H as <-. exists u. exact EQ. }
  destruct K as [K|K]; unfold jac_cols; rewrite K, T.
  - destruct C as [(k & d & cs & H)|(d & p0 & p1 & p2 & H)].
    + destruct (new_geo_inv _ _ _ _ H) as (-> & _). cbn in K. subst k. unfold new_geo in H.
      destruct (lf_assert _); try discriminate H. cbn [bind] in H.
      destruct (check_tria _ _) as [u'| |] eqn:EQ; try discriminate H.
      eapply check_tria_nondegenerate. exact EQ.
    + unfold new_parallelogram3 in H. destruct (check_quad _ _) as [u| |] eqn:EQ; try discriminate H.
      cbn [bind] in H. injection H as <-. discriminate K.
  - destruct (Q K) as (u & HQ). apply check_quad_nondegenerate in HQ.
    set (d := go_dim g) in *. set (a := vsub (col g 1) (col g 0)) in *. set (b := vsub (col g 3) (col g 0)) in *.
    assert (E : forall k, vsub (col g 2) (col g 0) k = 1 * a k + 1 * b k).
    { intros k. unfold a, b, vsub. pose proof (X K k). lra. }
    assert (G : forall p, gram_det d p (vsub (col g 2) (col g 0)) = gram_det d p (fun k => 1 * a k + 1 * b k)).
    { intros p. unfold gram_det.
      rewrite (dot_ext d p p (vsub (col g 2) (col g 0)) (fun k => 1 * a k + 1 * b k)) by auto.
      rewrite (dot_ext d (vsub (col g 2) (col g 0)) (fun k => 1 * a k + 1 * b k)
        (vsub (col g 2) (col g 0)) (fun k => 1 * a k + 1 * b k)) by auto. reflexivity. }
    rewrite !G in HQ. unfold gram_det in HQ. rewrite !dot_lin_r, !dot_lin, ?dot_lin_r in HQ. rewrite (dot_comm d b a) in HQ. unfold gram_det.
    destruct HQ as [HQ|HQ]; lra.
Qed.
