From Coq Require Import Reals Lra List Arith Lia Bool ZArith.
Import ListNotations.
From Verif Require Import Base MeshModel RefPatModel GeoModel GeoSpec.
Local Open Scope R_scope.

Lemma leb_true : forall a b, leb a b = true <-> a <= b.
Proof. intros. unfold leb. destruct (Rle_dec a b); split; auto; intros; try discriminate; contradiction. Qed.
Lemma gtb_true : forall a b, gtb a b = true <-> a > b.
Proof. intros. unfold gtb. destruct (Rlt_dec b a); split; auto; intros; try discriminate; contradiction. Qed.

Lemma in_range_true : forall x, in_range x = true <-> forall t, In t x -> 0 <= t <= 1.
Proof.
  intros x. unfold in_range. rewrite forallb_forall. split; intros H t Ht; specialize (H t Ht).
  - apply andb_prop in H. rewrite !leb_true in H. exact H.
  - rewrite (proj2 (leb_true 0 t)), (proj2 (leb_true t 1)) by tauto. reflexivity.
Qed.

Lemma admissible_ok : forall g x T (f : R -> R -> res T), admissible g x ->
  (do _ <- range_check g x; with_local g x f) = f (nth 0 x 0) (nth 1 x 0).
Proof.
  intros g x T f (L & H). unfold range_check, with_local. rewrite L, Nat.eqb_refl. cbn [lf_assert bind].
  destruct (is_o2 (go_kind g)); [|reflexivity].
  rewrite (proj2 (in_range_true x) (H eq_refl)). reflexivity.
Qed.

Lemma Global_ok : forall g x, admissible g x -> Global g x = Ok (global_at g (nth 0 x 0) (nth 1 x 0)).
Proof. intros g x H. unfold Global. rewrite (admissible_ok g x _ _ H). reflexivity. Qed.
Lemma Global_defined : forall g x p, Global g x = Ok p -> admissible g x.
Proof.
  intros g x p H. unfold Global, range_check, with_local in H. split.
  - destruct (is_o2 (go_kind g)).
    + destruct (in_range x); [|discriminate]. cbn [verify bind] in H.
      destruct (Nat.eqb_spec (length x) (dim_local (go_kind g))); [auto|discriminate].
    + cbn [bind] in H. destruct (Nat.eqb_spec (length x) (dim_local (go_kind g))); [auto|discriminate].
  - intros E. rewrite E in H. destruct (in_range x) eqn:R; [|discriminate]. apply in_range_true, R.
Qed.
Lemma Global_value : forall g x p, Global g x = Ok p -> p = global_at g (nth 0 x 0) (nth 1 x 0).
Proof. intros g x p H. rewrite (Global_ok g x (Global_defined g x p H)) in H. congruence. Qed.
Lemma Jacobian_ok : forall g x, admissible g x -> Jacobian g x = Ok (jac_cols g (nth 0 x 0) (nth 1 x 0)).
Proof. intros g x H. unfold Jacobian. rewrite (admissible_ok g x _ _ H). reflexivity. Qed.

(** *** C40 *)
Lemma quadratic_remainder : forall a b c e f h0 h1 delta, 0 < delta -> delta <= 1 ->
  Rabs h0 < delta -> Rabs h1 < delta ->
  Rabs (a * (h0 * h0) + b * (h0 * h1) + c * (h1 * h1) + e * (h0 * h0 * h1) + f * (h0 * h1 * h1))
  <= (Rabs a + Rabs b + Rabs c + Rabs e + Rabs f) * delta * (Rabs h0 + Rabs h1).
Proof.
  intros a b c e f h0 h1 delta Hd Hd1 H0 H1.
  pose proof (Rabs_pos h0) as P0. pose proof (Rabs_pos h1) as P1.
  assert (M : forall u v, Rabs v <= delta * (Rabs h0 + Rabs h1) -> Rabs (u * v) <= Rabs u * delta * (Rabs h0 + Rabs h1)).
  { intros u v Hv. rewrite Rabs_mult. pose proof (Rabs_pos u). nra. }
  assert (A1 : Rabs (h0 * h0) <= delta * (Rabs h0 + Rabs h1)) by (rewrite Rabs_mult; nra).
  assert (A2 : Rabs (h0 * h1) <= delta * (Rabs h0 + Rabs h1)) by (rewrite Rabs_mult; nra).
  assert (A3 : Rabs (h1 * h1) <= delta * (Rabs h0 + Rabs h1)) by (rewrite Rabs_mult; nra).
  assert (A4 : Rabs (h0 * h0 * h1) <= delta * (Rabs h0 + Rabs h1)).
  { rewrite Rabs_mult. pose proof (Rabs_pos (h0 * h0)). nra. }
  assert (A5 : Rabs (h0 * h1 * h1) <= delta * (Rabs h0 + Rabs h1)).
  { rewrite Rabs_mult. pose proof (Rabs_pos (h0 * h1)). nra. }
  pose proof (M a _ A1). pose proof (M b _ A2). pose proof (M c _ A3). pose proof (M e _ A4). pose proof (M f _ A5).
  eapply Rle_trans; [eapply Rabs_triang|]. eapply Rle_trans; [apply Rplus_le_compat_r, Rabs_triang|].
  eapply Rle_trans; [apply Rplus_le_compat_r, Rplus_le_compat_r, Rabs_triang|].
  eapply Rle_trans; [apply Rplus_le_compat_r, Rplus_le_compat_r, Rplus_le_compat_r, Rabs_triang|].
  lra.
Qed.

Lemma small_enough : forall C eps, 0 <= C -> 0 < eps -> exists delta, 0 < delta /\ delta <= 1 /\ C * delta <= eps.
Proof.
  intros C eps HC He. exists (Rmin 1 (eps / (C + 1))).
  assert (P : 0 < eps / (C + 1)) by (apply Rdiv_lt_0_compat; lra).
  split; [apply Rmin_glb_lt; lra|]. split; [apply Rmin_l|].
  pose proof (Rmin_r 1 (eps / (C + 1))) as Q.
  assert (C * (eps / (C + 1)) <= eps).
  { assert (E : eps = (C + 1) * (eps / (C + 1))) by (field; lra). rewrite E at 2. nra. }
  nra.
Qed.

Lemma derivative_two : forall g x, length x = 2%nat -> dim_local (go_kind g) = 2%nat -> admissible g x ->
  (forall k, exists a b c e f, forall h0 h1,
     global_at g (nth 0 x 0 + h0) (nth 1 x 0 + h1) k - global_at g (nth 0 x 0) (nth 1 x 0) k
     - (nth 0 (jac_cols g (nth 0 x 0) (nth 1 x 0)) vzero k * h0 + nth 1 (jac_cols g (nth 0 x 0) (nth 1 x 0)) vzero k * h1)
     = a * (h0 * h0) + b * (h0 * h1) + c * (h1 * h1) + e * (h0 * h0 * h1) + f * (h0 * h1 * h1)) ->
  length (jac_cols g (nth 0 x 0) (nth 1 x 0)) = 2%nat ->
  derivative (go_dim g) (Global g) x (jac_cols g (nth 0 x 0) (nth 1 x 0)).
Proof.
  intros g x Lx Dl Ad H LJ. exists (global_at g (nth 0 x 0) (nth 1 x 0)).
  split; [apply Global_ok, Ad|]. split; [congruence|]. intros k _ eps He.
  destruct (H k) as (a & b & c & e & f & Hk).
  destruct (small_enough (Rabs a + Rabs b + Rabs c + Rabs e + Rabs f) eps) as (delta & D0 & D1 & DC); auto.
  { pose proof (Rabs_pos a). pose proof (Rabs_pos b). pose proof (Rabs_pos c). pose proof (Rabs_pos e).
    pose proof (Rabs_pos f). lra. }
  exists delta. split; auto. intros h q Lh Hh Hq.
  rewrite (Global_value _ _ _ Hq).
  destruct x as [|s [|t [|]]]; try discriminate Lx.
  destruct h as [|h0 [|h1 [|]]]; try discriminate Lh.
  cbn [plus combine map fst snd nth] in *.
  set (J := jac_cols g s t) in *. destruct J as [|J0 [|J1 [|]]]; try discriminate LJ.
  cbn [nth] in Hk. unfold apply, length1. cbn [combine map fold_right fst snd].
  replace (J0 k * h0 + (J1 k * h1 + 0)) with (J0 k * h0 + J1 k * h1) by ring.
  rewrite Hk.
  assert (B0 : Rabs h0 < delta) by (apply Hh; left; reflexivity).
  assert (B1 : Rabs h1 < delta) by (apply Hh; right; left; reflexivity).
  eapply Rle_trans; [apply (quadratic_remainder a b c e f h0 h1 delta); auto|].
  pose proof (Rabs_pos h0). pose proof (Rabs_pos h1). nra.
Qed.

Lemma derivative_one : forall g x, length x = 1%nat -> dim_local (go_kind g) = 1%nat -> admissible g x ->
  (forall k, exists a, forall h0,
     global_at g (nth 0 x 0 + h0) 0 k - global_at g (nth 0 x 0) 0 k
     - (nth 0 (jac_cols g (nth 0 x 0) 0) vzero k * h0) = a * (h0 * h0)) ->
  length (jac_cols g (nth 0 x 0) 0) = 1%nat ->
  derivative (go_dim g) (Global g) x (jac_cols g (nth 0 x 0) (nth 1 x 0)).
Proof.
  intros g x Lx Dl Ad H LJ. destruct x as [|s [|]]; try discriminate Lx. cbn [nth] in *.
  exists (global_at g s 0).
  split; [apply (Global_ok g [s] Ad)|]. split; [exact LJ|]. intros k _ eps He.
  destruct (H k) as (a & Hk).
  destruct (small_enough (Rabs a) eps) as (delta & D0 & D1 & DC); auto; [apply Rabs_pos|].
  exists delta. split; auto. intros h q Lh Hh Hq.
  rewrite (Global_value _ _ _ Hq).
  destruct h as [|h0 [|]]; try discriminate Lh.
  cbn [plus combine map fst snd nth].
  set (J := jac_cols g s 0) in *. destruct J as [|J0 [|]]; try discriminate LJ.
  cbn [nth] in Hk. unfold apply, length1. cbn [combine map fold_right fst snd].
  rewrite !Rplus_0_r. rewrite Hk.
  assert (B0 : Rabs h0 < delta) by (apply Hh; left; reflexivity).
  rewrite !Rabs_mult. pose proof (Rabs_pos h0). pose proof (Rabs_pos a).
  assert (Rabs h0 * Rabs h0 <= delta * Rabs h0) by nra.
  assert (Rabs a * (Rabs h0 * Rabs h0) <= Rabs a * (delta * Rabs h0)) by nra. nra.
Qed.

Lemma jacobian_derivative : forall g x, admissible g x ->
  exists J, Jacobian g x = Ok J /\ derivative (go_dim g) (Global g) x J.
Proof.
  intros g x Ad. exists (jac_cols g (nth 0 x 0) (nth 1 x 0)). split; [apply Jacobian_ok, Ad|].
  pose proof (proj1 Ad) as L. destruct g as [kd d cs]. cbn [go_kind] in L.
  destruct kd; unfold dim_local in L; cbn [kind_el el_dim] in L.
  - destruct x; [|discriminate L]. eexists. split; [apply Global_ok, Ad|]. split; [reflexivity|].
    intros k _ eps He. exists 1. split; [lra|]. intros h q Lh _ Hq. destruct h; [|discriminate Lh].
    rewrite (Global_value _ _ _ Hq). cbn. rewrite Rminus_diag_eq by ring. rewrite Rabs_R0. lra.
  - apply derivative_one; auto. intros k. exists 0. intros h0. cbn. unfold vsub. ring.
  - apply derivative_two; auto. intros k. exists 0, 0, 0, 0, 0. intros h0 h1. cbn. unfold vsub. ring.
  - apply derivative_two; auto. intros k.
    set (g := mkGeo GQuadO1 d cs).
    exists 0, (col g 0 k - col g 1 k + col g 2 k - col g 3 k), 0, 0, 0. intros h0 h1. cbn. ring.
  - apply derivative_two; auto. intros k. exists 0, 0, 0, 0, 0. intros h0 h1. cbn. unfold vsub. ring.
  - apply derivative_one; auto. intros k. exists (s2_alpha (mkGeo GSegmentO2 d cs) k). intros h0. cbn. ring.
  - apply derivative_two; auto. intros k. set (g := mkGeo GTriaO2 d cs).
    exists (t2_gamma0 g k), (t2_delta g k), (t2_gamma1 g k), 0, 0. intros h0 h1. cbn. unfold Rsqr. ring.
  - apply derivative_two; auto. intros k. set (g := mkGeo GQuadO2 d cs).
    exists (q2_gamma0 g k + q2_eps0 g k * nth 1 x 0), 
      (q2_delta g k + 2 * q2_eps0 g k * nth 0 x 0 + 2 * q2_eps1 g k * nth 1 x 0),
      (q2_gamma1 g k + q2_eps1 g k * nth 0 x 0), (q2_eps0 g k), (q2_eps1 g k).
    intros h0 h1. cbn [global_at jac_cols go_kind nth g]. unfold Rsqr. ring.
Qed.
