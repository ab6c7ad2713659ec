(** Differentiation of functions of two variables with a quadratic remainder on
    every box.  Only helpers; no part of the specification. *)
From Coq Require Import Reals List Arith Lia Lra.
Import ListNotations.
Local Open Scope R_scope.

Definition qd (F : R -> R -> R) (x y a b : R) : Prop :=
  forall r, 0 <= r -> exists M, 0 <= M /\ forall h k, Rabs h <= r -> Rabs k <= r ->
    Rabs (F (x + h) (y + k) - F x y - (a * h + b * k)) <= M * (Rabs h + Rabs k) ^ 2.

Lemma sq_pos : forall n, 0 <= n ^ 2.
Proof. intros. replace (n ^ 2) with (n * n) by ring. apply Rle_0_sqr. Qed.

Lemma qd_eq : forall F x y a b a' b', qd F x y a b -> a = a' -> b = b' -> qd F x y a' b'.
Proof. intros; subst; auto. Qed.
Lemma qd_ext : forall F G x y a b, (forall s t, F s t = G s t) -> qd F x y a b -> qd G x y a b.
Proof.
  intros F G x y a b E H r Hr. destruct (H r Hr) as (M & M0 & HM). exists M. split; auto.
  intros. rewrite <- !E. auto.
Qed.
Lemma qd_exact : forall F x y a b, (forall h k, F (x + h) (y + k) - F x y - (a * h + b * k) = 0) -> qd F x y a b.
Proof.
  intros F x y a b H r Hr. exists 0. split; [lra|]. intros h k _ _. rewrite H, Rabs_R0. lra.
Qed.
Lemma qd_const : forall c x y, qd (fun _ _ => c) x y 0 0.
Proof. intros. apply qd_exact. intros. ring. Qed.
Lemma qd_fst : forall x y, qd (fun s _ => s) x y 1 0.
Proof. intros. apply qd_exact. intros. ring. Qed.
Lemma qd_snd : forall x y, qd (fun _ t => t) x y 0 1.
Proof. intros. apply qd_exact. intros. ring. Qed.

Lemma qd_plus : forall F G x y a b c d, qd F x y a b -> qd G x y c d ->
  qd (fun s t => F s t + G s t) x y (a + c) (b + d).
Proof.
  intros F G x y a b c d HF HG r Hr. destruct (HF r Hr) as (M & M0 & HM).
  destruct (HG r Hr) as (N & N0 & HN). exists (M + N). split; [lra|]. intros h k Hh Hk.
  replace (F (x + h) (y + k) + G (x + h) (y + k) - (F x y + G x y) - ((a + c) * h + (b + d) * k))
    with ((F (x + h) (y + k) - F x y - (a * h + b * k)) + (G (x + h) (y + k) - G x y - (c * h + d * k))) by ring.
  eapply Rle_trans; [apply Rabs_triang|]. specialize (HM h k Hh Hk). specialize (HN h k Hh Hk). lra.
Qed.
Lemma qd_scale : forall F q x y a b, qd F x y a b -> qd (fun s t => q * F s t) x y (q * a) (q * b).
Proof.
  intros F q x y a b HF r Hr. destruct (HF r Hr) as (M & M0 & HM). exists (Rabs q * M).
  split; [apply Rmult_le_pos; auto using Rabs_pos|]. intros h k Hh Hk.
  replace (q * F (x + h) (y + k) - q * F x y - (q * a * h + q * b * k))
    with (q * (F (x + h) (y + k) - F x y - (a * h + b * k))) by ring.
  rewrite Rabs_mult, Rmult_assoc. apply Rmult_le_compat_l; auto using Rabs_pos.
Qed.
Lemma qd_opp : forall F x y a b, qd F x y a b -> qd (fun s t => - F s t) x y (- a) (- b).
Proof.
  intros F x y a b H. eapply qd_eq; [eapply qd_ext; [|apply (qd_scale F (-1) _ _ _ _ H)]| |]; intros; cbn beta; ring.
Qed.
Lemma qd_minus : forall F G x y a b c d, qd F x y a b -> qd G x y c d ->
  qd (fun s t => F s t - G s t) x y (a - c) (b - d).
Proof. intros. unfold Rminus. apply qd_plus; auto using qd_opp. Qed.

(** Increments. *)
Lemma lin_bound : forall a b h k, Rabs (a * h + b * k) <= (Rabs a + Rabs b) * (Rabs h + Rabs k).
Proof.
  intros. eapply Rle_trans; [apply Rabs_triang|]. rewrite !Rabs_mult.
  pose proof (Rmult_le_pos _ _ (Rabs_pos a) (Rabs_pos k)).
  pose proof (Rmult_le_pos _ _ (Rabs_pos b) (Rabs_pos h)). lra.
Qed.
Lemma qd_increment : forall F x y a b, qd F x y a b -> forall r, 0 <= r ->
  exists P, 0 <= P /\ forall h k, Rabs h <= r -> Rabs k <= r ->
    Rabs (F (x + h) (y + k) - F x y) <= P * (Rabs h + Rabs k).
Proof.
  intros F x y a b H r Hr. destruct (H r Hr) as (M & M0 & HM).
  exists (M * (2 * r) + (Rabs a + Rabs b)). pose proof (Rabs_pos a) as A. pose proof (Rabs_pos b) as B. split.
  - pose proof (Rmult_le_pos _ _ M0 (Rmult_le_pos 2 r ltac:(lra) Hr)). lra.
  - intros h k Hh Hk. specialize (HM h k Hh Hk).
    replace (F (x + h) (y + k) - F x y) with ((F (x + h) (y + k) - F x y - (a * h + b * k)) + (a * h + b * k)) by ring.
    eapply Rle_trans; [apply Rabs_triang|]. pose proof (lin_bound a b h k) as L.
    set (n := Rabs h + Rabs k) in *. assert (N0 : 0 <= n) by (unfold n; pose proof (Rabs_pos h); pose proof (Rabs_pos k); lra).
    assert (N1 : n <= 2 * r) by (unfold n; lra).
    assert (M * n ^ 2 <= M * (2 * r) * n).
    { replace (M * n ^ 2) with (M * (n * n)) by ring. rewrite Rmult_assoc. apply Rmult_le_compat_l; auto.
      apply Rmult_le_compat_r; auto. }
    lra.
Qed.

Lemma qd_mult : forall F G x y a b c d, qd F x y a b -> qd G x y c d ->
  qd (fun s t => F s t * G s t) x y (a * G x y + F x y * c) (b * G x y + F x y * d).
Proof.
  intros F G x y a b c d HF HG r Hr. destruct (HF r Hr) as (M & M0 & HM).
  destruct (HG r Hr) as (N & N0 & HN). destruct (qd_increment F x y a b HF r Hr) as (P & P0 & HP).
  destruct (qd_increment G x y c d HG r Hr) as (Q & Q0 & HQ).
  exists (Rabs (F x y) * N + Rabs (G x y) * M + P * Q).
  pose proof (Rmult_le_pos _ _ (Rabs_pos (F x y)) N0). pose proof (Rmult_le_pos _ _ (Rabs_pos (G x y)) M0).
  pose proof (Rmult_le_pos _ _ P0 Q0). split; [lra|]. intros h k Hh Hk.
  specialize (HM h k Hh Hk). specialize (HN h k Hh Hk). specialize (HP h k Hh Hk). specialize (HQ h k Hh Hk).
  set (n := Rabs h + Rabs k) in *. assert (N1 : 0 <= n) by (unfold n; pose proof (Rabs_pos h); pose proof (Rabs_pos k); lra).
  replace (F (x + h) (y + k) * G (x + h) (y + k) - F x y * G x y -
     ((a * G x y + F x y * c) * h + (b * G x y + F x y * d) * k))
  with (F x y * (G (x + h) (y + k) - G x y - (c * h + d * k))
        + G x y * (F (x + h) (y + k) - F x y - (a * h + b * k))
        + (F (x + h) (y + k) - F x y) * (G (x + h) (y + k) - G x y)) by ring.
  eapply Rle_trans; [apply Rabs_triang|]. eapply Rle_trans; [apply Rplus_le_compat_r, Rabs_triang|].
  rewrite !Rabs_mult.
  pose proof (Rmult_le_compat_l _ _ _ (Rabs_pos (F x y)) HN).
  pose proof (Rmult_le_compat_l _ _ _ (Rabs_pos (G x y)) HM).
  pose proof (Rmult_le_compat _ _ _ _ (Rabs_pos _) (Rabs_pos _) HP HQ).
  replace ((Rabs (F x y) * N + Rabs (G x y) * M + P * Q) * n ^ 2) with
    (Rabs (F x y) * (N * n ^ 2) + Rabs (G x y) * (M * n ^ 2) + P * n * (Q * n)) by ring.
  lra.
Qed.

Lemma qd_comp : forall F u v x y a b ux uy vx vy, qd F (u x y) (v x y) a b ->
  qd u x y ux uy -> qd v x y vx vy ->
  qd (fun s t => F (u s t) (v s t)) x y (a * ux + b * vx) (a * uy + b * vy).
Proof.
  intros F u v x y a b ux uy vx vy HF Hu Hv r Hr.
  destruct (Hu r Hr) as (M & M0 & HM). destruct (Hv r Hr) as (N & N0 & HN).
  destruct (qd_increment u x y ux uy Hu r Hr) as (P & P0 & HP).
  destruct (qd_increment v x y vx vy Hv r Hr) as (Q & Q0 & HQ).
  assert (R0 : 0 <= (P + Q) * (2 * r)) by (apply Rmult_le_pos; lra).
  destruct (HF _ R0) as (K & K0 & HK).
  exists (K * (P + Q) ^ 2 + Rabs a * M + Rabs b * N).
  pose proof (Rmult_le_pos _ _ (Rabs_pos a) M0). pose proof (Rmult_le_pos _ _ (Rabs_pos b) N0).
  pose proof (Rmult_le_pos _ _ K0 (sq_pos (P + Q))). split; [lra|]. intros h k Hh Hk.
  specialize (HM h k Hh Hk). specialize (HN h k Hh Hk). specialize (HP h k Hh Hk). specialize (HQ h k Hh Hk).
  set (n := Rabs h + Rabs k) in *. assert (N1 : 0 <= n) by (unfold n; pose proof (Rabs_pos h); pose proof (Rabs_pos k); lra).
  assert (N2 : n <= 2 * r) by (unfold n; lra).
  set (du := u (x + h) (y + k) - u x y) in *. set (dv := v (x + h) (y + k) - v x y) in *.
  assert (PQ : P * n <= (P + Q) * (2 * r)).
  { apply Rmult_le_compat; lra. }
  assert (QP : Q * n <= (P + Q) * (2 * r)).
  { apply Rmult_le_compat; lra. }
  specialize (HK du dv (Rle_trans _ _ _ HP PQ) (Rle_trans _ _ _ HQ QP)).
  replace (u (x + h) (y + k)) with (u x y + du) by (unfold du; ring).
  replace (v (x + h) (y + k)) with (v x y + dv) by (unfold dv; ring).
  replace (F (u x y + du) (v x y + dv) - F (u x y) (v x y) - ((a * ux + b * vx) * h + (a * uy + b * vy) * k))
    with ((F (u x y + du) (v x y + dv) - F (u x y) (v x y) - (a * du + b * dv))
          + a * (du - (ux * h + uy * k)) + b * (dv - (vx * h + vy * k))) by ring.
  eapply Rle_trans; [apply Rabs_triang|]. eapply Rle_trans; [apply Rplus_le_compat_r, Rabs_triang|].
  rewrite !Rabs_mult.
  pose proof (Rmult_le_compat_l _ _ _ (Rabs_pos a) HM). pose proof (Rmult_le_compat_l _ _ _ (Rabs_pos b) HN).
  assert (S : (Rabs du + Rabs dv) ^ 2 <= (P + Q) ^ 2 * n ^ 2).
  { replace ((P + Q) ^ 2 * n ^ 2) with (((P * n) + (Q * n)) * ((P * n) + (Q * n))) by ring.
    replace ((Rabs du + Rabs dv) ^ 2) with ((Rabs du + Rabs dv) * (Rabs du + Rabs dv)) by ring.
    pose proof (Rabs_pos du). pose proof (Rabs_pos dv). apply Rmult_le_compat; lra. }
  pose proof (Rmult_le_compat_l _ _ _ K0 S).
  replace ((K * (P + Q) ^ 2 + Rabs a * M + Rabs b * N) * n ^ 2) with
    (K * ((P + Q) ^ 2 * n ^ 2) + Rabs a * (M * n ^ 2) + Rabs b * (N * n ^ 2)) by ring.
  lra.
Qed.
