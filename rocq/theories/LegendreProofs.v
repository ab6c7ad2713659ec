(** Legendre polynomials and their integrals. *)
From Coq Require Import Reals List Arith Lia Lra.
Import ListNotations.
From Verif Require Import Base MeshModel MeshView DofModel FeModel QuadModel HierModel Calc LagrProofs2.
Local Open Scope R_scope.

Lemma INR_pos : forall n, 0 <= INR n.
Proof. exact pos_INR. Qed.

Section Legendre.
Variables x t : R.
Let P n := legendre n x t.
Let D n := legendre_dx n x t.

Lemma legendre_fold : forall k,
  fold_left (legendre_step x t) (seq 2 k) (1, 2 * x - t) = (P k, P (S k)).
Proof.
  assert (G : forall k, snd (fold_left (legendre_step x t) (seq 2 k) (1, 2 * x - t)) = P (S k)).
  { intros [|k]; [reflexivity|]. unfold P, legendre. rewrite Nat.sub_succ, Nat.sub_0_r. reflexivity. }
  intros k. rewrite (surjective_pairing (fold_left _ _ _)). f_equal; [|apply G].
  destruct k as [|k]; [reflexivity|]. rewrite seq_S, fold_left_app. cbn [fold_left].
  unfold legendre_step at 1. cbn [fst]. apply G.
Qed.
Lemma legendre_rec : forall n,
  P (S (S n)) = (2 * INR n + 3) / (INR n + 2) * (2 * x - t) * P (S n) - (INR n + 1) / (INR n + 2) * t ^ 2 * P n.
Proof.
  intros n. pose proof (legendre_fold (S n)) as H. rewrite seq_S, fold_left_app, legendre_fold in H.
  cbn [fold_left] in H. unfold legendre_step in H. cbn [fst snd] in H. apply (f_equal snd) in H. cbn [snd] in H. rewrite <- H.
  pose proof (INR_pos n). rewrite plus_INR. cbn [INR]. field. lra.
Qed.
(** Without division. *)
Lemma legendre_rec' : forall n,
  (INR n + 2) * P (S (S n)) = (2 * INR n + 3) * (2 * x - t) * P (S n) - (INR n + 1) * t ^ 2 * P n.
Proof. intros n. rewrite legendre_rec. pose proof (INR_pos n). field. lra. Qed.
Lemma legendre_0 : P 0 = 1. Proof. reflexivity. Qed.
Lemma legendre_1 : P 1 = 2 * x - t. Proof. reflexivity. Qed.
Lemma legendre_dx_S : forall n, D (S n) = 2 * (INR n + 1) * P n + (2 * x - t) * D n.
Proof. intros n. unfold D. cbn [legendre_dx]. rewrite S_INR. reflexivity. Qed.
Lemma legendre_E : forall m, (2 * x - t) * D (S m) - t ^ 2 * D m = 2 * (INR m + 1) * P (S m).
Proof.
  induction m as [|m IH].
  - rewrite legendre_dx_S. unfold D. cbn [legendre_dx INR]. rewrite legendre_0, legendre_1. ring.
  - rewrite legendre_dx_S. pose proof (legendre_rec' m) as Rc. pose proof (legendre_dx_S m) as Dm.
    rewrite S_INR in *. set (z := 2 * x - t) in *.
    assert (Z2 : z * (z * D (S m)) = z * (2 * (INR m + 1) * P (S m)) + t ^ 2 * (D (S m) - 2 * (INR m + 1) * P m)).
    { replace (z * D (S m)) with (2 * (INR m + 1) * P (S m) + t ^ 2 * D m) by lra.
      replace (D (S m) - 2 * (INR m + 1) * P m) with (z * D m) by lra. ring. }
    rewrite Rmult_plus_distr_l, Z2. lra.
Qed.
Lemma legendre_F : forall m, D (S (S m)) - t ^ 2 * D m = 2 * (2 * INR m + 3) * P (S m).
Proof.
  intros m. rewrite (legendre_dx_S (S m)). pose proof (legendre_E m) as E. rewrite S_INR. lra.
Qed.
End Legendre.

(** The two partial derivatives. *)
Definition legendre_dt (n : nat) (x t : R) : R :=
  match n with 0%nat => 0 | S k => - (1 / 2) * (legendre_dx n x t + t * legendre_dx k x t) end.
Lemma legendre_qd : forall n x t, qd (legendre n) x t (legendre_dx n x t) (legendre_dt n x t).
Proof.
  intros n x t.
  enough (H : qd (legendre n) x t (legendre_dx n x t) (legendre_dt n x t) /\
              qd (legendre (S n)) x t (legendre_dx (S n) x t) (legendre_dt (S n) x t)) by apply H.
  induction n as [|n [H0 H1]].
  - split.
    + apply (qd_ext (fun _ _ => 1)); [reflexivity|]. apply qd_const.
    + apply (qd_ext (fun s u => 2 * s - u)); [reflexivity|]. unfold legendre_dt. cbn [legendre_dx legendre INR].
      qd_auto; field.
  - split; [exact H1|].
    apply (qd_ext (fun s u => (2 * INR n + 3) / (INR n + 2) * (2 * s - u) * legendre (S n) s u
                              - (INR n + 1) / (INR n + 2) * (u * u) * legendre n s u)).
    { intros s u. rewrite legendre_rec. ring. }
    pose proof (INR_pos n) as Hn.
    pose proof (legendre_dx_S x t n) as S0. pose proof (legendre_dx_S x t (S n)) as S1.
    pose proof (legendre_E x t n) as E0. pose proof (legendre_rec' x t n) as Rc. cbv beta in *. rewrite S_INR in *.
    set (p0 := legendre n x t) in *. set (p1 := legendre (S n) x t) in *.
    set (p2 := legendre (S (S n)) x t) in *.
    eapply qd_eq; [repeat first [apply H0 | apply H1 | qd_step]| |]; cbv beta; fold p0 p1.
    + set (d0 := legendre_dx n x t) in *. set (d1 := legendre_dx (S n) x t) in *.
      set (d2 := legendre_dx (S (S n)) x t) in *.
      apply (Rmult_eq_reg_l (INR n + 2)); [|lra]. rewrite S1.
      replace (2 * (INR n + 1 + 1) * p1) with (2 * (INR n + 2) * p1) by ring.
      transitivity ((2 * INR n + 3) * (2 * p1 + (2 * x - t) * d1) - (INR n + 1) * (t ^ 2 * d0)); [field; lra|].
      replace (t ^ 2 * d0) with ((2 * x - t) * d1 - 2 * (INR n + 1) * p1) by lra. ring.
    + destruct n as [|n].
      { unfold legendre_dt. cbn [legendre_dx INR] in *. unfold p0, p1, p2 in *. cbn [legendre] in *. field. }
      unfold legendre_dt. set (d0 := legendre_dx (S n) x t) in *. set (d1 := legendre_dx (S (S n)) x t) in *.
      set (d2 := legendre_dx (S (S (S n))) x t) in *. set (dm := legendre_dx n x t) in *.
      pose proof (legendre_F x t n) as F. cbv beta in F. fold p0 d1 dm in F.
      rewrite S_INR in *. set (k := INR n) in *.
      apply (Rmult_eq_reg_l (k + 1 + 2)); [|lra].
      transitivity ((2 * k + 5) * (- p1 - (2 * x - t) * (1 / 2) * (d1 + t * d0))
                    - (k + 2) * (2 * t * p0 - t ^ 2 * (1 / 2) * (d0 + t * dm))); [field; lra|].
      rewrite S1.
      (* eliminate dm, then d0 *)
      replace (t ^ 2 * (1 / 2) * (d0 + t * dm)) with
        (1 / 2 * (t ^ 2 * d0) + 1 / 2 * t * (d1 - 2 * (2 * k + 3) * p0)) by (rewrite <- F; field).
      replace ((2 * x - t) * (1 / 2) * (d1 + t * d0)) with
        (1 / 2 * ((2 * x - t) * d1) + 1 / 2 * t * (d1 - 2 * (k + 1 + 1) * p0)).
      2: { rewrite S0. field. }
      replace (t ^ 2 * d0) with ((2 * x - t) * d1 - 2 * (k + 1 + 1) * p1) by lra. field.
Qed.
Lemma ilegendre_qd : forall n x t, (1 <= n)%nat -> qd (ilegendre n) x t (ilegendre_dx n x t) (ilegendre_dt n x t).
Proof.
  intros n x t Hn. destruct n as [|[|n]]; [lia| |].
  - apply (qd_ext (fun s _ => s)); [reflexivity|]. apply qd_fst.
  - apply (qd_ext (fun s u => / (2 * (2 * INR n + 3)) * (legendre (S (S n)) s u - u * u * legendre n s u))).
    { intros s u. unfold ilegendre. cbn [Nat.eqb Nat.sub]. rewrite Nat.sub_0_r, !S_INR.
      pose proof (INR_pos n). field. lra. }
    pose proof (INR_pos n) as Hp.
    eapply qd_eq; [eapply qd_scale; repeat first [apply legendre_qd | qd_step]| |]; cbv beta.
    + unfold ilegendre_dx. cbn [Nat.sub]. pose proof (legendre_F x t n) as F. cbv beta in F.
      apply (Rmult_eq_reg_l (2 * (2 * INR n + 3))); [|lra]. rewrite <- F. field. lra.
    + unfold ilegendre_dt. cbn [Nat.eqb Nat.sub]. rewrite Nat.sub_0_r.
      pose proof (legendre_F x t n) as F. cbv beta in F.
      destruct n as [|n].
      { clear F. unfold legendre_dt. cbn [legendre_dx legendre INR]. rewrite ?(legendre_rec x t 0). cbn [legendre INR]. field. }
      pose proof (legendre_F x t n) as F'. cbv beta in F'. unfold legendre_dt. cbn [Nat.sub].
      set (p1 := legendre (S (S n)) x t) in *. set (p0 := legendre (S n) x t) in *.
      rewrite S_INR in *. set (k := INR n) in *.
      set (d3 := legendre_dx (S (S (S n))) x t) in *. set (d2 := legendre_dx (S (S n)) x t) in *.
      set (d1 := legendre_dx (S n) x t) in *. set (d0 := legendre_dx n x t) in *.
      apply (Rmult_eq_reg_l (2 * (2 * (k + 1) + 3))); [|lra].
      transitivity (- (1 / 2) * (d3 - t ^ 2 * d1) - (1 / 2) * t * (d2 - t ^ 2 * d0) - 2 * t * p0); [field; lra|].
      rewrite F, F'. field.
Qed.

(** Values at the ends. *)
Lemma legendre_left : forall n t, legendre n 0 t = (- t) ^ n.
Proof.
  intros n t. enough (H : legendre n 0 t = (- t) ^ n /\ legendre (S n) 0 t = (- t) ^ S n) by apply H.
  induction n as [|n [H0 H1]]; [split; cbn; ring|]. split; [exact H1|].
  rewrite legendre_rec, H1, H0. pose proof (INR_pos n). cbn [pow]. field. lra.
Qed.
Lemma legendre_right : forall n t, legendre n t t = t ^ n.
Proof.
  intros n t. enough (H : legendre n t t = t ^ n /\ legendre (S n) t t = t ^ S n) by apply H.
  induction n as [|n [H0 H1]]; [split; cbn; ring|]. split; [exact H1|].
  rewrite legendre_rec, H1, H0. pose proof (INR_pos n). cbn [pow]. field. lra.
Qed.
Lemma ilegendre_left : forall n t, (2 <= n)%nat -> ilegendre n 0 t = 0.
Proof.
  intros [|[|n]] t Hn; try lia. unfold ilegendre. cbn [Nat.eqb Nat.sub]. rewrite Nat.sub_0_r, !legendre_left.
  unfold Rdiv. cbn [pow]. ring.
Qed.
Lemma ilegendre_right : forall n t, (2 <= n)%nat -> ilegendre n t t = 0.
Proof.
  intros [|[|n]] t Hn; try lia. unfold ilegendre. cbn [Nat.eqb Nat.sub]. rewrite Nat.sub_0_r, !legendre_right.
  unfold Rdiv. cbn [pow]. ring.
Qed.
(** Scaling. *)
Lemma legendre_scale : forall n x t s, legendre n (s * x) (s * t) = s ^ n * legendre n x t.
Proof.
  intros n x t s. enough (H : legendre n (s * x) (s * t) = s ^ n * legendre n x t /\
    legendre (S n) (s * x) (s * t) = s ^ S n * legendre (S n) x t) by apply H.
  induction n as [|n [H0 H1]]; [split; cbn; ring|]. split; [exact H1|].
  rewrite !legendre_rec, H1, H0. pose proof (INR_pos n). cbn [pow]. field. lra.
Qed.
Lemma ilegendre_scale : forall n x t s, (2 <= n)%nat -> ilegendre n (s * x) (s * t) = s ^ n * ilegendre n x t.
Proof.
  intros [|[|n]] x t s Hn; try lia. unfold ilegendre. cbn [Nat.eqb Nat.sub]. rewrite Nat.sub_0_r, !legendre_scale.
  unfold Rdiv. cbn [pow]. ring.
Qed.
(** Reflection. *)
Lemma legendre_flip : forall n x t, legendre n (t - x) t = (-1) ^ n * legendre n x t.
Proof.
  intros n x t. enough (H : legendre n (t - x) t = (-1) ^ n * legendre n x t /\
    legendre (S n) (t - x) t = (-1) ^ S n * legendre (S n) x t) by apply H.
  induction n as [|n [H0 H1]]; [split; cbn; ring|]. split; [exact H1|].
  rewrite !legendre_rec, H1, H0. pose proof (INR_pos n). cbn [pow]. field. lra.
Qed.
