(** Orthogonality of Jacobi and Legendre polynomials. *)
From Coq Require Import Reals List Arith Lia Lra.
From Coquelicot Require Import Coquelicot.
Import ListNotations.
From Verif Require Import Base MeshModel MeshView DofModel FeModel QuadModel HierModel Calc LagrProofs2 LegendreProofs
  JacobiProofs.
Local Open Scope R_scope.

(** *** Integrals of smooth functions *)
Lemma qd_derive : forall f x y a b, qd (fun s _ => f s) x y a b -> is_derive f x a.
Proof.
  intros f x y a b H. apply is_derive_Reals. intros eps He.
  destruct (qd_small _ _ _ _ _ H (eps / 2) ltac:(lra)) as (d & D0 & Hd).
  exists (mkposreal d D0). intros h H0 Hh. cbn in Hh.
  specialize (Hd h 0 Hh). rewrite Rabs_R0 in Hd. specialize (Hd D0).
  replace ((f (x + h) - f x) / h - a) with ((f (x + h) - f x - (a * h + b * 0)) / h) by (field; exact H0).
  unfold Rdiv. rewrite Rabs_mult, Rabs_inv.
  assert (P : 0 < Rabs h) by (apply Rabs_pos_lt; exact H0).
  apply (Rmult_lt_reg_r (Rabs h)); [exact P|]. rewrite Rmult_assoc, Rinv_l by lra.
  pose proof (Rmult_lt_0_compat _ _ He P). lra.
Qed.
Definition smooth (f : R -> R) : Prop := forall x, exists a, qd (fun s _ => f s) x 0 a 0.
Lemma smooth_cont : forall f, smooth f -> forall x, continuous f x.
Proof.
  intros f H x. destruct (H x) as (a & Ha). apply (ex_derive_continuous f x). exists a. eapply qd_derive, Ha.
Qed.
Lemma smooth_int : forall f a b, smooth f -> ex_RInt f a b.
Proof. intros f a b H. apply (ex_RInt_continuous f). intros x _. apply smooth_cont, H. Qed.
Lemma ftc : forall F f a b, (forall x, qd (fun s _ => F s) x 0 (f x) 0) -> smooth f -> RInt f a b = F b - F a.
Proof.
  intros F f a b HF Hf. apply is_RInt_unique. apply (is_RInt_derive F f).
  - intros x _. eapply qd_derive, HF.
  - intros x _. apply smooth_cont, Hf.
Qed.
Lemma smooth_ext : forall f g, (forall x, f x = g x) -> smooth f -> smooth g.
Proof. intros f g E H x. destruct (H x) as (a & Ha). exists a. eapply qd_ext; [|exact Ha]. intros; apply E. Qed.
Lemma smooth_const : forall c, smooth (fun _ => c).
Proof. intros c x. exists 0. apply qd_const. Qed.
Lemma smooth_id : smooth (fun x => x).
Proof. intros x. exists 1. apply qd_fst. Qed.
Lemma smooth_plus : forall f g, smooth f -> smooth g -> smooth (fun x => f x + g x).
Proof.
  intros f g F G x. destruct (F x) as (a & Ha), (G x) as (b & Hb). exists (a + b).
  eapply qd_eq; [eapply qd_plus; eassumption|reflexivity|ring].
Qed.
Lemma smooth_minus : forall f g, smooth f -> smooth g -> smooth (fun x => f x - g x).
Proof.
  intros f g F G x. destruct (F x) as (a & Ha), (G x) as (b & Hb). exists (a - b).
  eapply qd_eq; [eapply qd_minus; eassumption|reflexivity|ring].
Qed.
Lemma smooth_mult : forall f g, smooth f -> smooth g -> smooth (fun x => f x * g x).
Proof.
  intros f g F G x. destruct (F x) as (a & Ha), (G x) as (b & Hb). eexists.
  eapply qd_eq; [eapply qd_mult; eassumption|reflexivity|cbv beta; ring].
Qed.
Lemma smooth_pow : forall f n, smooth f -> smooth (fun x => f x ^ n).
Proof.
  intros f n H. induction n as [|n IH]; [apply (smooth_const 1)|]. apply (smooth_mult f _ H IH).
Qed.
Lemma smooth_pe : forall a n, smooth (pe a n).
Proof.
  intros a [|n] x; [exists 0; apply (qd_const 0)|]. exists (pe (deriv a) n x). apply pe_qd.
Qed.
Lemma smooth_jacobi : forall n al, 0 <= al -> smooth (jacobi n al).
Proof. intros n al Ha x. exists (jacobi_dx n al x). apply jacobi_qd, Ha. Qed.
Lemma smooth_ijacobi : forall n al, 0 <= al -> (1 <= n)%nat -> smooth (ijacobi n al).
Proof. intros n al Ha Hn x. exists (ijacobi_dx n al x). apply ijacobi_qd; auto. Qed.
Ltac smooth_tac := repeat first
  [ assumption | apply smooth_const | apply smooth_id | apply smooth_minus | apply smooth_plus | apply smooth_pow | apply smooth_mult ].

Lemma RInt_p : forall f g a b, smooth f -> smooth g -> RInt (fun x => f x + g x) a b = RInt f a b + RInt g a b.
Proof. intros f g a b F G. apply (RInt_plus f g a b); apply smooth_int; auto. Qed.
Lemma RInt_m : forall f g a b, smooth f -> smooth g -> RInt (fun x => f x - g x) a b = RInt f a b - RInt g a b.
Proof. intros f g a b F G. apply (RInt_minus f g a b); apply smooth_int; auto. Qed.
Lemma RInt_c : forall f c a b, smooth f -> RInt (fun x => c * f x) a b = c * RInt f a b.
Proof. intros f c a b F. apply (RInt_scal f a b c); apply smooth_int; auto. Qed.
Lemma RInt_e : forall (f g : R -> R) a b, (forall x, f x = g x) -> RInt f a b = RInt g a b.
Proof. intros f g a b E. apply RInt_ext. intros; apply E. Qed.

(** *** Jacobi polynomials *)
Section Jacobi.
Variable q : nat.
Let al := INR q.
Let Ha : 0 <= al := INR_pos q.
Let P n := jacobi n al.
Let w (y : R) := (1 - y) ^ q.

Lemma smooth_P : forall n, smooth (P n).
Proof. intros n. apply smooth_jacobi, Ha. Qed.
Lemma smooth_w : smooth w.
Proof. apply (smooth_pow (fun y => 1 - y)). smooth_tac. Qed.

(** Hypergeometric differential equation, on coefficients *)
Lemma coef_next : forall v k, (INR k + 1) ^ 2 * coef al 0 v (S k) + (v - INR k) * (v + al + 1 + INR k) * coef al 0 v k = 0.
Proof.
  intros v k. unfold coef. cbn [ff rf den pow]. pose proof (den_pos 0 k (Rle_refl 0)). pose proof (INR_pos k).
  field. lra.
Qed.
Lemma deriv_zero : forall a n, (forall k, (n <= k)%nat -> a k = 0) -> forall k, (n <= S k)%nat -> deriv a k = 0.
Proof. intros a n H k Hk. unfold deriv. rewrite H by lia. ring. Qed.
Lemma ode : forall n y, let a := coef al 0 (INR n) in let N := S (S n) in
  y * (1 - y) * pe (deriv (deriv a)) N y + (1 - (al + 2) * y) * pe (deriv a) N y
  + INR n * (INR n + al + 1) * pe a N y = 0.
Proof.
  intros n y a N.
  assert (Z : forall k, (S n <= k)%nat -> a k = 0) by (intros; apply coef_zero; lia).
  assert (Z1 : forall k, (S n <= S k)%nat -> deriv a k = 0) by (apply deriv_zero, Z).
  assert (Z2 : forall k, (S n <= S (S k))%nat -> deriv (deriv a) k = 0).
  { intros k Hk. apply (deriv_zero (deriv a) n); [|lia]. intros; apply Z1; lia. }
  set (M := S (S N)).
  assert (E1 : y * pe (deriv (deriv a)) N y = pe (shift (deriv (deriv a))) M y).
  { unfold M. rewrite pe_shift. f_equal. symmetry. apply pe_more; [unfold N; lia|]. intros; apply Z2; unfold N in *; lia. }
  assert (E2 : y * (y * pe (deriv (deriv a)) N y) = pe (shift (shift (deriv (deriv a)))) M y).
  { unfold M. rewrite pe_shift. f_equal. rewrite pe_shift. reflexivity. }
  assert (E3 : pe (deriv a) N y = pe (deriv a) M y).
  { symmetry. apply pe_more; [unfold M; lia|]. intros; apply Z1; unfold N in *; lia. }
  assert (E4 : y * pe (deriv a) N y = pe (shift (deriv a)) M y).
  { unfold M. rewrite pe_shift. f_equal. symmetry. apply pe_more; [unfold N; lia|]. intros; apply Z1; unfold N in *; lia. }
  assert (E5 : pe a N y = pe a M y).
  { symmetry. apply pe_more; [unfold M; lia|]. intros; apply Z; unfold N in *; lia. }
  transitivity (pe (shift (deriv (deriv a))) M y + - 1 * pe (shift (shift (deriv (deriv a)))) M y
                + pe (deriv a) M y + - (al + 2) * pe (shift (deriv a)) M y + INR n * (INR n + al + 1) * pe a M y).
  { rewrite <- E1, <- E2, <- E3, <- E4, <- E5. ring. }
  rewrite <- !pe_scale, <- !pe_plus. apply pe_zero. intros k _.
  destruct k as [|[|k]]; cbn [shift]; unfold deriv.
  - pose proof (coef_next (INR n) 0) as C. fold a in C. cbn [INR] in *. match type of C with ?L = 0 => transitivity L; [ring|exact C] end.
  - pose proof (coef_next (INR n) 1) as C. fold a in C. cbn [INR] in *. match type of C with ?L = 0 => transitivity L; [ring|exact C] end.
  - pose proof (coef_next (INR n) (S (S k))) as C. fold a in C. rewrite !S_INR in *. match type of C with ?L = 0 => transitivity L; [ring|exact C] end.
Qed.
Lemma mean_zero : forall n, (1 <= n)%nat -> RInt (fun y => P n y * w y) 0 1 = 0.
Proof.
  intros n Hn. set (a := coef al 0 (INR n)). set (N := S (S n)).
  assert (EP : forall y, P n y = sgn 0 n * pe a N y).
  { intros y. apply (jacobi_closed al 0 y Ha (Rle_refl 0) n N). unfold N. lia. }
  assert (Hp : 1 <= INR n). { apply (le_INR 1). exact Hn. }
  set (F := fun y => - sgn 0 n / (INR n * (INR n + al + 1)) * (y * (1 - y) ^ S q * pe (deriv a) N y)).
  rewrite (ftc F); [unfold F; rewrite Rminus_diag_eq; [reflexivity|] | |].
  - cbn [pow]. unfold Rdiv. ring.
  - intros x.
    assert (Q : qd (fun s _ => (1 - s) ^ S q) x 0 (- ((al + 1) * (1 - x) ^ q)) 0).
    { eapply qd_eq; [apply (qd_comp (fun s _ => s ^ S q) (fun s _ => 1 - s) (fun _ _ => 0) x 0);
        [apply pow_qd|qd_auto; reflexivity|apply qd_const]| |]; cbv beta; unfold al; ring. }
    assert (DP : qd (fun s _ => pe (deriv a) N s) x 0 (pe (deriv (deriv a)) N x) 0).
    { eapply qd_eq; [apply pe_qd| |reflexivity]. unfold N. cbn [pe].
      replace (deriv (deriv a) (S n)) with 0; [ring|]. unfold deriv, a. rewrite coef_zero by lia. ring. }
    unfold F. eapply qd_eq; [eapply qd_scale, qd_mult; [eapply qd_mult; [apply qd_fst|exact Q]|exact DP]| |]; cbv beta; [|ring].
    rewrite EP. unfold w. pose proof (ode n x) as O. cbv zeta in O. fold a N in O.
    transitivity (- sgn 0 n / (INR n * (INR n + al + 1)) * (1 - x) ^ q *
       (x * (1 - x) * pe (deriv (deriv a)) N x + (1 - (al + 2) * x) * pe (deriv a) N x)).
    { cbn [pow]. field. lra. }
    replace (x * (1 - x) * pe (deriv (deriv a)) N x + (1 - (al + 2) * x) * pe (deriv a) N x)
      with (- (INR n * (INR n + al + 1) * pe a N x)) by lra. field. lra.
  - pose proof (smooth_P n). pose proof smooth_w. smooth_tac.
Qed.

(** Multiplication with y. *)
Definition rA (n : nat) : R := (INR n + 1) * (INR n + al + 1) / ((2 * INR n + al + 1) * (2 * INR n + al + 2)).
Definition rB (n : nat) : R :=
  match n with
  | 0%nat => 1 / (al + 2)
  | _ => (1 - al * al / ((2 * INR n + al) * (2 * INR n + al + 2))) / 2
  end.
Definition rC (n : nat) : R :=
  match n with 0%nat => 0 | _ => INR n * (INR n + al) / ((2 * INR n + al) * (2 * INR n + al + 1)) end.
Lemma times_y : forall n y, y * P n y = rA n * P (S n) y + rB n * P n y + rC n * P (pred n) y.
Proof.
  intros [|n] y.
  - unfold rA, rB, rC, P, jacobi, jacobi_ab. cbn [INR pred]. cbv zeta. field. lra.
  - unfold P, jacobi. rewrite (jacobi_rec al 0 y n). cbv zeta. cbn [pred]. unfold rA, rB, rC.
    rewrite !S_INR. pose proof (INR_pos n). field. repeat split; lra.
Qed.
Lemma rA_pos : forall n, 0 < rA n.
Proof.
  intros n. unfold rA. pose proof (INR_pos n). apply Rdiv_lt_0_compat; apply Rmult_lt_0_compat; lra.
Qed.
Definition G (n m : nat) : R := RInt (fun y => P n y * P m y * w y) 0 1.
Lemma G_y : forall n m,
  rA m * G n (S m) + rB m * G n m + rC m * G n (pred m) = rA n * G (S n) m + rB n * G n m + rC n * G (pred n) m.
Proof.
  intros n m. pose proof (smooth_P) as HP. pose proof smooth_w as Hw.
  assert (L : rA m * G n (S m) + rB m * G n m + rC m * G n (pred m) = RInt (fun y => y * (P n y * P m y * w y)) 0 1).
  { rewrite (RInt_e _ (fun y => (rA m * (P n y * P (S m) y * w y) + rB m * (P n y * P m y * w y))
                                + rC m * (P n y * P (pred m) y * w y))).
    2: { intros y. pose proof (times_y m y). transitivity (P n y * (y * P m y) * w y); [ring|]. rewrite H. ring. }
    rewrite !RInt_p, !RInt_c; try reflexivity; smooth_tac; apply HP. }
  rewrite L. 
  rewrite (RInt_e _ (fun y => (rA n * (P (S n) y * P m y * w y) + rB n * (P n y * P m y * w y))
                                + rC n * (P (pred n) y * P m y * w y))).
  2: { intros y. pose proof (times_y n y). transitivity ((y * P n y) * P m y * w y); [ring|]. rewrite H. ring. }
  rewrite !RInt_p, !RInt_c; try reflexivity; smooth_tac; apply HP.
Qed.
Lemma orthogonal : forall m n, (m < n)%nat -> G n m = 0.
Proof.
  assert (Z : forall n, (0 < n)%nat -> G n 0 = 0).
  { intros n Hn. rewrite <- (mean_zero n Hn). apply RInt_e. intros y. unfold P at 2, jacobi, jacobi_ab. ring. }
  intros m. enough (H : (forall n, (m < n)%nat -> G n m = 0) /\ (forall n, (S m < n)%nat -> G n (S m) = 0)) by apply H.
  induction m as [|m [H0 H1]]; (split; [auto|]).
  - intros n Hn. pose proof (G_y n 0) as E. rewrite (Z n), (Z (S n)), (Z (pred n)) in E by lia.
    cbn [rC pred] in E. pose proof (rA_pos 0). apply (Rmult_eq_reg_l (rA 0)); lra.
  - intros n Hn. pose proof (G_y n (S m)) as E.
    rewrite (H1 n), (H1 (S n)), (H1 (pred n)) in E by lia. cbn [pred] in E. rewrite (H0 n) in E by lia.
    pose proof (rA_pos (S m)). apply (Rmult_eq_reg_l (rA (S m))); lra.
Qed.
Lemma norm : forall n, G n n = 1 / (2 * INR n + al + 1).
Proof.
  induction n as [|n IH].
  - unfold G. rewrite (RInt_e _ w) by (intros y; unfold P, jacobi, jacobi_ab; ring).
    rewrite (ftc (fun y => - (1 - y) ^ S q / (al + 1))).
    + cbn [INR pow]. replace (1 - 1) with 0 by ring. replace (1 - 0) with 1 by ring. rewrite pow1. field. lra.
    + intros x. apply (qd_ext (fun s _ => - / (al + 1) * (1 - s) ^ S q)); [intros; field; lra|].
      eapply qd_eq; [eapply qd_scale, (qd_comp (fun s _ => s ^ S q) (fun s _ => 1 - s) (fun _ _ => 0) x 0);
        [apply pow_qd|qd_auto; reflexivity|apply qd_const]| |]; cbv beta; unfold w, al; try ring.
      fold al. field. lra.
    + apply smooth_w.
  - pose proof (G_y (S n) n) as E. cbn [pred] in E.
    rewrite (orthogonal n (S n)), (orthogonal n (S (S n))) in E by lia.
    assert (X : rC n * G (S n) (pred n) = 0).
    { destruct n as [|n]; [cbn [rC]; ring|]. cbn [pred]. rewrite (orthogonal n (S (S n))) by lia. ring. }
    rewrite X, IH in E. pose proof (rA_pos n).
    apply (Rmult_eq_reg_l (rA n)); [|lra].
    replace (rA n * G (S n) (S n)) with (rC (S n) * (1 / (2 * INR n + al + 1))) by lra.
    unfold rA, rC. rewrite S_INR. pose proof (INR_pos n). field. repeat split; lra.
Qed.
Lemma jacobi_orthogonal : forall n m,
  RInt (fun y => jacobi n al y * jacobi m al y * (1 - y) ^ q) 0 1 = if Nat.eqb n m then 1 / (2 * INR n + al + 1) else 0.
Proof.
  intros n m. change (G n m = if Nat.eqb n m then 1 / (2 * INR n + al + 1) else 0).
  destruct (Nat.eqb_spec n m) as [->|H]; [apply norm|].
  assert (C : (m < n)%nat \/ (n < m)%nat) by lia. destruct C as [C|C]; [apply orthogonal, C|].
  transitivity (G m n); [|apply orthogonal, C]. apply RInt_e. intros; ring.
Qed.
End Jacobi.

(** *** Legendre polynomials *)
Lemma legendre_jacobi : forall n x, legendre n x 1 = jacobi n 0 x.
Proof.
  intros n x. enough (H : legendre n x 1 = jacobi n 0 x /\ legendre (S n) x 1 = jacobi (S n) 0 x) by apply H.
  induction n as [|n [H0 H1]].
  - split; [reflexivity|]. unfold jacobi, jacobi_ab, legendre. cbv zeta. field.
  - split; [exact H1|]. rewrite legendre_rec, H0, H1. unfold jacobi. rewrite (jacobi_rec 0 0 x n). cbv zeta.
    rewrite S_INR. pose proof (INR_pos n). field. lra.
Qed.
Lemma smooth_legendre : forall n, smooth (fun x => legendre n x 1).
Proof.
  intros n. apply (smooth_ext (jacobi n 0)); [intros; symmetry; apply legendre_jacobi|]. apply smooth_jacobi. lra.
Qed.
Lemma legendre_orthogonal : forall n m,
  RInt (fun x => legendre n x 1 * legendre m x 1) 0 1 = if Nat.eqb n m then 1 / (2 * INR n + 1) else 0.
Proof.
  intros n m. pose proof (jacobi_orthogonal 0 n m) as J. cbn [INR] in J.
  rewrite Rplus_0_r in J. rewrite <- J. apply RInt_e. intros x. rewrite !legendre_jacobi. cbn [pow]. ring.
Qed.
