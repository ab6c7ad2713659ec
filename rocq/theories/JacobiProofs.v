(** Jacobi polynomials: closed form of the coefficients, derivatives, integrals. *)
From Coq Require Import Reals List Arith Lia Lra.
Import ListNotations.
From Verif Require Import Base MeshModel MeshView DofModel FeModel QuadModel HierModel Calc LagrProofs2 LegendreProofs.
Local Open Scope R_scope.

(** *** Polynomials given by coefficients *)
Fixpoint pe (a : nat -> R) (n : nat) (x : R) : R :=
  match n with 0%nat => 0 | S k => pe a k x + a k * x ^ k end.
Lemma pe_ext : forall a b n x, (forall k, (k < n)%nat -> a k = b k) -> pe a n x = pe b n x.
Proof. induction n as [|n IH]; intros x H; cbn [pe]; [reflexivity|]. rewrite IH, (H n) by auto with arith. reflexivity. Qed.
Lemma pe_zero : forall a n x, (forall k, (k < n)%nat -> a k = 0) -> pe a n x = 0.
Proof. induction n as [|n IH]; intros x H; cbn [pe]; [reflexivity|]. rewrite IH, (H n) by auto with arith. ring. Qed.
Lemma pe_scale : forall c a n x, pe (fun k => c * a k) n x = c * pe a n x.
Proof. induction n as [|n IH]; intros x; cbn [pe]; [ring|]. rewrite IH. ring. Qed.
Lemma pe_plus : forall a b n x, pe (fun k => a k + b k) n x = pe a n x + pe b n x.
Proof. induction n as [|n IH]; intros x; cbn [pe]; [ring|]. rewrite IH. ring. Qed.
Definition shift (a : nat -> R) (k : nat) : R := match k with 0%nat => 0 | S k => a k end.
Lemma pe_shift : forall a n x, pe (shift a) (S n) x = x * pe a n x.
Proof.
  induction n as [|n IH]; intros x; [cbn; ring|].
  change (pe (shift a) (S (S n)) x) with (pe (shift a) (S n) x + shift a (S n) * x ^ S n). rewrite IH. cbn [shift pe pow]. ring.
Qed.
Lemma pe_more : forall a n m x, (n <= m)%nat -> (forall k, (n <= k)%nat -> a k = 0) -> pe a m x = pe a n x.
Proof.
  intros a n m x Hm H. induction Hm as [|m Hm IH]; [reflexivity|]. cbn [pe]. rewrite IH, (H m) by exact Hm. ring.
Qed.
Lemma pe_at_0 : forall a n, pe a (S n) 0 = a 0%nat.
Proof. induction n as [|n IH]; [cbn; ring|]. change (pe a (S (S n)) 0) with (pe a (S n) 0 + a (S n) * 0 ^ S n). rewrite IH, pow_i by lia. ring. Qed.
Definition deriv (a : nat -> R) (k : nat) : R := (INR k + 1) * a (S k).
Lemma pow_qd : forall n x y, qd (fun s _ => s ^ S n) x y ((INR n + 1) * x ^ n) 0.
Proof.
  induction n as [|n IH]; intros x y.
  - apply (qd_ext (fun s _ => s)); [intros; cbn; ring|]. eapply qd_eq; [apply qd_fst| |]; cbn; ring.
  - apply (qd_ext (fun s _ => s * s ^ S n)); [intros; reflexivity|].
    eapply qd_eq; [eapply qd_mult; [apply qd_fst|apply IH]| |]; cbv beta; rewrite ?S_INR; cbn [pow]; ring.
Qed.
Lemma pe_qd : forall a n x y, qd (fun s _ => pe a (S n) s) x y (pe (deriv a) n x) 0.
Proof.
  induction n as [|n IH]; intros x y.
  - apply (qd_ext (fun _ _ => a 0%nat)); [intros; cbn; ring|]. apply qd_const.
  - apply (qd_ext (fun s _ => pe a (S n) s + a (S n) * s ^ S n)); [reflexivity|].
    eapply qd_eq; [eapply qd_plus; [apply IH|eapply qd_scale; apply pow_qd]| |]; cbv beta; cbn [pe]; unfold deriv; ring.
Qed.

(** *** Falling and rising factorials *)
Fixpoint ff (v : R) (k : nat) : R := match k with 0%nat => 1 | S j => ff v j * (v - INR j) end.
Fixpoint rf (u : R) (k : nat) : R := match k with 0%nat => 1 | S j => rf u j * (u + INR j) end.
Fixpoint den (be : R) (k : nat) : R := match k with 0%nat => 1 | S j => den be j * ((INR j + 1) * (INR j + be + 1)) end.
Lemma ff_left : forall v k, ff v (S k) = v * ff (v - 1) k.
Proof.
  intros v. induction k as [|k IH]; [cbn; ring|].
  change (ff v (S (S k))) with (ff v (S k) * (v - INR (S k))). rewrite IH, S_INR. cbn [ff]. ring.
Qed.
Lemma rf_left : forall u k, rf u (S k) = u * rf (u + 1) k.
Proof.
  intros u. induction k as [|k IH]; [cbn; ring|].
  change (rf u (S (S k))) with (rf u (S k) * (u + INR (S k))). rewrite IH, S_INR. cbn [rf]. ring.
Qed.
Lemma ff_zero : forall n k, (n < k)%nat -> ff (INR n) k = 0.
Proof.
  intros n k H. induction H as [|k H IH]; cbn [ff]; [ring|]. rewrite IH. ring.
Qed.
Lemma den_pos : forall be k, 0 <= be -> 0 < den be k.
Proof.
  intros be k Hb. induction k as [|k IH]; cbn [den]; [lra|]. pose proof (INR_pos k).
  apply Rmult_lt_0_compat; [exact IH|]. apply Rmult_lt_0_compat; lra.
Qed.

(** Coefficient of x^k, up to a factor [sgn]. *)
Definition coef (al be v : R) (k : nat) : R :=
  (-1) ^ k * ff v k * rf (v + (al + be + 1)) k / den be k.
Fixpoint sgn (be : R) (n : nat) : R :=
  match n with 0%nat => 1 | S j => - (INR j + 1 + be) / (INR j + 1) * sgn be j end.
(** Everything a coefficient identity needs, in terms of one common factor. *)
Lemma coef_common : forall al be v k, 0 <= be -> exists g,
  coef al be (v + 1) (S (S k)) = g * ((v + 1) * v) * ((v + al + be + 2 + INR k) * (v + al + be + 3 + INR k))
     / ((INR k + 1) * (INR k + be + 1) * ((INR k + 2) * (INR k + be + 2))) /\
  coef al be v (S (S k)) = g * (v * (v - 1 - INR k)) * ((v + al + be + 1) * (v + al + be + 2 + INR k))
     / ((INR k + 1) * (INR k + be + 1) * ((INR k + 2) * (INR k + be + 2))) /\
  coef al be (v - 1) (S (S k)) = g * ((v - 1 - INR k) * (v - 2 - INR k)) * ((v + al + be) * (v + al + be + 1))
     / ((INR k + 1) * (INR k + be + 1) * ((INR k + 2) * (INR k + be + 2))) /\
  coef al be v (S k) = - g * v * (v + al + be + 1) / ((INR k + 1) * (INR k + be + 1)).
Proof.
  intros al be v k Hb. pose proof (den_pos be k Hb) as Dp. pose proof (INR_pos k) as Hk.
  exists ((-1) ^ k * ff (v - 1) k * rf (v + al + be + 2) k / den be k).
  unfold coef. cbn [den pow]. rewrite !S_INR.
  assert (F1 : ff (v + 1) (S (S k)) = (v + 1) * v * ff (v - 1) k).
  { rewrite ff_left. replace (v + 1 - 1) with v by ring. rewrite ff_left. ring. }
  assert (F2 : ff v (S k) = v * ff (v - 1) k) by apply ff_left.
  assert (F3 : ff v (S (S k)) = v * (v - 1 - INR k) * ff (v - 1) k).
  { change (ff v (S (S k))) with (ff v (S k) * (v - INR (S k))). rewrite F2, S_INR. ring. }
  assert (F4 : ff (v - 1) (S (S k)) = (v - 1 - INR k) * (v - 2 - INR k) * ff (v - 1) k).
  { change (ff (v - 1) (S (S k))) with (ff (v - 1) k * (v - 1 - INR k) * (v - 1 - INR (S k))). rewrite S_INR. ring. }
  assert (R1 : rf (v + 1 + (al + be + 1)) (S (S k)) = (v + al + be + 2 + INR k) * (v + al + be + 3 + INR k) * rf (v + al + be + 2) k).
  { replace (v + 1 + (al + be + 1)) with (v + al + be + 2) by ring. cbn [rf]. rewrite ?S_INR. ring_simplify.
    replace (INR (S k)) with (INR k + 1) by (rewrite S_INR; reflexivity). ring. }
  assert (R2 : rf (v + (al + be + 1)) (S k) = (v + al + be + 1) * rf (v + al + be + 2) k).
  { rewrite rf_left. replace (v + (al + be + 1) + 1) with (v + al + be + 2) by ring. ring. }
  assert (R3 : rf (v + (al + be + 1)) (S (S k)) = (v + al + be + 1) * (v + al + be + 2 + INR k) * rf (v + al + be + 2) k).
  { change (rf (v + (al + be + 1)) (S (S k))) with (rf (v + (al + be + 1)) (S k) * (v + (al + be + 1) + INR (S k))).
    rewrite R2, S_INR. ring. }
  assert (R4 : rf (v - 1 + (al + be + 1)) (S (S k)) = (v + al + be) * (v + al + be + 1) * rf (v + al + be + 2) k).
  { rewrite !rf_left. replace (v - 1 + (al + be + 1) + 1 + 1) with (v + al + be + 2) by ring. ring. }
  rewrite F1, F2, F3, F4, R1, R2, R3, R4. repeat split; field; repeat split; try lra.
Qed.

Lemma coef_rec : forall al be v k, 0 <= al -> 0 <= be -> 1 <= v ->
  let A1 := 2 * (v + 1) * (v + al + be + 1) * (2 * v + al + be) in
  let A2 := (2 * v + al + be + 1) * (al * al - be * be) in
  let A3 := (2 * v + al + be) * (2 * v + al + be + 1) * (2 * v + al + be + 2) in
  let A4 := 2 * (v + al) * (v + be) * (2 * v + al + be + 2) in
  A1 * (- (v + 1 + be) / (v + 1)) * coef al be (v + 1) k =
  (A2 - A3) * coef al be v k + 2 * A3 * shift (coef al be v) k + A4 * (v / (v + be)) * coef al be (v - 1) k.
Proof.
  intros al be v k Ha Hb Hv A1 A2 A3 A4. unfold A1, A2, A3, A4.
  destruct k as [|[|k]].
  - unfold coef, shift. cbn [pow ff rf den]. field. lra.
  - unfold coef, shift. cbn [pow ff rf den INR]. field. lra.
  - destruct (coef_common al be v k Hb) as (g & E1 & E2 & E3 & E4). cbn [shift]. rewrite E1, E2, E3, E4.
    pose proof (INR_pos k). field. repeat split; lra.
Qed.

(** *** The closed form *)
Definition jform (al be : R) (n N : nat) (x : R) : R := sgn be n * pe (coef al be (INR n)) N x.
Lemma coef_zero : forall al be n k, (n < k)%nat -> coef al be (INR n) k = 0.
Proof. intros. unfold coef. rewrite ff_zero by assumption. unfold Rdiv. ring. Qed.
Lemma jform_more : forall al be n N M x, (n < N)%nat -> (N <= M)%nat -> jform al be n M x = jform al be n N x.
Proof. intros. unfold jform. rewrite (pe_more _ N M); auto. intros k Hk. apply coef_zero. lia. Qed.
Lemma jform_rec : forall al be j N x, 0 <= al -> 0 <= be -> (S (S j) < N)%nat ->
  let v := INR (S j) in
  let A1 := 2 * (v + 1) * (v + al + be + 1) * (2 * v + al + be) in
  let A2 := (2 * v + al + be + 1) * (al * al - be * be) in
  let A3 := (2 * v + al + be) * (2 * v + al + be + 1) * (2 * v + al + be + 2) in
  let A4 := 2 * (v + al) * (v + be) * (2 * v + al + be + 2) in
  A1 * jform al be (S (S j)) N x = (A2 + A3 * (2 * x - 1)) * jform al be (S j) N x - A4 * jform al be j N x.
Proof.
  intros al be j N x Ha Hb HN v A1 A2 A3 A4.
  assert (Hv : 1 <= v). { unfold v. rewrite S_INR. pose proof (INR_pos j). lra. }
  set (s := sgn be (S j)).
  assert (S2 : sgn be (S (S j)) = - (v + 1 + be) / (v + 1) * s) by reflexivity.
  assert (S0 : sgn be j = - (v / (v + be)) * s).
  { unfold s. cbn [sgn]. unfold v. rewrite S_INR. pose proof (INR_pos j). field. lra. }
  rewrite <- (jform_more al be (S (S j)) N (S N)) by lia.
  rewrite <- (jform_more al be (S j) N (S N)) at 1 by lia.
  rewrite <- (jform_more al be j N (S N)) by lia.
  assert (V2 : INR (S (S j)) = v + 1) by (unfold v; rewrite (S_INR (S j)); reflexivity).
  assert (V0 : INR j = v - 1) by (unfold v; rewrite S_INR; ring).
  unfold jform. rewrite S2, S0, V2, V0. fold v s.
  assert (X : x * pe (coef al be v) (S N) x = pe (shift (coef al be v)) (S N) x).
  { rewrite pe_shift. f_equal. apply pe_more; [lia|]. intros k Hk. unfold v. apply coef_zero. lia. }
  transitivity (s * pe (fun k => A1 * (- (v + 1 + be) / (v + 1)) * coef al be (v + 1) k) (S N) x).
  { rewrite pe_scale. ring. }
  rewrite (pe_ext _ (fun k => ((A2 - A3) * coef al be v k + 2 * A3 * shift (coef al be v) k) + A4 * (v / (v + be)) * coef al be (v - 1) k)).
  2: { intros k _. apply coef_rec; auto. }
  rewrite !pe_plus, !pe_scale, <- X. ring.
Qed.

Section Jacobi.
Variables al be x : R.
Hypothesis Ha : 0 <= al.
Hypothesis Hb : 0 <= be.
Let z := 2 * x - 1.
Let P n := jacobi_ab n al be x.
Lemma jacobi_fold : forall k,
  fold_left (jacobi_step al be z) (seq 1 k) (1, 1 / 2 * (al - be + z * (al + be + 2))) = (P k, P (S k)).
Proof.
  assert (G : forall k, snd (fold_left (jacobi_step al be z) (seq 1 k) (1, 1 / 2 * (al - be + z * (al + be + 2)))) = P (S k)).
  { intros [|k]; [reflexivity|]. unfold P, jacobi_ab. rewrite Nat.sub_succ, Nat.sub_0_r. reflexivity. }
  intros k. rewrite (surjective_pairing (fold_left _ _ _)). f_equal; [|apply G].
  destruct k as [|k]; [reflexivity|]. rewrite seq_S, fold_left_app. cbn [fold_left].
  unfold jacobi_step at 1. cbn [fst]. apply G.
Qed.
Lemma jacobi_rec : forall n,
  let v := INR (S n) in
  let A1 := 2 * (v + 1) * (v + al + be + 1) * (2 * v + al + be) in
  let A2 := (2 * v + al + be + 1) * (al * al - be * be) in
  let A3 := (2 * v + al + be) * (2 * v + al + be + 1) * (2 * v + al + be + 2) in
  let A4 := 2 * (v + al) * (v + be) * (2 * v + al + be + 2) in
  P (S (S n)) = 1 / A1 * ((A2 + A3 * (2 * x - 1)) * P (S n) - A4 * P n).
Proof.
  intros n v A1 A2 A3 A4. pose proof (jacobi_fold (S n)) as H. rewrite seq_S, fold_left_app, jacobi_fold in H.
  cbn [fold_left] in H. unfold jacobi_step in H. cbn [fst snd Nat.add] in H. apply (f_equal snd) in H. cbn [snd] in H.
  rewrite <- H. reflexivity.
Qed.
Lemma A1_pos : forall n, let v := INR (S n) in 0 < 2 * (v + 1) * (v + al + be + 1) * (2 * v + al + be).
Proof.
  intros n v. unfold v. rewrite S_INR. pose proof (INR_pos n).
  repeat apply Rmult_lt_0_compat; lra.
Qed.
Lemma jacobi_closed : forall n N, (n < N)%nat -> P n = jform al be n N x.
Proof.
  assert (G : forall n, P n = jform al be n (S n) x /\ P (S n) = jform al be (S n) (S (S n)) x).
  { induction n as [|n [H0 H1]].
    - split; unfold jform, coef; cbn [sgn pe INR pow ff rf den]; unfold P, jacobi_ab; field; try lra.
    - split; [exact H1|]. rewrite jacobi_rec. pose proof (A1_pos n) as Ap. cbv zeta in *.
      pose proof (jform_rec al be n (S (S (S n))) x Ha Hb ltac:(lia)) as J. cbv zeta in J.
      rewrite H1, H0. rewrite (jform_more al be (S n) (S (S n)) (S (S (S n)))) in J by lia.
      rewrite (jform_more al be n (S n) (S (S (S n)))) in J by lia. rewrite <- J. field.
      rewrite S_INR in *. pose proof (INR_pos n). repeat split; lra. }
  intros n N HN. destruct (G n) as [H _]. rewrite H. symmetry. apply jform_more; lia.
Qed.
End Jacobi.

(** *** Derivatives *)
Lemma pe_0 : forall a x, pe a 0 x = 0. Proof. reflexivity. Qed.
Lemma sgn_0 : forall n, sgn 0 n = (-1) ^ n.
Proof. induction n as [|n IH]; cbn [sgn pow]; [reflexivity|]. rewrite IH. pose proof (INR_pos n). field. lra. Qed.
Lemma sgn_1 : forall n, sgn 1 n = (-1) ^ n * (INR n + 1).
Proof. induction n as [|n IH]; [cbn; ring|]. cbn [sgn pow]. rewrite IH, S_INR. pose proof (INR_pos n). field. lra. Qed.
Lemma den_01 : forall k, den 0 (S k) = (INR k + 1) * den 1 k.
Proof.
  induction k as [|k IH]; [cbn; ring|].
  change (den 0 (S (S k))) with (den 0 (S k) * ((INR (S k) + 1) * (INR (S k) + 0 + 1))). rewrite IH.
  cbn [den]. rewrite S_INR. ring.
Qed.
Lemma jacobi_qd : forall n al x y, 0 <= al -> qd (fun s _ => jacobi n al s) x y (jacobi_dx n al x) 0.
Proof.
  intros n al x y Ha. unfold jacobi.
  apply (qd_ext (fun s _ => sgn 0 n * pe (coef al 0 (INR n)) (S n) s)).
  { intros s _. symmetry. apply (jacobi_closed al 0 s Ha (Rle_refl 0) n (S n)). lia. }
  eapply qd_eq; [eapply qd_scale; apply pe_qd| |]; cbv beta; [|ring].
  unfold jacobi_dx. destruct n as [|n]; [cbn; ring|]. cbn [Nat.eqb Nat.sub]. rewrite Nat.sub_0_r.
  rewrite (jacobi_closed (al + 1) 1 x ltac:(lra) ltac:(lra) n (S n)) by lia.
  unfold jform. rewrite sgn_0, sgn_1.
  transitivity ((-1) ^ n * pe (fun k => ((INR n + 1) * (al + INR (S n) + 1)) * coef (al + 1) 1 (INR n) k) (S n) x).
  2: { rewrite pe_scale, S_INR. ring. }
  cbn [pow]. rewrite <- (pe_scale (-1 * (-1) ^ n)), <- (pe_scale ((-1) ^ n)). apply pe_ext. intros k _.
  unfold deriv, coef. rewrite ff_left, rf_left, den_01, S_INR.
  replace (INR n + 1 - 1) with (INR n) by ring.
  replace (INR n + 1 + (al + 0 + 1) + 1) with (INR n + (al + 1 + 1 + 1)) by ring.
  pose proof (den_pos 1 k ltac:(lra)). pose proof (INR_pos k). cbn [pow]. field. lra.
Qed.

(** The integral. *)
Lemma ijacobi_next_step : forall al x n pm1 p,
  ijacobi_next al x (INR n + 1) pm1 p = snd (jacobi_step al 0 (2 * x - 1) (pm1, p) n) \/ 0 > al \/ n = 0%nat.
Proof.
  intros al x n pm1 p. destruct n as [|n]; [auto|]. destruct (Rle_lt_dec 0 al) as [Ha|Ha]; [|right; left; lra].
  left. unfold ijacobi_next, jacobi_step. cbn [fst snd]. rewrite S_INR. pose proof (INR_pos n). field.
  repeat split; lra.
Qed.
Lemma ijacobi_fold : forall al x k, 0 <= al ->
  fold_left (ijacobi_step al x) (seq 2 k) (1, (2 + al) * x - 1, ijacobi_next al x 2 1 ((2 + al) * x - 1)) =
  (jacobi k al x, jacobi (S k) al x, jacobi (S (S k)) al x).
Proof.
  intros al x k Ha.
  assert (N : forall n, ijacobi_next al x (INR (S n) + 1) (jacobi n al x) (jacobi (S n) al x) = jacobi (S (S n)) al x).
  { intros n. destruct (ijacobi_next_step al x (S n) (jacobi n al x) (jacobi (S n) al x)) as [E|[E|E]]; [|lra|discriminate].
    rewrite E. unfold jacobi. rewrite (jacobi_rec al 0 x n). reflexivity. }
  induction k as [|k IH].
  - cbn [seq fold_left]. f_equal; [f_equal|].
    + unfold jacobi, jacobi_ab. field.
    + rewrite <- N. replace (INR 1 + 1) with 2 by (cbn; ring).
      replace (jacobi 1 al x) with ((2 + al) * x - 1) by (unfold jacobi, jacobi_ab; cbv zeta; field). reflexivity.
  - rewrite seq_S, fold_left_app, IH. cbn [fold_left]. unfold ijacobi_step. f_equal.
    change (2 + k)%nat with (S (S k)). apply N.
Qed.
Definition ia (n al : R) : R := (n + al) / ((2 * n + al - 1) * (2 * n + al)).
Definition ib (n al : R) : R := al / ((2 * n + al - 2) * (2 * n + al)).
Definition ic (n al : R) : R := (n - 1) / ((2 * n + al - 2) * (2 * n + al - 1)).
Lemma ijacobi_SS : forall n al x, 0 <= al -> let v := INR (S (S n)) in
  ijacobi (S (S n)) al x = ia v al * jacobi (S (S n)) al x + ib v al * jacobi (S n) al x - ic v al * jacobi n al x.
Proof.
  intros n al x Ha v. unfold ijacobi. cbn [Nat.sub]. rewrite Nat.sub_0_r, ijacobi_fold by exact Ha. reflexivity.
Qed.
Definition icoef (n : nat) (al : R) (k : nat) : R :=
  let v := INR (S (S n)) in
  ia v al * (sgn 0 (S (S n)) * coef al 0 (INR (S (S n))) k) + ib v al * (sgn 0 (S n) * coef al 0 (INR (S n)) k)
  + - ic v al * (sgn 0 n * coef al 0 (INR n) k).
Lemma ijacobi_closed : forall n N al x, 0 <= al -> (S (S n) < N)%nat ->
  ijacobi (S (S n)) al x = pe (icoef n al) N x.
Proof.
  intros n N al x Ha HN. rewrite (ijacobi_SS n al x Ha). unfold jacobi, icoef. cbv zeta.
  rewrite (jacobi_closed al 0 x Ha (Rle_refl 0) (S (S n)) N) by lia.
  rewrite (jacobi_closed al 0 x Ha (Rle_refl 0) (S n) N) by lia.
  rewrite (jacobi_closed al 0 x Ha (Rle_refl 0) n N) by lia.
  rewrite !pe_plus, !pe_scale. unfold jform. ring.
Qed.
Lemma icoef_deriv : forall n al k, 0 <= al -> deriv (icoef n al) k = sgn 0 (S n) * coef al 0 (INR (S n)) k.
Proof.
  intros n al k Ha. unfold deriv, icoef, ia, ib, ic. cbv zeta. rewrite !sgn_0.
  replace (INR (S (S n))) with (INR (S n) + 1) by (rewrite (S_INR (S n)); reflexivity).
  replace (INR n) with (INR (S n) - 1) by (rewrite S_INR; ring).
  assert (Hv : 1 <= INR (S n)). { rewrite S_INR. pose proof (INR_pos n). lra. }
  set (v := INR (S n)) in *. cbn [pow].
  destruct k as [|k].
  - unfold coef. cbn [pow ff rf den INR]. field. repeat split; lra.
  - destruct (coef_common al 0 v k (Rle_refl 0)) as (g & E1 & E2 & E3 & E4). rewrite E1, E2, E3, E4.
    rewrite S_INR. pose proof (INR_pos k). field. repeat split; lra.
Qed.
Lemma ijacobi_qd : forall n al x y, 0 <= al -> (1 <= n)%nat ->
  qd (fun s _ => ijacobi n al s) x y (ijacobi_dx n al x) 0.
Proof.
  intros n al x y Ha Hn. destruct n as [|[|n]]; [lia| |].
  - apply (qd_ext (fun s _ => s)); [reflexivity|]. apply qd_fst.
  - apply (qd_ext (fun s _ => pe (icoef n al) (S (S (S n))) s)).
    { intros s _. symmetry. apply ijacobi_closed; auto. }
    eapply qd_eq; [apply pe_qd| |reflexivity]. unfold ijacobi_dx, jacobi. cbn [Nat.sub].
    rewrite (jacobi_closed al 0 x Ha (Rle_refl 0) (S n) (S (S n))) by lia. unfold jform.
    rewrite <- pe_scale. apply pe_ext. intros k _. apply icoef_deriv, Ha.
Qed.
Lemma ijacobi_at_0 : forall n al, 0 <= al -> (1 <= n)%nat -> ijacobi n al 0 = 0.
Proof.
  intros n al Ha Hn. destruct n as [|[|n]]; [lia|reflexivity|].
  rewrite (ijacobi_closed n (S (S (S n))) al 0 Ha) by lia. rewrite pe_at_0.
  unfold icoef, ia, ib, ic, coef. cbv zeta. rewrite !sgn_0. cbn [pow ff rf den].
  rewrite !S_INR. pose proof (INR_pos n). field. repeat split; lra.
Qed.
