(** SDIRK-2 steps. *)
From Coq Require Import Reals Lra Lia List Arith.
Import ListNotations.
From Verif Require Import Base Scalars AssembleModel ElemSpec ElemProofs3 GalerkinProofs7 LinAlg StokesProofs3 StokesProofs8 FisherSpec.
Local Open Scope R_scope.

Lemma kappa_eq : kappa ^ 2 = 2 * kappa - 1 / 2.
Proof. unfold kappa. pose proof (sqrt_sqrt 2 ltac:(lra)). nra. Qed.
Lemma kappa_bounds : 29 / 100 < kappa < 3 / 10.
Proof.
  unfold kappa. pose proof (sqrt_sqrt 2 ltac:(lra)). pose proof (sqrt_lt_R0 2 ltac:(lra)). split; nra.
Qed.

Lemma act_ext : forall n A u w i, (forall j, (j < n)%nat -> u j = w j) -> act n A u i = act n A w i.
Proof. intros n A u w i H. unfold act. apply sum_to_ext. intros j Hj. rewrite H by exact Hj. reflexivity. Qed.
Lemma act_lin : forall n A a b u w i, act n A (fun j => a * u j + b * w j) i = a * act n A u i + b * act n A w i.
Proof.
  intros n A a b u w i. unfold act. rewrite <- !sum_to_scal, <- sum_to_plus. apply sum_to_ext. intros j _. ring.
Qed.
Lemma act_plus : forall n A u w i, act n A (fun j => u j + w j) i = act n A u i + act n A w i.
Proof. intros. rewrite (act_ext n A _ (fun j => 1 * u j + 1 * w j)) by (intros; ring). rewrite act_lin. ring. Qed.
Lemma act_scal : forall n A a u i, act n A (fun j => a * u j) i = a * act n A u i.
Proof. intros. rewrite (act_ext n A _ (fun j => a * u j + 0 * u j)) by (intros; ring). rewrite act_lin. ring. Qed.
Lemma act_mat : forall n A B a b u i, act n (fun i j => a * A i j + b * B i j) u i = a * act n A u i + b * act n B u i.
Proof. intros. unfold act. rewrite <- !sum_to_scal, <- sum_to_plus. apply sum_to_ext. intros j _. ring. Qed.
Lemma act_coef : forall n A B u i, (i < n)%nat -> (forall i j, (i < n)%nat -> (j < n)%nat -> A i j = B i j) -> act n A u i = act n B u i.
Proof. intros n A B u i Hi H. unfold act. apply sum_to_ext. intros j Hj. rewrite H by assumption. reflexivity. Qed.
Lemma pairing_ext : forall n A u u' v v', (forall j, (j < n)%nat -> u j = u' j) -> (forall j, (j < n)%nat -> v j = v' j) -> pairing n A u v = pairing n A u' v'.
Proof. intros n A u u' v v' H H'. unfold pairing. apply sum_to_ext. intros j Hj. rewrite H by exact Hj. rewrite (act_ext n A v v' j H'). reflexivity. Qed.
Lemma pairing_lin_r : forall n A a b v u w, pairing n A v (fun j => a * u j + b * w j) = a * pairing n A v u + b * pairing n A v w.
Proof.
  intros. unfold pairing. rewrite <- !sum_to_scal, <- sum_to_plus. apply sum_to_ext. intros j _. rewrite act_lin. ring.
Qed.
Lemma pairing_lin_l : forall n A a b v u w, pairing n A (fun j => a * u j + b * w j) v = a * pairing n A u v + b * pairing n A w v.
Proof.
  intros. unfold pairing. rewrite <- !sum_to_scal, <- sum_to_plus. apply sum_to_ext. intros j _. ring.
Qed.
Lemma pairing_sym : forall n A u v, symmetric n A -> pairing n A u v = pairing n A v u.
Proof.
  intros n A u v SY. unfold pairing, act.
  rewrite (sum_to_ext n _ (fun i => sum_to n (fun j => u i * (A i j * v j)))) by (intros; rewrite <- sum_to_scal; reflexivity).
  rewrite (sum_to_ext n (fun i => v i * _) (fun i => sum_to n (fun j => v i * (A i j * u j)))) by (intros; rewrite <- sum_to_scal; reflexivity).
  rewrite sum_swap. apply sum_to_ext. intros i Hi. apply sum_to_ext. intros j Hj. rewrite (SY j i Hj Hi). ring.
Qed.
(** A matrix equation in the form. *)
Lemma pairing_eq : forall n M A h p q w, (forall i, (i < n)%nat -> act n M p i = h * act n A q i) -> pairing n M w p = h * pairing n A w q.
Proof.
  intros n M A h p q w H. unfold pairing. rewrite <- sum_to_scal. apply sum_to_ext. intros i Hi. rewrite H by exact Hi. ring.
Qed.
Lemma positive_nonneg : forall n M, positive_form n M -> nonnegative_form n M.
Proof.
  intros n M P u. destruct (find_nonzero n u) as [Z|(p & Hp & Nz)].
  - right. unfold pairing. symmetry. apply sum_zero. intros i Hi. rewrite Z by exact Hi. ring.
  - left. exact (P u p Hp Nz).
Qed.

(** The matrix M + s A. *)
Section Solvable.
Variables (n : nat) (M A : nat -> nat -> R).
Hypothesis PM : positive_form n M.
Hypothesis PA : nonnegative_form n A.
Lemma injective : forall s u, 0 <= s -> (forall i, (i < n)%nat -> act n M u i + s * act n A u i = 0) -> forall i, (i < n)%nat -> u i = 0.
Proof.
  intros s u Hs E i Hi. destruct (Req_dec (u i) 0) as [Z|Z]; [exact Z|exfalso].
  pose proof (PM u i Hi Z) as P. pose proof (PA u) as Q.
  assert (H : pairing n M u u + s * pairing n A u u = 0).
  { unfold pairing. rewrite <- sum_to_scal, <- sum_to_plus. apply sum_zero. intros j Hj. specialize (E j Hj).
    replace (u j * act n M u j + s * (u j * act n A u j)) with (u j * (act n M u j + s * act n A u j)) by ring. rewrite E. ring. }
  nra.
Qed.
(** Steps are unique. *)
Lemma stages_unique : forall h u k1 k2 l1 l2, 0 <= h ->
  (forall i, (i < n)%nat -> act n M k1 i = - act n A (fun j => u j + h * (kappa * k1 j)) i) ->
  (forall i, (i < n)%nat -> act n M k2 i = - act n A (fun j => u j + h * ((1 - kappa) * k1 j + kappa * k2 j)) i) ->
  (forall i, (i < n)%nat -> act n M l1 i = - act n A (fun j => u j + h * (kappa * l1 j)) i) ->
  (forall i, (i < n)%nat -> act n M l2 i = - act n A (fun j => u j + h * ((1 - kappa) * l1 j + kappa * l2 j)) i) ->
  (forall i, (i < n)%nat -> k1 i = l1 i) /\ (forall i, (i < n)%nat -> k2 i = l2 i).
Proof.
  intros h u k1 k2 l1 l2 Hh K1 K2 L1 L2. pose proof kappa_bounds as KB.
  assert (E1 : forall i, (i < n)%nat -> k1 i = l1 i).
  { intros i Hi. apply Rminus_diag_uniq.
    apply (injective (h * kappa) (fun j => k1 j - l1 j)); [nra| |exact Hi]. intros j Hj. specialize (K1 j Hj). specialize (L1 j Hj).
    rewrite act_plus, act_scal, act_scal in K1. rewrite act_plus, act_scal, act_scal in L1.
    rewrite (act_ext n M _ (fun j => 1 * k1 j + (-1) * l1 j)), (act_ext n A _ (fun j => 1 * k1 j + (-1) * l1 j)), !act_lin by (intros; ring). nra. }
  split; [exact E1|]. intros i Hi. apply Rminus_diag_uniq.
  apply (injective (h * kappa) (fun j => k2 j - l2 j)); [nra| |exact Hi]. intros j Hj. specialize (K2 j Hj). specialize (L2 j Hj).
  rewrite act_plus, act_scal, act_lin in K2. rewrite act_plus, act_scal, act_lin in L2. rewrite <- (act_ext n A k1 l1 j E1) in L2.
  rewrite (act_ext n M _ (fun j => 1 * k2 j + (-1) * l2 j)), (act_ext n A _ (fun j => 1 * k2 j + (-1) * l2 j)), !act_lin by (intros; ring). nra.
Qed.
Lemma step_unique : forall h u v w, 0 <= h -> sdirk_step n M A h u v -> sdirk_step n M A h u w -> forall i, (i < n)%nat -> v i = w i.
Proof.
  intros h u v w Hh (k1 & k2 & K1 & K2 & V) (l1 & l2 & L1 & L2 & W) i Hi.
  destruct (stages_unique h u k1 k2 l1 l2 Hh K1 K2 L1 L2) as [E1 E2]. rewrite V, W, E1, E2 by exact Hi. reflexivity.
Qed.
(** Eigenvectors. *)
Lemma step_eigenvector : forall h a u v, 0 <= h -> 0 <= h * a -> (forall i, (i < n)%nat -> act n A u i = a * act n M u i) ->
  sdirk_step n M A h u v -> forall i, (i < n)%nat -> v i = stability (h * a) * u i.
Proof.
  intros h a u v Hh Ha E ST i Hi. pose proof kappa_bounds as KB. assert (Q : 1 + kappa * (h * a) <> 0) by nra.
  apply (step_unique h u v (fun i => stability (h * a) * u i) Hh ST); [|exact Hi].
  exists (fun i => - a / (1 + kappa * (h * a)) * u i), (fun i => - (a * (1 - (1 - 2 * kappa) * (h * a))) / (1 + kappa * (h * a)) ^ 2 * u i).
  repeat split; intros j Hj.
  - rewrite act_plus, !act_scal, E by exact Hj. field. exact Q.
  - rewrite act_plus, (act_scal n A h), act_lin, !act_scal, E by exact Hj. field. exact Q.
  - unfold stability. field. exact Q.
Qed.
(** Stationary states. *)
Lemma step_stationary : forall h u v, 0 <= h -> (forall i, (i < n)%nat -> act n A u i = 0) -> sdirk_step n M A h u v -> forall i, (i < n)%nat -> v i = u i.
Proof.
  intros h u v Hh E ST i Hi. apply (step_unique h u v u Hh ST); [|exact Hi].
  exists (fun _ => 0), (fun _ => 0). repeat split; intros j Hj; [| |ring].
  - rewrite (act_ext n A _ u) by (intros; ring). rewrite E by exact Hj. unfold act. rewrite sum_zero by (intros; ring). ring.
  - rewrite (act_ext n A _ u) by (intros; ring). rewrite E by exact Hj. unfold act. rewrite sum_zero by (intros; ring). ring.
Qed.
End Solvable.

(** Conserved quantities. *)
Lemma step_conserves : forall n M A h w u v, (forall j, (j < n)%nat -> sum_to n (fun i => w i * A i j) = 0) ->
  sdirk_step n M A h u v -> pairing n M w v = pairing n M w u.
Proof.
  intros n M A h w u v W (k1 & k2 & K1 & K2 & V).
  assert (Z : forall x, sum_to n (fun i => w i * act n A x i) = 0).
  { intros x. unfold act. rewrite (sum_to_ext n _ (fun i => sum_to n (fun j => w i * (A i j * x j)))) by (intros; rewrite <- sum_to_scal; reflexivity).
    rewrite sum_swap. apply sum_zero. intros j Hj.
    rewrite (sum_to_ext n _ (fun i => x j * (w i * A i j))) by (intros; ring). rewrite sum_to_scal, W by exact Hj. ring. }
  assert (P : forall k x, (forall i, (i < n)%nat -> act n M k i = - act n A x i) -> pairing n M w k = 0).
  { intros k x H. rewrite (pairing_eq n M A (-1) k x w) by (intros i Hi; rewrite H by exact Hi; ring). unfold pairing. rewrite Z. ring. }
  rewrite (pairing_ext n M w w v (fun j => 1 * u j + h * ((1 - kappa) * k1 j + kappa * k2 j))) by (intros; try rewrite V by assumption; ring).
  rewrite pairing_lin_r, pairing_lin_r, (P k1 _ K1), (P k2 _ K2). ring.
Qed.
(** Stability in the norm of M. *)
Lemma step_energy : forall n M A h u v, symmetric n M -> nonnegative_form n M -> symmetric n A -> nonnegative_form n A -> 0 <= h ->
  sdirk_step n M A h u v -> pairing n M v v <= pairing n M u u.
Proof.
  intros n M A h u v SM PM SA PA Hh (k1 & k2 & K1 & K2 & V). pose proof kappa_bounds as KB. pose proof kappa_eq as KE.
  set (p2 := fun j => h / (1 - kappa) * (k2 j - k1 j)). set (p1 := fun j => - h * k1 j + - kappa * p2 j).
  set (p0 := fun j => 1 * (1 * u j + - (2 * kappa) * p1 j) + - kappa ^ 2 * p2 j).
  assert (E2 : forall i, (i < n)%nat -> act n M p2 i = h * act n A p1 i).
  { intros i Hi. specialize (K1 i Hi). specialize (K2 i Hi). rewrite act_plus, act_scal, act_scal in K1. rewrite act_plus, act_scal, act_lin in K2.
    unfold p1. rewrite act_lin. rewrite !(act_ext n _ p2 (fun j => h / (1 - kappa) * k2 j + - (h / (1 - kappa)) * k1 j)) by (intros; unfold p2; ring).
    rewrite !act_lin, K1, K2. field. lra. }
  assert (E1 : forall i, (i < n)%nat -> act n M p1 i = h * act n A p0 i).
  { intros i Hi. unfold p1 at 1. rewrite act_lin, E2 by exact Hi. specialize (K1 i Hi). rewrite act_plus, act_scal, act_scal in K1.
    unfold p0. rewrite !act_lin.
    assert (Q : act n A p1 i = - h * act n A k1 i + - kappa * act n A p2 i) by (unfold p1; apply act_lin).
    rewrite K1. replace (act n A p2 i) with ((- h * act n A k1 i - act n A p1 i) / kappa) by (rewrite Q; field; lra). field. lra. }
  assert (U : forall j, (j < n)%nat -> u j = 1 * (1 * p0 j + 2 * kappa * p1 j) + kappa ^ 2 * p2 j) by (intros; unfold p0; ring).
  assert (W : forall j, (j < n)%nat -> v j = 1 * p0 j + - (1 - 2 * kappa) * p1 j).
  { intros j Hj. rewrite V by exact Hj. unfold p0, p1, p2.
    field. lra. }
  rewrite (pairing_ext n M v _ v _ W W), (pairing_ext n M u _ u _ U U).
  rewrite !pairing_lin_l, !pairing_lin_r.
  rewrite (pairing_sym n M p1 p0 SM), (pairing_sym n M p2 p0 SM), (pairing_sym n M p2 p1 SM).
  rewrite (pairing_eq n M A h p1 p0 p0 E1).
  assert (X : pairing n M p0 p2 = pairing n M p1 p1).
  { rewrite (pairing_eq n M A h p2 p1 p0 E2), (pairing_eq n M A h p1 p0 p1 E1), (pairing_sym n A p0 p1 SA). reflexivity. }
  rewrite X. rewrite (pairing_eq n M A h p2 p1 p1 E2).
  pose proof (PM p1) as M1. pose proof (PM p2) as M2. pose proof (PA p0) as A0. pose proof (PA p1) as A1.
  set (a := pairing n M p0 p0). set (b := pairing n A p0 p0) in *. set (c := pairing n M p1 p1) in *. set (d := pairing n A p1 p1) in *. set (e := pairing n M p2 p2) in *.
  assert (H : 0 <= 2 * (h * b) + (8 * kappa - 2) * c + 4 * kappa ^ 3 * (h * d) + kappa ^ 4 * e).
  { assert (0 <= h * b) by nra. assert (0 <= h * d) by nra. assert (0 <= kappa ^ 3) by (apply pow_le; lra). assert (0 <= kappa ^ 4) by (apply pow_le; lra).
    assert (0 <= kappa ^ 3 * (h * d)) by (apply Rmult_le_pos; assumption). assert (0 <= kappa ^ 4 * e) by (apply Rmult_le_pos; assumption). nra. }
  assert (C2 : (8 * kappa - 2) * c = (6 * kappa ^ 2 - (1 - 2 * kappa) ^ 2) * c).
  { replace (6 * kappa ^ 2 - (1 - 2 * kappa) ^ 2) with (2 * kappa ^ 2 + 4 * kappa - 1) by ring. rewrite KE. field. }
  rewrite C2 in H. nra.
Qed.
