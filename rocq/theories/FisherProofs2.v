(** The stability function; logistic growth. *)
From Coq Require Import Reals Lra Lia List Arith.
Import ListNotations.
From Verif Require Import Base ElemSpec FisherSpec FisherProofs.
Local Open Scope R_scope.

(** * Functions with nonnegative derivatives *)
Lemma increasing_from : forall f f' a b, a <= b -> (forall x, a <= x <= b -> derivable_pt_lim f x (f' x)) -> (forall x, a <= x <= b -> 0 <= f' x) -> f a <= f b.
Proof.
  intros f f' a b L D P. destruct (Req_dec a b) as [->|Ne]; [lra|].
  destruct (MVT_cor2 f f' a b ltac:(lra) ltac:(intros c Hc; apply D; exact Hc)) as (c & E & Hc).
  pose proof (P c ltac:(lra)). nra.
Qed.
Lemma deriv_eq : forall f g x l l', (forall s, f s = g s) -> l = l' -> derivable_pt_lim f x l -> derivable_pt_lim g x l'.
Proof. intros f g x l l' E -> D e He. destruct (D e He) as (d & H). exists d. intros h Hh Hd. rewrite <- !E. exact (H h Hh Hd). Qed.
Lemma exp_deriv : forall a x, derivable_pt_lim (fun s => exp (a * s)) x (a * exp (a * x)).
Proof.
  intros a x. replace (a * exp (a * x)) with (exp (a * x) * a) by ring.
  apply (derivable_pt_lim_comp (fun s => a * s) exp x a (exp (a * x))); [|apply derivable_pt_lim_exp].
  apply (deriv_eq (mult_real_fct a id) _ x (a * 1)); [reflexivity|ring|]. apply (derivable_pt_lim_scal id a x 1). apply derivable_pt_lim_id.
Qed.

Lemma exp_upper : forall z, 0 <= z -> exp (- z) <= 1 - z + z ^ 2 / 2.
Proof.
  assert (E0 : forall x, 0 <= x -> 1 - x <= exp (- x)).
  { intros x _. destruct (Req_dec x 0) as [->|N]; [rewrite Ropp_0, exp_0; lra|]. pose proof (exp_ineq1 (- x) ltac:(lra)). lra. }
  intros z Hz.
  assert (H : 1 - 0 + 0 ^ 2 / 2 - exp (-1 * 0) <= 1 - z + z ^ 2 / 2 - exp (-1 * z)).
  { apply (increasing_from (fun x => 1 - x + x ^ 2 / 2 - exp (-1 * x)) (fun x => - 1 + x - -1 * exp (-1 * x)) 0 z Hz).
    - intros x _. apply (derivable_pt_lim_minus (fun x => 1 - x + x ^ 2 / 2) (fun x => exp (-1 * x)) x (- 1 + x) (-1 * exp (-1 * x))); [|apply exp_deriv].
      apply (derivable_pt_lim_plus (fun x => 1 - x) (fun x => x ^ 2 / 2) x (- 1) x).
      + replace (- 1) with (0 - 1) by ring. apply (derivable_pt_lim_minus (fct_cte 1) id x 0 1); [apply derivable_pt_lim_const|apply derivable_pt_lim_id].
      + apply (deriv_eq (fun s => / 2 * s ^ 2) _ x (/ 2 * (INR 2 * x ^ 1))); [intros; field|cbn; field|].
        apply (derivable_pt_lim_scal (fun s => s ^ 2) (/ 2) x). apply (derivable_pt_lim_pow x 2).
    - intros x Hx. pose proof (E0 x ltac:(lra)) as Q. replace (-1 * x) with (- x) by ring. lra. }
  replace (-1 * 0) with 0 in H by ring. rewrite exp_0 in H. replace (-1 * z) with (- z) in H by ring. lra.
Qed.
Lemma exp_lower : forall z, 0 <= z -> 1 - z + z ^ 2 / 2 - z ^ 3 / 6 <= exp (- z).
Proof.
  intros z Hz.
  assert (H : exp (-1 * 0) - (1 - 0 + 0 ^ 2 / 2 - 0 ^ 3 / 6) <= exp (-1 * z) - (1 - z + z ^ 2 / 2 - z ^ 3 / 6)).
  { apply (increasing_from (fun x => exp (-1 * x) - (1 - x + x ^ 2 / 2 - x ^ 3 / 6)) (fun x => -1 * exp (-1 * x) - (- 1 + x - x ^ 2 / 2)) 0 z Hz).
    - intros x _. apply (derivable_pt_lim_minus (fun x => exp (-1 * x)) (fun x => 1 - x + x ^ 2 / 2 - x ^ 3 / 6) x (-1 * exp (-1 * x)) (- 1 + x - x ^ 2 / 2)); [apply exp_deriv|].
      apply (derivable_pt_lim_minus (fun x => 1 - x + x ^ 2 / 2) (fun x => x ^ 3 / 6) x (- 1 + x) (x ^ 2 / 2)).
      + apply (derivable_pt_lim_plus (fun x => 1 - x) (fun x => x ^ 2 / 2) x (- 1) x).
        * replace (- 1) with (0 - 1) by ring. apply (derivable_pt_lim_minus (fct_cte 1) id x 0 1); [apply derivable_pt_lim_const|apply derivable_pt_lim_id].
        * apply (deriv_eq (fun s => / 2 * s ^ 2) _ x (/ 2 * (INR 2 * x ^ 1))); [intros; field|cbn; field|].
          apply (derivable_pt_lim_scal (fun s => s ^ 2) (/ 2) x). apply (derivable_pt_lim_pow x 2).
      + apply (deriv_eq (fun s => / 6 * s ^ 3) _ x (/ 6 * (INR 3 * x ^ 2))); [intros; field|cbn; field|].
        apply (derivable_pt_lim_scal (fun s => s ^ 3) (/ 6) x). apply (derivable_pt_lim_pow x 3).
    - intros x Hx. pose proof (exp_upper x ltac:(lra)) as Q. replace (-1 * x) with (- x) by ring. lra. }
  replace (-1 * 0) with 0 in H by ring. rewrite exp_0 in H. replace (-1 * z) with (- z) in H by ring. lra.
Qed.

(** * The stability function *)
Lemma div_bound : forall a b c, 0 < b -> a <= c * b -> a / b <= c.
Proof. intros a b c Hb H. apply Rmult_le_reg_r with b; [exact Hb|]. unfold Rdiv. rewrite Rmult_assoc, Rinv_l by lra. lra. Qed.
Lemma div_bound' : forall a b c, 0 < b -> c * b <= a -> c <= a / b.
Proof. intros a b c Hb H. apply Rmult_le_reg_r with b; [exact Hb|]. unfold Rdiv. rewrite Rmult_assoc, Rinv_l by lra. lra. Qed.
Lemma stability_bound : forall z, 0 <= z -> Rabs (stability z) <= 1.
Proof.
  intros z Hz. pose proof kappa_bounds. pose proof kappa_eq. assert (P : 0 < (1 + kappa * z) ^ 2) by (apply pow_lt; nra).
  apply Rabs_le. split; [apply div_bound'|apply div_bound]; try exact P; nra.
Qed.
Lemma stability_decay : forall z, 0 <= z -> Rabs (stability z) <= 2 / (1 + kappa * z).
Proof.
  intros z Hz. pose proof kappa_bounds. assert (Q : 0 < 1 + kappa * z) by nra. assert (P : 0 < (1 + kappa * z) ^ 2) by (apply pow_lt; exact Q).
  assert (E : 2 / (1 + kappa * z) * (1 + kappa * z) ^ 2 = 2 * (1 + kappa * z)) by (field; lra).
  apply Rabs_le. split; [apply div_bound'|apply div_bound]; try exact P; [|rewrite E; nra].
  replace (- (2 / (1 + kappa * z)) * (1 + kappa * z) ^ 2) with (- (2 * (1 + kappa * z))) by (field; lra). nra.
Qed.
Lemma stability_accuracy : forall z, 0 <= z -> Rabs (stability z - exp (- z)) <= z ^ 3.
Proof.
  intros z Hz. pose proof kappa_bounds as KB. pose proof kappa_eq as KE. assert (Q : 0 < 1 + kappa * z) by nra. assert (P : 0 < (1 + kappa * z) ^ 2) by (apply pow_lt; exact Q).
  pose proof (exp_upper z Hz) as EU. pose proof (exp_lower z Hz) as EL.
  assert (D : stability z = 1 - z + z ^ 2 / 2 - z ^ 3 * ((kappa - kappa ^ 2 + kappa ^ 2 / 2 * z) / (1 + kappa * z) ^ 2)).
  { unfold stability. apply Rmult_eq_reg_r with ((1 + kappa * z) ^ 2); [|lra]. unfold Rdiv at 1. rewrite Rmult_assoc, Rinv_l, Rmult_1_r by lra.
    apply Rminus_diag_uniq.
    transitivity (- (kappa ^ 2 - (2 * kappa - 1 / 2)) * z ^ 2); [field; lra|rewrite KE; ring]. }
  assert (B0 : 0 <= (kappa - kappa ^ 2 + kappa ^ 2 / 2 * z) / (1 + kappa * z) ^ 2).
  { apply div_bound'; [exact P|]. nra. }
  assert (B1 : (kappa - kappa ^ 2 + kappa ^ 2 / 2 * z) / (1 + kappa * z) ^ 2 <= 1 / 2).
  { apply div_bound; [exact P|]. nra. }
  set (c := (kappa - kappa ^ 2 + kappa ^ 2 / 2 * z) / (1 + kappa * z) ^ 2) in *.
  assert (Z3 : 0 <= z ^ 3) by (apply pow_le; exact Hz).
  assert (0 <= z ^ 3 * c) by (apply Rmult_le_pos; assumption). assert (z ^ 3 * c <= z ^ 3 * (1 / 2)) by (apply Rmult_le_compat_l; assumption).
  apply Rabs_le. rewrite D. split; lra.
Qed.

(** * Logistic growth *)
Definition logistic (K lambda u t : R) : R := u * K / (u + (K - u) * exp (- lambda * t)).
Lemma logistic_den : forall K lambda u t, 0 < K -> 0 <= u -> 0 <= lambda * t \/ u <= K -> 0 < u + (K - u) * exp (- lambda * t).
Proof.
  intros K lambda u t HK Hu C. pose proof (exp_pos (- lambda * t)) as E. destruct (Rle_dec u K) as [L|L].
  - destruct (Req_dec u K) as [->|N]; [lra|]. assert (0 < (K - u) * exp (- lambda * t)) by (apply Rmult_lt_0_compat; lra). lra.
  - destruct C as [C|C]; [|lra].
    assert (exp (- lambda * t) <= 1) by (rewrite <- exp_0; destruct (Req_dec (lambda * t) 0) as [Z|Z]; [right; f_equal; lra|left; apply exp_increasing; nra]). nra.
Qed.
Lemma logistic_derivative : forall K lambda u s, K <> 0 -> u + (K - u) * exp (- lambda * s) <> 0 ->
  derivable_pt_lim (logistic K lambda u) s (lambda * logistic K lambda u s * (1 - logistic K lambda u s / K)).
Proof.
  intros K lambda u s HK Hd.
  apply (deriv_eq (div_fct (fct_cte (u * K)) (fun t => u + (K - u) * exp (- lambda * t))) _ s
    ((0 * (u + (K - u) * exp (- lambda * s)) - ((K - u) * (- lambda * exp (- lambda * s))) * (u * K)) / Rsqr (u + (K - u) * exp (- lambda * s)))).
  - intros t. reflexivity.
  - unfold logistic, Rsqr. field. split; assumption.
  - apply (derivable_pt_lim_div (fct_cte (u * K)) (fun t => u + (K - u) * exp (- lambda * t)) s 0); [apply derivable_pt_lim_const| |exact Hd].
    replace ((K - u) * (- lambda * exp (- lambda * s))) with (0 + (K - u) * (- lambda * exp (- lambda * s))) by ring.
    apply (derivable_pt_lim_plus (fct_cte u) (fun t => (K - u) * exp (- lambda * t)) s); [apply derivable_pt_lim_const|].
    apply (derivable_pt_lim_scal (fun t => exp (- lambda * t)) (K - u) s). apply exp_deriv.
Qed.
Lemma logistic_start : forall K lambda u, K <> 0 -> logistic K lambda u 0 = u.
Proof. intros K lambda u HK. unfold logistic. rewrite Rmult_0_r, exp_0. field. replace (u + (K - u)) with K by ring. exact HK. Qed.
Lemma logistic_solves : forall K lambda t u, 0 < K -> 0 <= u -> 0 <= t -> 0 <= lambda \/ u <= K -> logistic_flow K lambda t u (logistic K lambda u t).
Proof.
  intros K lambda t u HK Hu Ht C. exists (logistic K lambda u). split; [apply logistic_start; lra|]. split; [reflexivity|].
  intros s Hs. apply logistic_derivative; [lra|]. assert (0 < u + (K - u) * exp (- lambda * s)); [|lra]. apply logistic_den; try assumption.
  destruct C as [C|C]; [left; apply Rmult_le_pos; lra|right; exact C].
Qed.
Lemma logistic_nonneg : forall K lambda t u, 0 < K -> 0 <= u -> 0 <= lambda * t \/ u <= K -> 0 <= logistic K lambda u t.
Proof.
  intros K lambda t u HK Hu C. pose proof (logistic_den K lambda u t HK Hu C) as D. unfold logistic. apply div_bound'; [exact D|]. nra.
Qed.
Lemma logistic_below : forall K lambda t u, 0 < K -> 0 <= u <= K -> logistic K lambda u t <= K.
Proof.
  intros K lambda t u HK Hu. pose proof (logistic_den K lambda u t HK (proj1 Hu) (or_intror (proj2 Hu))) as D. unfold logistic. apply div_bound; [exact D|].
  pose proof (exp_pos (- lambda * t)). assert (0 <= (K - u) * exp (- lambda * t)) by (apply Rmult_le_pos; lra). nra.
Qed.
(** Growth. *)
Lemma logistic_grows : forall K lambda s t u, 0 < K -> 0 < u < K -> 0 < lambda -> s < t -> logistic K lambda u s < logistic K lambda u t.
Proof.
  intros K lambda s t u HK Hu HL H.
  pose proof (logistic_den K lambda u s HK ltac:(lra) ltac:(right; lra)) as D1. pose proof (logistic_den K lambda u t HK ltac:(lra) ltac:(right; lra)) as D2.
  assert (E : exp (- lambda * t) < exp (- lambda * s)) by (apply exp_increasing; nra).
  unfold logistic, Rdiv. apply Rmult_lt_compat_l; [nra|]. apply Rinv_lt_contravar; [apply Rmult_lt_0_compat; assumption|]. nra.
Qed.
Lemma logistic_semigroup : forall K lambda s t u, 0 < K -> 0 <= u -> 0 <= lambda * s \/ u <= K -> 0 <= lambda * (s + t) \/ u <= K ->
  logistic K lambda (logistic K lambda u s) t = logistic K lambda u (s + t).
Proof.
  intros K lambda s t u HK Hu C C'. pose proof (logistic_den K lambda u s HK Hu C) as D1. pose proof (logistic_den K lambda u (s + t) HK Hu C') as D2.
  assert (E : exp (- lambda * (s + t)) = exp (- lambda * s) * exp (- lambda * t)) by (rewrite <- exp_plus; f_equal; ring).
  rewrite E in D2. unfold logistic. rewrite E.
  set (a := exp (- lambda * s)) in *. set (b := exp (- lambda * t)) in *.
  assert (F : u * K / (u + (K - u) * a) + (K - u * K / (u + (K - u) * a)) * b = K * (u + (K - u) * (a * b)) / (u + (K - u) * a)) by (field; lra).
  rewrite F. field. split; [lra|]. split; lra.
Qed.

(** Uniqueness: differences of solutions are bounded by exponentials. *)
Lemma bounded_on : forall y t, 0 <= t -> (forall s, 0 <= s <= t -> continuity_pt y s) -> exists B, forall s, 0 <= s <= t -> Rabs (y s) <= B.
Proof.
  intros y t Ht C. destruct (continuity_ab_maj (fun s => Rabs (y s)) 0 t Ht) as (Mx & HM & _).
  - intros s Hs. apply (continuity_pt_comp y Rabs s); [apply C; exact Hs|apply Rcontinuity_abs].
  - exists (Rabs (y Mx)). exact HM.
Qed.
Lemma flow_unique : forall K lambda t u v w, 0 <= t -> logistic_flow K lambda t u v -> logistic_flow K lambda t u w -> v = w.
Proof.
  intros K lambda t u v w Ht (y & Y0 & Yt & DY) (x & X0 & Xt & DX).
  destruct (bounded_on y t Ht) as (By & HBy); [intros s Hs; apply derivable_continuous_pt; exists (lambda * y s * (1 - y s / K)); apply DY; exact Hs|].
  destruct (bounded_on x t Ht) as (Bx & HBx); [intros s Hs; apply derivable_continuous_pt; exists (lambda * x s * (1 - x s / K)); apply DX; exact Hs|].
  set (C := Rabs lambda * (1 + Rabs (/ K) * (By + Bx))).
  assert (AC : forall s, 0 <= s <= t -> lambda * (1 - (y s + x s) / K) <= C).
  { intros s Hs. apply Rle_trans with (1 := Rle_abs _). unfold C. rewrite Rabs_mult. apply Rmult_le_compat_l; [apply Rabs_pos|].
    unfold Rminus. apply Rle_trans with (1 := Rabs_triang _ _). rewrite Rabs_R1, Rabs_Ropp. apply Rplus_le_compat_l. unfold Rdiv.
    rewrite Rabs_mult, Rmult_comm. apply Rmult_le_compat_l; [apply Rabs_pos|]. apply Rle_trans with (1 := Rabs_triang _ _). apply Rplus_le_compat; [apply HBy|apply HBx]; exact Hs. }
  assert (H : - ((y 0 - x 0) * (y 0 - x 0) * exp (- (2 * C) * 0)) <= - ((y t - x t) * (y t - x t) * exp (- (2 * C) * t))).
  { apply (increasing_from (fun s => - ((y s - x s) * (y s - x s) * exp (- (2 * C) * s)))
      (fun s => 2 * ((y s - x s) * (y s - x s)) * exp (- (2 * C) * s) * (C - lambda * (1 - (y s + x s) / K))) 0 t Ht).
    - intros s Hs.
      pose proof (derivable_pt_lim_minus y x s _ _ (DY s Hs) (DX s Hs)) as DD.
      pose proof (derivable_pt_lim_mult (y - x)%F (y - x)%F s _ _ DD DD) as DQ.
      pose proof (derivable_pt_lim_mult ((y - x) * (y - x))%F (fun s => exp (- (2 * C) * s)) s _ _ DQ (exp_deriv (- (2 * C)) s)) as DP.
      pose proof (derivable_pt_lim_opp _ s _ DP) as DO.
      revert DO. apply deriv_eq; [intros; reflexivity|]. unfold mult_fct, minus_fct, Rdiv. ring.
    - intros s Hs. pose proof (AC s Hs). pose proof (exp_pos (- (2 * C) * s)). apply Rmult_le_pos; [|lra]. apply Rmult_le_pos; [|lra]. pose proof (Rle_0_sqr (y s - x s)) as Q. unfold Rsqr in Q. lra. }
  rewrite Y0, X0 in H. rewrite Yt, Xt in H. pose proof (exp_pos (- (2 * C) * t)) as EP. pose proof (Rle_0_sqr (v - w)) as Q. unfold Rsqr in Q.
  replace ((u - u) * (u - u) * exp (- (2 * C) * 0)) with 0 in H by ring.
  assert (Z : (v - w) * (v - w) = 0). { destruct (Rlt_dec 0 ((v - w) * (v - w))) as [G|G]; [|lra]. exfalso. assert (0 < (v - w) * (v - w) * exp (- (2 * C) * t)) by (apply Rmult_lt_0_compat; assumption). lra. }
  apply Rmult_integral in Z. destruct Z; lra.
Qed.
