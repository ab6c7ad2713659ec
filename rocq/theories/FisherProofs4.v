(** Reaction alone, diffusion alone, an example with both. *)
From Coq Require Import Reals Lra Lia List Arith Bool.
Import ListNotations.
From Verif Require Import Base Scalars GeoModel FeModel AssembleModel ElemSpec ElemProofs3 GalerkinProofs7 StokesProofs3 FisherModel FisherSpec FisherProofs FisherProofs2 FisherProofs3.
Local Open Scope R_scope.

(** * The schedule *)
Lemma end_time_eq : forall T m, (0 < m)%nat -> end_time T m = T / INR m / 2 + INR (m - 2) * (T / INR m).
Proof.
  intros T m Hm. unfold end_time. destruct (Nat.eqb_spec m 1) as [->|N]; [cbn; field|].
  rewrite minus_INR by lia. cbn. field. apply not_0_INR. lia.
Qed.
Lemma schedule_times : forall m T, (0 < m)%nat ->
  diffusion_time (schedule m (T / INR m)) = end_time T m /\ reaction_time (schedule m (T / INR m)) = end_time T m.
Proof.
  intros m T Hm. rewrite end_time_eq by exact Hm. set (tau := T / INR m). unfold schedule.
  assert (G : forall k, diffusion_time (concat (repeat [Reaction tau; Diffusion tau] k) ++ [Reaction (tau / 2)]) = INR k * tau /\
                        reaction_time (concat (repeat [Reaction tau; Diffusion tau] k) ++ [Reaction (tau / 2)]) = INR k * tau + tau / 2).
  { induction k as [|k [I1 I2]]; [unfold diffusion_time, reaction_time; cbn; lra|]. rewrite S_INR.
    unfold diffusion_time, reaction_time in *. cbn [repeat concat app map fold_right]. rewrite I1, I2. lra. }
  destruct (G (m - 2)%nat) as [G1 G2]. unfold diffusion_time, reaction_time in *. cbn [map fold_right]. rewrite G1, G2. lra.
Qed.
Lemma end_time_less : forall T m, 0 < T -> (0 < m)%nat -> 0 < end_time T m < T.
Proof.
  intros T m HT Hm. unfold end_time. destruct (Nat.eqb_spec m 1) as [->|N]; [lra|].
  assert (I2 : 2 <= INR m) by (replace 2 with (INR 2) by (cbn; ring); apply le_INR; lia).
  assert (P : 0 < T / INR m) by (apply Rmult_lt_0_compat; [exact HT|apply Rinv_0_lt_compat; lra]).
  assert (E : INR m * (T / INR m) = T) by (field; lra). split; [|lra]. nra.
Qed.

(** * Reaction alone *)
Section Reaction_only.
Variables (n : nat) (M A : nat -> nat -> R) (cap : nat -> R) (lambda : R).
Hypothesis PM : positive_form n M.
Hypothesis ZA : forall i j, (i < n)%nat -> (j < n)%nat -> A i j = 0.
Hypothesis PC : forall i, (i < n)%nat -> 0 < cap i.
Hypothesis HL : 0 <= lambda.
Lemma act_zero : forall u i, (i < n)%nat -> act n A u i = 0.
Proof. intros u i Hi. unfold act. apply sum_zero. intros j Hj. rewrite ZA by assumption. ring. Qed.
Lemma form_zero : nonnegative_form n A.
Proof. intros u. right. symmetry. unfold pairing. apply sum_zero. intros i Hi. rewrite act_zero by exact Hi. ring. Qed.
Lemma no_diffusion : forall h u v, 0 <= h -> sdirk_step n M A h u v -> forall i, (i < n)%nat -> v i = u i.
Proof. intros h u v Hh ST. apply (step_stationary n M A PM form_zero h u v Hh); [intros; apply act_zero; assumption|exact ST]. Qed.
Lemma flow_value : forall K t u v, 0 < K -> 0 <= u -> 0 <= t -> logistic_flow K lambda t u v -> v = logistic K lambda u t.
Proof. intros K t u v HK Hu Ht F. apply (flow_unique K lambda t u); [exact Ht|exact F|]. apply logistic_solves; try assumption. left. exact HL. Qed.
Lemma run_logistic : forall tau l u v, 0 <= tau ->
  (forall s, In s l -> match s with Diffusion h => 0 <= h | Reaction t => 0 <= t end) -> nonnegative n u ->
  run n M A cap lambda l u v -> forall i, (i < n)%nat -> v i = logistic (cap i) lambda (u i) (reaction_time l).
Proof.
  intros tau l u v Ht P NN RUN. revert P NN. induction RUN as [u v E|h l u w v ST RUN IH|t l u w v ST RUN IH]; intros P NN i Hi.
  - rewrite E by exact Hi. unfold reaction_time. cbn. rewrite logistic_start; [reflexivity|]. specialize (PC i Hi). lra.
  - pose proof (no_diffusion h u w (P (Diffusion h) (or_introl eq_refl)) ST) as W.
    rewrite (IH ltac:(intros s Hs; apply P; right; exact Hs) ltac:(intros j Hj; rewrite W by exact Hj; apply NN; exact Hj) i Hi). rewrite W by exact Hi.
    unfold reaction_time. cbn [map fold_right]. rewrite Rplus_0_l. reflexivity.
  - pose proof (P (Reaction t) (or_introl eq_refl)) as Ht0. cbn in Ht0.
    assert (W : forall i, (i < n)%nat -> w i = logistic (cap i) lambda (u i) t) by (intros j Hj; apply flow_value; [apply PC; exact Hj|apply NN; exact Hj|exact Ht0|apply ST; exact Hj]).
    assert (LT : 0 <= lambda * t) by (apply Rmult_le_pos; assumption).
    assert (PW : nonnegative n w) by (intros j Hj; rewrite W by exact Hj; apply logistic_nonneg; [apply PC; exact Hj|apply NN; exact Hj|left; exact LT]).
    rewrite (IH ltac:(intros s Hs; apply P; right; exact Hs) PW i Hi). rewrite W by exact Hi.
    assert (RN : 0 <= reaction_time l).
    { clear - P. unfold reaction_time. assert (P' : forall s, In s l -> match s with Diffusion h => 0 <= h | Reaction t => 0 <= t end) by (intros s Hs; apply P; right; exact Hs).
      clear P. induction l as [|s l IHl]; [cbn; lra|]. cbn [map fold_right]. pose proof (P' s (or_introl eq_refl)). specialize (IHl ltac:(intros; apply P'; right; assumption)). destruct s; lra. }
    rewrite logistic_semigroup; [reflexivity|apply PC; exact Hi|apply NN; exact Hi|left; exact LT|].
    left. apply Rmult_le_pos; lra.
Qed.
End Reaction_only.
Lemma schedule_nonneg : forall m tau, 0 <= tau -> forall s, In s (schedule m tau) -> match s with Diffusion h => 0 <= h | Reaction t => 0 <= t end.
Proof.
  intros m tau Ht s H. unfold schedule in H. destruct H as [<-|H]; [lra|]. apply in_app_or in H. destruct H as [H|H]; [|destruct H as [<-|H]; [lra|destruct H]].
  induction (m - 2)%nat as [|k IH]; [destruct H|]. cbn in H. destruct H as [<-|[<-|H]]; try lra. apply IH. exact H.
Qed.
Theorem reaction_alone : forall lu n T m lambda DA DM M cap mu, exact_lu lu -> square n DM M -> square n DA (fun _ _ => 0) -> positive_form n M ->
  0 <= T -> (0 < m)%nat -> 0 <= lambda -> length cap = n -> (forall i, (i < n)%nat -> 0 < nth i cap 0) -> length mu = n -> nonnegative n (fun i => nth i mu 0) ->
  exists self sol, StrangSplit lu n T m lambda DA DM = Ok self /\ Evolution self cap mu = Ok (map Fin sol) /\ length sol = n /\
    forall i, (i < n)%nat -> logistic_flow (nth i cap 0) lambda (end_time T m) (nth i mu 0) (nth i sol 0) /\
      (0 < lambda -> 0 < T -> 0 < nth i mu 0 < nth i cap 0 -> ~ logistic_flow (nth i cap 0) lambda T (nth i mu 0) (nth i sol 0)).
Proof.
  intros lu n T m lambda DA DM M cap mu LU SM SA PM HT Hm HL LC PC L P.
  pose proof (tau_nonneg T m HT Hm) as TN.
  pose proof (form_zero n (fun _ _ => 0) ltac:(reflexivity)) as PA.
  assert (KEEP : forall h u v, h = T / INR m / 2 \/ h = T / INR m -> nonnegative n u -> sdirk_step n M (fun _ _ => 0) h u v -> nonnegative n v).
  { intros h u v Hh NN ST i Hi. rewrite (no_diffusion n M (fun _ _ => 0) PM ltac:(reflexivity) h u v); [apply NN; exact Hi|destruct Hh as [-> | ->]; lra|exact ST|exact Hi]. }
  destruct (evolution_ok n DM DA M (fun _ _ => 0) SM SA T lambda m lu PM PA HT Hm LU cap LC PC HL KEEP mu L P) as (self & sol & E & E2 & LS & PS & RUN).
  exists self, sol. split; [exact E|]. split; [exact E2|]. split; [exact LS|]. intros i Hi.
  assert (V : at_ sol i = logistic (at_ cap i) lambda (at_ mu i) (end_time T m)).
  { rewrite <- (proj2 (schedule_times m T Hm)).
    apply (run_logistic n M (fun _ _ => 0) (at_ cap) lambda PM ltac:(reflexivity) PC HL (T / INR m)); try assumption. apply schedule_nonneg. exact TN. }
  assert (EN : 0 <= end_time T m).
  { destruct (Req_dec T 0) as [->|N]; [|destruct (end_time_less T m ltac:(lra) Hm); lra]. rewrite end_time_eq by exact Hm. unfold Rdiv. rewrite !Rmult_0_l. lra. }
  change (nth i sol 0) with (at_ sol i). change (nth i mu 0) with (at_ mu i). change (nth i cap 0) with (at_ cap i). split.
  - rewrite V. apply logistic_solves; [apply PC; exact Hi|apply P; exact Hi|exact EN|left; exact HL].
  - intros PL PT HU F. pose proof (flow_value lambda HL _ _ _ _ (PC i Hi) (P i Hi) HT F) as Q. unfold at_ in *. rewrite V in Q.
    pose proof (logistic_grows (nth i cap 0) lambda (end_time T m) T (nth i mu 0) (PC i Hi) HU PL (proj2 (end_time_less T m PT Hm))). lra.
Qed.

(** * Diffusion alone *)
Lemma run_inv_nil : forall n M A cap lambda u v, run n M A cap lambda [] u v -> forall i, (i < n)%nat -> v i = u i.
Proof. intros n M A cap lambda u v H. inversion H. assumption. Qed.
Lemma run_inv_cons : forall n M A cap lambda h l u v, run n M A cap lambda (Diffusion h :: l) u v -> exists w, sdirk_step n M A h u w /\ run n M A cap lambda l w v.
Proof. intros n M A cap lambda h l u v H. inversion H as [|h' l' u' w v' ST RUN|]; subst. exists w. split; assumption. Qed.
Lemma react_none : forall K u, K <> 0 -> xdiv K (xplus (xtimes (xplus (xdiv K (Fin u)) (-1)) 1) 1) = Fin u.
Proof.
  intros K u HK. unfold xdiv at 2. destruct (Req_EM_T u 0) as [Z|Z].
  - destruct (Req_EM_T K 0) as [Q|_]; [contradiction|]. cbn. rewrite Z. reflexivity.
  - cbn [xplus xtimes xdiv]. replace ((K / u + -1) * 1 + 1) with (K / u) by ring. destruct (Req_EM_T (K / u) 0) as [Q|Q].
    + exfalso. apply HK. replace K with (K / u * u) by (field; exact Z). rewrite Q. ring.
    + f_equal. field. split; assumption.
Qed.
Lemma react_none_list : forall cap u, length cap = length u -> (forall i, (i < length cap)%nat -> nth i cap 0 <> 0) ->
  map (fun p => xdiv (fst p) (xplus (xtimes (xplus (xdiv (fst p) (snd p)) (-1)) 1) 1)) (combine cap (map Fin u)) = map Fin u.
Proof.
  induction cap as [|K c IH]; intros [|x u] L PC; try discriminate; [reflexivity|]. cbn [map combine fst snd].
  rewrite react_none by (apply (PC 0%nat); cbn; lia). f_equal. apply IH; [cbn in L; lia|]. intros i Hi. apply (PC (S i)). cbn. lia.
Qed.
Section Diffusion_only.
Variables (n : nat) (DM DA : dense Rring) (M A : nat -> nat -> R).
Hypothesis SM : square n DM M.
Hypothesis SA : square n DA A.
Variables (T : R) (m : nat) (lu : dense Rring -> option (list R -> list R)).
Hypothesis PM : positive_form n M.
Hypothesis PA : nonnegative_form n A.
Hypothesis HT : 0 <= T.
Hypothesis Hm : (0 < m)%nat.
Hypothesis LU : exact_lu lu.
Variable cap : list R.
Hypothesis LC : length cap = n.
Hypothesis PC : forall i, (i < n)%nat -> nth i cap 0 <> 0.
Let tau := T / INR m.
Lemma reaction_none : forall self f u, built n DA M A T 0 m self -> f = 1 -> length u = n -> reaction self cap f (map Fin u) = Ok (map Fin u).
Proof.
  intros self f u (EN & _) -> L. unfold reaction. rewrite EN, map_length, LC, L, Nat.eqb_refl. cbn [lf_assert bind andb]. f_equal.
  apply react_none_list; [congruence|rewrite LC; exact PC].
Qed.
Lemma factor_one : forall self x, lambda_ self = 0 -> exp (- lambda_ self * x) = 1.
Proof. intros self x E. rewrite E. replace (- 0 * x) with 0 by ring. apply exp_0. Qed.
Lemma diffusion_steps : forall self k u, built n DA M A T 0 m self -> length u = n ->
  exists v, time_steps self cap k (map Fin u) = Ok (map Fin v) /\ length v = n /\ run n M A (at_ cap) 0 (repeat (Diffusion tau) k) (at_ u) (at_ v).
Proof.
  intros self k. induction k as [|k IH]; intros u B L.
  - exists u. split; [reflexivity|]. split; [exact L|]. apply run_end. reflexivity.
  - cbn [time_steps]. assert (EL : lambda_ self = 0) by apply B. rewrite (reaction_none self _ u B (factor_one self _ EL) L). cbn [bind].
    destruct (diffusion_ok n DA M A SA T 0 m self false u B L) as (x & E2 & LX & X). rewrite (diffusion_fin _ _ _ _ E2). cbn [bind].
    destruct (IH x B LX) as (v & E3 & LV & RV). exists v. split; [exact E3|]. split; [exact LV|]. cbn [repeat]. apply run_diffusion with (at_ x); assumption.
Qed.
Lemma diffusion_alone : forall mu, length mu = n -> exists self sol, StrangSplit lu n T m 0 DA DM = Ok self /\ Evolution self cap mu = Ok (map Fin sol) /\ length sol = n /\
  run n M A (at_ cap) 0 (Diffusion (tau / 2) :: repeat (Diffusion tau) (m - 2)) (at_ mu) (at_ sol).
Proof.
  intros mu L. destruct (construct n DM DA M A SM SA T 0 m lu PM PA HT Hm LU) as (self & E & B). exists self.
  destruct (diffusion_ok n DA M A SA T 0 m self true mu B L) as (w & E1 & LW & W).
  destruct (diffusion_steps self (m - 1 - 1) w B LW) as (x & E2 & LX & RX). exists x. split; [exact E|].
  assert (EL : lambda_ self = 0) by apply B. split; [|split; [exact LX|]].
  - unfold Evolution. rewrite E1. cbn [bind]. assert (EM : m_ self = m) by apply B. rewrite EM, E2. cbn [bind]. apply reaction_none; [exact B| |exact LX].
    rewrite EL. replace (- 0 * tau_ self / 2) with 0 by (unfold Rdiv; ring). apply exp_0.
  - replace (m - 2)%nat with (m - 1 - 1)%nat by lia. apply run_diffusion with (at_ w); [exact W|exact RX].
Qed.
(** Eigenvectors. *)
Lemma run_eigen : forall a k u v, 0 <= tau -> 0 <= tau * a -> (forall i, (i < n)%nat -> act n A u i = a * act n M u i) ->
  run n M A (at_ cap) 0 (repeat (Diffusion tau) k) u v -> forall i, (i < n)%nat -> v i = stability (tau * a) ^ k * u i.
Proof.
  intros a k. induction k as [|k IH]; intros u v Ht Ha E RUN i Hi.
  - cbn. rewrite Rmult_1_l. exact (run_inv_nil _ _ _ _ _ _ _ RUN i Hi).
  - cbn [repeat] in RUN. destruct (run_inv_cons _ _ _ _ _ _ _ _ _ RUN) as (w & ST & RUN').
    pose proof (step_eigenvector n M A PM PA tau a u w Ht Ha E ST) as W.
    rewrite (IH w v Ht Ha) with (i := i); [|intros j Hj|exact RUN'|exact Hi].
    + rewrite W by exact Hi. cbn. ring.
    + rewrite (act_ext n A w _ j W), (act_ext n M w _ j W), !act_scal, E by exact Hj. ring.
Qed.
Lemma product_error : forall x y p q d e, Rabs x <= 1 -> Rabs q <= 1 -> Rabs (x - y) <= d -> Rabs (p - q) <= e -> Rabs (x * p - y * q) <= d + e.
Proof.
  intros x y p q d e Hx Hq Hd He. replace (x * p - y * q) with (x * (p - q) + (x - y) * q) by ring.
  apply Rle_trans with (1 := Rabs_triang _ _). rewrite !Rabs_mult. pose proof (Rabs_pos (p - q)). pose proof (Rabs_pos (x - y)). pose proof (Rabs_pos x). pose proof (Rabs_pos q). nra.
Qed.
Lemma exp_bound : forall z, 0 <= z -> Rabs (exp (- z)) <= 1.
Proof.
  intros z Hz. pose proof (exp_pos (- z)). rewrite Rabs_right by lra. destruct (Req_dec z 0) as [->|N]; [rewrite Ropp_0, exp_0; lra|].
  rewrite <- exp_0. left. apply exp_increasing. lra.
Qed.
Lemma power_error : forall z k, 0 <= z -> Rabs (stability z ^ k - exp (- (INR k * z))) <= INR k * z ^ 3.
Proof.
  intros z k Hz. induction k as [|k IH]; [cbn [INR pow]; replace (- (0 * z)) with 0 by ring; rewrite exp_0, Rminus_diag_eq, Rabs_R0 by reflexivity; lra|].
  rewrite S_INR. replace (- ((INR k + 1) * z)) with (- z + - (INR k * z)) by ring. rewrite exp_plus. change (stability z ^ S k) with (stability z * stability z ^ k).
  replace ((INR k + 1) * z ^ 3) with (z ^ 3 + INR k * z ^ 3) by ring. apply product_error; [apply stability_bound; exact Hz|apply exp_bound|apply stability_accuracy; exact Hz|exact IH].
  apply Rmult_le_pos; [apply pos_INR|exact Hz].
Qed.
Theorem diffusion_accuracy : forall a mu, length mu = n -> 0 <= a -> (forall i, (i < n)%nat -> act n A (fun j => nth j mu 0) i = a * act n M (fun j => nth j mu 0) i) ->
  exists self sol, StrangSplit lu n T m 0 DA DM = Ok self /\ Evolution self cap mu = Ok (map Fin sol) /\ length sol = n /\
    forall i, (i < n)%nat -> Rabs (nth i sol 0 - exp (- (a * end_time T m)) * nth i mu 0) <= (a * T) ^ 3 / INR m ^ 2 * Rabs (nth i mu 0).
Proof.
  intros a mu L Ha EV. destruct (diffusion_alone mu L) as (self & sol & E & E2 & LS & RUN). exists self, sol.
  split; [exact E|]. split; [exact E2|]. split; [exact LS|]. intros i Hi.
  pose proof (tau_nonneg T m HT Hm) as TN. fold tau in TN. set (z := tau * a). assert (Hz : 0 <= z) by (unfold z; nra).
  destruct (run_inv_cons _ _ _ _ _ _ _ _ _ RUN) as (w & ST & RUN').
  assert (Hz2 : 0 <= tau / 2 * a) by (replace (tau / 2 * a) with (z / 2) by (unfold z; field); lra).
  pose proof (step_eigenvector n M A PM PA (tau / 2) a (at_ mu) w ltac:(lra) Hz2 EV ST) as W.
  assert (EW : forall j, (j < n)%nat -> act n A w j = a * act n M w j).
  { intros j Hj. rewrite (act_ext _ A w _ j W), (act_ext _ M w _ j W), !act_scal. pose proof (EV j Hj) as EVj. change (fun j : nat => nth j mu 0) with (at_ mu) in EVj. rewrite EVj. ring. }
  pose proof (run_eigen a (m - 2) w (at_ sol) TN Hz EW RUN' i Hi) as V. rewrite W in V by exact Hi.
  change (nth i sol 0) with (at_ sol i). change (nth i mu 0) with (at_ mu i). rewrite V.
  replace (a * end_time T m) with (z / 2 + INR (m - 2) * z) by (rewrite end_time_eq by exact Hm; unfold z, tau; field; apply not_0_INR; lia).
  replace (- (z / 2 + INR (m - 2) * z)) with (- (INR (m - 2) * z) + - (z / 2)) by ring. rewrite exp_plus. fold z.
  replace (tau / 2 * a) with (z / 2) by (unfold z; field).
  replace (stability z ^ (m - 2) * (stability (z / 2) * at_ mu i) - exp (- (INR (m - 2) * z)) * exp (- (z / 2)) * at_ mu i)
    with ((stability (z / 2) * stability z ^ (m - 2) - exp (- (z / 2)) * exp (- (INR (m - 2) * z))) * at_ mu i) by ring.
  rewrite Rabs_mult. apply Rmult_le_compat_r; [apply Rabs_pos|].
  apply Rle_trans with ((z / 2) ^ 3 + INR (m - 2) * z ^ 3).
  - apply product_error; [apply stability_bound; lra|apply exp_bound; apply Rmult_le_pos; [apply pos_INR|exact Hz]|apply stability_accuracy; lra|apply power_error; exact Hz].
  - replace ((a * T) ^ 3 / INR m ^ 2) with (INR m * z ^ 3) by (unfold z, tau; field; apply not_0_INR; lia).
    assert (Z3 : 0 <= z ^ 3) by (apply pow_le; exact Hz). replace ((z / 2) ^ 3) with (/ 8 * z ^ 3) by field.
    assert (I : INR (m - 2) + / 8 <= INR m).
    { destruct m as [|[|q]]; [lia|cbn; lra|]. replace (S (S q) - 2)%nat with q by lia. rewrite !S_INR. lra. }
    nra.
Qed.
End Diffusion_only.

(** * Two unknowns that exchange *)
Definition id2 (i j : nat) : R := if (i =? j)%nat then 1 else 0.
Definition graph2 (i j : nat) : R := if (i =? j)%nat then 1 else -1.
Definition dense2 (A : nat -> nat -> R) : dense Rring := mkDense Rring 2 2 A.
Lemma sum2 : forall F, sum_to 2 F = F 0%nat + F 1%nat. Proof. intros. unfold sum_to. cbn. ring. Qed.
Lemma id2_positive : positive_form 2 id2.
Proof.
  intros u i Hi Nz. unfold pairing, act, id2. rewrite !sum2. cbn [Nat.eqb]. pose proof (Rlt_0_sqr (u i) Nz) as P. pose proof (Rle_0_sqr (u 0%nat)). pose proof (Rle_0_sqr (u 1%nat)). unfold Rsqr in *.
  destruct i as [|[|i]]; [| |lia]; lra.
Qed.
Lemma graph2_nonneg : nonnegative_form 2 graph2.
Proof. intros u. unfold pairing, act, graph2. rewrite !sum2. cbn [Nat.eqb]. pose proof (Rle_0_sqr (u 0%nat - u 1%nat)) as P. unfold Rsqr in P. lra. Qed.
Lemma id2_symmetric : symmetric 2 id2. Proof. intros i j _ _. unfold id2. rewrite Nat.eqb_sym. reflexivity. Qed.
Lemma graph2_symmetric : symmetric 2 graph2. Proof. intros i j _ _. unfold graph2. rewrite Nat.eqb_sym. reflexivity. Qed.
Lemma act2 : forall (A : nat -> nat -> R) u i, act 2 A u i = A i 0%nat * u 0%nat + A i 1%nat * u 1%nat.
Proof. intros. unfold act. apply sum2. Qed.
Lemma exchange_keeps : forall h u v, 0 <= h -> nonnegative 2 u -> sdirk_step 2 id2 graph2 h u v -> nonnegative 2 v.
Proof.
  intros h u v Hh NN ST. pose proof (NN 0%nat ltac:(lia)) as U0. pose proof (NN 1%nat ltac:(lia)) as U1.
  (* the sum stays, the difference is multiplied by a number between -1 and 1 *)
  assert (CS : v 0%nat + v 1%nat = u 0%nat + u 1%nat).
  { assert (Q : pairing 2 id2 (fun _ => 1) v = pairing 2 id2 (fun _ => 1) u).
    { apply (step_conserves 2 id2 graph2 h); [|exact ST]. intros j Hj. rewrite sum2. unfold graph2. destruct j as [|[|j]]; [| |lia]; cbn; ring. }
    unfold pairing in Q. rewrite !sum2, !act2 in Q. unfold id2 in Q. cbn [Nat.eqb] in Q. lra. }
  set (d := (u 0%nat - u 1%nat) / 2). set (e := (v 0%nat - v 1%nat) / 2).
  assert (DS : e = stability (h * 2) * d).
  { destruct ST as (k1 & k2 & K1 & K2 & V).
    assert (SD : sdirk_step 2 id2 graph2 h (fun i => if (i =? 0)%nat then d else - d) (fun i => if (i =? 0)%nat then e else - e)).
    { exists (fun i => if (i =? 0)%nat then (k1 0%nat - k1 1%nat) / 2 else - ((k1 0%nat - k1 1%nat) / 2)), (fun i => if (i =? 0)%nat then (k2 0%nat - k2 1%nat) / 2 else - ((k2 0%nat - k2 1%nat) / 2)).
      pose proof (K1 0%nat ltac:(lia)) as A0. pose proof (K1 1%nat ltac:(lia)) as A1. pose proof (K2 0%nat ltac:(lia)) as B0. pose proof (K2 1%nat ltac:(lia)) as B1.
      rewrite !act2 in A0, A1, B0, B1. unfold id2, graph2 in A0, A1, B0, B1. cbn [Nat.eqb] in A0, A1, B0, B1.
      split; [|split]; intros i Hi; destruct i as [|[|i]]; try lia; rewrite ?act2; unfold id2, graph2, d, e; cbn [Nat.eqb].
      1-4: lra. all: rewrite (V 0%nat), (V 1%nat) by lia; lra. }
    apply (step_eigenvector 2 id2 graph2 id2_positive graph2_nonneg h 2 _ _ Hh ltac:(lra)) with (i := 0%nat) in SD; [exact SD| |lia].
    intros i Hi. rewrite !act2. unfold id2, graph2. destruct i as [|[|i]]; [| |lia]; cbn [Nat.eqb]; ring. }
  pose proof (stability_bound (h * 2) ltac:(lra)) as SB.
  assert (AE : Rabs e <= Rabs d) by (rewrite DS, Rabs_mult; pose proof (Rabs_pos d); nra).
  assert (AD : Rabs d <= (u 0%nat + u 1%nat) / 2) by (apply Rabs_le; unfold d; lra).
  assert (BE : - ((v 0%nat + v 1%nat) / 2) <= e <= (v 0%nat + v 1%nat) / 2) by (rewrite CS; revert AE AD; unfold Rabs; destruct (Rcase_abs e); destruct (Rcase_abs d); intros; lra).
  intros i Hi. unfold e in BE. destruct i as [|[|i]]; [| |lia]; lra.
Qed.
Lemma dense2_square : forall A, square 2 (dense2 A) A.
Proof. intros A. split; [reflexivity|]. split; [reflexivity|]. reflexivity. Qed.
(** Capacity zero and nothing there: not a number. *)
Lemma empty_nan : forall lu m T lambda, exact_lu lu -> (0 < m)%nat -> exists self, StrangSplit lu 1 T m lambda (mkDense Rring 1 1 (fun _ _ => 0)) (mkDense Rring 1 1 (fun _ _ => 1)) = Ok self /\
  Evolution self [0] [0] = Ok [NaN].
Proof.
  intros lu m T lambda LU Hm. unfold StrangSplit. destruct (Nat.eqb_spec m 0) as [Z|_]; [lia|]. cbn [negb lf_assert bind]. cbv zeta.
  assert (G : forall c, exists s, lu (mplus (mkDense Rring 1 1 (fun _ _ => 1)) (mtimes c (mkDense Rring 1 1 (fun _ _ => 0)))) = Some s /\ forall b, length b = 1%nat -> s b = b).
  { intros c. destruct (LU 1%nat (mplus (mkDense Rring 1 1 (fun _ _ => 1)) (mtimes c (mkDense Rring 1 1 (fun _ _ => 0)))) (fun _ _ => 1)) as (s & E & H).
    - split; [reflexivity|]. split; [reflexivity|]. intros i j _ _. cbn. ring.
    - intros u H i Hi. specialize (H 0%nat ltac:(lia)). unfold act, sum_to in H. cbn in H. destruct i; [lra|lia].
    - exists s. split; [exact E|]. intros b Lb. destruct (H b Lb) as [L2 H2]. specialize (H2 0%nat ltac:(lia)). unfold act, sum_to in H2. cbn in H2.
      apply (list_eq 1); [exact L2|exact Lb|]. intros [|i] Hi; [|lia]. unfold at_. lra. }
  destruct (G (/ 2 * (T / INR m) * (1 - / 2 * sqrt 2))) as (s1 & E1 & S1). destruct (G (T / INR m * (1 - / 2 * sqrt 2))) as (s2 & E2 & S2). rewrite E1, E2.
  eexists. split; [reflexivity|]. set (self := mkStrang _ _ _ _ _ _ _ _).
  assert (R0 : times (A_ self) [0] = [0]) by (cbn; f_equal; ring).
  assert (D0 : diffusionEvolutionOperator self true [0] = Ok [0]).
  { unfold diffusionEvolutionOperator. rewrite R0. cbn [length d_cols A_ self lf_assert bind Nat.eqb]. cbv zeta. cbn [solver1 self].
    rewrite (S1 (vtimes (-1) [0])) by reflexivity. replace (vtimes (-1) [0]) with [0] by (cbn; f_equal; ring).
    change (times (mkDense Rring 1 1 (fun _ _ => 0)) [0]) with (times (A_ self) [0]). rewrite R0. rewrite S1 by reflexivity. cbn. do 2 f_equal. ring. }
  assert (RN : forall f, reaction self [0] f [Fin 0] = Ok [NaN]).
  { intros f. unfold reaction. cbn [length N_dofs self Nat.eqb andb lf_assert bind combine map fst snd xdiv].
    destruct (Req_EM_T 0 0) as [_|Q]; [|lra]. destruct (Req_EM_T 0 0) as [_|Q]; [|lra]. reflexivity. }
  assert (RN2 : forall f, reaction self [0] f [NaN] = Ok [NaN]) by reflexivity.
  assert (DN : diffusion self false [NaN] = Ok [NaN]) by reflexivity.
  assert (ST : forall k, time_steps self [0] k [NaN] = Ok [NaN]) by (induction k as [|k IH]; [reflexivity|]; cbn [time_steps]; rewrite RN2; cbn [bind]; rewrite DN; exact IH).
  unfold Evolution. rewrite D0. cbn [bind]. destruct (m_ self - 1 - 1)%nat as [|k]; [cbn [time_steps map bind]; apply RN|].
  cbn [time_steps map]. rewrite RN. cbn [bind]. rewrite DN. cbn [bind]. rewrite ST. cbn [bind]. apply RN2.
Qed.
Lemma flow_exists : forall K lambda t u, 0 < K -> 0 <= u -> 0 <= t -> 0 <= lambda -> exists v, logistic_flow K lambda t u v /\ 0 <= v /\ (u <= K -> v <= K).
Proof.
  intros K lambda t u HK Hu Ht HL. exists (logistic K lambda u t). split; [apply logistic_solves; try assumption; left; exact HL|].
  split; [apply logistic_nonneg; try assumption; left; apply Rmult_le_pos; assumption|]. intros L. apply logistic_below; [exact HK|lra].
Qed.
