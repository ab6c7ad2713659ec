(** C102: the splitting method of the Fisher-KPP project. *)
From Coq Require Import Reals List Arith.
Import ListNotations.
From Verif Require Import Base Scalars AssembleModel ElemSpec FisherModel FisherSpec FisherProofs FisherProofs2 FisherProofs3 FisherProofs4.
Local Open Scope R_scope.

(** Partial: the stages do not last until T, see [C102_durations] and [C102_final_time_refuted].
    If the mass matrix is positive definite, the diffusion matrix positive semidefinite and diffusion
    steps keep vectors nonnegative, then from nonnegative values Evolution computes nonnegative numbers,
    and it does so by SDIRK-2 steps for M u' = - A u and exact solution of the logistic equations, in the
    order: half a step of diffusion, m - 2 times reaction and diffusion, half a step of reaction. *)
Theorem C102_evolution_partial : forall n DM DA M A, square n DM M -> square n DA A -> forall T lambda m lu,
  positive_form n M -> nonnegative_form n A -> 0 <= T -> (0 < m)%nat -> exact_lu lu ->
  forall cap, length cap = n -> (forall i, (i < n)%nat -> 0 < nth i cap 0) -> 0 <= lambda ->
  (forall h u v, h = T / INR m / 2 \/ h = T / INR m -> nonnegative n u -> sdirk_step n M A h u v -> nonnegative n v) ->
  forall mu, length mu = n -> nonnegative n (fun i => nth i mu 0) ->
  exists self sol, StrangSplit lu n T m lambda DA DM = Ok self /\ Evolution self cap mu = Ok (map Fin sol) /\ length sol = n /\
    nonnegative n (fun i => nth i sol 0) /\
    run n M A (fun i => nth i cap 0) lambda (schedule m (T / INR m)) (fun i => nth i mu 0) (fun i => nth i sol 0).
Proof. exact evolution_ok. Qed.
Print Assumptions C102_evolution_partial.
Example C102_example : exact_lu eliminate_lu /\ square 2 (dense2 id2) id2 /\ square 2 (dense2 graph2) graph2 /\
  positive_form 2 id2 /\ nonnegative_form 2 graph2 /\ symmetric 2 id2 /\ symmetric 2 graph2 /\
  forall h u v, 0 <= h -> nonnegative 2 u -> sdirk_step 2 id2 graph2 h u v -> nonnegative 2 v.
Proof.
  exact (conj eliminate_lu_exact (conj (dense2_square id2) (conj (dense2_square graph2) (conj id2_positive (conj graph2_nonneg
    (conj id2_symmetric (conj graph2_symmetric exchange_keeps))))))).
Qed.

(** Diffusion and reaction both last  T - 3/2 T/m  (T/2 for m = 1), always less than T. *)
Theorem C102_durations : forall m T, (0 < m)%nat ->
  diffusion_time (schedule m (T / INR m)) = end_time T m /\ reaction_time (schedule m (T / INR m)) = end_time T m.
Proof. exact schedule_times. Qed.
Print Assumptions C102_durations.
Theorem C102_ends_early : forall T m, 0 < T -> (0 < m)%nat -> 0 < end_time T m < T.
Proof. exact end_time_less. Qed.
Print Assumptions C102_ends_early.
(** So Evolution does not compute the state at time T: without diffusion it gives the exact solutions at
    [end_time T m], and these differ from the solutions at time T wherever there is growth. *)
Theorem C102_final_time_refuted : forall lu n T m lambda DA DM M cap mu, exact_lu lu -> square n DM M -> square n DA (fun _ _ => 0) -> positive_form n M ->
  0 <= T -> (0 < m)%nat -> 0 <= lambda -> length cap = n -> (forall i, (i < n)%nat -> 0 < nth i cap 0) -> length mu = n -> nonnegative n (fun i => nth i mu 0) ->
  exists self sol, StrangSplit lu n T m lambda DA DM = Ok self /\ Evolution self cap mu = Ok (map Fin sol) /\ length sol = n /\
    forall i, (i < n)%nat -> logistic_flow (nth i cap 0) lambda (end_time T m) (nth i mu 0) (nth i sol 0) /\
      (0 < lambda -> 0 < T -> 0 < nth i mu 0 < nth i cap 0 -> ~ logistic_flow (nth i cap 0) lambda T (nth i mu 0) (nth i sol 0)).
Proof. exact reaction_alone. Qed.
Print Assumptions C102_final_time_refuted.
(** Without growth, initial values that decay exponentially are computed with an error of second order,
    again for the time [end_time T m]. *)
Theorem C102_diffusion_accuracy : forall n DM DA M A, square n DM M -> square n DA A -> forall T m lu,
  positive_form n M -> nonnegative_form n A -> 0 <= T -> (0 < m)%nat -> exact_lu lu ->
  forall cap, length cap = n -> (forall i, (i < n)%nat -> nth i cap 0 <> 0) ->
  forall a mu, length mu = n -> 0 <= a -> (forall i, (i < n)%nat -> act n A (fun j => nth j mu 0) i = a * act n M (fun j => nth j mu 0) i) ->
  exists self sol, StrangSplit lu n T m 0 DA DM = Ok self /\ Evolution self cap mu = Ok (map Fin sol) /\ length sol = n /\
    forall i, (i < n)%nat -> Rabs (nth i sol 0 - exp (- (a * end_time T m)) * nth i mu 0) <= (a * T) ^ 3 / INR m ^ 2 * Rabs (nth i mu 0).
Proof. exact diffusion_accuracy. Qed.
Print Assumptions C102_diffusion_accuracy.
(** Where the capacity and the value are zero, the result is not a number. *)
Theorem C102_empty_refuted : forall lu m T lambda, exact_lu lu -> (0 < m)%nat -> exists self,
  StrangSplit lu 1 T m lambda (mkDense Rring 1 1 (fun _ _ => 0)) (mkDense Rring 1 1 (fun _ _ => 1)) = Ok self /\ Evolution self [0] [0] = Ok [NaN].
Proof. exact empty_nan. Qed.
Print Assumptions C102_empty_refuted.

(** What SDIRK-2 steps do.  They are unique; *)
Theorem C102_step_unique : forall n M A, positive_form n M -> nonnegative_form n A -> forall h u v w, 0 <= h ->
  sdirk_step n M A h u v -> sdirk_step n M A h u w -> forall i, (i < n)%nat -> v i = w i.
Proof. exact step_unique. Qed.
Print Assumptions C102_step_unique.
(** they do not increase the norm of M; *)
Theorem C102_step_stable : forall n M A h u v, symmetric n M -> nonnegative_form n M -> symmetric n A -> nonnegative_form n A -> 0 <= h ->
  sdirk_step n M A h u v -> pairing n M v v <= pairing n M u u.
Proof. exact step_energy. Qed.
Print Assumptions C102_step_stable.
(** they keep what the differential equation keeps (for w = 1 and an insulated boundary: the population); *)
Theorem C102_step_conserves : forall n M A h w u v, (forall j, (j < n)%nat -> sum_to n (fun i => w i * A i j) = 0) ->
  sdirk_step n M A h u v -> pairing n M w v = pairing n M w u.
Proof. exact step_conserves. Qed.
Print Assumptions C102_step_conserves.
(** they do not change stationary states; *)
Theorem C102_step_stationary : forall n M A, positive_form n M -> nonnegative_form n A -> forall h u v, 0 <= h ->
  (forall i, (i < n)%nat -> act n A u i = 0) -> sdirk_step n M A h u v -> forall i, (i < n)%nat -> v i = u i.
Proof. exact step_stationary. Qed.
Print Assumptions C102_step_stationary.
(** they multiply eigenvectors by the stability function, which differs from exp (- z) by at most z^3, is bounded
    by 1 and decays for large z. *)
Theorem C102_step_eigenvector : forall n M A, positive_form n M -> nonnegative_form n A -> forall h a u v, 0 <= h -> 0 <= h * a ->
  (forall i, (i < n)%nat -> act n A u i = a * act n M u i) -> sdirk_step n M A h u v -> forall i, (i < n)%nat -> v i = stability (h * a) * u i.
Proof. exact step_eigenvector. Qed.
Print Assumptions C102_step_eigenvector.
Theorem C102_stability : forall z, 0 <= z -> Rabs (stability z - exp (- z)) <= z ^ 3 /\ Rabs (stability z) <= 1 /\ Rabs (stability z) <= 2 / (1 + kappa * z).
Proof. exact (fun z H => conj (stability_accuracy z H) (conj (stability_bound z H) (stability_decay z H))). Qed.
Print Assumptions C102_stability.
(** Solutions of the logistic equation are unique and exist from nonnegative values; up to the capacity they stay there. *)
Theorem C102_flow_unique : forall K lambda t u v w, 0 <= t -> logistic_flow K lambda t u v -> logistic_flow K lambda t u w -> v = w.
Proof. exact flow_unique. Qed.
Print Assumptions C102_flow_unique.
Theorem C102_flow_exists : forall K lambda t u, 0 < K -> 0 <= u -> 0 <= t -> 0 <= lambda ->
  exists v, logistic_flow K lambda t u v /\ 0 <= v /\ (u <= K -> v <= K).
Proof. exact flow_exists. Qed.
Print Assumptions C102_flow_exists.
