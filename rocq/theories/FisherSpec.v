(** Vocabulary for C102: linear systems of differential equations M u' = - A u, their SDIRK-2
    discretization, logistic growth, splitting methods. *)
From Coq Require Import Reals List Arith.
Import ListNotations.
From Verif Require Import Base Scalars AssembleModel ElemSpec.
Local Open Scope R_scope.

(** Matrix times vector, the bilinear form of a matrix. *)
Definition act (n : nat) (A : nat -> nat -> R) (u : nat -> R) (i : nat) : R := sum_to n (fun j => A i j * u j).
Definition pairing (n : nat) (A : nat -> nat -> R) (v u : nat -> R) : R := sum_to n (fun i => v i * act n A u i).
Definition symmetric (n : nat) (A : nat -> nat -> R) : Prop := forall i j, (i < n)%nat -> (j < n)%nat -> A i j = A j i.
Definition nonnegative_form (n : nat) (A : nat -> nat -> R) : Prop := forall u, 0 <= pairing n A u u.
Definition positive_form (n : nat) (A : nat -> nat -> R) : Prop := forall u i, (i < n)%nat -> u i <> 0 -> 0 < pairing n A u u.
(** [D] is an n x n matrix with coefficients [A]. *)
Definition square (n : nat) (D : dense Rring) (A : nat -> nat -> R) : Prop :=
  d_rows Rring D = n /\ d_cols Rring D = n /\ forall i j, (i < n)%nat -> (j < n)%nat -> d_coef Rring D i j = A i j.
(** A direct solver: it solves linear systems whose matrices map only zero to zero. *)
Definition exact_lu (lu : dense Rring -> option (list R -> list R)) : Prop :=
  forall n D A, square n D A ->
  (forall u, (forall i, (i < n)%nat -> act n A u i = 0) -> forall i, (i < n)%nat -> u i = 0) ->
  exists solve, lu D = Some solve /\ forall b, length b = n -> length (solve b) = n /\
    forall i, (i < n)%nat -> act n A (fun j => nth j (solve b) 0) i = nth i b 0.

(** One step of length [h] for M u' = - A u with the Runge-Kutta method that has the tableau
<<
    kappa | kappa
      1   | 1 - kappa   kappa
    ------+-------------------
          | 1 - kappa   kappa
>>
    and kappa = 1 - sqrt 2 / 2. *)
Definition kappa : R := 1 - sqrt 2 / 2.
Definition sdirk_step (n : nat) (M A : nat -> nat -> R) (h : R) (u v : nat -> R) : Prop :=
  exists k1 k2 : nat -> R,
    (forall i, (i < n)%nat -> act n M k1 i = - act n A (fun j => u j + h * (kappa * k1 j)) i) /\
    (forall i, (i < n)%nat -> act n M k2 i = - act n A (fun j => u j + h * ((1 - kappa) * k1 j + kappa * k2 j)) i) /\
    (forall i, (i < n)%nat -> v i = u i + h * ((1 - kappa) * k1 i + kappa * k2 i)).
(** What a step does to an eigenvector with eigenvalue z / h. *)
Definition stability (z : R) : R := (1 - (1 - 2 * kappa) * z) / (1 + kappa * z) ^ 2.

(** The solution of  y' = lambda y (1 - y / K)  that starts in [u] has the value [v] after the time [t]. *)
Definition logistic_flow (K lambda t u v : R) : Prop :=
  exists y, y 0 = u /\ y t = v /\ forall s, 0 <= s <= t -> derivable_pt_lim y s (lambda * y s * (1 - y s / K)).

(** A splitting method does diffusion and reaction steps in turn. *)
Inductive stage := Diffusion (h : R) | Reaction (t : R).
Inductive run (n : nat) (M A : nat -> nat -> R) (cap : nat -> R) (lambda : R) : list stage -> (nat -> R) -> (nat -> R) -> Prop :=
| run_end : forall u v, (forall i, (i < n)%nat -> v i = u i) -> run n M A cap lambda [] u v
| run_diffusion : forall h l u w v, sdirk_step n M A h u w -> run n M A cap lambda l w v -> run n M A cap lambda (Diffusion h :: l) u v
| run_reaction : forall t l u w v, (forall i, (i < n)%nat -> logistic_flow (cap i) lambda t (u i) (w i)) ->
    run n M A cap lambda l w v -> run n M A cap lambda (Reaction t :: l) u v.
(** Half a step of diffusion, m - 2 times a step of reaction and one of diffusion, half a step of reaction. *)
Definition schedule (m : nat) (tau : R) : list stage :=
  Diffusion (tau / 2) :: concat (repeat [Reaction tau; Diffusion tau] (m - 2)) ++ [Reaction (tau / 2)].
Definition diffusion_time (l : list stage) : R := fold_right Rplus 0 (map (fun s => match s with Diffusion h => h | Reaction _ => 0 end) l).
Definition reaction_time (l : list stage) : R := fold_right Rplus 0 (map (fun s => match s with Diffusion _ => 0 | Reaction t => t end) l).
(** The time at which [schedule] ends. *)
Definition end_time (T : R) (m : nat) : R := if (m =? 1)%nat then T / 2 else T - 3 / 2 * (T / INR m).
Definition nonnegative (n : nat) (u : nat -> R) : Prop := forall i, (i < n)%nat -> 0 <= u i.
