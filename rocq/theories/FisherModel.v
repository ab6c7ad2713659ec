(** Model of projects/fisher_kpp/strangsplitting.cc and of the part of
    projects/fisher_kpp/strangsplitting.h that does the time stepping.
    Simplifications: exact real arithmetic.  Results of divisions by zero are kept as "infinite" or
    "not a number" as IEEE arithmetic has it, but the sign of zeros and infinities is not described,
    nor are overflow and underflow. *)
From Coq Require Import Reals List Arith Bool.
Import ListNotations.
From Verif Require Import Base Scalars GeoModel FeModel AssembleModel.
Local Open Scope R_scope.

(** A double: a number, an infinity, or not a number. *)
Inductive xreal := Fin (r : R) | Infinite | NaN.
(** A number divided by a double. *)
Definition xdiv (a : R) (b : xreal) : xreal :=
  match b with
  | Fin r => if Req_EM_T r 0 then (if Req_EM_T a 0 then NaN else Infinite) else Fin (a / r)
  | Infinite => Fin 0
  | NaN => NaN
  end.
(** A double plus a number; a double times a number that is not zero. *)
Definition xplus (x : xreal) (r : R) : xreal := match x with Fin s => Fin (s + r) | Infinite => Infinite | NaN => NaN end.
Definition xtimes (x : xreal) (r : R) : xreal := match x with Fin s => Fin (s * r) | Infinite => Infinite | NaN => NaN end.
(** Vectors of numbers. *)
Fixpoint numbers (l : list xreal) : option (list R) :=
  match l with
  | [] => Some []
  | Fin r :: t => match numbers t with Some t' => Some (r :: t') | None => None end
  | _ :: _ => None
  end.

(** Eigen: sums and multiples of vectors, matrix times vector. *)
Definition vplus (u v : list R) : list R := map (fun p => fst p + snd p) (combine u v).
Definition vtimes (a : R) (v : list R) : list R := map (Rmult a) v.
Definition times (A : dense Rring) (x : list R) : list R :=
  map (fun i => rsum (map (fun j => d_coef Rring A i j * nth j x 0) (seq 0 (d_cols Rring A)))) (seq 0 (d_rows Rring A)).
Definition mplus (A B : dense Rring) : dense Rring :=
  mkDense Rring (d_rows Rring A) (d_cols Rring A) (fun i j => d_coef Rring A i j + d_coef Rring B i j).
Definition mtimes (a : R) (A : dense Rring) : dense Rring :=
  mkDense Rring (d_rows Rring A) (d_cols Rring A) (fun i j => a * d_coef Rring A i j).

(** strangsplitting.h:52-72: the members *)
Record strang := mkStrang {
  N_dofs : nat;
  m_ : nat;
  tau_ : R;
  lambda_ : R;
  kappa_ : R;
  A_ : dense Rring;
  solver1 : list R -> list R;
  solver2 : list R -> list R
}.
(** strangsplitting.h:176-198, after assembleGalerkinMatrices.  [lu D] stands for SparseLU::compute:
    None if info() is not Success, else what solve computes.  [T / m] is no number for m = 0, which is
    not described: the model gives an assertion failure. *)
Definition StrangSplit (lu : dense Rring -> option (list R -> list R)) (N : nat) (T : R) (m : nat) (lambda : R)
    (A M : dense Rring) : res strang :=
  let kappa := 1 - / 2 * sqrt 2 in
  do _ <- lf_assert (negb (m =? 0))%nat;
  let tau := T / INR m in
  match lu (mplus M (mtimes (/ 2 * tau * kappa) A)) with
  | None => Throw
  | Some s1 =>
      match lu (mplus M (mtimes (tau * kappa) A)) with
      | None => Throw
      | Some s2 => Ok (mkStrang N m tau lambda kappa A s1 s2)
      end
  end.

Section Members.
Variable self : strang.
(** strangsplitting.cc:15-49.  Vectors of the wrong length are assertion failures of Eigen. *)
Definition diffusionEvolutionOperator (firstcall : bool) (mu : list R) : res (list R) :=
  do _ <- lf_assert (length mu =? d_cols Rring (A_ self))%nat;
  let rhs := vtimes (-1) (times (A_ self) mu) in
  if firstcall then
    let k1 := solver1 self rhs in
    let k2 := solver1 self (vplus rhs (vtimes (- (/ 2 * tau_ self * (1 - kappa_ self))) (times (A_ self) k1))) in
    Ok (vplus (vplus mu (vtimes (/ 2 * tau_ self * (1 - kappa_ self)) k1)) (vtimes (/ 2 * tau_ self * kappa_ self) k2))
  else
    let k1 := solver2 self rhs in
    let k2 := solver2 self (vplus rhs (vtimes (- (tau_ self * (1 - kappa_ self))) (times (A_ self) k1))) in
    Ok (vplus (vplus mu (vtimes (tau_ self * (1 - kappa_ self)) k1)) (vtimes (tau_ self * kappa_ self) k2)).
(** The same for vectors of doubles.  Simplification: if an entry is no number then none of the result is. *)
Definition diffusion (firstcall : bool) (x : list xreal) : res (list xreal) :=
  match numbers x with
  | Some mu => do v <- diffusionEvolutionOperator firstcall mu; Ok (map Fin v)
  | None => do _ <- lf_assert (length x =? d_cols Rring (A_ self))%nat; Ok (map (fun _ => NaN) x)
  end.
(** strangsplitting.cc:77-78, 86-87: [factor] is the value of exp *)
Definition reaction (cap : list R) (factor : R) (x : list xreal) : res (list xreal) :=
  do _ <- lf_assert ((length cap =? N_dofs self) && (length x =? N_dofs self))%nat;
  Ok (map (fun p => xdiv (fst p) (xplus (xtimes (xplus (xdiv (fst p) (snd p)) (-1)) factor) 1)) (combine cap x)).
(** strangsplitting.cc:74-83: [n] passes of the loop *)
Fixpoint time_steps (cap : list R) (n : nat) (sol_cur : list xreal) : res (list xreal) :=
  match n with
  | O => Ok sol_cur
  | S n' =>
      do sol_next <- reaction cap (exp (- lambda_ self * tau_ self)) sol_cur;
      do sol_next <- diffusion false sol_next;
      time_steps cap n' sol_next
  end.
(** strangsplitting.cc:54-92.  The loop runs for i = 1, ..., m_ - 2. *)
Definition Evolution (cap mu : list R) : res (list xreal) :=
  do sol_cur <- diffusionEvolutionOperator true mu;
  do sol_cur <- time_steps cap (m_ self - 1 - 1) (map Fin sol_cur);
  reaction cap (exp (- lambda_ self * tau_ self / 2)) sol_cur.
End Members.
