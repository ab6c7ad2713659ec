(** Model of the operators on mesh functions: lib/lf/mesh/utils/mesh_function_{unary,binary,
    constant,global}.h.
    Simplifications: one scalar type per expression (mixed scalar types are rejected by the
    compiler or converted); scalars are an arbitrary type with the operations used, sums are
    evaluated from the left to the right; Eigen's lazy evaluation has no effect. *)
From Coq Require Import List Arith Bool.
Import ListNotations.
From Verif Require Import Base RefPatModel DofModel GeoModel FeModel.

(** The type Eigen::Matrix<S, R, C, O> or Eigen::Array<S, R, C, O>: numbers of rows and columns,
    [None] for Eigen::Dynamic, and the storage order. *)
Record ety := mkEty { et_rows : option nat; et_cols : option nat; et_rm : bool }.
(** Eigen's default for the template parameter O: row vectors are row-major. *)
Definition default_order (r c : option nat) : bool :=
  match r with Some 1 => negb (match c with Some 1 => true | _ => false end) | _ => false end.
Definition plain_ety (r c : option nat) : ety := mkEty r c (default_order r c).
(** Compile-time constants R != Eigen::Dynamic && C != Eigen::Dynamic. *)
Definition fixed (t : ety) : option (nat * nat) :=
  match et_rows t, et_cols t with Some r, Some c => Some (r, c) | _, _ => None end.
(** std::max of the template arguments, where Eigen::Dynamic is -1. *)
Definition max_dim (a b : option nat) : option nat :=
  match a, b with Some x, Some y => Some (Nat.max x y) | Some x, None => Some x | None, y => y end.

Section Values.
Variable K : Type.
Variable T : Type.
Variables (zero : K) (add sub mul : K -> K -> K) (neg cj : K -> K).
Variables (tadd tsub tmul : T -> T -> T) (tneg : T -> T).

(** A matrix object: its current size and its coefficients in memory. *)
Record mat := mkMat { m_rows : nat; m_cols : nat; m_data : list K }.
(** Coefficient access. *)
Definition at_ (t : ety) (m : mat) (i j : nat) : K :=
  nth (if et_rm t then i * m_cols m + j else j * m_rows m + i) (m_data m) zero.
(** Assignment of an r x c expression with coefficients f to an object of type t. *)
Definition assign (t : ety) (r c : nat) (f : nat -> nat -> K) : mat :=
  mkMat r c (if et_rm t then flat_map (fun i => map (fun j => f i j) (seq 0 c)) (seq 0 r)
             else flat_map (fun j => map (fun i => f i j) (seq 0 r)) (seq 0 c)).
(** The std::vector that a mesh function returns: scalars, matrices or arrays, objects of another type. *)
Inductive vals :=
| Scals (l : list K)
| Mats (array : bool) (t : ety) (l : list mat)
| Others (l : list T).
Definition vsize (v : vals) : nat := match v with Scals l => length l | Mats _ _ l => length l | Others l => length l end.

(** Eigen's coefficient-wise operations on two maps of row vectors require the same size. *)
Definition zip2 {A} (f : A -> A -> A) (u v : list A) : res (list A) :=
  do _ <- lf_assert (length u =? length v); Ok (map (fun p => f (fst p) (snd p)) (combine u v)).
(** Consecutive pieces of length n: the objects of a std::vector of fixed size matrices,
    written through a map of all of its memory. *)
Fixpoint chunks {A} (n k : nat) (l : list A) : list (list A) :=
  match k with O => [] | S k' => firstn n l :: chunks n k' (skipn n l) end.
Definition memory (l : list mat) : list K := concat (map m_data l).
Definition refill (r c k : nat) (l : list K) : list mat := map (mkMat r c) (chunks (r * c) k l).
(** Loops that access u[i] and v[i] for i < u.size(); accesses past the end are undefined. *)
Fixpoint loop2 {A B C} (f : A -> B -> res C) (u : list A) (v : list B) : res (list C) :=
  match u, v with
  | [], _ => Ok []
  | x :: u', y :: v' => do z <- f x y; do r <- loop2 f u' v'; Ok (z :: r)
  | _ :: _, [] => Assert
  end.

(** *** mesh_function_unary.h *)
(** 53-131: UnaryOpMinus.  [&u[0]] is undefined for an empty vector. *)
Definition op_minus (u : vals) : res vals :=
  match u with
  | Scals l => Ok (Scals (map neg l))
  | Mats a t l =>
      match fixed t with
      | Some (r, c) =>
          if (r =? 0) || (c =? 0) then Ok u
          else do _ <- lf_assert (0 <? length l);
               Ok (Mats a t (refill r c (length l) (map neg (memory l))))
      | None => Ok (Mats a t (map (fun m => assign t (m_rows m) (m_cols m) (fun i j => neg (at_ t m i j))) l))
      end
  | Others l => Ok (Others (map tneg l))
  end.
Definition sum_up (l : list K) : K := fold_left add l zero.
(** squaredNorm of Eigen: the coefficients in memory. *)
Definition sq (x : K) : K := mul x (cj x).
(** 133-175: UnaryOpSquaredNorm; Throw: no overload. *)
Definition op_squaredNorm (u : vals) : res vals :=
  match u with
  | Scals l => Ok (Scals (map sq l))
  | Mats false t l =>
      match fixed t with
      | Some (r, c) =>
          do _ <- verify (negb ((r =? 0) || (c =? 0)));
          if c =? 1 then do _ <- lf_assert (0 <? length l);
            Ok (Scals (map (fun d => sum_up (map sq d)) (chunks r (length l) (memory l))))
          else if r =? 1 then do _ <- lf_assert (0 <? length l);
            Ok (Scals (map (fun d => sum_up (map sq d)) (chunks c (length l) (memory l))))
          else Ok (Scals (repeat zero (length l)))
      | None => Ok (Scals (map (fun m => sum_up (map sq (m_data m))) l))
      end
  | _ => Throw
  end.
(** 177-201: UnaryOpTranspose *)
Definition op_transpose (u : vals) : res vals :=
  match u with
  | Mats a t l =>
      let t' := plain_ety (et_cols t) (et_rows t) in
      Ok (Mats a t' (map (fun m => assign t' (m_cols m) (m_rows m) (fun i j => at_ t m j i)) l))
  | _ => Throw
  end.
(** 203-214: UnaryOpAdjoint *)
Definition op_adjoint (u : vals) : res vals :=
  match u with
  | Mats false t l =>
      let t' := plain_ety (et_cols t) (et_rows t) in
      Ok (Mats false t' (map (fun m => assign t' (m_cols m) (m_rows m) (fun i j => cj (at_ t m j i))) l))
  | _ => Throw
  end.
(** 216-249: UnaryOpConjugate *)
Definition op_conjugate (u : vals) : res vals :=
  match u with
  | Scals l => Ok (Scals (map cj l))
  | Mats a t l =>
      let t' := plain_ety (et_rows t) (et_cols t) in
      Ok (Mats a t' (map (fun m => assign t' (m_rows m) (m_cols m) (fun i j => cj (at_ t m i j))) l))
  | Others _ => Throw
  end.

(** *** mesh_function_binary.h *)
(** 123-234 (addition), 291-410 (subtraction), 500-557 (multiplication of arrays); Throw:
    static_assert. *)
Definition coefficientwise (f : K -> K -> K) (a : bool) (t1 : ety) (u : list mat) (t2 : ety) (v : list mat) : res vals :=
  match fixed t1, fixed t2 with
  | Some (r1, c1), Some (r2, c2) =>
      do _ <- verify ((r1 =? r2) && (c1 =? c2));
      do _ <- lf_assert ((0 <? length u) && (0 <? length v));
      do w <- zip2 f (memory u) (memory v);
      Ok (Mats a (plain_ety (et_rows t1) (et_cols t1)) (refill r1 c1 (length u) w))
  | None, None =>
      let t := plain_ety None None in
      do w <- loop2 (fun x y =>
        do _ <- lf_assert (m_rows x =? m_rows y);
        do _ <- lf_assert (m_cols x =? m_cols y);
        Ok (assign t (m_rows x) (m_cols x) (fun i j => f (at_ t1 x i j) (at_ t2 y i j)))) u v;
      Ok (Mats a t w)
  | _, _ =>
      let t := plain_ety (max_dim (et_rows t1) (et_rows t2)) (max_dim (et_cols t1) (et_cols t2)) in
      do w <- loop2 (fun x y =>
        do _ <- lf_assert (m_rows x =? m_rows y);
        do _ <- lf_assert (m_cols x =? m_cols y);
        Ok (assign t (m_rows x) (m_cols x) (fun i j => f (at_ t1 x i j) (at_ t2 y i j)))) u v;
      Ok (Mats a t w)
  end.
(** 95-248: OperatorAddition.  Combinations without a rule are rejected by the compiler: Throw. *)
Definition op_plus (u v : vals) : res vals :=
  match u, v with
  | Scals l, Scals l' => do w <- zip2 add l l'; Ok (Scals w)
  | Mats a t l, Mats a' t' l' => do _ <- verify (Bool.eqb a a'); coefficientwise add a t l t' l'
  | Others l, Others l' => do w <- loop2 (fun x y => Ok (tadd x y)) l l'; Ok (Others w)
  | _, _ => Throw
  end.
(** 262-425: OperatorSubtraction *)
Definition op_sub (u v : vals) : res vals :=
  match u, v with
  | Scals l, Scals l' => do w <- zip2 sub l l'; Ok (Scals w)
  | Mats a t l, Mats a' t' l' => do _ <- verify (Bool.eqb a a'); coefficientwise sub a t l t' l'
  | Others l, Others l' => do w <- loop2 (fun x y => Ok (tsub x y)) l l'; Ok (Others w)
  | _, _ => Throw
  end.
(** Entry of a matrix product. *)
Definition dot_ (n : nat) (f g : nat -> K) : K := sum_up (map (fun k => mul (f k) (g k)) (seq 0 n)).
(** 464-495: products of matrices *)
Definition matrix_product (t1 : ety) (u : list mat) (t2 : ety) (v : list mat) : res vals :=
  let t := match et_rows t1, et_cols t2 with Some r, Some c => plain_ety (Some r) (Some c) | _, _ => plain_ety None None end in
  do _ <- verify (match et_rows t1, et_cols t2, et_cols t1, et_rows t2 with
                  | Some _, Some _, Some c, Some r => c =? r | _, _, _, _ => true end);
  do w <- loop2 (fun x y =>
    do _ <- lf_assert (m_cols x =? m_rows y);
    Ok (assign t (m_rows x) (m_cols y) (fun i j => dot_ (m_cols x) (fun k => at_ t1 x i k) (fun k => at_ t2 y k j)))) u v;
  Ok (Mats false t w).
(** 559-583, 592-616: scalar times matrix or array.  In the branch of fixed size every object
    is multiplied in memory with its scalar. *)
Definition scale (a : bool) (u : list K) (t : ety) (v : list mat) : res vals :=
  let t' := plain_ety (et_rows t) (et_cols t) in
  match fixed t with
  | Some (r, c) =>
      do _ <- lf_assert ((0 <? length u) && (0 <? length v));
      do _ <- lf_assert (length u =? length v);
      let w := concat (map (fun p => map (fun x => mul x (fst p)) (snd p)) (combine u (chunks (r * c) (length v) (memory v)))) in
      Ok (Mats a t' (refill r c (length u) w))
  | None =>
      do w <- loop2 (fun s y => Ok (assign t' (m_rows y) (m_cols y) (fun i j => mul s (at_ t y i j)))) u v;
      Ok (Mats a t' w)
  end.
(** 439-636: OperatorMultiplication.  In the general overload [result.size()] is zero before
    the loop (629-633). *)
Definition op_times (u v : vals) : res vals :=
  match u, v with
  | Scals l, Scals l' => do w <- zip2 mul l l'; Ok (Scals w)
  | Mats false t l, Mats false t' l' => matrix_product t l t' l'
  | Mats true t l, Mats true t' l' => coefficientwise mul true t l t' l'
  | Scals l, Mats a t l' => scale a l t l'
  | Mats a t l, Scals l' => scale a l' t l
  | Others l, Others l' => do w <- loop2 (fun x y => Ok (tmul x y)) (firstn 0 l) l'; Ok (Others w)
  | _, _ => Throw
  end.

(** *** Mesh functions *)
(** operator()(e, local); [local] is the list of columns. *)
Definition mfun : Type := ent -> list (list Reals.Rdefinitions.R) -> res vals.
(** mesh_function_unary.h:38-50 *)
Definition MeshFunctionUnary (op : vals -> res vals) (a : mfun) : mfun := fun e local => do u <- a e local; op u.
(** mesh_function_binary.h:50-74 *)
Definition MeshFunctionBinary (op : vals -> vals -> res vals) (a b : mfun) : mfun :=
  fun e local => do u <- a e local; do v <- b e local; op u v.
(** mesh_function_constant.h:30-44, for a scalar, a matrix or array of type t, another object *)
Inductive one_val := OScal (x : K) | OMat (array : bool) (t : ety) (m : mat) | OOther (x : T).
Definition MeshFunctionConstant (v : one_val) : mfun := fun _ local =>
  Ok (match v with
      | OScal x => Scals (repeat x (length local))
      | OMat a t m => Mats a t (repeat m (length local))
      | OOther x => Others (repeat x (length local))
      end).
(** mesh_function_global.h:40-98, for a scalar valued function *)
Definition MeshFunctionGlobal (ety : ent -> nat) (geom : ent -> geo) (f : vec -> K) : mfun := fun e local =>
  do _ <- lf_assert (forallb (fun x => length x =? ety e) local);
  do pts <- traverse (Global (geom e)) local;
  Ok (Scals (map f pts)).
(** The operators, unary 262-337, binary 663-725: expressions over mesh functions. *)
Inductive mexpr :=
| MLeaf (n : nat)
| MNeg (a : mexpr) | MSquaredNorm (a : mexpr) | MTranspose (a : mexpr) | MAdjoint (a : mexpr) | MConjugate (a : mexpr)
| MAdd (a b : mexpr) | MSub (a b : mexpr) | MMul (a b : mexpr).
Fixpoint mesh_function (env : nat -> mfun) (x : mexpr) : mfun :=
  match x with
  | MLeaf n => env n
  | MNeg a => MeshFunctionUnary op_minus (mesh_function env a)
  | MSquaredNorm a => MeshFunctionUnary op_squaredNorm (mesh_function env a)
  | MTranspose a => MeshFunctionUnary op_transpose (mesh_function env a)
  | MAdjoint a => MeshFunctionUnary op_adjoint (mesh_function env a)
  | MConjugate a => MeshFunctionUnary op_conjugate (mesh_function env a)
  | MAdd a b => MeshFunctionBinary op_plus (mesh_function env a) (mesh_function env b)
  | MSub a b => MeshFunctionBinary op_sub (mesh_function env a) (mesh_function env b)
  | MMul a b => MeshFunctionBinary op_times (mesh_function env a) (mesh_function env b)
  end.
End Values.
