(** Specification for C77: arithmetic of mesh functions, pointwise. *)
From Coq Require Import List Arith Bool.
Import ListNotations.
From Verif Require Import Base DofModel MfModel.

Section Meaning.
Variable K : Type.
Variable T : Type.
Variables (zero : K) (add sub mul : K -> K -> K) (neg cj : K -> K).
Variables (tadd tsub tmul : T -> T -> T) (tneg : T -> T).
Notation point := (list Reals.Rdefinitions.R).

(** The value of a mesh function at one point: a scalar, an r x c matrix or array given by its
    entries, an object of another type. *)
Inductive pval := PScal (x : K) | PMat (array : bool) (r c : nat) (f : nat -> nat -> K) | POther (x : T).
Definition same (p q : pval) : Prop :=
  match p, q with
  | PScal x, PScal y => x = y
  | PMat a r c f, PMat a' r' c' g => a = a' /\ r = r' /\ c = c' /\ forall i j, i < r -> j < c -> f i j = g i j
  | POther x, POther y => x = y
  | _, _ => False
  end.

(** Operations on values; [None]: the operation is not defined for these kinds or sizes. *)
Fixpoint total (n : nat) (f : nat -> K) : K := match n with O => zero | S n' => add (total n' f) (f n') end.
Definition v_neg (p : pval) : option pval :=
  Some match p with PScal x => PScal (neg x) | PMat a r c f => PMat a r c (fun i j => neg (f i j)) | POther x => POther (tneg x) end.
(** Squared norms of scalars, column and row vectors. *)
Definition v_norm2 (p : pval) : option pval :=
  match p with
  | PScal x => Some (PScal (mul x (cj x)))
  | PMat false r 1 f => Some (PScal (total r (fun i => mul (f i 0) (cj (f i 0)))))
  | PMat false 1 c f => Some (PScal (total c (fun j => mul (f 0 j) (cj (f 0 j)))))
  | _ => None
  end.
Definition v_transpose (p : pval) : option pval :=
  match p with PMat a r c f => Some (PMat a c r (fun i j => f j i)) | _ => None end.
Definition v_adjoint (p : pval) : option pval :=
  match p with PMat false r c f => Some (PMat false c r (fun i j => cj (f j i))) | _ => None end.
Definition v_conj (p : pval) : option pval :=
  match p with PScal x => Some (PScal (cj x)) | PMat a r c f => Some (PMat a r c (fun i j => cj (f i j))) | _ => None end.
Definition v_both (f : K -> K -> K) (t : T -> T -> T) (p q : pval) : option pval :=
  match p, q with
  | PScal x, PScal y => Some (PScal (f x y))
  | PMat a r c g, PMat a' r' c' h =>
      if Bool.eqb a a' && (r =? r') && (c =? c') then Some (PMat a r c (fun i j => f (g i j) (h i j))) else None
  | POther x, POther y => Some (POther (t x y))
  | _, _ => None
  end.
Definition v_add := v_both add tadd.
Definition v_sub := v_both sub tsub.
(** Products: of scalars; a scalar and a matrix or array; the matrix product; the entrywise product of arrays. *)
Definition v_mul (p q : pval) : option pval :=
  match p, q with
  | PMat false r c g, PMat false r' c' h =>
      if c =? r' then Some (PMat false r c' (fun i j => total c (fun k => mul (g i k) (h k j)))) else None
  | PScal x, PMat a r c g => Some (PMat a r c (fun i j => mul x (g i j)))
  | PMat a r c g, PScal x => Some (PMat a r c (fun i j => mul x (g i j)))
  | _, _ => v_both mul tmul p q
  end.

Definition on2 (op : pval -> pval -> option pval) (p q : option pval) : option pval :=
  match p, q with Some a, Some b => op a b | _, _ => None end.
Definition on1 (op : pval -> option pval) (p : option pval) : option pval := match p with Some a => op a | None => None end.
(** The value of an expression at a point; F: the values of the given mesh functions. *)
Fixpoint meaning (F : nat -> ent -> point -> pval) (x : mexpr) (e : ent) (p : point) : option pval :=
  match x with
  | MLeaf n => Some (F n e p)
  | MNeg a => on1 v_neg (meaning F a e p)
  | MSquaredNorm a => on1 v_norm2 (meaning F a e p)
  | MTranspose a => on1 v_transpose (meaning F a e p)
  | MAdjoint a => on1 v_adjoint (meaning F a e p)
  | MConjugate a => on1 v_conj (meaning F a e p)
  | MAdd a b => on2 v_add (meaning F a e p) (meaning F b e p)
  | MSub a b => on2 v_sub (meaning F a e p) (meaning F b e p)
  | MMul a b => on2 v_mul (meaning F a e p) (meaning F b e p)
  end.

(** The value type of a mesh function. *)
Inductive vty := TScal | TMat (array : bool) (t : ety) | TOther.
Definition fits (o : option nat) (n : nat) : Prop := match o with Some k => n = k | None => True end.
Definition mat_ok (t : ety) (m : mat K) : Prop :=
  fits (et_rows t) (m_rows K m) /\ fits (et_cols t) (m_cols K m) /\ length (m_data K m) = m_rows K m * m_cols K m.
Definition has_type (t : vty) (v : vals K T) : Prop :=
  match t, v with
  | TScal, Scals _ _ _ => True
  | TMat a t, Mats _ _ a' t' l => a' = a /\ t' = t /\ Forall (mat_ok t) l
  | TOther, Others _ _ _ => True
  | _, _ => False
  end.
Definition value_at (v : vals K T) (k : nat) : option pval :=
  match v with
  | Scals _ _ l => option_map PScal (nth_error l k)
  | Mats _ _ a t l => option_map (fun m => PMat a (m_rows K m) (m_cols K m) (at_ K zero t m)) (nth_error l k)
  | Others _ _ l => option_map POther (nth_error l k)
  end.
(** A mesh function of type [t] that returns the values F at the points of the domain D: one
    value per point, in the order of the points. *)
Definition represents (D : ent -> point -> Prop) (mf : mfun K T) (t : vty) (F : ent -> point -> option pval) : Prop :=
  forall e pts, pts <> [] -> (forall p, In p pts -> D e p) ->
  exists v, mf e pts = Ok v /\ has_type t v /\ vsize K T v = length pts /\
    forall k p, nth_error pts k = Some p -> exists w d, F e p = Some w /\ value_at v k = Some d /\ same d w.

(** Types of expressions.  Matrices of fixed size must be stored in Eigen's default order or
    be vectors; squared norms are for scalars and vectors; there is no product of objects
    of other types. *)
Definition stored (t : ety) : Prop := et_rm t = default_order (et_rows t) (et_cols t) \/ et_rows t = Some 1 \/ et_cols t = Some 1.
Definition stored_if_fixed (t : ety) : Prop := match fixed t with Some _ => stored t | None => True end.
Definition same_if_fixed (t1 t2 : ety) : Prop :=
  match fixed t1, fixed t2 with Some a, Some b => a = b /\ stored t1 /\ stored t2 | _, _ => True end.
Definition nonempty (t : ety) : Prop := et_rows t <> Some 0 /\ et_cols t <> Some 0.
Definition sum_type (t1 t2 : ety) : ety :=
  match fixed t1, fixed t2 with
  | None, None => plain_ety None None
  | _, _ => plain_ety (max_dim (et_rows t1) (et_rows t2)) (max_dim (et_cols t1) (et_cols t2))
  end.
Definition product_type (t1 t2 : ety) : ety :=
  match et_rows t1, et_cols t2 with Some r, Some c => plain_ety (Some r) (Some c) | _, _ => plain_ety None None end.
Inductive typed (G : nat -> vty) : mexpr -> vty -> Prop :=
| ty_leaf : forall n, typed G (MLeaf n) (G n)
| ty_neg : forall a t, typed G a t -> typed G (MNeg a) t
| ty_norm_scal : forall a, typed G a TScal -> typed G (MSquaredNorm a) TScal
| ty_norm_vec : forall a t, typed G a (TMat false t) -> nonempty t -> (forall r c, fixed t = Some (r, c) -> r = 1 \/ c = 1) -> typed G (MSquaredNorm a) TScal
| ty_transpose : forall a b t, typed G a (TMat b t) -> typed G (MTranspose a) (TMat b (plain_ety (et_cols t) (et_rows t)))
| ty_adjoint : forall a t, typed G a (TMat false t) -> typed G (MAdjoint a) (TMat false (plain_ety (et_cols t) (et_rows t)))
| ty_conj_scal : forall a, typed G a TScal -> typed G (MConjugate a) TScal
| ty_conj_mat : forall a b t, typed G a (TMat b t) -> typed G (MConjugate a) (TMat b (plain_ety (et_rows t) (et_cols t)))
| ty_add_scal : forall a b, typed G a TScal -> typed G b TScal -> typed G (MAdd a b) TScal
| ty_add_mat : forall a b r t1 t2, typed G a (TMat r t1) -> typed G b (TMat r t2) -> same_if_fixed t1 t2 -> typed G (MAdd a b) (TMat r (sum_type t1 t2))
| ty_add_other : forall a b, typed G a TOther -> typed G b TOther -> typed G (MAdd a b) TOther
| ty_sub_scal : forall a b, typed G a TScal -> typed G b TScal -> typed G (MSub a b) TScal
| ty_sub_mat : forall a b r t1 t2, typed G a (TMat r t1) -> typed G b (TMat r t2) -> same_if_fixed t1 t2 -> typed G (MSub a b) (TMat r (sum_type t1 t2))
| ty_sub_other : forall a b, typed G a TOther -> typed G b TOther -> typed G (MSub a b) TOther
| ty_mul_scal : forall a b, typed G a TScal -> typed G b TScal -> typed G (MMul a b) TScal
| ty_mul_mat : forall a b t1 t2, typed G a (TMat false t1) -> typed G b (TMat false t2) -> typed G (MMul a b) (TMat false (product_type t1 t2))
| ty_mul_arr : forall a b t1 t2, typed G a (TMat true t1) -> typed G b (TMat true t2) -> same_if_fixed t1 t2 -> typed G (MMul a b) (TMat true (sum_type t1 t2))
| ty_scale : forall a b r t, typed G a TScal -> typed G b (TMat r t) -> stored_if_fixed t -> typed G (MMul a b) (TMat r (plain_ety (et_rows t) (et_cols t)))
| ty_scale' : forall a b r t, typed G a (TMat r t) -> typed G b TScal -> stored_if_fixed t -> typed G (MMul a b) (TMat r (plain_ety (et_rows t) (et_cols t))).
(** A constant: its value, its type; well-formed if it is a matrix. *)
Definition const_val (v : one_val K T) : pval :=
  match v with
  | OScal _ _ x => PScal x
  | OMat _ _ a t m => PMat a (m_rows K m) (m_cols K m) (at_ K zero t m)
  | OOther _ _ x => POther x
  end.
Definition const_type (v : one_val K T) : vty :=
  match v with OScal _ _ _ => TScal | OMat _ _ a t _ => TMat a t | OOther _ _ _ => TOther end.
Definition const_ok (v : one_val K T) : Prop := match v with OMat _ _ _ t m => mat_ok t m | _ => True end.
End Meaning.
