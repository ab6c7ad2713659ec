(** Vocabulary for element matrices and vectors. *)
From Coq Require Import Reals List Arith.
Import ListNotations.
From Verif Require Import Base MeshModel MeshView DofModel RefPatModel GeoModel GeoSpec FeModel QuadModel FeSpec QuadSpec ElemModel.
Local Open Scope R_scope.

(** [b i] is shape function [i], [vol] the volume element (root of the Gramian
    determinant of the derivative of the parametrization), at the points [pts]. *)
Definition shape_at (f : srfe) (b : nat -> list R -> R) (p : list R) : Prop :=
  exists v, fe_eval f p = Ok v /\ length v = fe_total f /\ forall i, (i < fe_total f)%nat -> nth i v 0 = b i p.
Definition volume_at (g : geo) (vol : list R -> R) (p : list R) : Prop :=
  exists J, Jacobian g p = Ok J /\ vol p = sqrt (gramian_det (go_dim g) J).
Definition value_at {A} (m : mesh_fun A) (h : list R -> A) (p : list R) : Prop := m p = Ok (h p).
(** [G] is the gradient, in world coordinates, of a function on the cell whose
    derivatives with respect to the reference coordinates are [r]: a tangent vector
    whose inner products with the columns of the Jacobian are the components of [r]. *)
Definition world_gradient (d : nat) (J : list vec) (r : list R) (G : vec) : Prop :=
  (forall c, (c < length J)%nat -> inner d (nth c J vzero) G = nth c r 0) /\
  exists s, length s = length J /\ forall k, (k < d)%nat -> G k = apply J s k.
(** [G i] is the gradient of shape function [i] at [p], in world coordinates. *)
Definition gradient_at (g : geo) (f : srfe) (G : nat -> list R -> vec) (p : list R) : Prop :=
  exists J gr, Jacobian g p = Ok J /\ gramian_det (go_dim g) J <> 0 /\ fe_grad f p = Ok gr /\
    forall i, (i < fe_total f)%nat -> world_gradient (go_dim g) J (nth i gr []) (G i p).
Definition at_points (q : quadrule) (P : list R -> Prop) : Prop := forall p, In p (qr_points q) -> P p.
(** A rule with as many weights as points, all of them reference points of the cell,
    with volume elements [vol]. *)
Definition rule_on (q : quadrule) (g : geo) (vol : list R -> R) : Prop :=
  length (qr_weights q) = length (qr_points q) /\ at_points q (admissible g) /\ at_points q (volume_at g vol).
Definition nonnegative_weights (q : quadrule) : Prop := forall w, In w (qr_weights q) -> 0 <= w.
(** The flux: coefficient times vector. *)
Definition flux (d : nat) (a : coeff) (v : vec) (k : nat) : R :=
  match a with Scal s => s * v k | Tens A => fold_right Rplus 0 (map (fun l => A k l * v l) (seq 0 d)) end.
Definition symmetric_coeff (d : nat) (a : coeff) : Prop :=
  match a with Scal _ => True | Tens A => forall k l, (k < d)%nat -> (l < d)%nat -> A k l = A l k end.
Definition nonnegative_coeff (d : nat) (a : coeff) : Prop := forall v, 0 <= inner d v (flux d a v).

(** An affine (triangular or quadrilateral) cell with straight edges, volume elements
    [vol], and an element of degree [k] whose shape functions are polynomials of P_k,
    or Q_k on the square. *)
Record affine_cell (g : geo) (f : srfe) (k : nat) (vol : list R -> R) : Prop := {
  ac_affine : isAffine g = true;
  ac_straight : is_o2 (go_kind g) = false;
  ac_dim : dim_local (go_kind g) = 2%nat;
  ac_el : fe_el f = kind_el (go_kind g);
  ac_degree : fe_degree f = k;
  ac_contained : contained f (exponents (kind_el (go_kind g)) k);
  ac_volume : forall p, length p = 2%nat -> volume_at g vol p
}.
Definition everywhere (P : list R -> Prop) : Prop := forall p, length p = 2%nat -> P p.

(** *** Matrices and vectors *)
Definition sum_to (n : nat) (h : nat -> R) : R := fold_right Rplus 0 (map h (seq 0 n)).
Definition is_matrix (r : res emat) (n : nat) (h : nat -> nat -> R) : Prop :=
  exists M, r = Ok M /\ em_n M = n /\ forall i j, (i < n)%nat -> (j < n)%nat -> em_at M i j = h i j.
Definition is_vector (r : res (list R)) (n : nat) (h : nat -> R) : Prop :=
  exists v, r = Ok v /\ length v = n /\ forall i, (i < n)%nat -> nth i v 0 = h i.
Definition quadratic_form (M : emat) (u : nat -> R) : R :=
  sum_to (em_n M) (fun i => sum_to (em_n M) (fun j => u i * em_at M i j * u j)).
Definition symmetric (M : emat) : Prop :=
  forall i j, (i < em_n M)%nat -> (j < em_n M)%nat -> em_at M i j = em_at M j i.
Definition positive_semidefinite (M : emat) : Prop := forall u, 0 <= quadratic_form M u.
(** Value and gradient of the function with coefficients [u]. *)
Definition fe_fun (n : nat) (u : nat -> R) (b : nat -> list R -> R) (p : list R) : R := sum_to n (fun i => u i * b i p).
Definition fe_gradient (n : nat) (u : nat -> R) (G : nat -> list R -> vec) (p : list R) : vec :=
  fun k => sum_to n (fun i => u i * G i p k).
(** M * u *)
Definition image (M : emat) (u : nat -> R) (i : nat) : R := sum_to (em_n M) (fun j => em_at M i j * u j).

(** *** Linear elements *)
(** [c i + gr i . x] are the barycentric coordinate functions of the triangle with
    corners [v]: affine functions that take the value 1 at corner [i] and 0 at the others. *)
Definition barycentric (v : nat -> vec) (c : nat -> R) (gr : nat -> vec) : Prop :=
  forall i j, (i < 3)%nat -> (j < 3)%nat -> c i + inner 2 (gr i) (v j) = delta i j.
(** The Gauss rule with four points on the unit square. *)
Definition gauss4 : quadrule :=
  let a := (1 - 1 / sqrt 3) / 2 in let b := (1 + 1 / sqrt 3) / 2 in
  mkQr kQuad [[a; a]; [b; a]; [a; b]; [b; b]] [1 / 4; 1 / 4; 1 / 4; 1 / 4] 3.
(** Local shape functions of a linear element: 1 at one corner, 0 at the others. *)
Definition hat (t : refel) (i : nat) (p : list R) : R :=
  match t, p with
  | kTria, [x; y] => nth i [1 - x - y; x; y] 0
  | kQuad, [x; y] => nth i [(1 - x) * (1 - y); x * (1 - y); x * y; (1 - x) * y] 0
  | _, _ => 0
  end.
Definition midpoint (t : refel) (m : nat) : list R := on_edge t m (1 / 2).
