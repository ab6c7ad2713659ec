(** Vocabulary for properties of finite elements and finite element functions. *)
From Coq Require Import Reals List Arith.
Import ListNotations.
From Verif Require Import Base MeshModel MeshView DofModel RefPatModel GeoModel GeoSpec FeModel.
Local Open Scope R_scope.

Definition delta (i j : nat) : R := if Nat.eqb i j then 1 else 0.

(** Number of shape functions: advertised total, sum over all sub-entities, number
    returned by the evaluation, all agree. *)
Record counts (f : srfe) : Prop := {
  co_eval : forall x, length x = dimension (fe_el f) ->
     exists v, fe_eval f x = Ok v /\ length v = fe_total f;
  co_sub : exists n : nat -> nat -> nat,
     (forall c i, (c <= dimension (fe_el f))%nat -> (i < num_sub_entities (fe_el f) c)%nat ->
        fe_num2 f c i = Ok (n c i)) /\
     fe_total f = list_sum (map (fun c => list_sum (map (n c) (seq 0 (num_sub_entities (fe_el f) c))))
                                (seq 0 (dimension (fe_el f) + 1)))
}.
(** NumRefShapeFunctions(codim) agrees with NumRefShapeFunctions(codim, i). *)
Definition uniform_counts (f : srfe) : Prop :=
  forall c i, (c <= dimension (fe_el f))%nat -> (i < num_sub_entities (fe_el f) c)%nat ->
    fe_num1 f c = fe_num2 f c i.

(** The shape functions are cardinal for the evaluation nodes. *)
Definition cardinal (f : srfe) : Prop :=
  length (fe_nodes f) = fe_num_nodes f /\ fe_num_nodes f = fe_total f /\
  forall j p, nth_error (fe_nodes f) j = Some p ->
    exists v, fe_eval f p = Ok v /\ forall i, (i < fe_total f)%nat -> nth i v 0 = delta i j.
Definition partition_of_unity (f : srfe) : Prop :=
  forall x, length x = dimension (fe_el f) -> exists v, fe_eval f x = Ok v /\ rsum v = 1.

(** *** Polynomials *)
(** Exponents of the monomials of P_k, and of Q_k for the square. *)
Definition exponents (t : refel) (k : nat) : list (list nat) :=
  let s := seq 0 (k + 1) in
  match t with
  | kPoint => [[]]
  | kSegment => map (fun a => [a]) s
  | kTria => map (fun p => [fst p; snd p]) (filter (fun p => (fst p + snd p <=? k)%nat) (list_prod s s))
  | kQuad => map (fun p => [fst p; snd p]) (list_prod s s)
  end.
Definition monomial (e : list nat) (x : list R) : R :=
  fold_right Rmult 1 (map (fun p => snd p ^ fst p) (combine e x)).
Definition poly (es : list (list nat)) (c : list nat -> R) (x : list R) : R :=
  rsum (map (fun e => c e * monomial e x) es).
(** The shape functions belong to the polynomial space ... *)
Definition contained (f : srfe) (es : list (list nat)) : Prop :=
  forall i, (i < fe_total f)%nat -> exists c, forall x, length x = dimension (fe_el f) ->
    exists v, fe_eval f x = Ok v /\ nth i v 0 = poly es c x.
(** ... and every polynomial of the space is reproduced by interpolation. *)
Definition reproduces (f : srfe) (es : list (list nat)) : Prop :=
  forall c x, length x = dimension (fe_el f) ->
    exists v, fe_eval f x = Ok v /\ poly es c x = dot (map (poly es c) (fe_nodes f)) v.

(** *** Gradients *)
Definition shape_functions (f : srfe) (x : list R) : res vec :=
  match fe_eval f x with Ok v => Ok (fun i => nth i v 0) | Throw => Throw | Assert => Assert end.
Definition gradients_ok (f : srfe) : Prop :=
  forall x, length x = dimension (fe_el f) ->
    exists g, fe_grad f x = Ok g /\ length g = fe_total f /\
      (forall r, In r g -> length r = dimension (fe_el f)) /\
      derivative (fe_total f) (shape_functions f) x
        (map (fun j => fun i => nth j (nth i g []) 0) (seq 0 (dimension (fe_el f)))).

(** *** Continuity *)
(** Where the point with parameter [t] of an edge lies in the reference element of a
    cell, of which the edge is local edge number [j], run through in its own
    direction if [o]. *)
Definition edge_point (el : refel) (j : nat) (o : bool) (t : R) : list R :=
  on_edge el j (if o then t else 1 - t).
(** The finite element function has a value on every edge, which it takes as well
    when evaluated from any cell with this edge; the same for nodes. *)
Record continuous (V : fe_space) (u : list R) : Prop := {
  cn_edge : forall i c j e o t, nth_error (mv_cells (sp_mesh V)) i = Some c ->
     nth_error (cv_edges c) j = Some e -> nth_error (cv_ori c) j = Some o ->
     exists w, fe_value V u (EEdge e) [t] = Ok w /\
               fe_value V u (ECell i) (edge_point (cv_type c) j o t) = Ok w;
  cn_node : forall i c j n, nth_error (mv_cells (sp_mesh V)) i = Some c ->
     nth_error (cv_nodes c) j = Some n ->
     exists w, fe_value V u (ENode n) [] = Ok w /\
               fe_value V u (ECell i) (ref_node (cv_type c) j) = Ok w;
  cn_ends : forall e a b, nth_error (mv_edges (sp_mesh V)) e = Some (a, b) ->
     exists wa wb, fe_value V u (ENode a) [] = Ok wa /\ fe_value V u (ENode b) [] = Ok wb /\
       fe_value V u (EEdge e) [0] = Ok wa /\ fe_value V u (EEdge e) [1] = Ok wb
}.
