(** Vocabulary for the hierarchic finite elements. *)
From Coq Require Import Reals List Arith.
Import ListNotations.
From Verif Require Import Base MeshModel MeshView DofModel RefPatModel GeoModel GeoSpec FeModel FeSpec.
Local Open Scope R_scope.

(** The shape functions are numbered: first those of the [n] corners, then [d - 1]
    functions for every edge of degree [d], then the interior ones.  Number of the
    first function of edge [j]: *)
Definition first_of_edge (n : nat) (ed : list nat) (j : nat) : nat :=
  (n + list_sum (map (fun d => d - 1) (firstn j ed)))%nat.
(** The corners where edge [j] starts and ends, if it is run through in the direction
    [o]. *)
Definition edge_start (n j : nat) (o : bool) : nat := if o then j else ((j + 1) mod n)%nat.
Definition edge_end (n j : nat) (o : bool) : nat := if o then ((j + 1) mod n)%nat else j.
(** On edge [j], which has degree [d] and direction [o], the shape functions of [f] are
    those of the element [s] on a segment; the functions of an edge run through
    backwards are in reverse order.  All others vanish there. *)
Definition edge_trace (f s : srfe) (ed : list nat) (j : nat) (o : bool) (d : nat) : Prop :=
  let n := num_nodes (fe_el f) in
  let first := first_of_edge n ed j in
  forall t, exists v w, fe_eval f (edge_point (fe_el f) j o t) = Ok v /\ fe_eval s [t] = Ok w /\
    length v = fe_total f /\ length w = (d + 1)%nat /\
    (nth (edge_start n j o) v 0 = nth 0 w 0) /\ (nth (edge_end n j o) v 0 = nth 1 w 0) /\
    (forall i, (i < d - 1)%nat -> nth (first + (if o then i else d - 2 - i)) v 0 = nth (2 + i) w 0) /\
    (forall k, k <> edge_start n j o -> k <> edge_end n j o -> (k < first \/ first + (d - 1) <= k)%nat -> nth k v 0 = 0).
(** The value of the function with coefficients [u]. *)
Definition combination (f : srfe) (u x : list R) : res R := do b <- fe_eval f x; Ok (dot u b).
(** The degrees of freedom of every function of the local space, computed from its
    values at the evaluation nodes, are its coefficients. *)
Definition dual (f : srfe) : Prop :=
  forall u, length u = fe_total f ->
    exists v, traverse (combination f u) (fe_nodes f) = Ok v /\ fe_n2d f v = Ok u.
