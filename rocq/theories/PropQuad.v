(** Properties C52-C54: quadrature rules. *)
From Coq Require Import Reals List Arith Lia Lra Bool.
Import ListNotations.
From Verif Require Import Base MeshModel MeshView DofModel RefPatModel GeoModel GeoSpec FeModel QuadModel HierModel FeSpec QuadSpec GaussSpec
  QuadRuleModel CacheSpec TriaTab TriaSpec TriaProofs TriaProofs2 QuadProofs GaussProofs5 CacheProofs CacheProofs2.
Local Open Scope R_scope.

(** C52: the rules for the triangle of degree 1 to 50 come from tables.  Every
    polynomial up to the degree of the rule is integrated with an error of at most
    10^-15 times the sum of the absolute values of its coefficients. *)
Theorem C52_tables : forall leg jac degree, (1 <= degree <= 50)%nat ->
  exists q k, make_QuadRule leg jac HardcodedQuadRule kTria degree = Ok q /\ (degree <= k)%nat /\ table_rule (1 / 10 ^ 15) k q.
Proof. exact tria_tables. Qed.
Print Assumptions C52_tables.

(** The weights sum up to the area of the triangle. *)
Theorem C52_weights : forall tol k q, table_rule tol k q -> Rabs (rsum (qr_weights q) - 1 / 2) <= tol.
Proof. exact table_sum. Qed.
Print Assumptions C52_weights.

(** The tables are not exact: the coordinates are rounded. *)
Theorem C52_exactly_refuted : exists q, HardcodedQuadRule 1 = Ok q /\ ~ exact_to q 1.
Proof. exact tables_rounded. Qed.
Print Assumptions C52_exactly_refuted.
(** The second moment of the rule of degree 2 *)
Example C52_moment : forall q k, table_rule (1 / 10 ^ 15) k q -> (2 <= k)%nat ->
  Rabs (quadrature q (monomial [2; 0]%nat) - 1 / 12) <= 1 / 10 ^ 15.
Proof. exact (table_moment_20 (1 / 10 ^ 15)). Qed.

(** C53: the rules made from Gauss rules.  For all degrees they have the advertised
    degree of exactness, positive weights and points in the interior, provided that the
    Newton iterations end at the zeros of the orthogonal polynomials. *)
Theorem C53_gauss : forall stop stopj hard el degree, el <> kPoint ->
  (el = kTria -> degree = 0%nat \/ (50 < degree)%nat) ->
  finds_legendre_zeros stop (degree / 2 + 1) -> finds_jacobi_zeros stopj (degree / 2 + 1) ->
  exists q, make_QuadRule (GaussLegendre stop) (GaussJacobi stopj) hard el degree = Ok q /\
    qr_degree q = (2 * (degree / 2 + 1) - 1)%nat /\ (degree <= qr_degree q)%nat /\
    rule_for el (qr_degree q) q /\ degree_of_exactness q (qr_degree q) /\ positive_inside q.
Proof. exact gauss_rules. Qed.
Print Assumptions C53_gauss.
(** Such zeros exist. *)
Theorem C53_zeros_exist : forall n,
  (exists stop, finds_legendre_zeros stop n) /\ (exists stopj, finds_jacobi_zeros stopj n).
Proof. exact (fun n => conj (legendre_zeros_exist n) (jacobi_zeros_exist n)). Qed.
Print Assumptions C53_zeros_exist.
Example C53_degree_101 : exists stop stopj, forall hard, exists q,
  make_QuadRule (GaussLegendre stop) (GaussJacobi stopj) hard kTria 101 = Ok q /\ degree_of_exactness q 101.
Proof.
  destruct (legendre_zeros_exist 51) as (stop & F). destruct (jacobi_zeros_exist 51) as (stopj & F'). exists stop, stopj. intros hard.
  destruct (C53_gauss stop stopj hard kTria 101 ltac:(discriminate) ltac:(intros; right; lia) F F') as (q & E & D & _ & _ & X & _).
  exists q. split; [exact E|]. rewrite D in X. exact X.
Qed.
(** The midpoint of [0, 1] is the zero for n = 1. *)
Example C53_one_point : finds_legendre_zeros (fun _ _ => 0) 1 /\ finds_jacobi_zeros (fun _ _ => - (1 / 3)) 1.
Proof. exact one_point. Qed.

(** C53: the other rules have the advertised degree of exactness. *)
Theorem C53_elementary :
  rule_max make_TriaQR_MidpointRule kTria 1 /\
  rule_max make_TriaQR_EdgeMidpointRule kTria 2 /\
  rule_max make_QuadQR_EdgeMidpointRule kQuad 1 /\
  rule_max make_TriaQR_P6O4 kTria 3 /\
  (forall t, t <> kPoint -> rule_max (make_QuadRuleNodal t) t 1).
Proof. exact (conj midpoint_max (conj edge_midpoint_max (conj quad_edge_midpoint_max (conj p6o4_max nodal_max)))). Qed.
Print Assumptions C53_elementary.

(** C54: after any sequence of calls, successful or not, the cache returns what
    make_QuadRule returns. *)
Theorem C54_transparent : forall leg jac hard c el degree, calls leg jac hard empty_cache c ->
  match make_QuadRule leg jac hard el degree with
  | Ok q => (degree <= qr_degree q)%nat -> exists c', Get leg jac hard c el degree = Ok (c', q)
  | Throw => Get leg jac hard c el degree = Throw
  | Assert => Get leg jac hard c el degree = Assert
  end.
Proof. exact cache_transparent. Qed.
Print Assumptions C54_transparent.
(** For all reference elements but points it returns a rule of sufficient degree. *)
Theorem C54_total : forall stop stopj c el degree,
  calls (GaussLegendre stop) (GaussJacobi stopj) HardcodedQuadRule empty_cache c -> el <> kPoint ->
  finds_legendre_zeros stop (degree / 2 + 1) -> finds_jacobi_zeros stopj (degree / 2 + 1) ->
  exists c' q, Get (GaussLegendre stop) (GaussJacobi stopj) HardcodedQuadRule c el degree = Ok (c', q) /\
    make_QuadRule (GaussLegendre stop) (GaussJacobi stopj) HardcodedQuadRule el degree = Ok q /\ qr_el q = el /\ (degree <= qr_degree q)%nat.
Proof. exact cache_total. Qed.
Print Assumptions C54_total.
(** A rule that was returned is not changed by later calls. *)
Theorem C54_kept : forall leg jac hard c c' c'' el degree q, calls leg jac hard empty_cache c ->
  Get leg jac hard c el degree = Ok (c', q) -> calls leg jac hard c' c'' -> stored c'' el degree = Some q.
Proof. exact cache_keeps. Qed.
Print Assumptions C54_kept.
(** A history: a rule for points is asked for, which fails, then one of degree 1 for
    segments. *)
Example C54_history : exists stop stopj c, 
  calls (GaussLegendre stop) (GaussJacobi stopj) HardcodedQuadRule empty_cache c /\ exists q, stored c kSegment 1 = Some q /\ NumPoints q = 1%nat.
Proof. exact cache_history. Qed.
