(** Rules from make_QuadRule and the cache, for all reference elements. *)
From Coq Require Import Reals List Arith ZArith Lia Lra Bool.
From Coquelicot Require Import Coquelicot.
Import ListNotations.
From Verif Require Import Base MeshModel MeshView DofModel RefPatModel GeoModel GeoSpec
  FeModel LagrModel QuadModel HierModel FeSpec QuadSpec GaussSpec QuadRuleModel QuadProofs QuadProofs2 GaussProofs5
  CacheSpec CacheProofs TriaTab TriaSpec TriaProofs TriaProofs2.
Local Open Scope R_scope.

Section Rules.
Variables stop stopj : nat -> nat -> R.
Let leg := GaussLegendre stop.
Let jac := GaussJacobi stopj.
Lemma gauss_rules : forall hard el degree, el <> kPoint -> (el = kTria -> degree = 0%nat \/ (50 < degree)%nat) ->
  finds_legendre_zeros stop (degree / 2 + 1) -> finds_jacobi_zeros stopj (degree / 2 + 1) ->
  exists q, make_QuadRule leg jac hard el degree = Ok q /\ qr_degree q = (2 * (degree / 2 + 1) - 1)%nat /\ (degree <= qr_degree q)%nat /\
    rule_for el (qr_degree q) q /\ degree_of_exactness q (qr_degree q) /\ positive_inside q.
Proof.
  intros hard el degree Hel Ht F F'. pose proof (half degree) as Hh. destruct el; [congruence| | |].
  - destruct (segment_rule stop degree F) as (q & E & D & R1). exists q. split; [exact E|]. split; [exact D|]. split; [lia|exact R1].
  - destruct (duffy_rule stop stopj degree F F') as (q & E & D & R1). exists q. split; [|split; [exact D|split; [lia|exact R1]]].
    cbn [make_QuadRule]. unfold make_tria. destruct (Ht eq_refl) as [->|H]; [exact E|].
    replace (degree =? 3)%nat with false by (symmetry; apply Nat.eqb_neq; lia).
    replace (degree <=? 50)%nat with false by (symmetry; apply Nat.leb_gt; lia). rewrite andb_false_r. exact E.
  - destruct (quad_rule stop degree F) as (q & E & D & R1). exists q. split; [exact E|]. split; [exact D|]. split; [lia|exact R1].
Qed.
Lemma all_rules : forall el degree, el <> kPoint ->
  finds_legendre_zeros stop (degree / 2 + 1) -> finds_jacobi_zeros stopj (degree / 2 + 1) ->
  exists q, make_QuadRule leg jac HardcodedQuadRule el degree = Ok q /\ qr_el q = el /\ (degree <= qr_degree q)%nat.
Proof.
  intros el degree Hel F F'.
  assert (D : (el = kTria /\ (1 <= degree <= 50)%nat) \/ (el = kTria -> degree = 0%nat \/ (50 < degree)%nat)).
  { destruct el; try (right; congruence). destruct (le_lt_dec 1 degree); [destruct (le_lt_dec degree 50)|]; [left; auto|right; auto|right; lia]. }
  destruct D as [(-> & D)|D].
  - destruct (tria_tables leg jac degree D) as (q & k & E & Hk & T). exists q. destruct T. split; [exact E|]. split; [assumption|lia].
  - destruct (gauss_rules HardcodedQuadRule el degree Hel D F F') as (q & E & _ & Hd & Rf & _). exists q.
    split; [exact E|]. split; [apply Rf|exact Hd].
Qed.
Lemma cache_total : forall c el degree, calls leg jac HardcodedQuadRule empty_cache c -> el <> kPoint ->
  finds_legendre_zeros stop (degree / 2 + 1) -> finds_jacobi_zeros stopj (degree / 2 + 1) ->
  exists c' q, Get leg jac HardcodedQuadRule c el degree = Ok (c', q) /\
    make_QuadRule leg jac HardcodedQuadRule el degree = Ok q /\ qr_el q = el /\ (degree <= qr_degree q)%nat.
Proof.
  intros c el degree H Hel F F'. destruct (all_rules el degree Hel F F') as (q & E & El & D).
  pose proof (cache_transparent leg jac HardcodedQuadRule c el degree H) as G. rewrite E in G. destruct (G D) as (c' & E').
  exists c', q. auto.
Qed.
Lemma cache_point : forall c degree, calls leg jac HardcodedQuadRule empty_cache c ->
  Get leg jac HardcodedQuadRule c kPoint degree = Throw.
Proof. intros c degree H. exact (cache_transparent leg jac HardcodedQuadRule c kPoint degree H). Qed.
End Rules.
Lemma one_point : finds_legendre_zeros (fun _ _ => 0) 1 /\ finds_jacobi_zeros (fun _ _ => - (1 / 3)) 1.
Proof.
  split; split.
  - intros i _. split; [lra|]. cbn. field.
  - intros i j H1 H2. change ((1 + 1) / 2)%nat with 1%nat in H2. lia.
  - intros i _. cbn. field.
  - cbn. repeat constructor. intros [].
Qed.
Lemma cache_history : exists stop stopj c,
  calls (GaussLegendre stop) (GaussJacobi stopj) HardcodedQuadRule empty_cache c /\ exists q, stored c kSegment 1 = Some q /\ NumPoints q = 1%nat.
Proof.
  exists (fun _ _ => 0), (fun _ _ => - (1 / 3)). destruct one_point as (F & F').
  set (leg := GaussLegendre _). set (jac := GaussJacobi _).
  assert (C0 : calls leg jac HardcodedQuadRule empty_cache (after_failure empty_cache kPoint 3)).
  { apply calls_failed; [constructor|]. intros r. unfold leg, jac. rewrite cache_point by constructor. discriminate. }
  destruct (cache_total _ _ _ kSegment 1 C0 ltac:(discriminate) F F') as (c' & q & E & M & _).
  exists c'. split; [eapply calls_get; [exact C0|exact E]|]. exists q. split.
  - eapply (cache_keeps leg jac HardcodedQuadRule); [exact C0|exact E|constructor].
  - cbn [make_QuadRule] in M. unfold make_segment, GaussLegendre in M. cbn [Nat.div Nat.divmod fst snd Nat.add Nat.sub Nat.ltb Nat.leb lf_assert bind] in M.
    injection M as <-. reflexivity.
Qed.
