(** C88 for meshes whose cells are straight. *)
From Coq Require Import Reals List Arith ZArith Lia Lra Bool.
Import ListNotations.
From Verif Require Import Base MeshModel MeshView RefPatModel GeoModel GeoSpec DofModel FlagModel FlagSpec FeModel QuadModel FeSpec QuadSpec GaussSpec QuadRuleModel GaussProofs5 CacheProofs2 DpgModel NormalModel NormalSpec NormalProofs3 NormalProofs5 NormalProofs6.
Local Open Scope R_scope.

Theorem mesh_normals : forall m geom d e c i N c' i' N', wf_mesh m -> straight_cells m geom -> SignProvider m = Ok d ->
  c <> c' -> edge_of m c i e -> edge_of m c' i' e -> (forall c2, cell_at_edge m e c2 -> c2 = c \/ c2 = c') ->
  common_edge (polygon geom c) i (polygon geom c') i' -> disjoint_interiors (polygon geom c) (polygon geom c') ->
  OuterNormals (geom (DofModel.ECell c)) = Ok N -> OuterNormals (geom (DofModel.ECell c')) = Ok N' ->
  exists s s', PrescribedSign d c e = Ok s /\ PrescribedSign d c' e = Ok s' /\ (s' = - s)%Z /\ (s = 1 \/ s = -1)%Z /\
    forall k, (k < 2)%nat -> nth i' N' vzero k = - nth i N vzero k /\ IZR s' * nth i' N' vzero k = IZR s * nth i N vzero k.
Proof.
  intros m geom d e c i N c' i' N' W G E Ne Ec Ec' Two C D HN HN'.
  assert (L : forall c i, edge_of m c i e -> straight (geom (DofModel.ECell c)) /\ (i < length (polygon geom c))%nat).
  { intros c0 i0 [v [Hv Hi]]. split; [apply (G c0 v Hv)|]. rewrite (proj1 (polygon_length m geom c0 v W G Hv)). apply nth_error_Some. rewrite Hi. discriminate. }
  destruct (L c i Ec) as [S1 L1]. destruct (L c' i' Ec') as [S2 L2].
  exact (consistent_normals m geom d e c i N c' i' N' W E S1 S2 L1 L2 HN HN' Ne Ec Ec' Two C D).
Qed.
Theorem boundary_sign : forall m d e c, wf_mesh m -> SignProvider m = Ok d -> one_cell_at m e -> cell_at_edge m e c -> PrescribedSign d c e = Ok 1%Z.
Proof.
  intros m d e c W E One Hc. destruct (one_sign m d e c W E Hc) as [c0 [A [B _]]]. destruct Hc as [i Hi], A as [i0 Hi0].
  destruct (one_cell_unique m e c i c0 i0 One Hi Hi0) as [-> _]. exact B.
Qed.

Theorem rules_exist : forall degree, exists k q, (degree <= k)%nat /\ rule_for kSegment k q.
Proof.
  intros degree. destruct (legendre_zeros_exist (degree / 2 + 1)) as (stop & F). destruct (jacobi_zeros_exist (degree / 2 + 1)) as (stopj & F').
  destruct (gauss_rules stop stopj (fun _ => Assert) kSegment degree ltac:(discriminate) ltac:(discriminate) F F') as (q & _ & _ & D & X & _).
  exists (qr_degree q), q. auto.
Qed.
