(** Property C42, continued: when the geometries of children can be constructed. *)
From Coq Require Import Reals List Arith ZArith Lra.
Import ListNotations.
From Verif Require Import Base MeshModel RefPatModel RefPatSpec GeoModel GeoSpec GeoProofs8 PropGeo.
Local Open Scope R_scope.

(** Second-order geometries accept every implemented pattern; straight edges, straight
    triangles and parallelograms accept copies and regular refinement. *)
Theorem C42_success : forall g P codim, constructed g -> tame g -> go_kind g <> GPoint -> p_lc P = 6%Z -> p_el P = kind_el (go_kind g) ->
  implemented (p_el P) (p_pat P) = true -> good_anchor (p_el P) (p_pat P) (p_anchor P) -> (codim <= dim_local (go_kind g))%nat ->
  (is_o2 (go_kind g) = false -> dim_local (go_kind g) = 2%nat -> p_pat P = rp_copy \/ p_pat P = rp_regular) ->
  exists cs, ChildGeometry g P codim = Ok cs /\ Forall (fun c => tame c /\ (is_o2 (go_kind g) = true -> is_o2 (go_kind c) = true \/ go_kind c = GPoint)) cs.
Proof. exact children_succeed. Qed.
Print Assumptions C42_success.
Example C42_success_example : exists P, new_pattern kQuad rp_trisect (Some 2%nat) = Ok P /\ constructed cushion /\ tame cushion /\
  implemented (p_el P) (p_pat P) = true /\ good_anchor (p_el P) (p_pat P) (p_anchor P) /\ exists cs, ChildGeometry cushion P 0 = Ok cs.
Proof.
  exists (mkPattern kQuad rp_trisect (Some 2%nat) 6). split; [reflexivity|]. split; [apply cushion_constructed|].
  assert (T : tame cushion) by (intros [X|X]; discriminate). assert (G : good_anchor kQuad rp_trisect (Some 2%nat)) by (cbn; repeat constructor).
  split; [exact T|]. split; [reflexivity|]. split; [exact G|].
  destruct (C42_success cushion (mkPattern kQuad rp_trisect (Some 2%nat) 6) 0) as (cs & H & _); try reflexivity; try discriminate; auto.
  - apply cushion_constructed.
  - repeat constructor.
  - eauto.
Qed.
(** A straight triangle that is accepted although it is thin (height 1, base 10000)
    cannot be refined barycentrically: the check for degenerate triangles rejects a child. *)
Theorem C42_barycentric_refuted : exists g P, constructed g /\ go_kind g = GTriaO1 /\ new_pattern kTria rp_barycentric None = Ok P /\ ChildGeometry g P 0 = Throw.
Proof. destruct thin_barycentric as (P & H1 & H2). exists thin, P. split; [exact thin_ok|]. auto. Qed.
Print Assumptions C42_barycentric_refuted.
