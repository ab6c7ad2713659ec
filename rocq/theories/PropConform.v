(** Property C70: refinement leaves no gaps between cells. *)
From Coq Require Import Reals List Arith Bool.
Import ListNotations.
From Verif Require Import Base PropRefine MeshModel MeshView RefPatModel RefineModel RefineSpec DofModel DofSpec GeoModel GeoSpec FeModel FeSpec FeToolsModel TransferModel TransferSpec
  ConformSpec ConformProofs3 ConformProofs4.
Local Open Scope R_scope.

(** If the geometries of the coarsest mesh fit together then the geometries of all
    meshes of the hierarchy do. *)
Theorem C70_levels : forall H geom d L0, reached H -> geometric (levels H) geom -> nth_error (levels H) 0 = Some L0 -> watertight (l_mesh L0) d (geom 0%nat) ->
  forall l L, nth_error (levels H) l = Some L -> watertight (l_mesh L) d (geom l).
Proof. exact levels_watertight. Qed.
Print Assumptions C70_levels.
(** Two cells that share an edge take it to the same points. *)
Theorem C70_neighbours : forall m d geom i i' c c' j j' e o o' t, watertight m d geom ->
  nth_error (mv_cells m) i = Some c -> nth_error (cv_edges c) j = Some e -> nth_error (cv_ori c) j = Some o ->
  nth_error (mv_cells m) i' = Some c' -> nth_error (cv_edges c') j' = Some e -> nth_error (cv_ori c') j' = Some o' -> 0 <= t <= 1 ->
  same_point (geom (ECell i)) (edge_point (cv_type c) j o t) (geom (ECell i')) (edge_point (cv_type c') j' o' t).
Proof. exact neighbours. Qed.
Print Assumptions C70_neighbours.
(** Geometries of first order with the corners at the places of the nodes fit together, *)
Theorem C70_first_order : forall m d pos geom, wf_mesh m -> straight_at m d pos geom -> watertight m d geom.
Proof. exact straight_watertight. Qed.
Print Assumptions C70_first_order.
(** and so do geometries of second order that agree on one additional point per edge. *)
Theorem C70_second_order : forall m d pos mid geom, wf_mesh m -> second_order_at m d pos mid geom -> watertight m d geom.
Proof. exact second_order_watertight. Qed.
Print Assumptions C70_second_order.

(** ** Examples *)
Example C70_example : forall pos mid, exists H geom L0, reached H /\ length (levels H) = 3%nat /\ geometric (levels H) geom /\
  nth_error (levels H) 0 = Some L0 /\ second_order_at (l_mesh L0) 2 pos mid (geom 0%nat) /\
  exists L i i' c c' j j' e o o', nth_error (levels H) 2 = Some L /\ i <> i' /\
    nth_error (mv_cells (l_mesh L)) i = Some c /\ nth_error (cv_edges c) j = Some e /\ nth_error (cv_ori c) j = Some o /\
    nth_error (mv_cells (l_mesh L)) i' = Some c' /\ nth_error (cv_edges c') j' = Some e /\ nth_error (cv_ori c') j' = Some o'.
Proof. exact conform_example. Qed.
Example C70_first_order_example : wf_mesh closure_mesh /\ straight_at closure_mesh 2 places (plain places closure_mesh).
Proof. split; [apply closure_mesh_wf|exact straight_example]. Qed.
