(** Specification vocabulary for C60 and C66. *)
From Coq Require Import Reals List Arith Bool.
Import ListNotations.
From Verif Require Import Base MeshModel MeshView RefPatModel RefPatSpec RefineModel RefineSpec DofModel DofSpec GeoModel GeoSpec FeModel FeToolsModel TransferModel.
Local Open Scope R_scope.

(** Histories in which every refinement step is followed by the computation of the
    relative geometries. *)
Definition apply_hop_geo (o : hop) (H : hierarchy) : res hierarchy :=
  match o with Mark f => MarkEdges f H | Regular lg p => RefineRegularGeo lg p H | Marked lg => RefineMarkedGeo lg H end.
Fixpoint run_hops_geo (os : list hop) (H : hierarchy) : res hierarchy :=
  match os with [] => Ok H | o :: r => do H' <- apply_hop_geo o H; run_hops_geo r H' end.

(** The nodes of an entity. *)
Definition ent_nodes (m : mesh) (e : ent) : list nat :=
  match e with
  | ENode i => [i]
  | EEdge i => match nth_error (mv_edges m) i with Some (a, b) => [a; b] | None => [] end
  | ECell i => match nth_error (mv_cells m) i with Some c => cv_nodes c | None => [] end
  end.

(** [placed L p u y]: node [u] of the finer level has reference coordinates [y] in
    entity [p] of level [L].  In a cell it is one of the corners, the midpoint of an
    edge or the centre ([loc]); in an edge it is an end point or the midpoint. *)
Inductive placed (L : level) : ent -> nat -> list R -> Prop :=
  | pl_cell : forall i c n u, nth_error (mv_cells (l_mesh L)) i = Some c -> stands_for L i c n u ->
      placed L (ECell i) u [fst (loc (cv_type c) n); snd (loc (cv_type c) n)]
  | pl_start : forall e a b u, nth_error (mv_edges (l_mesh L)) e = Some (a, b) -> children L 2 a 2 = [u] -> placed L (EEdge e) u [0]
  | pl_end : forall e a b u, nth_error (mv_edges (l_mesh L)) e = Some (a, b) -> children L 2 b 2 = [u] -> placed L (EEdge e) u [1]
  | pl_middle : forall e u, (e < length (mv_edges (l_mesh L)))%nat -> children L 1 e 2 = [u] -> placed L (EEdge e) u [1 / 2]
  | pl_node : forall v u, (v < mv_nodes (l_mesh L))%nat -> children L 2 v 2 = [u] -> placed L (ENode v) u [].

(** Entity [e] of level [L'] is a child of entity [p] of level [L], and its nodes
    have reference coordinates [w] in [p]. *)
Definition inside (L L' : level) (e p : ent) (w : list (list R)) : Prop :=
  In (ent_index e) (children L (ent_codim p) (ent_index p) (ent_codim e)) /\
  Forall2 (placed L p) (ent_nodes (l_mesh L') e) w.

(** [image Ls l e x k q y]: the point with reference coordinates [x] in entity [e] of
    level [l] has reference coordinates [y] in the ancestor [q] of [e] on level [k]:
    from one level to the next, the affine or bilinear interpolation of the places
    of the nodes. *)
Inductive image (Ls : list level) : nat -> ent -> list R -> nat -> ent -> list R -> Prop :=
  | image_here : forall l e x, image Ls l e x l e x
  | image_up : forall l e x L L' p w k q y, nth_error Ls l = Some L -> nth_error Ls (S l) = Some L' ->
      inside L L' e p w -> image Ls l p (onto w x) k q y -> image Ls (S l) e x k q y.

Definition ent_dim (e : ent) : nat := (2 - ent_codim e)%nat.

(** Hierarchies that arise from a valid mesh by refinement. *)
Definition reached (H : hierarchy) : Prop :=
  exists ops longest check m, wf_mesh m /\ simple_mesh m /\ (check = true -> complete_mesh m) /\ (forall i, longest i < 3)%nat /\
    Forall good_hop ops /\ run_hops_geo ops (new_hierarchy longest m (new_factory check)) = Ok H.

(** *** Geometries on all levels *)
(** [geom l e] is the geometry of entity [e] of level [l]; on the coarsest level it is
    of the right type, on finer levels it is the one that the refinement creates. *)
Record geometric (Ls : list level) (geom : nat -> ent -> geo) : Prop := {
  ge_base : forall L e, nth_error Ls 0 = Some L -> valid (l_mesh L) e ->
     constructed (geom 0%nat e) /\ exact_parallelogram (geom 0%nat e) /\ kind_el (go_kind (geom 0%nat e)) = ent_type (l_mesh L) e;
  ge_fine : forall l L L' e, nth_error Ls l = Some L -> nth_error Ls (S l) = Some L' -> valid (l_mesh L') e ->
     fine_geometry L L' (geom l) e = Ok (geom (S l) e)
}.
(** Non-affine quadrilaterals are not divided into triangles. *)
Definition keeps_quads (p : refpat) : Prop := p = rp_copy \/ p = rp_bisect \/ p = rp_split \/ p = rp_regular \/ p = rp_barycentric.
Definition quads_kept (Ls : list level) (geom : nat -> ent -> geo) : Prop :=
  forall l L L' i ci, nth_error Ls l = Some L -> nth_error Ls (S l) = Some L' -> nth_error (l_cells L) i = Some ci ->
    go_kind (geom l (ECell i)) = GQuadO1 \/ go_kind (geom l (ECell i)) = GQuadO2 -> keeps_quads (cc_pat ci).
(** Both computations give the same point of the world. *)
Definition same_point (g : geo) (x : list R) (g' : geo) (y : list R) : Prop :=
  go_dim g = go_dim g' /\ exists p q, Global g x = Ok p /\ Global g' y = Ok q /\ forall k, (k < go_dim g)%nat -> p k = q k.
(** A function [f] of the world coordinates as a mesh function (MeshFunctionGlobal:
    lib/lf/mesh/utils/mesh_function_global.h), and functions of the first [d] coordinates. *)
Definition world_function (f : vec -> R) (geom : ent -> geo) : meshfun := fun e x => do p <- Global (geom e) x; Ok (f p).
Definition depends_on (d : nat) (f : vec -> R) : Prop := forall p q, (forall k, (k < d)%nat -> p k = q k) -> f p = f q.
