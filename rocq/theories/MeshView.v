(** What a client of a mesh sees through the public interface of lf::mesh::Mesh
    and lf::mesh::Entity: entities by index, sub-entities, relative
    orientations.  The other models work on this view. *)
From Coq Require Import List Arith Lia Bool.
Import ListNotations.
From Verif Require Import Base MeshModel.

(** Indices of SubEntities(2) and SubEntities(1) of a cell, and its
    RelativeOrientations() (true = positive). *)
Record cellv := mkCellv { cv_nodes : list nat; cv_edges : list nat; cv_ori : list bool }.

(** NumEntities(2); SubEntities(1) of EntityByIndex(1,i); the cells by index. *)
Record mesh := mkMeshV { mv_nodes : nat; mv_edges : list (nat * nat); mv_cells : list cellv }.

(** lib/lf/mesh/hybrid2d/segment.h:SubEntities(1): the two endpoints. *)
Definition view_edge (M : mesh_obj) (o : option nat) : nat * nat :=
  match o with
  | Some p => match nth_error (m_segments M) p with
              | Some s => (s_p0 s, s_p1 s)
              | None => (0, 0)
              end
  | None => (0, 0)
  end.

(** lib/lf/mesh/hybrid2d/triangle.h, quad.h: SubEntities(1), SubEntities(2),
    RelativeOrientations(), and Mesh::Index of the sub-entities. *)
Definition view_cell (M : mesh_obj) (o : option cptr) : cellv :=
  match match o with
        | Some (PTria p) => nth_error (m_trias M) p
        | Some (PQuad p) => nth_error (m_quads M) p
        | None => None
        end with
  | Some c => mkCellv (c_nodes c)
                (map (fun p => match nth_error (m_segments M) p with
                               | Some s => s_index s | None => 0 end) (c_segs c))
                (c_ori c)
  | None => mkCellv [] [] []
  end.

Definition view (M : mesh_obj) : mesh :=
  mkMeshV (m_points M) (map (view_edge M) (m_ptr1 M)) (map (view_cell M) (m_ptr0 M)).

(** Reference element of a cell: RefEl() of Triangle / Quadrilateral. *)
Definition cv_type (c : cellv) : refel := cell_type (cv_nodes c).

(** * Well-formed meshes *)
Definition next_corner (ns : list nat) (j : nat) : nat := nth (S j mod length ns) ns 0.

(** Local edge [j] of cell [c] is an edge of the mesh joining corners j and j+1,
    traversed from corner j to corner j+1 iff its orientation is positive. *)
Definition local_edge_ok (m : mesh) (c : cellv) (j : nat) : Prop :=
  exists e o p0 p1,
    nth_error (cv_edges c) j = Some e /\ nth_error (cv_ori c) j = Some o /\
    nth_error (mv_edges m) e = Some (p0, p1) /\
    (if o : bool
     then p0 = nth j (cv_nodes c) 0 /\ p1 = next_corner (cv_nodes c) j
     else p0 = next_corner (cv_nodes c) j /\ p1 = nth j (cv_nodes c) 0).

Record wf_cell (m : mesh) (c : cellv) : Prop := {
  wc_shape : length (cv_nodes c) = 3 \/ length (cv_nodes c) = 4;
  wc_edges : length (cv_edges c) = length (cv_nodes c);
  wc_oris : length (cv_ori c) = length (cv_nodes c);
  wc_nodes : Forall (fun v => v < mv_nodes m) (cv_nodes c);
  wc_local : forall j, j < length (cv_nodes c) -> local_edge_ok m c j
}.

Record wf_mesh (m : mesh) : Prop := {
  wm_cells : Forall (wf_cell m) (mv_cells m);
  wm_edges : forall i a b, nth_error (mv_edges m) i = Some (a, b) ->
               a <> b /\ a < mv_nodes m /\ b < mv_nodes m;
  wm_unique : forall i j a b c d, nth_error (mv_edges m) i = Some (a, b) ->
               nth_error (mv_edges m) j = Some (c, d) ->
               (a = c /\ b = d) \/ (a = d /\ b = c) -> i = j
}.

(** Complete: every edge is an edge of a cell, every node an endpoint of an edge. *)
Definition complete_mesh (m : mesh) : Prop :=
  (forall i, i < length (mv_edges m) -> exists c, In c (mv_cells m) /\ In i (cv_edges c)) /\
  (forall v, v < mv_nodes m -> exists a b, In (a, b) (mv_edges m) /\ (v = a \/ v = b)).
