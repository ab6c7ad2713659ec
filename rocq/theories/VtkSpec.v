(** Specification vocabulary for C71-C73: what a reader of a VTK file expects. *)
From Coq Require Import Reals String List Arith Bool.
Import ListNotations.
From Verif Require Import Base MeshModel MeshView DofModel DofSpec GeoModel GeoSpec FeModel FeSpec FeToolsModel TransferSpec ConformSpec VtkModel.
Local Open Scope R_scope.

(** *** Lagrange cells of VTK of order n *)
(** Number of corners, of points, and of points in the interior. *)
Definition corners (el : refel) : nat := num_nodes el.
Definition vtk_interior (el : refel) (n : nat) : nat :=
  match el with kPoint => 0 | kSegment => 0 | kTria => (n - 1) * (n - 2) / 2 | kQuad => (n - 1) * (n - 1) end.
Definition num_sides (el : refel) : nat := match el with kPoint => 0 | kSegment => 1 | kTria => 3 | kQuad => 4 end.
Definition vtk_size (el : refel) (n : nat) : nat := corners el + num_sides el * (n - 1) + vtk_interior el n.
(** The triangle (VTK_LAGRANGE_TRIANGLE, vtkHigherOrderTriangle::BarycentricIndex):
    the three corners, the points of the sides from corner 0 to 1, 1 to 2, 2 to 0, then, in the
    same way, the points of the triangle of order n-3 in the interior.  [tri_lattice n lo r]: lattice coordinates of the r-th
    point of the triangle of order n with first corner (lo,lo). *)
Fixpoint tri_lattice (fuel n lo r : nat) : nat * nat :=
  match fuel with
  | 0 => (lo, lo)
  | S fuel =>
      if n =? 0 then (lo, lo)
      else if r <? 3 then nth r [(lo, lo); (lo + n, lo); (lo, lo + n)] (lo, lo)
      else if r <? 3 * n then
        let k := S ((r - 3) mod (n - 1)) in
        nth ((r - 3) / (n - 1)) [(lo + k, lo); (lo + (n - k), lo + k); (lo, lo + (n - k))] (lo, lo)
      else tri_lattice fuel (n - 3) (S lo) (r - 3 * n)
  end%nat.
(** The quadrilateral (VTK_LAGRANGE_QUADRILATERAL): the four corners, the sides 0-1, 1-2, 3-2, 0-3,
    then the interior row by row. *)
Definition quad_lattice (n r : nat) : nat * nat :=
  (if r <? 4 then nth r [(0, 0); (n, 0); (n, n); (0, n)] (0, 0)
   else if r <? 4 + 4 * (n - 1) then
     let k := S ((r - 4) mod (n - 1)) in nth ((r - 4) / (n - 1)) [(k, 0); (n, k); (k, n); (0, k)] (0, 0)
   else let q := r - (4 + 4 * (n - 1)) in (S (q mod (n - 1)), S (q / (n - 1))))%nat.
(** VTK_LAGRANGE_CURVE: the end points, then the interior. *)
Definition line_lattice (n r : nat) : nat := match r with 0 => 0 | 1 => n | S k => k end%nat.
(** Reference coordinates of the r-th point. *)
Definition vtk_position (el : refel) (n r : nat) : list R :=
  match el with
  | kPoint => []
  | kSegment => [INR (line_lattice n r) / INR n]
  | kTria => let p := tri_lattice (S n) n 0 r in [INR (fst p) / INR n; INR (snd p) / INR n]
  | kQuad => let p := quad_lattice n r in [INR (fst p) / INR n; INR (snd p) / INR n]
  end.
Definition vtk_type (el : refel) (n : nat) : cell_type :=
  match el, (n =? 1)%nat with
  | kSegment, true => VTK_LINE | kTria, true => VTK_TRIANGLE | kQuad, true => VTK_QUAD
  | kSegment, false => VTK_LAGRANGE_CURVE | kTria, false => VTK_LAGRANGE_TRIANGLE | kQuad, false => VTK_LAGRANGE_QUADRILATERAL
  | kPoint, _ => NoType
  end.

(** *** Points of the file *)
(** A point of the file belongs to a node, to an edge (number k from its first end
    point, 0 < k < n) or to the interior of a cell (number k in the order of VTK). *)
Inductive location := AtNode (i : nat) | OnEdge (e k : nat) | InCell (i k : nat).
Definition valid_loc (m : mesh) (codim n : nat) (l : location) : Prop :=
  match l with
  | AtNode i => (i < mv_nodes m)%nat
  | OnEdge e k => (e < length (mv_edges m) /\ 0 < k < n)%nat
  | InCell i k => codim = 0%nat /\ exists c, nth_error (mv_cells m) i = Some c /\ (k < vtk_interior (cv_type c) n)%nat
  end.
(** The numbering of the points: every number below [N] belongs to exactly one place. *)
Record numbering (m : mesh) (codim n N : nat) (idx : location -> nat) : Prop := {
  nb_bound : forall l, valid_loc m codim n l -> (idx l < N)%nat;
  nb_inj : forall l l', valid_loc m codim n l -> valid_loc m codim n l' -> idx l = idx l' -> l = l';
  nb_onto : forall p, (p < N)%nat -> exists l, valid_loc m codim n l /\ idx l = p
}.
(** Where the r-th point of a VTK cell is: a corner, the k-th point of a side, or in the
    interior.  Sides run from their corner to the next one, sides 2 and 3 of quadrilaterals in the other
    direction; an edge has the direction of the side if its relative orientation is positive. *)
Definition cell_location (n i : nat) (c : cellv) (r : nat) : location :=
  let nc := corners (cv_type c) in
  (if r <? nc then AtNode (nth r (cv_nodes c) 0)
   else if r <? nc + nc * (n - 1) then
     let j := (r - nc) / (n - 1) in let k := S ((r - nc) mod (n - 1)) in
     let backwards := match cv_type c with kQuad => 2 <=? j | _ => false end in
     OnEdge (nth j (cv_edges c) 0) (if xorb (nth j (cv_ori c) true) backwards then k else n - k)
   else InCell i (r - (nc + nc * (n - 1))))%nat.
Definition ent_location (m : mesh) (n : nat) (e : ent) (r : nat) : location :=
  match e with
  | ENode i => AtNode i
  | EEdge i => match r with 0 => AtNode (fst (edge_at m i)) | 1 => AtNode (snd (edge_at m i)) | S k => OnEdge i k end%nat
  | ECell i => cell_location n i (cell_at m i) r
  end.

(** The entities that become cells of the file. *)
Definition written (m : mesh) (codim : nat) (e : ent) : Prop := valid m e /\ codim_of (ent_type m e) = codim.
(** Triangles: orders up to 6, or the points on the boundary and on the first triangle inside. *)
Definition standard (el : refel) (n r : nat) : Prop := el = kTria -> (n <= 6 \/ r < 3 * n + 3 * (n - 3))%nat.

(** *** Functions *)
(** The function has a value at every point of every entity, the same from cells, edges and nodes.
    If only the edges are written then cells do not matter. *)
Record agreeing {A} (m : mesh) (codim : nat) (u : ent -> list R -> res A) : Prop := {
  ag_value : forall e x, valid m e -> (codim <= codim_of (ent_type m e))%nat -> in_ref (ent_type m e) x -> exists w, u e x = Ok w;
  ag_edge : forall i c j e o t, codim = 0%nat -> nth_error (mv_cells m) i = Some c -> nth_error (cv_edges c) j = Some e ->
     nth_error (cv_ori c) j = Some o -> 0 <= t <= 1 -> u (ECell i) (edge_point (cv_type c) j o t) = u (EEdge e) [t];
  ag_node : forall i c j n, codim = 0%nat -> nth_error (mv_cells m) i = Some c -> nth_error (cv_nodes c) j = Some n ->
     u (ECell i) (ref_node (cv_type c) j) = u (ENode n) [];
  ag_ends : forall e a b, nth_error (mv_edges m) e = Some (a, b) -> u (EEdge e) [0] = u (ENode a) [] /\ u (EEdge e) [1] = u (ENode b) []
}.
(** Coordinates of a point in the file: rounded, and extended by zeros. *)
Definition in_file (d : nat) (cast : R -> R) (v : vec) : vec3 :=
  let x k := if (k <? d)%nat then cast (v k) else 0 in (x 0, x 1, x 2)%nat.
(** The values [data] of an array at the points of the file are those of [u] at the points of the cells. *)
Definition samples {A} (m : mesh) (codim n : nat) (cells : list (list nat)) (data : list (option A)) (u : ent -> list R -> res A) : Prop :=
  forall e r, written m codim e -> (r < vtk_size (ent_type m e) n)%nat -> standard (ent_type m e) n r ->
    exists c p v, nth_error cells (ent_index e) = Some c /\ nth_error c r = Some p /\ u e (vtk_position (ent_type m e) n r) = Ok v /\ nth_error data p = Some (Some v).
(** Every element of an array of length [N] has a value. *)
Definition complete {A} (N : nat) (data : list (option A)) : Prop := length data = N /\ forall p, (p < N)%nat -> exists v, nth_error data p = Some (Some v).
Definition complete_attribute (N : nat) (a : attribute) : Prop := match a with ScalarData _ _ d => complete N d | VectorData _ _ d => complete N d end.
(** The function computing the coordinates in the file from the geometries *)
Definition place (d : nat) (cast : R -> R) (geom : ent -> geo) (e : ent) (x : list R) : res vec3 := do v <- Global (geom e) x; Ok (in_file d cast v).
(** Every entity has a geometry for its reference element. *)
Definition has_shapes (m : mesh) (geom : ent -> geo) : Prop := forall e, valid m e -> kind_el (go_kind (geom e)) = ent_type m e.
(** Names that are accepted *)
Definition acceptable (used : list string) (name : string) : Prop := ~ In name used /\ contains space name = false.
Definition point_names (w : writer) : list string := map a_name (vf_point (vw_file w)).
Definition cell_names (w : writer) : list string := map a_name (vf_cell (vw_file w)).
(** [w'] has one more array of point data (cell data) [a]; nothing else has changed. *)
Definition more_point_data (w w' : writer) (a : attribute) : Prop :=
  vw_codim w' = vw_codim w /\ vw_order w' = vw_order w /\ vw_off1 w' = vw_off1 w /\ vw_off0 w' = vw_off0 w /\
  vf_header (vw_file w') = vf_header (vw_file w) /\ vf_binary (vw_file w') = vf_binary (vw_file w) /\ vf_grid (vw_file w') = vf_grid (vw_file w) /\
  vf_field (vw_file w') = vf_field (vw_file w) /\ vf_point (vw_file w') = vf_point (vw_file w) ++ [a] /\ vf_cell (vw_file w') = vf_cell (vw_file w).
Definition more_cell_data (w w' : writer) (a : attribute) : Prop :=
  vw_codim w' = vw_codim w /\ vw_order w' = vw_order w /\ vw_off1 w' = vw_off1 w /\ vw_off0 w' = vw_off0 w /\
  vf_header (vw_file w') = vf_header (vw_file w) /\ vf_binary (vw_file w') = vf_binary (vw_file w) /\ vf_grid (vw_file w') = vf_grid (vw_file w) /\
  vf_field (vw_file w') = vf_field (vw_file w) /\ vf_point (vw_file w') = vf_point (vw_file w) /\ vf_cell (vw_file w') = vf_cell (vw_file w) ++ [a].
(** Two or three components, extended by a zero. *)
Definition in_three (v : list R) : vec3 := (nth 0 v 0, nth 1 v 0, nth 2 v 0).
Definition small (v : list R) : Prop := (length v = 2 \/ length v = 3)%nat.
(** Centres of the reference elements *)
Definition centre (el : refel) : list R := match el with kPoint => [] | kSegment => [1 / 2] | kTria => [1 / 3; 1 / 3] | kQuad => [1 / 2; 1 / 2] end.
(** Meshes that can be written: the geometries fit together in a world of at most three dimensions; codimension and order are in range. *)
Definition writable (m : mesh) (d : nat) (geom : ent -> geo) (codim n : nat) : Prop :=
  wf_mesh m /\ watertight m d geom /\ has_shapes m geom /\ (1 <= d <= 3)%nat /\ (codim < 2)%nat /\ (1 <= n <= 10)%nat.
(** A writer as it is after construction and any sequence of calls. *)
Definition made (m : mesh) (d : nat) (geom : ent -> geo) (cast : R -> R) (codim n : nat) (w : writer) : Prop :=
  exists w0 ops, new_writer m geom d cast codim n = Ok w0 /\ run_vtk m w0 ops = Ok w.
(** Calls that violate no assertion of the code: data sets only with order one, vectors with two or three components, functions that
    do not violate assertions themselves. *)
Definition no_assert {A} (r : res A) : Prop := r <> Assert.
Definition harmless (m : mesh) (n : nat) (op : vtk_op) : Prop :=
  match op with
  | SetBinary _ | CellScalars _ _ _ _ | GlobalData _ _ _ => True
  | PointScalars _ _ _ _ => n = 1%nat
  | PointVectors _ _ ds u => n = 1%nat /\ small u /\ forall e v, ds e = Some v -> small v
  | CellVectors _ _ ds u => small u /\ forall e v, ds e = Some v -> small v
  | PointFunction _ _ mf | CellFunction _ _ mf => forall e x, valid m e -> in_ref (ent_type m e) x -> no_assert (mf e x)
  | PointVectorFunction _ _ mf | CellVectorFunction _ _ mf => forall e x, valid m e -> in_ref (ent_type m e) x -> no_assert (mf e x) /\ forall v, mf e x = Ok v -> small v
  end.
Definition op_name (op : vtk_op) : option string :=
  match op with
  | SetBinary _ => None
  | PointScalars s _ _ _ | PointVectors s _ _ _ | CellScalars s _ _ _ | CellVectors s _ _ _ | PointFunction s _ _ | PointVectorFunction s _ _
  | CellFunction s _ _ | CellVectorFunction s _ _ | GlobalData s _ _ => Some s
  end.
(** The names in use for the kind of data of the call *)
Definition names_for (w : writer) (op : vtk_op) : list string :=
  match op with
  | SetBinary _ => []
  | PointScalars _ _ _ _ | PointVectors _ _ _ _ | PointFunction _ _ _ | PointVectorFunction _ _ _ => point_names w
  | CellScalars _ _ _ _ | CellVectors _ _ _ _ | CellFunction _ _ _ | CellVectorFunction _ _ _ => cell_names w
  | GlobalData _ _ _ => map fd_name (vf_field (vw_file w))
  end.
(** The file has everything it had before, in the same order, and on the same grid. *)
Definition nothing_lost (w w' : writer) : Prop :=
  let f := vw_file w in let f' := vw_file w' in
  vf_grid f' = vf_grid f /\ exists p c g, vf_point f' = vf_point f ++ p /\ vf_cell f' = vf_cell f ++ c /\ vf_field f' = vf_field f ++ g.
