(** Model of projects/dpg/dpg_tools.h and dpg_tools.cc: outer normals, prescribed signs, flags of
    the in- and outflow boundary, quadrature rules on the boundary of reference elements.  Exact arithmetic; null pointers are not modelled. *)
From Coq Require Import Reals List Arith ZArith Bool.
Import ListNotations.
From Verif Require Import Base Scalars MeshModel MeshView RefPatModel GeoModel DofModel FlagModel FeModel QuadModel DpgModel.
Local Open Scope R_scope.

(** lib/lf/base/ref_el.h:139-196: NodeCoords. *)
Definition NodeCoords (t : refel) : list (list R) :=
  match t with
  | kPoint => [[]]
  | kSegment => [[0]; [1]]
  | kTria => [[0; 0]; [1; 0]; [0; 1]]
  | kQuad => [[0; 0]; [1; 0]; [1; 1]; [0; 1]]
  end.
(** lib/lf/geometry/geometry_interface.h:261-263 *)
Definition Corners (g : geo) : res (list vec) := mapM (Global g) (NodeCoords (kind_el (go_kind g))).

(** Eigen: determinant() of the 2x2 matrix with these columns. *)
Definition determinant (J : list vec) : res R :=
  match J with [J0; J1] => Ok (det2 J0 J1) | _ => Assert end.
(** dpg_tools.cc:64-100.  determinant() and the assignment of columns to a matrix with two rows
    require two world dimensions. *)
Definition orientation (g : geo) : res R :=
  match kind_el (go_kind g) with
  | kTria =>
      do J <- Jacobian g [0; 0];
      do d <- determinant J;
      Ok (if gtb d 0 then 1 else - 1)
  | kQuad =>
      do Js <- mapM (Jacobian g) (NodeCoords kQuad);
      do ds <- mapM determinant Js;
      Ok (if (3 <=? length (filter (fun d => gtb d 0%R) ds))%nat then 1 else - 1)
  | _ => Assert
  end.
(** Eigen: normalize(), which leaves the zero vector alone. *)
Definition normalized (v : vec) : vec :=
  let z := sqnorm 2 v in if gtb z 0 then fun k => v k / sqrt z else v.
(** dpg_tools.cc:102-123: one column; SubSubEntity2SubEntity(1,i,1,j) is (i+j) mod n
    (lib/lf/base/ref_el.h:412-449). *)
Definition normal (corners : list vec) (sigma : R) (i : nat) : vec :=
  let n := length corners in
  let edge := vsub (nth ((i + 1) mod n) corners vzero) (nth (i mod n) corners vzero) in
  normalized (fun k => match k with 0%nat => edge 1%nat * sigma | _ => - edge 0%nat * sigma end).
(** dpg_tools.cc:49-125 *)
Definition OuterNormals (g : geo) : res (list vec) :=
  do _ <- lf_assert (match kind_el (go_kind g) with kTria | kQuad => true | _ => false end);
  do corners <- Corners g;
  do _ <- lf_assert (go_dim g =? 2)%nat;
  do sigma <- orientation g;
  Ok (map (normal corners sigma) (seq 0 (length corners))).

(** * PrescribedSignProvider *)

(** dpg_tools.cc:128-142: init(); the data set is created with value -1 (dpg_tools.h:99-104). *)
Definition SignProvider (m : mesh) : res (dset Z) :=
  each (seq 0 (mv_count m 0)) (fun e d =>
    do subs <- sub_entities m 0 e 1;
    each subs (fun s d => dset_at d 1 s (fun x => Z.max x (Z.of_nat e))) d)
  (new_dset m 1 (-1)%Z).
(** dpg_tools.cc:145-151 *)
Definition PrescribedSign (maxElement : dset Z) (element edge : nat) : res Z :=
  do x <- dget maxElement 1 edge;
  Ok (if (Z.of_nat element =? x)%Z then 1%Z else (-1)%Z).

(** * In- and outflow boundary *)

(** Vector-valued mesh functions, evaluated at one point. *)
Definition vectorfun := ent -> list R -> res vec.
Definition ltb (a b : R) : bool := if Rlt_dec a b then true else false.
(** dpg_tools.h:154-186 *)
Definition flagEntitiesOnInflowBoundary (m : mesh) (geom : ent -> geo) (beta : vectorfun) : res (dset bool) :=
  do bd_flags <- flag_boundary m 1;
  each (seq 0 (mv_count m 0)) (fun c d =>
    do sub <- sub_entities m 0 c 1;
    do normals <- OuterNormals (geom (ECell c));
    each (seq 0 (num_sub_entities (cv_type (cell_at m c)) 1)) (fun i d =>
      do edge <- elem_at sub i;
      do n <- elem_at normals i;
      do b <- beta (EEdge edge) [1 / 2];
      let inflow := ltb (GeoModel.dot 2 n b) 0 in
      do f <- dget bd_flags 1 edge;
      dset_at d 1 edge (fun _ => f && inflow)) d)
  (new_dset m 1 false).
(** dpg_tools.h:203-223 *)
Definition flagEntitiesOnOutflowBoundary (m : mesh) (geom : ent -> geo) (beta : vectorfun) : res (dset bool) :=
  do bd_flags <- flag_boundary m 1;
  do inflow_boundary <- flagEntitiesOnInflowBoundary m geom beta;
  each (seq 0 (mv_count m 1)) (fun e d =>
    do f <- dget bd_flags 1 e;
    do i <- dget inflow_boundary 1 e;
    dset_at d 1 e (fun _ => f && negb i))
  (new_dset m 1 false).

(** * Quadrature on the boundary of a reference element *)

(** The list of the first [n] components. *)
Definition column (n : nat) (v : vec) : list R := map v (seq 0 n).
(** dpg_tools.cc:13-47 *)
Definition BoundaryQuadRule (ref_el : refel) (qr : quadrule) : res (list quadrule) :=
  let coords := map (fun p k => nth k p 0) (NodeCoords ref_el) in
  do geo <- match ref_el with
            | kTria => new_geo GTriaO1 2 coords
            | kQuad => new_geo GQuadO1 2 coords
            | _ => Assert
            end;
  mapM (fun segment =>
    do edge <- SubGeometry geo 1 segment;
    do points <- mapM (Global edge) (qr_points qr);
    do ie <- IntegrationElement edge [1 / 2];
    QuadRule ref_el (map (column 2) points) (map (fun w => w * ie) (qr_weights qr)) 0)
  (seq 0 (num_sub_entities ref_el 1)).
