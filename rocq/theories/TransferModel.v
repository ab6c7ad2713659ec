(** Model of relative geometries in a mesh hierarchy, transfer of mesh functions
    between levels, and prolongation:
    lib/lf/refinement/mesh_hierarchy.cc:1605-1894, mesh_function_transfer.h,
    lib/lf/fe/prolongation.h.
    Simplifications: exact real arithmetic; matrices of points are treated column by
    column; entities are given by co-dimension and index. *)
From Coq Require Import Reals List Arith Bool ZArith.
Import ListNotations.
From Verif Require Import Base MeshModel MeshView RefPatModel RefineModel DofModel GeoModel FeModel FeToolsModel.
Local Open Scope R_scope.

Definition ent_codim (e : ent) : nat := match e with ECell _ => 0 | EEdge _ => 1 | ENode _ => 2 end%nat.
Definition ent_of (codim i : nat) : ent := match codim with O => ECell i | 1%nat => EEdge i | _ => ENode i end.
(** mesh_hierarchy.h, ParentInfos(level, codim): the parent information stored for
    the entities of a level. *)
Definition parent_infos (L : level) (codim : nat) : list parent :=
  match codim with O => l_cpar L | 1%nat => l_epar L | 2%nat => l_ppar L | _ => [] end.
Definition all_levels (H : hierarchy) : list level := h_coarser H ++ [h_finest H].

(** child_polygon.cast<double>() / static_cast<double>(rp.LatticeConst()) *)
Definition child_corners (lc : Z) (poly : lpoly) : list vec :=
  map (fun p k => IZR (nth k p 0%Z) / IZR lc) poly.
Definition has_rows (n : nat) (poly : lpoly) : bool := forallb (fun p => length p =? n)%nat poly.
(** mesh_hierarchy.cc:1672-1758: the parent is cell number [pidx]. *)
Definition geometry_in_cell (L : level) (t : refel) (codim idx k pidx : nat) : res geo :=
  do ci <- get (l_cells L) pidx;
  do c <- get (mv_cells (l_mesh L)) pidx;
  do P <- new_pattern (cv_type c) (cc_pat ci) (cc_anchor ci);
  do polys <- ChildPolygons P codim;
  do poly <- get polys k;
  do _ <- lf_assert (has_rows 2 poly);
  let corners := child_corners (p_lc P) poly in
  match codim with
  | O =>
      do i <- get (cc_cells ci) k; do _ <- lf_assert (i =? idx)%nat;
      match length poly with
      | 3%nat => do _ <- lf_assert (refel_eqb t kTria); new_geo GTriaO1 2 corners
      | 4%nat => do _ <- lf_assert (refel_eqb t kQuad); new_geo GQuadO1 2 corners
      | _ => Assert
      end
  | 1%nat =>
      do i <- get (cc_edges ci) k; do _ <- lf_assert (i =? idx)%nat;
      do _ <- lf_assert (refel_eqb t kSegment);
      do _ <- lf_assert (length poly =? 2)%nat; new_geo GSegmentO1 2 corners
  | 2%nat =>
      do i <- get (cc_points ci) k; do _ <- lf_assert (i =? idx)%nat;
      do _ <- lf_assert (refel_eqb t kPoint);
      do _ <- lf_assert (length poly =? 1)%nat; new_geo GPoint 2 corners
  | _ => Throw
  end.
(** mesh_hierarchy.cc:1760-1819: the parent is edge number [pidx]. *)
Definition geometry_in_edge (L : level) (t : refel) (codim idx k pidx : nat) : res geo :=
  do ci <- get (l_edges L) pidx;
  do P <- new_pattern kSegment (ec_pat ci) None;
  do polys <- ChildPolygons P (codim - 1);
  do poly <- get polys k;
  do _ <- lf_assert (has_rows 1 poly);
  let corners := child_corners (p_lc P) poly in
  match codim with
  | 1%nat =>
      do i <- get (ec_edges ci) k; do _ <- lf_assert (i =? idx)%nat;
      do _ <- lf_assert (refel_eqb t kSegment);
      do _ <- lf_assert (length poly =? 2)%nat; new_geo GSegmentO1 1 corners
  | 2%nat =>
      do i <- get (ec_points ci) k; do _ <- lf_assert (i =? idx)%nat;
      do _ <- lf_assert (refel_eqb t kPoint);
      do _ <- lf_assert (length poly =? 1)%nat; new_geo GPoint 1 corners
  | _ => Throw
  end.
(** mesh_hierarchy.cc:1641-1834: rel_ref_geo_ for entity number [idx] of co-dimension
    [codim] of the finer level [L']; the matrix for points in points has no rows. *)
Definition relative_geometry (L L' : level) (codim idx : nat) : res geo :=
  do pi <- get (parent_infos L' codim) idx;
  match pa_num pi, pa_ptr pi with
  | Some k, Some (pc, pidx) =>
      do _ <- lf_assert (pc <=? codim)%nat;
      let t := ent_type (l_mesh L') (ent_of codim idx) in
      match pc with
      | O => geometry_in_cell L t codim idx k pidx
      | 1%nat => geometry_in_edge L t codim idx k pidx
      | 2%nat => new_geo GPoint 0 [vzero]
      | _ => Throw
      end
  | _, _ => Assert
  end.
(** mesh_hierarchy.cc:1605-1837: for the two finest levels [L], [L']; the geometries
    of cells, edges and nodes. *)
Definition initGeometryInParent (L L' : level) : res (list geo * list geo * list geo) :=
  do cs <- traverse (relative_geometry L L' 0) (seq 0 (length (mv_cells (l_mesh L'))));
  do es <- traverse (relative_geometry L L' 1) (seq 0 (length (mv_edges (l_mesh L'))));
  do ns <- traverse (relative_geometry L L' 2) (seq 0 (mv_nodes (l_mesh L')));
  Ok (cs, es, ns).

(** mesh_hierarchy.cc:111-112, 362-364: a refinement ends with initGeometryInParent
    for the new level. *)
Definition init_finest (H : hierarchy) : res unit :=
  let n := length (all_levels H) in
  do _ <- lf_assert (1 <? n)%nat;
  do L <- get (all_levels H) (n - 2);
  do L' <- get (all_levels H) (n - 1);
  do _ <- initGeometryInParent L L'; Ok tt.
Definition RefineRegularGeo (longest : nat -> nat) (p : refpat) (H : hierarchy) : res hierarchy :=
  do H' <- RefineRegular longest p H; do _ <- init_finest H'; Ok H'.
Definition RefineMarkedGeo (longest : nat -> nat) (H : hierarchy) : res hierarchy :=
  do H' <- RefineMarked longest H; do _ <- init_finest H'; Ok H'.

(** mesh_hierarchy.cc:1860-1876.  What initGeometryInParent stored is recomputed from
    the two levels; refinement changes only the finest one. *)
Definition GeometryInParent (H : hierarchy) (lev : nat) (e : ent) : res geo :=
  do _ <- lf_assert (0 <? lev)%nat;
  do L <- get (all_levels H) (lev - 1);
  do L' <- get (all_levels H) lev;
  do gs <- initGeometryInParent L L';
  get (match ent_codim e with O => fst (fst gs) | 1%nat => snd (fst gs) | _ => snd gs end) (ent_index e).
(** mesh_hierarchy.cc:1878-1894 *)
Definition ParentEntity (H : hierarchy) (lev : nat) (e : ent) : res ent :=
  do _ <- lf_assert (0 <? lev)%nat;
  do L' <- get (all_levels H) lev;
  do pi <- get (parent_infos L' (ent_codim e)) (ent_index e);
  match pa_ptr pi with Some (pc, pidx) => Ok (ent_of pc pidx) | None => Throw end.

(** Geometries of the entities that a refinement creates: child number [k] of
    co-dimension [codim] of entity [p] (mesh_hierarchy.cc:391-408 for nodes, 449-499 for
    edges, 779-787, 1091-1099, 1165-1215 for cells; the callers require that
    ChildGeometry returns one geometry for every child). *)
Definition child_geometry (L : level) (geom : ent -> geo) (p : ent) (codim k : nat) : res geo :=
  match p with
  | ENode _ => do P <- new_pattern kPoint rp_copy None; do gs <- ChildGeometry (geom p) P 0; get gs k
  | EEdge i =>
      do ci <- get (l_edges L) i;
      do P <- new_pattern kSegment (ec_pat ci) None; do gs <- ChildGeometry (geom p) P (codim - 1); get gs k
  | ECell i =>
      do ci <- get (l_cells L) i; do c <- get (mv_cells (l_mesh L)) i;
      do P <- new_pattern (cv_type c) (cc_pat ci) (cc_anchor ci); do gs <- ChildGeometry (geom p) P codim; get gs k
  end.
(** The geometry of entity [e] of the finer level [L'], from those of level [L]. *)
Definition fine_geometry (L L' : level) (geom : ent -> geo) (e : ent) : res geo :=
  do pi <- get (parent_infos L' (ent_codim e)) (ent_index e);
  match pa_num pi, pa_ptr pi with
  | Some k, Some (pc, pidx) => child_geometry L geom (ent_of pc pidx) (ent_codim e) k
  | _, _ => Assert
  end.

(** The coordinates of a point as a list: a column of Global's result. *)
Definition to_local (g : geo) (v : vec) : list R := map v (seq 0 (go_dim g)).
(** mesh_function_transfer.h:77-81: the loop, [lev] and [parent] are its variables. *)
Fixpoint climb (H : hierarchy) (level_coarse lev : nat) (parent : ent) (x : list R) : res (ent * list R) :=
  if (level_coarse <? lev)%nat then
    match lev with
    | S below =>
        do g <- GeometryInParent H lev parent;
        do parent' <- ParentEntity H lev parent;
        do v <- Global g x;
        climb H level_coarse below parent' (to_local g v)
    | O => Assert
    end
  else Ok (parent, x).
(** mesh_function_transfer.h:40-62: the assertions of the constructor.  [mf_level]: the
    level whose mesh mf.getMesh() returns, if mf has such a method. *)
Definition transfer_checks (H : hierarchy) (mf_level : option nat) (level_coarse level_fine : nat) : res unit :=
  do _ <- lf_assert (level_coarse <? length (all_levels H) - 1)%nat;
  do _ <- lf_assert (level_coarse <? level_fine)%nat;
  do _ <- lf_assert (level_fine <? length (all_levels H))%nat;
  match mf_level with Some l => lf_assert (l =? level_coarse)%nat | None => Ok tt end.
(** mesh_function_transfer.h:71-83: operator() *)
Definition transfer_eval (H : hierarchy) (mf : meshfun) (level_coarse level_fine : nat) (e : ent) (x : list R) : res R :=
  do g <- GeometryInParent H level_fine e;
  do parent <- ParentEntity H level_fine e;
  do v <- Global g x;
  do py <- climb H level_coarse (level_fine - 1) parent (to_local g v);
  mf (fst py) (snd py).
(** mesh_function_transfer.h:89-91: the level of the mesh that getMesh() returns. *)
Definition transfer_getMesh (level_coarse level_fine : nat) : nat := (level_coarse + 1)%nat.

(** prolongation.h:33-67; [mf_level] is the level of the coarse space's mesh. *)
Definition prolongate (H : hierarchy) (mf_level : option nat) (Vc Vf : fe_space) (dofs : list R) (level_coarse : nat) : res (list R) :=
  do _ <- lf_assert (level_coarse <? length (all_levels H) - 1)%nat;
  do _ <- lf_assert (NumDofs (sp_dofs Vc) <=? length dofs)%nat;
  do _ <- transfer_checks H mf_level level_coarse (level_coarse + 1);
  NodalProjection Vf (transfer_eval H (fe_value Vc dofs) level_coarse (level_coarse + 1)) (fun _ => true).
