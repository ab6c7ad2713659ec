(** Model of the structured mesh builders of lib/lf/mesh/utils: TPTriag, TPQuad
    and Torus.  The factory is the one of MeshModel; since that model reduces
    geometries to "supplied or null", the coordinates handed to the factory are
    recorded next to it.  Coordinates are exact reals (doubles in the code), sizes
    are unbounded (32 bit unsigned in the code). *)
From Coq Require Import Reals List Arith Lia Bool.
Import ListNotations.
From Verif Require Import Base MeshModel GeoModel.

(** A point of the plane or of space, as a list of its coordinates. *)
Definition coords := list R.

(** The factory together with the coordinates passed to AddPoint and the corner
    coordinates of the geometries passed to AddEntity, in the order of the calls
    (one list for points, one for edges, one for cells). *)
Record sites := mkSites { g_points : list coords; g_edges : list (list coords);
                          g_cells : list (list coords) }.
Record bstate := mkB { b_fac : factory; b_geo : sites; b_v : list nat }.

(** [for (i = 0; i < n; ++i) body] *)
Definition for_ {A} (n : nat) (body : nat -> A -> res A) (s : A) : res A :=
  fold_left (fun r i => do x <- r; body i x) (seq 0 n) (Ok s).

(** v_idx[k]; reading outside the vector is undefined. *)
Definition vget (v : list nat) (k : nat) : res nat :=
  match nth_error v k with Some x => Ok x | None => Assert end.

(** v_idx[node_cnt] = mesh_factory_->AddPoint(node_coord)
    (tp_triag_mesh_builder.cc:58, tp_quad_mesh_builder.cc:59, torus 78). *)
Definition put_point (k : nat) (x : coords) (s : bstate) : res bstate :=
  do r <- add_point true (b_fac s);
  do _ <- lf_assert (k <? length (b_v s));
  Ok (mkB (snd r) (mkSites (g_points (b_geo s) ++ [x]) (g_edges (b_geo s)) (g_cells (b_geo s)))
          (upd k (fst r) (b_v s))).

(** e_idx[..] = mesh_factory_->AddEntity(kSegment, {v_idx[a], v_idx[b]}, SegmentO1(geo));
    the vector e_idx is written but never read and is left out. *)
Definition put_edge (a b : nat) (x : list coords) (s : bstate) : res bstate :=
  do p <- vget (b_v s) a;
  do q <- vget (b_v s) b;
  do r <- add_entity kSegment [p; q] true (b_fac s);
  Ok (mkB (snd r) (mkSites (g_points (b_geo s)) (g_edges (b_geo s) ++ [x]) (g_cells (b_geo s)))
          (b_v s)).

Fixpoint vgets (v : list nat) (ks : list nat) : res (list nat) :=
  match ks with
  | [] => Ok []
  | k :: r => do x <- vget v k; do y <- vgets v r; Ok (x :: y)
  end.

(** std::make_unique<TriaO1>(..), std::make_unique<QuadO1>(..) for the corners [x]:
    the constructors (tria_o1.cc:50-53, quad_o1.cc:60-64) refuse degenerate corners. *)
Definition cell_geometry (t : refel) (x : list coords) : res unit :=
  match t with
  | kTria => check_tria (length (nth 0 x [])) (fun i k => nth k (nth i x []) 0%R)
  | kQuad => check_quad (length (nth 0 x [])) (fun i k => nth k (nth i x []) 0%R)
  | _ => Ok tt
  end.

(** t_idx[..] = mesh_factory_->AddEntity(type, {v_idx[..],..}, geometry); the vector
    t_idx is written but never read and is left out. *)
Definition put_cell (t : refel) (ks : list nat) (x : list coords) (s : bstate) : res bstate :=
  do ps <- vgets (b_v s) ks;
  do _ <- cell_geometry t x;
  do r <- add_entity t ps true (b_fac s);
  Ok (mkB (snd r) (mkSites (g_points (b_geo s)) (g_edges (b_geo s)) (g_cells (b_geo s) ++ [x]))
          (b_v s)).

(** lib/lf/mesh/utils/structured_mesh_builder.h:75-79: the parameters. *)
Record params := mkParams { p_x0 : R; p_y0 : R; p_x1 : R; p_y1 : R; p_nx : nat; p_ny : nat }.

Section Builders.
Variable p : params.
Let nx := p_nx p.
Let ny := p_ny p.

Local Open Scope R_scope.
(** x_size, y_size, hx, hy (tp_triag_mesh_builder.cc:35-42, the same in the other
    builders). *)
Definition x_size : R := p_x1 p - p_x0 p.
Definition y_size : R := p_y1 p - p_y0 p.
Definition hx : R := x_size / INR nx.
Definition hy : R := y_size / INR ny.
(** Tensor-product node locations (bottom_left_corner_[0] + i * hx, ...). *)
Definition loc (i j : nat) : coords := [p_x0 p + INR i * hx; p_y0 p + INR j * hy].
Local Open Scope nat_scope.

Definition start (check : bool) (nv : nat) : bstate :=
  mkB (new_factory check) (mkSites [] [] []) (repeat 0 nv).

(** tp_triag_mesh_builder.h:48-50 and tp_quad_mesh_builder.h:41-43 (VertexIndex). *)
Definition vertex_index (i j : nat) : nat := i + j * (nx + 1).

(** tp_triag_mesh_builder.cc:45-60, tp_quad_mesh_builder.cc:46-61: node_cnt runs
    in parallel with the loops; it is the number of points added before. *)
Definition tp_vertices (s : bstate) : res bstate :=
  for_ (S ny) (fun j => for_ (S nx) (fun i s =>
    put_point (length (g_points (b_geo s))) (loc i j) s)) s.

(** tp_triag_mesh_builder.cc:66-88 *)
Definition triag_horizontal : bstate -> res bstate :=
  for_ nx (fun i => for_ (S ny) (fun j =>
    put_edge (vertex_index i j) (vertex_index (i + 1) j) [loc i j; loc (i + 1) j])).
(** tp_triag_mesh_builder.cc:90-110 *)
Definition triag_vertical : bstate -> res bstate :=
  for_ (S nx) (fun i => for_ ny (fun j =>
    put_edge (vertex_index i j) (vertex_index i (j + 1)) [loc i j; loc i (j + 1)])).
(** tp_triag_mesh_builder.cc:112-134 *)
Definition triag_diagonal : bstate -> res bstate :=
  for_ nx (fun i => for_ ny (fun j =>
    put_edge (vertex_index i j) (vertex_index (i + 1) (j + 1)) [loc i j; loc (i + 1) (j + 1)])).
(** tp_triag_mesh_builder.cc:140-176 *)
Definition triag_cells : bstate -> res bstate :=
  for_ nx (fun i => for_ ny (fun j s =>
    do s' <- put_cell kTria [vertex_index i j; vertex_index (i + 1) (j + 1); vertex_index i (j + 1)]
               [loc i j; loc (i + 1) (j + 1); loc i (j + 1)] s;
    put_cell kTria [vertex_index i j; vertex_index (i + 1) j; vertex_index (i + 1) (j + 1)]
               [loc i j; loc (i + 1) j; loc (i + 1) (j + 1)] s')).
(** tp_quad_mesh_builder.cc:66-92 *)
Definition quad_cells : bstate -> res bstate :=
  for_ nx (fun i => for_ ny (fun j =>
    put_cell kQuad [vertex_index i j; vertex_index (i + 1) j; vertex_index (i + 1) (j + 1);
                    vertex_index i (j + 1)]
             [loc i j; loc (i + 1) j; loc (i + 1) (j + 1); loc i (j + 1)])).

(** The end of Build: mesh_factory_->Build(). *)
Definition finish (s : bstate) : res (option (mesh_obj * sites)) :=
  do M <- fst (build (b_fac s)); Ok (Some (M, b_geo s)).

(** lib/lf/mesh/utils/tp_triag_mesh_builder.cc:18-178 (Build); None = nullptr. *)
Definition tp_triag_build (check : bool) : res (option (mesh_obj * sites)) :=
  if 2 * nx * ny =? 0 then Ok None else
  if Rle_lt_dec x_size 0 then Ok None else
  if Rle_lt_dec y_size 0 then Ok None else
  do s1 <- tp_vertices (start check ((nx + 1) * (ny + 1)));
  do s2 <- triag_horizontal s1;
  do s3 <- triag_vertical s2;
  do s4 <- triag_diagonal s3;
  do s5 <- triag_cells s4;
  finish s5.

(** lib/lf/mesh/utils/tp_quad_mesh_builder.cc:18-94 (Build). *)
Definition tp_quad_build (check : bool) : res (option (mesh_obj * sites)) :=
  if nx * ny =? 0 then Ok None else
  if Rle_lt_dec x_size 0 then Ok None else
  if Rle_lt_dec y_size 0 then Ok None else
  do s1 <- tp_vertices (start check ((nx + 1) * (ny + 1)));
  do s2 <- quad_cells s1;
  finish s2.

Local Open Scope R_scope.
(** torus_mesh_builder.cc:56-60: radii and angles; kPi is the exact pi. *)
Definition rad_r : R := x_size / (2 * PI).
Definition rad_R : R := y_size / (2 * PI).
Definition theta (i : nat) : R := INR i * hx / rad_r.
Definition phi (j : nat) : R := INR j * hy / rad_R.
(** torus_mesh_builder.cc:73-75, and column of quad_geo 95-105. *)
Definition torus_loc (i j : nat) : coords :=
  [(rad_R + rad_r * cos (theta i)) * cos (phi j);
   (rad_R + rad_r * cos (theta i)) * sin (phi j);
   rad_r * sin (theta i)].
Local Open Scope nat_scope.

(** torus_mesh_builder.h:48-50 (VertexIndex). *)
Definition torus_index (i j : nat) : nat := i + j * nx.
(** torus_mesh_builder.cc:66-82 *)
Definition torus_vertices : bstate -> res bstate :=
  for_ ny (fun j => for_ nx (fun i s =>
    put_point (length (g_points (b_geo s))) (torus_loc i j) s)).
(** torus_mesh_builder.cc:88-114 *)
Definition torus_cells : bstate -> res bstate :=
  for_ nx (fun i => for_ ny (fun j =>
    put_cell kQuad [torus_index i j; torus_index ((i + 1) mod nx) j;
                    torus_index ((i + 1) mod nx) ((j + 1) mod ny);
                    torus_index i ((j + 1) mod ny)]
             [torus_loc i j; torus_loc (i + 1) j; torus_loc (i + 1) (j + 1);
              torus_loc i (j + 1)])).

(** lib/lf/mesh/utils/torus_mesh_builder.cc:27-118 (Build). *)
Definition torus_build (check : bool) : res (option (mesh_obj * sites)) :=
  if nx * ny =? 0 then Ok None else
  if Rle_lt_dec x_size 0 then Ok None else
  if Rle_lt_dec y_size 0 then Ok None else
  do s1 <- torus_vertices (start check (nx * ny));
  do s2 <- torus_cells s1;
  finish s2.
End Builders.
