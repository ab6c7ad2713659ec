(** Vocabulary for the structured meshes: rectangles, corners, tilings. *)
From Coq Require Import Reals List Arith Lia Bool.
Import ListNotations.
From Verif Require Import Base MeshModel MeshView BuilderModel.

(** The rectangle is non-degenerate and split into at least one cell. *)
Definition proper (p : params) : Prop :=
  1 <= p_nx p /\ 1 <= p_ny p /\ (p_x0 p < p_x1 p)%R /\ (p_y0 p < p_y1 p)%R.

(** The sides of the cells of the grid do not differ too much in length: every
    squared side exceeds 1e-8 times the sum of the squared sides of the cell. *)
Definition well_shaped (p : params) : Prop :=
  let a := (((p_x1 p - p_x0 p) / INR (p_nx p)) ^ 2)%R in
  let b := (((p_y1 p - p_y0 p) / INR (p_ny p)) ^ 2)%R in
  (2 * (a + b) < 10 ^ 8 * a)%R /\ (2 * (a + b) < 10 ^ 8 * b)%R.

(** Position of the grid point in column i and row j. *)
Definition grid_point (p : params) (i j : nat) : coords :=
  [(p_x0 p + INR i * ((p_x1 p - p_x0 p) / INR (p_nx p)))%R;
   (p_y0 p + INR j * ((p_y1 p - p_y0 p) / INR (p_ny p)))%R].

Local Open Scope R_scope.
Definition sumR (l : list R) : R := fold_right Rplus 0 l.
(** The weighted sum of the k-th coordinates. *)
Definition weighted (k : nat) (ws : list R) (cs : list coords) : R :=
  sumR (map (fun wc => fst wc * nth k (snd wc) 0) (combine ws cs)).
(** Convex hull of points of the plane; with weights that are all positive, the
    interior of the hull of a triangle or convex quadrilateral. *)
Definition hull (ok : R -> Prop) (cs : list coords) (x y : R) : Prop :=
  exists ws, length ws = length cs /\ Forall ok ws /\ sumR ws = 1 /\
    x = weighted 0 ws cs /\ y = weighted 1 ws cs.
Definition covers (cs : list coords) (x y : R) : Prop := hull (fun w => 0 <= w) cs x y.
Definition covers_inside (cs : list coords) (x y : R) : Prop := hull (fun w => 0 < w) cs x y.

(** Cells with these corners tile the rectangle. *)
Definition tiles (p : params) (cells : list (list coords)) : Prop :=
  (forall x y, p_x0 p <= x <= p_x1 p -> p_y0 p <= y <= p_y1 p ->
     exists cs, In cs cells /\ covers cs x y) /\
  (forall cs x y, In cs cells -> covers cs x y ->
     p_x0 p <= x <= p_x1 p /\ p_y0 p <= y <= p_y1 p) /\
  (forall k l cs cs' x y, nth_error cells k = Some cs -> nth_error cells l = Some cs' ->
     covers_inside cs x y -> covers_inside cs' x y -> k = l).

(** Signed area of a triangle / of a polygon split at its first corner. *)
Definition area2 (a b c : coords) : R :=
  (nth 0 b 0 - nth 0 a 0) * (nth 1 c 0 - nth 1 a 0) -
  (nth 0 c 0 - nth 0 a 0) * (nth 1 b 0 - nth 1 a 0).
Definition signed_area (cs : list coords) : R :=
  match cs with
  | [a; b; c] => area2 a b c / 2
  | [a; b; c; d] => (area2 a b c + area2 a c d) / 2
  | _ => 0
  end.

(** Both points lie on the same side of the rectangle. *)
Definition on_common_side (p : params) (a b : coords) : Prop :=
  (nth 0 a 0 = p_x0 p /\ nth 0 b 0 = p_x0 p) \/ (nth 0 a 0 = p_x1 p /\ nth 0 b 0 = p_x1 p) \/
  (nth 1 a 0 = p_y0 p /\ nth 1 b 0 = p_y0 p) \/ (nth 1 a 0 = p_y1 p /\ nth 1 b 0 = p_y1 p).

Local Open Scope nat_scope.
(** The geometry handed over for an entity has its corners at the nodes of the
    entity.  Node [v] of the mesh is at [nth v (g_points g)]. *)
Definition place (g : sites) (v : nat) : coords := nth v (g_points g) [].
Definition geometry_matches (M : mesh_obj) (g : sites) : Prop :=
  length (g_points g) = mv_nodes (view M) /\
  length (g_cells g) = length (mv_cells (view M)) /\
  (forall k c cs, nth_error (mv_cells (view M)) k = Some c -> nth_error (g_cells g) k = Some cs ->
     cs = map (place g) (cv_nodes c)) /\
  (forall k a b cs, nth_error (mv_edges (view M)) k = Some (a, b) -> nth_error (g_edges g) k = Some cs ->
     cs = [place g a; place g b]).

(** Point of the torus whose tube has the circumference of the width of the
    rectangle and whose centre line has the circumference of its height, at
    [i/nx] of the way around the tube and [j/ny] of the way along it. *)
Definition torus_point (p : params) (i j : nat) : coords :=
  let r := ((p_x1 p - p_x0 p) / (2 * PI))%R in
  let R := ((p_y1 p - p_y0 p) / (2 * PI))%R in
  let alpha := (2 * PI * INR i / INR (p_nx p))%R in
  let beta := (2 * PI * INR j / INR (p_ny p))%R in
  [((R + r * cos alpha) * cos beta)%R; ((R + r * cos alpha) * sin beta)%R; (r * sin alpha)%R].

(** The torus has a hole, and its cells are not too thin: the half sides around the
    tube have the square [a], those along it have squares between [near] and [far]. *)
Definition torus_shaped (p : params) : Prop :=
  let r := ((p_x1 p - p_x0 p) / (2 * PI))%R in
  let R := ((p_y1 p - p_y0 p) / (2 * PI))%R in
  let a := ((r * sin (PI / INR (p_nx p))) ^ 2)%R in
  let near := (((R - r) * sin (PI / INR (p_ny p))) ^ 2)%R in
  let far := (((R + r) * sin (PI / INR (p_ny p))) ^ 2)%R in
  (r < R)%R /\ (2 * (a + far) < 10 ^ 8 * a)%R /\ (2 * (a + far) < 10 ^ 8 * near)%R.
