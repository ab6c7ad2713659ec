(** Model of lf::io::writeTikZ (lib/lf/io/write_tikz.cc, write_tikz.h).
    Simplifications: the mesh has topological dimension 2 and its nodes have two coordinates; a file that
    was opened can be written, and is the list of its characters; coordinates are finite floating point
    numbers other than -0, given exactly as rational numbers, and the computation of centers is exact;
    messages on std::cout are not part of the result. *)
From Coq Require Import String Ascii List Arith NArith ZArith QArith Bool.
Import ListNotations.
From Verif Require Import Base MeshModel MeshView DofModel AssembleModel.
From Verif Require Import MshModel WriteModel.
Local Open Scope list_scope.
Local Open Scope nat_scope.

(** write_tikz.h:25-33 *)
Definition RenderCells : N := 1.
Definition CellNumbering : N := 2.
Definition VerticeNumbering : N := 4.
Definition NodeNumbering : N := 8.
Definition EdgeNumbering : N := 16.
Definition ArrowTips : N := 32.
Definition WithPreamble : N := 64.
(** write_tikz.cc:13-16 and 18-21 *)
Definition ctrl_or (lhs rhs : N) : N := N.lor lhs rhs.
Definition ctrl_and (lhs rhs : N) : N := N.land lhs rhs.
(** static_cast<bool>(output_ctrl & flag), write_tikz.cc:35-49 *)
Definition flag_on (output_ctrl flag : N) : bool := negb (ctrl_and output_ctrl flag =? 0)%N.

Definition qpoint : Type := Q * Q.
(** vertices * a + center_mat * b, one column; write_tikz.cc:120-123, 178-179, 208-209 *)
Definition mix (a b : Q) (center v : qpoint) : qpoint := ((fst v * a + fst center * b)%Q, (snd v * a + snd center * b)%Q).
(** vertices.rowwise().sum() / vertices.cols(), write_tikz.cc:97-98 *)
Definition center_of (vertices : list qpoint) : qpoint :=
  let n := inject_Z (Z.of_nat (length vertices)) in
  ((fold_left (fun s v => s + fst v) vertices 0 / n)%Q, (fold_left (fun s v => s + snd v) vertices 0 / n)%Q).
(** << vertices(0, k) << "," << vertices(1, k) *)
Definition coords (v : list qpoint) (k : nat) : chars := show_g (fst (nth k v (0, 0)%Q)) ++ str "," ++ show_g (snd (nth k v (0, 0)%Q)).

(** write_tikz.cc:103-114 *)
Definition tikz_point (ctrl : N) (obj_idx : nat) (vertices : list qpoint) : chars :=
  if flag_on ctrl NodeNumbering then
    str "\draw[red, fill = white] (" ++ coords vertices 0 ++ str ") " ++ str "node[draw, circle, fill = white] {" ++ show obj_idx ++ str "};" ++ newline
  else str "\draw[red] (" ++ coords vertices 0 ++ str ") " ++ str "node[] {*};" ++ newline.
(** write_tikz.cc:118-172 *)
Definition tikz_segment (ctrl : N) (obj_idx : nat) (vertices : list qpoint) : chars :=
  let center := center_of vertices in
  let EdgeNumOn := flag_on ctrl EdgeNumbering in
  let NodeNumOn := flag_on ctrl NodeNumbering in
  let scaled_vertices := map (mix (80 # 100) (2 # 10) center) vertices in
  let semi_scaled_vertices := map (mix (95 # 100) (5 # 100) center) vertices in
  if flag_on ctrl ArrowTips then
    if EdgeNumOn && NodeNumOn then
      str "\draw[->] (" ++ coords scaled_vertices 0 ++ str ") -- node[black] {" ++ show obj_idx ++ str "} " ++ str "(" ++ coords scaled_vertices 1 ++ str ");" ++ newline
    else if NodeNumOn && negb EdgeNumOn then
      str "\draw[->] (" ++ coords scaled_vertices 0 ++ str ") -- " ++ str "(" ++ coords scaled_vertices 1 ++ str ");" ++ newline
    else if negb NodeNumOn && EdgeNumOn then
      str "\draw[->] (" ++ coords semi_scaled_vertices 0 ++ str ") -- node[black] {" ++ show obj_idx ++ str "} " ++ str "(" ++ coords semi_scaled_vertices 1 ++ str ");" ++ newline
    else if negb NodeNumOn && negb EdgeNumOn then
      str "\draw[->] (" ++ coords semi_scaled_vertices 0 ++ str ") -- " ++ str "(" ++ coords semi_scaled_vertices 1 ++ str ");" ++ newline
    else []
  else
    if EdgeNumOn then
      str "\draw[] (" ++ coords vertices 0 ++ str ") -- node[black] {" ++ show obj_idx ++ str "} " ++ str "(" ++ coords vertices 1 ++ str ");" ++ newline
    else if negb EdgeNumOn then
      str "\draw[] (" ++ coords vertices 0 ++ str ") -- " ++ str "(" ++ coords vertices 1 ++ str ");" ++ newline
    else [].
(** write_tikz.cc:176-204 *)
Definition tikz_tria (ctrl : N) (obj_idx : nat) (vertices : list qpoint) : chars :=
  let center := center_of vertices in
  let s := map (mix (70 # 100) (30 # 100) center) vertices in
  if flag_on ctrl RenderCells then
    (if flag_on ctrl VerticeNumbering then
       str "\draw[green] (" ++ coords s 0 ++ str ") node[] {0} -- (" ++ coords s 1 ++ str ") node[] {1} -- (" ++ coords s 2 ++ str ") node[] {2} -- cycle;" ++ newline
     else str "\draw[green] (" ++ coords s 0 ++ str ") -- (" ++ coords s 1 ++ str ") -- (" ++ coords s 2 ++ str ") -- cycle;" ++ newline) ++
    (if flag_on ctrl CellNumbering then str "\draw[green] (" ++ coords [center] 0 ++ str ") node[] {" ++ show obj_idx ++ str "};" ++ newline else [])
  else [].
(** write_tikz.cc:206-238 *)
Definition tikz_quad (ctrl : N) (obj_idx : nat) (vertices : list qpoint) : chars :=
  let center := center_of vertices in
  let s := map (mix (70 # 100) (3 # 10) center) vertices in
  if flag_on ctrl RenderCells then
    (if flag_on ctrl VerticeNumbering then
       str "\draw[magenta] (" ++ coords s 0 ++ str ") node[] {0} -- (" ++ coords s 1 ++ str ") node[] {1} -- (" ++ coords s 2 ++ str ") node[] {2} -- (" ++
       coords s 3 ++ str ") node[] {3} -- cycle;" ++ newline
     else str "\draw[magenta] (" ++ coords s 0 ++ str ") -- (" ++ coords s 1 ++ str ") -- (" ++ coords s 2 ++ str ") -- (" ++ coords s 3 ++ str ") -- cycle;" ++ newline) ++
    (if flag_on ctrl CellNumbering then str "\draw[magenta] (" ++ coords [center] 0 ++ str ") node[] {" ++ show obj_idx ++ str "};" ++ newline else [])
  else [].
(** write_tikz.cc:101-248 *)
Definition tikz_entity (ctrl : N) (obj_refel : refel) (obj_idx : nat) (vertices : list qpoint) : chars :=
  match obj_refel with
  | kPoint => tikz_point ctrl obj_idx vertices
  | kSegment => tikz_segment ctrl obj_idx vertices
  | kTria => tikz_tria ctrl obj_idx vertices
  | kQuad => tikz_quad ctrl obj_idx vertices
  end.
(** write_tikz.cc:65-82 *)
Definition tikz_head (ctrl : N) (no_of_nodes : nat) : chars :=
  (if flag_on ctrl WithPreamble then
     str "\documentclass[12pt,a4paper]{article}" ++ newline ++ str "\usepackage{tikz}" ++ newline ++ str "\begin{document}" ++ newline ++ newline
   else []) ++
  str "% TikZ document graphics " ++ newline ++
  (if 50 <? no_of_nodes then
     str "\begin{tikzpicture}[scale=6, >= stealth, inner sep=0pt, minimum size=0.2cm]" ++ newline ++ str "\tikzstyle{every node}=[font=\tiny]" ++ newline
   else str "\begin{tikzpicture}[scale=4, >= stealth, inner sep=0pt, minimum size=0.35cm]" ++ newline).
(** write_tikz.cc:24-262: the value returned and the contents of the file; [opened]: whether the file can
    be opened; [corners e]: obj_geo_ptr->Global(obj_corners). *)
Definition writeTikZ (opened : bool) (m : mesh) (corners : ent -> list qpoint) (selector : ent -> bool) (output_ctrl : N) : bool * chars :=
  if negb opened then (false, []) else
  (true,
   tikz_head output_ctrl (mv_count m 2) ++
   concat (map (fun co_dim =>
     concat (map (fun obj => if selector obj then tikz_entity output_ctrl (ent_type m obj) (ent_index obj) (corners obj) else []) (AssembleModel.entities m co_dim))) (seq 0 3)) ++
   str "\end{tikzpicture}" ++ newline ++
   (if flag_on output_ctrl WithPreamble then newline ++ str "\end{document}" ++ newline else [])).
(** write_tikz.cc:265-268 *)
Definition writeTikZ_all (opened : bool) (m : mesh) (corners : ent -> list qpoint) (output_ctrl : N) : bool * chars :=
  writeTikZ opened m corners (fun _ => true) output_ctrl.
(** write_tikz.h:130-132 and 141-142: the default of the last argument *)
Definition default_ctrl : N := RenderCells.
