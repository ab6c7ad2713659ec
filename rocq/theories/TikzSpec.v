(** What a file written by writeTikZ stands for: a part of the language of TikZ that is needed to read
    it, and the drawing of a mesh that is documented in write_tikz.h. *)
From Coq Require Import String Ascii List Arith NArith ZArith QArith Qabs Bool.
Import ListNotations.
From Verif Require Import Base MeshModel MeshView DofModel AssembleModel.
From Verif Require Import MshModel WriteSpec.
Local Open Scope list_scope.
Local Open Scope nat_scope.

(** *** Syntax: \draw[options] path; *)
Inductive element := At (x y : decimal) | Line | Label (options text : chars) | Cycle.
Inductive command := Draw (options : chars) (path : list element).
(** The characters before the next [c], which is read, too. *)
Definition until_ (c : ascii) : parser chars := read l <- star (char_if false (fun d => negb (Ascii.eqb d c))); read _ <- lit false [c]; ret l.
Definition element_ : parser element :=
  alt (read _ <- word_ "("; read x <- value_; read _ <- word_ ","; read y <- value_; read _ <- word_ ")"; ret (At x y))
  (alt (read _ <- word_ "--"; ret Line)
  (alt (read _ <- word_ "node"; read _ <- word_ "["; read o <- until_ "]"; read _ <- word_ "{"; read t <- until_ "}"; ret (Label o t))
       (read _ <- word_ "cycle"; ret Cycle))).
Definition command_ : parser command :=
  read _ <- word_ "\draw"; read _ <- word_ "["; read o <- until_ "]"; read p <- star element_; read _ <- word_ ";"; ret (Draw o p).
Definition style_ : parser unit := read _ <- word_ "\tikzstyle"; read _ <- word_ "{"; read _ <- until_ "}"; read _ <- word_ "="; read _ <- word_ "["; read _ <- until_ "]"; ret tt.
Definition preamble_ : parser unit :=
  read _ <- word_ "\documentclass"; read _ <- word_ "["; read _ <- until_ "]"; read _ <- word_ "{article}"; read _ <- word_ "\usepackage{tikz}"; word_ "\begin{document}".
Definition picture_ : parser (list command) :=
  read _ <- star comment_; read _ <- word_ "\begin{tikzpicture}"; read _ <- word_ "["; read _ <- until_ "]"; read _ <- star style_;
  read l <- star command_; read _ <- word_ "\end{tikzpicture}"; ret l.
(** A document that can be compiled, with one picture. *)
Definition document_ : parser (list command) := read _ <- preamble_; read l <- picture_; read _ <- word_ "\end{document}"; ret l.
Definition whole {A} (p : parser A) (file : chars) : option A :=
  match p file with Success a rest => match skip rest with [] => Some a | _ => None end | _ => None end.

(** *** What is drawn *)
(** [P]: points, [T]: texts. *)
Inductive figure (P T : Type) :=
| Text (circle : bool) (p : P) (t : T)                       (* a text at p *)
| Segment (arrow : bool) (p q : P) (t : option T)            (* a line or an arrow from p to q, with a text *)
| Polygon (corners : list (P * option T)).                   (* a closed polygon, with texts at its corners *)
Arguments Text {P T}. Arguments Segment {P T}. Arguments Polygon {P T}.
(** Corners of a polygon; every corner is followed by a line, the last line closes the polygon. *)
Fixpoint polygon_of (p : list element) : option (list ((decimal * decimal) * option chars)) :=
  match p with
  | [Cycle] => Some []
  | At x y :: Line :: r => match polygon_of r with Some l => Some (((x, y), None) :: l) | None => None end
  | At x y :: Label _ t :: Line :: r => match polygon_of r with Some l => Some (((x, y), Some t) :: l) | None => None end
  | _ => None
  end.
Definition is_arrow (options : chars) : bool := if list_eq_dec ascii_dec options (str "->") then true else false.
(** An option is circle. *)
Definition is_circle (options : chars) : bool := if list_eq_dec ascii_dec options (str "draw, circle, fill = white") then true else false.
Definition figure_of (c : command) : option (figure (decimal * decimal) chars) :=
  match c with
  | Draw _ [At x y; Label o t] => Some (Text (is_circle o) (x, y) t)
  | Draw o [At x y; Line; At x' y'] => Some (Segment (is_arrow o) (x, y) (x', y') None)
  | Draw o [At x y; Line; Label _ t; At x' y'] => Some (Segment (is_arrow o) (x, y) (x', y') (Some t))
  | Draw _ p => match polygon_of p with Some l => Some (Polygon l) | None => None end
  end.
Fixpoint all_some {A} (l : list (option A)) : option (list A) :=
  match l with [] => Some [] | Some a :: r => match all_some r with Some l => Some (a :: l) | None => None end | None :: _ => None end.
(** The figures in a file: a compilable document, or a picture to be included into a document. *)
Definition figures (document : bool) (file : chars) : option (list (figure (decimal * decimal) chars)) :=
  match whole (if document then document_ else picture_) file with Some l => all_some (map figure_of l) | None => None end.

(** *** The drawing of a mesh *)
Inductive label := Number (i : nat) | Star.
Definition point : Type := Q * Q.
(** The point on the way from p to c after the part t of it. *)
Definition towards (t : Q) (c p : point) : point := ((fst p + t * (fst c - fst p))%Q, (snd p + t * (snd c - snd p))%Q).
Definition sumQ (l : list Q) : Q := fold_right Qplus 0%Q l.
Definition centre (l : list point) : point := ((sumQ (map fst l) / inject_Z (Z.of_nat (length l)))%Q, (sumQ (map snd l) / inject_Z (Z.of_nat (length l)))%Q).
(** Flags, by the number of their bit. *)
Record flags := mkFlags { f_cells : bool; f_cell_numbers : bool; f_corner_numbers : bool; f_node_numbers : bool; f_edge_numbers : bool; f_arrows : bool; f_document : bool }.
Definition flags_of (ctrl : N) : flags :=
  mkFlags (N.testbit ctrl 0) (N.testbit ctrl 1) (N.testbit ctrl 2) (N.testbit ctrl 3) (N.testbit ctrl 4) (N.testbit ctrl 5) (N.testbit ctrl 6).
(** A node: an encircled number, or a star.  An edge: a line between its end points, or an arrow that
    leaves room for the nodes; perhaps with its number.  A cell: if cells are wanted, a polygon inside of
    it, perhaps with the numbers of its corners, and perhaps its number in the middle. *)
Definition drawing_of (F : flags) (t : refel) (i : nat) (corners : list point) : list (figure point label) :=
  let c := centre corners in
  match t with
  | kPoint => map (fun p => if f_node_numbers F then Text true p (Number i) else Text false p Star) corners
  | kSegment =>
      let room := (if f_arrows F then if f_node_numbers F then 1 # 5 else 1 # 20 else 0)%Q in
      match map (towards room c) corners with
      | [p; q] => [Segment (f_arrows F) p q (if f_edge_numbers F then Some (Number i) else None)]
      | _ => []
      end
  | _ =>
      if f_cells F then
        Polygon (map (fun x => (towards (3 # 10) c (snd x), if f_corner_numbers F then Some (Number (fst x)) else None)) (indexed corners)) ::
        (if f_cell_numbers F then [Text false c (Number i)] else [])
      else []
  end.
(** Cells, edges, nodes; only those that are selected. *)
Definition drawing (F : flags) (m : mesh) (corners : ent -> list point) (selector : ent -> bool) : list (figure point label) :=
  flat_map (fun e => drawing_of F (ent_type m e) (ent_index e) (corners e))
    (filter selector (AssembleModel.entities m 0 ++ AssembleModel.entities m 1 ++ AssembleModel.entities m 2)).
(** As many corners as the reference element has. *)
Definition proper_corners (m : mesh) (corners : ent -> list point) : Prop :=
  forall codim e, codim <= 2 -> In e (AssembleModel.entities m codim) -> length (corners e) = match ent_type m e with kPoint => 1 | kSegment => 2 | kTria => 3 | kQuad => 4 end.

(** *** A file shows a drawing: coordinates to six digits *)
Definition same_point (d : decimal * decimal) (p : point) : Prop := six_digits (fst d) (fst p) /\ six_digits (snd d) (snd p).
Definition same_text (t : chars) (l : label) : Prop := match l with Number i => index_ t = Success (N.of_nat i) [] | Star => t = str "*" end.
Definition same_option {A B} (R : A -> B -> Prop) (a : option A) (b : option B) : Prop :=
  match a, b with Some x, Some y => R x y | None, None => True | _, _ => False end.
Definition same_figure (f : figure (decimal * decimal) chars) (g : figure point label) : Prop :=
  match f, g with
  | Text a p t, Text b q u => a = b /\ same_point p q /\ same_text t u
  | Segment a p q t, Segment b p' q' u => a = b /\ same_point p p' /\ same_point q q' /\ same_option same_text t u
  | Polygon l, Polygon l' => Forall2 (fun x y => same_point (fst x) (fst y) /\ same_option same_text (snd x) (snd y)) l l'
  | _, _ => False
  end.
Definition shows (document : bool) (file : chars) (d : list (figure point label)) : Prop :=
  exists l, figures document file = Some l /\ Forall2 same_figure l d.
