(** What a text file written by lf::io stands for: the part of the language MATLAB that is
    needed to run the files, and the reader lib/lf/io/plot_mesh.py of the comma separated
    files.  Only the primitive parsers of numbers and words of MshModel are used. *)
From Coq Require Import String Ascii List Arith NArith ZArith QArith Qabs Bool.
Import ListNotations.
From Verif Require Import Base MeshView MshModel RefineModel.
Local Open Scope list_scope.
Local Open Scope nat_scope.

(** *** Numbers *)
(** The value m * 10^e of a number (m, e) in a file. *)
Definition number_of (d : decimal) : Q := (inject_Z (fst d) * Qpower 10 (snd d))%Q.
(** It agrees with x up to half a unit of the sixth significant digit; it is x if six digits are
    enough for x. *)
Definition six_digits (d : decimal) (x : Q) : Prop :=
  (Qabs (number_of d - x) <= (5 # 1000000) * Qabs x)%Q /\
  (forall k e, (Z.abs k < 10 ^ 6)%Z -> (x == inject_Z k * Qpower 10 e)%Q -> (number_of d == x)%Q).
Definition int (z : Z) : decimal := (z, 0%Z).
Definition nat_ (n : nat) : decimal := int (Z.of_nat n).

(** *** A subset of MATLAB *)
Definition letter (c : ascii) : bool := let n := nat_of_ascii c in ((65 <=? n) && (n <=? 90)) || ((97 <=? n) && (n <=? 122)).
Definition name_char (c : ascii) : bool := letter c || Ascii.eqb c "_" || match digit c with Some _ => true | None => false end.
(** Names: a letter, then letters, digits and underscores. *)
Definition identifier (s : chars) : Prop := exists c r, s = c :: r /\ letter c = true /\ Forall (fun d => name_char d = true) r.
Definition matrix := list (list decimal).
Inductive statement :=
| Zeros (v : chars) (rows cols : N)          (* v = zeros(rows,cols); *)
| Empty (v : chars)                          (* v = []; *)
| SetElement (v : chars) (k : N) (x : decimal)           (* v(k) = x; *)
| SetRow (v : chars) (k : N) (row : list decimal).       (* v(k,:) = [x, ..., x]; *)
Inductive function := Function (outputs : list chars) (name : chars) (body : list statement).

(** Syntax; white space is skipped before words. *)
Definition word_ (t : string) : parser unit := lit true (str t).
Definition name_ : parser chars := read c <- char_if true letter; read l <- star (char_if false name_char); ret (c :: l).
Definition index_ : parser N := fun s => let (ds, r) := digits (skip s) in match ds with [] => Fail | _ => Success (number ds) r end.
Definition value_ : parser decimal := double_ true.
Definition values_ : parser (list decimal) := read a <- value_; read l <- star (read _ <- word_ ","; value_); ret (a :: l).
Definition statement_ : parser statement :=
  read v <- name_;
  alt (read _ <- word_ "("; read k <- index_;
       alt (read _ <- word_ ","; read _ <- word_ ":"; read _ <- word_ ")"; read _ <- word_ "="; read _ <- word_ "[";
            read l <- values_; read _ <- word_ "]"; read _ <- word_ ";"; ret (SetRow v k l))
           (read _ <- word_ ")"; read _ <- word_ "="; read x <- value_; read _ <- word_ ";"; ret (SetElement v k x)))
      (read _ <- word_ "=";
       alt (read _ <- word_ "zeros("; read r <- index_; read _ <- word_ ","; read c <- index_;
            read _ <- word_ ")"; read _ <- word_ ";"; ret (Zeros v r c))
           (read _ <- word_ "["; read _ <- word_ "]"; read _ <- word_ ";"; ret (Empty v))).
(** A line that starts with a percent sign. *)
Definition comment_ : parser unit := read _ <- word_ "%"; read _ <- star (char_if false (fun c => negb (Ascii.eqb c "010"))); ret tt.
Definition function_ : parser function :=
  read _ <- word_ "function "; read _ <- word_ "["; read o <- name_; read os <- star (read _ <- word_ ","; name_); read _ <- word_ "]";
  read _ <- word_ "="; read f <- name_; read _ <- word_ "("; read _ <- word_ ")";
  read _ <- star comment_; read b <- star statement_; ret (Function (o :: os) f b).

(** Semantics. *)
Definition variables := chars -> option matrix.
Definition assign (e : variables) (v : chars) (a : matrix) : variables := fun w => if list_eq_dec ascii_dec w v then Some a else e w.
(** All rows have n entries. *)
Definition columns (a : matrix) (n : nat) : bool := forallb (fun r => length r =? n) a.
Definition replace_row (a : matrix) (k : nat) (r : list decimal) : matrix := firstn k a ++ [r] ++ skipn (S k) a.
Definition execute (e : variables) (s : statement) : option variables :=
  match s with
  | Zeros v r c => Some (assign e v (repeat (repeat (int 0) (N.to_nat c)) (N.to_nat r)))
  | Empty v => Some (assign e v [])
  | SetElement v k x =>
      (* element k of an existing column vector *)
      match e v with
      | Some a => if (1 <=? N.to_nat k) && (N.to_nat k <=? length a) && columns a 1 then Some (assign e v (replace_row a (N.to_nat k - 1) [x])) else None
      | None => None
      end
  | SetRow v k row =>
      (* a row of a matrix, or the row behind the last one; a variable that does not exist is
         an empty matrix *)
      let a := match e v with Some a => a | None => [] end in
      if (1 <=? N.to_nat k) && (N.to_nat k <=? length a + 1) && columns a (length row) then Some (assign e v (replace_row a (N.to_nat k - 1) row)) else None
  end.
Fixpoint execute_all (e : variables) (l : list statement) : option variables :=
  match l with [] => Some e | s :: r => match execute e s with Some e' => execute_all e' r | None => None end end.
Fixpoint outputs_of (e : variables) (os : list chars) : option (list matrix) :=
  match os with
  | [] => Some []
  | o :: r => match e o, outputs_of e r with Some a, Some l => Some (a :: l) | _, _ => None end
  end.
(** The values that a call of the function in a file returns, with its name. *)
Definition run (file : chars) : option (chars * list matrix) :=
  match function_ file with
  | Success (Function os f b) rest =>
      match skip rest with
      | [] => match execute_all (fun _ => None) b with Some e => match outputs_of e os with Some l => Some (f, l) | None => None end | None => None end
      | _ => None
      end
  | _ => None
  end.

(** *** plot_mesh.py *)
(** Lines of a file. *)
Fixpoint lines_ (cur s : chars) : list chars :=
  match s with
  | [] => match cur with [] => [] | _ => [rev cur] end
  | c :: r => if Ascii.eqb c "010" then rev cur :: lines_ [] r else lines_ (c :: cur) r
  end.
Definition lines (s : chars) : list chars := lines_ [] s.
(** line.split()[0]; None: IndexError *)
Fixpoint until_space (s : chars) : chars := match s with [] => [] | c :: r => if is_space c then [] else c :: until_space r end.
Definition first_word (s : chars) : option chars := match skip s with [] => None | t => Some (until_space t) end.
(** np.fromstring(..., sep=','): numbers separated by commas; a comma may follow the last one. *)
Definition array_ : parser (list decimal) :=
  read a <- double_ false; read l <- star (read _ <- lit false (str ","); double_ false); read _ <- opt (lit false (str ",")); ret (a :: l).
Definition array (s : chars) : option (list decimal) := match array_ s with Success l [] => Some l | _ => None end.
Record plot := mkPlot { vertices : matrix; segments : matrix; triangles : matrix; quads : matrix }.
(** One pass of the loop of plot_mesh.py:15-30. *)
Definition add_line (p : plot) (l : chars) : option plot :=
  match first_word l with
  | None => None
  | Some w =>
      match array w with
      | Some (h :: t) =>
          let a := h :: t in
          if Qeq_bool (number_of h) 0 then
            if length a =? 5 then Some (mkPlot (vertices p) (segments p) (triangles p ++ [a]) (quads p))
            else if length a =? 6 then Some (mkPlot (vertices p) (segments p) (triangles p) (quads p ++ [a]))
            else None
          else if Qeq_bool (number_of h) 1 then Some (mkPlot (vertices p) (segments p ++ [a]) (triangles p) (quads p))
          else if Qeq_bool (number_of h) 2 then Some (mkPlot (vertices p ++ [a]) (segments p) (triangles p) (quads p))
          else Some p
      | _ => None
      end
  end.
Fixpoint add_lines (p : plot) (ls : list chars) : option plot :=
  match ls with [] => Some p | l :: r => match add_line p l with Some p' => add_lines p' r | None => None end end.
Definition plot_mesh (file : chars) : option plot := add_lines (mkPlot [] [] [] []) (lines file).

(** *** The data of a mesh *)
Definition indexed {A} (l : list A) : list (nat * A) := combine (seq 0 (length l)) l.
Definition corners (n : nat) (x : nat * cellv) : bool := length (cv_nodes (snd x)) =? n.
(** The cells with n corners: what is listed for cell number i. *)
Definition cell_table (m : mesh) (n : nat) (f : nat -> cellv -> list nat) : matrix :=
  map (fun x => map nat_ (f (fst x) (snd x))) (filter (corners n) (indexed (mv_cells m))).
Definition edge_table (m : mesh) (f : nat -> nat * nat -> list nat) : matrix :=
  map (fun x => map nat_ (f (fst x) (snd x))) (indexed (mv_edges m)).
Definition tri_or_quad (c : cellv) : Prop := length (cv_nodes c) = 3 \/ length (cv_nodes c) = 4.
(** A column vector that agrees with f to six digits. *)
Definition column (a : matrix) (n : nat) (f : nat -> Q) : Prop := length a = n /\ forall i, i < n -> exists d, nth_error a i = Some [d] /\ six_digits d (f i).
(** What writeMatlab documents: coordinates of the nodes; for the cells the numbers of their
    corners counted from one, and their index; for the edges the numbers of their end points. *)
Definition matlab_mesh (m : mesh) (xy : nat -> Q * Q) (out : list matrix) : Prop :=
  exists x y,
    out = [x; y;
           cell_table m 3 (fun i c => map (fun n => n + 1) (cv_nodes c) ++ [i]);
           cell_table m 4 (fun i c => map (fun n => n + 1) (cv_nodes c) ++ [i]);
           edge_table m (fun _ p => [fst p + 1; snd p + 1])] /\
    column x (mv_nodes m) (fun i => fst (xy i)) /\ column y (mv_nodes m) (fun i => snd (xy i)).
(** The parents of the entities of a level: index of the parent and number among its children,
    -1 for none; for cells also the local number of the refinement edge. *)
Definition signed (i : option nat) : decimal := match i with None => int (-1) | Some k => nat_ k end.
Definition matlab_parents (L : level) : list matrix :=
  [map (fun p => [signed (pa_index p); signed (pa_num p)]) (l_ppar L);
   map (fun p => [signed (pa_index p); signed (pa_num p)]) (l_epar L);
   map (fun x => [signed (pa_index (fst x)); signed (pa_num (fst x)); signed (snd x)]) (combine (l_cpar L) (l_refedge L))].
(** A level with entities of all kinds and with data for all of them; indices fit into int. *)
Definition int_range (i : option nat) : Prop := match i with None => True | Some k => (Z.of_nat k < 2 ^ 31)%Z end.
Definition filled_level (L : level) : Prop :=
  0 < length (l_ppar L) /\ 0 < length (l_epar L) /\ 0 < length (l_cpar L) /\
  length (l_ppar L) = mv_nodes (l_mesh L) /\ length (l_epar L) = length (mv_edges (l_mesh L)) /\
  length (l_cpar L) = length (mv_cells (l_mesh L)) /\ length (l_refedge L) = length (mv_cells (l_mesh L)) /\
  Forall (fun p => int_range (pa_index p) /\ int_range (pa_num p)) (l_ppar L ++ l_epar L ++ l_cpar L) /\ Forall int_range (l_refedge L).
(** The names that writeMatlab deals with: file [file] defines function [f]. *)
Definition matlab_name (filename f : chars) : Prop :=
  identifier f /\
  (filename = f ++ str ".m" \/ (filename = f /\ 2 <= length f /\ last f "000"%char <> "m"%char)).
(** What plot_mesh.py draws: for the cells 0, their index and the indices of their edges; for the
    edges 1, their index and the indices of their end points; for the nodes 2, their index and
    their coordinates. *)
Definition plotted (m : mesh) (xy : nat -> Q * Q) (p : plot) : Prop :=
  triangles p = cell_table m 3 (fun i c => 0 :: i :: cv_edges c) /\
  quads p = cell_table m 4 (fun i c => 0 :: i :: cv_edges c) /\
  segments p = edge_table m (fun i e => [1; i; fst e; snd e]) /\
  length (vertices p) = mv_nodes m /\
  forall i, i < mv_nodes m -> exists dx dy, nth_error (vertices p) i = Some [nat_ 2; nat_ i; dx; dy] /\ six_digits dx (fst (xy i)) /\ six_digits dy (snd (xy i)).
(** The name of the file: .csv is appended unless the name ends with it. *)
Definition csv_name (filename : chars) : chars :=
  if list_eq_dec ascii_dec (skipn (length filename - 4) filename) (str ".csv") then filename else filename ++ str ".csv".
Definition good_cell (c : cellv) : Prop := tri_or_quad c /\ length (cv_edges c) = length (cv_nodes c).
