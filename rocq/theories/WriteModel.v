(** Model of the writers of text files: lf::io::writeMatlab (lib/lf/io/write_matlab.cc),
    lf::io::writeMatplotlib (lib/lf/io/write_matplotlib.cc), lf::refinement::WriteMatlabLevel and
    WriteMatlab (lib/lf/refinement/refutils.cc).
    Simplifications: files can be opened and written; a file is the list of its characters;
    coordinates are finite floating point numbers other than -0, given exactly as rational
    numbers; the indices of the model are unbounded. *)
From Coq Require Import String Ascii List Arith NArith ZArith QArith Bool.
Import ListNotations.
From Verif Require Import Base MeshView MshModel RefineModel.
Local Open Scope list_scope.
Local Open Scope nat_scope.

(** *** operator<< of std::ostream *)
(** Decimal digits of an unsigned integer. *)
Definition digit_char (d : N) : ascii := ascii_of_N (48 + d).
Fixpoint digs (k : nat) (n : N) : list N := match k with O => [] | S k' => digs k' (n / 10)%N ++ [(n mod 10)%N] end.
Fixpoint width_ (fuel : nat) (n : N) : nat := match fuel with O => 1 | S f => if (n <? 10)%N then 1 else S (width_ f (n / 10)%N) end.
Definition width (n : N) : nat := width_ (N.size_nat n) n.
Definition show_N (n : N) : chars := map digit_char (digs (width n) n).
Definition show (n : nat) : chars := show_N (N.of_nat n).
(** An int. *)
Definition show_Z (z : Z) : chars := (if (z <? 0)%Z then str "-" else []) ++ show_N (Z.abs_N z).

(** A double with the default format and precision: printf's %g with six significant digits
    ([ostream.formatted], ISO C 7.21.6.1). *)
(** n / d * 10^k *)
Definition scale (n d k : Z) : Z * Z := if (0 <=? k)%Z then ((n * 10 ^ k)%Z, d) else (n, (d * 10 ^ (- k))%Z).
(** The exponent of the leading digit of n / d. *)
Definition leading (n d : Z) : Z :=
  let k := (Z.of_nat (width (Z.to_N n)) - Z.of_nat (width (Z.to_N d)))%Z in
  let (a, b) := scale n d (- k) in if (b <=? a)%Z then k else (k - 1)%Z.
(** Rounding to nearest, ties to even. *)
Definition round_even (a b : Z) : Z :=
  let q := (a / b)%Z in
  match ((2 * (a mod b)) ?= b)%Z with Lt => q | Gt => (q + 1)%Z | Eq => if Z.even q then q else (q + 1)%Z end.
(** Six significant digits, and the exponent of the first one. *)
Definition significand (n d : Z) : Z * Z :=
  let X := leading n d in
  let (a, b) := scale n d (5 - X) in
  let m := round_even a b in
  if (m =? 10 ^ 6)%Z then ((10 ^ 5)%Z, (X + 1)%Z) else (m, X).
Fixpoint drop_zeros (l : list N) : list N := match l with 0%N :: r => drop_zeros r | _ => l end.
Definition strip (l : list N) : list N := rev (drop_zeros (rev l)).
Definition fraction (fp : list N) : chars := match fp with [] => [] | _ => "."%char :: map digit_char fp end.
Definition show_g (x : Q) : chars :=
  if (Qnum x =? 0)%Z then str "0" else
  let (m, X) := significand (Z.abs (Qnum x)) (Zpos (Qden x)) in
  let ds := digs 6 (Z.to_N m) in
  (if (Qnum x <? 0)%Z then str "-" else []) ++
  (if (-4 <=? X)%Z && (X <? 6)%Z then
     if (0 <=? X)%Z then let k := Z.to_nat (X + 1) in map digit_char (firstn k ds) ++ fraction (strip (skipn k ds))
     else str "0" ++ fraction (strip (repeat 0%N (Z.to_nat (- X - 1)) ++ ds))
   else map digit_char (firstn 1 ds) ++ fraction (strip (skipn 1 ds)) ++ str "e" ++
        (if (X <? 0)%Z then str "-" else str "+") ++
        (let e := Z.abs_N X in map digit_char (digs (Nat.max 2 (width e)) e))).
Definition newline : chars := str (String "010" "").

(** *** MATLAB *)
(** write_matlab.cc:14-21, refutils.cc:22-29: the name of the file. *)
Definition matlab_file (filename : chars) : chars :=
  let n := length filename in
  if (1 <? n) && negb (Ascii.eqb (nth (n - 2) filename "000"%char) ".") && negb (Ascii.eqb (nth (n - 1) filename "000"%char) "m")
  then filename ++ str ".m" else filename.
(** write_matlab.cc:27-28, refutils.cc:35-36: filename.pop_back() twice; [Assert] for the
    undefined behaviour of pop_back on an empty string. *)
Definition matlab_function (file : chars) : res chars :=
  do _ <- lf_assert (2 <=? length file); Ok (firstn (length file - 2) file).

(** write_matlab.cc:45-55 *)
Definition matlab_node (xy : nat -> Q * Q) (i : nat) : chars :=
  str "x(" ++ show (i + 1) ++ str ") = " ++ show_g (fst (xy i)) ++ str "; " ++ newline ++
  str "y(" ++ show (i + 1) ++ str ") = " ++ show_g (snd (xy i)) ++ str "; " ++ newline.
(** write_matlab.cc:63-76 *)
Fixpoint matlab_edges (i : nat) (es : list (nat * nat)) : chars :=
  match es with
  | [] => []
  | (p0, p1) :: r =>
      str "EDS(" ++ show (i + 1) ++ str ",:) = [" ++ show (p0 + 1) ++ str ", " ++ show (p1 + 1) ++ str "];" ++ newline ++
      matlab_edges (i + 1) r
  end.
(** write_matlab.cc:84-116; [t] and [q] are triag_cnt and quad_cnt. *)
Fixpoint matlab_cells (i t q : nat) (cs : list cellv) : res chars :=
  match cs with
  | [] => Ok []
  | c :: r =>
      match cv_nodes c with
      | [n0; n1; n2] =>
          do s <- matlab_cells (i + 1) (t + 1) q r;
          Ok (str "TRI(" ++ show (t + 1) ++ str ",:) = [" ++ show (n0 + 1) ++ str ", " ++ show (n1 + 1) ++ str ", " ++
              show (n2 + 1) ++ str ", " ++ show i ++ str " ];" ++ newline ++ s)
      | [n0; n1; n2; n3] =>
          do s <- matlab_cells (i + 1) t (q + 1) r;
          Ok (str "QUAD(" ++ show (q + 1) ++ str ",:) = [" ++ show (n0 + 1) ++ str ", " ++ show (n1 + 1) ++ str ", " ++
              show (n2 + 1) ++ str ", " ++ show (n3 + 1) ++ str ", " ++ show i ++ str " ];" ++ newline ++ s)
      | _ => Throw
      end
  end.
(** write_matlab.cc:9-119: name and contents of the file; [xy] are the positions of the nodes. *)
Definition writeMatlab (m : mesh) (xy : nat -> Q * Q) (filename : chars) : res (chars * chars) :=
  let file := matlab_file filename in
  do f <- matlab_function file;
  do cells <- matlab_cells 0 0 0 (mv_cells m);
  Ok (file,
      str "function [x,y,TRI,QUAD,EDS] = " ++ f ++ str "()" ++ newline ++
      str "% Data for an unstructure planar hybrid 2D mesh" ++ newline ++
      str "x = zeros(" ++ show (mv_nodes m) ++ str ",1);" ++ newline ++
      str "y = zeros(" ++ show (mv_nodes m) ++ str ",1);" ++ newline ++
      concat (map (matlab_node xy) (seq 0 (mv_nodes m))) ++
      str "EDS = zeros(" ++ show (length (mv_edges m)) ++ str ",2);" ++ newline ++
      matlab_edges 0 (mv_edges m) ++
      str "TRI = []; QUAD = [];" ++ newline ++
      cells).

(** refutils.cc:14-18 (normalize_idx); None = idx_nil. *)
Definition normalize_idx (i : option nat) : res Z :=
  match i with
  | None => Ok (-1)%Z
  | Some k => do _ <- lf_assert (Z.of_nat k <=? 2147483647)%Z; Ok (Z.of_nat k)
  end.
(** refutils.cc:48-52 and 61-65: the remaining entities k, k + 1, ... *)
Fixpoint level_rows (name : chars) (n k : nat) (infos : list parent) : res chars :=
  match n with
  | O => Ok []
  | S n' =>
      do p <- get infos k;
      do i <- normalize_idx (pa_index p);
      do c <- normalize_idx (pa_num p);
      do s <- level_rows name n' (k + 1) infos;
      Ok (name ++ str "(" ++ show (k + 1) ++ str ",:) = [" ++ show_Z i ++ str " , " ++ show_Z c ++ str "];" ++ newline ++ s)
  end.
(** refutils.cc:75-80 *)
Fixpoint level_cells (n k : nat) (infos : list parent) (ref_eds : list (option nat)) : res chars :=
  match n with
  | O => Ok []
  | S n' =>
      do p <- get infos k;
      do i <- normalize_idx (pa_index p);
      do c <- normalize_idx (pa_num p);
      do r <- get ref_eds k;
      do e <- normalize_idx r;
      do s <- level_cells n' (k + 1) infos ref_eds;
      Ok (str "CELLPAR(" ++ show (k + 1) ++ str ",:) = [" ++ show_Z i ++ str " , " ++ show_Z c ++ str " , " ++ show_Z e ++ str " ];" ++ newline ++ s)
  end.
(** refutils.cc:20-84 *)
Definition WriteMatlabLevel (L : level) (filename : chars) : res (chars * chars) :=
  let file := matlab_file filename in
  do f <- matlab_function file;
  do pts <- level_rows (str "PTPAR") (mv_nodes (l_mesh L)) 0 (l_ppar L);
  do eds <- level_rows (str "EDPAR") (length (mv_edges (l_mesh L))) 0 (l_epar L);
  do cls <- level_cells (length (mv_cells (l_mesh L))) 0 (l_cpar L) (l_refedge L);
  Ok (file,
      str "function [PTPAR,EDPAR,CELLPAR] = " ++ f ++ str "()" ++ newline ++
      str "% Parent data for a hybid 2D mesh" ++ newline ++
      pts ++ eds ++ cls).
(** refutils.cc:86-104: the files written for the levels k, k + 1, ...; [xy l] are the positions
    of the nodes of level l. *)
Fixpoint WriteMatlab_levels (k : nat) (ls : list level) (xy : nat -> nat -> Q * Q) (basename : chars) : res (list (chars * chars)) :=
  match ls with
  | [] => Ok []
  | L :: r =>
      let filebase := basename ++ str "_L" ++ show k in
      do f <- writeMatlab (l_mesh L) (xy k) (filebase ++ str ".m");
      do g <- WriteMatlabLevel L (filebase ++ str "_pi.m");
      do fs <- WriteMatlab_levels (k + 1) r xy basename;
      Ok (f :: g :: fs)
  end.
Definition WriteMatlab (H : hierarchy) (xy : nat -> nat -> Q * Q) (basename : chars) : res (list (chars * chars)) :=
  WriteMatlab_levels 0 (h_coarser H ++ [h_finest H]) xy basename.

(** *** matplotlib *)
(** write_matplotlib.cc:22-24: std::string::compare throws std::out_of_range if the position
    filename.size() - 4 is behind the end. *)
Definition matplotlib_file (filename : chars) : res chars :=
  do _ <- verify (4 <=? length filename);
  Ok (if list_eq_dec ascii_dec (skipn (length filename - 4) filename) (str ".csv") then filename else filename ++ str ".csv").
(** write_matplotlib.cc:51-71: the indices of the sub-entities, each with a comma. *)
Definition csv_row (codim i : nat) (sub : list nat) : chars :=
  show codim ++ str "," ++ show i ++ str "," ++ concat (map (fun s => show s ++ str ",") sub) ++ newline.
(** write_matplotlib.cc:62-72: SubEntities(1) of the cells *)
Fixpoint csv_cells (i : nat) (cs : list cellv) : res chars :=
  match cs with
  | [] => Ok []
  | c :: r =>
      match length (cv_nodes c) with
      | 3 | 4 => do s <- csv_cells (i + 1) r; Ok (csv_row 0 i (cv_edges c) ++ s)
      | _ => Throw
      end
  end.
(** write_matplotlib.cc:51-60 *)
Fixpoint csv_edges (i : nat) (es : list (nat * nat)) : chars :=
  match es with [] => [] | (p0, p1) :: r => csv_row 1 i [p0; p1] ++ csv_edges (i + 1) r end.
(** write_matplotlib.cc:46-50 *)
Definition csv_node (xy : nat -> Q * Q) (i : nat) : chars :=
  show 2 ++ str "," ++ show i ++ str "," ++ show_g (fst (xy i)) ++ str "," ++ show_g (snd (xy i)) ++ newline.
(** write_matplotlib.cc:18-84 *)
Definition writeMatplotlib (m : mesh) (xy : nat -> Q * Q) (filename : chars) : res (chars * chars) :=
  do file <- matplotlib_file filename;
  do cells <- csv_cells 0 (mv_cells m);
  Ok (file, cells ++ csv_edges 0 (mv_edges m) ++ concat (map (csv_node xy) (seq 0 (mv_nodes m)))).
