(** Model of lf::io::WriteToFile (lib/lf/io/vtk_writer.cc, vtk_writer.h): the characters of the
    file that is written for a VtkFile, in text and in binary format.

    Simplifications: the file can be opened and written.  long has 8 bytes, char is signed.
    Floating point numbers are given by their bit patterns (IEEE 754).  The generators of
    boost::spirit::karma are modelled by their documented effects; the generator of floating
    point numbers (real_policies: three digits after the point, without trailing zeros;
    scientific notation outside of [10^-3, 10^5)) works in exact arithmetic instead of floating
    point arithmetic.  Sizes are unbounded. *)
From Coq Require Import String Ascii List Arith NArith ZArith QArith Bool.
Import ListNotations.
From Verif Require Import Base MshModel WriteModel.
Local Open Scope list_scope.
Local Open Scope nat_scope.

(** *** The file (vtk_writer.h:25-170) *)
Inductive format := ASCII | BINARY.
(** The types of data; numbers of the types [Integer] are integers, numbers of the types [Real]
    are bit patterns. *)
Inductive integer := Char | UChar | Short | UShort | Int | UInt | Long | ULong.
Inductive real := Float | Double.
Inductive kind := Integer (i : integer) | Real (r : real).
(** vtk_writer.h:68-73 (UnstructuredGrid); points are bit patterns of floats, cell types the
    values of the enumeration of vtk_writer.h:38-66. *)
Record grid := mkGrid { points : list (Z * Z * Z); cells : list (list Z); cell_types : list Z }.
(** vtk_writer.h:75-86 and 134-136 (FieldDataArray, FieldData) *)
Inductive field := IntArray (name : chars) (data : list Z) | RealArray (r : real) (name : chars) (data : list Z).
(** vtk_writer.h:88-130 (ScalarData, VectorData, Attributes) *)
Inductive attribute :=
| ScalarData (k : kind) (name lookup_table : chars) (data : list Z)
| VectorData (r : real) (name : chars) (data : list (Z * Z * Z)).
(** vtk_writer.h:141-157 *)
Record vtk_file := mkFile { header : chars; format_ : format; grid_ : grid; field_data : list field; point_data : list attribute; cell_data : list attribute }.

(** *** Generators for numbers *)
(** The number with bit pattern z: sign, exponent and fraction of IEEE 754. *)
Inductive value := Finite (q : Q) | Infinite (negative : bool) | NaN (negative : bool).
Definition fraction_bits (r : real) : Z := match r with Float => 23%Z | Double => 52%Z end.
Definition exponent_bits (r : real) : Z := match r with Float => 8%Z | Double => 11%Z end.
(** m * 2^e *)
Definition times_power (m e : Z) : Q := if (0 <=? e)%Z then inject_Z (m * 2 ^ e) else (m # Z.to_pos (2 ^ (- e))).
Definition value_of (r : real) (z : Z) : value :=
  let f := fraction_bits r in
  let fraction := (z mod 2 ^ f)%Z in
  let exponent := ((z / 2 ^ f) mod 2 ^ exponent_bits r)%Z in
  let negative := Z.odd (z / 2 ^ (f + exponent_bits r)) in
  let bias := (2 ^ (exponent_bits r - 1) - 1)%Z in
  let s := if negative then (-1)%Z else 1%Z in
  if (exponent =? 2 ^ exponent_bits r - 1)%Z then (if (fraction =? 0)%Z then Infinite negative else NaN negative)
  else if (exponent =? 0)%Z then Finite (times_power (s * fraction) (1 - bias - f))
  else Finite (times_power (s * (fraction + 2 ^ f)) (exponent - bias - f)).

(** karma::float_, karma::double_ for the number n / d >= 0: integer part and three digits after
    the point, rounded half up. *)
Definition fixed_parts (n d : Z) : Z * Z :=
  let i := (n / d)%Z in
  let f := ((2 * 1000 * (n mod d) + d) / (2 * d))%Z in
  if (1000 <=? f)%Z then ((i + 1)%Z, (f - 1000)%Z) else (i, f).
(** Integer part, point and digits without trailing zeros, but at least one. *)
Definition parts_text (p : Z * Z) : chars :=
  show_N (Z.to_N (fst p)) ++ str "." ++
  match strip (digs 3 (Z.to_N (snd p))) with [] => str "0" | l => map digit_char l end.
Definition minus (b : bool) : chars := if b then str "-" else [].
Definition real_text (v : value) : chars :=
  match v with
  | Infinite b => minus b ++ str "inf"
  | NaN b => minus b ++ str "nan"
  | Finite x =>
      let n := Z.abs (Qnum x) in let d := Zpos (Qden x) in
      let negative := (Qnum x <? 0)%Z in
      if (n =? 0)%Z then str "0.0" else
      if (d <=? n * 1000)%Z && (n <? 100000 * d)%Z then minus negative ++ parts_text (fixed_parts n d)
      else
        let X := leading n d in
        let (a, b) := scale n d (- X) in
        let e := Z.abs_N X in
        minus negative ++ parts_text (fixed_parts a b) ++ str "e" ++ minus (X <? 0)%Z ++
        (if (e <? 10)%N then str "0" else []) ++ show_N e
  end.
(** A number of a given type in text format: karma::short_, ..., karma::double_. *)
Definition number_text (k : kind) (z : Z) : chars :=
  match k with Integer _ => show_Z z | Real r => real_text (value_of r z) end.
(** The number of bytes of a type. *)
Definition bytes_of (k : kind) : nat :=
  match k with
  | Integer Char | Integer UChar => 1
  | Integer Short | Integer UShort => 2
  | Integer Int | Integer UInt | Real Float => 4
  | Integer Long | Integer ULong | Real Double => 8
  end.
(** The n bytes of z, the most significant one first: karma::byte_, big_word, big_dword,
    big_qword, big_bin_float, big_bin_double. *)
Fixpoint big_endian (n : nat) (z : Z) : chars :=
  match n with O => [] | S n' => big_endian n' (z / 256) ++ [ascii_of_N (Z.to_N (z mod 256))] end.
Definition number_bytes (k : kind) (z : Z) : chars := big_endian (bytes_of k) z.
(** p % sep: fails for an empty list. *)
Fixpoint separated (sep : chars) (l : list chars) : option chars :=
  match l with [] => None | [a] => Some a | a :: r => option_map (fun t => a ++ sep ++ t) (separated sep r) end.
(** *(p % sep): a list that is empty gives no characters. *)
Definition any_separated (sep : chars) (l : list chars) : chars := match separated sep l with Some t => t | None => [] end.

(** *** The grammar (vtk_writer.cc:113-422) *)
Definition sp : chars := str " ".
Definition nl : chars := newline.
Definition xs {A B} (f : A -> list B) (p : A * A * A) : list B := let '(x, y, z) := p in f x ++ f y ++ f z.
(** vtk_writer.cc:132-139 *)
Definition points_vector (b : format) (ps : list (Z * Z * Z)) : chars :=
  match b with
  | BINARY => flat_map (xs (number_bytes (Real Float))) ps ++ nl
  | ASCII => flat_map (fun '(x, y, z) => number_text (Real Float) x ++ sp ++ number_text (Real Float) y ++ sp ++ number_text (Real Float) z ++ nl) ps
  end.
(** vtk_writer.cc:141-144 *)
Definition points_section (b : format) (ps : list (Z * Z * Z)) : chars :=
  str "POINTS " ++ show (length ps) ++ str " float" ++ nl ++ points_vector b ps.
(** vtk_writer.cc:147-157.  In text format the generator fails for a cell without corners;
    what is then written is not modelled ([Assert]). *)
Definition cells_vector (b : format) (c : list Z) : res chars :=
  match b with
  | BINARY => Ok (number_bytes (Integer UInt) (Z.of_nat (length c)) ++ flat_map (number_bytes (Integer UInt)) c)
  | ASCII => match separated sp (map (number_text (Integer UInt)) c) with Some t => Ok (show (length c) ++ sp ++ t ++ nl) | None => Assert end
  end.
Fixpoint all_cells (b : format) (cs : list (list Z)) : res chars :=
  match cs with [] => Ok [] | c :: r => do s <- cells_vector b c; do t <- all_cells b r; Ok (s ++ t) end.
(** vtk_writer.cc:92-98 *)
Definition cell_list_size (cs : list (list Z)) : nat := fold_left (fun result v => result + length v) cs (length cs).
(** vtk_writer.cc:158-161 *)
Definition cells_section (b : format) (cs : list (list Z)) : res chars :=
  do s <- all_cells b cs;
  Ok (str "CELLS " ++ show (length cs) ++ sp ++ show (cell_list_size cs) ++ nl ++ s ++ nl).
(** vtk_writer.cc:163-174 *)
Definition cell_type (b : format) (t : Z) : chars :=
  match b with BINARY => number_bytes (Integer Int) t | ASCII => number_text (Integer Int) t ++ nl end.
Definition types_section (b : format) (ts : list Z) : chars :=
  str "CELL_TYPES " ++ show (length ts) ++ nl ++ flat_map (cell_type b) ts.
(** vtk_writer.cc:176-177 *)
Definition unstructured_grid (b : format) (g : grid) : res chars :=
  do c <- cells_section b (cells g);
  Ok (str "DATASET UNSTRUCTURED_GRID" ++ nl ++ points_section b (points g) ++ c ++ types_section b (cell_types g)).

(** vtk_writer.cc:180-209: one array; None: the generator fails. *)
Definition field_array (b : format) (a : field) : option chars :=
  let '(k, name, type, data) :=
    match a with
    | IntArray name data => (Integer Int, name, " int"%string, data)
    | RealArray Float name data => (Real Float, name, " float"%string, data)
    | RealArray Double name data => (Real Double, name, " double"%string, data)
    end in
  let numbers := match b with BINARY => Some (flat_map (number_bytes k) data) | ASCII => separated sp (map (number_text k) data) end in
  option_map (fun t => name ++ str " 1 " ++ show (length data) ++ str type ++ nl ++ t ++ nl) numbers.
(** vtk_writer.cc:210-212: an array for which the generator fails is left out. *)
Definition field_section (b : format) (fs : list field) : chars :=
  str "FIELD FieldData " ++ show (length fs) ++ nl ++
  flat_map (fun a => match field_array b a with Some t => t | None => [] end) fs.

(** The names of the types in vtk_writer.cc:216-380. *)
Definition type_name (k : kind) : chars :=
  match k with
  | Integer Char => str " char"
  | Integer UChar => str " char"
  | Integer Short => str " short"
  | Integer UShort => str " unsigned_short"
  | Integer Int => str " int"
  | Integer UInt => str " unsigned_int"
  | Integer Long => str " long"
  | Integer ULong => str " unsigned_long"
  | Real Float => str " float"
  | Real Double => str " double"
  end.
(** vtk_writer.cc:216-387 *)
Definition attribute_text (b : format) (a : attribute) : chars :=
  match a with
  | ScalarData k name lookup_table data =>
      str "SCALARS " ++ name ++ type_name k ++ str " 1" ++ nl ++ str "LOOKUP_TABLE " ++ lookup_table ++ nl ++
      match b with BINARY => flat_map (number_bytes k) data | ASCII => any_separated nl (map (number_text k) data) end ++ nl
  | VectorData r name data =>
      str "VECTORS " ++ name ++ type_name (Real r) ++ nl ++
      match b with
      | BINARY => flat_map (xs (number_bytes (Real r))) data ++ nl
      | ASCII => flat_map (fun '(x, y, z) => number_text (Real r) x ++ sp ++ number_text (Real r) y ++ sp ++ number_text (Real r) z ++ nl) data
      end
  end.
(** vtk_writer.cc:107-120 and 395-400 *)
Definition format_name (b : format) : chars := match b with ASCII => str "ASCII" | BINARY => str "BINARY" end.
Definition root (f : vtk_file) : res chars :=
  let b := format_ f in
  do g <- unstructured_grid b (grid_ f);
  Ok (str "# vtk DataFile Version 3.0" ++ nl ++ header f ++ nl ++ format_name b ++ nl ++ g ++ nl ++
      field_section b (field_data f) ++
      str "POINT_DATA " ++ show (length (points (grid_ f))) ++ nl ++ flat_map (attribute_text b) (point_data f) ++
      str "CELL_DATA " ++ show (length (cells (grid_ f))) ++ nl ++ flat_map (attribute_text b) (cell_data f)).

(** *** Writing *)
Definition data_size (a : attribute) : nat := match a with ScalarData _ _ _ d => length d | VectorData _ _ d => length d end.
(** vtk_writer.cc:425-460 *)
Definition ValidateVtkFile (f : vtk_file) : res unit :=
  do _ <- verify (negb (existsb (fun c => Ascii.eqb c "010") (header f)));
  do _ <- verify (length (header f) <=? 256);
  do _ <- verify (length (cell_types (grid_ f)) =? length (cells (grid_ f)));
  do _ <- verify (forallb (fun a => data_size a =? length (points (grid_ f))) (point_data f));
  verify (forallb (fun a => data_size a =? length (cells (grid_ f))) (cell_data f)).
(** vtk_writer.cc:551-575: the outcome, and the contents of the file afterwards; [old] are the
    previous contents, which opening the file removes. *)
Definition WriteToFile (f : vtk_file) (old : chars) : res unit * chars :=
  match ValidateVtkFile f with
  | Ok _ => match root f with Ok s => (Ok tt, s) | Throw => (Throw, []) | Assert => (Assert, []) end
  | Throw => (Throw, [])
  | Assert => (Assert, [])
  end.
