(** What a file in the legacy format of VTK stands for ("VTK File Formats", Simple Legacy
    Formats): a reader for unstructured grids with data arrays, as vtkDataReader does it. *)
From Coq Require Import String Ascii List Arith NArith ZArith QArith Qabs Bool.
Import ListNotations.
From Verif Require Import Base MshModel WriteSpec VtkFileModel.
Local Open Scope list_scope.
Local Open Scope nat_scope.

(** *** Reading *)
Definition reader (A : Type) := chars -> option (A * chars).
Definition give {A} (a : A) : reader A := fun s => Some (a, s).
Definition then_ {A B} (p : reader A) (q : A -> reader B) : reader B := fun s => match p s with Some (a, r) => q a r | None => None end.
Notation "'take' x <- p ; q" := (then_ p (fun x => q)) (at level 200, x name, p at level 100, q at level 200).
Definition check (b : bool) : reader unit := fun s => if b then Some (tt, s) else None.
Fixpoint times {A} (n : nat) (p : reader A) : reader (list A) :=
  match n with O => give [] | S n' => take a <- p; take l <- times n' p; give (a :: l) end.
(** Up to the end of the line. *)
Fixpoint line (s : chars) : option (chars * chars) :=
  match s with
  | [] => None
  | c :: r => if Ascii.eqb c "010" then Some ([], r) else match line r with Some (l, r') => Some (c :: l, r') | None => None end
  end.
(** A sequence of characters other than white space; white space before it is skipped. *)
Fixpoint until_space (s : chars) : chars * chars :=
  match s with [] => ([], []) | c :: r => if is_space c then ([], s) else let (w, r') := until_space r in (c :: w, r') end.
Definition word : reader chars := fun s => let (w, r) := until_space (skip s) in match w with [] => None | _ => Some (w, r) end.
Definition same (a b : chars) : bool := if list_eq_dec ascii_dec a b then true else false.
Definition keyword (t : string) : reader unit := take w <- word; check (same w (str t)).
(** A number of items. *)
Definition count : reader nat := take w <- word;
  match digits w with (d :: ds, []) => give (N.to_nat (number (d :: ds))) | _ => fun _ => None end.

(** *** Numbers *)
(** A number in a file: an integer; a decimal number; the bit pattern of a floating point number. *)
Inductive item := Whole (z : Z) | Decimal (d : decimal) | Pattern (bits : Z).
Definition bits (i : integer) : Z := match i with Char | UChar => 8%Z | Short | UShort => 16%Z | Int | UInt => 32%Z | Long | ULong => 64%Z end.
Definition signed (i : integer) : bool := match i with Char | Short | Int | Long => true | _ => false end.
(** The conversion of an integer to an integral type. *)
Definition wrap (i : integer) (z : Z) : Z :=
  let m := (2 ^ bits i)%Z in
  if signed i then ((z + m / 2) mod m - m / 2)%Z else (z mod m)%Z.
Definition text_item (k : kind) : reader item := take w <- word;
  match k with
  | Integer i => let (g, r) := sign w in match digits r with (d :: ds, []) => give (Whole (wrap i (g * Z.of_N (number (d :: ds))))) | _ => fun _ => None end
  | Real _ => match double_ false w with Success d [] => give (Decimal d) | _ => fun _ => None end
  end.
(** n bytes, the most significant one first. *)
Definition unsigned (s : chars) : Z := fold_left (fun v c => (256 * v + Z.of_N (N_of_ascii c))%Z) s 0%Z.
Definition bytes (n : nat) : reader chars := fun s => if length s <? n then None else Some (firstn n s, skipn n s).
Definition binary_item (k : kind) : reader item := take s <- bytes (bytes_of k);
  give (match k with Integer i => Whole (wrap i (unsigned s)) | Real _ => Pattern (unsigned s) end).
(** An array of n numbers.  Binary data start behind the end of the line. *)
Definition array (b : format) (k : kind) (n : nat) : reader (list item) :=
  match b with
  | ASCII => times n (text_item k)
  | BINARY => take l <- line; take _ <- check (forallb is_space l); times n (binary_item k)
  end.
Fixpoint triples {A} (l : list A) : option (list (A * A * A)) :=
  match l with
  | [] => Some []
  | x :: y :: z :: r => option_map (cons (x, y, z)) (triples r)
  | _ => None
  end.
Definition vectors (b : format) (k : kind) (n : nat) : reader (list (item * item * item)) :=
  take l <- array b k (3 * n); match triples l with Some t => give t | None => fun _ => None end.
Definition type_of (w : chars) : option kind :=
  let is t := same w (str t) in
  if is "char"%string then Some (Integer Char)
  else if is "unsigned_char"%string then Some (Integer UChar)
  else if is "short"%string then Some (Integer Short)
  else if is "unsigned_short"%string then Some (Integer UShort)
  else if is "int"%string then Some (Integer Int)
  else if is "unsigned_int"%string then Some (Integer UInt)
  else if is "long"%string then Some (Integer Long)
  else if is "unsigned_long"%string then Some (Integer ULong)
  else if is "float"%string then Some (Real Float)
  else if is "double"%string then Some (Real Double)
  else None.
Definition type : reader kind := take w <- word; match type_of w with Some k => give k | None => fun _ => None end.

(** *** Sections *)
(** Cells: for each cell the number of its corners, then the corners. *)
Fixpoint split_cells (n : nat) (l : list item) : option (list (list item)) :=
  match n with
  | O => match l with [] => Some [] | _ => None end
  | S n' =>
      match l with
      | Whole k :: r => if (Z.to_nat k <=? length r) && (0 <=? k)%Z then option_map (cons (firstn (Z.to_nat k) r)) (split_cells n' (skipn (Z.to_nat k) r)) else None
      | _ => None
      end
  end.
(** A data array: its name, the type of its numbers, the numbers. *)
Inductive data := Scalars (name : chars) (k : kind) (table : chars) (l : list item) | Vectors (name : chars) (k : kind) (l : list (item * item * item)).
Record contents := mkContents {
  title : chars; c_format : format;
  c_points : list (item * item * item); c_cells : list (list item); c_types : list item;
  c_fields : list (chars * kind * list item); c_point_data : list data; c_cell_data : list data }.
Definition field_ (b : format) : reader (chars * kind * list item) :=
  take name <- word; take _ <- keyword "1"; take n <- count; take k <- type; take l <- array b k n; give (name, k, l).
Definition data_ (b : format) (n : nat) : reader data := fun s =>
  match word s with
  | Some (w, r) =>
      if same w (str "SCALARS") then
        (take name <- word; take k <- type; take _ <- keyword "1"; take _ <- keyword "LOOKUP_TABLE"; take table <- word;
         take l <- array b k n; give (Scalars name k table l)) r
      else if same w (str "VECTORS") then
        (take name <- word; take k <- type; take l <- vectors b k n; give (Vectors name k l)) r
      else None
  | None => None
  end.
(** Arrays until something else follows. *)
Fixpoint datas_ (fuel : nat) (b : format) (n : nat) : reader (list data) := fun s =>
  match fuel with
  | O => None
  | S fuel' =>
      match word s with
      | Some (w, _) => if same w (str "SCALARS") || same w (str "VECTORS") then (take d <- data_ b n; take l <- datas_ fuel' b n; give (d :: l)) s else Some ([], s)
      | None => Some ([], s)
      end
  end.
Definition datas (b : format) (n : nat) : reader (list data) := fun s => datas_ (S (length s)) b n s.
Definition formats (w : chars) : option format := if same w (str "ASCII") then Some ASCII else if same w (str "BINARY") then Some BINARY else None.
Definition reads : reader contents :=
  take first <- line; take _ <- check (same first (str "# vtk DataFile Version 3.0"));
  take title <- line;
  take w <- word;
  match formats w with
  | None => fun _ => None
  | Some b =>
      take _ <- keyword "DATASET"; take _ <- keyword "UNSTRUCTURED_GRID";
      take _ <- keyword "POINTS"; take np <- count; take k <- type; take ps <- vectors b k np;
      take _ <- keyword "CELLS"; take nc <- count; take size <- count; take l <- array b (Integer Int) size;
      match split_cells nc l with
      | None => fun _ => None
      | Some cs =>
          take _ <- keyword "CELL_TYPES"; take nt <- count; take _ <- check (nt =? nc); take ts <- array b (Integer Int) nt;
          take _ <- keyword "FIELD"; take _ <- word; take nf <- count; take fs <- times nf (field_ b);
          take _ <- keyword "POINT_DATA"; take n <- count; take _ <- check (n =? np); take pd <- datas b np;
          take _ <- keyword "CELL_DATA"; take n' <- count; take _ <- check (n' =? nc); take cd <- datas b nc;
          give (mkContents title b ps cs ts fs pd cd)
      end
  end.
(** The contents of a file; only white space may follow. *)
Definition read_file (s : chars) : option contents :=
  match reads s with Some (c, r) => match skip r with [] => Some c | _ => None end | None => None end.

(** *** Agreement *)
(** The number d of the file for the number x: half a unit of the third digit after the point,
    in fixed notation or in scientific notation; x itself if these digits are enough for it. *)
Definition moderate (x : Q) : Prop := ((1 # 1000) <= Qabs x)%Q /\ (Qabs x < 100000)%Q.
Definition three_digits (d : decimal) (x : Q) : Prop :=
  (moderate x -> (Qabs (number_of d - x) <= 1 # 2000)%Q /\ forall k, (x == inject_Z k * Qpower 10 (-3))%Q -> (number_of d == x)%Q) /\
  (~ moderate x -> (Qabs (number_of d - x) <= (1 # 2000) * Qabs x)%Q /\
                   forall k e, (Z.abs k < 10 ^ 4)%Z -> (x == inject_Z k * Qpower 10 e)%Q -> (number_of d == x)%Q).
(** The number z of type k of the program, the number in the file. *)
Definition agrees (b : format) (k : kind) (z : Z) (i : item) : Prop :=
  match k, b with
  | Integer _, _ => i = Whole z
  | Real _, BINARY => i = Pattern z
  | Real r, ASCII => exists d x, i = Decimal d /\ value_of r z = Finite x /\ three_digits d x
  end.
Definition agree3 (b : format) (k : kind) (p : Z * Z * Z) (q : item * item * item) : Prop :=
  agrees b k (fst (fst p)) (fst (fst q)) /\ agrees b k (snd (fst p)) (snd (fst q)) /\ agrees b k (snd p) (snd q).
Definition same_field (b : format) (a : field) (c : chars * kind * list item) : Prop :=
  match a with
  | IntArray name l => fst c = (name, Integer Int) /\ Forall2 (agrees b (Integer Int)) l (snd c)
  | RealArray r name l => fst c = (name, Real r) /\ Forall2 (agrees b (Real r)) l (snd c)
  end.
Definition same_data (b : format) (a : attribute) (d : data) : Prop :=
  match a, d with
  | ScalarData k name table l, Scalars name' k' table' l' => name' = name /\ k' = k /\ table' = table /\ Forall2 (agrees b k) l l'
  | VectorData r name l, Vectors name' k' l' => name' = name /\ k' = Real r /\ Forall2 (agree3 b (Real r)) l l'
  | _, _ => False
  end.
(** A file reproduces the object it was written for. *)
Definition reproduces (f : vtk_file) (c : contents) : Prop :=
  let b := format_ f in
  title c = header f /\ c_format c = b /\
  Forall2 (agree3 b (Real Float)) (points (grid_ f)) (c_points c) /\
  c_cells c = map (map Whole) (cells (grid_ f)) /\
  c_types c = map Whole (cell_types (grid_ f)) /\
  Forall2 (same_field b) (field_data f) (c_fields c) /\
  Forall2 (same_data b) (point_data f) (c_point_data c) /\
  Forall2 (same_data b) (cell_data f) (c_cell_data c).

(** *** The objects *)
(** A number that a type can hold; in text format floating point numbers are finite. *)
Definition in_type (b : format) (k : kind) (z : Z) : Prop :=
  match k with
  | Integer i => if signed i then (- 2 ^ (bits i - 1) <= z < 2 ^ (bits i - 1))%Z else (0 <= z < 2 ^ bits i)%Z
  | Real r => (0 <= z < 2 ^ (8 * Z.of_nat (bytes_of (Real r))))%Z /\ (b = ASCII -> exists x, value_of r z = Finite x)
  end.
Definition in_type3 (b : format) (k : kind) (p : Z * Z * Z) : Prop := in_type b k (fst (fst p)) /\ in_type b k (snd (fst p)) /\ in_type b k (snd p).
(** A name: at least one character, no white space. *)
Definition is_word (w : chars) : Prop := w <> [] /\ Forall (fun c => is_space c = false) w.
Definition good_field (b : format) (a : field) : Prop :=
  match a with
  | IntArray name l => is_word name /\ Forall (in_type b (Integer Int)) l /\ (b = ASCII -> l <> [])
  | RealArray r name l => is_word name /\ Forall (in_type b (Real r)) l /\ (b = ASCII -> l <> [])
  end.
Definition good_data (b : format) (a : attribute) : Prop :=
  match a with
  | ScalarData k name table l => k <> Integer UChar /\ is_word name /\ is_word table /\ Forall (in_type b k) l
  | VectorData r name l => is_word name /\ Forall (in_type3 b (Real r)) l
  end.
(** Corners of a cell and their number fit into an int; in text format a cell has corners. *)
Definition good_cell (b : format) (c : list Z) : Prop :=
  (Z.of_nat (length c) < 2 ^ 31)%Z /\ Forall (fun v => 0 <= v < 2 ^ 31)%Z c /\ (b = ASCII -> c <> []).
Definition good (f : vtk_file) : Prop :=
  let b := format_ f in
  Forall (in_type3 b (Real Float)) (points (grid_ f)) /\
  Forall (good_cell b) (cells (grid_ f)) /\ Forall (in_type b (Integer Int)) (cell_types (grid_ f)) /\
  Forall (good_field b) (field_data f) /\ Forall (good_data b) (point_data f) /\ Forall (good_data b) (cell_data f).
(** The conditions under which a file is written at all. *)
Definition valid (f : vtk_file) : Prop :=
  ~ In "010"%char (header f) /\ length (header f) <= 256 /\
  length (cell_types (grid_ f)) = length (cells (grid_ f)) /\
  Forall (fun a => data_size a = length (points (grid_ f))) (point_data f) /\
  Forall (fun a => data_size a = length (cells (grid_ f))) (cell_data f).
