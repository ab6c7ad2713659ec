(** Model of the parsers of MSH files: ReadGmshFile (lib/lf/io/gmsh_reader.cc:649-699) and the
    Boost.Spirit grammars of gmsh_file_v2.cc, gmsh_file_v4{,_text,_binary}.cc,
    gmsh_file_v4_detail.h.
    Simplifications: a file is the list of its characters; a number with a decimal point is
    read exactly, as a pair (mantissa, exponent), and 64-bit floating point numbers of binary
    files are kept as 64-bit words; std::length_error of a negative reserve is [Exception]. *)
From Coq Require Import String Ascii List Arith NArith ZArith Bool.
Import ListNotations.
From Verif Require Import Base.
Local Open Scope list_scope.
Local Open Scope nat_scope.

(** *** Boost.Spirit Qi *)
Definition chars := list ascii.
Definition str (s : string) : chars := list_ascii_of_string s.
(** Result of a parser: success with attribute and remaining input; failure; an expectation
    point was not met (exception expectation_failure); another exception. *)
Inductive parsed (A : Type) := Success (a : A) (rest : chars) | Fail | Expected | Exception.
Arguments Success {A}. Arguments Fail {A}. Arguments Expected {A}. Arguments Exception {A}.
Definition parser (A : Type) := chars -> parsed A.
Definition ret {A} (a : A) : parser A := fun s => Success a s.
(** p >> q: q may fail. *)
Definition and_then {A B} (p : parser A) (q : A -> parser B) : parser B := fun s =>
  match p s with Success a r => q a r | Fail => Fail | Expected => Expected | Exception => Exception end.
(** The operands of p > q > ... after the first one. *)
Definition must {A} (p : parser A) : parser A := fun s => match p s with Fail => Expected | x => x end.
Notation "'read' x <- p ; q" := (and_then p (fun x => q)) (at level 200, x name, p at level 100, q at level 200).
Notation "'want' x <- p ; q" := (and_then (must p) (fun x => q)) (at level 200, x name, p at level 100, q at level 200).
(** -p *)
Definition opt {A} (p : parser A) : parser (option A) := fun s =>
  match p s with Success a r => Success (Some a) r | Fail => Success None s | Expected => Expected | Exception => Exception end.
(** p | q *)
Definition alt {A} (p q : parser A) : parser A := fun s => match p s with Fail => q s | x => x end.
(** on_error<fail> *)
Definition on_error {A} (p : parser A) : parser A := fun s => match p s with Expected => Fail | x => x end.
(** repeat(n)[p] *)
Fixpoint repeat_ {A} (n : nat) (p : parser A) : parser (list A) :=
  match n with O => ret [] | S n' => read a <- p; read l <- repeat_ n' p; ret (a :: l) end.
(** *p; every p below consumes at least one character, so that the number of steps is bounded
    by the length of the input. *)
Fixpoint star_ {A} (n : nat) (p : parser A) : parser (list A) := fun s =>
  match n with
  | O => Exception
  | S n' =>
      match p s with
      | Success a r => match star_ n' p r with Success l r' => Success (a :: l) r' | x => x end
      | Fail => Success [] s
      | Expected => Expected
      | Exception => Exception
      end
  end.
Definition star {A} (p : parser A) : parser (list A) := fun s => star_ (S (length s)) p s.
(** p % ' ' *)
Definition space_list {A} (sep : parser unit) (p : parser A) : parser (list A) :=
  read a <- p; read l <- star (read _ <- sep; p); ret (a :: l).

(** ascii::space *)
Definition is_space (c : ascii) : bool := let n := nat_of_ascii c in ((9 <=? n) && (n <=? 13)) || (n =? 32).
Fixpoint skip (s : chars) : chars := match s with c :: r => if is_space c then skip r else s | [] => [] end.
(** Primitive parsers skip white space before they read if the rule has a skipper. *)
Definition pre (sk : bool) (s : chars) : chars := if sk then skip s else s.
(** A rule without a skipper in a rule with one: white space is skipped once. *)
Definition lexeme {A} (p : parser A) : parser A := fun s => p (skip s).
(** lit, and qi::string *)
Fixpoint prefix (t s : chars) : option chars :=
  match t with [] => Some s | c :: t' => match s with d :: s' => if Ascii.eqb c d then prefix t' s' else None | [] => None end end.
Definition lit (sk : bool) (t : chars) : parser unit := fun s => match prefix t (pre sk s) with Some r => Success tt r | None => Fail end.
(** !lit *)
Definition not_lit (sk : bool) (t : chars) : parser unit := fun s => match prefix t (pre sk s) with Some _ => Fail | None => Success tt s end.
(** char_ with a condition *)
Definition char_if (sk : bool) (f : ascii -> bool) : parser ascii := fun s =>
  match pre sk s with c :: r => if f c then Success c r else Fail | [] => Fail end.
(** qi::eol *)
Definition eol (sk : bool) : parser unit := fun s =>
  let s := pre sk s in
  let s1 := match s with c :: r => if Ascii.eqb c "013" then r else s | [] => s end in
  let s2 := match s1 with c :: r => if Ascii.eqb c "010" then r else s1 | [] => s1 end in
  if length s2 =? length s then Fail else Success tt s2.
(** char_ - eol: without a skipper a character other than those that start a line end; with
    a skipper that skips line ends eol never succeeds. *)
Definition no_eol (sk : bool) : parser ascii := if sk then char_if true (fun _ => true) else char_if false (fun c => negb (Ascii.eqb c "013" || Ascii.eqb c "010")).
(** +p *)
Definition plus_ {A} (p : parser A) : parser (list A) := read a <- p; read l <- star p; ret (a :: l).

(** Decimal digits; the longest sequence of them. *)
Definition digit (c : ascii) : option N := let n := N_of_ascii c in if (48 <=? n)%N && (n <=? 57)%N then Some (n - 48)%N else None.
Fixpoint digits (s : chars) : list N * chars :=
  match s with
  | c :: r => match digit c with Some d => let (ds, r') := digits r in (d :: ds, r') | None => ([], s) end
  | [] => ([], [])
  end.
Definition number (ds : list N) : N := fold_left (fun v d => (10 * v + d)%N) ds 0%N.
(** qi::uint_ (bound 2^32), qi::ulong_long (bound 2^64) *)
Definition uint (sk : bool) (bound : N) : parser N := fun s =>
  let (ds, r) := digits (pre sk s) in
  match ds with [] => Fail | _ => if (number ds <? bound)%N then Success (number ds) r else Fail end.
(** An optional sign: -1 or 1. *)
Definition sign (s : chars) : Z * chars :=
  match s with c :: r => if Ascii.eqb c "-" then ((-1)%Z, r) else if Ascii.eqb c "+" then (1%Z, r) else (1%Z, s) | [] => (1%Z, []) end.
(** qi::int_ *)
Definition int_ (sk : bool) : parser Z := fun s =>
  let (sg, s1) := sign (pre sk s) in
  let (ds, r) := digits s1 in
  match ds with
  | [] => Fail
  | _ => let z := (sg * Z.of_N (number ds))%Z in if (- 2 ^ 31 <=? z)%Z && (z <? 2 ^ 31)%Z then Success z r else Fail
  end.
(** qi::double_, without infinities and NaN *)
Definition decimal : Type := Z * Z.
Definition double_ (sk : bool) : parser decimal := fun s =>
  let (sg, s1) := sign (pre sk s) in
  let (ip, s2) := digits s1 in
  let dot := match s2 with c :: r => if Ascii.eqb c "." then Some r else None | [] => None end in
  let (fp, s3) := match dot with Some r => digits r | None => ([], s2) end in
  match ip ++ fp with
  | [] => Fail
  | ds =>
      let m := (sg * Z.of_N (number ds))%Z in
      let e := (- Z.of_nat (length fp))%Z in
      match s3 with
      | c :: r =>
          if Ascii.eqb c "e" || Ascii.eqb c "E" then
            let (eg, r1) := sign r in
            let (ep, r2) := digits r1 in
            match ep with [] => Success (m, e) s3 | _ => Success (m, (e + eg * Z.of_N (number ep))%Z) r2 end
          else Success (m, e) s3
      | [] => Success (m, e) s3
      end
  end.
(** little_dword, big_dword, little_qword, big_qword, and the binary doubles, kept as words *)
Definition word (sk big : bool) (n : nat) : parser N := fun s =>
  let s := pre sk s in
  if length s <? n then Fail
  else let b := firstn n s in
       Success (fold_right (fun c v => (256 * v + N_of_ascii c)%N) 0%N (if big then rev b else b)) (skipn n s).
(** conversion of a 32-bit word to int, of an int to unsigned *)
Definition to_int (n : N) : Z := if (n <? 2 ^ 31)%N then Z.of_N n else (Z.of_N n - 2 ^ 32)%Z.
Definition to_unsigned (z : Z) : N := Z.to_N (z mod 2 ^ 32).
Definition map_p {A B} (f : A -> B) (p : parser A) : parser B := read a <- p; ret (f a).
Definition dword (sk big : bool) : parser Z := map_p to_int (word sk big 4).

(** *** Rules that all grammars share *)
(** gmsh_file_v2.cc:469, gmsh_file_v4_text.cc:51, gmsh_file_v4_binary.cc:65 *)
Definition quotedString : parser chars := lexeme
  (read _ <- lit false (str """"); read t <- plus_ (char_if false (fun c => negb (Ascii.eqb c """"))); read _ <- lit false (str """"); ret t).
(** startComment_ and comment_: gmsh_file_v2.cc:471-479, gmsh_file_v4_text.cc:55-64,
    gmsh_file_v4_binary.cc:71-80.  [sk]: whether start_comment_ has a skipper (binary version
    4 only). *)
Definition not_lits (sk : bool) (names : list string) : parser unit :=
  fold_right (fun n p => read _ <- not_lit sk (str n); p) (ret tt) names.
Definition startComment (sk : bool) (names : list string) : parser chars :=
  (if sk then fun p => p else lexeme)
    (read _ <- not_lits sk names; read _ <- lit sk (str "$"); plus_ (no_eol sk)).
Definition comment (sk : bool) (names : list string) : parser unit := on_error
  (read a <- startComment sk names;
   want _ <- (read _ <- star (char_if true (fun c => negb (Ascii.eqb c "$"))); read _ <- lit true (str "$End"); lit true a);
   ret tt).
(** physicalEntity_ (gmsh_file_v2.cc:482), physical_name_ (gmsh_file_v4_text.cc:68,
    gmsh_file_v4_binary.cc:83): dimension, number, name *)
Definition physical_name : Type := Z * Z * chars.
Definition physicalName : parser physical_name := on_error
  (read d <- int_ true; want n <- int_ true; want t <- quotedString; ret (d, n, t)).

(** Number of nodes of an element type, gmsh_file_v2.cc:190-260, gmsh_file_v4.cc:96-167; other
    numbers throw an exception. *)
Definition num_nodes_of (t : Z) : option nat :=
  match t with
  | 1%Z => Some 2 | 2%Z => Some 3 | 3%Z => Some 4 | 4%Z => Some 4 | 5%Z => Some 8 | 6%Z => Some 6 | 7%Z => Some 5 | 8%Z => Some 3 | 9%Z => Some 6
  | 10%Z => Some 9 | 11%Z => Some 10 | 12%Z => Some 27 | 13%Z => Some 18 | 14%Z => Some 14 | 15%Z => Some 1 | 16%Z => Some 8 | 17%Z => Some 20
  | 18%Z => Some 15 | 19%Z => Some 13 | 20%Z => Some 9 | 21%Z => Some 10 | 22%Z => Some 12 | 23%Z => Some 15 | 24%Z => Some 15 | 25%Z => Some 21
  | 26%Z => Some 4 | 27%Z => Some 5 | 28%Z => Some 6 | 29%Z => Some 20 | 30%Z => Some 35 | 31%Z => Some 56 | 92%Z => Some 64 | 93%Z => Some 125
  | _ => None
  end.

(** *** Version 2 *)
Definition vec3 (D : Type) : Type := D * D * D.
(** Element: number, type, physical entity, elementary entity, partitions, nodes (gmsh_file_v2.h:151-204) *)
Record element2 := mkElement2 { e2_number : N; e2_type : Z; e2_physical : Z; e2_elementary : Z; e2_partitions : list Z; e2_nodes : list N }.
(** Periodic entity: dimension, slave, master, node pairs (gmsh_file_v2.h:207-222) *)
Definition periodic2 : Type := Z * Z * Z * list (N * N).
(** struct GMshFileV2 (gmsh_file_v2.h:18-243), without the header *)
Record msh2 (D : Type) := mkMsh2 { m2_names : list physical_name; m2_nodes : list (N * vec3 D); m2_elements : list element2; m2_periodic : list periodic2 }.
Arguments mkMsh2 {D}. Arguments m2_names {D}. Arguments m2_nodes {D}. Arguments m2_elements {D}. Arguments m2_periodic {D}.

Definition names2 : list string := ["$PhysicalNames"; "$Nodes"; "$Elements"; "$Periodic"]%string.
Definition comment2 : parser unit := comment false names2.
(** gmsh_file_v2.cc:486-491 *)
Definition physicalEntityGroup : parser (list physical_name) := on_error
  (read _ <- lit true (str "$PhysicalNames");
   want n <- int_ true;
   want l <- (if (n <? 0)%Z then fun _ => Exception else repeat_ (Z.to_nat n) physicalName);
   want _ <- lit true (str "$EndPhysicalNames");
   ret l).
(** 494-501; node_ has no skipper *)
Definition nodeGroup {D} (node : parser (N * vec3 D)) : parser (list (N * vec3 D)) := lexeme (on_error
  (read _ <- lit false (str "$Nodes");
   want _ <- eol false;
   want n <- uint false (2 ^ 32);
   want _ <- eol false;
   want l <- repeat_ (N.to_nat n) (on_error node);
   want _ <- opt (eol false);
   want _ <- lit false (str "$EndNodes");
   ret l)).
(** 507-524.  The rules are defined with = and not %=; that their attributes are nevertheless
    filled rests on Spirit treating omit[...] as free of semantic actions (DESIGN.md). *)
Definition periodicEntityNodeMapping : parser (list (N * N)) := on_error
  (read n <- uint true (2 ^ 32);
   want l <- repeat_ (N.to_nat n) (read x <- uint true (2 ^ 32); want y <- uint true (2 ^ 32); ret (x, y));
   ret l).
Definition periodicEntity : parser periodic2 := on_error
  (read d <- int_ true; want x <- int_ true; want y <- int_ true; want l <- periodicEntityNodeMapping; ret (d, x, y, l)).
Definition periodicEntityGroup : parser (list periodic2) := on_error
  (read _ <- lit true (str "$Periodic");
   want n <- uint true (2 ^ 32);
   want l <- repeat_ (N.to_nat n) periodicEntity;
   want _ <- lit true (str "$EndPeriodic");
   ret l).
Definition or_empty {A} (o : option (list A)) : list A := match o with Some l => l | None => [] end.
(** 527-532 *)
Definition start2 {D} (node : parser (N * vec3 D)) (elementGroup : parser (list element2)) : parser (msh2 D) := on_error
  (read _ <- star comment2;
   read a <- opt (read x <- physicalEntityGroup; read _ <- star comment2; ret x);
   read b <- nodeGroup node;
   read _ <- star comment2;
   read c <- lexeme (on_error elementGroup);
   read _ <- star comment2;
   read d <- opt (read x <- periodicEntityGroup; read _ <- star comment2; ret x);
   ret (mkMsh2 (or_empty a) b c (or_empty d))).

(** Text: 653-665 *)
Definition sp : parser unit := lit false (str " ").
Definition nodeText : parser (N * vec3 decimal) :=
  read n <- uint false (2 ^ 32); read _ <- sp;
  read x <- double_ false; read _ <- sp; read y <- double_ false; read _ <- sp; read z <- double_ false;
  read _ <- eol false; ret (n, (x, y, z)).
Definition is_blank (c : ascii) : bool := Ascii.eqb c " " || Ascii.eqb c "009".
Definition elementText : parser element2 :=
  read number <- int_ false; want _ <- sp; want type <- int_ false; want _ <- sp;
  want a <- int_ false; want _ <- sp; want phys <- int_ false; want _ <- sp; want elem <- int_ false; want _ <- sp;
  want _ <- alt (if (2 <? a)%Z then read _ <- int_ false; sp else fun _ => Fail) (ret tt);
  want parts <- repeat_ (Z.to_nat (a - 3)) (read p <- int_ false; read _ <- sp; ret p);
  want nodes <- space_list sp (uint false (2 ^ 32));
  want _ <- star (char_if false is_blank);
  want _ <- eol false;
  ret (mkElement2 (to_unsigned number) type phys elem parts nodes).
Definition elementGroupText : parser (list element2) :=
  read _ <- lit false (str "$Elements"); want _ <- eol false; want n <- uint false (2 ^ 32); want _ <- eol false;
  want l <- repeat_ (N.to_nat n) elementText;
  want _ <- lit false (str "$EndElements"); ret l.

(** Binary: 666-718 *)
Section Binary2.
Variable big : bool.
Definition nodeBin : parser (N * vec3 N) :=
  read n <- word false big 4; read x <- word false big 8; read y <- word false big 8; read z <- word false big 8; ret (n, (x, y, z)).
Definition elementBin (type tags : Z) (nodes : nat) : parser element2 :=
  read number <- word false big 4; read phys <- dword false big; read elem <- dword false big;
  read _ <- alt (if (2 <? tags)%Z then read _ <- word false big 4; ret tt else fun _ => Fail) (ret tt);
  read parts <- repeat_ (Z.to_nat (tags - 3)) (dword false big);
  read ns <- repeat_ nodes (word false big 4);
  ret (mkElement2 number type phys elem parts ns).
(** Groups of elements of one type while the number [e] of elements is less than [a].  What a
    group reads before it fails is not kept; the file is rejected in this case. *)
Fixpoint groups (fuel : nat) (a e : N) : parser (list element2) := fun s =>
  match fuel with
  | O => Exception
  | S fuel' =>
      let group := fun s0 : chars => if (e <? a)%N then
          (read b <- dword false big; read c <- dword false big; read d <- dword false big;
           read l <- repeat_ (Z.to_nat c) (match num_nodes_of b with Some n => elementBin b d n | None => fun _ => Exception end);
           ret (l, c)) s0 else Fail in
      match group s with
      | Success (l, c) r => match groups fuel' a (to_unsigned (Z.of_N e + c)) r with Success l' r' => Success (l ++ l') r' | x => x end
      | Fail => Success [] s
      | Expected => Expected
      | Exception => Exception
      end
  end.
Definition elementGroupBin : parser (list element2) :=
  read _ <- lit false (str "$Elements"); read _ <- eol false; read a <- uint false (2 ^ 32); read _ <- eol false;
  read l <- (fun s => groups (S (length s)) a 0 s);
  read _ <- eol false; read _ <- lit false (str "$EndElements"); ret l.
End Binary2.

(** phrase_parse: white space after the last token is skipped *)
Definition phrase_parse {A} (p : parser A) (s : chars) : res (A * chars) :=
  match p s with Success a r => Ok (a, skip r) | Fail => Throw | Expected => Throw | Exception => Throw end.
Inductive file2 := Text2 (m : msh2 decimal) | Binary2 (m : msh2 N).
(** readGmshFileV2: 603-738 *)
Definition readGmshFileV2 (s : chars) (version : chars) (binary : bool) (size_t_size : Z) (one : N) : res file2 :=
  do _ <- verify (if list_eq_dec ascii_dec version (str "2.2") then true else false);
  do _ <- lf_assert (size_t_size =? 8)%Z;
  if binary then
    let big := negb (one =? 1)%N in
    do r <- phrase_parse (start2 (nodeBin big) (elementGroupBin big)) s;
    do _ <- verify (match snd r with [] => true | _ => false end); Ok (Binary2 (fst r))
  else
    do r <- phrase_parse (start2 nodeText elementGroupText) s;
    do _ <- verify (match snd r with [] => true | _ => false end); Ok (Text2 (fst r)).

(** *** Version 4 *)
Section V4.
(** Floating point numbers; int, std::size_t and double in the file; the keywords that start
    and end a section; the numbers 0 and 16 before affine transformations; rules of sections
    without a skipper (binary) or with one (text); whether start_comment_ has a skipper. *)
Variable D : Type.
Variables (int32 : parser Z) (size : parser N) (dbl : parser D).
Variables (open_ close_ : string -> parser unit) (zero sixteen : parser unit).
Variable section : forall A, parser A -> parser A.
Variable csk : bool.

(** PointEntity: tag, coord, physical_tags; Entity: tag, min_coord, max_coord, physical_tags,
    bounding_entities; GhostEntity: tag, partition (gmsh_file_v4.h:68-135) *)
Definition point_entity : Type := Z * vec3 D * list Z.
Definition entity : Type := Z * vec3 D * vec3 D * list Z * list Z.
Definition entities : Type := list point_entity * list entity * list entity * list entity.
(** tag, parent_dim, parent_tag, partitions, then as above (gmsh_file_v4.h:145-222) *)
Definition partitioned_point : Type := Z * Z * Z * list Z * vec3 D * list Z.
Definition partitioned_entity : Type := Z * Z * Z * list Z * vec3 D * vec3 D * list Z * list Z.
(** num_partitions, ghost_entities, partitioned_entities (226-250) *)
Definition partitioned : Type := N * list (Z * Z) * (list partitioned_point * list partitioned_entity * list partitioned_entity * list partitioned_entity).
(** entity_dim, entity_tag, parametric, nodes (267-294) *)
Definition node_block : Type := Z * Z * bool * list (N * vec3 D).
(** num_nodes, min_node_tag, max_node_tag, node_blocks (297-309) *)
Definition nodes4 : Type := N * N * N * list node_block.
(** dimension, entity_tag, element_type, elements (394-415); num_elements, ... (418-430) *)
Definition element_block : Type := Z * Z * Z * list (N * list N).
Definition elements4 : Type := N * N * N * list element_block.
(** dimension, entity_tag_slave, entity_tag_master, affine_transform, node_mapping (454-475);
    the coefficients of the matrix in memory *)
Definition periodic_link : Type := Z * Z * Z * option (list D) * list (N * N).
(** element_tag, partition_tag, ghost_partition_tags (483-492) *)
Definition ghost_element : Type := N * Z * list Z.
(** struct GMshFileV4 (gmsh_file_v4.h:20-497), without the header *)
Record msh4 := mkMsh4 {
  m4_names : list physical_name; m4_entities : entities; m4_partitioned : partitioned; m4_nodes : nodes4;
  m4_elements : elements4; m4_periodic : list periodic_link; m4_ghosts : list ghost_element }.

(** Line numbers: gmsh_file_v4_text.cc, gmsh_file_v4_binary.cc. *)
(** 53, 67 *)
Definition vec3_ : parser (vec3 D) := read x <- dbl; want y <- dbl; want z <- dbl; ret (x, y, z).
(** omit[size[...]] > repeat(_a)[p] *)
Definition counted {A} (p : parser A) : parser (list A) := read n <- size; want l <- repeat_ (N.to_nat n) p; ret l.
(** 54, 69 *)
Definition int_vec : parser (list Z) := counted int32.
Definition names4 : list string := ["$PhysicalNames"; "$Entities"; "$PartitionedEntities"; "$Nodes"; "$Elements"; "$Periodic"; "$GhostElements"]%string.
Definition comment4 : parser unit := comment csk names4.
(** 71-74, 86-89; text in both kinds of files *)
Definition physical_name_vector : parser (list physical_name) :=
  read _ <- lit true (str "$PhysicalNames"); want n <- uint true (2 ^ 64); want l <- repeat_ (N.to_nat n) physicalName;
  want _ <- lit true (str "$EndPhysicalNames"); ret l.
(** 79, 92 *)
Definition point_entity_ : parser point_entity := read t <- int32; want x <- vec3_; want p <- int_vec; ret (t, x, p).
(** 82, 95 *)
Definition entity_ : parser entity := read t <- int32; want x <- vec3_; want y <- vec3_; want p <- int_vec; want b <- int_vec; ret (t, x, y, p, b).
(** 85-93, 98-105; in the text grammar with on_error *)
Definition entities_ : parser entities :=
  read _ <- open_ "$Entities"; want a <- size; want b <- size; want c <- size; want d <- size;
  want p <- repeat_ (N.to_nat a) point_entity_; want q <- repeat_ (N.to_nat b) entity_; want r <- repeat_ (N.to_nat c) entity_; want s <- repeat_ (N.to_nat d) entity_;
  want _ <- close_ "$EndEntities"; ret (p, q, r, s).
(** 96-98, 108-109 *)
Definition ghost_entities_ : parser (list (Z * Z)) := counted (read t <- int32; want p <- int32; ret (t, p)).
(** 100-102, 111-113 *)
Definition partitioned_point_entity_ : parser partitioned_point :=
  read t <- int32; want d <- int32; want q <- int32; want ps <- int_vec; want x <- vec3_; want p <- int_vec; ret (t, d, q, ps, x, p).
(** 105-107, 116-118 *)
Definition partitioned_entity_ : parser partitioned_entity :=
  read t <- int32; want d <- int32; want q <- int32; want ps <- int_vec; want x <- vec3_; want y <- vec3_; want p <- int_vec; want b <- int_vec;
  ret (t, d, q, ps, x, y, p, b).
(** 109-122, 120-133 *)
Definition partitioned_entities_ : parser partitioned :=
  read _ <- open_ "$PartitionedEntities"; want n <- size; want g <- ghost_entities_;
  want a <- size; want b <- size; want c <- size; want d <- size;
  want p <- repeat_ (N.to_nat a) partitioned_point_entity_; want q <- repeat_ (N.to_nat b) partitioned_entity_;
  want r <- repeat_ (N.to_nat c) partitioned_entity_; want s <- repeat_ (N.to_nat d) partitioned_entity_;
  want _ <- close_ "$EndPartitionedEntities"; ret (n, g, (p, q, r, s)).
(** 125-131, 136-142: first the tags, then the coordinates *)
Definition node_block_ : parser node_block :=
  read d <- int32; want t <- int32; want p <- int32; want n <- size;
  want tags <- repeat_ (N.to_nat n) size; want coords <- repeat_ (N.to_nat n) vec3_;
  ret (d, t, negb (p =? 0)%Z, combine tags coords).
(** 133-136, 144-146 *)
Definition nodes_ : parser nodes4 :=
  read _ <- open_ "$Nodes"; want k <- size; want n <- size; want lo <- size; want hi <- size; want l <- repeat_ (N.to_nat k) node_block_;
  want _ <- close_ "$EndNodes"; ret (n, lo, hi, l).
(** 139-143, 149-153 *)
Definition element_block_ : parser element_block :=
  read d <- int32; want t <- int32; want ty <- int32;
  want l <- counted (read e <- size; want ns <- (match num_nodes_of ty with Some n => repeat_ n size | None => fun _ => Exception end); ret (e, ns));
  ret (d, t, ty, l).
(** 145-149, 155-158 *)
Definition elements_ : parser elements4 :=
  read _ <- open_ "$Elements"; want k <- size; want n <- size; want lo <- size; want hi <- size; want l <- repeat_ (N.to_nat k) element_block_;
  want _ <- close_ "$EndElements"; ret (n, lo, hi, l).
(** 153-156, 162-166: 16 numbers *)
Definition matrix4d_ : parser (list D) := read x <- dbl; want l <- repeat_ 15 (must dbl); ret (x :: l).
(** 159-162, 169-173 *)
Definition periodic_link_ : parser periodic_link :=
  read d <- int32; want t <- int32; want m <- int32;
  want a <- alt (read _ <- zero; ret None) (read _ <- sixteen; want x <- matrix4d_; ret (Some x));
  want l <- counted (read x <- size; want y <- size; ret (x, y));
  ret (d, t, m, a, l).
(** 164-167, 175-178 *)
Definition periodic_links_ : parser (list periodic_link) :=
  read _ <- open_ "$Periodic"; want l <- counted periodic_link_; want _ <- close_ "$EndPeriodic"; ret l.
(** 170-173, 181-184 *)
Definition ghost_element_ : parser ghost_element := read e <- size; want p <- int32; want l <- counted int32; ret (e, p, l).
(** 175-178, 186-189 *)
Definition ghost_elements_ : parser (list ghost_element) :=
  read _ <- open_ "$GhostElements"; want l <- counted ghost_element_; want _ <- close_ "$EndGhostElements"; ret l.
Definition no_partitions : partitioned := (0%N, [], ([], [], [], [])).
(** 181-188, 192-199 *)
Definition entry4 : parser msh4 := on_error
  (read _ <- star comment4;
   read a <- opt (read x <- physical_name_vector; read _ <- star comment4; ret x);
   read b <- section _ entities_;
   read _ <- star comment4;
   read c <- opt (read x <- section _ partitioned_entities_; read _ <- star comment4; ret x);
   read d <- section _ nodes_;
   read _ <- star comment4;
   read e <- section _ elements_;
   read _ <- star comment4;
   read f <- opt (read x <- section _ periodic_links_; read _ <- star comment4; ret x);
   read g <- opt (read x <- section _ ghost_elements_; read _ <- star comment4; ret x);
   ret (mkMsh4 (or_empty a) b (match c with Some x => x | None => no_partitions end) d e (or_empty f) (or_empty g))).
End V4.
Arguments mkMsh4 {D}. Arguments m4_names {D}. Arguments m4_entities {D}. Arguments m4_partitioned {D}. Arguments m4_nodes {D}.
Arguments m4_elements {D}. Arguments m4_periodic {D}. Arguments m4_ghosts {D}. Arguments no_partitions {D}.

(** gmsh_file_v4_text.cc *)
Definition entryText : parser (msh4 decimal) :=
  entry4 decimal (int_ true) (uint true (2 ^ 64)) (double_ true) (fun n => lit true (str n)) (fun n => lit true (str n))
    (lit true (str "0")) (lit true (str "16")) (fun _ p => p) false.
(** gmsh_file_v4_binary.cc *)
Definition newline : chars := ["010"%char].
Definition word_lit (big : bool) (n : nat) (v : N) : parser unit := fun s =>
  match word false big n s with Success w r => if (w =? v)%N then Success tt r else Fail | Fail => Fail | Expected => Expected | Exception => Exception end.
Definition entryBinary (big : bool) : parser (msh4 N) :=
  entry4 N (dword false big) (word false big 8) (word false big 8) (fun n => lit false (str n ++ newline)) (fun n => lit false (newline ++ str n))
    (word_lit big 8 0) (word_lit big 8 16) (fun _ p => lexeme p) true.

(** gmsh_file_v4.cc:328-333: transposeInPlace of the 4x4 matrices, which are column-major *)
Definition transpose4 {D} (l : list D) : list D :=
  flat_map (fun j => flat_map (fun i => match nth_error l (4 * i + j) with Some x => [x] | None => [] end) (seq 0 4)) (seq 0 4).
Definition fix_link {D} (l : periodic_link D) : periodic_link D := match l with (d, t, m, a, ns) => (d, t, m, option_map transpose4 a, ns) end.
Definition fix_links {D} (f : msh4 D) : msh4 D :=
  mkMsh4 (m4_names f) (m4_entities f) (m4_partitioned f) (m4_nodes f) (m4_elements f) (map fix_link (m4_periodic f)) (m4_ghosts f).
Inductive file4 := Text4 (m : msh4 decimal) | Binary4 (m : msh4 N).
(** ReadGmshFileV4: gmsh_file_v4.cc:301-337 *)
Definition ReadGmshFileV4 (s : chars) (version : chars) (binary : bool) (size_t_size : Z) (one : N) : res file4 :=
  do _ <- verify (if list_eq_dec ascii_dec version (str "4.1") then true else false);
  do _ <- verify (size_t_size =? 8)%Z;
  if binary then do r <- phrase_parse (entryBinary (negb (one =? 1)%N)) s; Ok (Binary4 (fix_links (fst r)))
  else do r <- phrase_parse entryText s; Ok (Text4 (fix_links (fst r))).

(** *** ReadGmshFile: gmsh_reader.cc:649-699 *)
Definition is_version_char (c : ascii) : bool := let n := nat_of_ascii c in (33 <=? n) && (n <=? 126).
Definition version_parser : parser chars := lexeme (plus_ (char_if false is_version_char)).
Definition header : parser (chars * bool * Z * N) :=
  read _ <- lit true (str "$MeshFormat");
  read h <- alt (read v <- version_parser; read _ <- lit true (str "0"); read n <- int_ true; ret (v, false, n, 1%N))
                (read v <- version_parser; read _ <- lit true (str "1"); read n <- int_ true; read one <- word true false 4; ret (v, true, n, one));
  read _ <- lit true (str "$EndMeshFormat"); ret h.
Inductive msh_file := Msh2 (f : file2) | Msh4 (f : file4).
Definition ReadGmshFile (s : chars) : res msh_file :=
  do h <- phrase_parse header s;
  match h with
  | ((version, binary, size_t_size, one), rest) =>
      if list_eq_dec ascii_dec version (str "4.1") then do f <- ReadGmshFileV4 rest version binary size_t_size one; Ok (Msh4 f)
      else if list_eq_dec ascii_dec version (str "2.2") then do f <- readGmshFileV2 rest version binary size_t_size one; Ok (Msh2 f)
      else Throw
  end.
