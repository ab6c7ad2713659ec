(** Model of lf::io::GmshReader (lib/lf/io/gmsh_reader.cc) on files that have been
    parsed (structs GMshFileV2 and GMshFileV4).  The parsers (Boost.Spirit
    grammars) are modelled in MshModel.v.  The factory is a lf::mesh::hybrid2d::MeshFactory, so
    that DimMesh() is 2.  Doubles are exact reals, sizes are unbounded. *)
From Coq Require Import Reals String List Arith Bool ZArith.
Import ListNotations.
From Verif Require Import Base MeshModel GeoModel.
Local Open Scope nat_scope.
Local Open Scope list_scope.

(** *** Element types *)
(** gmsh_file_v2.h:95-165, gmsh_file_v4.h (enum class ElementType; the two are the same). *)
Inductive etype :=
  | EDGE2 | TRIA3 | QUAD4 | TET4 | HEX8 | PRISM6 | PYRAMID5 | EDGE3 | TRIA6 | QUAD9 | TET10 | HEX27 | PRISM18 | PYRAMID14 | POINT | QUAD8
  | HEX20 | PRISM15 | PYRAMID13 | TRIA9 | TRIA10 | TRIA12 | TRIA15 | TRIA15_5 | TRIA21 | EDGE4 | EDGE5 | EDGE6 | TET20 | TET35 | TET56 | HEX64 | HEX125.
(** operator== of the enumeration. *)
Definition etype_eq_dec (a b : etype) : {a = b} + {a <> b}.
Proof. decide equality. Defined.
Definition etype_eqb (a b : etype) : bool := if etype_eq_dec a b then true else false.
(** gmsh_file_v2.cc:190-260, gmsh_file_v4.cc (NumNodes). *)
Definition NumNodes (t : etype) : nat :=
  match t with
  | POINT => 1 | EDGE2 => 2 | TRIA3 => 3 | QUAD4 | TET4 => 4 | HEX8 => 8 | PRISM6 => 6 | PYRAMID5 => 5 | EDGE3 => 3 | TRIA6 => 6 | QUAD9 => 9
  | TET10 => 10 | HEX27 => 27 | PRISM18 => 18 | PYRAMID14 => 14 | QUAD8 => 8 | HEX20 => 20 | PRISM15 => 15 | PYRAMID13 => 13 | TRIA9 => 9
  | TRIA10 => 10 | TRIA12 => 12 | TRIA15 | TRIA15_5 => 15 | TRIA21 => 21 | EDGE4 => 4 | EDGE5 => 5 | EDGE6 => 6 | TET20 => 20 | TET35 => 35
  | TET56 => 56 | HEX64 => 64 | HEX125 => 125
  end.
(** gmsh_file_v2.cc:313-357, gmsh_file_v4.cc (DimOf). *)
Definition DimOf (t : etype) : nat :=
  match t with
  | POINT => 0
  | EDGE2 | EDGE3 | EDGE4 | EDGE5 | EDGE6 => 1
  | TRIA3 | QUAD4 | TRIA6 | QUAD9 | QUAD8 | TRIA9 | TRIA10 | TRIA12 | TRIA15 | TRIA15_5 | TRIA21 => 2
  | _ => 3
  end.
(** gmsh_file_v2.cc:262-310, gmsh_file_v4.cc (RefElOf). *)
Definition RefElOf (t : etype) : res refel :=
  match t with
  | POINT => Ok kPoint
  | EDGE2 | EDGE3 | EDGE4 | EDGE5 | EDGE6 => Ok kSegment
  | TRIA3 | TRIA6 | TRIA9 | TRIA10 | TRIA12 | TRIA15 | TRIA15_5 | TRIA21 => Ok kTria
  | QUAD4 | QUAD8 | QUAD9 => Ok kQuad
  | _ => Throw
  end.

(** *** Files *)
(** gmsh_file_v2.h:167-205 (struct Element).  Number, ElementaryEntityNr and
    MeshPartitions are not used by the reader. *)
Record element := mkElem { el_type : etype; el_phys : Z; el_nodes : list nat }.
(** gmsh_file_v2.h:26-93 (PhysicalEntities: dimension, number, name; Nodes; Elements).
    A node's three coordinates are a [vec]. *)
Record file2 := mkFile2 { f2_names : list (nat * Z * string); f2_nodes : list (nat * vec); f2_elements : list element }.
(** gmsh_file_v4.h (struct ElementBlock; the tags of the elements are not used). *)
Record block := mkBlock { eb_dim : nat; eb_entity : Z; eb_type : etype; eb_elements : list (list nat) }.
(** gmsh_file_v4.h (physical_names; entities, of which tag and physical_tags are used, by
    dimension; partitioned_entities likewise, present if num_partitions is not 0; nodes;
    elements). *)
Record file4 := mkFile4 { f4_names : list (nat * Z * string); f4_entities : nat -> list (Z * list Z); f4_num_partitions : nat;
                          f4_partitioned : nat -> list (Z * list Z); f4_min : nat; f4_max : nat; f4_nodes : list (list (nat * vec)); f4_blocks : list block }.

(** *** Vectors *)
Definition at_ {A} (l : list A) (i : nat) : res A := match nth_error l i with Some a => Ok a | None => Assert end.
(** std::vector::resize *)
Definition resize {A} (n : nat) (d : A) (l : list A) : list A := firstn n l ++ repeat d (n - length l).
(** resize if the vector is not longer than [k] (gmsh_reader.cc:164-166, 196-198, 243-245) *)
Definition grow {A} (k : nat) (d : A) (l : list A) : list A := if length l <=? k then resize (S k) d l else l.
(** std::vector::back().push_back(j); undefined if the vector is empty *)
Definition push_last (j : nat) (l : list (list nat)) : res (list (list nat)) :=
  match l with [] => Assert | _ => Ok (removelast l ++ [last l [] ++ [j]]) end.
(** conversion of int to the 32-bit size_type *)
Definition to_size (z : Z) : Z := (z mod 2 ^ 32)%Z.
Definition same_nodes (a b : list nat) : bool := if list_eq_dec Nat.eq_dec a b then true else false.

(** *** State of the construction *)
(** The factory with the geometry objects passed to it, in the order of the calls:
    coordinates of points, geometries of edges and cells. *)
Record build_state := mkBuild { b_fac : factory; b_points : list vec; b_edges : list geo; b_cells : list geo }.
(** mi2gi (gmsh_reader.cc:139) for codimension 0, 1, 2. *)
Record mi2gi := mkMi { mi_0 : list (list nat); mi_1 : list (list nat); mi_2 : list (list nat) }.
Definition mi_get (c : nat) (m : mi2gi) : list (list nat) := match c with 0 => mi_0 m | 1 => mi_1 m | _ => mi_2 m end.
Definition mi_set (c : nat) (l : list (list nat)) (m : mi2gi) : mi2gi :=
  match c with 0 => mkMi l (mi_1 m) (mi_2 m) | 1 => mkMi (mi_0 m) l (mi_2 m) | _ => mkMi (mi_0 m) (mi_1 m) l end.

(** gmsh_reader.cc:157-168, 398-407: the first NumNodes() nodes of an element become main nodes;
    [low] is min_node_tag (0 for version 2). *)
Definition mark_main (low : nat) (t : refel) (ns : list nat) (main : list bool) : res (list bool) :=
  do _ <- lf_assert (num_nodes t <=? length ns);
  do _ <- lf_assert (forallb (fun n => low <=? n) (firstn (num_nodes t) ns));
  Ok (fold_left (fun m n => upd (n - low) true (grow (n - low) false m)) (firstn (num_nodes t) ns) main).
(** gmsh_reader.cc:202-213, 444-453: insertion of a node into the factory. *)
Definition insert_point (dw : nat) (c : vec) (b : build_state) : res (nat * build_state) :=
  do _ <- (if dw =? 2 then lf_assert (if Req_EM_T (c 2) 0%R then true else false) else Ok tt);
  do r <- add_point true (b_fac b);
  Ok (fst r, mkBuild (snd r) (b_points b ++ [c]) (b_edges b) (b_cells b)).
(** gmsh_reader.cc:265-298, 502-535: the geometry object of an element. *)
Definition element_geometry (dw : nat) (t : etype) (cs : list vec) : res geo :=
  match t with
  | EDGE2 => new_geo GSegmentO1 dw cs
  | EDGE3 => new_geo GSegmentO2 dw cs
  | TRIA3 => new_geo GTriaO1 dw cs
  | TRIA6 => new_geo GTriaO2 dw cs
  | QUAD4 => new_geo GQuadO1 dw cs
  | QUAD8 => new_geo GQuadO2 dw cs
  | QUAD9 => do _ <- lf_assert (8 <=? length cs); new_geo GQuadO2 dw (firstn 8 cs)
  | _ => Throw
  end.
(** gmsh_reader.cc:303, 540: AddEntity. *)
Definition insert_entity (t : refel) (ns : list nat) (g : geo) (b : build_state) : res build_state :=
  do r <- add_entity t ns true (b_fac b);
  Ok (match t with kSegment => mkBuild (snd r) (b_points b) (b_edges b ++ [g]) (b_cells b)
                 | _ => mkBuild (snd r) (b_points b) (b_edges b) (b_cells b ++ [g]) end).
(** gmsh_reader.cc:250-304, 487-541: insertion of an element that is not a point;
    [coords n] is the coordinate vector of the node with gmsh number [n], [index n]
    its number in the mesh, where -1 is none and is rejected by AddEntity. *)
Fixpoint collect {A} (f : nat -> res A) (l : list nat) : res (list A) :=
  match l with [] => Ok [] | n :: r => do a <- f n; do t <- collect f r; Ok (a :: t) end.
Definition insert_element (dw : nat) (t : etype) (el : refel) (ns : list nat) (coords : nat -> res vec) (index : nat -> res (option nat)) (b : build_state)
  : res build_state :=
  do cs <- collect coords ns;
  do g <- element_geometry dw t cs;
  do _ <- lf_assert (num_nodes el <=? length ns);
  do mn <- collect (fun n => do i <- index n; match i with Some k => Ok k | None => Assert end) (firstn (num_nodes el) ns);
  insert_entity el mn g b.
(** gmsh_reader.cc:236-249, 475-486: a point element; [j] is the number of the element (version 2) or of
    its block (version 4). *)
Definition insert_point_element (mesh_index : option nat) (j : nat) (m : mi2gi) : mi2gi :=
  match mesh_index with
  | None => m
  | Some k => let l := grow k [] (mi_2 m) in mi_set 2 (upd k (nth k l [] ++ [j]) l) m
  end.

(** *** Multimaps *)
(** std::multimap as the list of its entries in the order of iteration; insert puts the
    new entry behind the entries with an equivalent key. *)
Section Multimap.
Context {K V : Type}.
Variable lt : K -> K -> bool.
Fixpoint mm_insert (k : K) (v : V) (m : list (K * V)) : list (K * V) :=
  match m with
  | [] => [(k, v)]
  | e :: r => if lt k (fst e) then (k, v) :: e :: r else e :: mm_insert k v r
  end.
(** equal_range: an iterator is the list of the entries from there on. *)
Fixpoint lower_bound (k : K) (m : list (K * V)) : list (K * V) :=
  match m with [] => [] | e :: r => if lt (fst e) k then lower_bound k r else m end.
Fixpoint upper_bound (k : K) (m : list (K * V)) : list (K * V) :=
  match m with [] => [] | e :: r => if lt k (fst e) then m else upper_bound k r end.
End Multimap.
(** begin == end for iterators of the same map *)
Definition same_iter {A} (a b : list A) : bool := length a =? length b.

(** static_cast<dim_t>(-1), the default of the argument codim *)
Definition no_codim : Z := (2 ^ 32 - 1)%Z.
(** gmsh_reader.cc:56-61, 90-95: the loop over the remaining candidates.  [*begin] is
    read before the comparison with [end]; reading past the last entry of the map is
    undefined. *)
Fixpoint scan {K A} (codim : Z) (begin end_ : list (K * (A * Z))) : res A :=
  match begin with
  | [] => Assert
  | e :: r => if negb (snd (snd e) =? codim)%Z && negb (same_iter begin end_) then scan codim r end_
              else if (snd (snd e) =? codim)%Z then Ok (fst (snd e)) else Throw
  end.
(** gmsh_reader.cc:34-67 without the assertion, 69-99: look up a key. *)
Definition look_up {K A} (lt : K -> K -> bool) (key : K) (codim : Z) (m : list (K * (A * Z))) : res A :=
  let begin := lower_bound lt key m in
  let end_ := upper_bound lt key m in
  if same_iter begin end_ then Throw
  else match begin with
  | [] => Assert
  | result :: begin' =>
      if same_iter begin' end_
      then if (codim =? no_codim)%Z || (codim =? snd (snd result))%Z then Ok (fst (snd result)) else Throw
      else if (codim =? no_codim)%Z then Throw
      else if (snd (snd result) =? codim)%Z then Ok (fst (snd result))
      else scan codim begin' end_
  end.

(** *** The reader *)
(** gmsh_reader.h:178-196 (members), with the geometries of the mesh. *)
Record reader := mkReader {
  rd_mesh : mesh_obj; rd_points : list vec; rd_edges : list geo; rd_cells : list geo;
  rd_physical : list (list (list Z));
  rd_name2nr : list (string * (Z * Z)); rd_nr2name : list (Z * (string * Z))
}.
Definition str_ltb (a b : string) : bool := match String.compare a b with Lt => true | _ => false end.
(** gmsh_reader.cc:333-338, 631-636: dim_mesh - Dimension is computed with 32-bit unsigned numbers. *)
Definition add_names (ns : list (nat * Z * string)) : list (string * (Z * Z)) * list (Z * (string * Z)) :=
  fold_left (fun m p => let '(d, nr, name) := p in
     (mm_insert str_ltb name (to_size nr, to_size (2 - Z.of_nat d)) (fst m), mm_insert Z.ltb (to_size nr) (name, to_size (2 - Z.of_nat d)) (snd m))) ns ([], []).
(** gmsh_reader.cc:317-337, 606-626: the numbers of the physical entities; [tags j] are the numbers of
    element (or block) [j]. *)
Definition physical_of (M : mesh_obj) (m : mi2gi) (tags : nat -> nat -> res (list Z)) : res (list (list (list Z))) :=
  collect (fun c => collect (fun i =>
     if (c =? 2) && (length (mi_2 m) <=? i) then Ok []
     else if i <? length (mi_get c m) then do l <- collect (tags c) (nth i (mi_get c m) []); Ok (concat l)
     else Ok []) (seq 0 (num_entities c M))) (seq 0 3).

(** *** Version 2 *)
(** gmsh_reader.cc:145-178: main nodes; the second component counts the cells. *)
Fixpoint scan_elements (es : list element) (main : list bool) (n : nat) : res (list bool * nat) :=
  match es with
  | [] => Ok (main, n)
  | e :: r =>
      do _ <- lf_assert (DimOf (el_type e) <=? 2);
      let n' := if DimOf (el_type e) =? 2 then S n else n in
      do main' <- (if etype_eqb (el_type e) POINT then Ok main
                   else do t <- RefElOf (el_type e); mark_main 0 t (el_nodes e) main);
      scan_elements r main' n'
  end.
(** gmsh_reader.cc:184-215: gi2mi, gi2i (None is -1) and the points of the mesh. *)
Fixpoint insert_nodes (dw : nat) (main : list bool) (ns : list (nat * vec)) (i : nat) (gi2mi gi2i : list (option nat)) (b : build_state)
  : res (list (option nat) * list (option nat) * build_state) :=
  match ns with
  | [] => Ok (gi2mi, gi2i, b)
  | (n, c) :: r =>
      let gi2i' := upd n (Some i) (grow n None gi2i) in
      if nth n main false
      then do p <- insert_point dw c b;
           insert_nodes dw main r (S i) (upd n (Some (fst p)) gi2mi) gi2i' (snd p)
      else insert_nodes dw main r (S i) gi2mi gi2i' b
  end.
(** gmsh_reader.cc:220-307: the loop over the elements.  [begin] is the element at position begin;
    at the first step it is the element itself. *)
Fixpoint insert_elements (dw : nat) (coords : nat -> res vec) (index : nat -> res (option nat)) (es : list element) (end_ : nat) (begin : option element)
  (b : build_state) (m : mi2gi) : res (build_state * mi2gi) :=
  match es with
  | [] => Ok (b, m)
  | e :: r =>
      do el <- RefElOf (el_type e);
      let codim := 2 - dimension el in
      if match begin with Some be => same_nodes (el_nodes be) (el_nodes e) && etype_eqb (el_type be) (el_type e) | None => false end
      then do l <- push_last end_ (mi_get codim m);
           insert_elements dw coords index r (S end_) begin b (mi_set codim l m)
      else match el with
      | kPoint =>
          do n <- at_ (el_nodes e) 0;
          do mesh_index <- index n;
          insert_elements dw coords index r (S end_) (Some e) b (insert_point_element mesh_index end_ m)
      | _ =>
          do b' <- insert_element dw (el_type e) el (el_nodes e) coords index b;
          insert_elements dw coords index r (S end_) (Some e) b' (mi_set codim (mi_get codim m ++ [[end_]]) m)
      end
  end.
(** gmsh_reader.cc:117-356 (InitGmshFile for version 2). *)
Definition read2 (dw : nat) (f : factory) (file : file2) : res reader :=
  do _ <- verify ((2 <=? dw) && (dw <=? 3));
  do s <- scan_elements (f2_elements file) (repeat false (length (f2_nodes file))) 0;
  let main := fst s in
  do _ <- lf_assert (0 <? snd s);
  do p <- insert_nodes dw main (f2_nodes file) 0 (repeat None (length main)) (repeat None (length main)) (mkBuild f [] [] []);
  let '(gi2mi, gi2i, b) := p in
  let coords n := do i <- at_ gi2i n; match i with Some k => do nd <- at_ (f2_nodes file) k; Ok (snd nd) | None => Assert end in
  do q <- insert_elements dw coords (at_ gi2mi) (f2_elements file) 0 None b (mkMi [] [] []);
  let '(b', m) := q in
  do M <- fst (build (b_fac b'));
  do phys <- physical_of M m (fun _ j => do e <- at_ (f2_elements file) j; Ok [to_size (el_phys e)]);
  let names := add_names (f2_names file) in
  Ok (mkReader M (b_points b') (b_edges b') (b_cells b') phys (fst names) (snd names)).

(** *** Version 4 *)
(** gmsh_reader.cc:380-418 *)
Fixpoint scan_block (low : nat) (t : refel) (es : list (list nat)) (main : list bool) : res (list bool) :=
  match es with [] => Ok main | ns :: r => do m <- mark_main low t ns main; scan_block low t r m end.
Fixpoint scan_blocks (low : nat) (bs : list block) (main : list bool) (n : nat) : res (list bool * nat) :=
  match bs with
  | [] => Ok (main, n)
  | eb :: r =>
      do _ <- lf_assert (eb_dim eb <=? 2);
      do _ <- lf_assert (eb_dim eb =? DimOf (eb_type eb));
      let n' := if eb_dim eb =? 2 then n + length (eb_elements eb) else n in
      do main' <- (if eb_dim eb =? 2 then do t <- RefElOf (eb_type eb); scan_block low t (eb_elements eb) main else Ok main);
      scan_blocks low r main' n'
  end.
(** gmsh_reader.cc:431-456; the pair (j,k) in gi2i is the node itself. *)
Fixpoint insert_nodes4 (dw low : nat) (main : list bool) (ns : list (nat * vec)) (gi2mi : list (option nat)) (gi2i : list (option vec)) (b : build_state)
  : res (list (option nat) * list (option vec) * build_state) :=
  match ns with
  | [] => Ok (gi2mi, gi2i, b)
  | (n, c) :: r =>
      do _ <- lf_assert ((low <=? n) && (n - low <? length gi2i));
      let gi2i' := upd (n - low) (Some c) gi2i in
      if nth (n - low) main false
      then do p <- insert_point dw c b;
           insert_nodes4 dw low main r (upd (n - low) (Some (fst p)) gi2mi) gi2i' (snd p)
      else insert_nodes4 dw low main r gi2mi gi2i' b
  end.
(** gmsh_reader.cc:465-544: the elements of block [ebi]. *)
Fixpoint insert_block (dw : nat) (coords : nat -> res vec) (index : nat -> res (option nat)) (t : etype) (el : refel) (ebi : nat) (es : list (list nat))
  (begin : option (list nat)) (b : build_state) (m : mi2gi) : res (build_state * mi2gi) :=
  match es with
  | [] => Ok (b, m)
  | ns :: r =>
      let codim := 2 - dimension el in
      if match begin with Some bn => same_nodes bn ns | None => false end
      then do l <- push_last ebi (mi_get codim m);
           insert_block dw coords index t el ebi r begin b (mi_set codim l m)
      else match el with
      | kPoint =>
          do n <- at_ ns 0;
          do mesh_index <- index n;
          insert_block dw coords index t el ebi r (Some ns) b (insert_point_element mesh_index ebi m)
      | _ =>
          do b' <- insert_element dw t el ns coords index b;
          insert_block dw coords index t el ebi r (Some ns) b' (mi_set codim (mi_get codim m ++ [[ebi]]) m)
      end
  end.
Fixpoint insert_blocks (dw : nat) (coords : nat -> res vec) (index : nat -> res (option nat)) (bs : list block) (ebi : nat) (b : build_state) (m : mi2gi)
  : res (build_state * mi2gi) :=
  match bs with
  | [] => Ok (b, m)
  | eb :: r =>
      do el <- RefElOf (eb_type eb);
      do q <- insert_block dw coords index (eb_type eb) el ebi (eb_elements eb) None b m;
      insert_blocks dw coords index r (S ebi) (fst q) (snd q)
  end.
(** gmsh_reader.cc:553-568 (makeMap) and the subscript with a tag: the tags of an
    entity that is not listed but has a smaller tag than one that is are empty; a larger tag (or a negative one)
    is outside the vector. *)
Definition max_tag (es : list (Z * list Z)) : Z := fold_left (fun a e => Z.max a (fst e)) es 0%Z.
Definition make_map (es : list (Z * list Z)) : res (Z -> res (list Z)) :=
  do _ <- lf_assert (forallb (fun e => (0 <=? fst e)%Z) es);
  Ok (fun t => if (0 <=? t)%Z && (t <=? max_tag es)%Z
               then Ok (fold_left (fun a e => if (fst e =? t)%Z then snd e else a) es []) else Assert).
(** gmsh_reader.cc:357-644 (InitGmshFile for version 4). *)
Definition read4 (dw : nat) (f : factory) (file : file4) : res reader :=
  do _ <- verify ((2 <=? dw) && (dw <=? 3));
  do _ <- lf_assert (f4_min file <=? f4_max file + 1);
  let low := f4_min file in
  do s <- scan_blocks low (f4_blocks file) (repeat false (f4_max file + 1 - low)) 0;
  let main := fst s in
  do _ <- lf_assert (0 <? snd s);
  do p <- insert_nodes4 dw low main (concat (f4_nodes file)) (repeat None (length main)) (repeat None (length main)) (mkBuild f [] [] []);
  let '(gi2mi, gi2i, b) := p in
  let coords n := do _ <- lf_assert (low <=? n); do i <- at_ gi2i (n - low); match i with Some c => Ok c | None => Assert end in
  let index n := do _ <- lf_assert (low <=? n); at_ gi2mi (n - low) in
  do q <- insert_blocks dw coords index (f4_blocks file) 0 b (mkMi [] [] []);
  let '(b', m) := q in
  do M <- fst (build (b_fac b'));
  let entities := if f4_num_partitions file =? 0 then f4_entities file else f4_partitioned file in
  do m0 <- make_map (entities 0);
  do m1 <- make_map (entities 1);
  do m2 <- make_map (entities 2);
  do phys <- physical_of M m (fun c j => do eb <- at_ (f4_blocks file) j;
               do l <- (match c with 0 => m2 | 1 => m1 | _ => m0 end) (eb_entity eb); Ok (map to_size l));
  let names := add_names (f4_names file) in
  Ok (mkReader M (b_points b') (b_edges b') (b_cells b') phys (fst names) (snd names)).

(** gmsh_reader.h:74 (GmshFileVariant), gmsh_reader.cc:24-29 (the constructor calls
    InitGmshFile of the alternative that is present). *)
Inductive gmsh_file := V2 (f : file2) | V4 (f : file4).
Definition read (dw : nat) (f : factory) (file : gmsh_file) : res reader := match file with V2 x => read2 dw f x | V4 x => read4 dw f x end.

(** *** Queries *)
(** gmsh_reader.cc:34-67 *)
Definition PhysicalEntityName2Nr (r : reader) (name : string) (codim : Z) : res Z :=
  do _ <- lf_assert (negb (String.eqb name ""));
  look_up str_ltb name codim (rd_name2nr r).
(** gmsh_reader.cc:69-99 *)
Definition PhysicalEntityNr2Name (r : reader) (nr : Z) (codim : Z) : res string := look_up Z.ltb nr codim (rd_nr2name r).
(** gmsh_reader.cc:101-111 *)
Definition PhysicalEntities (r : reader) (codim : Z) : list (Z * string) :=
  map (fun p => (fst p, fst (snd p))) (filter (fun p => snd (snd p) =? codim)%Z (rd_nr2name r)).
(** gmsh_reader.cc:113-116 *)
Definition PhysicalEntityNr (r : reader) (codim i : nat) : res (list Z) := do l <- at_ (rd_physical r) codim; at_ l i.
(** gmsh_reader.cc:17-22 *)
Definition IsPhysicalEntity (r : reader) (codim i : nat) (nr : Z) : res bool := do l <- PhysicalEntityNr r codim i; Ok (existsb (Z.eqb nr) l).
