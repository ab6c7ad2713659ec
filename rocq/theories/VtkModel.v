(** Model of lf::io::VtkWriter (lib/lf/io/vtk_writer.h, vtk_writer.cc): the contents of the
    VtkFile object that the destructor writes.

    Numbers are reals; the conversion to single precision of the points (cast<float>()) is a
    parameter [cast].  Vector elements that resize() leaves uninitialised (or zero) are
    [None] until they are assigned.  Meshes have dimension 2. *)
From Coq Require Import Reals String Ascii List Arith Bool.
Import ListNotations.
From Verif Require Import Base MeshModel MeshView DofModel AssembleModel GeoModel FeModel TransferSpec.
Local Open Scope R_scope.

(** *** Reference coordinates of the auxiliary nodes *)
(** vtk_writer.cc:463-476; evaluated for order >= 1 only, where the subtraction in the
    third line does not become negative. *)
Definition NumAuxNodes (el : refel) (order : nat) : nat :=
  match el with
  | kPoint => 1
  | kSegment => order - 1
  | kTria => (2 + order * order - 3 * order) / 2
  | kQuad => (order - 1) * (order - 1)
  end.
(** Eigen::VectorXd::LinSpaced; a vector of length one holds the upper limit. *)
Definition lin_spaced (n : nat) (low high : R) : list R :=
  map (fun i => if (n =? 1)%nat then high else low + INR i * ((high - low) / INR (n - 1))) (seq 0 n).
(** vtk_writer.cc:479-484; matrices are lists of columns. *)
Definition AuxNodesSegment (order : nat) : res (list (list R)) :=
  do _ <- lf_assert (1 <? order)%nat;
  Ok (map (fun t => [t]) (lin_spaced (order - 1) (1 / INR order) ((INR order - 1) / INR order))).
(** result.block(0, pos, 2, n) = cols; outside of the matrix: an assertion of Eigen. *)
Definition set_block {A} (pos : nat) (cols : list A) (dst : list A) : res (list A) :=
  do _ <- lf_assert (pos + length cols <=? length dst)%nat;
  Ok (firstn pos dst ++ cols ++ skipn (pos + length cols) dst).
(** vtk_writer.cc:488-532; [fuel] bounds the recursion. *)
Fixpoint aux_tria (fuel order : nat) : res (list (list R)) :=
  match fuel with
  | 0%nat => Assert
  | S fuel =>
      if (order <? 3)%nat then Ok []
      else if (order =? 3)%nat then Ok [[1 / 3; 1 / 3]]
      else if (order =? 4)%nat then Ok [[1 / 4; 1 / 4]; [1 / 2; 1 / 4]; [1 / 4; 1 / 2]]
      else
        let o := INR order in
        do r <- set_block 0 [[1 / o; 1 / o]; [(o - 2) / o; 1 / o]; [1 / o; (o - 2) / o]] (repeat [] (NumAuxNodes kTria order));
        do segment_points <- AuxNodesSegment (order - 3);
        let seg := map (fun p => nth 0 p 0) segment_points in
        do r <- set_block 3 (map (fun s => [1 * s * (o - 3) / o + 1 / o; 0 * s * (o - 3) / o + 1 / o]) seg) r;
        do r <- set_block (order - 1) (map (fun s => [-1 * (o - 3) / o * s + (o - 2) / o; 1 * (o - 3) / o * s + 1 / o]) seg) r;
        do r <- set_block (2 * order - 5) (map (fun s => [0 * (o - 3) / o * s + 1 / o; -1 * (o - 3) / o * s + (o - 2) / o]) seg) r;
        if (5 <? order)%nat then
          do points <- aux_tria fuel (order - 3);
          set_block (3 * order - 9) (map (fun p => [nth 0 p 0 * (o - 6) / o + 2 / o; nth 1 p 0 * (o - 6) / o + 2 / o]) points) r
        else Ok r
  end.
Definition AuxNodesTria (order : nat) : res (list (list R)) := aux_tria (S order) order.
(** vtk_writer.cc:535-547: the first row is the sequence repeated, in the second row each
    element is repeated (kroneckerProduct with a vector of ones). *)
Definition AuxNodesQuad (order : nat) : list (list R) :=
  let l := lin_spaced (order - 1) (1 / INR order) ((INR order - 1) / INR order) in
  map (fun p => [fst p; snd p]) (combine (concat (repeat l (order - 1))) (flat_map (fun y => repeat y (order - 1)) l)).
(** vtk_writer.cc:593-597 *)
Definition aux_nodes (el : refel) (order : nat) : res (list (list R)) :=
  match el with
  | kPoint => Ok []
  | kSegment => AuxNodesSegment order
  | kTria => AuxNodesTria order
  | kQuad => Ok (AuxNodesQuad order)
  end.

(** *** The file (vtk_writer.h:25-170) *)
(** vtk_writer.h:33-60; [NoType] is the value 0 of resize(). *)
Inductive cell_type := NoType | VTK_LINE | VTK_TRIANGLE | VTK_QUAD | VTK_LAGRANGE_CURVE | VTK_LAGRANGE_TRIANGLE | VTK_LAGRANGE_QUADRILATERAL.
Definition vec3 := (R * R * R)%type.
Record grid := mkGrid { g_points : list (option vec3); g_cells : list (list nat); g_types : list cell_type }.
Inductive scalar_type := TChar | TUChar | TInt | TUInt | TFloat | TDouble.
(** ScalarData<T> (the lookup table is always "default") and VectorData<T>. *)
Inductive attribute :=
| ScalarData (name : string) (t : scalar_type) (data : list (option R))
| VectorData (name : string) (t : scalar_type) (data : list (option vec3)).
Definition a_name (a : attribute) : string := match a with ScalarData n _ _ => n | VectorData n _ _ => n end.
Definition a_size (a : attribute) : nat := match a with ScalarData _ _ d => length d | VectorData _ _ d => length d end.
Record field := mkField { fd_name : string; fd_type : scalar_type; fd_data : list R }.
Record vtk_file := mkFile { vf_header : string; vf_binary : bool; vf_grid : grid; vf_field : list field; vf_point : list attribute; vf_cell : list attribute }.

(** vtk_writer.cc:425-460 (ValidateVtkFile) *)
Fixpoint contains (c : ascii) (s : string) : bool :=
  match s with EmptyString => false | String a r => Ascii.eqb a c || contains c r end.
Definition newline : ascii := Ascii.ascii_of_nat 10.
Definition space : ascii := Ascii.ascii_of_nat 32.
Fixpoint verify_all {A} (p : A -> bool) (l : list A) : res unit :=
  match l with [] => Ok tt | a :: l => do _ <- verify (p a); verify_all p l end.
Definition ValidateVtkFile (f : vtk_file) : res unit :=
  do _ <- verify (negb (contains newline (vf_header f)));
  do _ <- verify (String.length (vf_header f) <=? 256)%nat;
  do _ <- verify (length (g_types (vf_grid f)) =? length (g_cells (vf_grid f)))%nat;
  do _ <- verify_all (fun a => a_size a =? length (g_points (vf_grid f)))%nat (vf_point f);
  verify_all (fun a => a_size a =? length (g_cells (vf_grid f)))%nat (vf_cell f).

(** *** The writer *)
(** The members of VtkWriter; mesh and file name are fixed, [vw_off1] and [vw_off0] are aux_node_offset_[1] and [0]. *)
Record writer := mkWriter { vw_codim : nat; vw_order : nat; vw_off1 : list nat; vw_off0 : list nat; vw_file : vtk_file }.

Section Writer.
Variable m : mesh.
Variable geom : ent -> geo.
Variable dim_world : nat.
Variable cast : R -> R.

(** vtk_writer.cc:613-625 and 642-653: one point, padded to three coordinates; with more than three coordinates
    the assignment to a vector of length 3 is an assertion failure of Eigen. *)
Definition point3 (e : ent) (x : list R) : res vec3 :=
  do v <- Global (geom e) x;
  match dim_world with
  | 1%nat => Ok (cast (v 0%nat), 0, 0)
  | 2%nat => Ok (cast (v 0%nat), cast (v 1%nat), 0)
  | 3%nat => Ok (cast (v 0%nat), cast (v 1%nat), cast (v 2%nat))
  | _ => Assert
  end.
(** Mesh::NumEntities(RefEl) (mesh.cc:84-101) *)
Definition count_type (el : refel) : nat :=
  match el with
  | kPoint => mv_nodes m
  | kSegment => length (mv_edges m)
  | _ => length (filter (fun c => refel_eqb (cv_type c) el) (mv_cells m))
  end.
(** vtk_writer.cc:600-607 *)
Definition num_points (codim order : nat) : nat :=
  fold_left (fun n el => if (2 - codim <? 2 - codim_of el)%nat then n else (n + NumAuxNodes el order * count_type el)%nat)
    [kSegment; kTria; kQuad] (mv_count m 2).
(** vtk_writer.cc:612-627: the values at the nodes, at their indices.  The same loop
    stores the values of data sets and mesh functions, hence the parameter [val]. *)
Fixpoint node_loop {A} (val : ent -> res A) (es : list ent) (data : list (option A)) : res (list (option A)) :=
  match es with
  | [] => Ok data
  | p :: es =>
      do c <- val p;
      do _ <- lf_assert (ent_index p <? length data)%nat;
      node_loop val es (upd (ent_index p) (Some c) data)
  end.
(** vtk_writer.cc:634-658: the auxiliary points of the entities of one codimension; [index_offset] is returned as well. *)
Fixpoint aux_loop (order : nat) (es : list ent) (index_offset : nat) (off : list nat) (points : list (option vec3))
  : res (nat * list nat * list (option vec3)) :=
  match es with
  | [] => Ok (index_offset, off, points)
  | e :: es =>
      let ref_el := ent_type m e in
      if refel_eqb ref_el kTria && (order <? 3)%nat then aux_loop order es index_offset off points
      else
        do an <- aux_nodes ref_el order;
        do coords <- traverse (point3 e) an;
        do _ <- lf_assert (length coords =? NumAuxNodes ref_el order)%nat;
        do points <- set_block index_offset (map Some coords) points;
        do _ <- lf_assert (ent_index e <? length off)%nat;
        aux_loop order es (index_offset + length coords) (upd (ent_index e) index_offset off) points
  end.
(** vtk_writer.cc:630-661: codimension 1 first, then 0 unless only edges are written. The loop
    variable has type char, which is taken to be signed. *)
Definition insert_aux (codim order : nat) (points : list (option vec3)) : res (list nat * list nat * list (option vec3)) :=
  let off1 := repeat 0%nat (mv_count m 1) in let off0 := repeat 0%nat (mv_count m 0) in
  if (1 <? order)%nat then
    do (io, off1, points) <- aux_loop order (entities m 1) (mv_count m 2) off1 points;
    if (codim =? 0)%nat then
      do (_, off0, points) <- aux_loop order (entities m 0) io off0 points;
      Ok (off1, off0, points)
    else Ok (off1, off0, points)
  else Ok (off1, off0, points).
(** vtk_writer.cc:690-701 (addSegmentNodes) *)
Definition segment_nodes (order : nat) (off1 : list nat) (s : nat) (invert : bool) : res (list nat) :=
  match nth_error off1 s with
  | None => Assert
  | Some start =>
      let n := NumAuxNodes kSegment order in
      Ok (map (fun i => (start + i)%nat) (if invert then rev (seq 0 n) else seq 0 n))
  end.
(** vtk_writer.cc:706-741: the k-th local edge; [flip] is the orientation for which the nodes are inverted. *)
Definition side_nodes (order : nat) (off1 : list nat) (c : cellv) (k : nat) (flip : bool) : res (list nat) :=
  match nth_error (cv_edges c) k, nth_error (cv_ori c) k with
  | Some s, Some o => segment_nodes order off1 s (Bool.eqb o flip)
  | _, _ => Assert
  end.
(** vtk_writer.cc:678-750: the node indices of one cell of the file. *)
Definition cell_nodes (order : nat) (off1 off0 : list nat) (e : ent) : res (list nat) :=
  let main := ent_nodes m e in
  do segs <- match ent_type m e with
             | kSegment => segment_nodes order off1 (ent_index e) false
             | kTria =>
                 let c := cell_at m (ent_index e) in
                 do s0 <- side_nodes order off1 c 0 false;
                 do s1 <- side_nodes order off1 c 1 false;
                 do s2 <- side_nodes order off1 c 2 false;
                 Ok (s0 ++ s1 ++ s2)
             | kQuad =>
                 let c := cell_at m (ent_index e) in
                 do s0 <- side_nodes order off1 c 0 false;
                 do s1 <- side_nodes order off1 c 1 false;
                 do s2 <- side_nodes order off1 c 2 true;
                 do s3 <- side_nodes order off1 c 3 true;
                 Ok (s0 ++ s1 ++ s2 ++ s3)
             | kPoint => Throw
             end;
  do interior <- match e with
                 | ECell i => match nth_error off0 i with
                              | Some offset => Ok (map (fun k => (offset + k)%nat) (seq 0 (NumAuxNodes (ent_type m e) order)))
                              | None => Assert
                              end
                 | _ => Ok []
                 end;
  Ok (main ++ segs ++ interior).
(** vtk_writer.cc:752-782 *)
Definition type_of_cell (order : nat) (el : refel) : res cell_type :=
  if (order =? 1)%nat then
    Ok (match el with kSegment => VTK_LINE | kTria => VTK_TRIANGLE | kQuad => VTK_QUAD | kPoint => NoType end)
  else match el with
       | kSegment => Ok VTK_LAGRANGE_CURVE
       | kTria => Ok VTK_LAGRANGE_TRIANGLE
       | kQuad => Ok VTK_LAGRANGE_QUADRILATERAL
       | kPoint => Throw
       end.
(** vtk_writer.cc:675-784 *)
Fixpoint cell_loop (order : nat) (off1 off0 : list nat) (es : list ent) (cells : list (list nat)) (types : list cell_type)
  : res (list (list nat) * list cell_type) :=
  match es with
  | [] => Ok (cells, types)
  | e :: es =>
      do ns <- cell_nodes order off1 off0 e;
      do t <- type_of_cell order (ent_type m e);
      do _ <- lf_assert (ent_index e <? length cells)%nat;
      cell_loop order off1 off0 es (upd (ent_index e) ns cells) (upd (ent_index e) t types)
  end.
(** vtk_writer.cc:578-785 (the constructor) *)
Definition new_writer (codim order : nat) : res writer :=
  do _ <- lf_assert ((0 <? dim_world) && (dim_world <=? 4))%nat;
  do _ <- lf_assert (codim <? 2)%nat;
  do _ <- lf_assert ((0 <? order) && (order <=? 10))%nat;
  let points := repeat None (num_points codim order) in
  do points <- node_loop (fun e => point3 e []) (entities m 2) points;
  do (off1, off0, points) <- insert_aux codim order points;
  do (cells, types) <- cell_loop order off1 off0 (entities m codim) (repeat [] (mv_count m codim)) (repeat NoType (mv_count m codim));
  Ok (mkWriter codim order off1 off0 (mkFile EmptyString false (mkGrid points cells types) [] [] [])).

(** vtk_writer.h:973-989 (CheckAttributeSetName), given the names in use *)
Definition CheckAttributeSetName (used : list string) (name : string) : res unit :=
  do _ <- verify (negb (existsb (String.eqb name) used));
  verify (negb (contains space name)).
(** vtk_writer.h:991-1009 (PadWithZeros); for vectors of fixed size the number of rows is part of the type. *)
Definition PadWithZeros (v : list R) : res vec3 :=
  match v with
  | [a; b] => Ok (a, b, 0)
  | [a; b; c] => Ok (a, b, c)
  | _ => Assert
  end.
(** Mesh data sets: the value, if the data set is defined on the entity. *)
Definition dataset (A : Type) := ent -> option A.
(** DefinedOn, operator() and the value for other entities *)
Definition ds_value {A} (ds : dataset A) (undefined : A) (e : ent) : res A :=
  Ok (match ds e with Some v => v | None => undefined end).
(** The same followed by PadWithZeros; the padded undefined value is computed before the loop (vtk_writer.cc:986-987). *)
Definition ds_vector (ds : dataset (list R)) (undefined : vec3) (e : ent) : res vec3 :=
  match ds e with Some v => PadWithZeros v | None => Ok undefined end.
(** vtk_writer.h:860-874 and 898-911: the values of a mesh function at the auxiliary
    nodes.  Evaluation at several points is modelled by evaluation at each. *)
Fixpoint mf_loop {A} (order : nat) (off : list nat) (mf : ent -> list R -> res A) (es : list ent) (data : list (option A)) : res (list (option A)) :=
  match es with
  | [] => Ok data
  | e :: es =>
      let ref_el := ent_type m e in
      if (order =? 1)%nat || ((order =? 2)%nat && refel_eqb ref_el kTria) then mf_loop order off mf es data
      else
        do an <- aux_nodes ref_el order;
        do values <- traverse (mf e) an;
        match nth_error off (ent_index e) with
        | None => Assert
        | Some offset =>
            do data <- set_block offset (map Some values) data;
            mf_loop order off mf es data
        end
  end.
Definition mf_points {A} (w : writer) (mf : ent -> list R -> res A) : res (list (option A)) :=
  do data <- node_loop (fun e => mf e []) (entities m 2) (repeat None (length (g_points (vf_grid (vw_file w)))));
  do data <- mf_loop (vw_order w) (vw_off1 w) mf (entities m 1) data;
  if (vw_codim w =? 0)%nat then mf_loop (vw_order w) (vw_off0 w) mf (entities m 0) data else Ok data.
(** vtk_writer.h:928-936: the points at which mesh functions are evaluated for cell
    data; the code for quadrilaterals uses the corners of the triangle. *)
Definition barycenter (el : refel) : list R :=
  let sum (l : list (list R)) k := fold_right Rplus 0 (map (fun p => nth k p 0) l) in
  let tria := [[0; 0]; [1; 0]; [0; 1]] in
  match el with
  | kPoint => []
  | kSegment => [sum [[0]; [1]] 0%nat / 2]
  | kTria => [sum tria 0%nat / 3; sum tria 1%nat / 3]
  | kQuad => [sum tria 0%nat / 4; sum tria 1%nat / 4]
  end.

(** *** The operations *)
Inductive vtk_op :=
| SetBinary (b : bool)
| PointScalars (name : string) (t : scalar_type) (ds : dataset R) (undefined : R)
| PointVectors (name : string) (t : scalar_type) (ds : dataset (list R)) (undefined : list R)
| CellScalars (name : string) (t : scalar_type) (ds : dataset R) (undefined : R)
| CellVectors (name : string) (t : scalar_type) (ds : dataset (list R)) (undefined : list R)
| PointFunction (name : string) (t : scalar_type) (mf : ent -> list R -> res R)
| PointVectorFunction (name : string) (t : scalar_type) (mf : ent -> list R -> res (list R))
| CellFunction (name : string) (t : scalar_type) (mf : ent -> list R -> res R)
| CellVectorFunction (name : string) (t : scalar_type) (mf : ent -> list R -> res (list R))
| GlobalData (name : string) (t : scalar_type) (data : list R).
Definition with_file (w : writer) (f : vtk_file) : writer := mkWriter (vw_codim w) (vw_order w) (vw_off1 w) (vw_off0 w) f.
Definition add_point (w : writer) (a : attribute) : writer :=
  let f := vw_file w in with_file w (mkFile (vf_header f) (vf_binary f) (vf_grid f) (vf_field f) (vf_point f ++ [a]) (vf_cell f)).
Definition add_cell (w : writer) (a : attribute) : writer :=
  let f := vw_file w in with_file w (mkFile (vf_header f) (vf_binary f) (vf_grid f) (vf_field f) (vf_point f) (vf_cell f ++ [a])).
(** vtk_writer.cc:955-1053, vtk_writer.h:303-309, 834-971.  An exception leaves the
    writer as it was, since the new array is added last. *)
Definition vtk_step (w : writer) (op : vtk_op) : res writer :=
  let f := vw_file w in
  let point_names := map a_name (vf_point f) in let cell_names := map a_name (vf_cell f) in
  match op with
  | SetBinary b => Ok (with_file w (mkFile (vf_header f) b (vf_grid f) (vf_field f) (vf_point f) (vf_cell f)))
  | PointScalars name t ds u =>
      do _ <- lf_assert (vw_order w =? 1)%nat;
      do _ <- CheckAttributeSetName point_names name;
      do data <- node_loop (ds_value ds u) (entities m 2) (repeat None (mv_count m 2));
      Ok (add_point w (ScalarData name t data))
  | PointVectors name t ds u =>
      do _ <- lf_assert (vw_order w =? 1)%nat;
      do _ <- CheckAttributeSetName point_names name;
      do up <- PadWithZeros u;
      do data <- node_loop (ds_vector ds up) (entities m 2) (repeat None (mv_count m 2));
      Ok (add_point w (VectorData name t data))
  | CellScalars name t ds u =>
      do _ <- CheckAttributeSetName cell_names name;
      do data <- node_loop (ds_value ds u) (entities m (vw_codim w)) (repeat None (mv_count m (vw_codim w)));
      Ok (add_cell w (ScalarData name t data))
  | CellVectors name t ds u =>
      do _ <- CheckAttributeSetName cell_names name;
      do up <- PadWithZeros u;
      do data <- node_loop (ds_vector ds up) (entities m (vw_codim w)) (repeat None (mv_count m (vw_codim w)));
      Ok (add_cell w (VectorData name t data))
  | PointFunction name t mf =>
      do _ <- CheckAttributeSetName point_names name;
      do data <- mf_points w mf;
      Ok (add_point w (ScalarData name t data))
  | PointVectorFunction name t mf =>
      do _ <- CheckAttributeSetName point_names name;
      do data <- mf_points w (fun e x => do v <- mf e x; PadWithZeros v);
      Ok (add_point w (VectorData name t data))
  | CellFunction name t mf =>
      do _ <- CheckAttributeSetName cell_names name;
      do data <- node_loop (fun e => mf e (barycenter (ent_type m e))) (entities m (vw_codim w)) (repeat None (mv_count m (vw_codim w)));
      Ok (add_cell w (ScalarData name t data))
  | CellVectorFunction name t mf =>
      do _ <- CheckAttributeSetName cell_names name;
      do data <- node_loop (fun e => do v <- mf e (barycenter (ent_type m e)); PadWithZeros v) (entities m (vw_codim w)) (repeat None (mv_count m (vw_codim w)));
      Ok (add_cell w (VectorData name t data))
  | GlobalData name t data =>
      do _ <- CheckAttributeSetName (map fd_name (vf_field f)) name;
      Ok (with_file w (mkFile (vf_header f) (vf_binary f) (vf_grid f) (vf_field f ++ [mkField name t data]) (vf_point f) (vf_cell f)))
  end.
(** A sequence of calls; exceptions are caught by the caller, who goes on. *)
Fixpoint run_vtk (w : writer) (ops : list vtk_op) : res writer :=
  match ops with
  | [] => Ok w
  | op :: ops => match vtk_step w op with Ok w' => run_vtk w' ops | Throw => run_vtk w ops | Assert => Assert end
  end.
End Writer.
