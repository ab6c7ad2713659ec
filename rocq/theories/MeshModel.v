(** Model of lf::mesh::hybrid2d::MeshFactory and of the constructor of
    lf::mesh::hybrid2d::Mesh.  Entities carry their incidence relations and
    the provenance of their geometry; the numerical geometry itself is the
    subject of other files. *)
From Coq Require Import List Arith Lia Bool.
Import ListNotations.
From Verif Require Import Base.

(** lib/lf/base/ref_el.h:34-43 (RefElType). *)
Inductive refel := kPoint | kSegment | kTria | kQuad.

(** lib/lf/base/ref_el.h:213-227 (RefEl::NumNodes). *)
Definition num_nodes (t : refel) : nat :=
  match t with kPoint => 1 | kSegment => 2 | kTria => 3 | kQuad => 4 end.

(** lib/lf/base/ref_el.h:45-57 (DimensionImpl). *)
Definition dimension (t : refel) : nat :=
  match t with kPoint => 0 | kSegment => 1 | kTria => 2 | kQuad => 2 end.

(** lib/lf/base/ref_el.h:412-449 (RefEl::SubSubEntity2SubEntity(1,j,1,r)) with
    the tables sub_sub_entity_index_tria_ / _quad_ : local vertex number of
    endpoint [r] of local edge [j] of a cell. *)
Definition sub_vertex (t : refel) (j r : nat) : nat :=
  match t with
  | kTria => nth r (nth j [[0;1];[1;2];[2;0]] []) 0
  | kQuad => nth r (nth j [[0;1];[1;2];[2;3];[3;0]] []) 0
  | _ => 0
  end.

(** * The factory *)

(** lib/lf/mesh/hybrid2d/mesh_factory.h (members nodes_, edges_, elements_,
    check_completeness_).  Simplification: a stored node is only counted
    (AddPoint asserts that its geometry is present, so the "node without
    geometry" branches of the Mesh constructor, mesh.cc:250-258, 350-361, are
    dead code for meshes built by the factory); a cell is stored as the list of
    its 3 or 4 node numbers instead of an array<4> whose last entry is -1 for
    triangles; geometry pointers are reduced to "supplied or null". *)
Record factory := mkFactory {
  f_check : bool;
  f_nodes : nat;
  f_edges : list ((nat * nat) * bool);
  f_cells : list (list nat * bool)
}.

(** lib/lf/mesh/hybrid2d/mesh_factory.h:41-42 (constructor). *)
Definition new_factory (check : bool) : factory := mkFactory check 0 [] [].

(** lib/lf/mesh/hybrid2d/mesh_factory.cc:18-43 (both AddPoint overloads);
    [geo] tells whether a non-null geometry (or a coordinate) is passed.
    Returns nodes_.size()-1.  The world-dimension and reference-element checks
    of the geometry argument are not modelled. *)
Definition add_point (geo : bool) (f : factory) : res (nat * factory) :=
  do _ <- lf_assert geo;
  Ok (f_nodes f, mkFactory (f_check f) (S (f_nodes f)) (f_edges f) (f_cells f)).

(** lib/lf/mesh/hybrid2d/mesh_factory.cc:45-103 (AddEntity). *)
Definition add_entity (t : refel) (nodes : list nat) (geo : bool) (f : factory)
  : res (nat * factory) :=
  do _ <- lf_assert (0 <? dimension t);
  do _ <- lf_assert (forallb (fun n => n <? f_nodes f) nodes);
  do _ <- lf_assert (length nodes =? num_nodes t);
  match t, nodes with
  | kSegment, [a; b] =>
      Ok (length (f_edges f),
          mkFactory (f_check f) (f_nodes f) (f_edges f ++ [((a, b), geo)]) (f_cells f))
  | kSegment, _ => Assert
  | _, _ =>
      Ok (length (f_cells f),
          mkFactory (f_check f) (f_nodes f) (f_edges f) (f_cells f ++ [(nodes, geo)]))
  end.

(** * The edge map of the Mesh constructor *)

(** Where the geometry of an edge comes from: supplied with the k-th AddEntity
    call for a segment, or SubGeometry(1,j) of the geometry of cell c, or a
    straight segment between two nodes (mesh.cc:541-550). *)
Inductive edge_geo :=
| EGiven (k : nat)
| ECell (c j : nat)
| EStraight (p0 p1 : nat).

(** lib/lf/mesh/hybrid2d/mesh.cc:192-217 (struct EdgeData). *)
Record edge_data := mkED {
  ed_geo : option edge_geo;
  ed_adj : list (nat * nat);      (* adj_cells_list *)
  ed_idx : option nat;            (* edge_global_index, None = idx_nil *)
  ed_rev : bool
}.

(** lib/lf/mesh/hybrid2d/mesh.cc:130-165 (EndpointIndexPair): the stored pair is
    (p0_, p1_); the comparison uses the sorted pair. *)
Definition cmp0 (k : nat * nat) : nat := if fst k <? snd k then fst k else snd k.
Definition cmp1 (k : nat * nat) : nat := if fst k <? snd k then snd k else fst k.
Definition epair (p0 p1 : nat) : res (nat * nat) :=
  do _ <- lf_assert (negb (p0 =? p1)); Ok (p0, p1).
(** mesh.cc:149-153 (operator<). *)
Definition key_lt (a b : nat * nat) : bool :=
  if cmp0 a =? cmp0 b then cmp1 a <? cmp1 b else cmp0 a <? cmp0 b.
(** mesh.cc:157-160 (coincide). *)
Definition coincide (a b : nat * nat) : bool :=
  (fst a =? fst b) && (snd a =? snd b).

(** std::map<EndpointIndexPair, EdgeData> as the list of its entries in
    iteration order. *)
Definition emap := list ((nat * nat) * edge_data).

(** std::map::find: equivalence under key_lt. *)
Fixpoint emap_find (k : nat * nat) (m : emap) : option ((nat * nat) * edge_data) :=
  match m with
  | [] => None
  | e :: t => if key_lt (fst e) k then emap_find k t
              else if key_lt k (fst e) then None else Some e
  end.

(** std::map::insert: second component tells whether the insertion happened. *)
Fixpoint emap_insert (k : nat * nat) (d : edge_data) (m : emap) : emap * bool :=
  match m with
  | [] => ([(k, d)], true)
  | e :: t => if key_lt (fst e) k
              then let (t', b) := emap_insert k d t in (e :: t', b)
              else if key_lt k (fst e) then ((k, d) :: e :: t, true)
              else (e :: t, false)
  end.

(** Update of the mapped value through an iterator returned by find. *)
Fixpoint emap_update (k : nat * nat) (g : nat * nat -> edge_data -> edge_data)
         (m : emap) : emap :=
  match m with
  | [] => []
  | e :: t => if key_lt (fst e) k then e :: emap_update k g t
              else if key_lt k (fst e) then e :: t
              else (fst e, g (fst e) (snd e)) :: t
  end.

(** mesh.cc:240-274: registration of the supplied edges. *)
Fixpoint reg_edges (n : nat) (es : list ((nat * nat) * bool)) (idx : nat) (m : emap)
  : res (nat * emap) :=
  match es with
  | [] => Ok (idx, m)
  | ((a, b), geo) :: t =>
      do k <- epair a b;
      do _ <- lf_assert ((a <? n) && (b <? n));
      do _ <- lf_assert geo;
      let (m', ins) := emap_insert k (mkED (Some (EGiven idx)) [] (Some idx) false) m in
      do _ <- lf_assert ins;
      reg_edges n t (S idx) m'
  end.

(** mesh.cc:408-429: effect of an already registered edge being met again. *)
Definition meet_edge (c : nat) (geo : bool) (j : nat) (ck : nat * nat)
           (k : nat * nat) (d : edge_data) : edge_data :=
  let adj := ed_adj d ++ [(c, j)] in
  match ed_geo d with
  | Some g => mkED (Some g) adj (ed_idx d) (ed_rev d)
  | None =>
      if geo
      then mkED (Some (ECell c j)) adj (ed_idx d)
                (if coincide ck k then ed_rev d else true)
      else mkED None adj (ed_idx d) (ed_rev d)
  end.

(** mesh.cc:371-432: one local edge of a cell. *)
Definition reg_cell_edge (c : nat) (geo : bool) (nodes : list nat) (t : refel)
           (j : nat) (m : emap) : res emap :=
  do k <- epair (nth (sub_vertex t j 0) nodes 0) (nth (sub_vertex t j 1) nodes 0);
  match emap_find k m with
  | None =>
      let (m', ins) :=
        emap_insert k (mkED (if geo then Some (ECell c j) else None) [(c, j)] None false) m in
      do _ <- lf_assert ins;
      Ok m'
  | Some _ => Ok (emap_update k (meet_edge c geo j k) m)
  end.

Fixpoint reg_cell_edges (c : nat) (geo : bool) (nodes : list nat) (t : refel)
         (js : list nat) (m : emap) : res emap :=
  match js with
  | [] => Ok m
  | j :: r => do m' <- reg_cell_edge c geo nodes t j m;
              reg_cell_edges c geo nodes t r m'
  end.

(** mesh.cc:320-330: a cell with four nodes is a quadrilateral, otherwise a
    triangle. *)
Definition cell_type (nodes : list nat) : refel :=
  if length nodes =? 4 then kQuad else kTria.

(** mesh.cc:311-437: loop over the cells. *)
Fixpoint reg_cells (n : nat) (cs : list (list nat * bool)) (c : nat) (m : emap)
  : res emap :=
  match cs with
  | [] => Ok m
  | (nodes, geo) :: r =>
      do _ <- verify (forallb (fun v => v <? n) nodes);
      do m' <- reg_cell_edges c geo nodes (cell_type nodes)
                              (seq 0 (num_nodes (cell_type nodes))) m;
      reg_cells n r (S c) m'
  end.

(** * Entities of the finished mesh *)

(** lib/lf/mesh/hybrid2d/segment.h:56-71. *)
Record segment := mkSeg { s_index : nat; s_p0 : nat; s_p1 : nat; s_geo : edge_geo }.

(** lib/lf/mesh/hybrid2d/triangle.h, quad.h: index_, nodes_, edges_ (as
    positions in segments_), edge_ori_ (true = positive), and whether the
    geometry was supplied (true) or is the default affine/bilinear one. *)
Record cell := mkCell {
  c_index : nat; c_type : refel; c_nodes : list nat; c_segs : list nat;
  c_ori : list bool; c_geo : bool
}.

(** lib/lf/mesh/hybrid2d/mesh.h (points_, segments_, trias_, quads_,
    entity_pointers_); pointers are positions in the entity vectors. *)
Inductive cptr := PTria (pos : nat) | PQuad (pos : nat).
Record mesh_obj := mkMesh {
  m_points : nat;
  m_segments : list segment;
  m_trias : list cell;
  m_quads : list cell;
  m_ptr0 : list (option cptr);
  m_ptr1 : list (option nat);
  m_ptr2 : list (option nat)
}.

(** mesh.cc:523-583: loop over the edge map creating the segments; [sup] is
    nodeHasSuperEntity. *)
Fixpoint make_segments (check : bool) (m : emap) (idx : nat) (sup : list bool)
  : res (list segment * nat * list bool) :=
  match m with
  | [] => Ok ([], idx, sup)
  | (k, d) :: t =>
      let p0 := if ed_rev d then snd k else fst k in
      let p1 := if ed_rev d then fst k else snd k in
      let geo := match ed_geo d with Some g => g | None => EStraight p0 p1 end in
      let i := match ed_idx d with Some i => i | None => idx end in
      let idx' := match ed_idx d with Some _ => idx | None => S idx end in
      let sup' := if check then upd p1 true (upd p0 true sup) else sup in
      do _ <- verify (negb check || negb (match ed_adj d with [] => true | _ => false end));
      do r <- make_segments check t idx' sup';
      let '(l, fin, s) := r in
      Ok (mkSeg i p0 p1 geo :: l, fin, s)
  end.

(** mesh.cc:604-619: auxiliary array edge_indices[cell][local edge]; vectors of
    array<size_type,4> are value-initialised with 0. *)
Fixpoint fill_adj (pos : nat) (adj : list (nat * nat)) (arr : list (list nat))
  : res (list (list nat)) :=
  match adj with
  | [] => Ok arr
  | (c, j) :: r =>
      do _ <- lf_assert (c <? length arr);
      do _ <- lf_assert (j <? 4);
      fill_adj pos r (upd c (upd j pos (nth c arr [])) arr)
  end.
Fixpoint fill_edge_indices (m : emap) (pos : nat) (arr : list (list nat))
  : res (list (list nat)) :=
  match m with
  | [] => Ok arr
  | (_, d) :: t => do arr' <- fill_adj pos (ed_adj d) arr;
                   fill_edge_indices t (S pos) arr'
  end.

(** triangle.cc:45-67 / quad.cc:47-69: consistency check of edge [j]. *)
Definition edge_matches (nodes : list nat) (t : refel) (segs : list segment)
           (ei : list nat) (j : nat) : bool :=
  match nth_error segs (nth j ei 0) with
  | None => false
  | Some s =>
      let p0 := nth (sub_vertex t j 0) nodes 0 in
      let p1 := nth (sub_vertex t j 1) nodes 0 in
      ((s_p0 s =? p0) || (s_p0 s =? p1)) && ((s_p1 s =? p0) || (s_p1 s =? p1))
  end.
(** triangle.cc:69-77 / quad.cc:71-79: relative orientation of edge [j]. *)
Definition edge_orientation (nodes : list nat) (segs : list segment)
           (ei : list nat) (j : nat) : bool :=
  match nth_error segs (nth j ei 0) with
  | None => false
  | Some s => s_p0 s =? nth j nodes 0
  end.

(** triangle.cc:16-78, quad.cc:15-81: constructors of the two cell types. *)
Definition make_cell (idx : nat) (geo : bool) (nodes : list nat)
           (segs : list segment) (ei : list nat) : res cell :=
  let t := cell_type nodes in
  let js := seq 0 (num_nodes t) in
  do _ <- verify (forallb (edge_matches nodes t segs ei) js);
  Ok (mkCell idx t nodes (map (fun j => nth j ei 0) js)
             (map (edge_orientation nodes segs ei) js) geo).

(** mesh.cc:633-758: loop creating the cells, sorted into trias_ and quads_. *)
Fixpoint make_cells (n ne : nat) (segs : list segment) (cs : list (list nat * bool))
         (eis : list (list nat)) (idx : nat) : res (list cell * list cell) :=
  match cs with
  | [] => Ok ([], [])
  | (nodes, geo) :: r =>
      let ei := nth idx eis [] in
      do _ <- verify (forallb (fun v => v <? n) nodes);
      do _ <- verify (forallb (fun j => nth j ei 0 <? ne)
                              (seq 0 (num_nodes (cell_type nodes))));
      do c <- make_cell idx geo nodes segs ei;
      do tq <- make_cells n ne segs r eis (S idx);
      Ok (match cell_type nodes with
          | kTria => (c :: fst tq, snd tq)
          | _ => (fst tq, c :: snd tq)
          end)
  end.

(** mesh.cc:769-790: entry in entity_pointers_[0], asserting that the index is in
    range and not yet taken. *)
Fixpoint place_cells (mk : nat -> cptr) (cs : list cell) (pos : nat)
         (arr : list (option cptr)) : res (list (option cptr)) :=
  match cs with
  | [] => Ok arr
  | c :: r =>
      do _ <- lf_assert (c_index c <? length arr);
      do _ <- lf_assert (match nth (c_index c) arr None with None => true | _ => false end);
      place_cells mk r (S pos) (upd (c_index c) (Some (mk pos)) arr)
  end.

(** mesh.cc:803-808: entity_pointers_[1] and [2]; a write outside the vector is
    undefined behaviour. *)
Fixpoint place_ptrs (is : list nat) (pos : nat) (arr : list (option nat))
  : res (list (option nat)) :=
  match is with
  | [] => Ok arr
  | i :: r =>
      do _ <- lf_assert (i <? length arr);
      place_ptrs r (S pos) (upd i (Some pos) arr)
  end.

(** lib/lf/mesh/hybrid2d/mesh.cc:178-810 (constructor of Mesh).  Logging is
    left out; line 584 is the assertion on edge_index, 586-593 the completeness
    check of the nodes. *)
Definition mesh_ctor (check : bool) (n : nat) (edges : list ((nat * nat) * bool))
           (cells : list (list nat * bool)) : res mesh_obj :=
  do r1 <- reg_edges n edges 0 [];
  let '(idx, m1) := r1 in
  do m <- reg_cells n cells 0 m1;
  do r2 <- make_segments check m idx (if check then repeat false n else []);
  let '(segs, idx', sup) := r2 in
  do _ <- lf_assert (idx' =? length m);
  do _ <- verify (negb check || forallb (fun i => nth i sup false) (seq 0 n));
  do eis <- fill_edge_indices m 0 (repeat [0;0;0;0] (length cells));
  do tq <- make_cells n (length m) segs cells eis 0;
  let '(ts, qs) := tq in
  do p0 <- place_cells PTria ts 0 (repeat None (length ts + length qs));
  do p0' <- place_cells PQuad qs 0 p0;
  do p2 <- place_ptrs (seq 0 n) 0 (repeat None n);
  do p1 <- place_ptrs (map s_index segs) 0 (repeat None (length segs));
  Ok (mkMesh n segs ts qs p0' p1 p2).

(** lib/lf/mesh/hybrid2d/mesh_factory.cc:105-125 (Build): the lists are moved
    into the constructor, so that the factory is empty afterwards, also when the
    constructor throws. *)
Definition build (f : factory) : res mesh_obj * factory :=
  (mesh_ctor (f_check f) (f_nodes f) (f_edges f) (f_cells f),
   new_factory (f_check f)).

(** * Observations on a mesh through its public interface *)

(** mesh.cc:49-60 (NumEntities(codim)). *)
Definition num_entities (codim : nat) (m : mesh_obj) : nat :=
  match codim with
  | 0 => length (m_trias m) + length (m_quads m)
  | 1 => length (m_segments m)
  | _ => m_points m
  end.

(** mesh.cc:62-82 (NumEntities(ref_el)). *)
Definition num_entities_of_type (t : refel) (m : mesh_obj) : nat :=
  match t with
  | kPoint => m_points m | kSegment => length (m_segments m)
  | kTria => length (m_trias m) | kQuad => length (m_quads m)
  end.

(** mesh.cc:106-111 (EntityByIndex) for codim 0, 1 and 2; a null pointer or an
    index out of range gives None. *)
Definition cell_by_index (m : mesh_obj) (i : nat) : option cell :=
  match nth_error (m_ptr0 m) i with
  | Some (Some (PTria p)) => nth_error (m_trias m) p
  | Some (Some (PQuad p)) => nth_error (m_quads m) p
  | _ => None
  end.
Definition edge_by_index (m : mesh_obj) (i : nat) : option segment :=
  match nth_error (m_ptr1 m) i with
  | Some (Some p) => nth_error (m_segments m) p
  | _ => None
  end.
(** A point is identified with its position in points_, which is its index
    (mesh.cc:487-500). *)
Definition node_by_index (m : mesh_obj) (i : nat) : option nat :=
  match nth_error (m_ptr2 m) i with
  | Some (Some p) => if p <? m_points m then Some p else None
  | _ => None
  end.

(** lib/lf/mesh/hybrid2d/mesh.cc:19-47 (Entities(codim)) for codim 0: the
    entity pointers in the order of the index array; here their dereferenced
    values. *)
Definition cell_edge (m : mesh_obj) (c : cell) (j : nat) : option segment :=
  match nth_error (c_segs c) j with
  | Some p => nth_error (m_segments m) p
  | None => None
  end.
