(** Specification vocabulary for C67 and C68: what a Gmsh file describes. *)
From Coq Require Import Reals String List Arith Bool ZArith.
Import ListNotations.
From Verif Require Import Base MeshModel MeshSpec GeoModel GmshModel.
Local Open Scope list_scope.

(** An entity listed in the file: its type, its nodes, and for each of the
    (consecutive) occurrences the numbers of the physical entities. *)
Record item := mkItem { it_type : etype; it_nodes : list nat; it_tags : list (list Z) }.
(** Nodes, entities, and which nodes are nodes of the mesh. *)
Record content := mkContent { co_nodes : list (nat * vec); co_items : list item; co_main : nat -> bool }.

(** Number of corners, and the kind of geometry of the supported types. *)
Definition num_corners (t : etype) : nat :=
  match t with
  | POINT => 1 | EDGE2 | EDGE3 | EDGE4 | EDGE5 | EDGE6 => 2 | QUAD4 | QUAD8 | QUAD9 => 4 | _ => 3
  end.
Definition kind_of (t : etype) : option gkind :=
  match t with
  | EDGE2 => Some GSegmentO1 | EDGE3 => Some GSegmentO2 | TRIA3 => Some GTriaO1 | TRIA6 => Some GTriaO2
  | QUAD4 => Some GQuadO1 | QUAD8 | QUAD9 => Some GQuadO2 | _ => None
  end.
Definition corners (t : etype) (ns : list nat) : list nat := firstn (num_corners t) ns.
Definition is_corner_of (n : nat) (t : etype) (ns : list nat) : bool := existsb (Nat.eqb n) (corners t ns).

(** Repetitions of the same entity in a row are one entity of the mesh. *)
Definition add_item (t : etype) (ns : list nat) (tags : list Z) (l : list item) : list item :=
  match l with
  | i :: r => if etype_eqb t (it_type i) && same_nodes ns (it_nodes i) then mkItem t ns (tags :: it_tags i) :: r else mkItem t ns [tags] :: l
  | [] => [mkItem t ns [tags]]
  end.
Fixpoint items2 (es : list element) : list item :=
  match es with [] => [] | e :: r => add_item (el_type e) (el_nodes e) [to_size (el_phys e)] (items2 r) end.
(** Version 2: the nodes of the mesh are the corners of edges and cells. *)
Definition content2 (f : file2) : content :=
  mkContent (f2_nodes f) (items2 (f2_elements f))
    (fun n => existsb (fun e => negb (etype_eqb (el_type e) POINT) && is_corner_of n (el_type e) (el_nodes e)) (f2_elements f)).

(** Version 4: an element belongs to the physical entities to which the geometrical entity of its
    block belongs. *)
Definition tags_in (es : list (Z * list Z)) (tag : Z) : list Z :=
  match find (fun e => Z.eqb (fst e) tag) (rev es) with Some e => map to_size (snd e) | None => [] end.
Definition block_tags (f : file4) (b : block) : list Z :=
  tags_in (if (f4_num_partitions f =? 0)%nat then f4_entities f (eb_dim b) else f4_partitioned f (eb_dim b)) (eb_entity b).
Fixpoint items4 (t : etype) (tags : list Z) (es : list (list nat)) : list item :=
  match es with [] => [] | ns :: r => add_item t ns tags (items4 t tags r) end.
(** The nodes of the mesh are the corners of cells. *)
Definition content4 (f : file4) : content :=
  mkContent (concat (f4_nodes f)) (concat (map (fun b => items4 (eb_type b) (block_tags f b) (eb_elements b)) (f4_blocks f)))
    (fun n => existsb (fun b => (DimOf (eb_type b) =? 2)%nat && existsb (is_corner_of n (eb_type b)) (eb_elements b)) (f4_blocks f)).

(** *** What the mesh must look like *)
Definition main_nodes (C : content) : list (nat * vec) := filter (fun nd => co_main C (fst nd)) (co_nodes C).
Definition items_of (d : nat) (C : content) : list item := filter (fun i => (DimOf (it_type i) =? d)%nat) (co_items C).
(** The nodes [vs] of the mesh are those with Gmsh numbers [ns]. *)
Definition are_nodes (C : content) (vs ns : list nat) : Prop := Forall2 (fun v n => exists c, nth_error (main_nodes C) v = Some (n, c)) vs ns.
(** The geometry is of the right kind, with the coordinates of the nodes of the file. *)
Definition geometry_of (dw : nat) (C : content) (i : item) (g : geo) : Prop :=
  kind_of (it_type i) = Some (go_kind g) /\ go_dim g = dw /\
  Forall2 (fun n v => In (n, v) (co_nodes C)) (firstn (num_cols (go_kind g)) (it_nodes i)) (go_cols g).

(** The calls to the mesh factory that enter the nodes, edges and cells of the file, in the
    order of the file. *)
Definition history_of (C : content) (h : list call) : Prop :=
  points_of h = length (main_nodes C) /\
  Forall2 (fun i x => are_nodes C (fst x) (corners (it_type i) (it_nodes i)) /\ snd x = true) (items_of 1 C) (segments_of h) /\
  Forall2 (fun i x => are_nodes C (fst x) (corners (it_type i) (it_nodes i)) /\ snd x = true) (items_of 2 C) (cells_of h).

Record imported (check : bool) (dw : nat) (C : content) (r : reader) : Prop := {
  im_built : exists h, built check h (rd_mesh r) /\ history_of C h;
  im_num_points : num_entities 2 (rd_mesh r) = length (main_nodes C);
  im_points : rd_points r = map snd (main_nodes C);
  im_num_cells : num_entities 0 (rd_mesh r) = length (items_of 2 C);
  im_cell : forall k i, nth_error (items_of 2 C) k = Some i ->
     exists c g, cell_by_index (rd_mesh r) k = Some c /\ are_nodes C (c_nodes c) (corners (it_type i) (it_nodes i)) /\
       c_geo c = true /\ nth_error (rd_cells r) k = Some g /\ geometry_of dw C i g /\
       PhysicalEntityNr r 0 k = Ok (concat (it_tags i));
  im_edge : forall k i, nth_error (items_of 1 C) k = Some i ->
     exists s g, edge_by_index (rd_mesh r) k = Some s /\ are_nodes C [s_p0 s; s_p1 s] (corners (it_type i) (it_nodes i)) /\
       s_geo s = EGiven k /\ nth_error (rd_edges r) k = Some g /\ geometry_of dw C i g /\
       PhysicalEntityNr r 1 k = Ok (concat (it_tags i));
  im_other_edge : forall k, (length (items_of 1 C) <= k < num_entities 1 (rd_mesh r))%nat -> PhysicalEntityNr r 1 k = Ok []
}.

(** *** Physical entities of points *)
(** The numbers listed in the file for node [n]. *)
Definition at_node (n : nat) (i : item) : bool := match it_nodes i with k :: _ => (k =? n)%nat | [] => false end.
Definition point_tags (C : content) (n : nat) : list Z := concat (map (fun i => concat (it_tags i)) (filter (at_node n) (items_of 0 C))).
(** Points that are listed several times are nodes of the mesh that come, in the
    numbering of the mesh, after (or are equal to) all points listed before. *)
Definition node_number (C : content) (i : item) (v : nat) : Prop := exists n c, at_node n i = true /\ nth_error (main_nodes C) v = Some (n, c).
Definition repeated_points_last (C : content) : Prop :=
  forall l1 i l2, items_of 0 C = l1 ++ i :: l2 -> (1 < length (it_tags i))%nat ->
    exists v, node_number C i v /\ forall i' v', In i' l1 -> node_number C i' v' -> (v' <= v)%nat.

(** *** Files that can be read *)
Record valid_content (dw : nat) (C : content) : Prop := {
  vc_dim : dw = 2%nat \/ dw = 3%nat;
  vc_unique : NoDup (map fst (co_nodes C));
  vc_planar : dw = 2%nat -> forall n c, In (n, c) (co_nodes C) -> co_main C n = true -> c 2%nat = 0%R;
  vc_type : forall i, In i (co_items C) -> it_type i = POINT \/ kind_of (it_type i) <> None;
  vc_nodes : forall i, In i (co_items C) -> length (it_nodes i) = NumNodes (it_type i) /\ forall n, In n (it_nodes i) -> In n (map fst (co_nodes C));
  vc_corner : forall i n, In i (co_items C) -> In n (corners (it_type i) (it_nodes i)) -> co_main C n = true;
  vc_cells : items_of 2 C <> [];
  vc_geometry : forall i k cs, In i (co_items C) -> kind_of (it_type i) = Some k ->
     Forall2 (fun n v => In (n, v) (co_nodes C)) (firstn (num_cols k) (it_nodes i)) cs -> exists g, new_geo k dw cs = Ok g
}.
Definition edge_ends (i : item) : nat * nat := (nth 0 (it_nodes i) 0%nat, nth 1 (it_nodes i) 0%nat).
(** No edge or side of a cell has coinciding ends, and no edge is listed twice (other than in a row). *)
Definition consistent_content (C : content) : Prop :=
  (forall i, In i (items_of 1 C) -> fst (edge_ends i) <> snd (edge_ends i)) /\
  (forall k l i i', nth_error (items_of 1 C) k = Some i -> nth_error (items_of 1 C) l = Some i' -> same_pair (edge_ends i) (edge_ends i') -> k = l) /\
  (forall i j, In i (items_of 2 C) -> (j < num_corners (it_type i))%nat ->
     fst (side (corners (it_type i) (it_nodes i)) j) <> snd (side (corners (it_type i) (it_nodes i)) j)).
(** Every edge is a side of a cell. *)
Definition edges_on_cells (C : content) : Prop :=
  forall i, In i (items_of 1 C) -> exists c j, In c (items_of 2 C) /\ (j < num_corners (it_type c))%nat /\ same_pair (edge_ends i) (side (corners (it_type c) (it_nodes c)) j).
(** Version 4: the numbers of the nodes are in the range stated in the header, the tags are natural numbers,
    and blocks belong to entities with tags in the range of the tags that are listed. *)
Definition listed (f : file4) (d : nat) : list (Z * list Z) := if (f4_num_partitions f =? 0)%nat then f4_entities f d else f4_partitioned f d.
Record valid_file4 (f : file4) : Prop := {
  vf_range : forall n, In n (map fst (concat (f4_nodes f))) -> (f4_min f <= n <= f4_max f)%nat;
  vf_dim : forall b, In b (f4_blocks f) -> eb_dim b = DimOf (eb_type b) /\ (eb_dim b <= 2)%nat;
  vf_tags : forall d e, (d <= 2)%nat -> In e (listed f d) -> (0 <= fst e)%Z;
  vf_entity : forall b, In b (f4_blocks f) -> (0 <= eb_entity b)%Z /\ (eb_entity b = 0%Z \/ exists e, In e (listed f (eb_dim b)) /\ (eb_entity b <= fst e)%Z)
}.
Definition content_of (f : gmsh_file) : content := match f with V2 x => content2 x | V4 x => content4 x end.
Definition valid_file (f : gmsh_file) : Prop := match f with V2 _ => True | V4 x => valid_file4 x end.

(** *** Names of physical entities *)
(** Dimension, number and name of the physical entities that have a name, as listed in the file. *)
Definition names_of (f : gmsh_file) : list (nat * Z * string) := match f with V2 x => f2_names x | V4 x => f4_names x end.
Definition entry := (nat * Z * string)%type.
Definition name_of (e : entry) : string := snd e.
Definition nr_of (e : entry) : Z := to_size (snd (fst e)).
Definition codim_of (e : entry) : Z := to_size (2 - Z.of_nat (fst (fst e))).
Definition named (es : list entry) (name : string) : list entry := filter (fun e => String.eqb (name_of e) name) es.
Definition numbered (es : list entry) (nr : Z) : list entry := filter (fun e => Z.eqb (nr_of e) nr) es.
(** The result of looking for an entity among the candidates [es]: without a co-dimension the
    only one; with a co-dimension the first one that has it; an exception if there is none. *)
Definition found {A} (value : entry -> A) (es : list entry) (codim : Z) : res A :=
  if (codim =? no_codim)%Z then match es with [e] => Ok (value e) | _ => Throw end
  else match find (fun e => codim_of e =? codim)%Z es with Some e => Ok (value e) | None => Throw end.
(** Several candidates, but none with the right co-dimension. *)
Definition missed (es : list entry) (codim : Z) : Prop := (2 <= length es)%nat /\ codim <> no_codim /\ forall e, In e es -> codim_of e <> codim.
