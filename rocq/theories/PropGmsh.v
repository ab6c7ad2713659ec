(** Properties C67-C69: import of Gmsh files. *)
From Coq Require Import Reals String List Arith Bool ZArith Permutation Sorted.
Import ListNotations.
From Verif Require Import Base MeshModel MeshSpec GeoModel GmshModel GmshSpec GmshProofs10 GmshProofs11.
Local Open Scope list_scope.

(** *** C67 *)
(** If a file is read without an exception, the mesh has the nodes, edges and cells of the file, with their
    geometries and physical entities. *)
Theorem C67_import : forall check dw file r, read dw (new_factory check) file = Ok r -> NoDup (map fst (co_nodes (content_of file))) -> imported check dw (content_of file) r.
Proof. exact read_imported. Qed.
Print Assumptions C67_import.
(** When it is read. *)
Theorem C67_outcome : forall check dw file, valid_content dw (content_of file) -> valid_file file ->
  ((exists r, read dw (new_factory check) file = Ok r) <-> consistent_content (content_of file) /\ (check = true -> edges_on_cells (content_of file))) /\
  (read dw (new_factory check) file = Throw <-> consistent_content (content_of file) /\ check = true /\ ~ edges_on_cells (content_of file)).
Proof. exact read_outcome. Qed.
Print Assumptions C67_outcome.
(** Nodes that belong to no cell are said not to be inserted into the mesh; in version 2 they are if they belong to an edge. *)
Theorem C67_loose_edge_refuted : exists file r n, NoDup (map fst (co_nodes (content_of file))) /\ read 3 (new_factory false) file = Ok r /\
  In n (map fst (main_nodes (content_of file))) /\ (forall i, In i (items_of 2 (content_of file)) -> ~ In n (it_nodes i)) /\ num_entities 2 (rd_mesh r) = 5%nat.
Proof. exact loose_wrong. Qed.
Print Assumptions C67_loose_edge_refuted.
(** The two formats differ: the same mesh is read in version 2 and is an error in version 4. *)
Theorem C67_formats_refuted : exists f2 f4, co_nodes (content_of (V4 f4)) = co_nodes (content_of (V2 f2)) /\ map it_nodes (co_items (content_of (V4 f4))) = map it_nodes (co_items (content_of (V2 f2))) /\
  (exists r, read 3 (new_factory false) (V2 f2) = Ok r) /\ read 3 (new_factory false) (V4 f4) = Assert.
Proof. exact loose_undefined. Qed.
Print Assumptions C67_formats_refuted.
(** Whether a point that belongs to no cell is ignored or is an access out of bounds depends on its number. *)
Theorem C67_lone_point_refuted : (exists r, read 3 (new_factory true) (lone 0) = Ok r) /\ read 3 (new_factory true) (lone 7) = Assert.
Proof. exact lone_wrong. Qed.
Print Assumptions C67_lone_point_refuted.
(** Non-vacuity: a square of two triangles, in both versions. *)
Example C67_hyp2 : valid_content 3 (content_of square2) /\ consistent_content (content_of square2) /\ edges_on_cells (content_of square2) /\ valid_file square2.
Proof. exact square2_valid. Qed.
Example C67_hyp4 : valid_content 3 (content_of square4) /\ consistent_content (content_of square4) /\ edges_on_cells (content_of square4) /\ valid_file square4.
Proof. exact square4_valid. Qed.
Example C67_read : forall file, file = square2 \/ file = square4 -> exists r, read 3 (new_factory true) file = Ok r /\
  num_entities 0 (rd_mesh r) = 2%nat /\ num_entities 1 (rd_mesh r) = 5%nat /\ num_entities 2 (rd_mesh r) = 4%nat /\
  PhysicalEntityNr r 1 0 = Ok [11; 12]%Z /\ PhysicalEntityNr r 0 1 = Ok [32%Z] /\ PhysicalEntityNr r 2 0 = Ok [21%Z] /\ PhysicalEntityNr r 2 3 = Ok [] /\
  PhysicalEntityName2Nr r "left" 2 = Ok 21%Z /\ PhysicalEntityName2Nr r "left" no_codim = Throw /\ PhysicalEntityNr2Name r 31 no_codim = Ok "lower"%string.
Proof. exact square_read. Qed.

(** *** C68 *)
(** The full statement, for nodes of the mesh: the physical entities of a node are those listed in the file for
    point elements at that node.  For edges and cells it is part of C67_import.  It is false for nodes (see below); what
    is proved needs point elements that are repeated in a row to come after those with smaller numbers. *)
Theorem C68_points_partial : forall check dw file r, read dw (new_factory check) file = Ok r -> NoDup (map fst (co_nodes (content_of file))) -> repeated_points_last (content_of file) ->
  forall v n c, nth_error (main_nodes (content_of file)) v = Some (n, c) -> PhysicalEntityNr r 2 v = Ok (point_tags (content_of file) n).
Proof. exact read_points. Qed.
Print Assumptions C68_points_partial.
Theorem C68_points_refuted : exists file r, valid_content 3 (content_of file) /\ consistent_content (content_of file) /\ edges_on_cells (content_of file) /\ valid_file file /\
  read 3 (new_factory true) file = Ok r /\
  exists c1 c3, nth_error (main_nodes (content_of file)) 0 = Some (1%nat, c1) /\ nth_error (main_nodes (content_of file)) 2 = Some (3%nat, c3) /\
    point_tags (content_of file) 1 = [7; 8]%Z /\ PhysicalEntityNr r 2 0 = Ok [7%Z] /\
    point_tags (content_of file) 3 = [5%Z] /\ PhysicalEntityNr r 2 2 = Ok [5; 8]%Z.
Proof. exact points_wrong. Qed.
Print Assumptions C68_points_refuted.
(** PhysicalEntityNr is said to be sorted. *)
Theorem C68_sorted_refuted : exists file r, valid_content 3 (content_of file) /\ consistent_content (content_of file) /\ edges_on_cells (content_of file) /\ valid_file file /\
  read 3 (new_factory true) file = Ok r /\ PhysicalEntityNr r 0 0 = Ok [9; 2]%Z.
Proof. exact sorted_wrong. Qed.
Print Assumptions C68_sorted_refuted.
Theorem C68_is_physical : forall r codim i nr l, PhysicalEntityNr r codim i = Ok l -> exists b, IsPhysicalEntity r codim i nr = Ok b /\ (b = true <-> In nr l).
Proof. exact is_physical. Qed.
Print Assumptions C68_is_physical.
Example C68_hyp : forall file, file = square2 \/ file = square4 -> repeated_points_last (content_of file).
Proof. exact square_points. Qed.

(** *** C69 *)
(** The full statement: the result of looking up a name (and a number) is [found]. *)
Theorem C69_name_lookup_partial : forall dw f file r name codim, read dw f file = Ok r -> name <> ""%string -> ~ missed (named (names_of file) name) codim ->
  PhysicalEntityName2Nr r name codim = found nr_of (named (names_of file) name) codim.
Proof. exact name_lookup. Qed.
Print Assumptions C69_name_lookup_partial.
Theorem C69_number_lookup_partial : forall dw f file r nr codim, read dw f file = Ok r -> ~ missed (numbered (names_of file) nr) codim ->
  PhysicalEntityNr2Name r nr codim = found name_of (numbered (names_of file) nr) codim.
Proof. exact nr_lookup. Qed.
Print Assumptions C69_number_lookup_partial.
(** What is missing is false: the number of an entity with another name is returned, or memory past the end of the map is read. *)
Theorem C69_lookup_refuted : exists file r, valid_content 3 (content_of file) /\ consistent_content (content_of file) /\ edges_on_cells (content_of file) /\ valid_file file /\
  read 3 (new_factory true) file = Ok r /\
  (forall e, In e (names_of file) -> nr_of e = 7%Z -> name_of e = "b"%string) /\ found nr_of (named (names_of file) "a") 0 = Throw /\ PhysicalEntityName2Nr r "a" 0 = Ok 7%Z.
Proof. exact names_wrong. Qed.
Print Assumptions C69_lookup_refuted.
Theorem C69_lookup_undefined_refuted : exists file r, valid_content 3 (content_of file) /\ consistent_content (content_of file) /\ edges_on_cells (content_of file) /\ valid_file file /\
  read 3 (new_factory true) file = Ok r /\ found nr_of (named (names_of file) "a") 0 = Throw /\ PhysicalEntityName2Nr r "a" 0 = Assert.
Proof. exact names_undefined. Qed.
Print Assumptions C69_lookup_undefined_refuted.
(** The two functions are inverse to each other. *)
Theorem C69_inverse : forall dw f file r e, read dw f file = Ok r -> In e (names_of file) -> name_of e <> ""%string -> (fst (fst e) <= 2)%nat ->
  (forall x, In x (names_of file) -> codim_of x = codim_of e -> name_of x = name_of e \/ nr_of x = nr_of e -> x = e) ->
  PhysicalEntityName2Nr r (name_of e) (codim_of e) = Ok (nr_of e) /\ PhysicalEntityNr2Name r (nr_of e) (codim_of e) = Ok (name_of e).
Proof. exact inverse. Qed.
Print Assumptions C69_inverse.
Theorem C69_entities : forall dw f file r codim, read dw f file = Ok r ->
  Permutation (PhysicalEntities r codim) (map (fun e => (nr_of e, name_of e)) (filter (fun e => codim_of e =? codim)%Z (names_of file))) /\
  StronglySorted (fun a b => fst a <= fst b)%Z (PhysicalEntities r codim).
Proof. exact entities_listed. Qed.
Print Assumptions C69_entities.
Example C69_hyp : In (1%nat, 11%Z, "left"%string) (names_of square2) /\
  forall x, In x (names_of square2) -> codim_of x = codim_of (1%nat, 11%Z, "left"%string) -> name_of x = "left"%string \/ nr_of x = 11%Z -> x = (1%nat, 11%Z, "left"%string).
Proof. exact square_name. Qed.
