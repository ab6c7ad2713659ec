(** Properties C79-C81: the text of MSH files. *)
From Coq Require Import Reals String Ascii List Arith NArith ZArith Bool.
Import ListNotations.
From Verif Require Import Base MeshModel GeoModel GmshModel GmshSpec MshModel MshSpec MshReadModel MshReadSpec MshProofs9 MshProofs10 MshProofs11.
Local Open Scope list_scope.
Local Open Scope nat_scope.

(** *** C79 *)
(** Whatever is written in one of the four formats is read back. *)
Theorem C79_read : forall f s, contents written f s -> ReadGmshFile s = Ok f.
Proof. exact file_read. Qed.
Print Assumptions C79_read.
(** A text in one of the formats has one meaning. *)
Theorem C79_unique : forall f g s, contents written f s -> contents written g s -> f = g.
Proof. exact written_unique. Qed.
Print Assumptions C79_unique.
(** Non-vacuity: a file in each of the four formats. *)
Example C79_text2 : contents written (Msh2 (Text2 ex2)) ex2_text.
Proof. exact ex2_written. Qed.
Example C79_binary2 : contents written (Msh2 (Binary2 ex3)) ex3_text.
Proof. exact ex3_written. Qed.
Example C79_text4 : contents written (Msh4 (Text4 ex4)) ex4_text.
Proof. exact ex4_written. Qed.
Example C79_binary4 : contents written (Msh4 (Binary4 ex5)) ex5_text.
Proof. exact ex5_written. Qed.
(** Files of version 4.1 may have sections with other names; in binary files they are an error. *)
Theorem C79_foreign_refuted : (exists f, ReadGmshFile (ex5_header ++ ex5_main) = Ok f) /\ ReadGmshFile (ex5_header ++ ex4_note ++ ex5_main) = Throw.
Proof. exact foreign_wrong. Qed.
Print Assumptions C79_foreign_refuted.
(** So is a dollar sign within such a section. *)
Theorem C79_dollar_refuted : (exists f, ReadGmshFile (ex2_header ++ MshProofs10.ex2_nodes ++ ex2_elements ++ ex4_note) = Ok f) /\
  ReadGmshFile (ex2_header ++ MshProofs10.ex2_nodes ++ ex2_elements ++ dollar_note) = Throw.
Proof. exact dollar_wrong. Qed.
Print Assumptions C79_dollar_refuted.

(** *** C80 *)
(** Whatever is accepted has the contents that are returned; only white space between words and redundant information may differ. *)
Theorem C80_sound : forall f s, ReadGmshFile s = Ok f -> contents accepted f s.
Proof. exact file_sound. Qed.
Print Assumptions C80_sound.
(** A file that is cut off before the end of the elements is rejected. *)
Theorem C80_truncated : forall f s, ReadGmshFile s = Ok f -> exists s1 s2, s = s1 ++ str "$EndElements" ++ s2.
Proof. exact read_complete. Qed.
Print Assumptions C80_truncated.
Example C80_hyp : ReadGmshFile ex4_text = Ok (Msh4 (Text4 ex4)).
Proof. exact (file_read _ _ ex4_written). Qed.
(** What is accepted is not always what is written: sections of version 4.1 in another order are dropped without an error. *)
Theorem C80_order_refuted : exists m m', ReadGmshFile (ex4_main ++ ex4_periodic ++ ex4_ghosts) = Ok (Msh4 (Text4 m)) /\ length (m4_periodic m) = 1 /\ length (m4_ghosts m) = 1 /\
  ReadGmshFile (ex4_main ++ ex4_ghosts ++ ex4_periodic) = Ok (Msh4 (Text4 m')) /\ m4_periodic m' = [] /\ length (m4_ghosts m') = 1.
Proof. exact order_wrong. Qed.
Print Assumptions C80_order_refuted.
(** An element of version 2.2 without tags (a triangle with nodes 1, 2, 3) is taken for one with the physical entity 1, the elementary entity 2 and the node 3. *)
Theorem C80_tags_refuted : exists m, ReadGmshFile (ex2_header ++ MshProofs10.ex2_nodes ++ untagged) = Ok (Msh2 (Text2 m)) /\ m2_elements m = [mkElement2 1 2 1 2 [] [3%N]].
Proof. exact tags_wrong. Qed.
Print Assumptions C80_tags_refuted.

(** *** C81 *)
(** From the text to the mesh: the mesh is that of the file. *)
Theorem C81_import : forall check dw s r, GmshReader dw (new_factory check) s = Ok r ->
  exists m g, contents accepted m s /\ same_file m g /\ (NoDup (map fst (co_nodes (content_of g))) -> imported check dw (content_of g) r).
Proof. exact reader_import. Qed.
Print Assumptions C81_import.
Theorem C81_end_to_end : forall check dw m g s, contents written m s -> same_file m g ->
  valid_content dw (content_of g) -> valid_file g -> consistent_content (content_of g) -> (check = true -> edges_on_cells (content_of g)) ->
  exists r, GmshReader dw (new_factory check) s = Ok r /\ imported check dw (content_of g) r.
Proof. exact reader_end_to_end. Qed.
Print Assumptions C81_end_to_end.
Theorem C81_unique : forall m g g', same_file m g -> same_file m g' -> g = g'.
Proof. exact reader_unique. Qed.
Print Assumptions C81_unique.
(** Non-vacuity: a triangle with curved sides. *)
Example C81_written : contents written (Msh2 (Text2 ex2)) ex2_text.
Proof. exact ex2_written. Qed.
Example C81_same : same_file (Msh2 (Text2 ex2)) mesh2.
Proof. exact ex2_same. Qed.
Example C81_valid : valid_content 3 (content_of mesh2) /\ valid_file mesh2 /\ consistent_content (content_of mesh2) /\ edges_on_cells (content_of mesh2).
Proof. exact ex2_valid. Qed.
Example C81_read : exists r, GmshReader 3 (new_factory true) ex2_text = Ok r /\ num_entities 0 (rd_mesh r) = 1 /\ num_entities 1 (rd_mesh r) = 3 /\ num_entities 2 (rd_mesh r) = 3 /\
  PhysicalEntityNr r 0 0 = Ok [7%Z] /\ PhysicalEntityNr r 1 0 = Ok [3%Z] /\ PhysicalEntityName2Nr r "disc" 0 = Ok 7%Z.
Proof. exact ex2_read. Qed.
