(** From the text of an MSH file to the mesh; truncated files; files that are not read as one would expect. *)
From Coq Require Import Reals String Ascii List Arith NArith ZArith Bool Lia.
Import ListNotations.
From Verif Require Import Base MeshModel MeshSpec GeoModel GmshModel GmshSpec GmshProofs3 GmshProofs10 GmshProofs11 MshModel MshSpec MshReadModel MshReadSpec MshProofs12 MshProofs MshProofs2 MshProofs9 MshProofs10.
Local Open Scope list_scope.
Local Open Scope nat_scope.

Lemma written_unique : forall f g s, contents written f s -> contents written g s -> f = g.
Proof. intros f g s Hf Hg. assert (E := file_read f s Hf). rewrite (file_read g s Hg) in E. injection E as E. symmetry. exact E. Qed.
Lemma written_accepted : forall f s, contents written f s -> contents accepted f s.
Proof. intros f s H. exact (file_sound f s (file_read f s H)). Qed.

Lemma reader_import : forall check dw s r, GmshReader dw (new_factory check) s = Ok r ->
  exists m g, contents accepted m s /\ same_file m g /\ (NoDup (map fst (co_nodes (content_of g))) -> imported check dw (content_of g) r).
Proof.
  intros check dw s r H. unfold GmshReader in H. destruct (ReadGmshFile s) as [m| |] eqn:Em; try discriminate H. cbn [bind] in H.
  destruct (gmsh m) as [g|] eqn:Eg; [|discriminate H]. exists m, g. split; [exact (file_sound m s Em)|]. split; [apply gmsh_iff; exact Eg|]. intros Hn. exact (read_imported check dw g r H Hn).
Qed.
Lemma reader_written : forall dw f m g s, contents written m s -> gmsh m = Some g -> GmshReader dw f s = GmshModel.read dw f g.
Proof. intros dw f m g s H E. unfold GmshReader. rewrite (file_read m s H). cbn [bind]. rewrite E. reflexivity. Qed.
Lemma reader_end_to_end : forall check dw m g s, contents written m s -> same_file m g ->
  valid_content dw (content_of g) -> valid_file g -> consistent_content (content_of g) -> (check = true -> edges_on_cells (content_of g)) ->
  exists r, GmshReader dw (new_factory check) s = Ok r /\ imported check dw (content_of g) r.
Proof.
  intros check dw m g s H E V F C K. apply gmsh_iff in E. destruct (proj2 (proj1 (read_outcome check dw g V F)) (conj C K)) as [r Hr]. exists r.
  split; [rewrite (reader_written dw _ m g s H E); exact Hr|]. apply read_imported; [exact Hr | exact (vc_unique _ _ V)].
Qed.

Lemma reader_unique : forall m g g', same_file m g -> same_file m g' -> g = g'.
Proof. intros m g g' H H'. apply gmsh_iff in H, H'. rewrite H in H'. injection H' as ->. reflexivity. Qed.

(** Every file that is accepted is complete up to the end of the elements. *)
Lemma between_mid : forall A (o c : chars -> Prop) (f : format A) a s t, (forall u, c u -> exists v, u = v ++ t) -> between o f c a s -> exists v, s = v ++ t.
Proof. intros A o c f a s t H (s1 & s2 & s3 & -> & _ & _ & Hc). destruct (H s3 Hc) as [v ->]. exists (s1 ++ s2 ++ v). rewrite !app_assoc. reflexivity. Qed.
Definition complete (s : chars) : Prop := exists s1 s2, s = s1 ++ str "$EndElements" ++ s2.
Lemma complete_app : forall a s b, complete s -> complete (a ++ s ++ b).
Proof. intros a s b (s1 & s2 & ->). exists (a ++ s1), (s2 ++ b). rewrite !app_assoc. reflexivity. Qed.
Lemma complete_l : forall a s, complete s -> complete (a ++ s).
Proof. intros a s H. assert (Q := complete_app a s [] H). rewrite app_nil_r in Q. exact Q. Qed.
Lemma complete_r : forall s b, complete s -> complete (s ++ b).
Proof. intros s b H. exact (complete_app [] s b H). Qed.
Lemma complete_msh2 : forall D st (nodes : format (list (N * vec3 D))) (elements : format (list element2)) m s,
  (forall l t, elements l t -> complete t) -> msh2f st nodes elements m s -> complete s.
Proof.
  intros D st nodes elements m s He (c & a & b & e & p & w & -> & _ & _ & _ & (s1 & s2 & -> & H & _) & _).
  do 3 apply complete_l. apply complete_r, complete_r. exact (He _ _ H).
Qed.
Lemma complete_msh4 : forall D st fg (x : lexis D) m s, (forall u, x_close x "$EndElements" u -> exists v, u = v ++ str "$EndElements") -> msh4f D st fg x m s -> complete s.
Proof.
  intros D st fg x m s Hx (c & a & b & p & n & e & l & g & -> & _ & _ & _ & _ & _ & (s1 & s2 & -> & H & _) & _).
  do 5 apply complete_l. apply complete_r, complete_r. destruct (between_mid _ _ _ _ _ _ _ Hx H) as [v ->]. exists v, []. rewrite app_nil_r. reflexivity.
Qed.
Lemma accepted_complete : forall f s, contents accepted f s -> complete s.
Proof.
  intros f s H. destruct f as [[m|m]|[m|m]].
  - destruct H as (h & b & -> & _ & H). apply complete_l. apply (complete_msh2 _ _ _ _ _ _) with (2 := H). intros l t (w & e1 & n & e2 & u & -> & _).
    exists (w ++ str "$Elements" ++ e1 ++ n ++ e2 ++ u), []. rewrite app_nil_r, <- !app_assoc. reflexivity.
  - destruct H as (big & h & b & -> & _ & H). apply complete_l. apply (complete_msh2 _ _ _ _ _ _) with (2 := H). intros l t (w & e1 & k & n & e2 & ls & u & e3 & -> & _).
    exists (w ++ str "$Elements" ++ e1 ++ n ++ e2 ++ u ++ e3), []. rewrite app_nil_r, <- !app_assoc. reflexivity.
  - destruct H as (h & b & w & -> & _ & _ & H). apply complete_app. apply (complete_msh4 _ _ _ _ _ _) with (2 := H). intros u (v & -> & _). exists v. reflexivity.
  - destruct H as (big & h & b & w & -> & _ & _ & H). apply complete_app. apply (complete_msh4 _ _ _ _ _ _) with (2 := H). intros u ->. exists newline. reflexivity.
Qed.
Lemma read_complete : forall f s, ReadGmshFile s = Ok f -> exists s1 s2, s = s1 ++ str "$EndElements" ++ s2.
Proof. intros f s H. exact (accepted_complete f s (file_sound f s H)). Qed.

(** *** Files that are not read as one would expect *)
Definition ex4_main : chars := ex4_header ++ ex4_entities ++ ex4_nodes ++ ex4_elements.
Lemma order_wrong : exists m m', ReadGmshFile (ex4_main ++ ex4_periodic ++ ex4_ghosts) = Ok (Msh4 (Text4 m)) /\ length (m4_periodic m) = 1 /\ length (m4_ghosts m) = 1 /\
  ReadGmshFile (ex4_main ++ ex4_ghosts ++ ex4_periodic) = Ok (Msh4 (Text4 m')) /\ m4_periodic m' = [] /\ length (m4_ghosts m') = 1.
Proof. eexists. eexists. split; [vm_compute; reflexivity|]. split; [reflexivity|]. split; [reflexivity|]. split; [vm_compute; reflexivity|]. split; reflexivity. Qed.
Definition ex5_main : chars := ex5_entities ++ ex5_nodes ++ ex5_elements.
Lemma foreign_wrong : (exists f, ReadGmshFile (ex5_header ++ ex5_main) = Ok f) /\ ReadGmshFile (ex5_header ++ ex4_note ++ ex5_main) = Throw.
Proof. split; [eexists; vm_compute; reflexivity | vm_compute; reflexivity]. Qed.
Definition dollar_note : chars := nl "$Comments" ++ nl "costs 5 $" ++ nl "$EndComments".
Lemma dollar_wrong : (exists f, ReadGmshFile (ex2_header ++ ex2_nodes ++ ex2_elements ++ ex4_note) = Ok f) /\
  ReadGmshFile (ex2_header ++ ex2_nodes ++ ex2_elements ++ dollar_note) = Throw.
Proof. split; [eexists; vm_compute; reflexivity | vm_compute; reflexivity]. Qed.
Definition untagged : chars := nlc ++ str "$Elements" ++ nlc ++ str "1" ++ nlc ++ str "1 2 0 1 2 3" ++ nlc ++ str "$EndElements".
Lemma tags_wrong : exists m, ReadGmshFile (ex2_header ++ ex2_nodes ++ untagged) = Ok (Msh2 (Text2 m)) /\ m2_elements m = [mkElement2 1 2 1 2 [] [3%N]].
Proof. eexists. split; [vm_compute; reflexivity | reflexivity]. Qed.

(** *** The curved triangle *)
Definition mesh2 : gmsh_file := match gmsh (Msh2 (Text2 ex2)) with Some g => g | None => V2 (mkFile2 [] [] []) end.
Lemma ex2_gmsh : gmsh (Msh2 (Text2 ex2)) = Some mesh2.
Proof. reflexivity. Qed.
Lemma ex2_same : same_file (Msh2 (Text2 ex2)) mesh2.
Proof. apply gmsh_iff. exact ex2_gmsh. Qed.
Lemma ex2_read : exists r, GmshReader 3 (new_factory true) ex2_text = Ok r /\ num_entities 0 (rd_mesh r) = 1 /\ num_entities 1 (rd_mesh r) = 3 /\ num_entities 2 (rd_mesh r) = 3 /\
  PhysicalEntityNr r 0 0 = Ok [7%Z] /\ PhysicalEntityNr r 1 0 = Ok [3%Z] /\ PhysicalEntityName2Nr r "disc" 0 = Ok 7%Z.
Proof.
  rewrite (reader_written 3 _ _ _ _ ex2_written ex2_gmsh). apply ok_such. vm_compute. repeat split.
Qed.
Lemma ex2_nodes : exists c1 c2 c3 c4 c5 c6, co_nodes (content_of mesh2) = [(1, c1); (2, c2); (3, c3); (4, c4); (5, c5); (6, c6)].
Proof. do 6 eexists. reflexivity. Qed.
Lemma ex2_valid : valid_content 3 (content_of mesh2) /\ valid_file mesh2 /\ consistent_content (content_of mesh2) /\ edges_on_cells (content_of mesh2).
Proof.
  assert (EI : co_items (content_of mesh2) = [mkItem EDGE3 [1; 2; 4] [[3%Z]]; mkItem TRIA6 [1; 2; 3; 4; 5; 6] [[7%Z]]]) by reflexivity.
  assert (E1 : items_of 1 (content_of mesh2) = [mkItem EDGE3 [1; 2; 4] [[3%Z]]]) by reflexivity.
  assert (E2 : items_of 2 (content_of mesh2) = [mkItem TRIA6 [1; 2; 3; 4; 5; 6] [[7%Z]]]) by reflexivity.
  assert (EM : forall n, In n [1; 2; 3] -> co_main (content_of mesh2) n = true) by (intros n [<-|[<-|[<-|[]]]]; reflexivity).
  destruct ex2_nodes as (c1 & c2 & c3 & c4 & c5 & c6 & EN).
  split; [|split; [exact I | split]].
  - constructor.
    + right. reflexivity.
    + rewrite EN. cbn [map fst]. repeat constructor; cbn; intuition lia.
    + discriminate.
    + rewrite EI. intros i [<-|[<-|[]]]; right; discriminate.
    + rewrite EI, EN. intros i [<-|[<-|[]]]; (split; [reflexivity|]); cbn [map fst it_nodes]; intros n Hn; cbn in Hn |- *; intuition lia.
    + rewrite EI. intros i n [<-|[<-|[]]] Hn; apply EM; cbn in Hn |- *; intuition lia.
    + rewrite E2. discriminate.
    + rewrite EI. intros i k cs [<-|[<-|[]]] Ek HF; injection Ek as <-; apply GmshProofs3.F2_length in HF; eexists; apply second_order; auto.
  - split; [|split]; rewrite ?E1, ?E2.
    + intros i [<-|[]]. discriminate.
    + intros k l i i' Hk Hl _. destruct k as [|[|k]], l as [|[|l]]; try discriminate; reflexivity.
    + intros i j [<-|[]] Hj. cbn in Hj. destruct j as [|[|[|j]]]; [discriminate | discriminate | discriminate | lia].
  - intros i Hi. rewrite E1 in Hi. rewrite E2. destruct Hi as [<-|[]]. eexists. exists 0. split; [left; reflexivity|]. split; [cbn; lia|]. left. split; reflexivity.
Qed.
