(** Proofs for C67-C69: examples and counterexamples. *)
From Coq Require Import Reals String List Arith Bool ZArith Lia.
Import ListNotations.
From Verif Require Import Base MeshModel MeshSpec GeoModel GmshModel GmshSpec GmshProofs GmshProofs2 GmshProofs3 GmshProofs4 GmshProofs5 GmshProofs6 GmshProofs7 GmshProofs8 GmshProofs9 GmshProofs10.
Local Open Scope list_scope.

Theorem read_imported : forall check dw file r, read dw (new_factory check) file = Ok r -> NoDup (map fst (co_nodes (content_of file))) -> imported check dw (content_of file) r.
Proof.
  intros check dw [file|file] r H ND; cbn [read content_of] in *.
  - destruct (finished2 check dw file r H ND) as (co & ix & gs & tg & tags & F). exact (finished_imported _ _ _ _ _ _ _ _ _ F).
  - destruct (finished4 check dw file r H ND) as (co & ix & gs & tg & tags & F). exact (finished_imported _ _ _ _ _ _ _ _ _ F).
Qed.
Theorem read_points : forall check dw file r, read dw (new_factory check) file = Ok r -> NoDup (map fst (co_nodes (content_of file))) -> repeated_points_last (content_of file) ->
  forall v n c, nth_error (main_nodes (content_of file)) v = Some (n, c) -> PhysicalEntityNr r 2 v = Ok (point_tags (content_of file) n).
Proof.
  intros check dw [file|file] r H ND; cbn [read content_of] in *.
  - destruct (finished2 check dw file r H ND) as (co & ix & gs & tg & tags & F). exact (finished_points _ _ _ _ _ _ _ _ _ F).
  - destruct (finished4 check dw file r H ND) as (co & ix & gs & tg & tags & F). exact (finished_points _ _ _ _ _ _ _ _ _ F).
Qed.
Theorem read_outcome : forall check dw file, valid_content dw (content_of file) -> valid_file file ->
  ((exists r, read dw (new_factory check) file = Ok r) <-> consistent_content (content_of file) /\ (check = true -> edges_on_cells (content_of file))) /\
  (read dw (new_factory check) file = Throw <-> consistent_content (content_of file) /\ check = true /\ ~ edges_on_cells (content_of file)).
Proof.
  intros check dw [file|file] V VF; cbn [read content_of valid_file] in *; [apply (outcome2 dw check file V)|apply (outcome4 dw check file V VF)].
Qed.

(** *** A square made of two curved triangles *)
Definition pt (x y : Z) : vec := fun k => match k with 0%nat => IZR x | 1%nat => IZR y | _ => 0%R end.
Definition square_nodes : list (nat * vec) :=
  [(1, pt 0 0); (2, pt 2 0); (3, pt 2 2); (4, pt 0 2); (5, pt 1 0); (6, pt 2 1); (7, pt 1 1); (8, pt 1 2); (9, pt 0 1)]%nat.
Definition square_elements : list element :=
  [mkElem POINT 21 [1%nat]; mkElem EDGE3 11 [1; 2; 5]%nat; mkElem EDGE3 12 [1; 2; 5]%nat; mkElem TRIA6 31 [1; 2; 3; 5; 6; 7]%nat; mkElem TRIA6 32 [1; 3; 4; 7; 8; 9]%nat].
Definition square_names : list entry := [(1, 11%Z, "left"); (0, 21%Z, "left"); (2, 31%Z, "lower")]%nat%string.
Definition square2 : gmsh_file := V2 (mkFile2 square_names square_nodes square_elements).
(** The same mesh in version 4: the edge belongs to a curve with two physical numbers. *)
Definition square4 : gmsh_file := V4 (mkFile4 square_names
  (fun d => match d with 0%nat => [(1%Z, [21%Z])] | 1%nat => [(4%Z, [11; 12]%Z)] | 2%nat => [(1%Z, [31%Z]); (2%Z, [32%Z])] | _ => [] end) 0 (fun _ => []) 1 9
  [firstn 4 square_nodes; skipn 4 square_nodes]
  [mkBlock 0 1 POINT [[1%nat]]; mkBlock 1 4 EDGE3 [[1; 2; 5]%nat]; mkBlock 2 1 TRIA6 [[1; 2; 3; 5; 6; 7]%nat]; mkBlock 2 2 TRIA6 [[1; 3; 4; 7; 8; 9]%nat]]).

Lemma second_order : forall k d cs, (k = GSegmentO2 \/ k = GTriaO2 \/ k = GQuadO2) -> length cs = num_cols k -> new_geo k d cs = Ok (mkGeo k d cs).
Proof. intros k d cs H L. unfold new_geo. rewrite L, Nat.eqb_refl. destruct H as [->|[->| ->]]; reflexivity. Qed.
Ltac each H := repeat (destruct H as [<-|H]; [|]); try (destruct H; fail).
Lemma square_nodup : NoDup (map fst square_nodes).
Proof. cbn. repeat constructor; cbn; intuition lia. Qed.
Lemma square_valid : forall file, co_nodes (content_of file) = square_nodes ->
  (forall n, co_main (content_of file) n = true <-> In n [1; 2; 3; 4]%nat) ->
  map (fun i => (it_type i, it_nodes i)) (co_items (content_of file)) =
    [(POINT, [1]); (EDGE3, [1; 2; 5]); (TRIA6, [1; 2; 3; 5; 6; 7]); (TRIA6, [1; 3; 4; 7; 8; 9])]%nat ->
  valid_content 3 (content_of file) /\ consistent_content (content_of file) /\ edges_on_cells (content_of file).
Proof.
  intros file EN EM EI. remember (content_of file) as C eqn:EC. clear EC file.
  assert (IN : forall i, In i (co_items C) -> In (it_type i, it_nodes i) [(POINT, [1]); (EDGE3, [1; 2; 5]); (TRIA6, [1; 2; 3; 5; 6; 7]); (TRIA6, [1; 3; 4; 7; 8; 9])]%nat).
  { intros i Hi. rewrite <- EI. apply in_map_iff. exists i. auto. }
  destruct (co_items C) as [|i0 [|i1 [|i2 [|i3 [|? ?]]]]] eqn:EL; try discriminate EI. injection EI as T0 N0 T1 N1 T2 N2 T3 N3.
  assert (I1 : items_of 1 C = [i1]) by (unfold items_of; rewrite EL; cbn [filter]; rewrite T0, T1, T2, T3; reflexivity).
  assert (I2 : items_of 2 C = [i2; i3]) by (unfold items_of; rewrite EL; cbn [filter]; rewrite T0, T1, T2, T3; reflexivity).
  split; [constructor|split].
  - right. reflexivity.
  - rewrite EN. apply square_nodup.
  - discriminate.
  - intros i Hi. rewrite EL in Hi. specialize (IN i Hi). destruct IN as [E|[E|[E|[E|[]]]]]; injection E as <- _; [left; reflexivity|right; discriminate..].
  - intros i Hi. rewrite EL in Hi. specialize (IN i Hi). rewrite EN. destruct IN as [E|[E|[E|[E|[]]]]]; injection E as <- <-; (split; [reflexivity|]); intros n Hn; cbn [In] in Hn; cbn; intuition lia.
  - intros i n Hi Hn. rewrite EL in Hi. specialize (IN i Hi). apply EM. destruct IN as [E|[E|[E|[E|[]]]]]; injection E as ET EN'; rewrite <- ET, <- EN' in Hn; cbn in Hn; cbn; intuition lia.
  - rewrite I2. discriminate.
  - intros i k cs Hi Hk Hc. rewrite EL in Hi. specialize (IN i Hi). apply F2_length in Hc. destruct IN as [E|[E|[E|[E|[]]]]]; injection E as ET EN'; rewrite <- ET in Hk; try discriminate Hk; injection Hk as <-; rewrite <- EN' in Hc;
      eexists; apply second_order; auto.
  - split; [|split].
    + intros i Hi. rewrite I1 in Hi. destruct Hi as [<-|[]]. unfold edge_ends. rewrite N1. cbn. lia.
    + intros k l i i' Hk Hl _. rewrite I1 in *. destruct k as [|[|k]], l as [|[|l]]; try discriminate; reflexivity.
    + intros i j Hi Hj. rewrite I2 in Hi. destruct Hi as [<-|[<-|[]]]; [rewrite T2, N2 in *|rewrite T3, N3 in *]; cbn in Hj; destruct j as [|[|[|j]]]; try lia; cbn; lia.
  - intros i Hi. rewrite I1 in Hi. destruct Hi as [<-|[]]. exists i2, 0%nat. rewrite I2. split; [left; reflexivity|]. rewrite T2, N2. unfold edge_ends. rewrite N1. split; [cbn; lia|]. left. cbn. auto.
Qed.
Lemma main_1234 : forall f : nat -> bool, (forall n, f n = existsb (Nat.eqb n) [1; 2; 3; 4]%nat) -> forall n, f n = true <-> In n [1; 2; 3; 4]%nat.
Proof. intros f H n. rewrite H, existsb_exists. split; [intros (x & Hx & E); apply Nat.eqb_eq in E; subst; auto|intros Hn; exists n; rewrite Nat.eqb_refl; auto]. Qed.
Lemma square2_valid : valid_content 3 (content_of square2) /\ consistent_content (content_of square2) /\ edges_on_cells (content_of square2) /\ valid_file square2.
Proof.
  assert (Q := square_valid square2 eq_refl). destruct Q as (A & B & D).
  - apply main_1234. intros n. cbn. rewrite !orb_false_r. repeat match goal with |- context [(n =? ?k)%nat] => destruct (n =? k)%nat end; reflexivity.
  - reflexivity.
  - split; [exact A|]. split; [exact B|]. split; [exact D|exact I].
Qed.
Lemma square4_valid : valid_content 3 (content_of square4) /\ consistent_content (content_of square4) /\ edges_on_cells (content_of square4) /\ valid_file square4.
Proof.
  assert (Q := square_valid square4 eq_refl). destruct Q as (A & B & D).
  - apply main_1234. intros n. cbn. rewrite !orb_false_r. repeat match goal with |- context [(n =? ?k)%nat] => destruct (n =? k)%nat end; reflexivity.
  - reflexivity.
  - split; [exact A|]. split; [exact B|]. split; [exact D|]. constructor; cbn.
    + intros n Hn. repeat (destruct Hn as [<-|Hn]; [lia|]). destruct Hn.
    + intros b Hb. repeat (destruct Hb as [<-|Hb]; [cbn; lia|]). destruct Hb.
    + intros d e Hd He. destruct d as [|[|[|d]]]; cbn in He; repeat (destruct He as [<-|He]; [cbn; lia|]); destruct He.
    + intros b Hb. unfold listed. cbn [f4_num_partitions Nat.eqb f4_entities]. repeat (destruct Hb as [<-|Hb]; [cbn; split; [lia|right; eexists; split; [auto|cbn; lia]]|]). destruct Hb.
Qed.
Lemma ok_such : forall {A} (x : res A) (P : A -> Prop), match x with Ok r => P r | _ => False end -> exists r, x = Ok r /\ P r.
Proof. intros A [r| |] P H; [exists r; auto|destruct H|destruct H]. Qed.
(** What is read from these two files. *)
Lemma square_read : forall file, file = square2 \/ file = square4 -> exists r, read 3 (new_factory true) file = Ok r /\
  num_entities 0 (rd_mesh r) = 2%nat /\ num_entities 1 (rd_mesh r) = 5%nat /\ num_entities 2 (rd_mesh r) = 4%nat /\
  PhysicalEntityNr r 1 0 = Ok [11; 12]%Z /\ PhysicalEntityNr r 0 1 = Ok [32%Z] /\ PhysicalEntityNr r 2 0 = Ok [21%Z] /\ PhysicalEntityNr r 2 3 = Ok [] /\
  PhysicalEntityName2Nr r "left" 2 = Ok 21%Z /\ PhysicalEntityName2Nr r "left" no_codim = Throw /\ PhysicalEntityNr2Name r 31 no_codim = Ok "lower"%string.
Proof.
  intros file H. apply ok_such. destruct H as [->| ->]; vm_compute; repeat split.
Qed.
Lemma square_points : forall file, file = square2 \/ file = square4 -> repeated_points_last (content_of file).
Proof.
  intros file H l1 i l2 E L. assert (EI : exists i0, items_of 0 (content_of file) = [i0] /\ length (it_tags i0) = 1%nat) by (destruct H as [->| ->]; eexists; split; reflexivity).
  destruct EI as (i0 & EI & EL). rewrite EI in E. destruct l1 as [|? [|? ?]]; try discriminate E. injection E as <- _. lia.
Qed.

(** *** Counterexamples *)
Definition tria_nodes : list (nat * vec) := [(1, pt 0 0); (2, pt 2 0); (3, pt 0 2); (4, pt 1 0); (5, pt 1 1); (6, pt 0 1)]%nat.
Definition tria_with (names : list entry) (es : list element) : gmsh_file := V2 (mkFile2 names tria_nodes es).
Definition tria : element := mkElem TRIA6 31 [1; 2; 3; 4; 5; 6]%nat.
Lemma tria_valid : forall names es, let C := content_of (tria_with names es) in
  (forall n, co_main C n = true <-> In n [1; 2; 3]%nat) ->
  (forall i, In i (co_items C) -> it_type i = TRIA6 /\ it_nodes i = [1; 2; 3; 4; 5; 6]%nat \/ it_type i = POINT /\ (it_nodes i = [1%nat] \/ it_nodes i = [3%nat])) ->
  items_of 1 C = [] -> items_of 2 C <> [] ->
  valid_content 3 C /\ consistent_content C /\ edges_on_cells C.
Proof.
  intros names es C EM IN I1 I2. split; [constructor|split].
  - right. reflexivity.
  - cbn. repeat constructor; cbn; intuition lia.
  - discriminate.
  - intros i Hi. destruct (IN i Hi) as [(T & _)|(T & _)]; rewrite T; [right; discriminate|left; reflexivity].
  - intros i Hi. destruct (IN i Hi) as [(T & N)|(T & [N|N])]; rewrite T, N; (split; [reflexivity|]); intros n Hn; cbn [In] in Hn; cbn; intuition lia.
  - intros i n Hi Hn. apply EM. destruct (IN i Hi) as [(T & N)|(T & [N|N])]; rewrite T, N in Hn; cbn in Hn; cbn; intuition lia.
  - exact I2.
  - intros i k cs Hi Hk Hc. apply F2_length in Hc. destruct (IN i Hi) as [(T & N)|(T & [N|N])]; rewrite T in Hk; try discriminate Hk; injection Hk as <-; rewrite N in Hc. eexists; apply second_order; auto.
  - split; [|split].
    + rewrite I1. intros i [].
    + rewrite I1. intros [|k] l i i' Hk; discriminate Hk.
    + intros i j Hi Hj. apply filter_In in Hi. destruct Hi as (Hi & D). destruct (IN i Hi) as [(T & N)|(T & [N|N])]; rewrite T in D; try discriminate D. rewrite T, N in *. cbn in Hj. destruct j as [|[|[|j]]]; try lia; cbn; lia.
  - intros i. rewrite I1. intros [].
Qed.
Ltac main3 := intros n; cbn; rewrite ?orb_false_r; repeat match goal with |- context [(n =? ?k)%nat] => destruct (Nat.eqb_spec n k) end; cbn; intuition (subst; auto; lia).

(** A point that is listed twice, after another point with a larger number. *)
Definition points_file : gmsh_file := tria_with [] [mkElem POINT 5 [3%nat]; mkElem POINT 7 [1%nat]; mkElem POINT 8 [1%nat]; tria].
Lemma points_valid : valid_content 3 (content_of points_file) /\ consistent_content (content_of points_file) /\ edges_on_cells (content_of points_file).
Proof.
  apply tria_valid.
  - main3.
  - cbn. intros i Hi. repeat (destruct Hi as [<-|Hi]; [cbn; auto|]). destruct Hi.
  - reflexivity.
  - discriminate.
Qed.
Lemma points_wrong : exists file r, valid_content 3 (content_of file) /\ consistent_content (content_of file) /\ edges_on_cells (content_of file) /\ valid_file file /\
  read 3 (new_factory true) file = Ok r /\
  exists c1 c3, nth_error (main_nodes (content_of file)) 0 = Some (1%nat, c1) /\ nth_error (main_nodes (content_of file)) 2 = Some (3%nat, c3) /\
    point_tags (content_of file) 1 = [7; 8]%Z /\ PhysicalEntityNr r 2 0 = Ok [7%Z] /\
    point_tags (content_of file) 3 = [5%Z] /\ PhysicalEntityNr r 2 2 = Ok [5; 8]%Z.
Proof.
  exists points_file. assert (Q : exists r, read 3 (new_factory true) points_file = Ok r /\ PhysicalEntityNr r 2 0 = Ok [7%Z] /\ PhysicalEntityNr r 2 2 = Ok [5; 8]%Z) by (apply ok_such; vm_compute; auto).
  destruct Q as (r & Hr & A & B). exists r. destruct points_valid as (V1 & V2 & V3). split; [exact V1|]. split; [exact V2|]. split; [exact V3|]. split; [exact I|]. split; [exact Hr|].
  exists (pt 0 0), (pt 0 2). repeat split; assumption.
Qed.
(** A cell that is listed twice: the numbers are in the order of the file. *)
Definition twice_file : gmsh_file := tria_with [] [mkElem TRIA6 9 [1; 2; 3; 4; 5; 6]%nat; mkElem TRIA6 2 [1; 2; 3; 4; 5; 6]%nat].
Lemma sorted_wrong : exists file r, valid_content 3 (content_of file) /\ consistent_content (content_of file) /\ edges_on_cells (content_of file) /\ valid_file file /\
  read 3 (new_factory true) file = Ok r /\ PhysicalEntityNr r 0 0 = Ok [9; 2]%Z.
Proof.
  exists twice_file. assert (Q : exists r, read 3 (new_factory true) twice_file = Ok r /\ PhysicalEntityNr r 0 0 = Ok [9; 2]%Z) by (apply ok_such; vm_compute; auto).
  destruct Q as (r & Hr & A). exists r. assert (V : valid_content 3 (content_of twice_file) /\ consistent_content (content_of twice_file) /\ edges_on_cells (content_of twice_file)).
  { apply tria_valid.
    - main3.
    - cbn. intros i Hi. repeat (destruct Hi as [<-|Hi]; [cbn; auto|]). destruct Hi.
    - reflexivity.
    - discriminate. }
  destruct V as (V1 & V2 & V3). split; [exact V1|]. split; [exact V2|]. split; [exact V3|]. split; [exact I|]. split; [exact Hr|exact A].
Qed.
(** Two entities with the same name, and the co-dimension of neither. *)
Definition names_file (rest : list entry) : gmsh_file := tria_with ([(1, 5%Z, "a"); (0, 6%Z, "a")]%nat%string ++ rest) [tria].
Lemma names_valid : forall rest, valid_content 3 (content_of (names_file rest)) /\ consistent_content (content_of (names_file rest)) /\ edges_on_cells (content_of (names_file rest)).
Proof.
  intros rest. apply tria_valid.
  - main3.
  - cbn. intros i Hi. repeat (destruct Hi as [<-|Hi]; [cbn; auto|]). destruct Hi.
  - reflexivity.
  - discriminate.
Qed.
Lemma names_wrong : exists file r, valid_content 3 (content_of file) /\ consistent_content (content_of file) /\ edges_on_cells (content_of file) /\ valid_file file /\
  read 3 (new_factory true) file = Ok r /\
  (forall e, In e (names_of file) -> nr_of e = 7%Z -> name_of e = "b"%string) /\ found nr_of (named (names_of file) "a") 0 = Throw /\ PhysicalEntityName2Nr r "a" 0 = Ok 7%Z.
Proof.
  exists (names_file [(2, 7%Z, "b")]%nat%string). match goal with |- context [names_file ?l] => assert (Q : exists r, read 3 (new_factory true) (names_file l) = Ok r /\ PhysicalEntityName2Nr r "a" 0 = Ok 7%Z) by (apply ok_such; vm_compute; auto); destruct (names_valid l) as (V1 & V2 & V3) end.
  destruct Q as (r & Hr & A). exists r. split; [exact V1|]. split; [exact V2|]. split; [exact V3|]. split; [exact I|]. split; [exact Hr|]. split; [|split; [reflexivity|exact A]].
  cbn [names_of names_file tria_with f2_names app]. intros e [<-|[<-|[<-|[]]]] E; try reflexivity; vm_compute in E; discriminate E.
Qed.
Lemma names_undefined : exists file r, valid_content 3 (content_of file) /\ consistent_content (content_of file) /\ edges_on_cells (content_of file) /\ valid_file file /\
  read 3 (new_factory true) file = Ok r /\ found nr_of (named (names_of file) "a") 0 = Throw /\ PhysicalEntityName2Nr r "a" 0 = Assert.
Proof.
  exists (names_file []). match goal with |- context [names_file ?l] => assert (Q : exists r, read 3 (new_factory true) (names_file l) = Ok r /\ PhysicalEntityName2Nr r "a" 0 = Assert) by (apply ok_such; vm_compute; auto); destruct (names_valid l) as (V1 & V2 & V3) end.
  destruct Q as (r & Hr & A). exists r. split; [exact V1|]. split; [exact V2|]. split; [exact V3|]. split; [exact I|]. split; [exact Hr|]. split; [reflexivity|exact A].
Qed.
(** An edge away from the cells: its ends are nodes of the mesh (version 2), or it cannot be read (version 4). *)
Definition loose_nodes : list (nat * vec) := tria_nodes ++ [(7, pt 5 5); (8, pt 7 5); (9, pt 6 5)]%nat.
Definition loose2f : file2 := mkFile2 [] loose_nodes [mkElem EDGE3 11 [7; 8; 9]%nat; tria].
Definition loose2 : gmsh_file := V2 loose2f.
Definition loose4f : file4 := mkFile4 [] (fun d => match d with 1%nat => [(1%Z, [11%Z])] | 2%nat => [(1%Z, [31%Z])] | _ => [] end) 0 (fun _ => []) 1 9
  [loose_nodes] [mkBlock 1 1 EDGE3 [[7; 8; 9]%nat]; mkBlock 2 1 TRIA6 [[1; 2; 3; 4; 5; 6]%nat]].
Lemma loose_wrong : exists file r n, NoDup (map fst (co_nodes (content_of file))) /\ read 3 (new_factory false) file = Ok r /\
  In n (map fst (main_nodes (content_of file))) /\ (forall i, In i (items_of 2 (content_of file)) -> ~ In n (it_nodes i)) /\ num_entities 2 (rd_mesh r) = 5%nat.
Proof.
  exists loose2. assert (Q : exists r, read 3 (new_factory false) loose2 = Ok r /\ num_entities 2 (rd_mesh r) = 5%nat) by (apply ok_such; vm_compute; auto).
  destruct Q as (r & Hr & A). exists r, 7%nat. split; [cbn; repeat constructor; cbn; intuition lia|]. split; [exact Hr|]. split; [cbn; auto|]. split; [|exact A].
  cbn. intros i [<-|[]]. cbn. intuition lia.
Qed.
Lemma loose_undefined : exists f2 f4, co_nodes (content_of (V4 f4)) = co_nodes (content_of (V2 f2)) /\ map it_nodes (co_items (content_of (V4 f4))) = map it_nodes (co_items (content_of (V2 f2))) /\
  (exists r, read 3 (new_factory false) (V2 f2) = Ok r) /\ read 3 (new_factory false) (V4 f4) = Assert.
Proof.
  exists loose2f, loose4f. split; [reflexivity|]. split; [reflexivity|]. split; [|vm_compute; reflexivity].
  destruct (ok_such (read 3 (new_factory false) loose2) (fun _ => True)) as (r & Hr & _); [vm_compute; exact I|exists r; exact Hr].
Qed.
(** A point element away from the cells cannot be read, depending on the number of its node. *)
Definition lone (n : nat) : gmsh_file := V2 (mkFile2 [] (tria_nodes ++ [(n, pt 5 5)]) [mkElem POINT 21 [n]; tria]).
Lemma lone_wrong : (exists r, read 3 (new_factory true) (lone 0) = Ok r) /\ read 3 (new_factory true) (lone 7) = Assert.
Proof.
  split; [|vm_compute; reflexivity]. destruct (ok_such (read 3 (new_factory true) (lone 0)) (fun _ => True)) as (r & Hr & _); [vm_compute; exact I|exists r; exact Hr].
Qed.
Lemma square_name : In (1%nat, 11%Z, "left"%string) (names_of square2) /\
  forall x, In x (names_of square2) -> codim_of x = codim_of (1%nat, 11%Z, "left"%string) -> name_of x = "left"%string \/ nr_of x = 11%Z -> x = (1%nat, 11%Z, "left"%string).
Proof.
  split; [left; reflexivity|]. intros x [<-|[<-|[<-|[]]]] E H; [reflexivity|vm_compute in E; discriminate E|vm_compute in E; discriminate E].
Qed.
