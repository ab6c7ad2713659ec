(** Examples of MSH files, and files that are not read as one would expect. *)
From Coq Require Import String Ascii List Arith NArith ZArith Bool Lia.
Import ListNotations.
From Verif Require Import Base MshModel MshSpec MshProofs MshProofs2.
Local Open Scope list_scope.
Local Open Scope nat_scope.

(** *** Rules to build texts *)
Lemma seqf_i : forall A B (f : format A) (g : format B) a b s t, f a s -> g b t -> seqf f g (a, b) (s ++ t).
Proof. intros A B f g a b s t Hf Hg. exists s, t. split; [reflexivity|]. split; assumption. Qed.
Lemma listf_i0 : forall A (f : format A), listf f [] [].
Proof. intros. exists []. split; [constructor | reflexivity]. Qed.
Lemma listf_i1 : forall A (f : format A) a l s t, f a s -> listf f l t -> listf f (a :: l) (s ++ t).
Proof. intros A f a l s t Ha [ss [Hl ->]]. exists (s :: ss). split; [constructor; assumption | reflexivity]. Qed.
Lemma countedf_i : forall A (size : format N) (f : format A) l s t, size (N.of_nat (length l)) s -> listf f l t -> countedf size f l (s ++ t).
Proof. intros A size f l s t Hs Hl. exists s, t. split; [reflexivity|]. split; assumption. Qed.
Lemma between_i : forall A (o c : chars -> Prop) (f : format A) a s1 s2 s3, o s1 -> f a s2 -> c s3 -> between o f c a (s1 ++ s2 ++ s3).
Proof. intros A o c f a s1 s2 s3 Ho Hf Hc. exists s1, s2, s3. split; [reflexivity|]. split; [|split]; assumption. Qed.
Definition wh (c : ascii) : Prop := is_space c = true.
Lemma gap1 : forall c, wh c -> gap [c].
Proof. intros c H. split; [constructor; [exact (proj1 (is_space_white c) H) | constructor] | discriminate]. Qed.
Lemma int_i : forall c t z, wh c -> int_ false t = Success z [] -> after gap integer z (c :: t).
Proof. intros c t z Hc H. exists [c], t. split; [reflexivity|]. split; [exact (gap1 c Hc)|]. destruct (int_sound _ _ _ H) as [v [E Hv]]. rewrite app_nil_r in E. subst t. exact Hv. Qed.
Lemma nat_0 : forall b t n, uint false b t = Success n [] -> natural b n t.
Proof. intros b t z H. destruct (uint_sound b _ _ _ H) as [v [E Hv]]. rewrite app_nil_r in E. subst t. exact Hv. Qed.
Lemma int_0 : forall t n, int_ false t = Success n [] -> integer n t.
Proof. intros t z H. destruct (int_sound _ _ _ H) as [v [E Hv]]. rewrite app_nil_r in E. subst t. exact Hv. Qed.
Lemma real_0 : forall t n, double_ false t = Success n [] -> real n t.
Proof. intros t z H. destruct (real_sound _ _ _ H) as [v [E Hv]]. rewrite app_nil_r in E. subst t. exact Hv. Qed.
Lemma nat_i : forall b c t n, wh c -> uint false b t = Success n [] -> after gap (natural b) n (c :: t).
Proof. intros b c t z Hc H. exists [c], t. split; [reflexivity|]. split; [exact (gap1 c Hc)|]. exact (nat_0 _ _ _ H). Qed.
Lemma real_i : forall c t n, wh c -> double_ false t = Success n [] -> after gap real n (c :: t).
Proof. intros c t z Hc H. exists [c], t. split; [reflexivity|]. split; [exact (gap1 c Hc)|]. exact (real_0 _ _ H). Qed.
Lemma key_i : forall c t, wh c -> afterk gap t (c :: t).
Proof. intros c t H. exists [c]. split; [reflexivity | exact (gap1 c H)]. Qed.
Lemma key_b : forall c t, wh c -> afterk blank t (c :: t).
Proof. intros c t H. exists [c]. split; [reflexivity | exact (proj1 (gap1 c H))]. Qed.
Lemma quoted_i : forall c t s, wh c -> t <> [] -> forallb (fun x => negb (Ascii.eqb x """")) t = true -> s = str """" ++ t ++ str """" -> quoted written t (c :: s).
Proof.
  intros c t s Hc Hn Hq ->. exists [c], (str """" ++ t ++ str """"). split; [reflexivity|]. split; [exact (gap1 c Hc)|]. split; [exact Hn|]. split; [|reflexivity].
  intros Hin. rewrite forallb_forall in Hq. specialize (Hq _ Hin). discriminate Hq.
Qed.
Lemma section_i : forall A (fg : chars -> Prop) (f : format A) a s, f a s -> fg [] -> sectionf fg f a (s ++ []).
Proof. intros A fg f a s H Hg. exists s, []. split; [reflexivity|]. split; assumption. Qed.
Lemma section_f : forall A (fg : chars -> Prop) (f : format A) a s t, f a s -> fg t -> sectionf fg f a (s ++ t).
Proof. intros A fg f a s t H Hg. exists s, t. split; [reflexivity|]. split; assumption. Qed.
Lemma foreigns_0 : forall n, foreigns n [].
Proof. intros n. exists []. split; [constructor | reflexivity]. Qed.
(** A foreign section given by its name and its body. *)
Definition ok_name (names : list string) (name : chars) : bool :=
  forallb (fun n => match prefix (str n) (str "$" ++ name) with Some _ => false | None => true end) names &&
  match name with c :: _ => negb (is_space c) | [] => false end && forallb (fun c => negb (Ascii.eqb c "010") && negb (Ascii.eqb c "013")) name.
Definition ok_body (body : chars) : bool :=
  match body with c :: _ => Ascii.eqb c "010" || Ascii.eqb c "013" | [] => false end && forallb (fun c => negb (Ascii.eqb c "$")) body.
Lemma foreign_i : forall names c name body, wh c -> ok_name names name = true -> ok_body body = true ->
  foreigns names ((c :: str "$" ++ name ++ body ++ str "$End" ++ name) ++ []).
Proof.
  intros names c name body Hc Hn Hb. exists [c :: str "$" ++ name ++ body ++ str "$End" ++ name]. split; [|reflexivity]. constructor; [|constructor].
  unfold ok_name in Hn. apply andb_prop in Hn. destruct Hn as [Hn Hn3]. apply andb_prop in Hn. destruct Hn as [Hn1 Hn2].
  unfold ok_body in Hb. apply andb_prop in Hb. destruct Hb as [Hb1 Hb2]. rewrite forallb_forall in Hn1, Hn3, Hb2.
  exists [c], name, body, []. split; [reflexivity|]. split; [exact (proj1 (gap1 c Hc))|]. split; [constructor|]. split.
  { intros [n [u [Hin Eu]]]. specialize (Hn1 n Hin). rewrite Eu, prefix_app in Hn1. discriminate Hn1. }
  split.
  { destruct name as [|d t]; [discriminate|]. exists d, t. split; [reflexivity|]. apply not_space_white. destruct (is_space d); [discriminate Hn2 | reflexivity]. }
  split. { intros Hin. specialize (Hn3 _ Hin). discriminate Hn3. }
  split. { intros Hin. specialize (Hn3 _ Hin). discriminate Hn3. }
  split.
  { destruct body as [|d t]; [discriminate|]. exists d, t. split; [reflexivity|]. apply orb_prop in Hb1. destruct Hb1 as [E|E]; apply Ascii.eqb_eq in E; [left | right]; exact E. }
  intros Hin. specialize (Hb2 _ Hin). discriminate Hb2.
Qed.

Ltac leaf := first
  [ apply int_i; [reflexivity | vm_compute; reflexivity]
  | apply nat_i; [reflexivity | vm_compute; reflexivity]
  | apply real_i; [reflexivity | vm_compute; reflexivity]
  | apply key_i; reflexivity | apply key_b; reflexivity
  | apply quoted_i; [reflexivity | discriminate | reflexivity | reflexivity]
  | apply foreigns_0 ].
Ltac build := first
  [ apply listf_i0 | apply countedf_i; [leaf | build] | apply seqf_i; build | apply between_i; build | apply listf_i1; build | leaf ].

(** *** A file of version 4.1: a triangle, text *)
Local Notation k := str.
Definition nl (s : string) : chars := "010"%char :: str s.
Definition ex4 : msh4 decimal := mkMsh4 [(2%Z, 7%Z, str "the disc")]
  ([(1%Z, ((0, 0)%Z, (0, 0)%Z, (0, 0)%Z), [])], [], [(3%Z, ((0, 0)%Z, (0, 0)%Z, (0, 0)%Z), ((1, 0)%Z, (1, 0)%Z, (0, 0)%Z), [7%Z], [])], [])
  no_partitions
  (3%N, 1%N, 3%N, [(2%Z, 3%Z, false, [(1%N, ((0, 0)%Z, (0, 0)%Z, (0, 0)%Z)); (2%N, ((1, 0)%Z, (0, 0)%Z, (0, 0)%Z)); (3%N, ((25, -2)%Z, (1, 0)%Z, (-15, -4)%Z))])])
  (1%N, 1%N, 1%N, [(2%Z, 3%Z, 2%Z, [(1%N, [1; 2; 3]%N)])])
  [(0%Z, 1%Z, 1%Z, Some (map (fun z => (z, 0)%Z) [1; 0; 0; 0; 0; 1; 0; 0; 0; 0; 1; 0; 5; 0; 0; 1]%Z), [(1%N, 2%N)])]
  [(1%N, 2%Z, [3; 4]%Z)].
Definition ex4_header : chars := [] ++ str "$MeshFormat" ++ nl "" ++ str "4.1" ++ str " " ++ str "0" ++ str " 8" ++ nl "" ++ str "$EndMeshFormat".
Definition ex4_note : chars := ("010"%char :: str "$" ++ str "Comments" ++ (nl "by hand" ++ nl "") ++ str "$End" ++ str "Comments") ++ [].
Definition ex4_names : chars := nl "$PhysicalNames" ++ (nl "1" ++ (((nl "2" ++ k " 7") ++ k " ""the disc""") ++ [])) ++ nl "$EndPhysicalNames".
Definition p0 : chars := ((k " 0" ++ k " 0") ++ k " 0").
Definition ex4_entities : chars := nl "$Entities" ++ (nl "1" ++ k " 0" ++ k " 1" ++ k " 0" ++
    (((nl "1" ++ p0) ++ (k " 0" ++ [])) ++ []) ++ [] ++
    (((((nl "3" ++ p0) ++ ((k " 1" ++ k " 1.") ++ k " 0")) ++ (k " 1" ++ k " +7" ++ [])) ++ (k " 0" ++ [])) ++ []) ++ []) ++ nl "$EndEntities".
Definition ex4_nodes : chars := nl "$Nodes" ++ (nl "1" ++ k " 3" ++ k " 1" ++ k " 3" ++
    ((nl "2" ++ k " 3" ++ k " 0" ++ k " 3" ++ (nl "1" ++ nl "2" ++ nl "3" ++ []) ++
      (((nl "0" ++ k " 0") ++ k " 0") ++ ((nl "1" ++ k " 0") ++ k " 0") ++ ((nl "0.25" ++ k " 1") ++ k " -1.5e-3") ++ [])) ++ [])) ++ nl "$EndNodes".
Definition ex4_elements : chars := nl "$Elements" ++ (nl "1" ++ k " 1" ++ k " 1" ++ k " 1" ++
    ((((nl "2" ++ k " 3") ++ k " 2") ++ (k " 1" ++ (nl "1" ++ (k " 1" ++ k " 2" ++ k " 3" ++ [])) ++ [])) ++ [])) ++ nl "$EndElements".
Definition ex4_periodic : chars := nl "$Periodic" ++ (nl "1" ++
    (((((nl "0" ++ k " 1") ++ k " 1") ++
       (nl "16" ++ (k " 1" ++ k " 0" ++ k " 0" ++ k " 5" ++ k " 0" ++ k " 1" ++ k " 0" ++ k " 0" ++ k " 0" ++ k " 0" ++ k " 1" ++ k " 0" ++ k " 0" ++ k " 0" ++ k " 0" ++ k " 1" ++ [])))
      ++ (nl "1" ++ (nl "1" ++ k " 2") ++ [])) ++ [])) ++ nl "$EndPeriodic".
Definition ex4_ghosts : chars := nl "$GhostElements" ++ (nl "1" ++ ((nl "1" ++ k " 2") ++ (k " 2" ++ k " 3" ++ k " 4" ++ [])) ++ []) ++ nl "$EndGhostElements".
Definition ex4_text : chars :=
  ex4_header ++ (ex4_note ++ (ex4_names ++ []) ++ (ex4_entities ++ []) ++ [] ++ (ex4_nodes ++ []) ++ (ex4_elements ++ ex4_note) ++ (ex4_periodic ++ []) ++ (ex4_ghosts ++ [])) ++ nl "".
Lemma blank_0 : blank []. Proof. constructor. Qed.
Lemma gap_nl : gap (nl ""). Proof. exact (gap1 "010" eq_refl). Qed.
Lemma gap_sp : gap (str " "). Proof. exact (gap1 " " eq_refl). Qed.
Lemma header_i : forall version, headerf written version None ([] ++ str "$MeshFormat" ++ nl "" ++ str version ++ str " " ++ str "0" ++ str " 8" ++ nl "" ++ str "$EndMeshFormat").
Proof.
  intros version. exists [], (nl ""), (str " "), (str "0"), (str " 8"), (nl ""). split; [reflexivity|]. split; [exact blank_0|].
  split; [exact gap_nl|]. split; [exact gap_sp|]. split; [exact gap_nl|]. split; [reflexivity|]. leaf.
Qed.
Lemma ex4_written : contents written (Msh4 (Text4 ex4)) ex4_text.
Proof.
  exists ex4_header, (ex4_note ++ (ex4_names ++ []) ++ (ex4_entities ++ []) ++ [] ++ (ex4_nodes ++ []) ++ (ex4_elements ++ ex4_note) ++ (ex4_periodic ++ []) ++ (ex4_ghosts ++ [])), (nl "").
  split; [reflexivity|]. split; [exact (proj1 gap_nl)|]. split; [exact (header_i "4.1")|].
  exists ex4_note, (ex4_names ++ []), (ex4_entities ++ []), [], (ex4_nodes ++ []), (ex4_elements ++ ex4_note), (ex4_periodic ++ []), (ex4_ghosts ++ []).
  assert (Hnote : foreigns names4 ex4_note) by (apply foreign_i; reflexivity).
  split; [reflexivity|]. split; [exact Hnote|]. split.
  { left. apply section_i; [|exact (foreigns_0 _)]. build. }
  split.
  { apply section_i; [|exact (foreigns_0 _)]. apply between_i; [leaf| |leaf]. exists (nl "1"), (k " 0"), (k " 1"), (k " 0"). do 4 eexists. split; [reflexivity|].
    split; [leaf|]. split; [leaf|]. split; [leaf|]. split; [leaf|].
    split; [build|]. split; [build|]. split; build. }
  split; [right; split; reflexivity|]. split.
  { apply section_i; [|exact (foreigns_0 _)]. apply between_i; [leaf| |leaf]. do 5 eexists. split; [reflexivity|].
    split; [leaf|]. split; [leaf|]. split; [leaf|]. split; [leaf|]. apply listf_i1; [|apply listf_i0].
    exists 0%Z. do 6 eexists. split; [reflexivity|]. split; [leaf|]. split; [leaf|]. split; [leaf|]. split; [split; [discriminate | intros H; exfalso; apply H; reflexivity]|].
    split; [leaf|]. split; build. }
  split.
  { apply section_f; [|exact Hnote]. apply between_i; [leaf| |leaf]. do 5 eexists. split; [reflexivity|].
    split; [leaf|]. split; [leaf|]. split; [leaf|]. split; [leaf|]. apply listf_i1; [|apply listf_i0]. split; [build|].
    constructor; [|constructor]. right. left. reflexivity. }
  split.
  { left. apply section_i; [|exact (foreigns_0 _)]. apply between_i; [leaf| |leaf]. apply countedf_i; [leaf|]. apply listf_i1; [|apply listf_i0].
    apply seqf_i; [|build]. apply seqf_i; [build|]. exists (nl "16"). exists (map (fun z => (z, 0)%Z) [1; 0; 0; 5; 0; 1; 0; 0; 0; 0; 1; 0; 0; 0; 0; 1]%Z). eexists. split; [reflexivity|].
    split; [leaf|]. split; [build|]. split; [reflexivity|]. split; [reflexivity|].
    intros i j Hi Hj. do 4 (destruct i as [|i]; [do 4 (destruct j as [|j]; [reflexivity|]); lia|]). lia. }
  left. apply section_i; [|exact (foreigns_0 _)]. build.
Qed.

(** *** The same triangle in a binary file of version 4.1, big endian *)
Definition q (v : N) : chars := rev (bytes 8 v).
Definition d (z : Z) : chars := rev (bytes 4 (Z.to_N (z mod 2 ^ 32))).
Definition one64 : N := 4607182418800017408. (* 1.0 *)
Lemma q_i : forall v s, (v < 256 ^ 8)%N -> s = q v -> wordf true 8 v s.
Proof. intros v s H ->. split; [exact H | reflexivity]. Qed.
Lemma d_i : forall z s, (- 2 ^ 31 <= z < 2 ^ 31)%Z -> s = d z -> intf true z s.
Proof.
  intros z s H ->. split; [exact H|]. split; [|reflexivity]. change (256 ^ N.of_nat 4)%N with (Z.to_N (2 ^ 32)).
  apply Z2N.inj_lt; [apply Z.mod_pos_bound; lia | lia|]. apply Z.mod_pos_bound. lia.
Qed.
Ltac leafb := first [ apply q_i; [reflexivity | reflexivity] | apply d_i; [split; [discriminate | reflexivity] | reflexivity]
  | eexists; split; [reflexivity | exact (proj1 gap_nl)] | reflexivity ].
Ltac buildb := first
  [ apply listf_i0 | apply countedf_i; [leafb | buildb] | apply seqf_i; buildb | apply between_i; buildb | apply listf_i1; buildb | leafb ].
Definition ex5 : msh4 N := mkMsh4 []
  ([], [], [(3%Z, (0, 0, 0)%N, (one64, one64, 0)%N, [(-7)%Z], [])], []) no_partitions
  (3%N, 1%N, 3%N, [(2%Z, 3%Z, false, [(1%N, (0, 0, 0)%N); (2%N, (one64, 0, 0)%N); (3%N, (0, one64, 0)%N)])])
  (1%N, 1%N, 1%N, [(2%Z, 3%Z, 2%Z, [(1%N, [1; 2; 3]%N)])]) [] [].
Definition open5 (n : string) : chars := nl "" ++ (str n ++ newline).
Definition close5 (n : string) : chars := newline ++ str n.
Definition ex5_header : chars := [] ++ str "$MeshFormat" ++ nl "" ++ str "4.1" ++ str " " ++ str "1" ++ (str " 8" ++ (nl "" ++ rev (bytes 4 1))) ++ nl "" ++ str "$EndMeshFormat".
Definition ex5_entities : chars := open5 "$Entities" ++ (q 0 ++ q 0 ++ q 1 ++ q 0 ++ [] ++ [] ++
   (((((d 3 ++ ((q 0 ++ q 0) ++ q 0)) ++ ((q one64 ++ q one64) ++ q 0)) ++ (q 1 ++ d (-7) ++ [])) ++ (q 0 ++ [])) ++ []) ++ []) ++ close5 "$EndEntities".
Definition ex5_nodes : chars := open5 "$Nodes" ++ (q 1 ++ q 3 ++ q 1 ++ q 3 ++
   ((d 2 ++ d 3 ++ d 0 ++ q 3 ++ (q 1 ++ q 2 ++ q 3 ++ []) ++ (((q 0 ++ q 0) ++ q 0) ++ ((q one64 ++ q 0) ++ q 0) ++ ((q 0 ++ q one64) ++ q 0) ++ [])) ++ [])) ++ close5 "$EndNodes".
Definition ex5_elements : chars := open5 "$Elements" ++ (q 1 ++ q 1 ++ q 1 ++ q 1 ++
   ((((d 2 ++ d 3) ++ d 2) ++ (q 1 ++ (q 1 ++ (q 1 ++ q 2 ++ q 3 ++ [])) ++ [])) ++ [])) ++ close5 "$EndElements".
Definition ex5_text : chars := ex5_header ++ ([] ++ [] ++ (ex5_entities ++ []) ++ [] ++ (ex5_nodes ++ []) ++ (ex5_elements ++ []) ++ [] ++ []) ++ nl "".
Lemma ex5_written : contents written (Msh4 (Binary4 ex5)) ex5_text.
Proof.
  exists true, ex5_header, ([] ++ [] ++ (ex5_entities ++ []) ++ [] ++ (ex5_nodes ++ []) ++ (ex5_elements ++ []) ++ [] ++ []), (nl "").
  split; [reflexivity|]. split; [exact (proj1 gap_nl)|]. split.
  { exists [], (nl ""), (str " "), (str "1"), (str " 8" ++ (nl "" ++ rev (bytes 4 1))), (nl ""). split; [reflexivity|]. split; [exact blank_0|].
    split; [exact gap_nl|]. split; [exact gap_sp|]. split; [exact gap_nl|]. split; [reflexivity|]. exists (str " 8"), (nl "" ++ rev (bytes 4 1)). split; [reflexivity|].
    split; [leaf|]. left. exists (nl ""), (rev (bytes 4 1)). split; [reflexivity|]. split; [exact gap_nl|]. split; reflexivity. }
  exists [], [], (ex5_entities ++ []), [], (ex5_nodes ++ []), (ex5_elements ++ []), [], []. split; [reflexivity|]. split; [reflexivity|].
  split; [right; split; reflexivity|]. split.
  { apply section_i; [|reflexivity]. apply between_i; [leafb| |leafb]. exists (q 0), (q 0), (q 1), (q 0), [], []. do 2 eexists. split; [reflexivity|].
    split; [leafb|]. split; [leafb|]. split; [leafb|]. split; [leafb|]. split; [buildb|]. split; [buildb|]. split; buildb. }
  split; [right; split; reflexivity|]. split.
  { apply section_i; [|reflexivity]. apply between_i; [leafb| |leafb]. do 5 eexists. split; [reflexivity|].
    split; [leafb|]. split; [leafb|]. split; [leafb|]. split; [leafb|]. apply listf_i1; [|apply listf_i0].
    exists 0%Z. do 6 eexists. split; [reflexivity|]. split; [leafb|]. split; [leafb|]. split; [leafb|]. split; [split; [discriminate | intros H; exfalso; apply H; reflexivity]|].
    split; [leafb|]. split; buildb. }
  split.
  { apply section_i; [|reflexivity]. apply between_i; [leafb| |leafb]. do 5 eexists. split; [reflexivity|].
    split; [leafb|]. split; [leafb|]. split; [leafb|]. split; [leafb|]. apply listf_i1; [|apply listf_i0]. split; [buildb|].
    constructor; [|constructor]. right. left. reflexivity. }
  split; right; split; reflexivity.
Qed.

(** *** A file of version 2.2: a triangle with curved sides, text *)
Definition ex2 : msh2 decimal := mkMsh2 [(2%Z, 7%Z, str "disc")]
  [(1%N, ((0, 0)%Z, (0, 0)%Z, (0, 0)%Z)); (2%N, ((2, 0)%Z, (0, 0)%Z, (0, 0)%Z)); (3%N, ((0, 0)%Z, (2, 0)%Z, (0, 0)%Z));
   (4%N, ((1, 0)%Z, (0, 0)%Z, (0, 0)%Z)); (5%N, ((1, 0)%Z, (125, -2)%Z, (0, 0)%Z)); (6%N, ((0, 0)%Z, (1, 0)%Z, (0, 0)%Z))]
  [mkElement2 1 8 3 1 [] [1; 2; 4]%N; mkElement2 2 9 7 1 [5; -6]%Z [1; 2; 3; 4; 5; 6]%N]
  [(0%Z, 3%Z, 2%Z, [(3%N, 2%N)])].
Definition nlc : chars := str (String "010" "").
Definition sp1 : chars := str " ".
Definition ex2_header : chars := [] ++ str "$MeshFormat" ++ nl "" ++ str "2.2" ++ str " " ++ str "0" ++ str " 8" ++ nl "" ++ str "$EndMeshFormat".
Definition node2 (n x y : string) : chars := ((str n ++ sp1) ++ (((str x ++ sp1) ++ (str y ++ sp1)) ++ str "0")) ++ nlc.
Definition ex2_nodes : chars := nlc ++ str "$Nodes" ++ nlc ++ str "6" ++ nlc ++
  (node2 "1" "0" "0" ++ node2 "2" "2" "0" ++ node2 "3" "0" "2" ++ node2 "4" "1" "0" ++ node2 "5" "1" "1.25" ++ node2 "6" "0" "1" ++ []) ++ [] ++ str "$EndNodes".
Definition ex2_e1 : chars := (str "1" ++ sp1) ++ (str "8" ++ sp1) ++ (str "2" ++ sp1) ++ (str "3" ++ sp1) ++ (str "1" ++ sp1) ++ [] ++ [] ++
  str "1" ++ (str " 2" ++ str " 4" ++ []) ++ [] ++ nlc.
Definition ex2_e2 : chars := (str "2" ++ sp1) ++ (str "9" ++ sp1) ++ (str "5" ++ sp1) ++ (str "7" ++ sp1) ++ (str "1" ++ sp1) ++ (str "2" ++ sp1) ++ ((str "5" ++ sp1) ++ (str "-6" ++ sp1) ++ []) ++
  str "1" ++ (str " 2" ++ str " 3" ++ str " 4" ++ str " 5" ++ str " 6" ++ []) ++ sp1 ++ nlc.
Definition ex2_elements : chars := nlc ++ str "$Elements" ++ nlc ++ str "2" ++ nlc ++ (ex2_e1 ++ ex2_e2 ++ []) ++ str "$EndElements".
Definition ex2_names : chars := nl "$PhysicalNames" ++ (nl "1" ++ (((nl "2" ++ k " 7") ++ k " ""disc""") ++ [])) ++ nl "$EndPhysicalNames".
Definition ex2_periodic : chars := nl "$Periodic" ++ (nl "1" ++ (((nl "0" ++ k " 3") ++ k " 2") ++ (nl "1" ++ (nl "3" ++ k " 2") ++ [])) ++ []) ++ nl "$EndPeriodic".
Definition ex2_text : chars := ex2_header ++ (ex4_note ++ (ex2_names ++ ex4_note) ++ (ex2_nodes ++ []) ++ (ex2_elements ++ ex4_note) ++ (ex2_periodic ++ []) ++ nl "").
Lemma before_i : forall A (f : format A) (c : chars -> Prop) a s t, f a s -> c t -> before f c a (s ++ t).
Proof. intros A f c a s t H Hc. exists s, t. split; [reflexivity|]. split; assumption. Qed.
Lemma nl_ok : newlines nlc. Proof. left. reflexivity. Qed.
Lemma after_sp : forall b t n, uint false b t = Success n [] -> after blankf (natural b) n (" "%char :: t).
Proof. intros b t n H. exists sp1, t. split; [reflexivity|]. split; [reflexivity | exact (nat_0 _ _ _ H)]. Qed.
Lemma node2_i : forall n x y n' x' y', uint false (2 ^ 32) (str n) = Success n' [] -> double_ false (str x) = Success x' [] -> double_ false (str y) = Success y' [] ->
  node_line written (n', (x', y', (0, 0)%Z)) (node2 n x y).
Proof.
  intros n x y n' x' y' Hn Hx Hy. apply before_i; [|exact nl_ok]. apply seqf_i.
  - apply before_i; [exact (nat_0 _ _ _ Hn) | reflexivity].
  - apply seqf_i; [apply seqf_i|].
    + apply before_i; [exact (real_0 _ _ Hx) | reflexivity].
    + apply before_i; [exact (real_0 _ _ Hy) | reflexivity].
    + apply real_0. reflexivity.
Qed.
Ltac word_sp := apply before_i; [apply int_0; reflexivity | reflexivity].
Ltac words_sp := first [apply listf_i0 | apply listf_i1; [first [word_sp | apply after_sp; reflexivity] | words_sp]].
Lemma ex2_written : contents written (Msh2 (Text2 ex2)) ex2_text.
Proof.
  assert (Hnote : foreigns names2 ex4_note) by (apply foreign_i; reflexivity).
  exists ex2_header, (ex4_note ++ (ex2_names ++ ex4_note) ++ (ex2_nodes ++ []) ++ (ex2_elements ++ ex4_note) ++ (ex2_periodic ++ []) ++ nl ""). split; [reflexivity|].
  split; [exact (header_i "2.2")|]. exists ex4_note, (ex2_names ++ ex4_note), (ex2_nodes ++ []), (ex2_elements ++ ex4_note), (ex2_periodic ++ []), (nl "").
  split; [reflexivity|]. split; [exact Hnote|]. split.
  { left. apply section_f; [|exact Hnote]. apply between_i; [leaf| |leaf]. apply countedf_i; [|build]. apply (int_i "010" (str "1")); reflexivity. }
  split.
  { apply section_i; [|exact (foreigns_0 _)]. exists nlc, nlc, (str "6"), nlc. do 2 eexists. split; [reflexivity|]. split; [exact (proj1 gap_nl)|]. split; [exact nl_ok|].
    split; [apply nat_0; reflexivity|]. split; [exact nl_ok|]. split; [|left; reflexivity].
    repeat (apply listf_i1; [apply node2_i; reflexivity|]). apply listf_i0. }
  split.
  { apply section_f; [|exact Hnote]. exists nlc, nlc, (str "2"), nlc. eexists. split; [reflexivity|]. split; [exact (proj1 gap_nl)|]. split; [exact nl_ok|].
    split; [apply nat_0; reflexivity|]. split; [exact nl_ok|]. apply listf_i1; [|apply listf_i1; [|apply listf_i0]].
    - exists 1%Z, 2%Z, (str "1" ++ sp1), (str "8" ++ sp1), (str "2" ++ sp1), (str "3" ++ sp1), (str "1" ++ sp1), [], [], (str "1"), (str " 2" ++ str " 4" ++ []), [], nlc.
      split; [reflexivity|]. split; [word_sp|]. split; [reflexivity|]. split; [word_sp|]. split; [word_sp|]. split; [word_sp|]. split; [word_sp|].
      split; [left; split; [reflexivity|]; split; [lia|]; split; [reflexivity|]; split; reflexivity|].
      split; [|split; [constructor | exact nl_ok]]. exists 1%N, [2; 4]%N. split; [reflexivity|]. split; [apply nat_0; reflexivity | words_sp].
    - exists 2%Z, 5%Z, (str "2" ++ sp1), (str "9" ++ sp1), (str "5" ++ sp1), (str "7" ++ sp1), (str "1" ++ sp1), (str "2" ++ sp1), ((str "5" ++ sp1) ++ (str "-6" ++ sp1) ++ []), (str "1"),
        (str " 2" ++ str " 3" ++ str " 4" ++ str " 5" ++ str " 6" ++ []), sp1, nlc.
      split; [reflexivity|]. split; [word_sp|]. split; [reflexivity|]. split; [word_sp|]. split; [word_sp|]. split; [word_sp|]. split; [word_sp|].
      split; [right; split; [reflexivity|]; split; [left; exists 2%Z; split; [word_sp | reflexivity] | words_sp]|].
      split; [|split; [constructor; [left; reflexivity | constructor] | exact nl_ok]]. exists 1%N, [2; 3; 4; 5; 6]%N. split; [reflexivity|]. split; [apply nat_0; reflexivity | words_sp]. }
  split; [|exact (proj1 gap_nl)].
  left. apply section_i; [|exact (foreigns_0 _)]. build.
Qed.

(** *** The same file in binary form, little endian *)
Definition l4 (z : Z) : chars := bytes 4 (Z.to_N (z mod 2 ^ 32)).
Definition l8 (v : N) : chars := bytes 8 v.
Lemma l4_i : forall z s, (- 2 ^ 31 <= z < 2 ^ 31)%Z -> s = l4 z -> intf false z s.
Proof.
  intros z s H ->. split; [exact H|]. split; [|reflexivity]. change (256 ^ N.of_nat 4)%N with (Z.to_N (2 ^ 32)).
  apply Z2N.inj_lt; [apply Z.mod_pos_bound; lia | lia|]. apply Z.mod_pos_bound. lia.
Qed.
Lemma w_i : forall n v s, (v < 256 ^ N.of_nat n)%N -> s = bytes n v -> wordf false n v s.
Proof. intros n v s H ->. split; [exact H | reflexivity]. Qed.
Ltac leafl := first [apply l4_i; [split; [discriminate | reflexivity] | reflexivity] | apply w_i; [reflexivity | reflexivity]].
Ltac buildl := first [apply listf_i0 | apply seqf_i; buildl | apply listf_i1; buildl | leafl].
Definition ex3 : msh2 N := mkMsh2 []
  [(1%N, (0, 0, 0)%N); (2%N, (one64, 0, 0)%N); (3%N, (0, one64, 0)%N)]
  [mkElement2 1 1 3 1 [] [1; 2]%N; mkElement2 2 1 4 1 [] [2; 3]%N; mkElement2 3 2 7 1 [5; -6]%Z [1; 2; 3]%N] [].
Definition ex3_header : chars := [] ++ str "$MeshFormat" ++ nl "" ++ str "2.2" ++ str " " ++ str "1" ++ (str " 8" ++ (nl "" ++ bytes 4 1)) ++ nl "" ++ str "$EndMeshFormat".
Definition node3 (n x y : N) : chars := bytes 4 n ++ ((l8 x ++ l8 y) ++ l8 0).
Definition ex3_nodes : chars := nlc ++ str "$Nodes" ++ nlc ++ str "3" ++ nlc ++ (node3 1 0 0 ++ node3 2 one64 0 ++ node3 3 0 one64 ++ []) ++ nlc ++ str "$EndNodes".
Definition ex3_elements : chars := nlc ++ str "$Elements" ++ nlc ++ str "3" ++ nlc ++
  ((((l4 1 ++ l4 2) ++ l4 2) ++ ((bytes 4 1 ++ l4 3 ++ l4 1 ++ [] ++ [] ++ (bytes 4 1 ++ bytes 4 2 ++ [])) ++ (bytes 4 2 ++ l4 4 ++ l4 1 ++ [] ++ [] ++ (bytes 4 2 ++ bytes 4 3 ++ [])) ++ [])) ++
   (((l4 2 ++ l4 1) ++ l4 5) ++ ((bytes 4 3 ++ l4 7 ++ l4 1 ++ l4 2 ++ (l4 5 ++ l4 (-6) ++ []) ++ (bytes 4 1 ++ bytes 4 2 ++ bytes 4 3 ++ [])) ++ [])) ++ []) ++ nlc ++ str "$EndElements".
Definition ex3_text : chars := ex3_header ++ ([] ++ [] ++ (ex3_nodes ++ []) ++ (ex3_elements ++ []) ++ [] ++ nl "").
Lemma ex3_written : contents written (Msh2 (Binary2 ex3)) ex3_text.
Proof.
  exists false, ex3_header, ([] ++ [] ++ (ex3_nodes ++ []) ++ (ex3_elements ++ []) ++ [] ++ nl ""). split; [reflexivity|]. split.
  { exists [], (nl ""), (str " "), (str "1"), (str " 8" ++ (nl "" ++ bytes 4 1)), (nl ""). split; [reflexivity|]. split; [exact blank_0|].
    split; [exact gap_nl|]. split; [exact gap_sp|]. split; [exact gap_nl|]. split; [reflexivity|]. exists (str " 8"), (nl "" ++ bytes 4 1). split; [reflexivity|].
    split; [leaf|]. left. exists (nl ""), (bytes 4 1). split; [reflexivity|]. split; [exact gap_nl|]. split; reflexivity. }
  exists [], [], (ex3_nodes ++ []), (ex3_elements ++ []), [], (nl ""). split; [reflexivity|]. split; [exact (foreigns_0 _)|]. split; [right; split; reflexivity|]. split.
  { apply section_i; [|exact (foreigns_0 _)]. exists nlc, nlc, (str "3"), nlc. do 2 eexists. split; [reflexivity|]. split; [exact (proj1 gap_nl)|]. split; [exact nl_ok|].
    split; [apply nat_0; reflexivity|]. split; [exact nl_ok|]. split; [|right; exact nl_ok]. buildl. }
  split.
  { apply section_i; [|exact (foreigns_0 _)]. exists nlc, nlc, 3%N, (str "3"), nlc, [[mkElement2 1 1 3 1 [] [1; 2]%N; mkElement2 2 1 4 1 [] [2; 3]%N]; [mkElement2 3 2 7 1 [5; -6]%Z [1; 2; 3]%N]].
    do 2 eexists. split; [reflexivity|]. split; [exact (proj1 gap_nl)|]. split; [exact nl_ok|]. split; [apply nat_0; reflexivity|]. split; [reflexivity|]. split; [exact nl_ok|].
    split; [reflexivity|]. split; [|exact nl_ok]. apply listf_i1; [|apply listf_i1; [|apply listf_i0]].
    - exists 1%Z, 2%Z, 2%Z. do 2 eexists. split; [reflexivity|]. split; [reflexivity|]. split; [discriminate|]. split; [buildl|].
      apply listf_i1; [|apply listf_i1; [|apply listf_i0]].
      + exists (bytes 4 1), (l4 3), (l4 1), [], []. eexists. split; [reflexivity|]. split; [reflexivity|]. split; [leafl|]. split; [leafl|]. split; [leafl|].
        split; [left; split; [reflexivity|]; split; [lia|]; split; [reflexivity|]; split; reflexivity|]. split; [left; reflexivity | buildl].
      + exists (bytes 4 2), (l4 4), (l4 1), [], []. eexists. split; [reflexivity|]. split; [reflexivity|]. split; [leafl|]. split; [leafl|]. split; [leafl|].
        split; [left; split; [reflexivity|]; split; [lia|]; split; [reflexivity|]; split; reflexivity|]. split; [left; reflexivity | buildl].
    - exists 2%Z, 1%Z, 5%Z. do 2 eexists. split; [reflexivity|]. split; [reflexivity|]. split; [discriminate|]. split; [buildl|].
      apply listf_i1; [|apply listf_i0].
      exists (bytes 4 3), (l4 7), (l4 1), (l4 2), (l4 5 ++ l4 (-6) ++ []). eexists. split; [reflexivity|]. split; [reflexivity|]. split; [leafl|]. split; [leafl|]. split; [leafl|].
      split; [right; split; [reflexivity|]; split; [left; exists 2%Z; split; [leafl | reflexivity] | buildl]|]. split; [right; left; reflexivity | buildl]. }
  split; [right; split; reflexivity | exact (proj1 gap_nl)].
Qed.
