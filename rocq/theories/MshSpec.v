(** The MSH file formats 2.2 and 4.1 of Gmsh, as far as they concern lf::io: which sequences
    of characters write a file with given contents. *)
From Coq Require Import String Ascii List Arith NArith ZArith Bool.
Import ListNotations.
From Verif Require Import Base MshModel.
Local Open Scope list_scope.
Local Open Scope nat_scope.

(** *** Formats *)
(** A format tells which sequences of characters write a value. *)
Definition format (A : Type) := A -> chars -> Prop.
Definition seqf {A B} (f : format A) (g : format B) : format (A * B) :=
  fun x s => exists s1 s2, s = s1 ++ s2 /\ f (fst x) s1 /\ g (snd x) s2.
Infix "<*>" := seqf (at level 40, left associativity).
Definition listf {A} (f : format A) : format (list A) := fun l s => exists ss, Forall2 f l ss /\ s = concat ss.
(** The number of values, then the values. *)
Definition countedf {A} (size : format N) (f : format A) : format (list A) :=
  fun l s => exists s1 s2, s = s1 ++ s2 /\ size (N.of_nat (length l)) s1 /\ listf f l s2.
Definition between {A} (o : chars -> Prop) (f : format A) (c : chars -> Prop) : format A :=
  fun x s => exists s1 s2 s3, s = s1 ++ s2 ++ s3 /\ o s1 /\ f x s2 /\ c s3.

(** *** Characters and numbers *)
Definition white (c : ascii) : Prop := In c ["009"; "010"; "011"; "012"; "013"; " "]%char.
Definition blank (s : chars) : Prop := Forall white s.
Definition gap (s : chars) : Prop := blank s /\ s <> [].
(** After white space as [w] demands. *)
Definition after {A} (w : chars -> Prop) (f : format A) : format A := fun x s => exists s1 s2, s = s1 ++ s2 /\ w s1 /\ f x s2.
Definition exactly (t s : chars) : Prop := s = t.
Definition afterk (w : chars -> Prop) (t : chars) (s : chars) : Prop := exists s1, s = s1 ++ t /\ w s1.
(** Decimal digits, most significant first. *)
Fixpoint value (ds : list N) : N := match ds with [] => 0 | d :: r => d * 10 ^ N.of_nat (length r) + value r end%N.
Definition digits_of (ds : list N) (s : chars) : Prop := Forall (fun d => (d < 10)%N) ds /\ s = map (fun d => ascii_of_N (48 + d)) ds.
Definition sign_of (z : Z) (s : chars) : Prop := (z = 1%Z /\ (s = [] \/ s = str "+")) \/ (z = (-1)%Z /\ s = str "-").
Definition natural (bound : N) : format N := fun n s => exists ds, ds <> [] /\ digits_of ds s /\ n = value ds /\ (n < bound)%N.
Definition integer : format Z := fun z s => exists g ds s1 s2, s = s1 ++ s2 /\ sign_of g s1 /\ ds <> [] /\ digits_of ds s2 /\
  z = (g * Z.of_N (value ds))%Z /\ (- 2 ^ 31 <= z < 2 ^ 31)%Z.
(** Sign, digits, point, digits, exponent; (m, e) is m * 10^e. *)
Definition real : format decimal := fun x s => exists g ip fp s1 s2 s3 s4 k,
  s = s1 ++ s2 ++ s3 ++ s4 /\ sign_of g s1 /\ digits_of ip s2 /\ ip ++ fp <> [] /\
  ((fp = [] /\ s3 = []) \/ (exists t, s3 = str "." ++ t /\ digits_of fp t)) /\
  ((k = 0%Z /\ s4 = []) \/
   (exists e h ep t1 t2, (e = "e"%char \/ e = "E"%char) /\ s4 = e :: t1 ++ t2 /\ sign_of h t1 /\ ep <> [] /\ digits_of ep t2 /\ k = (h * Z.of_N (value ep))%Z)) /\
  x = ((g * Z.of_N (value (ip ++ fp)))%Z, (k - Z.of_nat (length fp))%Z).
(** Words of n bytes, little or big endian; integers in two's complement. *)
Fixpoint bytes (n : nat) (v : N) : chars := match n with O => [] | S n' => ascii_of_N (v mod 256) :: bytes n' (v / 256) end.
Definition wordf (big : bool) (n : nat) : format N := fun v s => (v < 256 ^ N.of_nat n)%N /\ s = if big then rev (bytes n v) else bytes n v.
Definition intf (big : bool) : format Z := fun z s => (- 2 ^ 31 <= z < 2 ^ 31)%Z /\ wordf big 4 (Z.to_N (z mod 2 ^ 32)) s.
(** Line ends. *)
Definition newlines (s : chars) : Prop := s = str (String "010" "") \/ s = str (String "013" (String "010" "")).
Definition any_newlines (s : chars) : Prop := newlines s \/ s = str (String "013" "").

(** How strict a format is: white space between words, line ends, redundant information. *)
Record style := mkStyle { st_gap : chars -> Prop; st_eol : chars -> Prop; st_redundant : Prop -> Prop }.
(** What Gmsh writes: words are separated, redundant information is right. *)
Definition written : style := mkStyle gap newlines (fun P => P).
(** What the reader accepts: they need not be. *)
Definition accepted : style := mkStyle blank any_newlines (fun _ => True).

(** *** Sections of all versions *)
Definition quoted (st : style) : format chars :=
  after (st_gap st) (fun t s => t <> [] /\ ~ In """"%char t /\ s = str """" ++ t ++ str """").
Definition physical_namef (st : style) : format physical_name :=
  after (st_gap st) integer <*> after (st_gap st) integer <*> quoted st.
(** A section of another program: $Name, lines without a dollar sign, $EndName.  The name does
    not start with the name of a section of the format. *)
Definition foreign (names : list string) (s : chars) : Prop := exists w name body w2,
  s = w ++ str "$" ++ name ++ body ++ str "$End" ++ w2 ++ name /\
  blank w /\ blank w2 /\
  ~ (exists n u, In n names /\ str "$" ++ name = str n ++ u) /\
  (exists c t, name = c :: t /\ ~ white c) /\ ~ In "010"%char name /\ ~ In "013"%char name /\
  (exists e t, body = e :: t /\ (e = "010"%char \/ e = "013"%char)) /\ ~ In "$"%char body.
Definition foreigns (names : list string) (s : chars) : Prop := exists ss, Forall (foreign names) ss /\ s = concat ss.
(** A section and the foreign sections that follow it; it may be missing if it has the value
    [none]. *)
Definition sectionf {A} (fg : chars -> Prop) (f : format A) : format A := fun x s => exists s1 s2, s = s1 ++ s2 /\ f x s1 /\ fg s2.
Definition optional {A} (none : A) (f : format A) : format A := fun x s => f x s \/ (x = none /\ s = []).

(** Number of nodes of the element types. *)
Definition node_counts : list (Z * nat) :=
  [(1%Z, 2); (2%Z, 3); (3%Z, 4); (4%Z, 4); (5%Z, 8); (6%Z, 6); (7%Z, 5); (8%Z, 3); (9%Z, 6); (10%Z, 9); (11%Z, 10); (12%Z, 27); (13%Z, 18); (14%Z, 14); (15%Z, 1); (16%Z, 8);
   (17%Z, 20); (18%Z, 15); (19%Z, 13); (20%Z, 9); (21%Z, 10); (22%Z, 12); (23%Z, 15); (24%Z, 15); (25%Z, 21); (26%Z, 4); (27%Z, 5); (28%Z, 6); (29%Z, 20); (30%Z, 35);
   (31%Z, 56); (92%Z, 64); (93%Z, 125)].

(** *** Format 2.2 *)
Definition blankf (s : chars) : Prop := s = str " ".
Definition before {A} (f : format A) (c : chars -> Prop) : format A := fun x s => exists s1 s2, s = s1 ++ s2 /\ f x s1 /\ c s2.
(** Sections with words that are separated by any white space. *)
Definition names2f (st : style) : format (list physical_name) := fun l s =>
  between (afterk blank (str "$PhysicalNames")) (countedf (after (st_gap st) (fun n => integer (Z.of_N n))) (physical_namef st))
    (afterk (st_gap st) (str "$EndPhysicalNames")) l s.
Definition periodic2f (st : style) : format (list periodic2) := fun l s =>
  let int := after (st_gap st) integer in
  let nat := after (st_gap st) (natural (2 ^ 32)) in
  between (afterk blank (str "$Periodic")) (countedf nat (int <*> int <*> int <*> countedf nat (nat <*> nat)))
    (afterk (st_gap st) (str "$EndPeriodic")) l s.
(** Nodes: number x y z *)
Definition node_line (st : style) : format (N * vec3 decimal) :=
  before (before (natural (2 ^ 32)) blankf <*> (before real blankf <*> before real blankf <*> real)) (st_eol st).
Definition node_binary (big : bool) : format (N * vec3 N) := wordf big 4 <*> (wordf big 8 <*> wordf big 8 <*> wordf big 8).
Definition nodes2f {D} (st : style) (node : format (N * vec3 D)) : format (list (N * vec3 D)) := fun l s => exists w e1 n e2 t b,
  s = w ++ str "$Nodes" ++ e1 ++ n ++ e2 ++ t ++ b ++ str "$EndNodes" /\
  blank w /\ st_eol st e1 /\ natural (2 ^ 32) (N.of_nat (length l)) n /\ st_eol st e2 /\ listf node l t /\ (b = [] \/ st_eol st b).
(** Tags of elements: their number, physical entity, elementary entity [number of partitions,
    partitions]. *)
Definition partitions_ok (st : style) (int : format Z) (tags : Z) (parts : list Z) (s1 s2 : chars) : Prop :=
  (parts = [] /\ (tags <= 2)%Z /\ st_redundant st (tags = 2%Z) /\ s1 = [] /\ s2 = []) \/
  (tags = (3 + Z.of_nat (length parts))%Z /\
   ((exists k, int k s1 /\ st_redundant st (k = Z.of_nat (length parts))) \/ (s1 = [] /\ st_redundant st False)) /\
   listf int parts s2).
(** number type tags node ... *)
Definition element_line (st : style) : format element2 := fun e s => exists n tags s1 s2 s3 s4 s5 s6 s7 t1 t2 b w,
  s = s1 ++ s2 ++ s3 ++ s4 ++ s5 ++ s6 ++ s7 ++ t1 ++ t2 ++ b ++ w /\
  before integer blankf n s1 /\ e2_number e = Z.to_N (n mod 2 ^ 32) /\
  before integer blankf (e2_type e) s2 /\
  before integer blankf tags s3 /\
  before integer blankf (e2_physical e) s4 /\
  before integer blankf (e2_elementary e) s5 /\
  partitions_ok st (before integer blankf) tags (e2_partitions e) s6 s7 /\
  (exists x l, e2_nodes e = x :: l /\ natural (2 ^ 32) x t1 /\ listf (after blankf (natural (2 ^ 32))) l t2) /\
  Forall (fun c => c = " "%char \/ c = "009"%char) b /\ st_eol st w.
Definition elements_text (st : style) : format (list element2) := fun l s => exists w e1 n e2 t,
  s = w ++ str "$Elements" ++ e1 ++ n ++ e2 ++ t ++ str "$EndElements" /\
  blank w /\ st_eol st e1 /\ natural (2 ^ 32) (N.of_nat (length l)) n /\ st_eol st e2 /\ listf (element_line st) l t.
(** Binary: groups of elements of one type and one number of tags. *)
Definition element_binary (st : style) (big : bool) (type tags : Z) : format element2 := fun e s => exists s1 s2 s3 s4 s5 s6,
  s = s1 ++ s2 ++ s3 ++ s4 ++ s5 ++ s6 /\ e2_type e = type /\ wordf big 4 (e2_number e) s1 /\ intf big (e2_physical e) s2 /\ intf big (e2_elementary e) s3 /\
  partitions_ok st (intf big) tags (e2_partitions e) s4 s5 /\
  In (type, length (e2_nodes e)) node_counts /\ listf (wordf big 4) (e2_nodes e) s6.
Definition group_binary (st : style) (big : bool) : format (list element2) := fun l s => exists type count tags s1 s2,
  s = s1 ++ s2 /\ length l = Z.to_nat count /\ st_redundant st (l <> []) /\
  (intf big <*> intf big <*> intf big) (type, count, tags) s1 /\ listf (element_binary st big type tags) l s2.
Definition elements_binary (st : style) (big : bool) : format (list element2) := fun l s => exists w e1 k n e2 ls t e3,
  s = w ++ str "$Elements" ++ e1 ++ n ++ e2 ++ t ++ e3 ++ str "$EndElements" /\
  blank w /\ st_eol st e1 /\ natural (2 ^ 32) k n /\ st_redundant st (k = N.of_nat (length l)) /\ st_eol st e2 /\
  l = concat ls /\ listf (group_binary st big) ls t /\ st_eol st e3.
(** The sections of a file. *)
Definition msh2f {D} (st : style) (nodes : format (list (N * vec3 D))) (elements : format (list element2)) : format (msh2 D) := fun f s =>
  exists c a b e p w,
  s = c ++ a ++ b ++ e ++ p ++ w /\ foreigns names2 c /\
  optional [] (sectionf (foreigns names2) (names2f st)) (m2_names f) a /\
  sectionf (foreigns names2) nodes (m2_nodes f) b /\
  sectionf (foreigns names2) elements (m2_elements f) e /\
  optional [] (sectionf (foreigns names2) (periodic2f st)) (m2_periodic f) p /\
  blank w.

(** *** Format 4.1 *)
(** How numbers and keywords are written. *)
Record lexis (D : Type) := mkLexis {
  x_int : format Z; x_size : format N; x_real : format D; x_open : string -> chars -> Prop; x_close : string -> chars -> Prop;
  x_zero : chars -> Prop; x_sixteen : chars -> Prop }.
Arguments x_int {D}. Arguments x_size {D}. Arguments x_real {D}. Arguments x_open {D}. Arguments x_close {D}. Arguments x_zero {D}. Arguments x_sixteen {D}.
Definition textual (st : style) : lexis decimal :=
  mkLexis decimal (after (st_gap st) integer) (after (st_gap st) (natural (2 ^ 64))) (after (st_gap st) real)
    (fun n => afterk blank (str n)) (fun n => afterk (st_gap st) (str n)) (afterk (st_gap st) (str "0")) (afterk (st_gap st) (str "16")).
Definition binary (big : bool) : lexis N :=
  mkLexis N (intf big) (wordf big 8) (wordf big 8) (fun n => afterk blank (str n ++ newline)) (fun n => exactly (newline ++ str n))
    (wordf big 8 0%N) (wordf big 8 16%N).
Section Format4.
Variable D : Type.
Variable st : style.
Variable fg : chars -> Prop.
Variable x : lexis D.
Notation int := (x_int x). Notation size := (x_size x). Notation real := (x_real x).
Definition vecf : format (vec3 D) := real <*> real <*> real.
Definition intsf : format (list Z) := countedf size int.
(** Four lists after their four lengths. *)
Definition fourf {A B} (f : format A) (g : format B) : format (list A * list B * list B * list B) := fun y s =>
  match y with (p, q, r, t) => exists n1 n2 n3 n4 s1 s2 s3 s4, s = n1 ++ n2 ++ n3 ++ n4 ++ s1 ++ s2 ++ s3 ++ s4 /\
    size (N.of_nat (length p)) n1 /\ size (N.of_nat (length q)) n2 /\ size (N.of_nat (length r)) n3 /\ size (N.of_nat (length t)) n4 /\
    listf f p s1 /\ listf g q s2 /\ listf g r s3 /\ listf g t s4 end.
Definition names4f : format (list physical_name) :=
  between (afterk blank (str "$PhysicalNames")) (countedf (after (st_gap st) (natural (2 ^ 64))) (physical_namef st)) (afterk (st_gap st) (str "$EndPhysicalNames")).
Definition point_entityf : format (point_entity D) := int <*> vecf <*> intsf.
Definition entityf : format (entity D) := int <*> vecf <*> vecf <*> intsf <*> intsf.
Definition entitiesf : format (entities D) := between (x_open x "$Entities") (fourf point_entityf entityf) (x_close x "$EndEntities").
Definition partitioned_pointf : format (partitioned_point D) := int <*> int <*> int <*> intsf <*> vecf <*> intsf.
Definition partitioned_entityf : format (partitioned_entity D) := int <*> int <*> int <*> intsf <*> vecf <*> vecf <*> intsf <*> intsf.
Definition partitionedf : format (partitioned D) :=
  between (x_open x "$PartitionedEntities") (size <*> countedf size (int <*> int) <*> fourf partitioned_pointf partitioned_entityf) (x_close x "$EndPartitionedEntities").
(** A block of nodes: first the tags of all nodes, then their coordinates. *)
Definition node_blockf : format (node_block D) := fun b s => match b with (d, t, parametric, l) =>
  exists p s1 s2 s3 s4 s5 s6, s = s1 ++ s2 ++ s3 ++ s4 ++ s5 ++ s6 /\ int d s1 /\ int t s2 /\ int p s3 /\ (parametric = true <-> p <> 0%Z) /\
    size (N.of_nat (length l)) s4 /\ listf size (map fst l) s5 /\ listf vecf (map snd l) s6 end.
(** The number of blocks, the number of nodes (elements), smallest and largest tag, the blocks. *)
Definition blocksf {A} (f : format A) : format (N * N * N * list A) := fun y s => match y with (n, lo, hi, l) =>
  exists s0 s1 s2 s3 s4, s = s0 ++ s1 ++ s2 ++ s3 ++ s4 /\ size (N.of_nat (length l)) s0 /\ size n s1 /\ size lo s2 /\ size hi s3 /\ listf f l s4 end.
Definition nodesf : format (nodes4 D) := between (x_open x "$Nodes") (blocksf node_blockf) (x_close x "$EndNodes").
Definition element_blockf : format element_block := fun b s => match b with (d, t, type, l) =>
  (int <*> int <*> int <*> countedf size (size <*> listf size)) b s /\ Forall (fun e => In (type, length (snd e)) node_counts) l end.
Definition elementsf : format elements4 := between (x_open x "$Elements") (blocksf element_blockf) (x_close x "$EndElements").
(** An affine transformation is written row by row; [c] are its coefficients in memory, column
    by column. *)
Definition transformf : format (option (list D)) := fun a s => match a with
  | None => x_zero x s
  | Some c => exists s1 l s2, s = s1 ++ s2 /\ x_sixteen x s1 /\ listf real l s2 /\ length l = 16 /\ length c = 16 /\
      forall i j, i < 4 -> j < 4 -> nth_error l (4 * i + j) = nth_error c (4 * j + i) end.
Definition linkf : format (periodic_link D) := int <*> int <*> int <*> transformf <*> countedf size (size <*> size).
Definition periodicf : format (list (periodic_link D)) := between (x_open x "$Periodic") (countedf size linkf) (x_close x "$EndPeriodic").
Definition ghostsf : format (list ghost_element) := between (x_open x "$GhostElements") (countedf size (size <*> int <*> intsf)) (x_close x "$EndGhostElements").
Definition msh4f : format (msh4 D) := fun f s => exists c a b p n e l g,
  s = c ++ a ++ b ++ p ++ n ++ e ++ l ++ g /\ fg c /\
  optional [] (sectionf fg names4f) (m4_names f) a /\
  sectionf fg entitiesf (m4_entities f) b /\
  optional no_partitions (sectionf fg partitionedf) (m4_partitioned f) p /\
  sectionf fg nodesf (m4_nodes f) n /\
  sectionf fg elementsf (m4_elements f) e /\
  optional [] (sectionf fg periodicf) (m4_periodic f) l /\
  optional [] (sectionf fg ghostsf) (m4_ghosts f) g.
End Format4.

(** *** Files *)
(** $MeshFormat, version, 0 (text) or 1 (binary), 8, in binary files the number 1,
    $EndMeshFormat *)
Definition headerf (st : style) (version : string) (big : option bool) (s : chars) : Prop := exists w0 w1 w2 k w3 w4,
  s = w0 ++ str "$MeshFormat" ++ w1 ++ str version ++ w2 ++ k ++ w3 ++ w4 ++ str "$EndMeshFormat" /\
  blank w0 /\ st_gap st w1 /\ gap w2 /\ st_gap st w4 /\
  match big with
  | None => k = str "0" /\ after (st_gap st) integer 8%Z w3
  | Some b => k = str "1" /\ exists t o, w3 = t ++ o /\ after (st_gap st) integer 8%Z t /\
      (after gap (wordf b 4) 1%N o \/ (st_redundant st False /\ exists v, after blank (wordf false 4) v o /\ (b = false <-> v = 1%N)))
  end.
Definition no_foreign (s : chars) : Prop := s = [].
Definition contents (st : style) : format msh_file := fun f s => match f with
  | Msh2 (Text2 m) => exists h b, s = h ++ b /\ headerf st "2.2" None h /\ msh2f st (nodes2f st (node_line st)) (elements_text st) m b
  | Msh2 (Binary2 m) => exists big h b, s = h ++ b /\ headerf st "2.2" (Some big) h /\ msh2f st (nodes2f st (node_binary big)) (elements_binary st big) m b
  | Msh4 (Text4 m) => exists h b w, s = h ++ b ++ w /\ st_redundant st (blank w) /\ headerf st "4.1" None h /\ msh4f decimal st (foreigns names4) (textual st) m b
  | Msh4 (Binary4 m) => exists big h b w, s = h ++ b ++ w /\ st_redundant st (blank w) /\ headerf st "4.1" (Some big) h /\ msh4f N st no_foreign (binary big) m b
  end.
