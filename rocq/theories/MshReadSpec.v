(** Which mesh description an MSH file stands for. *)
From Coq Require Import Reals String Ascii List Arith NArith ZArith Bool.
Import ListNotations.
From Verif Require Import Base GeoModel GmshModel MshModel.
Local Open Scope list_scope.
Local Open Scope nat_scope.

(** The number a text stands for: (m, e) is m * 10^e. *)
Definition decimal_value (x : decimal) (r : R) : Prop := r = (IZR (fst x) * powerRZ 10 (snd x))%R.
(** IEEE 754: sign bit, 11 bits for the exponent, 52 bits for the fraction; no infinities, no NaN. *)
Definition double_value (w : N) (r : R) : Prop := exists sign e m,
  w = (sign * 2 ^ 63 + e * 2 ^ 52 + m)%N /\ (m < 2 ^ 52)%N /\ (e < 2047)%N /\
  r = (powerRZ (-1) (Z.of_N sign) *
       (if (e =? 0)%N then IZR (Z.of_N m) / 2 ^ 52 * powerRZ 2 (-1022) else (1 + IZR (Z.of_N m) / 2 ^ 52) * powerRZ 2 (Z.of_N e - 1023)))%R /\ (sign < 2)%N.
(** Numbers of the element types. *)
Definition type_numbers : list (Z * etype) :=
  [(1, EDGE2); (2, TRIA3); (3, QUAD4); (4, TET4); (5, HEX8); (6, PRISM6); (7, PYRAMID5); (8, EDGE3); (9, TRIA6); (10, QUAD9); (11, TET10); (12, HEX27); (13, PRISM18);
   (14, PYRAMID14); (15, POINT); (16, QUAD8); (17, HEX20); (18, PRISM15); (19, PYRAMID13); (20, TRIA9); (21, TRIA10); (22, TRIA12); (23, TRIA15); (24, TRIA15_5);
   (25, TRIA21); (26, EDGE4); (27, EDGE5); (28, EDGE6); (29, TET20); (30, TET35); (31, TET56); (92, HEX64); (93, HEX125)]%Z.
(** The point with three coordinates. *)
Definition point (x y z : R) : vec := fun i => nth i [x; y; z] 0%R.
Section Values.
Variable D : Type.
Variable num : D -> R -> Prop.
Definition same_node (a : N * vec3 D) (b : nat * vec) : Prop := exists k x y z x' y' z',
  a = (k, (x, y, z)) /\ b = (N.to_nat k, point x' y' z') /\ num x x' /\ num y y' /\ num z z'.
Definition same_name (a : physical_name) (b : nat * Z * string) : Prop := exists d n t, a = (Z.of_nat d, n, t) /\ b = (d, n, string_of_list_ascii t).
Definition same_element (a : element2) (b : element) : Prop :=
  In (e2_type a, el_type b) type_numbers /\ el_phys b = e2_physical a /\ el_nodes b = map N.to_nat (e2_nodes a).
Definition same2 (m : msh2 D) (f : GmshModel.file2) : Prop :=
  Forall2 same_name (m2_names m) (f2_names f) /\ Forall2 same_node (m2_nodes m) (f2_nodes f) /\ Forall2 same_element (m2_elements m) (f2_elements f).
(** Blocks of elements: dimension, entity, type, nodes of the elements. *)
Definition same_block (a : element_block) (b : block) : Prop := exists t es,
  a = (Z.of_nat (eb_dim b), eb_entity b, t, es) /\ In (t, eb_type b) type_numbers /\ eb_elements b = map (fun e => map N.to_nat (snd e)) es.
(** Entities of dimension 0 to 3 with their physical entities. *)
Definition same_entities {A B} (f : A -> Z * list Z) (g : B -> Z * list Z) (a : list A * list B * list B * list B) (b : nat -> list (Z * list Z)) : Prop :=
  match a with (p, c, s, v) => b 0 = map f p /\ b 1 = map g c /\ b 2 = map g s /\ b 3 = map g v /\ forall d, 3 < d -> b d = [] end.
Definition same4 (m : msh4 D) (f : GmshModel.file4) : Prop := exists np ghosts pe nn lo hi nb ne lo' hi' eb,
  m4_partitioned m = (np, ghosts, pe) /\ m4_nodes m = (nn, lo, hi, nb) /\ m4_elements m = (ne, lo', hi', eb) /\
  Forall2 same_name (m4_names m) (f4_names f) /\
  same_entities (fun e : point_entity D => let '(tag, _, phys) := e in (tag, phys)) (fun e : entity D => let '(tag, _, _, phys, _) := e in (tag, phys)) (m4_entities m) (f4_entities f) /\
  f4_num_partitions f = N.to_nat np /\
  same_entities (fun e : partitioned_point D => let '(tag, _, _, _, _, phys) := e in (tag, phys)) (fun e : partitioned_entity D => let '(tag, _, _, _, _, _, phys, _) := e in (tag, phys)) pe (f4_partitioned f) /\
  f4_min f = N.to_nat lo /\ f4_max f = N.to_nat hi /\
  Forall2 (fun b => Forall2 same_node (snd b)) nb (f4_nodes f) /\ Forall2 same_block eb (f4_blocks f).
End Values.
Definition same_file (m : msh_file) (g : gmsh_file) : Prop :=
  match m, g with
  | Msh2 (Text2 a), V2 b => same2 decimal decimal_value a b
  | Msh2 (Binary2 a), V2 b => same2 N double_value a b
  | Msh4 (Text4 a), V4 b => same4 decimal decimal_value a b
  | Msh4 (Binary4 a), V4 b => same4 N double_value a b
  | _, _ => False
  end.
