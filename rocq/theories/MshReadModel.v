(** The constructor GmshReader(factory, filename) (lib/lf/io/gmsh_reader.cc:30-32): the file is parsed, the result is
    passed on.  The structs GMshFileV2 and GMshFileV4 of MshModel.v are those of GmshModel.v with what the reader does
    not use.  Simplifications: the text of a decimal number stands for the number itself, not the closest floating point
    number; NaN, infinities, negative dimensions of physical entities or blocks and unknown numbers of element types are
    [Throw] here (in the code the latter are an exception later on). *)
From Coq Require Import Reals String Ascii List Arith NArith ZArith Bool.
Import ListNotations.
From Verif Require Import Base MeshModel GeoModel GmshModel MshModel.
Local Open Scope list_scope.
Local Open Scope nat_scope.

(** enum class ElementType: gmsh_file_v2.h:95-165, gmsh_file_v4.h *)
Definition etype_of (t : Z) : option etype :=
  match t with
  | 1%Z => Some EDGE2 | 2%Z => Some TRIA3 | 3%Z => Some QUAD4 | 4%Z => Some TET4 | 5%Z => Some HEX8 | 6%Z => Some PRISM6 | 7%Z => Some PYRAMID5 | 8%Z => Some EDGE3
  | 9%Z => Some TRIA6 | 10%Z => Some QUAD9 | 11%Z => Some TET10 | 12%Z => Some HEX27 | 13%Z => Some PRISM18 | 14%Z => Some PYRAMID14 | 15%Z => Some POINT
  | 16%Z => Some QUAD8 | 17%Z => Some HEX20 | 18%Z => Some PRISM15 | 19%Z => Some PYRAMID13 | 20%Z => Some TRIA9 | 21%Z => Some TRIA10 | 22%Z => Some TRIA12
  | 23%Z => Some TRIA15 | 24%Z => Some TRIA15_5 | 25%Z => Some TRIA21 | 26%Z => Some EDGE4 | 27%Z => Some EDGE5 | 28%Z => Some EDGE6 | 29%Z => Some TET20
  | 30%Z => Some TET35 | 31%Z => Some TET56 | 92%Z => Some HEX64 | 93%Z => Some HEX125
  | _ => None
  end.
(** Numbers: text, and 64-bit words (IEEE 754 binary64) *)
Definition real_of (d : decimal) : option R := Some (IZR (fst d) * powerRZ 10 (snd d))%R.
Definition double_of (w : N) : option R :=
  let m := Z.of_N (w mod 2 ^ 52) in
  let e := Z.of_N (w / 2 ^ 52 mod 2 ^ 11) in
  let s := if (w / 2 ^ 63 =? 0)%N then 1%R else (-1)%R in
  if (e =? 2047)%Z || (2 ^ 64 <=? w)%N then None
  else if (e =? 0)%Z then Some (s * (IZR m * powerRZ 2 (-1074)))%R
  else Some (s * (IZR (2 ^ 52 + m) * powerRZ 2 (e - 1075)))%R.
Fixpoint each {A B} (f : A -> option B) (l : list A) : option (list B) :=
  match l with [] => Some [] | a :: r => match f a, each f r with Some b, Some r' => Some (b :: r') | _, _ => None end end.
Definition dim_of (z : Z) : option nat := if (z <? 0)%Z then None else Some (Z.to_nat z).
Definition name_of_ (n : physical_name) : option (nat * Z * string) :=
  match n with (d, k, t) => match dim_of d with Some d' => Some (d', k, string_of_list_ascii t) | None => None end end.
Section Convert.
Variable D : Type.
Variable num : D -> option R.
Definition node_of (n : N * vec3 D) : option (nat * vec) :=
  match n with (k, (x, y, z)) =>
    match num x, num y, num z with
    | Some x', Some y', Some z' => Some (N.to_nat k, fun i => match i with 0 => x' | 1 => y' | 2 => z' | _ => 0%R end)
    | _, _, _ => None end end.
Definition element_of (e : element2) : option element :=
  match etype_of (e2_type e) with Some t => Some (mkElem t (e2_physical e) (map N.to_nat (e2_nodes e))) | None => None end.
Definition gmsh2 (m : msh2 D) : option gmsh_file :=
  match each name_of_ (m2_names m), each node_of (m2_nodes m), each element_of (m2_elements m) with
  | Some ns, Some nd, Some es => Some (V2 (mkFile2 ns nd es))
  | _, _, _ => None
  end.
Definition by_dim {A B} (f : A -> Z * list Z) (g : B -> Z * list Z) (e : list A * list B * list B * list B) (d : nat) : list (Z * list Z) :=
  match e with (a, b, c, d') => match d with 0 => map f a | 1 => map g b | 2 => map g c | 3 => map g d' | _ => [] end end.
Definition block_of (b : element_block) : option block :=
  match b with (d, t, ty, es) =>
    match dim_of d, etype_of ty with
    | Some d', Some ty' => Some (mkBlock d' t ty' (map (fun e => map N.to_nat (snd e)) es))
    | _, _ => None end end.
Definition gmsh4 (m : msh4 D) : option gmsh_file :=
  match m4_partitioned m, m4_nodes m, m4_elements m with
  | (np, _, pe), (_, lo, hi, nb), (_, _, _, eb) =>
      match each name_of_ (m4_names m), each (fun b : node_block D => match b with (_, _, _, l) => each node_of l end) nb, each block_of eb with
      | Some ns, Some nd, Some es =>
          Some (V4 (mkFile4 ns (by_dim (fun e : point_entity D => match e with (t, _, p) => (t, p) end) (fun e : entity D => match e with (t, _, _, p, _) => (t, p) end) (m4_entities m))
                 (N.to_nat np) (by_dim (fun e : partitioned_point D => match e with (t, _, _, _, _, p) => (t, p) end) (fun e : partitioned_entity D => match e with (t, _, _, _, _, _, p, _) => (t, p) end) pe)
                 (N.to_nat lo) (N.to_nat hi) nd es))
      | _, _, _ => None
      end
  end.
End Convert.
Definition gmsh (f : msh_file) : option gmsh_file :=
  match f with
  | Msh2 (Text2 m) => gmsh2 decimal real_of m
  | Msh2 (Binary2 m) => gmsh2 N double_of m
  | Msh4 (Text4 m) => gmsh4 decimal real_of m
  | Msh4 (Binary4 m) => gmsh4 N double_of m
  end.
Definition GmshReader (dw : nat) (f : factory) (s : chars) : res reader :=
  do m <- ReadGmshFile s;
  match gmsh m with Some g => GmshModel.read dw f g | None => Throw end.
