(** Model of lib/lf/quad/quad_rules_tria.cc: the tabulated rules for the triangle. *)
From Coq Require Import Reals List Arith ZArith Bool.
Import ListNotations.
From Verif Require Import Base MeshModel MeshView DofModel RefPatModel FeModel QuadModel.
From Verif Require Export TriaDec TriaTab1 TriaTab2 TriaTab3 TriaTab4 TriaTab5 TriaTab6 TriaTab7 TriaTab8.
Local Open Scope R_scope.

Definition tab_real (z : Z) : R := IZR z / IZR dec.
(** The table of HardcodedQuadRule<kTria, k>; there is none for other k (in the code: no
    such specialization, a link error). *)
Definition tria_table (k : nat) : option (list (Z * Z * Z)) :=
  match k with
  | 1 => Some tab_1
  | 2 => Some tab_2
  | 4 => Some tab_4
  | 5 => Some tab_5
  | 6 => Some tab_6
  | 7 => Some tab_7
  | 8 => Some tab_8
  | 9 => Some tab_9
  | 10 => Some tab_10
  | 11 => Some tab_11
  | 12 => Some tab_12
  | 13 => Some tab_13
  | 14 => Some tab_14
  | 15 => Some tab_15
  | 16 => Some tab_16
  | 17 => Some tab_17
  | 18 => Some tab_18
  | 19 => Some tab_19
  | 20 => Some tab_20
  | 21 => Some tab_21
  | 22 => Some tab_22
  | 23 => Some tab_23
  | 24 => Some tab_24
  | 25 => Some tab_25
  | 26 => Some tab_26
  | 27 => Some tab_27
  | 28 => Some tab_28
  | 29 => Some tab_29
  | 30 => Some tab_30
  | 31 => Some tab_31
  | 32 => Some tab_32
  | 33 => Some tab_33
  | 34 => Some tab_34
  | 35 => Some tab_35
  | 36 => Some tab_36
  | 37 => Some tab_37
  | 38 => Some tab_38
  | 39 => Some tab_39
  | 40 => Some tab_40
  | 41 => Some tab_41
  | 42 => Some tab_42
  | 43 => Some tab_43
  | 44 => Some tab_44
  | 45 => Some tab_45
  | 46 => Some tab_46
  | 47 => Some tab_47
  | 48 => Some tab_48
  | 49 => Some tab_49
  | 50 => Some tab_50
  | _ => None
  end%nat.
(** All specializations have the form of lines 21-32: they fill points and weights and
    return a rule whose degree is the template argument. *)
Definition HardcodedQuadRule (k : nat) : res quadrule :=
  match tria_table k with
  | Some l => QuadRule kTria (map (fun t => [tab_real (fst (fst t)); tab_real (snd (fst t))]) l)
                (map (fun t => tab_real (snd t)) l) k
  | None => Assert
  end.
