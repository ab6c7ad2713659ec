(** Specification vocabulary for C61. *)
From Coq Require Import ZArith.
From Verif Require Import NarrowModel.
Local Open Scope Z_scope.

(** The values of an integral type. *)
Definition value_of (t : itype) (v : Z) : Prop :=
  match t with
  | Bool => v = 0 \/ v = 1
  | Int false w => 0 <= v <= 2 ^ w - 1
  | Int true w => - 2 ^ (w - 1) <= v <= 2 ^ (w - 1) - 1
  end.
Definition itype_ok (t : itype) : Prop := match t with Bool => True | Int _ w => 1 <= w end.
