(** Model of lib/lf/base/narrow.h for integral types.  Not modelled: floating point
    types. *)
From Coq Require Import ZArith Bool.
From Verif Require Import Base.
Local Open Scope Z_scope.

(** An integral type: bool, or an integer type with [width] bits. *)
Inductive itype := Bool | Int (signed : bool) (width : Z).
(** std::is_signed_v *)
Definition is_signed (t : itype) : bool := match t with Bool => false | Int s _ => s end.
(** static_cast to an integral type: values are reduced modulo 2^width (two's
    complement, guaranteed since C++20); for bool, non-zero values become true. *)
Definition static_cast (t : itype) (v : Z) : Z :=
  match t with
  | Bool => if v =? 0 then 0 else 1
  | Int false w => v mod 2 ^ w
  | Int true w => (v + 2 ^ (w - 1)) mod 2 ^ w - 2 ^ (w - 1)
  end.
(** narrow.h:30-44 *)
Definition narrow (TO FROM : itype) (from : Z) : res Z :=
  let to := static_cast TO from in
  do _ <- lf_assert ((static_cast FROM to =? from) &&
                     (Bool.eqb (is_signed FROM) (is_signed TO) || Bool.eqb (to <? 0) (from <? 0)));
  Ok to.
