(** The denominator of the tables of points and weights *)
From Coq Require Import ZArith.
Definition dec : Z := Eval vm_compute in (10 ^ 25)%Z.
