(** Property C61: base::narrow. *)
From Coq Require Import ZArith.
From Verif Require Import Base NarrowModel NarrowSpec NarrowProofs.
Local Open Scope Z_scope.

(** A value that the target type can represent is returned unchanged; any other value
    fails the assertion. *)
Theorem C61_narrow : forall TO FROM v, itype_ok TO -> itype_ok FROM -> value_of FROM v ->
  (value_of TO v -> narrow TO FROM v = Ok v) /\ (~ value_of TO v -> narrow TO FROM v = Assert).
Proof. exact narrow_lemma. Qed.
Print Assumptions C61_narrow.

(** std::int64_t to std::uint32_t, and a sign error that survives the round trip:
    -1 as std::int32_t to std::uint64_t. *)
Example C61_example : value_of (Int true 64) 4000000000 /\
  narrow (Int false 32) (Int true 64) 4000000000 = Ok 4000000000 /\
  narrow (Int true 32) (Int true 64) 4000000000 = Assert /\
  static_cast (Int true 32) (static_cast (Int false 64) (-1)) = -1 /\
  narrow (Int false 64) (Int true 32) (-1) = Assert.
Proof. vm_compute. repeat split; discriminate. Qed.
