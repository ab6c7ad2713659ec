(** A test of tabulated rules for the triangle, in 63-bit integer arithmetic.  Its
    correctness is proved in TriaProofs. *)
From Coq Require Import List Arith ZArith Bool Uint63.
Import ListNotations.
From Verif Require Import TriaDec.
Local Open Scope Z_scope.

Definition M : Z := Eval vm_compute in 2 ^ 63.
Definition T : int := 8800%uint63.
(** z / dec, scaled by 2^(63+sh) *)
Definition cst : Z := Eval vm_compute in 2 ^ 147 / dec.
Definition conv (sh : nat) (z : Z) : int := of_Z (Z.shiftr (cst * z) (84 - Z.of_nat sh)).
Definition mulsh (u v : int) : int := fst (mulc u v).
Fixpoint mul2 (ps vs : list int) : list int :=
  match ps, vs with p :: ps, v :: vs => mulsh p v :: mul2 ps vs | _, _ => [] end.
Fixpoint add2 (l : list int) (h a : int) : int * int :=
  match l with
  | [] => (h, a)
  | u :: l => let a' := (a + u)%uint63 in add2 l (if (a' <? u)%uint63 then (h + 1)%uint63 else h) a'
  end.
Definition ssum (sh : nat) (l : list int) : int :=
  let r := add2 l 0%uint63 0%uint63 in
  ((fst r << (63 - of_Z (Z.of_nat sh))) + (snd r >> of_Z (Z.of_nat sh)))%uint63.
Definition close (s m : int) : bool := if (s <=? m)%uint63 then (m - s <=? T)%uint63 else (s - m <=? T)%uint63.
Fixpoint inner (sh nb : nat) (row : list int) (ps ys : list int) : bool :=
  match nb, row with
  | O, _ => true
  | S nb', m :: row' => if close (ssum sh ps) m then inner sh nb' row' (mul2 ps ys) ys else false
  | _, _ => false
  end.
Fixpoint outer (sh na : nat) (tab : list (list int)) (ps xs ys : list int) : bool :=
  match na, tab with
  | O, _ => true
  | S na', row :: tab' => if inner sh na row ps ys then outer sh na' tab' (mul2 ps xs) xs ys else false
  | _, _ => false
  end.
(** Moments of the triangle, scaled by 2^63 *)
Fixpoint zfact (n : nat) : Z := match n with O => 1 | S k => Z.of_nat n * zfact k end.
Definition momtab : list (list int) := Eval vm_compute in
  map (fun a => map (fun b => of_Z (M * zfact a * zfact b / zfact (a + b + 2))) (seq 0 (51 - a))) (seq 0 51).
Fixpoint row_ok (a b : nat) (num den : Z) (row : list int) : bool :=
  match row with
  | [] => true
  | m :: row => (Z.abs (den * to_Z m - num) <=? den) &&
      row_ok a (S b) (Z.of_nat (S b) * num) (Z.of_nat (a + S b + 2) * den) row
  end.
Fixpoint tab_ok (a : nat) (tab : list (list int)) : bool :=
  match tab with
  | [] => true
  | row :: tab => row_ok a 0 (M * zfact a) (zfact (a + 2)) row && tab_ok (S a) tab
  end.

Definition tx (t : Z * Z * Z) : Z := fst (fst t).
Definition ty (t : Z * Z * Z) : Z := snd (fst t).
Definition tw (t : Z * Z * Z) : Z := snd t.
Definition inside_ok (sh : nat) (t : Z * Z * Z) : bool :=
  (0 <? tx t) && (0 <? ty t) && (tx t + ty t <? dec) && (0 <? tw t) && (Z.shiftl (tw t) (Z.of_nat sh) <? dec).
Definition zsum (l : list Z) : Z := fold_left Z.add l 0.
Definition check (sh k : nat) (l : list (Z * Z * Z)) : bool :=
  (0 <? Z.of_nat (length l)) && (sh <? 60)%nat && (zsum (map tw l) <? dec) && forallb (inside_ok sh) l &&
  (((to_Z T + 2) * 2 ^ Z.of_nat sh + Z.of_nat (length l) * (2 + 3 * Z.of_nat k)) * 10 ^ 15 <=? M * 2 ^ Z.of_nat sh) &&
  outer sh (S k) momtab (map (conv sh) (map tw l)) (map (conv 0) (map tx l)) (map (conv 0) (map ty l)).
