(** Common vocabulary of all models: outcome of a call, array helpers. *)
From Coq Require Import List Arith Lia Bool.
Import ListNotations.

(** Outcome of a call of the library.
    [Throw]  : an LF_VERIFY_MSG (active in every build) fired, i.e. an
               exception leaves the function
               (lib/lf/base/lf_assert.h: LF_VERIFY_MSG).
    [Assert] : an LF_ASSERT_MSG (active in debug builds only) fired, or the
               code would run into undefined behaviour; the caller has
               violated the contract of the function
               (lib/lf/base/lf_assert.h: LF_ASSERT_MSG). *)
Inductive res (A : Type) : Type :=
| Ok (a : A)
| Throw
| Assert.
Arguments Ok {A} a.
Arguments Throw {A}.
Arguments Assert {A}.

Definition bind {A B} (x : res A) (f : A -> res B) : res B :=
  match x with Ok a => f a | Throw => Throw | Assert => Assert end.

Notation "'do' x <- e ; f" := (bind e (fun x => f))
  (at level 200, x pattern, e at level 100, f at level 200).

(** LF_VERIFY_MSG / LF_ASSERT_MSG as guards. *)
Definition verify (b : bool) : res unit := if b then Ok tt else Throw.
Definition lf_assert (b : bool) : res unit := if b then Ok tt else Assert.

(** [a[i] = v] on a vector; writing outside the vector leaves it unchanged
    (callers of this helper check the range first). *)
Fixpoint upd {A} (i : nat) (v : A) (l : list A) : list A :=
  match l, i with
  | [], _ => []
  | _ :: t, 0 => v :: t
  | h :: t, S k => h :: upd k v t
  end.

Lemma upd_length : forall A i (v : A) l, length (upd i v l) = length l.
Proof. induction i; destruct l; simpl; auto. Qed.

Lemma nth_error_upd_eq : forall A i (v : A) l,
  i < length l -> nth_error (upd i v l) i = Some v.
Proof. induction i; destruct l; simpl; intros; try lia; auto. apply IHi; lia. Qed.

Lemma nth_error_upd_neq : forall A i j (v : A) l,
  i <> j -> nth_error (upd i v l) j = nth_error l j.
Proof.
  induction i; destruct l, j; simpl; intros; try congruence; auto.
Qed.

Lemma nth_upd_eq : forall A i (v d : A) l,
  i < length l -> nth i (upd i v l) d = v.
Proof. induction i; destruct l; simpl; intros; try lia; auto. apply IHi; lia. Qed.

Lemma nth_upd_neq : forall A i j (v d : A) l,
  i <> j -> nth j (upd i v l) d = nth j l d.
Proof.
  induction i; destruct l, j; simpl; intros; try congruence; auto.
Qed.

Lemma bind_ok : forall A B (x : res A) (f : A -> res B) b,
  bind x f = Ok b -> exists a, x = Ok a /\ f a = Ok b.
Proof. intros A B [a| |] f b H; simpl in H; try discriminate; eauto. Qed.

Lemma verify_ok : forall b u, verify b = Ok u -> b = true.
Proof. intros [] u H; simpl in H; congruence. Qed.

Lemma lf_assert_ok : forall b u, lf_assert b = Ok u -> b = true.
Proof. intros [] u H; simpl in H; congruence. Qed.

Ltac inv_bind :=
  repeat match goal with
  | H : bind _ _ = Ok _ |- _ =>
      let a := fresh "r" in let H1 := fresh "E" in
      apply bind_ok in H; destruct H as [a [H1 H]]
  | H : verify _ = Ok _ |- _ => apply verify_ok in H
  | H : lf_assert _ = Ok _ |- _ => apply lf_assert_ok in H
  | H : Ok _ = Ok _ |- _ => injection H as H
  | H : Throw = Ok _ |- _ => discriminate H
  | H : Assert = Ok _ |- _ => discriminate H
  end.
