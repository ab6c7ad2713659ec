(** Scalars: an arbitrary commutative ring stands for the SCALAR template
    parameter (double, std::complex<double>, ...); rounding is not modelled. *)
From Coq Require Import List Arith Lia Bool Permutation Ring Reals ZArith.
From Coq Require Import InitialRing.
Import ListNotations.

Record cring := mkCring {
  car :> Type;
  k0 : car; k1 : car;
  kadd : car -> car -> car; kmul : car -> car -> car;
  ksub : car -> car -> car; kopp : car -> car;
  kth : ring_theory k0 k1 kadd kmul ksub kopp (@eq car)
}.
Arguments k0 {_}. Arguments k1 {_}. Arguments kadd {_}. Arguments kmul {_}.
Arguments ksub {_}. Arguments kopp {_}.

Declare Scope K_scope.
Delimit Scope K_scope with K.
Bind Scope K_scope with car.
Notation "x + y" := (kadd x y) : K_scope.
Notation "x * y" := (kmul x y) : K_scope.
Notation "x - y" := (ksub x y) : K_scope.
Notation "- x" := (kopp x) : K_scope.
Notation "0" := k0 : K_scope.
Notation "1" := k1 : K_scope.

(** The real numbers. *)
Definition Rring : cring := mkCring R 0%R 1%R Rplus Rmult Rminus Ropp RTheory.
(** The integers (used in examples that are computed). *)
Definition Zring : cring := mkCring Z 0%Z 1%Z Z.add Z.mul Z.sub Z.opp Zth.

Section Sums.
Variable K : cring.
Add Ring Kring : (kth K).
Open Scope K_scope.

(** Sum of a list, and sum_{j<n} f j. *)
Fixpoint suml (l : list K) : K := match l with [] => 0 | x :: r => x + suml r end.
Definition sumn (n : nat) (f : nat -> K) : K := suml (map f (seq 0 n)).

Lemma suml_app : forall a b, suml (a ++ b) = suml a + suml b.
Proof. induction a; simpl; intros; [ring|]. rewrite IHa. ring. Qed.
Lemma suml_perm : forall a b, Permutation a b -> suml a = suml b.
Proof. induction 1; simpl; auto; [rewrite IHPermutation; auto|ring|congruence]. Qed.
Lemma suml_concat : forall l, suml (concat l) = suml (map suml l).
Proof. induction l; simpl; auto. rewrite suml_app, IHl. auto. Qed.
Lemma suml_zero : forall l, (forall x, In x l -> x = 0) -> suml l = 0.
Proof. induction l; simpl; intros H; auto. rewrite (H a), IHl by auto. ring. Qed.
Lemma suml_map_add : forall A (f g : A -> K) l, suml (map (fun x => f x + g x) l) = suml (map f l) + suml (map g l).
Proof. induction l; simpl; [ring|]. rewrite IHl. ring. Qed.
Lemma suml_map_mul : forall A (f : A -> K) c l, suml (map (fun x => c * f x) l) = c * suml (map f l).
Proof. induction l; simpl; [ring|]. rewrite IHl. ring. Qed.
Lemma suml_map_mulr : forall A (f : A -> K) c l, suml (map (fun x => f x * c) l) = suml (map f l) * c.
Proof. induction l; simpl; [ring|]. rewrite IHl. ring. Qed.
Lemma suml_map_sub : forall A (f g : A -> K) l, suml (map (fun x => f x - g x) l) = suml (map f l) - suml (map g l).
Proof. induction l; simpl; [ring|]. rewrite IHl. ring. Qed.
Lemma suml_map_ext : forall A (f g : A -> K) l, (forall x, In x l -> f x = g x) -> suml (map f l) = suml (map g l).
Proof. intros. f_equal. apply map_ext_in. auto. Qed.
Lemma suml_swap : forall A B (f : A -> B -> K) la lb,
  suml (map (fun a => suml (map (f a) lb)) la) = suml (map (fun b => suml (map (fun a => f a b) la)) lb).
Proof.
  induction la as [|a la IH]; intros lb; simpl.
  - symmetry. apply suml_zero. intros x H. apply in_map_iff in H as (? & <- & _). auto.
  - rewrite IH, suml_map_add. auto.
Qed.

Lemma sumn_ext : forall n f g, (forall j, j < n -> f j = g j) -> sumn n f = sumn n g.
Proof. intros. apply suml_map_ext. intros x H1. apply in_seq in H1. apply H. lia. Qed.
Lemma sumn_S : forall n f, sumn (S n) f = sumn n f + f n.
Proof.
  intros. unfold sumn. replace (S n) with (n + 1)%nat by lia. rewrite seq_app, map_app, suml_app. simpl. ring.
Qed.
Lemma sumn_zero : forall n f, (forall j, j < n -> f j = 0) -> sumn n f = 0.
Proof.
  intros. apply suml_zero. intros x Hx. apply in_map_iff in Hx as (j & <- & Hj). apply in_seq in Hj. apply H; lia.
Qed.
Lemma sumn_add : forall n f g, sumn n (fun j => f j + g j) = sumn n f + sumn n g.
Proof. intros. apply suml_map_add. Qed.
Lemma sumn_mul : forall n c f, sumn n (fun j => c * f j) = c * sumn n f.
Proof. intros. apply suml_map_mul. Qed.
Lemma sumn_sub : forall n f g, sumn n (fun j => f j - g j) = sumn n f - sumn n g.
Proof. intros. apply suml_map_sub. Qed.
Lemma sumn_mulr : forall n c f, sumn n (fun j => f j * c) = sumn n f * c.
Proof. intros. apply suml_map_mulr. Qed.
Lemma sumn_single : forall n i f, i < n -> (forall j, j < n -> j <> i -> f j = 0) -> sumn n f = f i.
Proof.
  induction n; intros i f H H0; [lia|]. rewrite sumn_S. destruct (Nat.eq_dec i n) as [->|Hi].
  - rewrite sumn_zero by (intros; apply H0; lia). ring.
  - rewrite (IHn i) by (try lia; intros; apply H0; lia). rewrite (H0 n) by lia. ring.
Qed.
Lemma sumn_swap : forall n m f, sumn n (fun i => sumn m (fun j => f i j)) = sumn m (fun j => sumn n (fun i => f i j)).
Proof. intros. unfold sumn. apply suml_swap. Qed.
Lemma sumn_suml_swap : forall A n (f : nat -> A -> K) l,
  sumn n (fun i => suml (map (f i) l)) = suml (map (fun x => sumn n (fun i => f i x)) l).
Proof. intros. unfold sumn. apply suml_swap. Qed.
End Sums.
Arguments suml {K}. Arguments sumn {K}.
