(** Square systems of linear equations: if only zero solves the homogeneous system, every right hand
    side has a solution. *)
From Coq Require Import Reals List Arith Lia Lra.
Import ListNotations.
From Verif Require Import ElemSpec ElemProofs3 GalerkinProofs7.
Local Open Scope R_scope.

Definition skip (p j : nat) : nat := if (j <? p)%nat then j else S j.
Lemma sum_skip : forall n p F, (p <= n)%nat -> sum_to (S n) F = F p + sum_to n (fun j => F (skip p j)).
Proof.
  intros n p F H. induction n as [|n IH].
  - assert (p = 0%nat) by lia. subst p. rewrite sum_to_S. change (sum_to 0 F) with 0. change (sum_to 0 (fun j => F (skip 0 j))) with 0. lra.
  - rewrite sum_to_S. destruct (Nat.eq_dec p (S n)) as [->|Ne].
    + rewrite Rplus_comm. f_equal. apply sum_to_ext. intros j Hj. unfold skip. destruct (Nat.ltb_spec j (S n)); [reflexivity|lia].
    + rewrite IH by lia. rewrite (sum_to_S n (fun j => F (skip p j))). unfold skip at 3. destruct (Nat.ltb_spec n p); [lia|]. lra.
Qed.
Lemma sum_const0 : forall n, sum_to n (fun _ => 0) = 0.
Proof. induction n as [|n IH]; [reflexivity|]. rewrite sum_to_S, IH. lra. Qed.
Lemma find_nonzero : forall n (a : nat -> R), (forall j, (j < n)%nat -> a j = 0) \/ exists p, (p < n)%nat /\ a p <> 0.
Proof.
  induction n as [|n IH]; intros a; [left; intros; lia|]. destruct (IH a) as [H|[p [Hp Hz]]]; [|right; exists p; split; [lia|exact Hz]].
  destruct (Req_dec (a n) 0) as [E|E]; [|right; exists n; split; [lia|exact E]]. left. intros j Hj. destruct (Nat.eq_dec j n) as [->|]; [exact E|apply H; lia].
Qed.
(** Fewer equations than unknowns. *)
Lemma kernel : forall k n (A : nat -> nat -> R), (k < n)%nat ->
  exists x, (exists j, (j < n)%nat /\ x j <> 0) /\ forall i, (i < k)%nat -> sum_to n (fun j => A i j * x j) = 0.
Proof.
  induction k as [|k IH]; intros n A H.
  - exists (fun _ => 1). split; [exists 0%nat; split; [lia|lra]|]. intros; lia.
  - destruct (find_nonzero n (A k)) as [Z|[p [Hp Z]]].
    + destruct (IH n A ltac:(lia)) as (x & NZ & E). exists x. split; [exact NZ|]. intros i Hi. destruct (Nat.eq_dec i k) as [->|]; [|apply E; lia].
      rewrite (sum_to_ext n _ (fun _ => 0)); [apply sum_const0|]. intros j Hj. rewrite Z by exact Hj. ring.
    + destruct n as [|n]; [lia|].
      destruct (IH n (fun i j => A i (skip p j) - A i p / A k p * A k (skip p j)) ltac:(lia)) as (y & (j0 & Hj0 & Nz) & E).
      set (s := sum_to n (fun j => A k (skip p j) * y j)).
      set (x := fun j : nat => if (j =? p)%nat then - s / A k p else y (if (j <? p)%nat then j else (j - 1)%nat)).
      assert (Xp : x p = - s / A k p) by (unfold x; rewrite Nat.eqb_refl; reflexivity).
      assert (Xs : forall j, x (skip p j) = y j).
      { intros j. unfold x, skip. destruct (Nat.ltb_spec j p) as [L|L].
        - destruct (Nat.eqb_spec j p); [lia|]. destruct (Nat.ltb_spec j p); [reflexivity|lia].
        - destruct (Nat.eqb_spec (S j) p); [lia|]. destruct (Nat.ltb_spec (S j) p); [lia|]. f_equal. lia. }
      exists x. split.
      * exists (skip p j0). split; [unfold skip; destruct (j0 <? p)%nat; lia|]. rewrite Xs. exact Nz.
      * intros i Hi. rewrite (sum_skip n p) by lia. rewrite Xp.
        rewrite (sum_to_ext n (fun j => A i (skip p j) * x (skip p j)) (fun j => A i (skip p j) * y j)) by (intros j _; rewrite Xs; reflexivity).
        destruct (Nat.eq_dec i k) as [->|Ne].
        -- fold s. field. exact Z.
        -- specialize (E i ltac:(lia)).
           rewrite (sum_to_ext n _ (fun j => A i (skip p j) * y j + - (A i p / A k p) * (A k (skip p j) * y j))) in E by (intros j _; ring).
           rewrite sum_to_plus, sum_to_scal in E. fold s in E. rewrite <- E. field. exact Z.
Qed.
Theorem solvable : forall n (A : nat -> nat -> R),
  (forall x, (forall i, (i < n)%nat -> sum_to n (fun j => A i j * x j) = 0) -> forall j, (j < n)%nat -> x j = 0) ->
  forall b, exists x, forall i, (i < n)%nat -> sum_to n (fun j => A i j * x j) = b i.
Proof.
  intros n A INJ b.
  destruct (kernel n (S n) (fun i j => if (j <? n)%nat then A i j else - b i) ltac:(lia)) as (x & (j0 & Hj0 & Nz) & E).
  assert (E' : forall i, (i < n)%nat -> sum_to n (fun j => A i j * x j) = x n * b i).
  { intros i Hi. specialize (E i Hi). rewrite sum_to_S in E. destruct (Nat.ltb_spec n n) as [Q|_]; [lia|].
    rewrite (sum_to_ext n _ (fun j => A i j * x j)) in E by (intros j Hj; destruct (Nat.ltb_spec j n); [reflexivity|lia]). lra. }
  destruct (Req_dec (x n) 0) as [Z|Z].
  - exfalso. destruct (Nat.eq_dec j0 n) as [->|Ne]; [exact (Nz Z)|]. apply Nz. apply INJ; [|lia]. intros i Hi. rewrite E' by exact Hi. rewrite Z. ring.
  - exists (fun j => x j / x n). intros i Hi. apply Rmult_eq_reg_l with (x n); [|exact Z]. rewrite <- E' by exact Hi. rewrite <- sum_to_scal.
    apply sum_to_ext. intros j _. field. exact Z.
Qed.
