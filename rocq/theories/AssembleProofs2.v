From Coq Require Import List Arith Lia Bool Permutation Ring Reals Lra.
Import ListNotations.
From Verif Require Import Base Scalars MeshModel MeshView DofModel DofSpec DofProofs4 AssembleModel AssembleSpec AssembleProofs.

(** The dofs a handler tells for an entity. *)
Definition dofs_of (d : dofh) (e : ent) : list nat :=
  match GlobalDofIndices d e with Ok l => l | _ => [] end.

Lemma entities_valid : forall m codim e, In e (entities m codim) -> valid m e.
Proof.
  intros m codim e H. unfold entities in H. apply in_map_iff in H as (i & <- & Hi). apply in_seq in Hi.
  destruct codim as [|[|c]]; simpl in *; lia.
Qed.

Lemma contract_serves : forall m d cnt flip codim, wf_mesh m -> partitions m cnt d -> canonical m flip d ->
  serves d (entities m codim) (dofs_of d).
Proof.
  intros m d cnt flip codim W P C e He. apply entities_valid in He.
  destruct (ca_count _ _ _ C e He) as (l & Hl & Hn). unfold dofs_of. rewrite Hl. split; auto. split; auto.
  assert (OWN : forall e' l', valid m e' -> own d e' l' -> Forall (fun g => g < NumDofs d) l').
  { intros e' l' V O. destruct (pa_own _ _ _ P e' V) as (l2 & O2 & _ & _ & _ & Hx).
    unfold own in *. rewrite O in O2. inversion O2; subst. apply Forall_forall. intros x Hx'. apply Hx in Hx'. tauto. }
  destruct e as [i|i|i]; simpl in He.
  - destruct (ca_node _ _ _ C i He) as (l1 & O & E). rewrite Hl in E. inversion E; subst. apply (OWN (ENode i)); auto.
  - destruct (nth_error (mv_edges m) i) as [[a b]|] eqn:Ei; [|apply nth_error_None in Ei; lia].
    destruct (ca_edge _ _ _ C i a b Ei) as (la & lb & l1 & O1 & O2 & O3 & E). rewrite Hl in E. inversion E; subst.
    destruct (wm_edges _ W i a b Ei) as (_ & Ha & Hb).
    rewrite !Forall_app. split; [|split]; eapply OWN; eauto; simpl; auto.
  - destruct (nth_error (mv_cells m) i) as [c|] eqn:Ei; [|apply nth_error_None in Ei; lia].
    destruct (ca_cell _ _ _ C i c Ei) as (lv & le & l1 & F1 & F2 & _ & O & E). rewrite Hl in E. inversion E; subst. clear E Hl Hn.
    pose proof (wm_cells _ W) as WC. rewrite Forall_forall in WC. specialize (WC c (nth_error_In _ _ Ei)).
    rewrite !Forall_app. split; [|split].
    + pose proof (wc_nodes _ _ WC) as N. clear -F1 N OWN. induction F1 as [|v x vs xs H _ IH]; simpl; auto.
      inversion N; subst. apply Forall_app. split; auto. eapply OWN; eauto. simpl. auto.
    + assert (EV : forall eo, In eo (combine (cv_edges c) (cv_ori c)) -> fst eo < length (mv_edges m)).
      { intros [e0 o] Hin. apply in_combine_l in Hin. apply In_nth_error in Hin as (j & Hj). simpl.
        assert (Lj : j < length (cv_nodes c)).
        { rewrite <- (wc_edges _ _ WC). apply nth_error_Some. congruence. }
        destruct (wc_local _ _ WC j Lj) as (e1 & o1 & p0 & p1 & A1 & _ & A3 & _). rewrite Hj in A1. inversion A1; subst.
        apply nth_error_Some. congruence. }
      clear -F2 EV OWN. induction F2 as [|eo x es xs (y & Oy & ->) _ IH]; simpl; auto. apply Forall_app. split.
      * assert (Forall (fun g => g < NumDofs d) y). { eapply OWN; eauto. simpl. apply EV. left; auto. }
        destruct (flip && negb (snd eo)); auto. apply Forall_rev. auto.
      * apply IH. intros. apply EV. right; auto.
    + eapply OWN; eauto. simpl. auto.
Qed.
Theorem uniform_serves : forall m dm check codim, wf_mesh m ->
  let d := u_handler (uniform m dm check) in serves d (entities m codim) (dofs_of d).
Proof.
  intros. eapply contract_serves; auto. apply uniform_partitions; auto. apply uniform_canonical; auto.
Qed.
Theorem dynamic_serves : forall m f codim, wf_mesh m ->
  let d := dy_handler (dynamic m f) in serves d (entities m codim) (dofs_of d).
Proof.
  intros m f codim W. destruct (dynamic_contract m f W) as (P & C & _). eapply contract_serves; eauto.
Qed.

Section Gen.
Variable K : cring.
Add Ring Kring3 : (kth K).
Open Scope K_scope.

Theorem assemble_order : forall m codim trial test p rows cols es,
  serves test (entities m codim) rows -> serves trial (entities m codim) cols ->
  big_enough K p (entities m codim) rows cols -> Permutation (entities m codim) es ->
  exists A D A', AssembleMatrix K m codim trial test p = Ok A /\
    assemble_loop K trial test p es (coo_new K (NumDofs test) (NumDofs trial)) = Ok A' /\
    is_matrix K A (NumDofs test) (NumDofs trial) D /\ is_matrix K A' (NumDofs test) (NumDofs trial) D.
Proof.
  intros m codim trial test p rows cols es H1 H2 H3 P.
  destruct (assemble_fresh K m codim trial test p rows cols H1 H2 H3) as (A & E & HA).
  assert (Q : forall e, In e es -> In e (entities m codim)). { intros e He. eapply Permutation_in; [apply Permutation_sym|]; eauto. }
  destruct (assemble_loop_spec K trial test p rows cols es (coo_new K (NumDofs test) (NumDofs trial))) as (A' & E' & R1 & R2 & R3).
  { intros e He; auto. } { intros e He; auto. } { intros e He; auto. }
  exists A, (local_sum K p (entities m codim) rows cols), A'. split; auto. split; auto. split; auto.
  destruct R3 as [R3 R4]; auto. apply is_matrix_intro; auto. { apply R1, new_ok. }
  intros i j _ _. rewrite R2, (local_sum_perm K p rows cols _ _ P). unfold tval. simpl. ring.
Qed.

Theorem assemble_form : forall m codim trial test p rows cols,
  serves test (entities m codim) rows -> serves trial (entities m codim) cols ->
  big_enough K p (entities m codim) rows cols ->
  exists A D, AssembleMatrix K m codim trial test p = Ok A /\
    is_matrix K A (NumDofs test) (NumDofs trial) D /\
    forall v u, form K (NumDofs test) (NumDofs trial) D v u =
      suml (map (fun e => if mp_active K p e then
        form K (length (rows e)) (length (cols e)) (d_coef K (mp_eval K p e))
          (restrict K v (rows e)) (restrict K u (cols e)) else 0) (entities m codim)).
Proof.
  intros m codim trial test p rows cols H1 H2 H3.
  destruct (assemble_fresh K m codim trial test p rows cols H1 H2 H3) as (A & E & HA).
  exists A, (local_sum K p (entities m codim) rows cols). split; auto. split; auto. intros v u.
  apply form_local_sum. intros e He. split; [apply H1|apply H2]; auto.
Qed.

Theorem assemble_sym : forall m codim d p idx,
  serves d (entities m codim) idx -> big_enough K p (entities m codim) idx idx ->
  (forall e a b, In e (entities m codim) -> mp_active K p e = true ->
     a < length (idx e) -> b < length (idx e) ->
     d_coef K (mp_eval K p e) a b = d_coef K (mp_eval K p e) b a) ->
  exists A D, AssembleMatrix K m codim d d p = Ok A /\
    is_matrix K A (NumDofs d) (NumDofs d) D /\ forall i j, D i j = D j i.
Proof.
  intros m codim d p idx H1 H3 HS.
  destruct (assemble_fresh K m codim d d p idx idx H1 H1 H3) as (A & E & HA).
  eexists _, _. split; [exact E|]. split; [exact HA|]. apply local_sum_sym. auto.
Qed.
End Gen.

Local Open Scope R_scope.
Theorem assemble_psd : forall m codim d (p : mat_provider Rring) idx,
  serves d (entities m codim) idx -> big_enough Rring p (entities m codim) idx idx ->
  (forall e (x : nat -> R), In e (entities m codim) -> mp_active Rring p e = true ->
     0 <= form Rring (length (idx e)) (length (idx e)) (d_coef Rring (mp_eval Rring p e)) x x) ->
  exists A D, AssembleMatrix Rring m codim d d p = Ok A /\
    is_matrix Rring A (NumDofs d) (NumDofs d) D /\
    forall x : nat -> R, 0 <= form Rring (NumDofs d) (NumDofs d) D x x.
Proof.
  intros m codim d p idx H1 H3 HS.
  destruct (assemble_form Rring m codim d d p idx idx H1 H1 H3) as (A & D & E & HA & HF).
  exists A, D. split; auto. split; auto. intros x. rewrite HF.
  assert (P : forall es, (forall e, In e es -> In e (entities m codim)) ->
    0 <= suml (K:=Rring) (map (fun e => if mp_active Rring p e then
        form Rring (length (idx e)) (length (idx e)) (d_coef Rring (mp_eval Rring p e))
          (restrict Rring x (idx e)) (restrict Rring x (idx e)) else 0) es)).
  { induction es as [|e es IH]; intros Hin; simpl; [lra|].
    apply Rplus_le_le_0_compat; [|apply IH; intros; apply Hin; right; auto].
    destruct (mp_active Rring p e) eqn:Ea; [|lra]. apply HS; auto. apply Hin. left; auto. }
  apply P. auto.
Qed.

Theorem lse_repeated : exists (l : list (nat * Z)) A b N D,
  is_matrix Zring A N N D /\ length b = N /\ Forall (fun p => (fst p < N)%nat) l /\
  exists A' b' D', FixSolutionComponentsLse Zring l A b = Ok (A', b') /\ is_matrix Zring A' N N D' /\
    forall x, solves Zring N D' (comp Zring b') x -> forall i v, In (i, v) l -> x i <> v.
Proof.
  exists [(0%nat, 1%Z); (0%nat, 1%Z)], (coo_after Zring 1 1 [@OpAdd Zring 0 0 1%Z]), [1%Z], 1%nat, (math_after Zring [@OpAdd Zring 0 0 1%Z]).
  split; [apply (coo_history Zring 1 1 [@OpAdd Zring 0 0 1%Z])|]. split; auto. split; [repeat constructor|].
  destruct (fix_lse Zring [(0%nat, 1%Z); (0%nat, 1%Z)] (coo_after Zring 1 1 [@OpAdd Zring 0 0 1%Z]) [1%Z] 1 (math_after Zring [@OpAdd Zring 0 0 1%Z]))
    as (A' & b' & D' & E & L & M & S).
  { apply (coo_history Zring 1 1 [@OpAdd Zring 0 0 1%Z]). } { auto. } { repeat constructor. }
  exists A', b', D'. split; auto. split; auto. intros x Hx i v Hin. apply S in Hx as [Hx _].
  assert (x 0%nat = 2%Z). { apply (Hx 0%nat); [lia|left; auto]. }
  destruct Hin as [F|[F|[]]]; inversion F; subst; rewrite H; discriminate.
Qed.
