(** Proofs for C76: definite forms, unique solutions. *)
From Coq Require Import Reals List Arith Lia Lra Bool.
Import ListNotations.
From Verif Require Import Base Scalars MeshModel MeshView DofModel DofSpec RefPatModel GeoModel GeoSpec FeModel LagrModel QuadModel AssembleModel AssembleSpec AssembleProofs
  FeSpec FeProofs LagrProofs LagrProofs2 LagrProofs3 HierSpec HierProofs QuadSpec ElemModel ElemSpec ElemProofs3 ElemProofs7 FeToolsModel FeToolsSpec FeToolsProofs FeToolsProofs2 TransferProofs3 ProlongSpec ProlongProofs ProlongProofs2
  GalerkinModel GalerkinSpec GalerkinProofs GalerkinProofs2 GalerkinProofs3 GalerkinProofs5 GalerkinProofs6 GalerkinProofs8 LinAlg.
Local Open Scope R_scope.

Definition as_list (N : nat) (x : nat -> R) : list R := map x (seq 0 N).
Lemma as_length : forall N x, length (as_list N x) = N. Proof. intros. unfold as_list. rewrite map_length, seq_length. reflexivity. Qed.
Lemma as_nth : forall N x i, (i < N)%nat -> nth i (as_list N x) 0 = x i.
Proof. intros N x i H. unfold as_list. rewrite (nth_indep _ 0 (x 0%nat)) by (rewrite map_length, seq_length; exact H). rewrite map_nth, seq_nth by exact H. reflexivity. Qed.
Lemma mv_ext : forall N D x y i, (forall j, (j < N)%nat -> x j = y j) -> mv Rring N D x i = mv Rring N D y i.
Proof. intros N D x y i H. unfold mv. rewrite !sumn_to. apply sum_to_ext. intros j Hj. cbn [kmul Rring]. rewrite (H j Hj). reflexivity. Qed.
Lemma mv_minus : forall N (D : nat -> nat -> R) (x y : nat -> R) i, mv Rring N D (fun j => x j - y j) i = mv Rring N D x i - mv Rring N D y i.
Proof.
  intros N D x y i. unfold mv. rewrite !sumn_to.
  transitivity (sum_to N (fun j => (D i j : R) * x j + -1 * ((D i j : R) * y j))); [apply sum_to_ext; intros j _; change ((D i j : R) * (x j - y j) = (D i j : R) * x j + -1 * ((D i j : R) * y j)); ring|].
  rewrite sum_to_plus, sum_to_scal. match goal with |- ?u + -1 * ?v = ?u' - ?v' => change (u + -1 * v = u - v) end. ring.
Qed.
Lemma same_lists : forall (a b : list R), length a = length b -> (forall i, (i < length a)%nat -> nth i a 0 = nth i b 0) -> a = b.
Proof. intros a b L H. exact (nth_ext a b 0 0 L H). Qed.

(** The form is definite on the functions that vanish on the selected edges. *)
Section Dirichlet.
Variable (V : fe_space) (sel : ent -> bool) (g : meshfun) (coef : list R).
Let N := NumDofs (sp_dofs V).
Let edges := entities (sp_mesh V) 1.
Hypothesis OK : forall e, In e edges -> sel e = true -> element_ok V e.
Hypothesis EVAL : forall e f x, In e edges -> sel e = true -> sp_layout V e = Some f -> in_ref (ent_type (sp_mesh V) e) x -> evaluates f x.
Hypothesis NODES : forall e f p, In e edges -> sel e = true -> sp_layout V e = Some f -> In p (fe_nodes f) -> in_ref (ent_type (sp_mesh V) e) p.
Hypothesis Lc : length coef = N.
Hypothesis CG : forall e, In e edges -> sel e = true -> coincides V coef g e.

Theorem dirichlet_unique : forall rA rb a l, galerkin_matrix V rA a -> galerkin_vector V rb l -> defined_forms V a l ->
  (forall v, length v = N -> vanishes_on V v sel -> a v v 0 -> v = repeat 0 N) ->
  exists A b fv A' b' D', rA = Ok A /\ rb = Ok b /\ InitEssentialConditionFromFunction V sel g = Ok fv /\
    FixFlaggedSolutionComponents Rring (fun i => nth i fv (false, 0)) A b = Ok (A', b') /\
    AssembleSpec.is_matrix Rring A' N N D' /\ length b' = N /\
    exists mu, length mu = N /\ solves Rring N D' (comp Rring b') (comp Rring mu) /\ weak_solution V sel g a l mu /\
      forall mu', length mu' = N -> solves Rring N D' (comp Rring b') (comp Rring mu') \/ weak_solution V sel g a l mu' -> mu' = mu.
Proof.
  intros rA rb a l GM GV DF DE. destruct (dirichlet_system V sel g coef OK EVAL NODES Lc CG rA rb a l GM GV DF) as (A & b & fv & A' & b' & D' & EA & Eb & Ef & EF & M' & Lb' & IFF).
  exists A, b, fv, A', b', D'. do 6 (split; [assumption|]). fold N in M', Lb', IFF.
  destruct GM as (A0 & D & EA0 & MA & FA). rewrite EA in EA0. injection EA0 as <-. destruct GV as (b0 & Eb0 & Lb & _). rewrite Eb in Eb0. injection Eb0 as <-. fold N in MA, FA, Lb.
  destruct (essential_fe V coef g Lc sel) as (fv0 & Ef0 & Lf & Vf); [intros e Ie Se; split; [apply OK; auto|apply CG; auto]|]. rewrite Ef in Ef0. injection Ef0 as <-. fold N in Lf, Vf. fold edges in Vf.
  destruct (fix_flagged Rring (fun i => nth i fv (false, 0)) A b N D MA Lb) as (A1 & b1 & D1 & EF1 & _ & M1 & S1 & _). rewrite EF in EF1. injection EF1 as <- <-.
  assert (SD : forall x, solves Rring N D' (comp Rring b') x <-> solves Rring N D1 (comp Rring b') x).
  { assert (E : forall x i, (i < N)%nat -> mv Rring N D' x i = mv Rring N D1 x i).
    { intros x i Hi. unfold mv. rewrite !sumn_to. apply sum_to_ext. intros j Hj. rewrite (matrix_unique A' N N D' D1 M' M1 i j Hi Hj). reflexivity. }
    intros x. unfold solves. split; intros H i Hi; specialize (H i Hi); rewrite (E x i Hi) in *; exact H. }
  set (flag i := fst (nth i fv (false, 0))).
  assert (HO : forall x : nat -> R, (forall i, (i < N)%nat -> flag i = true -> x i = 0) -> (forall i, (i < N)%nat -> flag i = false -> mv Rring N D x i = 0) ->
    forall i, (i < N)%nat -> x i = 0).
  { intros x H0 H1 i Hi. set (w := as_list N x). assert (Lw : length w = N) by apply as_length.
    assert (Vw : vanishes_on V w sel).
    { apply (vanish_dofs V sel OK EVAL NODES w Lw). intros e k Ie Se T.
      assert (Hk : (k < N)%nat) by (destruct T as (l0 & Hd & Ik); destruct (OK e Ie Se) as (f & l1 & _ & Hd' & _ & RG & _); unfold has_dofs in *; rewrite Hd in Hd'; injection Hd' as ->; apply RG; exact Ik).
      unfold w. rewrite as_nth by exact Hk. apply H0; [exact Hk|]. unfold flag. destruct (Vf k Hk) as [[U E]|[_ E]]; rewrite (nth_error_nth _ _ _ E); [exfalso; exact (U e Ie Se T)|reflexivity]. }
    destruct (proj1 DF w w Lw Lw) as (y & Hy). assert (Y : y = 0).
    { rewrite <- (FA w w y Lw Lw Hy). unfold N at 1 2. rewrite form_to. fold N. transitivity (sum_to N (fun _ => 0 * 0)); [|rewrite sum_to_scal; ring]. apply sum_to_ext. intros j Hj. unfold w at 1. rewrite as_nth by exact Hj.
      rewrite (mv_ext N D (comp Rring w) x) by (intros q Hq; exact (as_nth N x q Hq)). destruct (flag j) eqn:Fj; [rewrite (H0 j Hj Fj)|rewrite (H1 j Hj Fj)]; cbn; ring. }
    subst y. pose proof (DE w Lw Vw Hy) as Z0. rewrite <- (as_nth N x i Hi). fold w. rewrite Z0. apply nth_repeat. }
  pose proof (solvable N (fun i j => if flag i then (if (j =? i)%nat then 1 else 0) else D i j)) as SV.
  destruct (SV) with (b := fun i => if flag i then snd (nth i fv (false, 0)) else comp Rring b i) as [x Hx].
  { intros x H. apply HO; intros i Hi Fi; specialize (H i Hi); rewrite Fi in H.
    - rewrite (sum_unit N i (fun j => x j) Hi) in H. exact H.
    - unfold mv. rewrite sumn_to. exact H. }
  assert (SX : solves Rring N D' (comp Rring b') (comp Rring (as_list N x))).
  { apply SD, S1. split; intros i Hi Fi; specialize (Hx i Hi); cbv beta in Hx; match type of Fi with _ = ?c => assert (Fi' : flag i = c) by exact Fi end; rewrite Fi' in Hx.
    - rewrite (sum_unit N i (fun j => x j) Hi) in Hx. etransitivity; [exact (as_nth N x i Hi)|exact Hx].
    - rewrite (mv_ext N D (comp Rring (as_list N x)) x) by (intros q Hq; exact (as_nth N x q Hq)). unfold mv. rewrite sumn_to. exact Hx. }
  exists (as_list N x). split; [apply as_length|]. split; [exact SX|]. split; [apply IFF; [apply as_length|exact SX]|].
  intros mu' Lm HS. assert (S' : solves Rring N D' (comp Rring b') (comp Rring mu')) by (destruct HS as [HS|HS]; [exact HS|apply IFF; assumption]).
  apply SD, S1 in S'. apply SD, S1 in SX. destruct S' as [P1 P2]. destruct SX as [Q1 Q2].
  apply same_lists; [rewrite as_length; exact Lm|]. intros i Hi. assert (Hi' : (i < N)%nat) by (rewrite <- Lm; exact Hi). clear Hi. rename Hi' into Hi.
  assert (Q : comp Rring mu' i - comp Rring (as_list N x) i = 0); [|apply Rminus_diag_uniq; exact Q].
  apply (HO (fun i => comp Rring mu' i - comp Rring (as_list N x) i)); [| |exact Hi]; intros j Hj Fj.
  - rewrite (P1 j Hj Fj), (Q1 j Hj Fj). cbn. ring.
  - rewrite mv_minus, (P2 j Hj Fj), (Q2 j Hj Fj). apply Rplus_opp_r.
Qed.
End Dirichlet.
Theorem lagrange_unique : forall k m V g, wf_mesh m -> lagrange_space k m = Ok V -> continuous_function m g ->
  forall sel rA rb a l, let N := NumDofs (sp_dofs V) in
  galerkin_matrix V rA a -> galerkin_vector V rb l -> defined_forms V a l ->
  (forall v, length v = N -> vanishes_on V v sel -> a v v 0 -> v = repeat 0 N) ->
  exists A b fv A' b' D', rA = Ok A /\ rb = Ok b /\ InitEssentialConditionFromFunction V sel g = Ok fv /\
    FixFlaggedSolutionComponents Rring (fun i => nth i fv (false, 0)) A b = Ok (A', b') /\
    AssembleSpec.is_matrix Rring A' N N D' /\ length b' = N /\
    exists mu, length mu = N /\ solves Rring N D' (comp Rring b') (comp Rring mu) /\ weak_solution V sel g a l mu /\
      forall mu', length mu' = N -> solves Rring N D' (comp Rring b') (comp Rring mu') \/ weak_solution V sel g a l mu' -> mu' = mu.
Proof.
  intros k m V g W EV CG sel rA rb a l N. destruct (V_is k m V EV) as (VM & VD & VL). destruct (edge_coincides k m V g W EV CG) as (coef & Lc & C).
  assert (TY : forall e, In e (entities m 1) -> ent_type m e = kSegment) by (intros e Ie; destruct (in_edges m e Ie) as (i & -> & _); reflexivity).
  apply (dirichlet_unique V sel g coef).
  - intros e Ie _. rewrite VM in Ie. apply (lagrange_elements k m V W EV). exact Ie.
  - intros e f x Ie _ Lo Hx. rewrite VM in Ie, Hx. rewrite VL in Lo. injection Lo as <-. destruct (lagrange_describes k (ent_type m e)) as (EL & _ & CO & _).
    apply (co_eval _ CO x). rewrite EL, (in_ref_length _ _ Hx), (TY e Ie). reflexivity.
  - intros e f p Ie _ Lo Ip. rewrite VM in *. rewrite VL in Lo. injection Lo as <-. rewrite (TY e Ie) in *. eapply segment_nodes_in; eauto.
  - exact Lc.
  - intros e Ie _. rewrite VM in Ie. apply C. exact Ie.
Qed.
