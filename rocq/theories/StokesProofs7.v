(** C97: the no-flow problem: system, solution, uniqueness. *)
From Coq Require Import Reals List Arith Lia Lra Bool.
Import ListNotations.
From Verif Require Import Base Scalars MeshModel MeshView RefPatModel GeoModel GeoSpec DofModel DofSpec FlagSpec FlagModel FlagProofs RefineSpec FeModel QuadModel LagrModel
  AssembleModel AssembleSpec AssembleProofs ElemModel ElemSpec ElemProofs ElemProofs3 FeSpec GalerkinModel GalerkinProofs GalerkinProofs5 GalerkinProofs7 HierProofs DpgModel DpgProofs6 NormalModel NormalSpec NormalProofs4 NormalProofs5
  StokesModel StokesSpec StokesProofs StokesProofs2 StokesProofs3 StokesProofs4 StokesProofs5 StokesProofs6 LinAlg.
Local Open Scope R_scope.

Section NoFlow.
Variables (m : mesh) (geom : ent -> geo) (pos : nat -> vec) (n : nat -> nat -> vec).
Hypothesis TR : triangulation m geom pos.
Hypothesis NO : normals_of m geom n.
Hypothesis MF : manifold m.
Variables (sigma : R) (modified : bool) (q : quadrule) (f : vec -> vec) (g : ent -> vec) (check : bool).
Hypothesis SG : sigma <> 0.
Hypothesis RQ : tria_rule q.
Hypothesis FP : of_points f.
Notation d := (u_handler (uniform m stokes_map check)).
Notation nv := (size m 2).
Notation ne := (size m 1).
Notation N := (nv + ne)%nat.
Notation J := (jump m n).
Notation fld := (field_at m geom).
Notation len := (StokesSpec.edge_length m pos).
Notation pen := (penalty m pos sigma modified).
Notation data := (data_at m n g).

Lemma selected : forall bd, (forall v, (v < nv)%nat -> exists b, adget bd 2 v = Ok b /\ (b = true <-> boundary_node m v)) ->
  exists sel, traverse (flagged d bd) (seq 0 (NumDofs d)) = Ok sel /\
    forall i, (i < N)%nat -> snd (nth i sel (false, 0)) = 0 /\ (fst (nth i sel (false, 0)) = true <-> boundary_node m i).
Proof.
  intros bd BN. destruct (tr_trias _ _ _ TR) as [W T]. rewrite (total_dofs m check W T).
  assert (EX : forall i, (i < N)%nat -> exists b, flagged d bd i = Ok (b, 0) /\ (b = true <-> boundary_node m i)).
  { intros i Hi. unfold flagged. destruct (Nat.lt_ge_cases i nv) as [L|L].
    - rewrite (entity_node m check W i L). cbn [bind]. destruct (BN i L) as (b & E & Hb). rewrite E. cbn [bind]. exists b. auto.
    - pose proof (entity_edge m check W (i - nv) ltac:(unfold size in *; lia)) as Q. change (mv_nodes m) with nv in Q. replace (nv + (i - nv))%nat with i in Q by lia. rewrite Q. cbn [bind]. exists false. split; [reflexivity|].
      split; [discriminate|]. intros B. pose proof (node_range m geom pos TR i B). lia. }
  destruct (HierProofs.traverse_all _ _ (flagged d bd) (seq 0 N)) as [sel ES].
  { intros i I. apply in_seq in I. destruct (EX i ltac:(lia)) as (b & E & _). eauto. }
  exists sel. split; [exact ES|]. intros i Hi. destruct (traverse_nth _ _ _ _ _ ES) as [L H]. rewrite seq_length in H. specialize (H i 0%nat (false, 0) Hi).
  rewrite seq_nth in H by exact Hi. destruct (EX i Hi) as (b & E & Hb). cbn [Nat.add] in H. rewrite E in H. injection H as H. rewrite <- H. cbn [fst snd]. auto.
Qed.

Theorem no_flow : exists A b D, buildSystemMatrixNoFlow m geom d f g sigma q modified = Ok (A, b) /\
  AssembleSpec.is_matrix Rring A N N D /\ length b = N /\ (forall i j, (i < N)%nat -> (j < N)%nat -> D i j = D j i) /\
  forall x : nat -> R, solves Rring N D (comp Rring b) x <->
    (forall v, boundary_node m v -> x v = 0) /\
    exists w, curl_of m pos x w /\
      (forall e, (e < ne)%nat -> x (nv + e)%nat = len e * pen e * (J w e - (if boundary_edge m e then tangential_part m n e (g (EEdge e)) else 0))) /\
      (forall y z, (forall v, boundary_node m v -> y v = 0) -> curl_of m pos y z ->
         stokes_form m pos n sigma modified w z = stokes_load m geom pos n sigma modified q f (fun e => g (EEdge e)) z).
Proof.
  destruct (tr_trias _ _ _ TR) as [W T].
  unfold buildSystemMatrixNoFlow. destruct (flags m W) as (bd & -> & BE & BN). cbn [bind].
  destruct (dirichlet_ok m g) as (ds & -> & DS). cbn [bind].
  destruct (matrix_form m geom pos n TR NO sigma modified check bd BE) as (A & D & -> & MA & FA). cbn [bind].
  destruct (vector_form m geom pos n TR NO q f g check RQ FP bd BE ds DS) as (b & -> & Lb & Fb). cbn [bind].
  unfold fix_boundary. destruct (selected bd BN) as (sel & -> & SE). cbn [bind].
  destruct (fix_flagged Rring (fun i => nth i sel (false, 0)) A b N D MA Lb) as (A' & b' & D' & EF & Lb' & MA' & SO & SY).
  exists A', b', D'. split; [exact EF|]. split; [exact MA'|]. split; [exact Lb'|]. split.
  - apply SY. intros i j Hi Hj.
    assert (U : forall i j, (i < N)%nat -> (j < N)%nat -> D i j = form Rring N N D (fun k => if (k =? i)%nat then 1 else 0) (fun k => if (k =? j)%nat then 1 else 0)).
    { intros i' j' Hi' Hj'. rewrite (form_unit m) by exact Hi'. unfold mv. rewrite sumn_to. cbn [kmul Rring]. symmetry.
      etransitivity; [|apply (sum_unit N j' (fun k => D i' k) Hj')]. apply sum_to_ext. intros k _. apply Rmult_comm. }
    rewrite (U i j Hi Hj), (U j i Hj Hi), !FA. apply sum_to_ext. intros e _. ring.
  - intros x. rewrite SO.
    assert (EQ : (forall i, (i < N)%nat -> fst (nth i sel (false, 0)) = false -> mv Rring N D x i = comp Rring b i) <-> tested m geom pos n sigma modified q f g x).
    { split.
      - intros H v Hv. transitivity (form Rring N N D v x).
        + rewrite FA. apply sum_to_ext. intros e He. rewrite (diag_is m geom pos TR MF sigma modified SG e He). ring.
        + unfold form. rewrite sumn_to. rewrite <- Fb. apply sum_to_ext. intros i Hi. cbn [kmul Rring].
          destruct (fst (nth i sel (false, 0))) eqn:Ef.
          * rewrite (Hv i) by (apply (proj1 (proj2 (SE i Hi))); exact Ef). cbn [k0 Rring]. ring.
          * rewrite (H i Hi Ef). unfold comp. change (@nth (car Rring)) with (@nth R). cbn [k0 Rring]. ring.
      - intros H i Hi Ef. rewrite <- (form_unit m) by exact Hi. unfold comp. change (@nth (car Rring)) with (@nth R). cbn [k0 Rring].
        etransitivity; [|apply (sum_unit' m b i Hi)]. rewrite Fb, FA.
        rewrite <- (H (fun k => if (k =? i)%nat then 1 else 0)).
        + apply sum_to_ext. intros e He. rewrite (diag_is m geom pos TR MF sigma modified SG e He). rewrite Ropp_mult_distr_l_reverse. reflexivity.
        + intros j Bj. destruct (Nat.eqb_spec j i) as [->|]; [|reflexivity]. apply (proj2 (proj2 (SE i Hi))) in Bj. congruence. }
    rewrite EQ. clear EQ. 
    assert (B0 : (forall i, (i < N)%nat -> fst (nth i sel (false, 0)) = true -> x i = snd (nth i sel (false, 0))) <-> (forall v, boundary_node m v -> x v = 0)).
    { split.
      - intros H v Bv. pose proof (node_range m geom pos TR v Bv) as Hv. rewrite (H v) by (try lia; apply (proj2 (proj2 (SE v ltac:(lia)))); exact Bv). apply SE. lia.
      - intros H i Hi Ef. rewrite (proj1 (SE i Hi)). apply H. apply (proj1 (proj2 (SE i Hi))). exact Ef. }
    split; intros [H1 H2]; (split; [apply B0, H1|]).
    + exists (fld x). split; [apply (field_curl m geom pos TR)|]. split.
      * exact (tested_edges m geom pos n TR MF sigma modified q f g SG x H2).
      * exact (tested_form m geom pos n TR MF sigma modified q f g SG x H2).
    + destruct H2 as (w & Cw & EE & VA).
      assert (SW : forall c, (c < size m 0)%nat -> same_points (w c) (fld x c)) by (intros c Hc; apply (curl_unique m geom pos TR x); [exact Cw|apply (field_curl m geom pos TR)|exact Hc]).
      apply (tested_intro m geom pos n TR MF sigma modified q f g SG).
      * intros e He. rewrite <- (jump_ext m n w (fld x) e SW). exact (EE e He).
      * intros y z Hy Hz. rewrite <- (VA y z Hy Hz). unfold stokes_form. apply sum_to_ext. intros e _. rewrite <- (jump_ext m n w (fld x) e SW). reflexivity.
Qed.
End NoFlow.
