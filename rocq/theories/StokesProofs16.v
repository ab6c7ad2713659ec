(** C100: the system with flow across the boundary. *)
From Coq Require Import Reals List Arith Lia Lra Bool.
Import ListNotations.
From Verif Require Import Base Scalars MeshModel MeshView RefPatModel GeoModel GeoSpec DofModel DofSpec DofProofs FlagSpec FlagModel FlagProofs RefineSpec FeModel QuadModel LagrModel
  AssembleModel AssembleSpec AssembleProofs ElemModel ElemSpec ElemProofs ElemProofs3 FeSpec GalerkinModel GalerkinProofs GalerkinProofs5 GalerkinProofs7 HierProofs DpgModel DpgProofs6 NormalModel NormalSpec NormalProofs NormalProofs2 NormalProofs4 NormalProofs5 NormalProofs6
  LinAlg StokesModel StokesSpec StokesProofs StokesProofs2 StokesProofs3 StokesProofs4 StokesProofs5 StokesProofs6 StokesProofs7 StokesProofs8 StokesProofs9 StokesProofs10 StokesProofs12 StokesProofs13 StokesProofs14 StokesProofs15 FlowSpec.
Local Open Scope R_scope.

Section InOut.
Variables (m : mesh) (geom : ent -> geo) (pos : nat -> vec) (n : nat -> nat -> vec).
Hypothesis TR : triangulation m geom pos.
Hypothesis NO : normals_of m geom n.
Hypothesis MF : manifold m.
Hypothesis NV : no_overlap m geom.
Hypothesis SB : exists v, boundary_node m v.
Hypothesis CC : closed_curves m.
Hypothesis CN : connected_boundary m.
Variable solver : dense Rring -> list R -> res (list R).
Hypothesis ES : exact_solver solver.
Variables (sigma : R) (modified : bool) (q : quadrule) (f : vec -> vec) (g : ent -> vec) (check : bool).
Hypothesis SG : sigma <> 0.
Hypothesis RQ : tria_rule q.
Hypothesis FP : of_points f.
Notation d := (u_handler (uniform m stokes_map check)).
Notation be := (boundary_edge m).
Notation nv := (size m 2).
Notation ne := (size m 1).
Notation N := (nv + ne)%nat.
Notation J := (jump m n).
Notation fld := (field_at m geom).
Notation len := (StokesSpec.edge_length m pos).
Notation pen := (penalty m pos sigma modified).
Notation flow_of e := (normal_part m n e (g (EEdge e)) - mean_flow m pos n (fun e => g (EEdge e))).

Lemma field_nodes : forall (x y : nat -> R) c, (c < size m 0)%nat -> (forall v, (v < nv)%nat -> x v = y v) -> same_points (fld x c) (fld y c).
Proof.
  intros x y c Hc H k _. destruct (tr_trias _ _ _ TR) as [W T]. unfold field_at, comb.
  destruct (cell_parts m W T c Hc) as (v & n0 & n1 & n2 & e0 & e1 & e2 & E & EC & En & Ee & H0 & H1 & H2 & _). unfold node_at. rewrite EC, En. cbn [nth]. rewrite !H by assumption. reflexivity.
Qed.
Lemma curl_nodes : forall (x y : nat -> R) w, (forall v, (v < nv)%nat -> x v = y v) -> curl_of m pos x w -> curl_of m pos y w.
Proof.
  intros x y w H C c v E. destruct (C c v E) as (r & g0 & g1 & V & W). exists r, g0, g1. split; [|exact W]. intros p I. rewrite <- V by exact I. symmetry. apply H.
  destruct (cell_shape m c v (tr_trias _ _ _ TR) E) as (_ & _ & _ & _ & _ & _ & _ & _ & WC). pose proof (wc_nodes _ _ WC) as F. rewrite Forall_forall in F. exact (F _ I).
Qed.
Lemma through_sum : forall (x y : nat -> R) e, through m n (fld (fun v => x v + y v)) e = through m n (fld x) e + through m n (fld y) e.
Proof.
  intros x y e. unfold through. rewrite <- sum_to_plus. apply sum_to_ext. intros c _. rewrite <- sum_to_plus. apply sum_to_ext. intros i _. destruct (is_side m c i e); [|ring].
  rewrite !inner2. unfold field_at, comb. ring.
Qed.
(** Velocities that come from boundary values of an offset. *)
Lemma boundary_flow : forall (x o : nat -> R) w, (forall v, boundary_node m v -> x v = 0) -> curl_of m pos (fun v => x v + o v) w ->
  forall e, (e < ne)%nat -> be e = true -> through m n w e = through m n (fld o) e.
Proof.
  intros x o w B C e He Be.
  rewrite (through_ext m n w (fld (fun v => x v + o v)) e) by (intros c Hc; apply (curl_unique m geom pos TR (fun v => x v + o v)); [exact C|apply (field_curl m geom pos TR)|exact Hc]).
  rewrite through_sum. destruct (nth_error (mv_edges m) e) as [[a b]|] eqn:E; [|apply nth_error_None in E; unfold size in He; lia].
  rewrite (proj2 (no_difference m geom pos n TR NO MF x (fld x) e a b (field_curl m geom pos TR x) Be He E)); [ring|].
  rewrite !B by (exists e, a, b; auto). reflexivity.
Qed.

Definition nodal (off : list R) (i : nat) : R := if (i <? nv)%nat then nth i off 0 else 0.

(** The parts of the construction. *)
Lemma parts_of : exists As D b off sel A' b' D', buildSystemMatrixInOutFlow m geom solver d f g sigma q modified = Ok (A', b', off) /\
  AssembleSpec.is_matrix Rring A' N N D' /\ length b' = N /\ length off = N /\ length b = N /\ length As = N /\
  (forall v, (v < nv)%nat -> ~ boundary_node m v -> nth v off 0 = 0) /\
  (forall e, (e < ne)%nat -> be e = true -> through m n (fld (fun v => nth v off 0)) e = flow_of e) /\
  (forall e, (e < ne)%nat -> nth (nv + e) off 0 = mv Rring N D (nodal off) (nv + e)) /\
  (forall v u : nat -> R, form Rring N N D v u = sum_to ne (fun e =>
    u (nv + e)%nat * J (fld v) e + v (nv + e)%nat * J (fld u) e + INR (adjacent m e) * diagonal m pos sigma modified e * (v (nv + e)%nat * u (nv + e)%nat))) /\
  (forall v : nat -> R, sum_to N (fun i => nth i b 0 * v i) = cell_load m geom q f (fld v) + sum_to ne (fun e => v (nv + e)%nat * data_at m n g e)) /\
  (forall i, (i < N)%nat -> snd (nth i sel (false, 0)) = 0 /\ (fst (nth i sel (false, 0)) = true <-> boundary_node m i)) /\
  (forall i, (i < N)%nat -> nth i As 0 = mv Rring N D (nodal off) i) /\
  (forall x : nat -> R, solves Rring N D' (comp Rring b') x <->
       ((forall i, (i < N)%nat -> fst (nth i sel (false, 0)) = true -> x i = snd (nth i sel (false, 0))) /\
        (forall i, (i < N)%nat -> fst (nth i sel (false, 0)) = false -> mv Rring N D x i = nth i b 0 - nth i As 0))) /\
  ((forall i j, (i < N)%nat -> (j < N)%nat -> D i j = D j i) -> forall i j, (i < N)%nat -> (j < N)%nat -> D' i j = D' j i).
Proof.
  destruct (tr_trias _ _ _ TR) as [W T]. unfold buildSystemMatrixInOutFlow. destruct (flags m W) as (bd & -> & BE & BN). cbn [bind].
  destruct (dirichlet_ok m g) as (ds & -> & DS). cbn [bind].
  destruct (matrix_form m geom pos n TR NO sigma modified check bd BE) as (A & D & -> & MA & FA). cbn [bind].
  destruct (vector_form m geom pos n TR NO q f g check RQ FP bd BE ds DS) as (b & -> & Lb & Fb). cbn [bind].
  assert (NP : (0 < nv)%nat) by (destruct SB as (v0 & B0); pose proof (node_range m geom pos TR v0 B0); lia).
  pose proof (sparse_spec Rring A _ _ D MA) as MS. rewrite (proj2 (Nat.ltb_lt 0 N)) in MS by lia. cbn [andb] in MS. destruct MS as (As & -> & RA & CA & DA). cbn [bind].
  set (bn := fun v => match adget bd 2 v with Ok x => x | _ => false end).
  assert (BN' : forall v, (v < nv)%nat -> adget bd 2 v = Ok (bn v)) by (intros v Hv; unfold bn; destruct (BN v Hv) as (x & -> & _); reflexivity).
  assert (BB : forall v, (v < nv)%nat -> (bn v = true <-> boundary_node m v)) by (intros v Hv; unfold bn; destruct (BN v Hv) as (x & -> & Hx); exact Hx).
  destruct (offset_is m geom pos n TR NO bd bn BE BN' g check MF NV BB SB CC CN solver ES As RA CA) as (off & -> & Lo & O1 & O2 & O3). cbn [bind].
  change (mv_count m 2) with nv. rewrite CA, Lo. rewrite (proj2 (Nat.leb_le nv N)) by lia. cbn [andb lf_assert bind]. rewrite (total_dofs m check W T).
  change (mv_nodes m + length (mv_edges m))%nat with N.
  set (sh := block_times As 0 N (firstn nv off)).
  assert (Lsh : length sh = N) by apply block_length.
  assert (LF : length (firstn nv off) = nv) by (rewrite firstn_length; lia).
  assert (NOD : forall i, (i < N)%nat -> sum_to nv (fun j => d_coef Rring As i j * nth j off 0) = mv Rring N D (nodal off) i).
  { intros i Hi. unfold mv. rewrite (sumn_to N). rewrite (sum_split nv ne). rewrite (sum_zero ne).
    - rewrite Rplus_0_r. apply sum_to_ext. intros j Hj. rewrite DA by lia. unfold nodal. rewrite (proj2 (Nat.ltb_lt j nv) Hj). reflexivity.
    - intros j _. unfold nodal. destruct (Nat.ltb_spec (nv + j) nv); [lia|]. rring. }
  set (rhs := map (fun p : R * R => fst p - snd p) (combine b sh)).
  assert (Lr : length rhs = N) by (unfold rhs; rewrite map_length, combine_length; lia).
  unfold fix_boundary. destruct (selected m geom pos TR check bd BN) as (sel & -> & SE). cbn [bind].
  destruct (fix_flagged Rring (fun i => nth i sel (false, 0)) A rhs N D MA Lr) as (A' & b' & D' & EF & Lb' & MA' & SO & SY).
  rewrite EF. cbn [bind fst snd].
  exists sh, D, b, off, sel, A', b', D'. split; [reflexivity|]. split; [exact MA'|]. split; [exact Lb'|]. split; [exact Lo|]. split; [exact Lb|]. split; [exact Lsh|]. split; [exact O1|]. split; [exact O2|].
  split; [intros e He; rewrite (O3 e He); apply NOD; lia|]. split; [exact FA|]. split; [exact Fb|]. split; [exact SE|]. 
  split.
  { intros i Hi. unfold sh. rewrite (block_nth As 0 N (firstn nv off) i Hi), LF. rewrite <- (NOD i Hi). cbn [Nat.add]. apply sum_to_ext. intros j Hj. rewrite <- (firstn_skipn nv off) at 2. rewrite app_nth1 by lia. reflexivity. }
  split; [|exact SY].
  intros x. rewrite SO. assert (CR : forall i, (i < N)%nat -> comp Rring rhs i = nth i b 0 - nth i sh 0).
  { intros i Hi. unfold comp, rhs. change (@nth (car Rring)) with (@nth R). cbn [k0 Rring]. rewrite (nth_indep _ 0 ((fun p : R * R => fst p - snd p) (0, 0))) by (rewrite map_length, combine_length; lia).
    rewrite (map_nth (fun p : R * R => fst p - snd p)), combine_nth by lia. reflexivity. }
  split; intros [H1 H2]; (split; [exact H1|]); intros i Hi Ef; specialize (H2 i Hi Ef); [rewrite <- CR by exact Hi|rewrite CR by exact Hi]; exact H2.
Qed.

Lemma mv_plus : forall (D : nat -> nat -> R) (x y : nat -> R) i, mv Rring N D (fun j => x j + y j) i = mv Rring N D x i + mv Rring N D y i.
Proof. intros. unfold mv. rewrite !sumn_to. rewrite <- sum_to_plus. apply sum_to_ext. intros j _. exact (Rmult_plus_distr_l (D i j) (x j) (y j)). Qed.

Theorem in_out_flow : exists A b D off, buildSystemMatrixInOutFlow m geom solver d f g sigma q modified = Ok (A, b, off) /\
  AssembleSpec.is_matrix Rring A N N D /\ length b = N /\ length off = N /\ (forall i j, (i < N)%nat -> (j < N)%nat -> D i j = D j i) /\
  ((forall v, (v < nv)%nat -> ~ boundary_node m v -> nth v off 0 = 0) /\
   exists w, curl_of m pos (fun v => nth v off 0) w /\
     (forall e, (e < ne)%nat -> be e = true -> through m n w e = flow_of e) /\
     (forall e, (e < ne)%nat -> nth (nv + e) off 0 = J w e)) /\
  forall x : nat -> R, solves Rring N D (comp Rring b) x <->
    (forall v, boundary_node m v -> x v = 0) /\
    exists w, curl_of m pos (fun v => x v + nth v off 0) w /\
      (forall e, (e < ne)%nat -> x (nv + e)%nat = len e * pen e * (J w e - (if be e then tangential_part m n e (g (EEdge e)) else 0))) /\
      (forall y z, (forall v, boundary_node m v -> y v = 0) -> curl_of m pos y z ->
         stokes_form m pos n sigma modified w z = stokes_load m geom pos n sigma modified q f (fun e => g (EEdge e)) z).
Proof.
  destruct parts_of as (sh & D & b & off & sel & A' & b' & D' & E & MA' & Lb' & Lo & Lb & Lsh & O1 & O2 & O3 & FA & Fb & SE & SH & SO & SY).
  exists A', b', D', off. split; [exact E|]. split; [exact MA'|]. split; [exact Lb'|]. split; [exact Lo|].
  assert (NF : forall x : nat -> R, (forall v, (v < nv)%nat -> nodal off v + x v = nth v off 0 + x v)) by (intros x v Hv; unfold nodal; rewrite (proj2 (Nat.ltb_lt v nv) Hv); reflexivity).
  split; [|split].
  - apply SY. intros i j Hi Hj.
    assert (U : forall i j, (i < N)%nat -> (j < N)%nat -> D i j = form Rring N N D (fun k => if (k =? i)%nat then 1 else 0) (fun k => if (k =? j)%nat then 1 else 0)).
    { intros i' j' Hi' Hj'. rewrite (form_unit m) by exact Hi'. unfold mv. rewrite sumn_to. cbn [kmul Rring]. symmetry.
      etransitivity; [|apply (sum_unit N j' (fun k => D i' k) Hj')]. apply sum_to_ext. intros k _. apply Rmult_comm. }
    rewrite (U i j Hi Hj), (U j i Hj Hi), !FA. apply sum_to_ext. intros e _. ring.
  - split; [exact O1|]. exists (fld (fun v => nth v off 0)). split; [apply (field_curl m geom pos TR)|]. split; [exact O2|].
    intros e He. rewrite (O3 e He). rewrite <- (form_unit m) by lia. rewrite FA.
    assert (Z : forall i, (i < nv)%nat -> (if (i =? nv + e)%nat then 1 else 0) = 0) by (intros i Hi; destruct (Nat.eqb_spec i (nv + e)); [lia|reflexivity]).
    etransitivity; [|apply (sum_unit ne e (fun e => J (fld (fun v => nth v off 0)) e) He)]. apply sum_to_ext. intros e' He'.
    match goal with |- _ * J ?u e' + _ + _ = _ => assert (JZ : J u e' = 0) by (apply jump_zero; intros c Hc; apply (field_zero m geom pos TR _ c Hc Z)); rewrite JZ end.
    replace (nv + e' =? nv + e)%nat with (e' =? e)%nat by (destruct (Nat.eqb_spec e' e), (Nat.eqb_spec (nv + e') (nv + e)); try reflexivity; lia).
    unfold nodal at 1 3. destruct (Nat.ltb_spec (nv + e') nv); [lia|].
    rewrite (jump_ext m n (fld (nodal off)) (fld (fun v => nth v off 0)) e').
    + destruct (e' =? e)%nat; rring.
    + intros c Hc. apply field_nodes; [exact Hc|]. intros v Hv. unfold nodal. rewrite (proj2 (Nat.ltb_lt v nv) Hv). reflexivity.
  - intros x. rewrite SO. set (xt := fun i => x i + nodal off i).
    assert (EQ : (forall i, (i < N)%nat -> fst (nth i sel (false, 0)) = false -> mv Rring N D x i = nth i b 0 - nth i sh 0) <-> tested m geom pos n sigma modified q f g xt).
    { split.
      - intros H v Hv. transitivity (form Rring N N D v xt).
        + rewrite FA. apply sum_to_ext. intros e He. rewrite (diag_is m geom pos TR MF sigma modified SG e He). ring.
        + unfold form. rewrite sumn_to. rewrite <- Fb. apply sum_to_ext. intros i Hi. cbn [kmul Rring].
          destruct (fst (nth i sel (false, 0))) eqn:Ef.
          * rewrite (Hv i) by (apply (proj1 (proj2 (SE i Hi))); exact Ef). cbn [k0 Rring]. ring.
          * unfold xt. rewrite mv_plus, (H i Hi Ef), (SH i Hi). ring.
      - intros H i Hi Ef. rewrite (SH i Hi). apply Rplus_eq_reg_r with (mv Rring N D (nodal off) i). rewrite <- mv_plus. fold xt.
        replace (nth i b 0 - mv Rring N D (nodal off) i + mv Rring N D (nodal off) i) with (nth i b 0) by ring. rewrite <- (form_unit m) by exact Hi.
        etransitivity; [|apply (sum_unit' m b i Hi)]. rewrite Fb, FA.
        rewrite <- (H (fun k => if (k =? i)%nat then 1 else 0)).
        + apply sum_to_ext. intros e He. rewrite (diag_is m geom pos TR MF sigma modified SG e He). rewrite Ropp_mult_distr_l_reverse. reflexivity.
        + intros j Bj. destruct (Nat.eqb_spec j i) as [->|]; [|reflexivity]. apply (proj2 (proj2 (SE i Hi))) in Bj. congruence. }
    rewrite EQ. clear EQ.
    assert (B0 : (forall i, (i < N)%nat -> fst (nth i sel (false, 0)) = true -> x i = snd (nth i sel (false, 0))) <-> (forall v, boundary_node m v -> x v = 0)).
    { split.
      - intros H v Bv. pose proof (node_range m geom pos TR v Bv) as Hv. rewrite (H v) by (try lia; apply (proj2 (proj2 (SE v ltac:(lia)))); exact Bv). apply SE. lia.
      - intros H i Hi Ef. rewrite (proj1 (SE i Hi)). apply H. apply (proj1 (proj2 (SE i Hi))). exact Ef. }
    assert (XN : forall v, (v < nv)%nat -> xt v = x v + nth v off 0) by (intros v Hv; unfold xt, nodal; rewrite (proj2 (Nat.ltb_lt v nv) Hv); reflexivity).
    assert (XE : forall e, xt (nv + e)%nat = x (nv + e)%nat) by (intros e; unfold xt, nodal; destruct (Nat.ltb_spec (nv + e) nv); [lia|ring]).
    split; intros [H1 H2]; (split; [apply B0, H1|]).
    + exists (fld xt). split; [apply (curl_nodes xt); [exact XN|apply (field_curl m geom pos TR)]|]. split.
      * intros e He. rewrite <- XE. exact (tested_edges m geom pos n TR MF sigma modified q f g SG xt H2 e He).
      * exact (tested_form m geom pos n TR MF sigma modified q f g SG xt H2).
    + destruct H2 as (w & Cw & EE & VA).
      assert (SW : forall c, (c < size m 0)%nat -> same_points (w c) (fld xt c)).
      { intros c Hc; apply (curl_unique m geom pos TR xt); [|apply (field_curl m geom pos TR)|exact Hc]. apply (curl_nodes (fun v => x v + nth v off 0)); [intros v Hv; symmetry; apply XN, Hv|exact Cw]. }
      apply (tested_intro m geom pos n TR MF sigma modified q f g SG).
      * intros e He. rewrite XE. rewrite <- (jump_ext m n w (fld xt) e SW). exact (EE e He).
      * intros y z Hy Hz. rewrite <- (VA y z Hy Hz). unfold stokes_form. apply sum_to_ext. intros e _. rewrite <- (jump_ext m n w (fld xt) e SW). reflexivity.
Qed.

(** What the caller makes of it: the velocity of the sum. *)
Theorem in_out_velocity : exists A b D off, buildSystemMatrixInOutFlow m geom solver d f g sigma q modified = Ok (A, b, off) /\
  AssembleSpec.is_matrix Rring A N N D /\ length off = N /\
  forall sol total, length sol = N -> length total = N -> solves Rring N D (comp Rring b) (comp Rring sol) ->
    (forall i, (i < N)%nat -> nth i total 0 = nth i sol 0 + nth i off 0) ->
    exists s w, extractVelocity m geom d total = Ok s /\ (forall c, (c < size m 0)%nat -> dget s 0 c = Ok (w c)) /\
      conserved m pos n w /\ (forall e, (e < ne)%nat -> be e = true -> through m n w e = flow_of e) /\
      (forall y z, (forall v, boundary_node m v -> y v = 0) -> curl_of m pos y z ->
         stokes_form m pos n sigma modified w z = stokes_load m geom pos n sigma modified q f (fun e => g (EEdge e)) z).
Proof.
  destruct in_out_flow as (A & b & D & off & E & MA & Lb & Lo & SY & (O1 & wo & Co & O2 & O3) & H). exists A, b, D, off. split; [exact E|]. split; [exact MA|]. split; [exact Lo|].
  intros sol total Ls Lt S Ht. destruct (velocity m geom pos TR check total Lt) as (s & w & Es & Hw & C). exists s, w. split; [exact Es|]. split; [exact Hw|].
  split; [apply (flow m geom pos n TR NO _ w C); exact NV|]. apply H in S. destruct S as (B0 & w' & Cw & _ & VA).
  assert (C' : curl_of m pos (fun v => comp Rring sol v + nth v off 0) w) by (apply (curl_nodes (fun v => nth v total 0)); [intros v Hv; apply Ht; lia|exact C]).
  split.
  - intros e He Be. rewrite (boundary_flow _ _ w B0 C' e He Be). rewrite <- (O2 e He Be). symmetry. apply through_ext. intros c Hc. apply (curl_unique m geom pos TR (fun v => nth v off 0)); [exact Co|apply (field_curl m geom pos TR)|exact Hc].
  - intros y z Hy Hz. rewrite <- (VA y z Hy Hz). unfold stokes_form. apply sum_to_ext. intros e _.
    rewrite (jump_ext m n w w' e); [reflexivity|]. intros c Hc. apply (curl_unique m geom pos TR (fun v => comp Rring sol v + nth v off 0)); [exact C'|exact Cw|exact Hc].
Qed.

Hypothesis SP : 0 < sigma.
Hypothesis AR : all_reached m.
Hypothesis CM : complete_mesh m.
Theorem in_out_solution : exists A b D off, buildSystemMatrixInOutFlow m geom solver d f g sigma q modified = Ok (A, b, off) /\
  AssembleSpec.is_matrix Rring A N N D /\ length b = N /\
  exists x, solves Rring N D (comp Rring b) x /\ forall y, solves Rring N D (comp Rring b) y -> forall i, (i < N)%nat -> y i = x i.
Proof.
  destruct parts_of as (sh & D & b & off & sel & A' & b' & D' & E & MA' & Lb' & Lo & Lb & Lsh & O1 & O2 & O3 & FA & Fb & SE & SH & SO & SY).
  exists A', b', D', off. split; [exact E|]. split; [exact MA'|]. split; [exact Lb'|].
  set (flag i := fst (nth i sel (false, 0))).
  assert (HO : forall x : nat -> R, (forall i, (i < N)%nat -> flag i = true -> x i = 0) -> (forall i, (i < N)%nat -> flag i = false -> mv Rring N D x i = 0) ->
    forall i, (i < N)%nat -> x i = 0).
  { intros x H0 H1. apply (homogeneous m geom pos n TR NO MF sigma modified q SP AR CM).
    - intros v Bv. pose proof (node_range m geom pos TR v Bv) as Hv. apply H0; [lia|]. apply (proj2 (proj2 (SE v ltac:(lia)))). exact Bv.
    - intros v Hv. transitivity 0.
      + transitivity (form Rring N N D v x).
        * rewrite FA. apply sum_to_ext. intros e He. rewrite (diag_is m geom pos TR MF sigma modified SG e He). ring.
        * unfold form. rewrite sumn_to. apply sum_zero. intros i Hi. cbn [kmul Rring]. destruct (flag i) eqn:Ef.
          -- rewrite (Hv i) by (apply (proj1 (proj2 (SE i Hi))); exact Ef). cbn [k0 Rring]. apply Rmult_0_l.
          -- rewrite (H1 i Hi Ef). apply Rmult_0_r.
      + symmetry. rewrite (sum_zero ne).
        * assert (C0 : cell_load m geom q (fun _ _ => 0) (fld v) = 0); [|rewrite C0; ring]. apply sum_zero. intros c _. apply sum_zero. intros k _. rewrite inner2. ring.
        * intros e _. unfold data_at. destruct (boundary_edge m e); [|ring]. unfold tangential_part. rewrite jump_zero; [ring|]. intros c _ k _. reflexivity. }
  pose proof (solvable N (fun i j => if flag i then (if (j =? i)%nat then 1 else 0) else D i j)) as SV.
  assert (UN : forall (x : nat -> R) i, (i < N)%nat -> sum_to N (fun j => (if (j =? i)%nat then 1 else 0) * x j) = x i).
  { intros x i Hi. apply (sum_unit N i (fun j => x j) Hi). }
  destruct (SV) with (b := fun i => if flag i then snd (nth i sel (false, 0)) else nth i b 0 - nth i sh 0) as [x Hx].
  { intros x H. apply HO; intros i Hi Ef; specialize (H i Hi); rewrite Ef in H.
    - rewrite UN in H by exact Hi. exact H.
    - unfold mv. rewrite (sumn_to N). exact H. }
  exists x. split.
  - apply SO. split; intros i Hi Ef; specialize (Hx i Hi); cbv beta in Hx; match type of Ef with _ = ?b => assert (Ef' : flag i = b) by exact Ef end; rewrite Ef' in Hx.
    + rewrite UN in Hx by exact Hi. exact Hx.
    + unfold mv. rewrite (sumn_to N). exact Hx.
  - intros y Hy. apply SO in Hy. destruct Hy as [Hy1 Hy2].
    assert (Q : forall i, (i < N)%nat -> y i - x i = 0); [|intros i Hi; specialize (Q i Hi); lra].
    apply (HO (fun i => y i - x i)); intros i Hi Ef; specialize (Hx i Hi); rewrite Ef in Hx.
    + rewrite UN in Hx by exact Hi. rewrite Hx, (Hy1 i Hi Ef). cbn. ring.
    + assert (EE : mv Rring N D (fun i => y i - x i) i = mv Rring N D y i - mv Rring N D x i).
      { unfold mv. rewrite !sumn_to. cbn [kmul Rring]. 
        unfold Rminus. rewrite <- sum_to_opp', <- sum_to_plus. apply sum_to_ext. intros j _. exact (Rmult_minus_distr_l (D i j) (y j) (x j)). }
      rewrite EE, (Hy2 i Hi Ef). unfold mv. rewrite (sumn_to N). cbn [kmul Rring]. rewrite Hx. apply Rplus_opp_r.
Qed.
End InOut.
