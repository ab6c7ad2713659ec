(** C97: the system has exactly one solution. *)
From Coq Require Import Reals List Arith Lia Lra Bool.
Import ListNotations.
From Verif Require Import Base Scalars MeshModel MeshView RefPatModel GeoModel GeoSpec DofModel DofSpec FlagSpec FlagModel FlagProofs RefineSpec FeModel QuadModel LagrModel
  AssembleModel AssembleSpec AssembleProofs ElemModel ElemSpec ElemProofs ElemProofs3 FeSpec GalerkinModel GalerkinProofs GalerkinProofs5 GalerkinProofs7 HierProofs DpgModel DpgProofs6 NormalModel NormalSpec NormalProofs NormalProofs4 NormalProofs5 NormalProofs6
  StokesModel StokesSpec StokesProofs StokesProofs2 StokesProofs3 StokesProofs4 StokesProofs5 StokesProofs6 StokesProofs7 LinAlg.
Local Open Scope R_scope.

(** * Sums over the sides at an edge *)
Definition pick (c i : nat) (F : nat -> nat -> R) (a b : nat) : R := if (a =? c)%nat && (b =? i)%nat then F a b else 0.
Lemma over_single : forall m c i e F, (c < size m 0)%nat -> (i < 3)%nat -> is_side m c i e = true -> over_sides m (pick c i F) e = F c i.
Proof.
  intros m c i e F Hc Hi S. unfold over_sides.
  transitivity (sum_to (size m 0) (fun a => if (c =? a)%nat then sum_to 3 (fun b => if (i =? b)%nat then (if is_side m a b e then F a b else 0) else 0) else 0)).
  - apply sum_to_ext. intros a _. unfold pick. rewrite (Nat.eqb_sym a c). destruct (c =? a)%nat; cbn [andb].
    + apply sum_to_ext. intros b _. rewrite (Nat.eqb_sym b i). destruct (i =? b)%nat, (is_side m a b e); reflexivity.
    + apply sum_zero. intros b _. destruct (is_side m a b e); reflexivity.
  - rewrite (sum_one (size m 0) c (fun a => sum_to 3 (fun b => if (i =? b)%nat then (if is_side m a b e then F a b else 0) else 0)) Hc).
    rewrite (sum_one 3 i (fun b => if is_side m c b e then F c b else 0) Hi). rewrite S. reflexivity.
Qed.
Lemma over_plus : forall m F G e, over_sides m (fun c i => F c i + G c i) e = over_sides m F e + over_sides m G e.
Proof.
  intros m F G e. unfold over_sides. rewrite <- sum_to_plus. apply sum_to_ext. intros c _. rewrite <- sum_to_plus. apply sum_to_ext. intros i _.
  destruct (is_side m c i e); lra.
Qed.
Lemma over_ext : forall m F G e, (forall c i, edge_of m c i e -> F c i = G c i) -> over_sides m F e = over_sides m G e.
Proof.
  intros m F G e H. unfold over_sides. apply sum_to_ext. intros c _. apply sum_to_ext. intros i _.
  destruct (is_side m c i e) eqn:S; [|reflexivity]. apply H, side_edge_of, S.
Qed.
Lemma side_bounds : forall m c i e, trias m -> edge_of m c i e -> (c < size m 0)%nat /\ (i < 3)%nat /\ is_side m c i e = true.
Proof.
  intros m c i e T O. assert (S := proj2 (side_edge_of m c i e) O). destruct O as (v & E & Ei). split; [apply nth_error_Some; congruence|]. split; [|exact S].
  destruct (cell_shape m c v T E) as (_ & _ & _ & e0 & e1 & e2 & _ & Ee & _). assert (L : (i < length (cv_edges v))%nat) by (apply nth_error_Some; congruence). rewrite Ee in L. exact L.
Qed.
Lemma all_sides : forall m e, has_size (fun ck => edge_of m (fst ck) (snd ck) e) (adjacent m e).
Proof.
  intros m e. unfold adjacent.
  assert (G : flat_map (fun i => cv_edges (cell_at m i)) (seq 0 (length (mv_cells m))) = flat_map cv_edges (mv_cells m)).
  { unfold cell_at. generalize (mv_cells m) as l. intros l.
    assert (K : forall l1 l2, flat_map (fun i => cv_edges (nth i (l1 ++ l2) (mkCellv [] [] []))) (seq (length l1) (length l2)) = flat_map cv_edges l2).
    { intros l1 l2. revert l1. induction l2 as [|y l2 IH]; intros l1; [reflexivity|]. cbn [length seq flat_map]. rewrite app_nth2, Nat.sub_diag by lia. cbn [nth]. f_equal.
      specialize (IH (l1 ++ [y])). rewrite app_length in IH. cbn [length] in IH. rewrite Nat.add_1_r, <- app_assoc in IH. exact IH. }
    apply (K []). }
  rewrite <- G. eapply has_size_ext; [|apply (hs_pairs (fun i => cv_edges (cell_at m i)))]. intros [c k]. cbn [fst snd]. symmetry. apply edge_of_parts.
Qed.
Lemma jump_single : forall m n w c i e, trias m -> boundary_edge m e = true -> edge_of m c i e -> jump m n w e = inner 2 (w c) (turn (n c i)).
Proof.
  intros m n w c i e T B O. destruct (side_bounds m c i e T O) as (Hc & Hi & S). rewrite jump_over.
  rewrite <- (over_single m c i e (fun c i => inner 2 (w c) (turn (n c i))) Hc Hi S). apply over_ext. intros a b O'.
  destruct (one_cell_unique m e a b c i) as [-> ->]; [apply one_cell_adjacent, Nat.eqb_eq, B|exact O'|exact O|]. unfold pick. rewrite !Nat.eqb_refl. reflexivity.
Qed.
Lemma jump_pair : forall m n w c i c' i' e, trias m -> adjacent m e = 2%nat -> edge_of m c i e -> edge_of m c' i' e -> (c, i) <> (c', i') ->
  jump m n w e = inner 2 (w c) (turn (n c i)) + inner 2 (w c') (turn (n c' i')).
Proof.
  intros m n w c i c' i' e T A O O' Ne. destruct (side_bounds m c i e T O) as (Hc & Hi & S). destruct (side_bounds m c' i' e T O') as (Hc' & Hi' & S'). rewrite jump_over.
  rewrite <- (over_single m c i e (fun c i => inner 2 (w c) (turn (n c i))) Hc Hi S) at 1. rewrite <- (over_single m c' i' e (fun c i => inner 2 (w c) (turn (n c i))) Hc' Hi' S') at 1.
  rewrite <- over_plus. apply over_ext. intros a b Oab.
  destruct (all_sides m e) as (l & ND & L & HL). rewrite A in L. destruct l as [|p1 [|p2 [|]]]; try discriminate L.
  assert (I1 : In (c, i) [p1; p2]) by (apply HL; exact O). assert (I2 : In (c', i') [p1; p2]) by (apply HL; exact O'). assert (I3 : In (a, b) [p1; p2]) by (apply HL; exact Oab).
  assert (Q : (a, b) = (c, i) \/ (a, b) = (c', i')).
  { cbn [In] in I1, I2, I3. destruct I1 as [I1|[I1|[]]], I2 as [I2|[I2|[]]], I3 as [I3|[I3|[]]]; subst; auto; exfalso; apply Ne; congruence. }
  unfold pick. destruct Q as [Q|Q]; injection Q as -> ->; rewrite !Nat.eqb_refl; cbn [andb].
  - destruct (Nat.eqb_spec c c') as [E|]; cbn [andb]; [|lra]. destruct (Nat.eqb_spec i i') as [E'|]; [|lra]. exfalso. apply Ne. congruence.
  - destruct (Nat.eqb_spec c' c) as [E|]; cbn [andb]; [|lra]. destruct (Nat.eqb_spec i' i) as [E'|]; [|lra]. exfalso. apply Ne. congruence.
Qed.

Lemma sum_to_opp' : forall k F, sum_to k (fun i => - F i) = - sum_to k F.
Proof. induction k as [|k IH]; intros F; [unfold sum_to; simpl; ring|]. rewrite !sum_to_S, IH. ring. Qed.
Section Unique.
Variables (m : mesh) (geom : ent -> geo) (pos : nat -> vec) (n : nat -> nat -> vec).
Hypothesis TR : triangulation m geom pos.
Hypothesis NO : normals_of m geom n.
Hypothesis MF : manifold m.
Notation J := (jump m n).
Notation fld := (field_at m geom).
Notation nv := (size m 2).
Notation ne := (size m 1).
Notation N := (nv + ne)%nat.
Notation len := (StokesSpec.edge_length m pos).

Definition zero_on (x : nat -> R) (c : nat) : Prop := forall i, (i < 3)%nat -> x (node_at m c i) = 0.
Lemma third : forall i j, (i < 3)%nat -> (j < 3)%nat -> j = i \/ j = ((i + 1) mod 3)%nat \/ j = ((i + 2) mod 3)%nat.
Proof. intros i j Hi Hj. destruct i as [|[|[|]]]; [| | |lia]; cbn; lia. Qed.
Lemma side_zero : forall x c i e, edge_of m c i e -> x (node_at m c i) = 0 -> x (node_at m c ((i + 1) mod 3)) = 0 ->
  inner 2 (fld x c) (turn (n c i)) = 0 -> zero_on x c.
Proof.
  intros x c i e O Z0 Z1 I. destruct (side_bounds m c i e (tr_trias _ _ _ TR) O) as (Hc & Hi & _).
  destruct (cell_view m c Hc) as (v & E & _). destruct (field_curl m geom pos TR x c v E) as (r & g0 & g1 & V & W0 & W1).
  destruct (NO c i e O) as (U & P & _).
  destruct (side_length m geom pos TR c i e O) as [L1 L2].
  assert (LP : length (polygon geom c) = 3%nat).
  { destruct (cell_geo m geom pos TR c Hc) as (K & D & C). destruct (tria_points _ K D C) as (a & b & c' & EC & _). unfold polygon. rewrite EC. reflexivity. }
  unfold stop, start in P, L2. rewrite LP in P, L2.
  pose proof (corner_pos m geom pos TR c i Hc Hi) as P0. pose proof (corner_pos m geom pos TR c _ Hc (mod3 i)) as P1.
  rewrite inner2 in U, P, I. unfold vsub in P. rewrite (P0 0%nat), (P0 1%nat), (P1 0%nat), (P1 1%nat) in P by lia.
  set (p := pos (node_at m c i)) in *. set (p' := pos (node_at m c ((i + 1) mod 3))) in *.
  assert (DQ : (p' 0%nat - p 0%nat) * (p' 0%nat - p 0%nat) + (p' 1%nat - p 1%nat) * (p' 1%nat - p 1%nat) <> 0).
  { intros Q. pose proof (dist_sq (nth i (polygon geom c) vzero) (nth ((i + 1) mod 3) (polygon geom c) vzero)) as DS.
    rewrite (P0 0%nat), (P0 1%nat), (P1 0%nat), (P1 1%nat) in DS by lia. fold p p' in DS. rewrite Q, <- L2 in DS. apply Rmult_integral in DS. destruct DS; lra. }
  assert (X0 : r + g0 * p 0%nat + g1 * p 1%nat = 0) by (rewrite <- Z0; symmetry; apply V; apply (node_in m geom pos TR c v i E Hi)).
  assert (X1 : r + g0 * p' 0%nat + g1 * p' 1%nat = 0) by (rewrite <- Z1; symmetry; apply V; apply (node_in m geom pos TR c v _ E (mod3 i))).
  rewrite W0, W1 in I. cbn [turn] in I.
  set (a := n c i 0%nat) in *. set (b := n c i 1%nat) in *. set (t0 := p' 0%nat - p 0%nat) in *. set (t1 := p' 1%nat - p 1%nat) in *.
  assert (GT : g0 * t0 + g1 * t1 = 0) by (unfold t0, t1; lra).
  assert (GN : g0 * a + g1 * b = 0) by lra.
  set (la := - b * t0 + a * t1).
  assert (T0 : t0 = - b * la) by (unfold la; transitivity (t0 * (a * a + b * b) - a * (a * t0 + b * t1)); [rewrite U, P; ring|ring]).
  assert (T1 : t1 = a * la) by (unfold la; transitivity (t1 * (a * a + b * b) - b * (a * t0 + b * t1)); [rewrite U, P; ring|ring]).
  assert (Zl : la <> 0) by (intros Q; apply DQ; rewrite T0, T1, Q; ring).
  assert (GA : g1 * a - g0 * b = 0).
  { apply Rmult_eq_reg_r with la; [|exact Zl]. rewrite Rmult_0_l, <- GT, T0, T1. ring. }
  assert (G0 : g0 = 0) by (transitivity (g0 * (a * a + b * b)); [rewrite U; ring|]; transitivity (a * (g0 * a + g1 * b) - b * (g1 * a - g0 * b)); [ring|rewrite GN, GA; ring]).
  assert (G1 : g1 = 0) by (transitivity (g1 * (a * a + b * b)); [rewrite U; ring|]; transitivity (b * (g0 * a + g1 * b) + a * (g1 * a - g0 * b)); [ring|rewrite GN, GA; ring]).
  intros j Hj. rewrite V by (apply (node_in m geom pos TR c v j E Hj)). rewrite G0, G1 in *. lra.
Qed.
Lemma zero_field : forall x c, (c < size m 0)%nat -> zero_on x c -> same_points (fld x c) (fun _ => 0).
Proof. intros x c _ Z k _. unfold field_at, comb. rewrite !Z by lia. ring. Qed.
Lemma spread : forall x, (forall v, boundary_node m v -> x v = 0) -> (forall e, (e < ne)%nat -> J (fld x) e = 0) -> forall c, reached m c -> zero_on x c.
Proof.
  intros x BZ JZ c R. assert (W := proj1 (tr_trias _ _ _ TR)). induction R as [c i e O B|c i c' i' e R IH O O'].
  - assert (He : (e < ne)%nat) by (apply (edge_range m c i e W O)). destruct (side_ends m geom pos TR c i e O) as (a & b & E & _ & _ & AB).
    assert (Ba : x a = 0) by (apply BZ; exists e, a, b; auto). assert (Bb : x b = 0) by (apply BZ; exists e, a, b; auto).
    apply (side_zero x c i e O); [destruct AB as [[<- _]|[<- _]]; assumption|destruct AB as [[_ <-]|[_ <-]]; assumption|].
    rewrite <- (jump_single m n (fld x) c i e (tr_trias _ _ _ TR) B O). apply JZ, He.
  - assert (He : (e < ne)%nat) by (apply (edge_range m c i e W O)).
    destruct (Nat.eq_dec c' c) as [->|Nc]; [exact IH|].
    assert (A2 : adjacent m e = 2%nat).
    { destruct (MF e He) as [Q|Q]; [|exact Q]. exfalso. destruct (one_cell_unique m e c' i' c i) as [X _]; [apply one_cell_adjacent, Q|exact O'|exact O|]. contradiction. }
    destruct (side_ends m geom pos TR c i e O) as (a & b & E & Hc & Hi & AB). destruct (side_ends m geom pos TR c' i' e O') as (a' & b' & E' & _ & _ & AB').
    rewrite E in E'. injection E' as <- <-.
    assert (Za : x a = 0) by (destruct AB as [[-> ->]|[-> ->]]; apply IH; auto using mod3). assert (Zb : x b = 0) by (destruct AB as [[-> ->]|[-> ->]]; apply IH; auto using mod3).
    apply (side_zero x c' i' e O'); [destruct AB' as [[<- _]|[<- _]]; assumption|destruct AB' as [[_ <-]|[_ <-]]; assumption|].
    assert (Q := jump_pair m n (fld x) c i c' i' e (tr_trias _ _ _ TR) A2 O O' ltac:(congruence)). rewrite (JZ e He) in Q.
    rewrite (inner_same _ _ _ _ (zero_field x c Hc IH) (same_refl _)) in Q. rewrite (inner2 (fun _ => 0)) in Q. lra.
Qed.

(** * One solution *)
Variables (sigma : R) (modified : bool) (q : quadrule) (check : bool).
Hypothesis SP : 0 < sigma.
Hypothesis AR : all_reached m.
Hypothesis CM : complete_mesh m.
Notation d := (u_handler (uniform m stokes_map check)).
Notation pen := (penalty m pos sigma modified).
Lemma pen_pos : forall e, (e < ne)%nat -> 0 < pen e.
Proof.
  intros e H. assert (L := length_pos m geom pos TR MF e H). unfold penalty. destruct modified; [exact SP|]. apply Rdiv_lt_0_compat; assumption.
Qed.
Lemma sum_squares : forall k F, (forall i, (i < k)%nat -> 0 <= F i) -> sum_to k F = 0 -> forall i, (i < k)%nat -> F i = 0.
Proof.
  induction k as [|k IH]; intros F P Z i Hi; [lia|]. rewrite sum_to_S in Z.
  assert (P' : 0 <= sum_to k F). { clear - P. induction k as [|k IH]; [unfold sum_to; simpl; lra|]. rewrite sum_to_S. assert (0 <= F k) by (apply P; lia). assert (0 <= sum_to k F) by (apply IH; intros; apply P; lia). lra. }
  assert (Pk : 0 <= F k) by (apply P; lia). destruct (Nat.eq_dec i k) as [->|]; [lra|]. apply IH; [intros; apply P; lia|lra|lia].
Qed.
Lemma node_in_cell : forall v, (v < nv)%nat -> exists c i, (c < size m 0)%nat /\ (i < 3)%nat /\ v = node_at m c i.
Proof.
  intros v Hv. destruct CM as [_ CN]. destruct (CN v Hv) as (a & b & I & AB). apply In_nth_error in I as (e & E).
  assert (He : (e < ne)%nat) by (unfold size; apply nth_error_Some; congruence).
  destruct (edge_has_cell m MF e He) as (c & i & O). destruct (side_ends m geom pos TR c i e O) as (a' & b' & E' & Hc & Hi & Q). rewrite E in E'. injection E' as <- <-.
  destruct AB as [->| ->], Q as [[Qa Qb]|[Qa Qb]]; eauto using mod3; exists c, ((i + 1) mod 3)%nat; auto using mod3.
Qed.
Lemma homogeneous : forall x, (forall v, boundary_node m v -> x v = 0) ->
  tested m geom pos n sigma modified q (fun _ _ => 0) (fun _ _ => 0) x -> forall i, (i < N)%nat -> x i = 0.
Proof.
  intros x BZ T. assert (SG : sigma <> 0) by lra.
  pose proof (tested_edges m geom pos n TR MF sigma modified q (fun _ _ => 0) (fun _ _ => 0) SG x T) as EE.
  pose proof (tested_form m geom pos n TR MF sigma modified q (fun _ _ => 0) (fun _ _ => 0) SG x T x (fld x) BZ (field_curl m geom pos TR x)) as VA.
  assert (D0 : forall e, data_at m n (fun _ _ => 0) e = 0).
  { intros e. unfold data_at. destruct (boundary_edge m e); [|reflexivity]. unfold tangential_part. apply jump_zero. intros c _ k _. reflexivity. }
  assert (L0 : stokes_load m geom pos n sigma modified q (fun _ _ => 0) (fun _ _ => 0) (fld x) = 0).
  { rewrite (load_split m geom pos n sigma modified q (fun _ _ => 0) (fun _ _ => 0)). rewrite (sum_zero ne); [|intros e _; rewrite D0; ring].
    assert (C0 : cell_load m geom q (fun _ _ => 0) (fld x) = 0); [|rewrite C0; ring].
    apply sum_zero. intros c _. apply sum_zero. intros k _. rewrite inner2. ring. }
  cbv beta in VA. rewrite L0 in VA. unfold stokes_form in VA.
  assert (JZ : forall e, (e < ne)%nat -> J (fld x) e = 0).
  { intros e He. pose proof (pen_pos e He) as P. pose proof (length_pos m geom pos TR MF e He) as L.
    assert (Q := sum_squares ne (fun e => len e * (pen e * J (fld x) e * J (fld x) e))). cbv beta in Q.
    assert (Q' : len e * (pen e * J (fld x) e * J (fld x) e) = 0).
    { apply Q; [|exact VA|exact He]. intros e' He'. pose proof (pen_pos e' He') as P'. pose proof (length_pos m geom pos TR MF e' He') as L'.
      pose proof (Rle_0_sqr (J (fld x) e')) as S'. unfold Rsqr in S'. apply Rmult_le_pos; [lra|]. rewrite Rmult_assoc. apply Rmult_le_pos; lra. }
    apply Rmult_integral in Q'. destruct Q' as [Q'|Q']; [lra|]. apply Rmult_integral in Q'. destruct Q' as [Q'|Q']; [|exact Q']. apply Rmult_integral in Q'. destruct Q' as [Q'|Q']; [lra|exact Q']. }
  intros i Hi. destruct (Nat.lt_ge_cases i nv) as [Hv|Hv].
  - destruct (node_in_cell i Hv) as (c & k & Hc & Hk & ->). exact (spread x BZ JZ c (AR c Hc) k Hk).
  - assert (He : (i - nv < ne)%nat) by lia. specialize (EE (i - nv)%nat He). replace (nv + (i - nv))%nat with i in EE by lia. rewrite EE, (JZ _ He), D0. ring.
Qed.

Variables (f : vec -> vec) (g : ent -> vec).
Hypothesis RQ : tria_rule q.
Hypothesis FP : of_points f.
Theorem no_flow_solution : exists A b D, buildSystemMatrixNoFlow m geom d f g sigma q modified = Ok (A, b) /\
  AssembleSpec.is_matrix Rring A N N D /\ length b = N /\
  exists x, solves Rring N D (comp Rring b) x /\ forall y, solves Rring N D (comp Rring b) y -> forall i, (i < N)%nat -> y i = x i.
Proof.
  assert (SG : sigma <> 0) by lra. destruct (tr_trias _ _ _ TR) as [W T].
  unfold buildSystemMatrixNoFlow. destruct (flags m W) as (bd & -> & BE & BN). cbn [bind].
  destruct (dirichlet_ok m g) as (ds & -> & DS). cbn [bind].
  destruct (matrix_form m geom pos n TR NO sigma modified check bd BE) as (A & D & -> & MA & FA). cbn [bind].
  destruct (vector_form m geom pos n TR NO q f g check RQ FP bd BE ds DS) as (b & -> & Lb & _). cbn [bind].
  unfold fix_boundary. destruct (selected m geom pos TR check bd BN) as (sel & -> & SE). cbn [bind].
  destruct (fix_flagged Rring (fun i => nth i sel (false, 0)) A b N D MA Lb) as (A' & b' & D' & EF & Lb' & MA' & SO & _).
  exists A', b', D'. split; [exact EF|]. split; [exact MA'|]. split; [exact Lb'|].
  set (flag i := fst (nth i sel (false, 0))).
  assert (HO : forall x : nat -> R, (forall i, (i < N)%nat -> flag i = true -> x i = 0) -> (forall i, (i < N)%nat -> flag i = false -> mv Rring N D x i = 0) ->
    forall i, (i < N)%nat -> x i = 0).
  { intros x H0 H1. apply homogeneous.
    - intros v Bv. pose proof (node_range m geom pos TR v Bv) as Hv. apply H0; [lia|]. apply (proj2 (proj2 (SE v ltac:(lia)))). exact Bv.
    - intros v Hv. transitivity 0.
      + transitivity (form Rring N N D v x).
        * rewrite FA. apply sum_to_ext. intros e He. rewrite (diag_is m geom pos TR MF sigma modified SG e He). ring.
        * unfold form. rewrite sumn_to. apply sum_zero. intros i Hi. cbn [kmul Rring]. destruct (flag i) eqn:Ef.
          -- rewrite (Hv i) by (apply (proj1 (proj2 (SE i Hi))); exact Ef). cbn [k0 Rring]. apply Rmult_0_l.
          -- rewrite (H1 i Hi Ef). apply Rmult_0_r.
      + symmetry. rewrite (sum_zero ne).
        * assert (C0 : cell_load m geom q (fun _ _ => 0) (fld v) = 0); [|rewrite C0; ring]. apply sum_zero. intros c _. apply sum_zero. intros k _. rewrite inner2. ring.
        * intros e _. unfold data_at. destruct (boundary_edge m e); [|ring]. unfold tangential_part. rewrite jump_zero; [ring|]. intros c _ k _. reflexivity. }
  pose proof (solvable N (fun i j => if flag i then (if (j =? i)%nat then 1 else 0) else D i j)) as SV.
  assert (UN : forall (x : nat -> R) i, (i < N)%nat -> sum_to N (fun j => (if (j =? i)%nat then 1 else 0) * x j) = x i).
  { intros x i Hi. apply (sum_unit N i (fun j => x j) Hi). }
  destruct (SV) with (b := fun i => if flag i then snd (nth i sel (false, 0)) else comp Rring b i) as [x Hx].
  { intros x H. apply HO; intros i Hi Ef; specialize (H i Hi); rewrite Ef in H.
    - rewrite UN in H by exact Hi. exact H.
    - unfold mv. rewrite sumn_to. exact H. }
  exists x. split.
  - apply SO. split; intros i Hi Ef; specialize (Hx i Hi); cbv beta in Hx; match type of Ef with _ = ?b => assert (Ef' : flag i = b) by exact Ef end; rewrite Ef' in Hx.
    + rewrite UN in Hx by exact Hi. exact Hx.
    + unfold mv. rewrite sumn_to. exact Hx.
  - intros y Hy. apply SO in Hy. destruct Hy as [Hy1 Hy2].
    assert (Q : forall i, (i < N)%nat -> y i - x i = 0); [|intros i Hi; specialize (Q i Hi); lra].
    apply (HO (fun i => y i - x i)); intros i Hi Ef; specialize (Hx i Hi); rewrite Ef in Hx.
    + rewrite UN in Hx by exact Hi. rewrite Hx, (Hy1 i Hi Ef). cbn. ring.
    + assert (E : mv Rring N D (fun i => y i - x i) i = mv Rring N D y i - mv Rring N D x i).
      { unfold mv. rewrite !sumn_to. cbn [kmul Rring]. 
        unfold Rminus. rewrite <- sum_to_opp', <- sum_to_plus. apply sum_to_ext. intros j _. exact (Rmult_minus_distr_l (D i j) (y j) (x j)). }
      rewrite E, (Hy2 i Hi Ef). unfold mv. rewrite sumn_to. cbn [kmul Rring]. rewrite Hx. apply Rplus_opp_r.
Qed.
End Unique.
