(** C101: the norms. *)
From Coq Require Import Reals List Arith Lia Lra Bool Permutation.
Import ListNotations.
From Verif Require Import Base Scalars MeshModel MeshView RefPatModel GeoModel GeoSpec DofModel FlagSpec FlagModel FlagProofs RefineSpec FeModel QuadModel AssembleModel ElemModel ElemSpec ElemProofs ElemProofs2 ElemProofs3 FeSpec HierProofs3
  FeToolsModel GalerkinModel DpgModel DpgProofs6 MfModel NormalModel NormalSpec NormalProofs3 NormalProofs4 NormalProofs5 NormalProofs6 StokesModel StokesSpec StokesProofs StokesProofs2 StokesProofs3 StokesProofs4 StokesProofs5 StokesProofs6 StokesProofs8 NormsModel NormsSpec
  NormsProofs NormsProofs2.
Local Open Scope R_scope.

(** * The two cells at an interior edge *)
Lemma sides_once : forall cs, NoDup cs -> NoDup (sides cs).
Proof.
  induction cs as [|c cs IH]; intros ND; [constructor|]. inversion ND as [|? ? N1 N2]; subst. specialize (IH N2).
  assert (O : forall k, ~ In (c, k) (sides cs)).
  { intros k I. apply in_flat_map in I as (d & I & J). apply N1. cbn in J. destruct J as [J|[J|[J|[]]]]; injection J as <- _; exact I. }
  change (sides (c :: cs)) with ((c, 0%nat) :: (c, 1%nat) :: (c, 2%nat) :: sides cs).
  constructor; [intros [Q|[Q|Q]]; [discriminate Q|discriminate Q|exact (O _ Q)]|]. constructor; [intros [Q|Q]; [discriminate Q|exact (O _ Q)]|].
  constructor; [apply O|exact IH].
Qed.
Section Pairs.
Variables (m : mesh) (geom : ent -> geo) (pos : nat -> vec) (n : nat -> nat -> vec).
Hypothesis TR : triangulation m geom pos.
Hypothesis NO : normals_of m geom n.
Lemma at_edge : forall e ci, In ci (filter (hits m e) (sides (seq 0 (size m 0)))) <-> edge_of m (fst ci) (snd ci) e.
Proof.
  intros e [c i]. rewrite filter_In. unfold hits. cbn [fst snd]. rewrite side_edge_of. split; [tauto|]. intros O. split; [|exact O].
  destruct (side_bounds m c i e (tr_trias _ _ _ TR) O) as (Hc & Hi & _). apply in_flat_map. exists c. split; [apply in_seq; lia|]. cbn. destruct i as [|[|[|]]]; auto; lia.
Qed.
Lemma two_sides : forall e, adjacent m e = 2%nat -> exists c i c' i', filter (hits m e) (sides (seq 0 (size m 0))) = [(c, i); (c', i')] /\ (c, i) <> (c', i').
Proof.
  intros e A. destruct (all_sides m e) as (l & ND & L & HL).
  assert (ND' : NoDup (filter (hits m e) (sides (seq 0 (size m 0))))) by (apply NoDup_filter, sides_once, seq_NoDup).
  assert (P : Permutation l (filter (hits m e) (sides (seq 0 (size m 0))))) by (apply NoDup_Permutation; auto; intros x; rewrite at_edge; apply HL).
  apply Permutation_length in P. rewrite L, A in P. destruct (filter (hits m e) (sides (seq 0 (size m 0)))) as [|[c i] [|[c' i'] [|]]]; try discriminate P.
  exists c, i, c', i'. split; [reflexivity|]. inversion ND' as [|? ? N1 _]; subst. intros Q. apply N1. left. symmetry. exact Q.
Qed.
Lemma distinct_cells : forall c i c' i' e, edge_of m c i e -> edge_of m c' i' e -> (c, i) <> (c', i') -> c <> c'.
Proof.
  intros c i c' i' e O O' Ne Q. subst c'. apply Ne. f_equal. destruct (side_ends m geom pos TR c i e O) as (a & b & E & Hc & Hi & AB). destruct (side_ends m geom pos TR c i' e O') as (a' & b' & E' & _ & Hi' & AB').
  rewrite E in E'. injection E' as <- <-. pose proof (corners_nonflat m geom pos TR c Hc) as NF.
  assert (DI : forall i j, (i < 3)%nat -> (j < 3)%nat -> node_at m c i = node_at m c j -> i = j).
  { intros p q Hp Hq Q. destruct p as [|[|[|]]], q as [|[|[|]]]; try lia; exfalso; apply NF; unfold area2; rewrite Q; ring. }
  destruct AB as [[Qa Qb]|[Qb Qa]], AB' as [[Qa' Qb']|[Qb' Qa']]; rewrite Qa in Qa'; rewrite Qb in Qb'; apply DI in Qa'; apply DI in Qb'; auto using mod3;
  clear - Hi Hi' Qa' Qb'; destruct i as [|[|[|]]], i' as [|[|[|]]]; try lia; cbn in Qa', Qb'; lia.
Qed.
Lemma opposite : forall c i c' i' e, no_overlap m geom -> edge_of m c i e -> edge_of m c' i' e -> c <> c' -> forall k, (k < 2)%nat -> n c' i' k = - n c i k.
Proof.
  intros c i c' i' e NV O O' Ne.
  destruct (side_bounds m c i e (tr_trias _ _ _ TR) O) as (Hc & Hi & _). destruct (side_bounds m c' i' e (tr_trias _ _ _ TR) O') as (Hc' & Hi' & _).
  assert (LP : forall c, (c < size m 0)%nat -> length (polygon geom c) = 3%nat /\ simple (polygon geom c)).
  { intros d Hd. destruct (cell_geo m geom pos TR d Hd) as (K & D & Co). destruct (tria_points _ K D Co) as (x & y & z & EC & A & _). unfold polygon. rewrite EC. auto. }
  destruct (LP c Hc) as [L Si]. destruct (LP c' Hc') as [L' Si'].
  destruct (side_ends m geom pos TR c i e O) as (a & b & E & _ & _ & AB). destruct (side_ends m geom pos TR c' i' e O') as (a' & b' & E' & _ & _ & AB').
  rewrite E in E'. injection E' as <- <-.
  assert (CE : common_edge (polygon geom c) i (polygon geom c') i').
  { assert (Q : forall c i, (c < size m 0)%nat -> (i < 3)%nat -> same_points (start (polygon geom c) i) (pos (node_at m c i)) /\ same_points (stop (polygon geom c) i) (pos (node_at m c ((i + 1) mod 3)))).
    { intros c0 i0 Hc0 Hi0. unfold start, stop. rewrite (proj1 (LP c0 Hc0)). split; apply (corner_pos m geom pos TR); auto using mod3. }
    destruct (Q c i Hc Hi) as [Q1 Q2]. destruct (Q c' i' Hc' Hi') as [Q3 Q4]. unfold common_edge.
    destruct AB as [[Ea Eb]|[Ea Eb]], AB' as [[Ea' Eb']|[Ea' Eb']]; rewrite <- ?Ea, <- ?Eb in Q1; rewrite <- ?Ea, <- ?Eb in Q2; rewrite <- ?Ea', <- ?Eb' in Q3; rewrite <- ?Ea', <- ?Eb' in Q4;
    first [left; split; intros k Hk; rewrite ?(Q1 k Hk), ?(Q2 k Hk), ?(Q3 k Hk), ?(Q4 k Hk); reflexivity|right; split; intros k Hk; rewrite ?(Q1 k Hk), ?(Q2 k Hk), ?(Q3 k Hk), ?(Q4 k Hk); reflexivity]. }
  exact (opposite_normals _ i _ _ i' _ Si ltac:(lia) (NO c i e O) (NO c' i' e O') CE (NV c c' Hc Hc' Ne)).
Qed.
Lemma in_middle : forall c i e, edge_of m c i e -> same_points (point_of geom c (mid_point i)) (middle m pos e).
Proof.
  intros c i e O. destruct (side_ends m geom pos TR c i e O) as (a & b & E & Hc & Hi & AB). unfold middle. rewrite E. intros k Hk.
  pose proof (corner_pos m geom pos TR c 0 Hc ltac:(lia) k Hk) as P0. pose proof (corner_pos m geom pos TR c 1 Hc ltac:(lia) k Hk) as P1. pose proof (corner_pos m geom pos TR c 2 Hc ltac:(lia) k Hk) as P2.
  unfold point_of. rewrite P0, P1, P2.
  destruct i as [|[|[|]]]; [| | |lia]; cbn [mid_point nth]; [change ((0 + 1) mod 3)%nat with 1%nat in AB|change ((1 + 1) mod 3)%nat with 2%nat in AB|change ((2 + 1) mod 3)%nat with 0%nat in AB];
  destruct AB as [[-> ->]|[-> ->]]; field.
Qed.
End Pairs.

(** * The sum over the edges *)
Section Sum.
Variables (m : mesh) (geom : ent -> geo) (pos : nat -> vec) (n : nat -> nat -> vec) (q : ent -> quadrule) (f : valuefun) (U : nat -> vec -> vec).
Hypothesis TR : triangulation m geom pos.
Hypothesis NO : normals_of m geom n.
Hypothesis MF : manifold m.
Hypothesis NV : no_overlap m geom.
Hypothesis MR : midpoint_rules m q.
Hypothesis VF : vector_field m geom f U.
Hypothesis UP : forall c, of_points (U c).
Definition squares (l : list R) : R := fold_right Rplus 0 (map (fun y => y * y) l).
Definition jump_at (e : nat) : R := if boundary_edge m e then 0 else squares (total geom U (filter (hits m e) (sides (seq 0 (size m 0))))).
Lemma interior : forall e, (e < size m 1)%nat -> boundary_edge m e = false -> adjacent m e = 2%nat.
Proof. intros e He B. destruct (MF e He) as [Q|Q]; [|exact Q]. unfold boundary_edge in B. rewrite Q in B. discriminate. Qed.
Lemma pair_square : forall c i c' i' e, edge_of m c i e -> edge_of m c' i' e -> c <> c' ->
  squares (total geom U [(c, i); (c', i')]) = square (difference (U c (middle m pos e)) (U c' (middle m pos e))).
Proof.
  intros c i c' i' e O O' Nc. destruct (side_bounds m c i e (tr_trias _ _ _ TR) O) as (Hc & Hi & _). destruct (side_bounds m c' i' e (tr_trias _ _ _ TR) O') as (Hc' & Hi' & _).
  pose proof (UP c _ _ (in_middle m geom pos TR c i e O)) as V. pose proof (UP c' _ _ (in_middle m geom pos TR c' i' e O')) as V'.
  pose proof (proj2 (normals_is m geom pos n TR NO c Hc) i Hi) as N. pose proof (proj2 (normals_is m geom pos n TR NO c' Hc') i' Hi') as N'.
  pose proof (opposite m geom pos n TR NO c i c' i' e NV O O' Nc) as OP. destruct (NO c i e O) as (One & _). rewrite inner2 in One.
  unfold squares, total, tensor, outer, value. cbn [map seq fst snd app nth lsum fold_right].
  rewrite (N 0%nat), (N 1%nat), (N' 0%nat), (N' 1%nat), (OP 0%nat), (OP 1%nat) by lia.
  rewrite (V 0%nat), (V 1%nat), (V' 0%nat), (V' 1%nat) by lia.
  unfold square, difference. rewrite inner2.
  set (a := U c (middle m pos e)) in *. set (b := U c' (middle m pos e)) in *. set (x := n c i 0%nat) in *. set (y := n c i 1%nat) in *.
  transitivity (((a 0%nat - b 0%nat) * (a 0%nat - b 0%nat) + (a 1%nat - b 1%nat) * (a 1%nat - b 1%nat)) * (x * x + y * y)); [ring|]. rewrite One. ring.
Qed.
Lemma jumps_are : squared_jumps m pos U jump_at.
Proof.
  split.
  - intros e He B. unfold jump_at. rewrite B. reflexivity.
  - intros c i c' i' e O O' Nc. assert (He : (e < size m 1)%nat) by (apply (edge_range m c i); [apply (tr_trias _ _ _ TR)|exact O]).
    destruct (boundary_edge m e) eqn:B.
    + exfalso. apply Nc. apply (one_cell_unique m e c i c' i'); [apply one_cell_adjacent, Nat.eqb_eq, B|exact O|exact O'].
    + destruct (two_sides m geom pos TR e (interior e He B)) as (d & j & d' & j' & E & Ne). unfold jump_at. rewrite B, E.
      assert (Od : edge_of m d j e) by (apply (at_edge m geom pos TR e (d, j)); rewrite E; left; reflexivity).
      assert (Od' : edge_of m d' j' e) by (apply (at_edge m geom pos TR e (d', j')); rewrite E; right; left; reflexivity).
      pose proof (distinct_cells m geom pos TR d j d' j' e Od Od' Ne) as Nd. rewrite (pair_square d j d' j' e Od Od' Nd).
      apply (at_edge m geom pos TR e (c, i)) in O. apply (at_edge m geom pos TR e (c', i')) in O'. rewrite E in O, O'.
      destruct O as [Q|[Q|[]]], O' as [Q'|[Q'|[]]]; injection Q as <- <-; injection Q' as <- <-; try contradiction; [reflexivity|].
      unfold square, difference. rewrite !inner2. ring.
Qed.
Lemma edge_add : forall bd s e x, (e < size m 1)%nat -> dget bd 1 e = Ok (boundary_edge m e) -> state m geom U (sides (seq 0 (size m 0))) s ->
  edge_term geom bd q s e x = Ok (x + jump_at e).
Proof.
  intros bd s e x He EB (C & L & H). unfold edge_term. rewrite EB. cbn [bind]. unfold jump_at. destruct (boundary_edge m e) eqn:B; [f_equal; ring|].
  destruct (MR e He) as [-> ->]. cbn [traverse]. pose proof (edge_volume m geom pos TR e He) as EV.
  destruct (nth_error (mv_edges m) e) as [[a b]|] eqn:E; [|apply nth_error_None in E; unfold size in He; lia].
  destruct (tr_edge _ _ _ TR e a b E) as (K & _). pose proof (length_pos m geom pos TR MF e He) as LP.
  unfold Volume in EV |- *. rewrite K in EV |- *. cbn [kind_el] in EV |- *.
  destruct (IntegrationElement (geom (EEdge e)) [1 / 2]) as [r| |]; try discriminate EV. cbn [bind] in EV |- *. injection EV as EV.
  cbn [length Nat.eqb lf_assert bind]. unfold dget. rewrite C. cbn [Nat.eqb lf_assert bind]. rewrite (H e He). cbn [bind].
  destruct (two_sides m geom pos TR e (interior e He B)) as (d & j & d' & j' & E2 & _). rewrite E2.
  unfold collected. cbn [length seq each fold_left bind elem_at nth_error map combine fst snd]. f_equal. fold (squares (total geom U [(d, j); (d', j')])).
  assert (Q : 1 * r / (1 * r) = 1) by (field; lra). rewrite Q. ring.
Qed.
Lemma edges_add : forall x, exists s bd, each (seq 0 (mv_count m 0)) (cell_jumps m geom f q) (new_dset m 1 []) = Ok s /\ flag_boundary m 1 = Ok bd /\
  each (seq 0 (mv_count m 1)) (edge_term geom bd q s) (0 + x) = Ok (x + sum_to (size m 1) jump_at).
Proof.
  intros x. destruct (all_cells m geom pos n q f U TR NO MR VF) as (s & ES & SS). destruct (flag_boundary_correct m 1 (proj1 (tr_trias _ _ _ TR))) as (F & _).
  destruct F as (bd & EB & CB & LB & HB); [lia|]. exists s, bd. split; [exact ES|]. split; [exact EB|].
  destruct (each_inv (fun es y => y = x + lsum (map jump_at es)) (edge_term geom bd q s) (seq 0 (mv_count m 1)) (0 + x)) as (y & EY & ->).
  - unfold lsum. cbn [map fold_right]. ring.
  - intros es e y I ->. apply in_seq in I. assert (He : (e < size m 1)%nat) by (exact (proj2 I)).
    rewrite (edge_add bd s e); [| exact He | | exact SS].
    + eexists. split; [reflexivity|]. rewrite map_app, lsum_app. unfold lsum. cbn [map fold_right]. ring.
    + unfold dget. rewrite CB. cbn [Nat.eqb lf_assert bind]. destruct (nth_error (d_data bd) e) as [b|] eqn:Q; [|apply nth_error_None in Q; lia].
      f_equal. pose proof (HB e b Q) as HQ. unfold boundary_edge.
      assert (X : b = true <-> adjacent m e = 1%nat).
      { rewrite HQ, <- one_cell_adjacent. cbn [part Nat.sub]. split; [intros (e' & k & _ & O & _ & ->); exact O|intros O; exists e, 0%nat; auto]. }
      destruct b, (Nat.eqb_spec (adjacent m e) 1) as [A|A]; try reflexivity; [exfalso; apply A, X; reflexivity|exfalso; apply X in A; discriminate A].
  - exact EY.
Qed.
Lemma dg_from : forall f_grad x, IntegrateMeshFunction m geom (scalar_fun (squaredNorm f_grad)) q (fun _ => true) 0 = Ok x ->
  exists J, squared_jumps m pos U J /\ DGnorm m geom f f_grad q = Ok (sqrt (x + sum_to (size m 1) J)).
Proof.
  intros fg x E. exists jump_at. split; [exact jumps_are|]. unfold DGnorm. rewrite E. cbn [bind].
  destruct (edges_add x) as (s & bd & E1 & -> & E2). cbn [bind]. rewrite E1. cbn [bind]. rewrite E2. reflexivity.
Qed.
End Sum.
