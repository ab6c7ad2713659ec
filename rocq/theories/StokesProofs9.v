(** C98: velocities. *)
From Coq Require Import Reals List Arith Lia Lra Bool.
Import ListNotations.
From Verif Require Import Base Scalars MeshModel MeshView RefPatModel GeoModel GeoSpec DofModel DofSpec DofProofs DofProofs2 DofProofs4 FlagSpec FlagModel FlagProofs RefineSpec FeModel QuadModel LagrModel LagrProofs3
  AssembleModel AssembleSpec ElemModel ElemSpec ElemProofs ElemProofs3 FeSpec GalerkinModel GalerkinProofs HierProofs DpgModel NormalModel NormalSpec NormalProofs NormalProofs2 NormalProofs4 NormalProofs5
  StokesModel StokesSpec StokesProofs StokesProofs2 StokesProofs3 StokesProofs4 StokesProofs5 StokesProofs6 StokesProofs7 StokesProofs8.
Local Open Scope R_scope.

Section Velocity.
Variables (m : mesh) (geom : ent -> geo) (pos : nat -> vec) (n : nat -> nat -> vec).
Hypothesis TR : triangulation m geom pos.
Hypothesis NO : normals_of m geom n.
Notation nv := (size m 2).
Notation ne := (size m 1).
Notation N := (nv + ne)%nat.
Notation fld := (field_at m geom).
Notation len := (StokesSpec.edge_length m pos).

Lemma each_set : forall {A} (z : A) cd (body : nat -> dset A -> res (dset A)) (F : nat -> A), mv_count m cd = size m cd ->
  (forall i s, (i < size m cd)%nat -> exists h, body i s = dset_at s cd i (fun _ => h) /\ h = F i) ->
  exists s, each (seq 0 (mv_count m cd)) body (new_dset m cd z) = Ok s /\ forall i, (i < size m cd)%nat -> dget s cd i = Ok (F i).
Proof.
  intros A z cd body F EQ HB. rewrite EQ.
  destruct (each_inv (fun done (s : dset A) => d_codim s = cd /\ length (d_data s) = size m cd /\ forall e, In e done -> nth e (d_data s) z = F e)
    body (seq 0 (size m cd)) (new_dset m cd z)) as (ds & E & C & L & H).
  - split; [reflexivity|]. split; [cbn [new_dset d_data]; rewrite repeat_length; exact EQ|]. intros e [].
  - intros done e s I (C & L & H). apply in_seq in I. destruct (HB e s ltac:(lia)) as (h & -> & Eh).
    unfold dset_at. rewrite (dget_ok _ s cd e z C) by lia. cbn [bind]. eexists. split; [reflexivity|]. cbn [d_codim d_data].
    split; [exact C|]. split; [rewrite upd_length; exact L|]. intros e' I'. destruct (Nat.eq_dec e' e) as [->|Ne].
    + rewrite nth_upd_eq by lia. exact Eh.
    + rewrite nth_upd_neq by (intros Q; apply Ne; symmetry; exact Q). apply H. apply in_app_or in I' as [I'|[I'|[]]]; [exact I'|congruence].
  - exists ds. split; [exact E|]. intros e He. rewrite (dget_ok _ ds cd e z C) by lia. f_equal. apply H, in_seq. lia.
Qed.
Lemma elem_nth : forall {A} (l : list A) i z, (i < length l)%nat -> elem_at l i = Ok (nth i l z).
Proof. intros A l i z H. unfold elem_at. rewrite (nth_error_nth' l z H). reflexivity. Qed.

Theorem coefficients : forall check sol, length sol = N ->
  exists s, extractBasisFunctionCoefficients m (u_handler (uniform m stokes_map check)) sol = Ok s /\
    forall v, (v < nv)%nat -> dget s 2 v = Ok (nth v sol 0).
Proof.
  intros check sol L. destruct (tr_trias _ _ _ TR) as [W T]. unfold extractBasisFunctionCoefficients. apply each_set; [reflexivity|]. intros v s Hv.
  rewrite (node_dofs m check W v Hv). cbn [bind]. unfold elem_at at 1. cbn [nth_error bind]. rewrite (elem_nth sol v 0) by (rewrite L; lia). cbn [bind]. eauto.
Qed.
Theorem velocity : forall check sol, length sol = N ->
  exists s w, extractVelocity m geom (u_handler (uniform m stokes_map check)) sol = Ok s /\
    (forall c, (c < size m 0)%nat -> dget s 0 c = Ok (w c)) /\ curl_of m pos (fun v => nth v sol 0) w.
Proof.
  intros check sol L. destruct (tr_trias _ _ _ TR) as [W T]. unfold extractVelocity.
  destruct (each_set vzero 0 (fun c d =>
    do basis_funct <- basis_functions (geom (DofModel.ECell c));
    do idx <- GlobalDofIndices (u_handler (uniform m stokes_map check)) (DofModel.ECell c);
    do xs <- traverse (fun k => do i <- elem_at idx k; elem_at sol i) (seq 0 3);
    let b k := nth k basis_funct vzero in
    dset_at d 0 c (fun _ k => nth 0 xs 0 * b 0%nat k + nth 1 xs 0 * b 1%nat k + nth 2 xs 0 * b 2%nat k)) (fld (fun v => nth v sol 0)) eq_refl) as (s & E & H).
  - intros c s Hc. destruct (basis_is m geom pos TR c Hc) as [-> _]. cbn [bind]. destruct (cell_view m c Hc) as (v & Ev & EC).
    destruct (cell_unknowns m check W T c v Ev) as (-> & _). cbn [bind].
    destruct (cell_shape m c v (tr_trias _ _ _ TR) Ev) as (n0 & n1 & n2 & e0 & e1 & e2 & En & Ee & WC).
    assert (B : forall k, (k < 3)%nat -> elem_at (cv_nodes v ++ map (fun e => mv_nodes m + e)%nat (cv_edges v)) k = Ok (node_at m c k) /\ (node_at m c k < N)%nat).
    { intros k Hk. unfold node_at. rewrite EC. rewrite En. split; [destruct k as [|[|[|]]]; [reflexivity..|lia]|].
      assert (R : (nth k [n0; n1; n2] 0 < nv)%nat); [|lia]. pose proof (wc_nodes _ _ WC) as F. rewrite Forall_forall in F. apply (F (nth k [n0; n1; n2] 0%nat)). rewrite En. apply nth_In. exact Hk. }
    cbn [traverse seq]. destruct (B 0%nat ltac:(lia)) as [-> B0]. destruct (B 1%nat ltac:(lia)) as [-> B1]. destruct (B 2%nat ltac:(lia)) as [-> B2]. cbn [bind].
    rewrite !(elem_nth sol _ 0) by (rewrite L; assumption). cbn [bind nth]. eexists. split; reflexivity.
  - exists s, (fld (fun v => nth v sol 0)). split; [exact E|]. split; [exact H|]. apply (field_curl m geom pos TR).
Qed.

(** * Flow *)
Lemma side_flux : forall psi w c, curl_of m pos psi w -> (c < size m 0)%nat -> exists sg, sign1 sg /\
  forall i e, edge_of m c i e -> len e * inner 2 (w c) (n c i) = sg * (psi (node_at m c ((i + 1) mod 3)) - psi (node_at m c i)).
Proof.
  intros psi w c C Hc. destruct (cell_geo m geom pos TR c Hc) as (K & D & Co). destruct (tria_points _ K D Co) as (p & q & r & EC & A & _).
  assert (Si : simple (polygon geom c)) by (unfold polygon; rewrite EC; exact A). destruct (simple_sign _ Si) as (sg & S & P).
  exists sg. split; [exact S|]. intros i e O. destruct (side_bounds m c i e (tr_trias _ _ _ TR) O) as (_ & Hi & _).
  assert (LP : length (polygon geom c) = 3%nat) by (unfold polygon; rewrite EC; reflexivity).
  destruct (polygon_normals _ sg S Si P i ltac:(lia)) as [ON L].
  pose proof (outer_unique _ i _ _ Si ltac:(lia) ON (NO c i e O)) as EN.
  destruct (side_length m geom pos TR c i e O) as [_ ->].
  destruct (cell_view m c Hc) as (v & E & _). destruct (C c v E) as (r0 & g0 & g1 & V & W0 & W1).
  rewrite inner2, W0, W1, (EN 0%nat), (EN 1%nat) by lia. unfold nrm.
  rewrite (V _ (node_in m geom pos TR c v i E Hi)), (V _ (node_in m geom pos TR c v _ E (mod3 i))).
  pose proof (corner_pos m geom pos TR c i Hc Hi) as P0. pose proof (corner_pos m geom pos TR c _ Hc (mod3 i)) as P1.
  rewrite <- (P0 0%nat), <- (P0 1%nat), <- (P1 0%nat), <- (P1 1%nat) by lia. unfold start, stop in *. rewrite LP in *. field. lra.
Qed.
Lemma outflow_at : forall w c i e, edge_of m c i e -> outflow m pos n w c i = len e * inner 2 (w c) (n c i).
Proof. intros w c i e (v & E & Ei). unfold outflow, side. rewrite E, Ei. reflexivity. Qed.
Theorem flow : forall psi w, curl_of m pos psi w ->
  (no_overlap m geom -> conserved m pos n w) /\
  forall c i e a b, edge_of m c i e -> nth_error (mv_edges m) e = Some (a, b) -> Rabs (outflow m pos n w c i) = Rabs (psi b - psi a).
Proof.
  intros psi w C. split.
  - intros NV. split.
    + intros c Hc. destruct (side_flux psi w c C Hc) as (sg & _ & H). destruct (cell_view m c Hc) as (v & E & _).
      destruct (cell_shape m c v (tr_trias _ _ _ TR) E) as (n0 & n1 & n2 & e0 & e1 & e2 & En & Ee & WC).
      assert (O : forall i, (i < 3)%nat -> edge_of m c i (nth i [e0; e1; e2] 0%nat)).
      { intros i Hi. exists v. split; [exact E|]. rewrite Ee. destruct i as [|[|[|]]]; [reflexivity..|lia]. }
      rewrite sum3. rewrite (outflow_at w c 0 _ (O 0%nat ltac:(lia))), (outflow_at w c 1 _ (O 1%nat ltac:(lia))), (outflow_at w c 2 _ (O 2%nat ltac:(lia))).
      rewrite (H _ _ (O 0%nat ltac:(lia))), (H _ _ (O 1%nat ltac:(lia))), (H _ _ (O 2%nat ltac:(lia))).
      change ((0 + 1) mod 3)%nat with 1%nat. change ((1 + 1) mod 3)%nat with 2%nat. change ((2 + 1) mod 3)%nat with 0%nat. ring.
    + intros c i c' i' e O O' Ne. rewrite (outflow_at w c i e O), (outflow_at w c' i' e O').
      destruct (side_bounds m c i e (tr_trias _ _ _ TR) O) as (Hc & Hi & _). destruct (side_bounds m c' i' e (tr_trias _ _ _ TR) O') as (Hc' & Hi' & _).
      destruct (side_flux psi w c C Hc) as (sg & S & H). destruct (side_flux psi w c' C Hc') as (sg' & S' & H').
      assert (LP : forall c, (c < size m 0)%nat -> length (polygon geom c) = 3%nat /\ simple (polygon geom c)).
      { intros d Hd. destruct (cell_geo m geom pos TR d Hd) as (K & D & Co). destruct (tria_points _ K D Co) as (x & y & z & EC & A & _). unfold polygon. rewrite EC. auto. }
      destruct (LP c Hc) as [L Si]. destruct (LP c' Hc') as [L' Si'].
      destruct (side_ends m geom pos TR c i e O) as (a & b & E & _ & _ & AB). destruct (side_ends m geom pos TR c' i' e O') as (a' & b' & E' & _ & _ & AB').
      rewrite E in E'. injection E' as <- <-.
      assert (CE : common_edge (polygon geom c) i (polygon geom c') i').
      { assert (Q : forall c i, (c < size m 0)%nat -> (i < 3)%nat -> same_points (start (polygon geom c) i) (pos (node_at m c i)) /\ same_points (stop (polygon geom c) i) (pos (node_at m c ((i + 1) mod 3)))).
        { intros c0 i0 Hc0 Hi0. unfold start, stop. rewrite (proj1 (LP c0 Hc0)). split; apply (corner_pos m geom pos TR); auto using mod3. }
        destruct (Q c i Hc Hi) as [Q1 Q2]. destruct (Q c' i' Hc' Hi') as [Q3 Q4]. unfold common_edge.
        destruct AB as [[Ea Eb]|[Ea Eb]], AB' as [[Ea' Eb']|[Ea' Eb']]; rewrite <- ?Ea, <- ?Eb in Q1; rewrite <- ?Ea, <- ?Eb in Q2; rewrite <- ?Ea', <- ?Eb' in Q3; rewrite <- ?Ea', <- ?Eb' in Q4;
        first [left; split; intros k Hk; rewrite ?(Q1 k Hk), ?(Q2 k Hk), ?(Q3 k Hk), ?(Q4 k Hk); reflexivity|right; split; intros k Hk; rewrite ?(Q1 k Hk), ?(Q2 k Hk), ?(Q3 k Hk), ?(Q4 k Hk); reflexivity]. }
      pose proof (opposite_normals _ i _ _ i' _ Si ltac:(lia) (NO c i e O) (NO c' i' e O') CE (NV c c' Hc Hc' Ne)) as OP.
      (* both fluxes are differences of the same two values; the normals decide the sign *)
      destruct (cell_view m c Hc) as (v & Ev & _). destruct (C c v Ev) as (r0 & g0 & g1 & V & W0 & W1).
      destruct (cell_view m c' Hc') as (v' & Ev' & _). destruct (C c' v' Ev') as (r0' & g0' & g1' & V' & W0' & W1').
      rewrite !inner2, W0, W1, W0', W1', (OP 0%nat), (OP 1%nat) by lia.
      destruct (NO c i e O) as (U & P & _). rewrite inner2 in U, P. unfold vsub, start, stop in P. rewrite L in P.
      pose proof (corner_pos m geom pos TR c i Hc Hi) as P0. pose proof (corner_pos m geom pos TR c _ Hc (mod3 i)) as P1.
      rewrite (P0 0%nat), (P0 1%nat), (P1 0%nat), (P1 1%nat) in P by lia.
      assert (Ia : In (node_at m c i) (cv_nodes v) /\ In (node_at m c ((i + 1) mod 3)) (cv_nodes v)) by (split; apply (node_in m geom pos TR c v); auto using mod3).
      assert (Ib : In (node_at m c i) (cv_nodes v') /\ In (node_at m c ((i + 1) mod 3)) (cv_nodes v')).
      { destruct AB as [[<- <-]|[<- <-]], AB' as [[-> ->]|[-> ->]]; split; apply (node_in m geom pos TR c' v'); auto using mod3. }
      destruct Ia as [Ia1 Ia2], Ib as [Ib1 Ib2]. pose proof (V _ Ia1) as X1. pose proof (V _ Ia2) as X2. rewrite (V' _ Ib1) in X1. rewrite (V' _ Ib2) in X2.
      destruct (side_length m geom pos TR c i e O) as [LL LE].
      set (x := pos (node_at m c i)) in *. set (y := pos (node_at m c ((i + 1) mod 3))) in *. set (n0 := n c i 0%nat) in *. set (n1 := n c i 1%nat) in *.
      assert (DQ : (y 0%nat - x 0%nat) * (y 0%nat - x 0%nat) + (y 1%nat - x 1%nat) * (y 1%nat - x 1%nat) <> 0).
      { intros Q. unfold start, stop in LE. rewrite L in LE. pose proof (dist_sq (nth i (polygon geom c) vzero) (nth ((i + 1) mod 3) (polygon geom c) vzero)) as DS.
        rewrite (P0 0%nat), (P0 1%nat), (P1 0%nat), (P1 1%nat) in DS by lia. rewrite Q, <- LE in DS. apply Rmult_integral in DS. destruct DS; lra. }
      set (t0 := y 0%nat - x 0%nat) in *. set (t1 := y 1%nat - x 1%nat) in *. set (la := - n1 * t0 + n0 * t1).
      assert (T0 : t0 = - n1 * la) by (unfold la; transitivity (t0 * (n0 * n0 + n1 * n1) - n0 * (n0 * t0 + n1 * t1)); [rewrite U, P; ring|ring]).
      assert (T1 : t1 = n0 * la) by (unfold la; transitivity (t1 * (n0 * n0 + n1 * n1) - n1 * (n0 * t0 + n1 * t1)); [rewrite U, P; ring|ring]).
      assert (Zl : la <> 0) by (intros Q; apply DQ; rewrite T0, T1, Q; ring).
      assert (X : (g0' - g0) * t0 + (g1' - g1) * t1 = 0) by (unfold t0, t1; lra).
      assert (G : (g1' - g1) * n0 - (g0' - g0) * n1 = 0) by (apply Rmult_eq_reg_r with la; [|exact Zl]; rewrite Rmult_0_l, <- X, T0, T1; ring).
      transitivity (- (len e * (g1 * n0 + - g0 * n1)) - len e * ((g1' - g1) * n0 - (g0' - g0) * n1)); [ring|]. rewrite G. ring.
  - intros c i e a b O E. rewrite (outflow_at w c i e O). destruct (side_bounds m c i e (tr_trias _ _ _ TR) O) as (Hc & _).
    destruct (side_flux psi w c C Hc) as (sg & S & H). rewrite (H i e O). destruct (side_ends m geom pos TR c i e O) as (a' & b' & E' & _ & _ & AB). rewrite E in E'. injection E' as <- <-.
    rewrite Rabs_mult. replace (Rabs sg) with 1 by (destruct S as [-> | ->]; [rewrite Rabs_R1|rewrite Rabs_left]; lra).
    destruct AB as [[-> ->]|[-> ->]]; [ring|]. rewrite Rmult_1_l. apply Rabs_minus_sym.
Qed.
Theorem tight : forall psi w, curl_of m pos psi w -> (forall v, boundary_node m v -> psi v = 0) -> confined m pos n w.
Proof.
  intros psi w C Z c i e O B. destruct (side_ends m geom pos TR c i e O) as (a & b & E & _). pose proof (proj2 (flow psi w C) c i e a b O E) as Q.
  rewrite (Z a), (Z b) in Q by (exists e, a, b; auto). rewrite Rminus_0_r, Rabs_R0 in Q. destruct (Req_dec (outflow m pos n w c i) 0) as [->|Ne]; [reflexivity|]. apply Rabs_pos_lt in Ne. lra.
Qed.
End Velocity.
