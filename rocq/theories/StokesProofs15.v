(** C100: the right hand side for the offset function, and the offset function. *)
From Coq Require Import Reals List Arith Lia Lra Bool.
Import ListNotations.
From Verif Require Import Base Scalars MeshModel MeshView RefPatModel GeoModel GeoSpec DofModel DofSpec DofProofs FlagSpec FlagModel FlagProofs RefineSpec FeModel QuadModel LagrModel
  AssembleModel AssembleSpec AssembleProofs ElemModel ElemSpec ElemProofs ElemProofs3 FeSpec GalerkinModel GalerkinProofs GalerkinProofs5 GalerkinProofs7 HierProofs DpgModel DpgProofs6 NormalModel NormalSpec NormalProofs NormalProofs2 NormalProofs4 NormalProofs5 NormalProofs6
  StokesModel StokesSpec StokesProofs StokesProofs2 StokesProofs3 StokesProofs4 StokesProofs5 StokesProofs6 StokesProofs8 StokesProofs9 StokesProofs12 StokesProofs13 StokesProofs14 FlowSpec.
Local Open Scope R_scope.

Lemma sum_split : forall a b F, sum_to (a + b) F = sum_to a F + sum_to b (fun j => F (a + j)%nat).
Proof.
  intros a b F. induction b as [|b IH]; [rewrite Nat.add_0_r; unfold sum_to at 3; cbn [seq map fold_right rsum]; lra|]. rewrite Nat.add_succ_r, !sum_to_S, IH. lra.
Qed.
Section Offset.
Variables (m : mesh) (geom : ent -> geo) (pos : nat -> vec) (n : nat -> nat -> vec).
Hypothesis TR : triangulation m geom pos.
Hypothesis NO : normals_of m geom n.
Variables (bd : adset) (bn : nat -> bool).
Notation be := (boundary_edge m).
Hypothesis BE : forall e, (e < size m 1)%nat -> adget bd 1 e = Ok (be e).
Hypothesis BN : forall v, (v < size m 2)%nat -> adget bd 2 v = Ok (bn v).
Notation nv := (size m 2).
Notation ne := (size m 1).
Notation fld := (field_at m geom).
Notation Mn := (rank bn nv).
Notation Me := (rank be ne).
Variable g : ent -> vec.

Definition good_rhs (P : nat -> Prop) (r : list R) : Prop :=
  length r = (Me + 1)%nat /\ nth Me r 0 = 0 /\ forall e, (e < ne)%nat -> be e = true -> P e -> nth (rank be e) r 0 = normal_part m n e (g (EEdge e)).
Lemma rhs_is : manifold m -> exists r, jump_rhs m geom bd g = Ok r /\ length r = (Me + 1)%nat /\ nth Me r 0 = 0 /\
  forall e, (e < ne)%nat -> be e = true -> nth (rank be e) r 0 = normal_part m n e (g (EEdge e)).
Proof.
  intros MF. destruct (tr_trias _ _ _ TR) as [W T]. unfold jump_rhs. rewrite (num_edges_dofs m bd be W BE).
  match goal with |- exists r, each _ ?body ?s0 = _ /\ _ =>
    destruct (each_inv (fun done r => good_rhs (fun e => exists c i, In c done /\ edge_of m c i e) r) body (seq 0 (mv_count m 0)) s0) as (r & E & L & Z & H) end.
  - split; [apply repeat_length|]. split; [apply nth_repeat|]. intros e _ _ (c & i & [] & _).
  - intros done c r I G. apply in_seq in I. change (mv_count m 0) with (size m 0) in I. assert (Hc : (c < size m 0)%nat) by lia.
    destruct (normals_is m geom pos n TR NO c Hc) as [-> NS]. destruct (cell_parts m W T c Hc) as (v & n0 & n1 & n2 & e0 & e1 & e2 & E & EC & En & Ee & H0 & H1 & H2 & G0 & G1 & G2).
    cbn [bind sub_entities]. rewrite EC, Ee. 
    match goal with |- exists r, each _ ?body ?s0 = _ /\ _ =>
      destruct (each_inv (fun done' r => good_rhs (fun e => (exists c i, In c done /\ edge_of m c i e) \/ exists i, In i done' /\ edge_of m c i e) r) body (seq 0 3) s0) as (r' & E' & G') end.
    + destruct G as (L & Z & H). split; [exact L|]. split; [exact Z|]. intros e He Be [X|(i & [] & _)]. apply H; assumption.
    + intros done' i s I' (L & Z & H). apply in_seq in I'. assert (Hi : (i < 3)%nat) by lia.
      assert (Q : exists e, nth_error [e0; e1; e2] i = Some e /\ (e < ne)%nat).
      { destruct i as [|[|[|]]]; [exists e0|exists e1|exists e2|lia]; auto. }
      destruct Q as (e & Ei & He). unfold elem_at at 1. rewrite Ei. cbn [bind]. rewrite (BE e He). cbn [bind].
      assert (O : edge_of m c i e) by (exists v; split; [exact E|rewrite Ee; exact Ei]).
      destruct (be e) eqn:Be.
      * rewrite (edge_index m bd be W BE e He Be). cbn [bind elem_at nth_error]. pose proof (rank_lt be e ne He Be) as RL.
        rewrite (proj2 (Nat.ltb_lt (rank be e) (length s))) by lia. cbn [lf_assert bind]. eexists. split; [reflexivity|].
        split; [rewrite upd_length; exact L|]. split; [rewrite nth_upd_neq by lia; exact Z|].
        intros e' He' Be' X. destruct (Nat.eq_dec e' e) as [->|Ne].
        -- rewrite nth_upd_eq by lia. unfold normal_part. rewrite (through_single m n _ c i e (tr_trias _ _ _ TR) Be O). rewrite dot2, inner2, (NS i Hi 0%nat), (NS i Hi 1%nat) by lia. ring.
        -- rewrite nth_upd_neq by (intros Q; apply Ne; symmetry; exact (rank_inj be e e' Be Be' Q)). apply H; try assumption. destruct X as [X|(i' & I2 & O2)]; [left; exact X|right].
           apply in_app_or in I2 as [I2|[I2|[]]]; [exists i'; auto|]. subst i'. exfalso. apply Ne. destruct O as (v1 & V1 & V2), O2 as (v2 & V3 & V4). congruence.
      * eexists. split; [reflexivity|]. split; [exact L|]. split; [exact Z|]. intros e' He' Be' X. apply H; try assumption. destruct X as [X|(i' & I2 & O2)]; [left; exact X|right].
        apply in_app_or in I2 as [I2|[I2|[]]]; [exists i'; auto|]. subst i'. exfalso. destruct O as (v1 & V1 & V2), O2 as (v2 & V3 & V4). congruence.
    + exists r'. split; [exact E'|]. destruct G' as (L & Z & H). split; [exact L|]. split; [exact Z|]. intros e He Be (c' & i & I' & O). apply H; try assumption.
      apply in_app_or in I' as [I'|[I'|[]]]; [left; exists c', i; auto|]. subst c'. right. exists i. split; [|exact O]. apply in_seq. destruct (side_ends m geom pos TR c i e O) as (_ & _ & _ & _ & Hi & _). lia.
  - exists r. split; [exact E|]. split; [exact L|]. split; [exact Z|]. intros e He Be. apply H; try assumption. destruct (edge_has_cell m MF e He) as (c & i & O). exists c, i. split; [|exact O].
    destruct (side_ends m geom pos TR c i e O) as (_ & _ & _ & Hc & _). apply in_seq. change (mv_count m 0) with (size m 0). lia.
Qed.

Variable check : bool.
Notation d := (u_handler (uniform m stokes_map check)).
Notation N := (nv + ne)%nat.
(** Values of the unknowns at the nodes of the boundary. *)
Definition scatter (sol : list R) (node_idx : nat) (x : list R) : res (list R) :=
  do e <- Entity (boundary_dofs m bd 2) node_idx;
  do idx <- GlobalDofIndices d e;
  do i <- elem_at idx 0;
  do _ <- lf_assert (i <? length x)%nat;
  Ok (upd i (nth node_idx (firstn Mn sol) 0) x).
Lemma scattered : forall sol, (Mn <= length sol)%nat -> exists x, each (seq 0 Mn) (scatter sol) (repeat 0 N) = Ok x /\ length x = N /\
  (forall v, (v < nv)%nat -> nth v x 0 = spread_out bn (fun i => nth i sol 0) v) /\ forall e, nth (nv + e) x 0 = 0.
Proof.
  intros sol Ls. destruct (tr_trias _ _ _ TR) as [W T].
  destruct (each_inv (fun done x => length x = N /\ (forall v, (v < nv)%nat -> nth v x 0 = if bn v then (if in_dec Nat.eq_dec (rank bn v) done then nth (rank bn v) sol 0 else 0) else 0) /\ forall e, nth (nv + e) x 0 = 0)
    (scatter sol) (seq 0 Mn) (repeat 0 N)) as (x & E & L & V & Z).
  - split; [apply repeat_length|]. split; [|intros; apply nth_repeat]. intros v _. rewrite nth_repeat. destruct (bn v); [|reflexivity]. destruct (in_dec Nat.eq_dec (rank bn v) []) as [[]|]; reflexivity.
  - intros done k x I (L & V & Z). apply in_seq in I. destruct (rank_onto bn nv k ltac:(lia)) as (v & Hv & Bv & Rv). subst k. unfold scatter. rewrite (node_entity m bd bn W BN v Hv Bv). cbn [bind].
    rewrite (node_dofs m check W v Hv). cbn [bind elem_at nth_error]. rewrite (proj2 (Nat.ltb_lt v (length x))) by lia. cbn [lf_assert bind]. eexists. split; [reflexivity|].
    split; [rewrite upd_length; exact L|]. split; [|intros e; rewrite nth_upd_neq by lia; apply Z].
    intros v' Hv'. destruct (Nat.eq_dec v' v) as [->|Ne].
    + rewrite nth_upd_eq by lia. rewrite Bv. destruct (in_dec Nat.eq_dec (rank bn v) (done ++ [rank bn v])) as [_|X]; [|exfalso; apply X, in_or_app; right; left; reflexivity].
      rewrite <- (firstn_skipn Mn sol) at 2. rewrite app_nth1; [reflexivity|]. rewrite firstn_length. lia.
    + rewrite nth_upd_neq by (intros Q; apply Ne; symmetry; exact Q). rewrite (V v' Hv'). destruct (bn v') eqn:B'; [|reflexivity].
      destruct (in_dec Nat.eq_dec (rank bn v') done) as [X|X], (in_dec Nat.eq_dec (rank bn v') (done ++ [rank bn v])) as [Y|Y]; try reflexivity; exfalso.
      * apply Y, in_or_app. left. exact X.
      * apply in_app_or in Y as [Y|[Y|[]]]; [contradiction|]. apply Ne. apply (rank_inj bn v' v B' Bv). congruence.
  - exists x. split; [exact E|]. split; [exact L|]. split; [|exact Z]. intros v Hv. rewrite (V v Hv). unfold spread_out. destruct (bn v) eqn:B; [|reflexivity].
    destruct (in_dec Nat.eq_dec (rank bn v) (seq 0 Mn)) as [_|X]; [reflexivity|]. exfalso. apply X, in_seq. pose proof (rank_lt bn v nv Hv B). lia.
Qed.

Lemma block_nth : forall A r k x i, (i < k)%nat -> nth i (block_times A r k x) 0 = sum_to (length x) (fun j => d_coef Rring A (r + i) j * nth j x 0).
Proof.
  intros A r k x i H. unfold block_times. rewrite (nth_indep _ 0 ((fun i => rsum (map (fun j => d_coef Rring A (r + i) j * nth j x 0) (seq 0 (length x)))) 0%nat)) by (rewrite map_length, seq_length; exact H).
  rewrite (map_nth (fun i => rsum (map (fun j => d_coef Rring A (r + i) j * nth j x 0) (seq 0 (length x))))), seq_nth by exact H. reflexivity.
Qed.
Lemma block_length : forall A r k x, length (block_times A r k x) = k.
Proof. intros. unfold block_times. rewrite map_length, seq_length. reflexivity. Qed.

Hypothesis MF : manifold m.
Hypothesis NV : no_overlap m geom.
Hypothesis BB : forall v, (v < nv)%nat -> (bn v = true <-> boundary_node m v).
Hypothesis SB : exists v, boundary_node m v.
Hypothesis CC : closed_curves m.
Hypothesis CN : connected_boundary m.
Variable solver : dense Rring -> list R -> res (list R).
Hypothesis ES : exact_solver solver.

Lemma offset_is : forall A : dense Rring, d_rows Rring A = N -> d_cols Rring A = N ->
  exists off, createOffsetFunction m geom solver bd d g A = Ok off /\ length off = N /\
    (forall v, (v < nv)%nat -> ~ boundary_node m v -> nth v off 0 = 0) /\
    (forall e, (e < ne)%nat -> be e = true -> through m n (fld (fun v => nth v off 0)) e = normal_part m n e (g (EEdge e)) - mean_flow m pos n (fun e => g (EEdge e))) /\
    (forall e, (e < ne)%nat -> nth (nv + e) off 0 = sum_to nv (fun j => d_coef Rring A (nv + e) j * nth j off 0)).
Proof.
  intros A RA CA. destruct (tr_trias _ _ _ TR) as [W T]. unfold createOffsetFunction.
  destruct (matrix_jump m geom pos n TR NO bd bn BE BN) as (J & D & -> & MJ & M1 & M2). cbn [bind].
  pose proof (sparse_spec Rring J _ _ D MJ) as MS. rewrite (proj2 (Nat.ltb_lt 0 (Me + 1))), (proj2 (Nat.ltb_lt 0 (Mn + 1))) in MS by lia. cbn [andb] in MS.
  destruct MS as (Js & -> & RJ & CJ & DJ). cbn [bind]. destruct (rhs_is MF) as (r & -> & Lr & Zr & Hr). cbn [bind].
  pose proof (two_ends m geom pos TR bn BB CC) as EQ. pose proof (jump_regular m geom pos n TR NO MF NV bn BB D SB CC CN M1 M2) as RG.
  assert (SAME : forall (x : nat -> R) i, (i < Mn + 1)%nat -> mv Rring (Mn + 1) (d_coef Rring Js) x i = mv Rring (Mn + 1) D x i).
  { intros x i Hi. unfold mv. rewrite !sumn_to. apply sum_to_ext. intros j Hj. rewrite DJ by lia. reflexivity. }
  destruct (ES (Mn + 1)%nat Js r) as (sol & -> & Lsol & SOL); [lia|lia|lia| |].
  { intros x Hx. apply RG. intros i Hi. rewrite <- SAME by exact Hi. apply Hx, Hi. }
  cbn [bind]. rewrite (num_nodes_dofs m bd bn W BN). rewrite (proj2 (Nat.leb_le Mn (length sol))) by lia. cbn [lf_assert bind].
  rewrite (total_dofs m check W T). destruct (scattered sol ltac:(lia)) as (x & Ex & Lx & Vx & Zx). unfold scatter in Ex. change (mv_nodes m + length (mv_edges m))%nat with N. rewrite Ex. cbn [bind].
  change (mv_count m 1) with ne. change (mv_count m 2) with nv. rewrite Lx. rewrite RA, CA. rewrite (proj2 (Nat.leb_le ne N)), (Nat.leb_refl N), Nat.eqb_refl by lia. cbn [andb lf_assert bind].
  replace (N - ne)%nat with nv by lia. eexists. split; [reflexivity|].
  assert (LF : length (firstn nv x) = nv) by (rewrite firstn_length; lia).
  assert (F : forall v, (v < nv)%nat -> nth v (firstn nv x ++ block_times A nv ne x) 0 = nth v x 0).
  { intros v Hv. rewrite app_nth1 by lia. rewrite <- (firstn_skipn nv x) at 2. rewrite app_nth1 by lia. reflexivity. }
  split; [rewrite app_length, block_length; lia|]. split; [|split].
  - intros v Hv NB. rewrite (F v Hv), (Vx v Hv). unfold spread_out. destruct (bn v) eqn:B; [|reflexivity]. exfalso. apply NB, (BB v Hv), B.
  - set (y := fun i => nth i sol 0) in *.
    assert (EXT : forall e, through m n (fld (fun v => nth v (firstn nv x ++ block_times A nv ne x) 0)) e = through m n (fld (spread_out bn y)) e).
    { intros e. apply through_ext. intros c Hc k _. unfold field_at, comb. destruct (cell_parts m W T c Hc) as (v & n0 & n1 & n2 & e0 & e1 & e2 & E & EC & En & Ee & H0 & H1 & H2 & G0 & G1 & G2).
      unfold node_at. rewrite EC, En. cbn [nth]. rewrite !F, !Vx by assumption. reflexivity. }
    assert (EQS : forall e, (e < ne)%nat -> be e = true -> through m n (fld (spread_out bn y)) e + y Mn = normal_part m n e (g (EEdge e))).
    { intros e He Be. rewrite <- (M2 y e He Be), <- (Hr e He Be), <- SAME by (pose proof (rank_lt be e ne He Be); lia). apply SOL. pose proof (rank_lt be e ne He Be). lia. }
    assert (EB : exists e, (e < ne)%nat /\ be e = true).
    { destruct SB as (v0 & e & a & b & E & Be & _). exists e. split; [unfold size; apply nth_error_Some; congruence|exact Be]. }
    pose proof (multiplier m geom pos n TR NO MF NV bn y (fun e => normal_part m n e (g (EEdge e))) EB EQS) as ML.
    intros e He Be. rewrite EXT. pose proof (EQS e He Be) as Q. rewrite ML in Q. unfold mean_flow. lra.
  - intros e He. rewrite app_nth2 by lia. rewrite LF. replace (nv + e - nv)%nat with e by lia. rewrite (block_nth A nv ne x e He), Lx.
    rewrite sum_split. rewrite (sum_zero ne); [|intros j _; rewrite Zx; ring]. rewrite Rplus_0_r. apply sum_to_ext. intros j Hj. rewrite (F j Hj). reflexivity.
Qed.
End Offset.
