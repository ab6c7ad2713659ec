(** C100: the right hand side for the offset function; the matrix is regular. *)
From Coq Require Import Reals List Arith Lia Lra Bool.
Import ListNotations.
From Verif Require Import Base Scalars MeshModel MeshView RefPatModel GeoModel GeoSpec DofModel DofSpec DofProofs FlagSpec FlagModel FlagProofs RefineSpec FeModel QuadModel LagrModel
  AssembleModel AssembleSpec AssembleProofs ElemModel ElemSpec ElemProofs ElemProofs3 FeSpec GalerkinModel GalerkinProofs GalerkinProofs5 GalerkinProofs7 HierProofs DpgModel DpgProofs6 NormalModel NormalSpec NormalProofs NormalProofs2 NormalProofs4 NormalProofs5 NormalProofs6
  StokesModel StokesSpec StokesProofs StokesProofs2 StokesProofs3 StokesProofs4 StokesProofs5 StokesProofs6 StokesProofs8 StokesProofs9 StokesProofs12 StokesProofs13 FlowSpec.
Local Open Scope R_scope.

(** Turned back. *)
Definition back (n : nat -> nat -> vec) (c i : nat) : vec := fun k => match k with 0%nat => n c i 1%nat | _ => - n c i 0%nat end.
Lemma inner_back : forall n x c i, inner 2 x (turn (back n c i)) = inner 2 x (n c i).
Proof. intros. rewrite !inner2. unfold turn, back. ring. Qed.
Lemma through_jump : forall m n w e, through m n w e = jump m (back n) w e.
Proof. intros. unfold through, jump. apply sum_to_ext. intros c _. apply sum_to_ext. intros i _. rewrite inner_back. reflexivity. Qed.
Lemma through_single : forall m n w c i e, trias m -> boundary_edge m e = true -> edge_of m c i e -> through m n w e = inner 2 (w c) (n c i).
Proof. intros m n w c i e T B O. rewrite through_jump, (jump_single m (back n) w c i e T B O). apply inner_back. Qed.
Lemma through_pair : forall m n w c i c' i' e, trias m -> adjacent m e = 2%nat -> edge_of m c i e -> edge_of m c' i' e -> (c, i) <> (c', i') ->
  through m n w e = inner 2 (w c) (n c i) + inner 2 (w c') (n c' i').
Proof. intros m n w c i c' i' e T A O O' Ne. rewrite through_jump, (jump_pair m (back n) w c i c' i' e T A O O' Ne), !inner_back. reflexivity. Qed.

Section Regular.
Variables (m : mesh) (geom : ent -> geo) (pos : nat -> vec) (n : nat -> nat -> vec).
Hypothesis TR : triangulation m geom pos.
Hypothesis NO : normals_of m geom n.
Hypothesis MF : manifold m.
Hypothesis NV : no_overlap m geom.
Notation be := (boundary_edge m).
Notation nv := (size m 2).
Notation ne := (size m 1).
Notation fld := (field_at m geom).
Notation len := (StokesSpec.edge_length m pos).

(** What leaves the domain: nothing in total. *)
Lemma total_flow : forall psi w, curl_of m pos psi w -> on_boundary_edges m (fun e => len e * through m n w e) = 0.
Proof.
  intros psi w C. destruct (proj1 (flow m geom pos n TR NO psi w C) NV) as [C1 C2]. assert (T := tr_trias _ _ _ TR).
  transitivity (sum_to ne (fun e => over_sides m (fun c i => inner 2 (w c) (n c i)) e * len e)).
  - apply sum_to_ext. intros e He. rewrite <- through_over. destruct (be e) eqn:B; [ring|].
    assert (A2 : adjacent m e = 2%nat). { destruct (MF e He) as [Q|Q]; [|exact Q]. unfold boundary_edge in B. rewrite Q in B. discriminate. }
    destruct (all_sides m e) as (l & ND & L & HL). rewrite A2 in L. destruct l as [|[c i] [|[c' i'] [|]]]; try discriminate L.
    assert (O : edge_of m c i e) by (apply (HL (c, i)); left; reflexivity). assert (O' : edge_of m c' i' e) by (apply (HL (c', i')); right; left; reflexivity).
    assert (Ne : (c, i) <> (c', i')) by (inversion ND as [|? ? N1 _]; subst; intros Q; apply N1; left; symmetry; exact Q).
    rewrite (through_pair m n w c i c' i' e T A2 O O' Ne).
    assert (Nc : c <> c').
    { intros Q. subst c'. apply Ne. f_equal. destruct (side_ends m geom pos TR c i e O) as (a & b & E & Hc & Hi & AB). destruct (side_ends m geom pos TR c i' e O') as (a' & b' & E' & _ & Hi' & AB').
      rewrite E in E'. injection E' as <- <-. pose proof (corners_nonflat m geom pos TR c Hc) as NF.
      assert (DI : forall i j, (i < 3)%nat -> (j < 3)%nat -> node_at m c i = node_at m c j -> i = j).
      { intros p q Hp Hq Q. destruct p as [|[|[|]]], q as [|[|[|]]]; try lia; exfalso; apply NF; unfold area2; rewrite Q; ring. }
      destruct AB as [[Qa Qb]|[Qb Qa]], AB' as [[Qa' Qb']|[Qb' Qa']]; rewrite Qa in Qa'; rewrite Qb in Qb'; apply DI in Qa'; apply DI in Qb'; auto using mod3;
      clear - Hi Hi' Qa' Qb'; destruct i as [|[|[|]]], i' as [|[|[|]]]; try lia; cbn in Qa', Qb'; lia. }
    pose proof (C2 c i c' i' e O O' Nc) as Q. rewrite (outflow_at m pos n w c i e O), (outflow_at m pos n w c' i' e O') in Q. lra.
  - rewrite <- (sum_to_ext ne (fun e => len e * over_sides m (fun c i => inner 2 (w c) (n c i)) e)) by (intros; ring).
    transitivity (sum_to (size m 0) (fun c => sum_to 3 (fun i => inner 2 (w c) (n c i) * len (side_at m c i)))).
    + rewrite (by_edges m (fun c i => inner 2 (w c) (n c i)) len T). apply sum_to_ext. intros e _. ring.
    + apply sum_zero. intros c Hc. rewrite <- (C1 c Hc). apply sum_to_ext. intros i Hi.
      assert (O : edge_of m c i (side_at m c i)) by (apply side_edge_of; rewrite is_side_at by assumption; apply Nat.eqb_refl).
      rewrite (outflow_at m pos n w c i _ O). ring.
Qed.
(** Equal values at the ends of a boundary edge through which nothing flows. *)
Lemma no_difference : forall psi w e a b, curl_of m pos psi w -> be e = true -> (e < ne)%nat -> nth_error (mv_edges m) e = Some (a, b) -> (through m n w e = 0 <-> psi a = psi b).
Proof.
  intros psi w e a b C B He E. destruct (edge_has_cell m MF e He) as (c & i & O). rewrite (through_single m n w c i e (tr_trias _ _ _ TR) B O).
  pose proof (proj2 (flow m geom pos n TR NO psi w C) c i e a b O E) as Q. rewrite (outflow_at m pos n w c i e O) in Q. pose proof (length_pos m geom pos TR MF e He) as L.
  split; intros H.
  - rewrite H, Rmult_0_r, Rabs_R0 in Q. destruct (Req_dec (psi b - psi a) 0) as [Z|Z]; [lra|]. apply Rabs_pos_lt in Z. lra.
  - rewrite H, Rminus_eq_0, Rabs_R0 in Q. destruct (Req_dec (inner 2 (w c) (n c i)) 0) as [Z|Z]; [exact Z|]. exfalso. assert (Z' : len e * inner 2 (w c) (n c i) <> 0) by (apply Rmult_integral_contrapositive_currified; lra).
    apply Rabs_pos_lt in Z'. lra.
Qed.
Lemma perimeter : (exists e, (e < ne)%nat /\ be e = true) -> 0 < on_boundary_edges m len.
Proof.
  intros (e & He & B). unfold on_boundary_edges. assert (P : forall i, (i < ne)%nat -> 0 <= (if be i then len i else 0)).
  { intros i Hi. pose proof (length_pos m geom pos TR MF i Hi). destruct (be i); lra. }
  destruct (Rle_lt_or_eq_dec 0 (sum_to ne (fun e => if be e then len e else 0))) as [L|L]; [|exact L|].
  - clear - P. induction ne as [|k IH]; [unfold sum_to; simpl; lra|]. rewrite sum_to_S. assert (0 <= (if be k then len k else 0)) by (apply P; lia).
    assert (0 <= sum_to k (fun e => if be e then len e else 0)) by (apply IH; intros; apply P; lia). lra.
  - exfalso. pose proof (sum_squares ne (fun e => if be e then len e else 0) P (eq_sym L) e He) as Q. cbv beta in Q. rewrite B in Q. pose proof (length_pos m geom pos TR MF e He). lra.
Qed.

(** * Counting *)
Variable bn : nat -> bool.
Hypothesis BN : forall v, (v < nv)%nat -> (bn v = true <-> boundary_node m v).
Lemma rank_sum : forall s k, INR (rank s k) = sum_to k (fun i => if s i then 1 else 0).
Proof. intros s. induction k as [|k IH]; [reflexivity|]. rewrite rank_S, plus_INR, IH, sum_to_S. destruct (s k); cbn [INR]; lra. Qed.
Lemma range_of : forall v, boundary_node m v -> (v < nv)%nat.
Proof. exact (node_range m geom pos TR). Qed.
Definition ends_bool (v e : nat) : R := match nth_error (mv_edges m) e with Some (a, b) => (if (a =? v)%nat then 1 else 0) + (if (b =? v)%nat then 1 else 0) | None => 0 end.
Lemma two_ends : closed_curves m -> rank bn nv = rank be ne.
Proof.
  intros CC. apply INR_eq. rewrite !rank_sum.
  assert (SZ : forall v, (v < nv)%nat -> bn v = true -> sum_to ne (fun e => if be e then ends_bool v e else 0) = 2).
  { intros v Hv Bv. destruct (CC v (proj1 (BN v Hv) Bv)) as (l & ND & L & HL). destruct l as [|e [|e' [|]]]; try discriminate L.
    assert (Ne : e <> e') by (inversion ND as [|? ? N1 _]; subst; intros Q; apply N1; left; symmetry; exact Q).
    assert (H : ends_in m v e) by (apply HL; left; reflexivity). assert (H' : ends_in m v e') by (apply HL; right; left; reflexivity).
    assert (RG : forall e, ends_in m v e -> (e < ne)%nat) by (intros x (_ & a & b & E & _); unfold size; apply nth_error_Some; congruence).
    assert (VAL : forall x, (x < ne)%nat -> (if be x then ends_bool v x else 0) = (if (e =? x)%nat then 1 else 0) + (if (e' =? x)%nat then 1 else 0)).
    { intros x Hx. assert (Q : ends_in m v x <-> (x = e \/ x = e')) by (rewrite <- (HL x); cbn [In]; intuition congruence).
      destruct (nth_error (mv_edges m) x) as [[a b]|] eqn:Ex; [|apply nth_error_None in Ex; unfold size in Hx; lia].
      destruct (wm_edges _ (proj1 (tr_trias _ _ _ TR)) _ _ _ Ex) as (Dab & _).
      unfold ends_bool. rewrite Ex. 
      destruct (be x) eqn:Bx.
      - destruct (Nat.eqb_spec a v) as [->|Na]; [|destruct (Nat.eqb_spec b v) as [->|Nb]].
        + destruct (Nat.eqb_spec b v) as [->|_]; [contradiction|]. destruct (proj1 Q) as [-> | ->]; [split; [exact Bx|exists v, b; auto]| |]; rewrite Nat.eqb_refl; [rewrite (proj2 (Nat.eqb_neq e' e)) by auto|rewrite (proj2 (Nat.eqb_neq e e')) by auto]; lra.
        + destruct (proj1 Q) as [-> | ->]; [split; [exact Bx|exists a, v; auto]| |]; rewrite Nat.eqb_refl; [rewrite (proj2 (Nat.eqb_neq e' e)) by auto|rewrite (proj2 (Nat.eqb_neq e e')) by auto]; lra.
        + destruct (Nat.eqb_spec e x) as [->|]; [|destruct (Nat.eqb_spec e' x) as [->|]; [|lra]]; exfalso.
          * destruct H as (_ & a0 & b0 & E0 & X). rewrite Ex in E0. injection E0 as <- <-. destruct X; congruence.
          * destruct H' as (_ & a0 & b0 & E0 & X). rewrite Ex in E0. injection E0 as <- <-. destruct X; congruence.
      - destruct (Nat.eqb_spec e x) as [->|]; [destruct H; congruence|]. destruct (Nat.eqb_spec e' x) as [->|]; [destruct H'; congruence|]. lra. }
    rewrite (sum_to_ext ne _ _ VAL), sum_to_plus, (sum_one ne e (fun _ => 1) (RG e H)), (sum_one ne e' (fun _ => 1) (RG e' H')). lra. }
  assert (SW : sum_to nv (fun v => (if bn v then 1 else 0) * sum_to ne (fun e => if be e then ends_bool v e else 0)) = sum_to ne (fun e => (if be e then 1 else 0) * sum_to nv (fun v => (if bn v then 1 else 0) * ends_bool v e))).
  { transitivity (sum_to nv (fun v => sum_to ne (fun e => (if be e then 1 else 0) * ((if bn v then 1 else 0) * ends_bool v e)))).
    - apply sum_to_ext. intros v _. rewrite <- sum_to_scal. apply sum_to_ext. intros e _. destruct (be e), (bn v); ring.
    - rewrite sum_swap. apply sum_to_ext. intros e _. rewrite <- sum_to_scal. reflexivity. }
  assert (L1 : sum_to nv (fun v => (if bn v then 1 else 0) * sum_to ne (fun e => if be e then ends_bool v e else 0)) = 2 * sum_to nv (fun v => if bn v then 1 else 0)).
  { rewrite <- sum_to_scal. apply sum_to_ext. intros v Hv. destruct (bn v) eqn:B; [rewrite (SZ v Hv B); ring|ring]. }
  assert (L2 : sum_to ne (fun e => (if be e then 1 else 0) * sum_to nv (fun v => (if bn v then 1 else 0) * ends_bool v e)) = 2 * sum_to ne (fun e => if be e then 1 else 0)).
  { rewrite <- sum_to_scal. apply sum_to_ext. intros e He. destruct (be e) eqn:B; [|ring].
    destruct (nth_error (mv_edges m) e) as [[a b]|] eqn:Ee; [|apply nth_error_None in Ee; unfold size in He; lia].
    destruct (wm_edges _ (proj1 (tr_trias _ _ _ TR)) _ _ _ Ee) as (_ & Ha & Hb).
    assert (Ba : bn a = true) by (apply (BN a Ha); exists e, a, b; auto). assert (Bb : bn b = true) by (apply (BN b Hb); exists e, a, b; auto).
    rewrite (sum_to_ext nv _ (fun v => (if (a =? v)%nat then (if bn v then 1 else 0) else 0) + (if (b =? v)%nat then (if bn v then 1 else 0) else 0))).
    - rewrite sum_to_plus, (sum_one nv a (fun v => if bn v then 1 else 0) Ha), (sum_one nv b (fun v => if bn v then 1 else 0) Hb), Ba, Bb. ring.
    - intros v _. unfold ends_bool. rewrite Ee. destruct (a =? v)%nat, (b =? v)%nat; ring. }
  lra.
Qed.

(** * Regularity *)
Lemma spread_rank : forall x v, bn v = true -> spread_out bn x v = x (rank bn v).
Proof. intros x v B. unfold spread_out. rewrite B. reflexivity. Qed.
Lemma jump_regular : forall D : nat -> nat -> R, (exists v, boundary_node m v) -> closed_curves m -> connected_boundary m ->
  (forall x : nat -> R, mv Rring (rank bn nv + 1) D x (rank be ne) = sum_to (rank bn nv) x) ->
  (forall (x : nat -> R) e, (e < ne)%nat -> be e = true -> mv Rring (rank bn nv + 1) D x (rank be e) = through m n (fld (spread_out bn x)) e + x (rank bn nv)) ->
  regular (rank bn nv + 1) D.
Proof.
  intros D (v0 & B0) CC CN H1 H2 x Z. pose proof (two_ends CC) as EQ. pose proof (field_curl m geom pos TR (spread_out bn x)) as C.
  assert (EB : exists e, (e < ne)%nat /\ be e = true).
  { destruct B0 as (e & a & b & E & Be & _). exists e. split; [unfold size; apply nth_error_Some; congruence|exact Be]. }
  assert (ZE : forall e, (e < ne)%nat -> be e = true -> through m n (fld (spread_out bn x)) e + x (rank bn nv) = 0).
  { intros e He B. rewrite <- (H2 x e He B). apply Z. pose proof (rank_lt be e ne He B). lia. }
  assert (LA : x (rank bn nv) = 0).
  { pose proof (total_flow _ _ C) as TF. pose proof (perimeter EB) as P.
    assert (Q : on_boundary_edges m (fun e => len e * through m n (fld (spread_out bn x)) e) = - x (rank bn nv) * on_boundary_edges m len).
    { unfold on_boundary_edges. rewrite <- sum_to_scal. apply sum_to_ext. intros e He. destruct (be e) eqn:B; [|ring]. replace (through m n (fld (spread_out bn x)) e) with (- x (rank bn nv)) by (pose proof (ZE e He B); lra). ring. }
    rewrite TF in Q. symmetry in Q. apply Rmult_integral in Q. destruct Q as [Q|Q]; lra. }
  assert (SAME : forall v w, linked m v w -> spread_out bn x v = spread_out bn x w).
  { intros v w L. induction L as [|y z e L IH (By & a & b & E & Y) (_ & a' & b' & E' & Z')]; [reflexivity|]. rewrite IH. rewrite E in E'. injection E' as <- <-.
    assert (He : (e < ne)%nat) by (unfold size; apply nth_error_Some; congruence). pose proof (ZE e He By) as Q. rewrite LA, Rplus_0_r in Q.
    apply (no_difference _ _ e a b C By He E) in Q. destruct Y as [-> | ->], Z' as [-> | ->]; congruence. }
  pose proof (range_of v0 B0) as H0. pose proof (proj2 (BN v0 H0) B0) as F0.
  assert (CONST : forall i, (i < rank bn nv)%nat -> x i = spread_out bn x v0).
  { intros i Hi. destruct (rank_onto bn nv i Hi) as (v & Hv & Bv & <-). rewrite <- (spread_rank x v Bv). symmetry. apply SAME, CN; [exact B0|apply (BN v Hv), Bv]. }
  pose proof (Z (rank be ne) ltac:(lia)) as S0. rewrite H1 in S0. rewrite (sum_to_ext _ _ (fun _ => spread_out bn x v0 * 1)) in S0 by (intros i Hi; rewrite (CONST i Hi); ring).
  rewrite sum_to_scal in S0. assert (P : sum_to (rank bn nv) (fun _ => 1) = INR (rank bn nv)).
  { clear. induction (rank bn nv) as [|k IH]; [reflexivity|]. rewrite sum_to_S, S_INR, IH. reflexivity. }
  rewrite P in S0. assert (PP : 0 < INR (rank bn nv)) by (apply lt_0_INR; pose proof (rank_lt bn v0 nv H0 F0); lia).
  apply Rmult_integral in S0. intros i Hi. destruct (Nat.eq_dec i (rank bn nv)) as [->|]; [exact LA|]. rewrite CONST by lia. destruct S0; lra.
Qed.
(** The multiplier is the mean of the data. *)
Lemma multiplier : forall (x g : nat -> R), (exists e, (e < ne)%nat /\ be e = true) ->
  (forall e, (e < ne)%nat -> be e = true -> through m n (fld (spread_out bn x)) e + x (rank bn nv) = g e) ->
  x (rank bn nv) = on_boundary_edges m (fun e => len e * g e) / on_boundary_edges m len.
Proof.
  intros x g EB H. pose proof (total_flow _ _ (field_curl m geom pos TR (spread_out bn x))) as TF. pose proof (perimeter EB) as P.
  assert (Q : on_boundary_edges m (fun e => len e * g e) = on_boundary_edges m (fun e => len e * through m n (fld (spread_out bn x)) e) + x (rank bn nv) * on_boundary_edges m len).
  { unfold on_boundary_edges. rewrite <- sum_to_scal, <- sum_to_plus. apply sum_to_ext. intros e He. destruct (be e) eqn:B; [|ring]. rewrite <- (H e He B). ring. }
  rewrite Q, TF. field. lra.
Qed.
End Regular.
