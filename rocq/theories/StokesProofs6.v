(** C97: the linear system of the no-flow problem. *)
From Coq Require Import Reals List Arith Lia Lra Bool.
Import ListNotations.
From Verif Require Import Base Scalars MeshModel MeshView RefPatModel GeoModel GeoSpec DofModel DofSpec FlagSpec FlagModel FlagProofs RefineSpec FeModel QuadModel LagrModel
  AssembleModel AssembleSpec AssembleProofs ElemModel ElemSpec ElemProofs ElemProofs3 FeSpec GalerkinModel GalerkinProofs GalerkinProofs5 GalerkinProofs7 HierProofs DpgModel DpgProofs6 NormalModel NormalSpec NormalProofs5
  StokesModel StokesSpec StokesProofs StokesProofs2 StokesProofs3 StokesProofs4 StokesProofs5.
Local Open Scope R_scope.

Lemma dirichlet_ok : forall m g, exists ds, dirichlet_set m g = Ok ds /\ forall e, (e < size m 1)%nat -> dget ds 1 e = Ok (g (EEdge e)).
Proof.
  intros m g. unfold dirichlet_set.
  destruct (each_inv (fun done (s : dset vec) => d_codim s = 1%nat /\ length (d_data s) = size m 1 /\ forall e, In e done -> nth e (d_data s) vzero = g (EEdge e))
    (fun e s => dset_at s 1 e (fun _ => g (EEdge e))) (seq 0 (mv_count m 1)) (new_dset m 1 vzero)) as (ds & E & C & L & H).
  - split; [reflexivity|]. split; [cbn [new_dset d_data]; rewrite repeat_length; reflexivity|]. intros e [].
  - intros done e s I (C & L & H). apply in_seq in I. change (mv_count m 1) with (size m 1) in I.
    unfold dset_at. rewrite (dget_ok _ s 1 e vzero C) by lia. cbn [bind]. eexists. split; [reflexivity|]. cbn [d_codim d_data].
    split; [exact C|]. split; [rewrite upd_length; exact L|]. intros e' I'. destruct (Nat.eq_dec e' e) as [->|Ne].
    + rewrite nth_upd_eq by lia. reflexivity.
    + rewrite nth_upd_neq by (intros Q; apply Ne; symmetry; exact Q). apply H. apply in_app_or in I' as [I'|[I'|[]]]; [exact I'|congruence].
  - exists ds. split; [exact E|]. intros e He. rewrite (dget_ok _ ds 1 e vzero C) by lia. f_equal. apply H, in_seq. change (mv_count m 1) with (size m 1). lia.
Qed.

Section NoFlow.
Variables (m : mesh) (geom : ent -> geo) (pos : nat -> vec) (n : nat -> nat -> vec).
Hypothesis TR : triangulation m geom pos.
Hypothesis NO : normals_of m geom n.
Hypothesis MF : manifold m.
Variables (sigma : R) (modified : bool) (q : quadrule) (f : vec -> vec) (g : ent -> vec) (check : bool).
Hypothesis SG : sigma <> 0.
Hypothesis RQ : tria_rule q.
Hypothesis FP : of_points f.
Notation d := (u_handler (uniform m stokes_map check)).
Notation nv := (size m 2).
Notation ne := (size m 1).
Notation N := (nv + ne)%nat.
Notation J := (jump m n).
Notation fld := (field_at m geom).
Notation len := (StokesSpec.edge_length m pos).
Notation pen := (penalty m pos sigma modified).
Notation data := (data_at m n g).

Lemma edge_has_cell : forall e, (e < ne)%nat -> exists c i, edge_of m c i e.
Proof.
  intros e H. assert (A : (count_occ Nat.eq_dec (flat_map cv_edges (mv_cells m)) e > 0)%nat) by (destruct (MF e H) as [Q|Q]; unfold adjacent in Q; lia).
  apply count_occ_In in A. apply in_flat_map in A as (v & Iv & Ie). apply In_nth_error in Iv as (c & Ec). apply In_nth_error in Ie as (i & Ei).
  exists c, i, v. auto.
Qed.
Lemma length_pos : forall e, (e < ne)%nat -> 0 < len e.
Proof. intros e H. destruct (edge_has_cell e H) as (c & i & O). apply (side_length m geom pos TR c i e O). Qed.
Lemma pen_nonzero : forall e, (e < ne)%nat -> len e * pen e <> 0.
Proof.
  intros e H. pose proof (length_pos e H) as L. unfold penalty. destruct modified; [apply Rmult_integral_contrapositive_currified; lra|].
  replace (len e * (sigma / len e)) with sigma by (field; lra). exact SG.
Qed.
Lemma diag_is : forall e, (e < ne)%nat -> INR (adjacent m e) * diagonal m pos sigma modified e = - / (len e * pen e).
Proof.
  intros e H. pose proof (length_pos e H) as L. unfold diagonal, penalty, boundary_edge. destruct (MF e H) as [Q|Q]; rewrite Q; cbn [Nat.eqb INR]; destruct modified; field; lra.
Qed.

Lemma node_range : forall v, boundary_node m v -> (v < nv)%nat.
Proof.
  intros v (e & a & b & E & _ & AB). destruct (wm_edges _ (tr_wf _ _ _ TR) e a b E) as (_ & Ha & Hb). unfold size. destruct AB as [->| ->]; assumption.
Qed.
Lemma form_unit : forall (D : nat -> nat -> R) (x : nat -> R) i, (i < N)%nat -> form Rring N N D (fun j => if (j =? i)%nat then 1 else 0) x = mv Rring N D x i.
Proof. intros D x i H. unfold form. rewrite sumn_to. cbn [kmul Rring]. apply (sum_unit N i (fun j => mv Rring N D x j) H). Qed.
Lemma sum_unit' : forall (b : list R) i, (i < N)%nat -> sum_to N (fun j => nth j b 0 * (if (j =? i)%nat then 1 else 0)) = nth i b 0.
Proof. intros b i H. etransitivity; [|apply (sum_unit N i (fun j => nth j b 0) H)]. apply sum_to_ext. intros j _. ring. Qed.

(** The equations of the unflagged components, tested. *)
Definition tested (x : nat -> R) : Prop := forall v : nat -> R, (forall i, boundary_node m i -> v i = 0) ->
  sum_to ne (fun e => x (nv + e)%nat * J (fld v) e + v (nv + e)%nat * J (fld x) e - / (len e * pen e) * (v (nv + e)%nat * x (nv + e)%nat)) =
  cell_load m geom q f (fld v) + sum_to ne (fun e => v (nv + e)%nat * data e).
(** Fields of vectors without node values vanish. *)
Lemma field_zero : forall v c, (c < size m 0)%nat -> (forall i, (i < nv)%nat -> v i = 0) -> same_points (fld v c) (fun _ => 0).
Proof.
  intros v c H Z k _. unfold field_at, comb.
  assert (Zn : forall i, (i < 3)%nat -> v (node_at m c i) = 0).
  { intros i Hi. apply Z. destruct (cell_view m c H) as (w & E & _). pose proof (node_in m geom pos TR c w i E Hi) as I.
    destruct (cell_shape m c w (tr_trias _ _ _ TR) E) as (_ & _ & _ & _ & _ & _ & _ & _ & WC). pose proof (wc_nodes _ _ WC) as F. rewrite Forall_forall in F. exact (F _ I). }
  rewrite !Zn by lia. ring.
Qed.
Lemma jump_zero : forall w e, (forall c, (c < size m 0)%nat -> same_points (w c) (fun _ => 0)) -> J w e = 0.
Proof.
  intros w e Z. apply sum_zero. intros c Hc. apply sum_zero. intros i _. destruct (is_side m c i e); [|reflexivity].
  rewrite (inner_same _ _ _ _ (Z c Hc) (same_refl _)), inner2. ring.
Qed.
Lemma load_zero : forall w, (forall c, (c < size m 0)%nat -> same_points (w c) (fun _ => 0)) -> cell_load m geom q f w = 0.
Proof.
  intros w Z. apply sum_zero. intros c Hc. apply sum_zero. intros k _. rewrite (inner_same _ _ _ _ (same_refl _) (Z c Hc)), inner2. ring.
Qed.
Lemma load_ext : forall w w', (forall c, (c < size m 0)%nat -> same_points (w c) (w' c)) -> cell_load m geom q f w = cell_load m geom q f w'.
Proof.
  intros w w' Z. apply sum_to_ext. intros c Hc. apply sum_to_ext. intros k _. rewrite (inner_same _ _ _ _ (same_refl _) (Z c Hc)). reflexivity.
Qed.
Lemma load_split : forall w, stokes_load m geom pos n sigma modified q f (fun e => g (EEdge e)) w = cell_load m geom q f w + sum_to ne (fun e => len e * pen e * data e * J w e).
Proof.
  intros w. unfold stokes_load, cell_load. f_equal. apply sum_to_ext. intros e _. unfold data_at. destruct (boundary_edge m e); ring.
Qed.
Definition edge_equations (x : nat -> R) : Prop := forall e, (e < ne)%nat -> x (nv + e)%nat = len e * pen e * (J (fld x) e - data e).
Definition variational (w : nat -> vec) : Prop := forall y z, (forall v, boundary_node m v -> y v = 0) -> curl_of m pos y z ->
  stokes_form m pos n sigma modified w z = stokes_load m geom pos n sigma modified q f (fun e => g (EEdge e)) z.

Lemma tested_edges : forall x, tested x -> edge_equations x.
Proof.
  intros x T e He. specialize (T (fun i => if (i =? nv + e)%nat then 1 else 0)). cbv beta in T.
  assert (Z : forall i, (i < nv)%nat -> (if (i =? nv + e)%nat then 1 else 0) = 0) by (intros i Hi; destruct (Nat.eqb_spec i (nv + e)); [lia|reflexivity]).
  rewrite (load_zero _ (fun c Hc => field_zero _ c Hc Z)) in T.
  rewrite (sum_to_ext ne (fun e' => _ + _ - _) (fun e' => (if (e' =? e)%nat then 1 else 0) * (J (fld x) e' - / (len e' * pen e') * x (nv + e')%nat))) in T.
  - rewrite (sum_to_ext ne (fun e' => _ * data e') (fun e' => (if (e' =? e)%nat then 1 else 0) * data e')) in T.
    + rewrite !sum_unit in T by exact He. pose proof (pen_nonzero e He) as P.
      assert (T' : J (fld x) e - / (len e * pen e) * x (nv + e)%nat = data e).
      { rewrite <- (Rplus_0_l (data e)). apply T. intros i B. apply Z, node_range, B. }
      rewrite <- T'. field. split; intros Q; apply P; rewrite Q; ring.
    + intros e' _. replace (nv + e' =? nv + e)%nat with (e' =? e)%nat; [reflexivity|]. destruct (Nat.eqb_spec e' e), (Nat.eqb_spec (nv + e') (nv + e)); try reflexivity; lia.
  - intros e' _. replace (nv + e' =? nv + e)%nat with (e' =? e)%nat by (destruct (Nat.eqb_spec e' e), (Nat.eqb_spec (nv + e') (nv + e)); try reflexivity; lia).
    rewrite (jump_zero _ e' (fun c Hc => field_zero _ c Hc Z)). ring.
Qed.
Lemma tested_form : forall x, tested x -> variational (fld x).
Proof.
  intros x T y z Hy Hz. pose proof (tested_edges x T) as EE.
  set (v := fun i : nat => if (i <? nv)%nat then y i else 0).
  assert (VY : forall c, (c < size m 0)%nat -> same_points (fld v c) (z c)).
  { intros c Hc. apply (curl_unique m geom pos TR y); [|exact Hz|exact Hc]. intros c' w E'. destruct (field_curl m geom pos TR v c' w E') as (r & g0 & g1 & V & W0 & W1).
    exists r, g0, g1. split; [|split; assumption]. intros p I. rewrite <- V by exact I. unfold v.
    destruct (cell_shape m c' w (tr_trias _ _ _ TR) E') as (_ & _ & _ & _ & _ & _ & _ & _ & WC). pose proof (wc_nodes _ _ WC) as F. rewrite Forall_forall in F.
    destruct (Nat.ltb_spec p nv); [reflexivity|]. specialize (F _ I). unfold size in *. lia. }
  specialize (T v). assert (Vz : forall e, v (nv + e)%nat = 0) by (intros e; unfold v; destruct (Nat.ltb_spec (nv + e) nv); [lia|reflexivity]).
  rewrite load_split, <- (load_ext _ _ VY).
  assert (T' := T (fun i B => eq_trans (f_equal (fun b : bool => if b then y i else 0) (proj2 (Nat.ltb_lt i nv) (node_range i B))) (Hy i B))). clear T.
  assert (Z0 : sum_to ne (fun e => v (nv + e)%nat * data e) = 0) by (apply sum_zero; intros e _; rewrite Vz; ring).
  rewrite Z0, Rplus_0_r in T'. rewrite <- T'. unfold stokes_form. rewrite <- sum_to_plus. apply sum_to_ext. intros e He.
  rewrite Vz, (jump_ext m n (fld v) z e VY), (EE e He). ring.
Qed.
Lemma tested_intro : forall x, edge_equations x -> variational (fld x) -> tested x.
Proof.
  intros x EE VA v Hv. pose proof (VA v (fld v) Hv (field_curl m geom pos TR v)) as Q. rewrite load_split in Q. unfold stokes_form in Q.
  assert (Q' : cell_load m geom q f (fld v) = sum_to ne (fun e => x (nv + e)%nat * J (fld v) e)).
  { apply Rplus_eq_reg_r with (sum_to ne (fun e => len e * pen e * data e * J (fld v) e)). rewrite <- Q, <- sum_to_plus. apply sum_to_ext. intros e He. rewrite (EE e He). ring. }
  rewrite Q', <- sum_to_plus. apply sum_to_ext. intros e He. pose proof (pen_nonzero e He) as P.
  assert (X : J (fld x) e - / (len e * pen e) * x (nv + e)%nat = data e).
  { rewrite (EE e He). field. split; intros Z; apply P; rewrite Z; ring. }
  rewrite <- X. ring.
Qed.
End NoFlow.
