(** C98: the velocity as a mesh function; the velocity of solutions; an example. *)
From Coq Require Import Reals List Arith Lia Lra Bool.
Import ListNotations.
From Verif Require Import Base Scalars MeshModel MeshView RefPatModel GeoModel GeoSpec DofModel DofSpec DofProofs DofProofs2 DofProofs4 FlagSpec FlagModel FlagProofs RefineSpec FeModel QuadModel LagrModel LagrProofs3
  AssembleModel AssembleSpec ElemModel ElemSpec ElemProofs ElemProofs3 FeSpec GalerkinModel GalerkinProofs HierProofs DpgModel NormalModel NormalSpec NormalProofs NormalProofs2 NormalProofs4 NormalProofs5
  StokesModel StokesSpec StokesProofs StokesProofs2 StokesProofs3 StokesProofs4 StokesProofs5 StokesProofs6 StokesProofs7 StokesProofs8 StokesProofs9.
Local Open Scope R_scope.

Lemma o1_dofs : forall m c v, wf_mesh m -> nth_error (mv_cells m) c = Some v -> cv_type v = kTria ->
  GlobalDofIndices (lagrange_dofs O1 m) (DofModel.ECell c) = Ok (cv_nodes v).
Proof.
  intros m c v W E T. set (dm := [(kPoint, 1%nat); (kSegment, edge_num O1); (kTria, cell_num O1 kTria); (kQuad, cell_num O1 kQuad)]).
  assert (V : valid m (DofModel.ECell c)) by (cbn [valid]; apply nth_error_Some; congruence).
  unfold lagrange_dofs. rewrite (ex_global _ _ _ _ (uniform_exp m dm true W)) by exact V. f_equal.
  assert (EC : cell_at m c = v) by (unfold cell_at; apply nth_error_nth; exact E).
  cbn [cov]. rewrite EC, T. 
  assert (ON : forall w, ownl m (prescribed dm m) (ENode w) = [w]).
  { intros w. unfold ownl. cbn [DofProofs.start]. rewrite sumto_one by (intros; reflexivity). reflexivity. }
  assert (OE : forall e, ownl m (prescribed dm m) (EEdge e) = []) by (intros e; reflexivity).
  assert (OC : ownl m (prescribed dm m) (DofModel.ECell c) = []).
  { unfold ownl. replace (prescribed dm m (DofModel.ECell c)) with 0%nat; [reflexivity|]. unfold prescribed. cbn [ent_type]. rewrite EC, T. reflexivity. }
  rewrite OC, app_nil_r.
  rewrite (map_ext (fun w => ownl m (prescribed dm m) (ENode w)) (fun v => [v])) by (intros; apply ON).
  assert (EP : concat (map (epart m (prescribed dm m) true v) (seq 0 (num_nodes kTria))) = []).
  { cbn [num_nodes seq map concat]. unfold epart. rewrite !OE. cbn [rev app]. destruct (true && _), (true && _), (true && _); reflexivity. }
  rewrite EP, app_nil_r. clear; induction (cv_nodes v) as [|y l IH]; [reflexivity|]; cbn [map concat app]; rewrite IH; reflexivity.
Qed.

Section Function.
Variables (m : mesh) (geom : ent -> geo) (pos : nat -> vec) (n : nat -> nat -> vec).
Hypothesis TR : triangulation m geom pos.
Hypothesis NO : normals_of m geom n.
Notation nv := (size m 2).
Notation ne := (size m 1).
Notation N := (nv + ne)%nat.

Theorem velocity_function : forall V u w c p, lagrange_space O1 m = Ok V -> length u = nv -> curl_of m pos (fun v => nth v u 0) w ->
  (c < size m 0)%nat -> length p = 2%nat ->
  exists x, MeshFunctionVelocity geom V u (DofModel.ECell c) p = Ok x /\ same_points x (w c).
Proof.
  intros V u w c p EV Lu C Hc Lp. destruct (tr_trias _ _ _ TR) as [W T].
  destruct (lagrange_space_ok O1 m) as (lo & E' & Lo). rewrite EV in E'. injection E' as ->.
  destruct (cell_view m c Hc) as (v & E & EC).
  destruct (cell_shape m c v (tr_trias _ _ _ TR) E) as (n0 & n1 & n2 & e0 & e1 & e2 & En & Ee & WC).
  assert (Ty : ent_type m (DofModel.ECell c) = kTria) by (cbn [ent_type]; rewrite EC; exact (T c v E)).
  destruct (cell_geo m geom pos TR c Hc) as (K & D & Co). destruct (basis_ok _ K D Co) as (B & EB & _ & BB).
  assert (RG : Forall (fun i => (i < length u)%nat) [n0; n1; n2]) by (rewrite Lu, <- En; exact (wc_nodes _ _ WC)).
  apply Forall_cons_iff in RG as [R0 RG]. apply Forall_cons_iff in RG as [R1 RG]. apply Forall_cons_iff in RG as [R2 _].
  assert (GU : same_points (w c) (comb (nth n0 u 0) (nth n1 u 0) (nth n2 u 0) B)).
  { pose proof (curl_unique m geom pos TR _ _ _ c C (field_curl m geom pos TR (fun v => nth v u 0)) Hc) as Q. unfold field_at, basis_at, node_at in Q. rewrite EB, EC, En in Q. exact Q. }
  unfold MeshFunctionVelocity, fe_grad_value. cbn [sp_layout sp_dofs sp_mesh]. rewrite Lo, Ty. cbn [lagrange].
  destruct p as [|p0 [|p1 [|]]]; try discriminate Lp. 
  rewrite (o1_dofs m c v W E (T c v E)), En.
  unfold basis_functions in EB.
  destruct (tria_points _ K D Co) as (a & b & d & ED & A & _).
  assert (Ec : col (geom (DofModel.ECell c)) = fun i => nth i [a; b; d] vzero) by (unfold col; rewrite ED; reflexivity).
  unfold JacobianInverseGramian, range_check, with_local, jac_cols, dim_local in *. rewrite K, D, Ec in *.
  cbn [fe_grad o1_tria point2 bind is_o2 kind_el RefPatModel.el_dim length Nat.eqb lf_assert nth andb traverse seq entry nth_error] in *.
  unfold entry at 1 2 3. rewrite !(nth_error_nth' u 0) by assumption. cbn [bind].
  injection EB as EB. cbn [inv_transpose length dimension Nat.leb lf_assert bind]. eexists. split; [reflexivity|].
  intros k Hk. rewrite (GU k Hk). rewrite <- EB. unfold comb, trf_grad, curl, vec2, rsum, FeModel.dot, inv_transpose. cbn [seq map fold_right nth].
  destruct k as [|[|]]; [| |lia]; cbn; ring.
Qed.
End Function.

Theorem no_flow_velocity : forall m geom pos n sigma modified q f g check, triangulation m geom pos -> normals_of m geom n -> manifold m -> no_overlap m geom ->
  sigma <> 0 -> tria_rule q -> of_points f ->
  let N := (size m 2 + size m 1)%nat in let d := u_handler (uniform m stokes_map check) in
  exists A b D, buildSystemMatrixNoFlow m geom d f g sigma q modified = Ok (A, b) /\ AssembleSpec.is_matrix Rring A N N D /\
    forall sol, length sol = N -> solves Rring N D (comp Rring b) (comp Rring sol) ->
      exists s w, extractVelocity m geom d sol = Ok s /\ (forall c, (c < size m 0)%nat -> dget s 0 c = Ok (w c)) /\
        conserved m pos n w /\ confined m pos n w.
Proof.
  intros m geom pos n sigma modified q f g check TR NO MF NV SG RQ FP N d.
  destruct (no_flow m geom pos n TR NO MF sigma modified q f g check SG RQ FP) as (A & b & D & E & MA & _ & _ & H).
  exists A, b, D. split; [exact E|]. split; [exact MA|]. intros sol L S. destruct (velocity m geom pos TR check sol L) as (s & w & Es & Hw & C).
  exists s, w. split; [exact Es|]. split; [exact Hw|]. split; [apply (flow m geom pos n TR NO _ w C); exact NV|].
  apply (tight m geom pos n TR NO _ w C). exact (proj1 (proj1 (H _) S)).
Qed.
