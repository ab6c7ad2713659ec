(** C82-C84: product spaces and the DPG method (projects/dpg). *)
From Coq Require Import List Arith Bool Reals ZArith.
Import ListNotations.
From Verif Require Import Base Scalars MeshModel MeshView DofModel DofSpec FeModel AssembleModel AssembleSpec AssembleProofs2 DpgModel DpgSpec DpgProofs DpgProofs2 DpgProofs3 DpgProofs4 DpgProofs5 DpgProofs6 DpgProofs7 PropMeshView PropDof.
Local Open Scope nat_scope.

(** * C82: the dof handler of a product space *)
Theorem C82_constructed : forall m dms, wf_mesh m -> dms <> [] -> exists p, product m dms = Ok p.
Proof. exact product_ok. Qed.
Print Assumptions C82_constructed.

Theorem C82_stacked : forall m dms p, wf_mesh m -> product m dms = Ok p ->
  stacked m (map (fun dm => u_handler (uniform m dm true)) dms) p.
Proof. exact product_stacked. Qed.
Print Assumptions C82_stacked.

Theorem C82_distributes : forall m dms p, wf_mesh m -> product m dms = Ok p ->
  distributes m (fun e => list_sum (map (fun dm => prescribed dm m e) dms)) (p_handler p).
Proof. exact product_distributes. Qed.
Print Assumptions C82_distributes.

Theorem C82_no_repetition : forall m dms p, wf_mesh m -> product m dms = Ok p ->
  forall i c l, nth_error (mv_cells m) i = Some c -> NoDup (cv_nodes c) -> NoDup (cv_edges c) ->
  GlobalDofIndices (p_handler p) (ECell i) = Ok l -> NoDup l.
Proof. exact product_cell_nodup. Qed.
Print Assumptions C82_no_repetition.

Example C82_example : wf_mesh example_mesh.
Proof. exact example_wf. Qed.
Example C82_example_numbers : exists p, product example_mesh ex_u = Ok p /\ NumDofs (p_handler p) = 17 /\
  GlobalDofIndices (p_handler p) (ECell 0) = Ok [0; 1; 2; 7; 8; 11; 12; 9; 10] /\
  p_LocalStartIndex p (ECell 0) 1 = Ok 3 /\ p_Component p 6 = Ok 1 /\ Entity (p_handler p) 6 = Ok (EEdge 0).
Proof. exact ex_product. Qed.

(** * C83: matrices and vectors on product spaces are the sums of the blocks of the sub-providers *)
Theorem C83_element_matrix : forall (K : cring) m dmu dmv trial test subs cell bs, wf_mesh m ->
  product m dmu = Ok trial -> product m dmv = Ok test -> valid m cell ->
  Forall2 (local_block K trial test cell) (filter (fun s => sm_active s cell) subs) bs ->
  exists M, ProductMatEval K trial test subs cell = Ok M /\
    p_NumLocal test cell = Ok (d_rows K M) /\ p_NumLocal trial cell = Ok (d_cols K M) /\
    sum_of_blocks K (d_rows K M) (d_cols K M) (d_coef K M) bs.
Proof. exact product_matrix_local. Qed.
Print Assumptions C83_element_matrix.

Theorem C83_element_vector : forall (K : cring) m dmv test subs cell bs, wf_mesh m ->
  product m dmv = Ok test -> valid m cell ->
  Forall2 (local_segment K test cell) (filter (fun s => sv_active s cell) subs) bs ->
  exists w, ProductVecEval K test subs cell = Ok w /\ p_NumLocal test cell = Ok (length w) /\
    sum_of_segments K (length w) (comp K w) bs.
Proof. exact product_vector_local. Qed.
Print Assumptions C83_element_vector.

Theorem C83_matrix : forall (K : cring) m dmu dmv trial test, wf_mesh m ->
  product m dmu = Ok trial -> product m dmv = Ok test -> forall subs, Forall (fits K m trial test) subs ->
  exists A D bs, AssembleMat K m (p_handler trial) (p_handler test) (fun _ => true) (ProductMatEval K trial test subs) = Ok A /\
    is_matrix K A (NumDofs (p_handler test)) (NumDofs (p_handler trial)) D /\
    Forall2 (global_block K m trial test) subs bs /\
    sum_of_blocks K (NumDofs (p_handler test)) (NumDofs (p_handler trial)) D bs.
Proof. exact product_matrix_global. Qed.
Print Assumptions C83_matrix.

Theorem C83_vector : forall (K : cring) m dmv test, wf_mesh m ->
  product m dmv = Ok test -> forall subs, Forall (fits_vec K m test) subs ->
  exists w bs, AssembleVec K m (p_handler test) (fun _ => true) (ProductVecEval K test subs) = Ok w /\
    length w = NumDofs (p_handler test) /\
    Forall2 (global_segment K m test) subs bs /\
    sum_of_segments K (NumDofs (p_handler test)) (comp K w) bs.
Proof. exact product_vector_global. Qed.
Print Assumptions C83_vector.

Example C83_example : exists trial test, product example_mesh ex_u = Ok trial /\ product example_mesh ex_v = Ok test /\
  Forall (fits Zring example_mesh trial test) [ex_sub; ex_sub2] /\ Forall (fits_vec Zring example_mesh test) [ex_sv] /\
  entities example_mesh 0 = [ECell 0; ECell 1].
Proof. exact ex_fits. Qed.

(** * C84: optimal test functions, error estimates and minimal residuals *)
Local Open Scope R_scope.
Theorem C84_element_matrix : forall stiffness gramian cell B G, stiffness cell = Ok B -> gramian cell = Ok G ->
  d_rows Rring G = d_cols Rring G -> d_rows Rring B = d_rows Rring G -> spd (d_rows Rring G) (d_coef Rring G) ->
  exists A, DpgMatEval stiffness gramian cell = Ok A /\ d_rows Rring A = d_cols Rring B /\ d_cols Rring A = d_cols Rring B /\
  let n := d_rows Rring G in let k := d_cols Rring B in
  (forall w, exists t, optimal_test n k (d_coef Rring G) (d_coef Rring B) w t) /\
  (forall w t, optimal_test n k (d_coef Rring G) (d_coef Rring B) w t ->
    (forall u, form Rring k k (d_coef Rring A) w u = form Rring n k (d_coef Rring B) t u) /\
    form Rring k k (d_coef Rring A) w w = form Rring n n (d_coef Rring G) t t) /\
  (forall i j, (i < k)%nat -> (j < k)%nat -> d_coef Rring A i j = d_coef Rring A j i).
Proof. exact dpg_matrix. Qed.
Print Assumptions C84_element_matrix.

Theorem C84_element_vector : forall stiffness gramian load cell B G l, stiffness cell = Ok B -> gramian cell = Ok G -> load cell = Ok l ->
  d_rows Rring G = d_cols Rring G -> d_rows Rring B = d_rows Rring G -> length l = d_rows Rring G -> spd (d_rows Rring G) (d_coef Rring G) ->
  exists f, DpgVecEval stiffness gramian load cell = Ok f /\ length f = d_cols Rring B /\
  let n := d_rows Rring G in let k := d_cols Rring B in
  forall w t, optimal_test n k (d_coef Rring G) (d_coef Rring B) w t -> linear Rring k (comp Rring f) w = linear Rring n (comp Rring l) t.
Proof. exact dpg_vector. Qed.
Print Assumptions C84_element_vector.

(** The optimal test function is unique. *)
Theorem C84_optimal_unique : forall n k G B, spd n G ->
  forall w t t', optimal_test n k G B w t -> optimal_test n k G B w t' -> forall i, (i < n)%nat -> t i = t' i.
Proof. exact optimal_unique. Qed.
Print Assumptions C84_optimal_unique.

Theorem C84_estimator : forall stiffness gramian load cell B G l trial idx u, stiffness cell = Ok B -> gramian cell = Ok G -> load cell = Ok l ->
  d_rows Rring G = d_cols Rring G -> d_rows Rring B = d_rows Rring G -> length l = d_rows Rring G -> spd (d_rows Rring G) (d_coef Rring G) ->
  NumLocalDofs trial cell = Ok (d_cols Rring B) -> GlobalDofIndices trial cell = Ok idx -> length idx = d_cols Rring B ->
  Forall (fun g => g < length u)%nat idx ->
  exists e, element_error stiffness gramian load trial u cell = Ok e /\
    dual_norm (d_rows Rring G) (d_coef Rring G)
      (fun i => comp Rring l i - @sumn Rring (d_cols Rring B) (fun j => d_coef Rring B i j * comp Rring u (nth j idx 0%nat))) e.
Proof. exact estimator_norm. Qed.
Print Assumptions C84_estimator.

Theorem C84_total_error : forall stiffness gramian load m trial u est, ElementErrorEstimators stiffness gramian load m trial u = Ok est ->
  Forall2 (fun cell e => element_error stiffness gramian load trial u cell = Ok e) (entities m 0) est /\
  0 <= EvalPosteriorError est /\ EvalPosteriorError est * EvalPosteriorError est = @suml Rring (map (fun e => e * e) est).
Proof. exact total_error. Qed.
Print Assumptions C84_total_error.

Theorem C84_minimal_residual : forall m trial idx stiffness gramian load,
  serves trial (entities m 0) idx -> dpg_data m trial stiffness gramian load ->
  forall sel, exists A phi A' b' D',
  AssembleMat Rring m trial trial (fun _ => true) (DpgMatEval stiffness gramian) = Ok A /\
  AssembleVec Rring m trial (fun _ => true) (DpgVecEval stiffness gramian load) = Ok phi /\
  FixFlaggedSolutionComponents Rring sel A phi = Ok (A', b') /\
  is_matrix Rring A' (NumDofs trial) (NumDofs trial) D' /\
  (forall i j, (i < NumDofs trial)%nat -> (j < NumDofs trial)%nat -> D' i j = D' j i) /\
  forall u, length u = NumDofs trial ->
    (exists e, error_of stiffness gramian load m trial u e) /\
    (solves Rring (NumDofs trial) D' (comp Rring b') (comp Rring u) <->
     (obeys sel (NumDofs trial) u /\
      forall w e e', obeys sel (NumDofs trial) w -> error_of stiffness gramian load m trial u e ->
        error_of stiffness gramian load m trial w e' -> e <= e')).
Proof. exact dpg_minimises. Qed.
Print Assumptions C84_minimal_residual.

Example C84_example : exists trial, product example_mesh [[(kPoint, 1%nat)]] = Ok trial /\
  serves (p_handler trial) (entities example_mesh 0) (dofs_of (p_handler trial)) /\
  dpg_data example_mesh (p_handler trial) ex_stiff ex_gram ex_load.
Proof. exact ex_dpg. Qed.
Example C84_example_spd : forall n d, 0 < d -> spd n (fun i j => if (i =? j)%nat then d else 0).
Proof. exact spd_diag. Qed.
