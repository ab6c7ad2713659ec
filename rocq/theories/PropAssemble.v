(** Properties C14-C20: COO matrices, assembly, fixing of unknowns.
    [K] is any commutative ring of scalars. *)
From Coq Require Import List Arith Lia Bool Permutation Reals ZArith.
Import ListNotations.
From Verif Require Import Base Scalars MeshModel MeshView PropMeshView DofModel DofSpec DofProofs4 PropDof
  AssembleModel AssembleSpec AssembleProofs AssembleProofs2.

(** * C14 *)

(** After any sequence of AddToEntry, setZero(), setZero(pred) the object
    represents the matrix obtained by the same sequence of mathematical
    operations; its size has grown to include all positions used. *)
Theorem C14_coo_denotes_sum : forall (K : cring) n m (h : list (coo_op K)),
  is_matrix K (coo_after K n m h) (size_for n (row_uses K h)) (size_for m (col_uses K h)) (math_after K h).
Proof. exact coo_history. Qed.
Print Assumptions C14_coo_denotes_sum.

Theorem C14_makeSparse : forall (K : cring) A n m D, is_matrix K A n m D ->
  if (0 <? n) && (0 <? m)
  then exists M, makeSparse K A = Ok M /\ d_rows K M = n /\ d_cols K M = m /\
         forall i j, i < n -> j < m -> d_coef K M i j = D i j
  else makeSparse K A = Throw.
Proof. exact sparse_spec. Qed.
Print Assumptions C14_makeSparse.

(** MatVecMult(alpha, v, r) adds alpha*A*v to r. *)
Theorem C14_MatVecMult_adds : forall (K : cring) A n m D alpha v r,
  is_matrix K A n m D -> m <= length v -> n <= length r ->
  exists w, MatVecMultAdd K A alpha v r = Ok w /\ length w = length r /\
  forall i, comp K w i = (comp K r i + (if i <? n then alpha * mv K m D (comp K v) i else 0))%K.
Proof. exact matvec_spec. Qed.
Print Assumptions C14_MatVecMult_adds.

Theorem C14_MatVecMult_returns : forall (K : cring) A n m D alpha v,
  is_matrix K A n m D -> m <= length v ->
  exists w, MatVecMult K A alpha v = Ok w /\ length w = n /\
  forall i, i < n -> comp K w i = (alpha * mv K m D (comp K v) i)%K.
Proof. exact matvec_ret_spec. Qed.
Print Assumptions C14_MatVecMult_returns.

Example C14_example :
  let A := coo_after Zring 2 2 [@OpAdd Zring 0 1 5%Z; @OpAdd Zring 1 1 7%Z; @OpAdd Zring 0 1 (-2)%Z;
             OpZeroIf (fun i _ => i =? 1); @OpAdd Zring 1 2 4%Z] in
  c_rows Zring A = 2 /\ c_cols Zring A = 3 /\
  MatVecMult Zring A 10%Z [1; 2; 3]%Z = Ok [60; 120]%Z.
Proof. vm_compute. auto. Qed.

(** * C15 *)

(** Dof handlers on well-formed meshes tell in-range dofs for all entities, as
    required by the theorems below. *)
Theorem C15_uniform_handlers_serve : forall m dm check codim, wf_mesh m ->
  let d := u_handler (uniform m dm check) in serves d (entities m codim) (dofs_of d).
Proof. exact uniform_serves. Qed.
Print Assumptions C15_uniform_handlers_serve.
Theorem C15_dynamic_handlers_serve : forall m f codim, wf_mesh m ->
  let d := dy_handler (dynamic m f) in serves d (entities m codim) (dofs_of d).
Proof. exact dynamic_serves. Qed.
Print Assumptions C15_dynamic_handlers_serve.

(** Assembling into an existing matrix adds, for each active entity, the entries
    of its element matrix at the positions of its dofs, and nothing else. *)
Theorem C15_assembly_adds_local_contributions :
  forall (K : cring) m codim trial test p rows cols A n k D,
  serves test (entities m codim) rows -> serves trial (entities m codim) cols ->
  big_enough K p (entities m codim) rows cols ->
  is_matrix K A n k D -> NumDofs test <= n -> NumDofs trial <= k ->
  exists A', AssembleMatrixInto K m codim trial test p A = Ok A' /\
    is_matrix K A' n k (fun i j => (D i j + local_sum K p (entities m codim) rows cols i j)%K).
Proof. exact assemble_into. Qed.
Print Assumptions C15_assembly_adds_local_contributions.

Theorem C15_assembly_into_new_matrix : forall (K : cring) m codim trial test p rows cols,
  serves test (entities m codim) rows -> serves trial (entities m codim) cols ->
  big_enough K p (entities m codim) rows cols ->
  exists A', AssembleMatrix K m codim trial test p = Ok A' /\
    is_matrix K A' (NumDofs test) (NumDofs trial) (local_sum K p (entities m codim) rows cols).
Proof. exact assemble_fresh. Qed.
Print Assumptions C15_assembly_into_new_matrix.

(** An element matrix that is too small is reported, not read out of bounds. *)
Theorem C15_small_element_matrix_reported : forall (K : cring) m codim trial test p rows cols A e,
  serves test (entities m codim) rows -> serves trial (entities m codim) cols ->
  In e (entities m codim) -> mp_active K p e = true ->
  d_rows K (mp_eval K p e) < length (rows e) \/ d_cols K (mp_eval K p e) < length (cols e) ->
  AssembleMatrixInto K m codim trial test p A = Assert.
Proof. exact assemble_too_small. Qed.
Print Assumptions C15_small_element_matrix_reported.

(** Test space linear, trial space piecewise constant, on the mesh of
    PropMeshView: element matrices M(a,b) = a+1. *)
Example C15_example :
  let test := u_handler (uniform example_mesh [(kPoint, 1)] true) in
  let trial := u_handler (uniform example_mesh [(kTria, 1); (kQuad, 1)] true) in
  let p := mkMP Zring (fun _ => true) (fun e => mkDense Zring 4 4 (fun a _ => Z.of_nat (S a))) in
  exists A M, AssembleMatrix Zring example_mesh 0 trial test p = Ok A /\ makeDense Zring A = Ok M /\
    d_rows Zring M = 5 /\ d_cols Zring M = 2 /\
    map (fun i => map (d_coef Zring M i) [0; 1]) [0; 1; 2; 3; 4] =
      [[1; 0]; [2; 2]; [3; 1]; [0; 4]; [0; 3]]%Z.
Proof. vm_compute. eexists _, _. split; [reflexivity|]. split; [reflexivity|]. auto. Qed.

(** * C16 *)
Theorem C16_assembled_bilinear_form : forall (K : cring) m codim trial test p rows cols,
  serves test (entities m codim) rows -> serves trial (entities m codim) cols ->
  big_enough K p (entities m codim) rows cols ->
  exists A D, AssembleMatrix K m codim trial test p = Ok A /\
    is_matrix K A (NumDofs test) (NumDofs trial) D /\
    forall v u, form K (NumDofs test) (NumDofs trial) D v u =
      suml (map (fun e => if mp_active K p e then
        form K (length (rows e)) (length (cols e)) (d_coef K (mp_eval K p e))
          (restrict K v (rows e)) (restrict K u (cols e)) else 0%K) (entities m codim)).
Proof. exact assemble_form. Qed.
Print Assumptions C16_assembled_bilinear_form.

Theorem C16_symmetric : forall (K : cring) m codim d p idx,
  serves d (entities m codim) idx -> big_enough K p (entities m codim) idx idx ->
  (forall e a b, In e (entities m codim) -> mp_active K p e = true ->
     a < length (idx e) -> b < length (idx e) ->
     d_coef K (mp_eval K p e) a b = d_coef K (mp_eval K p e) b a) ->
  exists A D, AssembleMatrix K m codim d d p = Ok A /\
    is_matrix K A (NumDofs d) (NumDofs d) D /\ forall i j, D i j = D j i.
Proof. exact assemble_sym. Qed.
Print Assumptions C16_symmetric.

Theorem C16_positive_semidefinite : forall m codim d (p : mat_provider Rring) idx,
  serves d (entities m codim) idx -> big_enough Rring p (entities m codim) idx idx ->
  (forall e (x : nat -> R), In e (entities m codim) -> mp_active Rring p e = true ->
     (0 <= form Rring (length (idx e)) (length (idx e)) (d_coef Rring (mp_eval Rring p e)) x x)%R) ->
  exists A D, AssembleMatrix Rring m codim d d p = Ok A /\
    is_matrix Rring A (NumDofs d) (NumDofs d) D /\
    forall x : nat -> R, (0 <= form Rring (NumDofs d) (NumDofs d) D x x)%R.
Proof. exact assemble_psd. Qed.
Print Assumptions C16_positive_semidefinite.

(** The result does not depend on the order in which entities are visited. *)
Theorem C16_order_independent : forall (K : cring) m codim trial test p rows cols es,
  serves test (entities m codim) rows -> serves trial (entities m codim) cols ->
  big_enough K p (entities m codim) rows cols -> Permutation (entities m codim) es ->
  exists A D A', AssembleMatrix K m codim trial test p = Ok A /\
    assemble_loop K trial test p es (coo_new K (NumDofs test) (NumDofs trial)) = Ok A' /\
    is_matrix K A (NumDofs test) (NumDofs trial) D /\ is_matrix K A' (NumDofs test) (NumDofs trial) D.
Proof. exact assemble_order. Qed.
Print Assumptions C16_order_independent.

(** The hypotheses are met: 4x4 matrices of ones for linear elements. *)
Example C16_hypotheses_met :
  let d := u_handler (uniform example_mesh [(kPoint, 1)] true) in
  let p := mkMP Zring (fun _ => true) (fun e => mkDense Zring 4 4 (fun _ _ => 1%Z)) in
  serves d (entities example_mesh 0) (dofs_of d) /\
  big_enough Zring p (entities example_mesh 0) (dofs_of d) (dofs_of d).
Proof.
  split; [apply uniform_serves; exact example_wf|].
  intros e [<-|[<-|[]]] _; vm_compute; lia.
Qed.

(** * C17 *)
Theorem C17_load_vector : forall (K : cring) m codim d p idx,
  serves d (entities m codim) idx -> vec_big_enough K p (entities m codim) idx ->
  exists w, AssembleVector K m codim d p = Ok w /\ length w = NumDofs d /\
  forall i, i < NumDofs d -> comp K w i = vec_sum K p (entities m codim) idx i.
Proof. exact assemble_vec_fresh. Qed.
Print Assumptions C17_load_vector.

Theorem C17_load_vector_adds : forall (K : cring) m codim d p idx r,
  serves d (entities m codim) idx -> vec_big_enough K p (entities m codim) idx -> NumDofs d <= length r ->
  exists w, AssembleVectorInto K m codim d p r = Ok w /\ length w = length r /\
  forall i, comp K w i = (comp K r i + vec_sum K p (entities m codim) idx i)%K.
Proof. exact (fun K m codim => assemble_vec_into K (entities m codim)). Qed.
Print Assumptions C17_load_vector_adds.

Example C17_example :
  let d := u_handler (uniform example_mesh [(kPoint, 1)] true) in
  AssembleVector Zring example_mesh 0 d (mkVP Zring (fun _ => true) (fun _ => [1; 2; 3; 4]%Z))
  = Ok [1; 4; 4; 4; 3]%Z.
Proof. vm_compute. auto. Qed.

(** * C18-C20 *)
Theorem C18_fix_flagged_components : forall (K : cring) sel A b N D, is_matrix K A N N D -> length b = N ->
  exists A' b' D', FixFlaggedSolutionComponents K sel A b = Ok (A', b') /\ length b' = N /\
    is_matrix K A' N N D' /\
    (forall x, solves K N D' (comp K b') x <->
       ((forall i, i < N -> fst (sel i) = true -> x i = snd (sel i)) /\
        (forall i, i < N -> fst (sel i) = false -> mv K N D x i = comp K b i))) /\
    ((forall i j, i < N -> j < N -> D i j = D j i) -> forall i j, i < N -> j < N -> D' i j = D' j i).
Proof. exact fix_flagged. Qed.
Print Assumptions C18_fix_flagged_components.

Theorem C19_fix_flagged_components_alt : forall (K : cring) sel A b N D, is_matrix K A N N D -> length b = N ->
  exists A' b' D', FixFlaggedSolutionCompAlt K sel A b = Ok (A', b') /\ length b' = N /\
    is_matrix K A' N N D' /\
    (forall x, solves K N D' (comp K b') x <->
       ((forall i, i < N -> fst (sel i) = true -> x i = snd (sel i)) /\
        (forall i, i < N -> fst (sel i) = false -> mv K N D x i = comp K b i))).
Proof. exact fix_alt. Qed.
Print Assumptions C19_fix_flagged_components_alt.

Theorem C20_fix_listed_components : forall (K : cring) l A b N D, is_matrix K A N N D -> length b = N ->
  Forall (fun p => fst p < N) l -> NoDup (map fst l) ->
  exists A' b' D', FixSolutionComponentsLse K l A b = Ok (A', b') /\ length b' = N /\
    is_matrix K A' N N D' /\
    (forall x, solves K N D' (comp K b') x <->
       ((forall i v, In (i, v) l -> x i = v) /\
        (forall i, i < N -> ~ In i (map fst l) -> mv K N D x i = comp K b i))).
Proof. exact fix_lse_distinct. Qed.
Print Assumptions C20_fix_listed_components.

(** An index occurring more than once gets the sum of its values. *)
Theorem C20_repeated_index_sums : forall (K : cring) l A b N D, is_matrix K A N N D -> length b = N ->
  Forall (fun p => fst p < N) l ->
  exists A' b' D', FixSolutionComponentsLse K l A b = Ok (A', b') /\ length b' = N /\
    is_matrix K A' N N D' /\
    (forall x, solves K N D' (comp K b') x <->
       ((forall i, i < N -> In i (map fst l) ->
           x i = suml (map (fun p => if fst p =? i then snd p else 0%K) l)) /\
        (forall i, i < N -> ~ In i (map fst l) -> mv K N D x i = comp K b i))).
Proof. exact fix_lse. Qed.
Print Assumptions C20_repeated_index_sums.

(** Finding: without the distinctness hypothesis the claim fails; the listed
    value 1 is given twice and the solution component becomes 2. *)
Theorem C20_repeated_index_refuted : exists (l : list (nat * Z)) A b N D,
  is_matrix Zring A N N D /\ length b = N /\ Forall (fun p => fst p < N) l /\
  exists A' b' D', FixSolutionComponentsLse Zring l A b = Ok (A', b') /\ is_matrix Zring A' N N D' /\
    forall x, solves Zring N D' (comp Zring b') x -> forall i v, In (i, v) l -> x i <> v.
Proof. exact lse_repeated. Qed.
Print Assumptions C20_repeated_index_refuted.

Theorem C20_index_out_of_range_reported : forall (K : cring) l A b N D, is_matrix K A N N D -> length b = N ->
  Exists (fun p => N <= fst p) l -> FixSolutionComponentsLse K l A b = Assert.
Proof. exact fix_lse_bad_index. Qed.
Print Assumptions C20_index_out_of_range_reported.

(** A 3x3 system with the middle unknown fixed. *)
Example C18_example :
  let A := coo_after Zring 3 3 [@OpAdd Zring 0 0 2%Z; @OpAdd Zring 0 1 (-1)%Z; @OpAdd Zring 1 0 (-1)%Z; @OpAdd Zring 1 1 2%Z;
             @OpAdd Zring 1 2 (-1)%Z; @OpAdd Zring 2 1 (-1)%Z; @OpAdd Zring 2 2 2%Z] in
  let sel := fun i => (i =? 1, 10%Z) in
  match FixFlaggedSolutionComponents Zring sel A [1; 2; 3]%Z with
  | Ok (A', b') => b' = [11; 10; 13]%Z /\ c_trip Zring A' = [(0, 0, 2%Z); (2, 2, 2%Z); (1, 1, 1%Z)]
  | _ => False
  end.
Proof. vm_compute. auto. Qed.
