(** Matrices and vectors assembled on product spaces consist of those assembled on the component
    spaces. *)
From Coq Require Import List Arith Bool Lia Ring.
Import ListNotations.
From Verif Require Import Base Scalars MeshModel MeshView DofModel DofSpec DofProofs4 FeModel AssembleModel AssembleSpec AssembleProofs AssembleProofs2 DpgModel DpgSpec DpgProofs DpgProofs2 DpgProofs3.
Local Open Scope nat_scope.

Section Asm.
Variable K : cring.
Add Ring Kring_dpg4 : (kth K).
Open Scope K_scope.

(** Providers that do not fail. *)
Definition no_matrix : dense K := mkDense K 0 0 (fun _ _ => 0).
Definition mat_of (eval : ent -> res (dense K)) (e : ent) : dense K := match eval e with Ok M => M | _ => no_matrix end.
Definition vec_of (eval : ent -> res (list K)) (e : ent) : list K := match eval e with Ok M => M | _ => [] end.
Lemma assemble_total : forall m trial test active eval,
  (forall e, In e (entities m 0) -> active e = true -> exists M, eval e = Ok M) ->
  AssembleMat K m trial test active eval = AssembleMatrix K m 0 trial test (mkMP K active (mat_of eval)).
Proof.
  intros m trial test active eval. unfold AssembleMat, AssembleMatrix, AssembleMatrixInto.
  generalize (setZero K (coo_new K (NumDofs test) (NumDofs trial))) as A.
  induction (entities m 0) as [|e es IH]; intros A H; cbn [assemble_cells assemble_loop]; auto.
  assert (E : assemble_cell K trial test active eval e A = assemble_entity K trial test (mkMP K active (mat_of eval)) e A).
  { unfold assemble_cell, assemble_entity. cbn [mp_active mp_eval]. destruct (active e) eqn:EA; auto.
    destruct (H e (or_introl eq_refl) EA) as [M EM]. unfold mat_of. rewrite EM.
    destruct (NumLocalDofs test e), (NumLocalDofs trial e), (GlobalDofIndices test e), (GlobalDofIndices trial e); reflexivity. }
  rewrite E. destruct (assemble_entity _ _ _ _ _ _); cbn [bind]; auto. apply IH. intros; apply H; cbn; auto.
Qed.
Lemma assemble_vec_total : forall m d active eval,
  (forall e, In e (entities m 0) -> active e = true -> exists M, eval e = Ok M) ->
  AssembleVec K m d active eval = AssembleVector K m 0 d (mkVP K active (vec_of eval)).
Proof.
  intros m d active eval. unfold AssembleVec, AssembleVector, AssembleVectorInto.
  generalize (repeat (0 : K) (NumDofs d)) as A.
  induction (entities m 0) as [|e es IH]; intros A H; cbn [assemble_vec_cells assemble_vec_loop]; auto.
  assert (E : assemble_vec_cell K d active eval e A = assemble_vec_entity K d (mkVP K active (vec_of eval)) e A).
  { unfold assemble_vec_cell, assemble_vec_entity. cbn [vp_active vp_eval]. destruct (active e) eqn:EA; auto.
    destruct (H e (or_introl eq_refl) EA) as [M EM]. unfold vec_of. rewrite EM.
    destruct (NumLocalDofs d e), (GlobalDofIndices d e); reflexivity. }
  rewrite E. destruct (assemble_vec_entity _ _ _ _ _); cbn [bind]; auto. apply IH. intros; apply H; cbn; auto.
Qed.

Lemma form_vec_ext : forall n k D (v v' u u' : nat -> K), (forall i, i < n -> v i = v' i)%nat -> (forall i, i < k -> u i = u' i)%nat ->
  form K n k D v u = form K n k D v' u'.
Proof.
  intros n k D v v' u u' Hv Hu. apply sumn_ext. intros i Hi. rewrite Hv by auto. f_equal. apply sumn_ext. intros j Hj. now rewrite Hu.
Qed.
Lemma suml_filter : forall A (f : A -> bool) (g : A -> K) l, suml (map g (filter f l)) = suml (map (fun x => if f x then g x else 0) l).
Proof. intros A f g. induction l as [|x l IH]; cbn; auto. destruct (f x); cbn; rewrite IH; ring. Qed.

(** The assembled linear form. *)
Lemma linear_entity : forall n idx (l v : nat -> K), Forall (fun g => g < n)%nat idx ->
  linear K n (fun i => sumn (length idx) (fun a => if nth a idx 0%nat =? i then l a else 0)) v =
  linear K (length idx) l (restrict K v idx).
Proof.
  intros n idx l v H. unfold linear.
  transitivity (sumn n (fun i => sumn (length idx) (fun a => if nth a idx 0%nat =? i then l a * v i else 0))).
  { apply sumn_ext. intros i Hi. rewrite <- sumn_mulr. apply sumn_ext. intros a Ha. destruct (nth a idx 0%nat =? i); ring. }
  rewrite sumn_swap. apply sumn_ext. intros a Ha. unfold restrict.
  rewrite (sumn_single K n (nth a idx 0%nat)).
  - rewrite Nat.eqb_refl. reflexivity.
  - rewrite Forall_forall in H. apply H, nth_In. auto.
  - intros j Hj N. replace (nth a idx 0%nat =? j) with false by (symmetry; apply Nat.eqb_neq; auto). reflexivity.
Qed.
Lemma assemble_linear : forall m d p idx, serves d (entities m 0) idx -> vec_big_enough K p (entities m 0) idx ->
  exists w, AssembleVector K m 0 d p = Ok w /\ length w = NumDofs d /\
  forall v, linear K (NumDofs d) (comp K w) v =
    suml (map (fun e => if vp_active K p e then linear K (length (idx e)) (comp K (vp_eval K p e)) (restrict K v (idx e)) else 0) (entities m 0)).
Proof.
  intros m d p idx S B. destruct (assemble_vec_fresh K m 0 d p idx S B) as (w & E & L & H). exists w. split; auto. split; auto.
  intros v. rewrite (linear_ext K (NumDofs d) (comp K w) (vec_sum K p (entities m 0) idx) v H).
  unfold linear at 1, vec_sum.
  transitivity (sumn (NumDofs d) (fun i => suml (map (fun e => (if vp_active K p e then
      sumn (length (idx e)) (fun a => if nth a (idx e) 0%nat =? i then comp K (vp_eval K p e) a else 0) else 0) * v i) (entities m 0)))).
  { apply sumn_ext. intros i Hi. rewrite suml_map_mulr. reflexivity. }
  rewrite sumn_suml_swap. apply suml_map_ext. intros e He. destruct (vp_active K p e).
  - rewrite <- (linear_entity (NumDofs d)); [reflexivity|]. apply S; auto.
  - apply sumn_zero. intros. ring.
Qed.
End Asm.

(** Position of the dofs of a component among those of the product space. *)
Lemma stack_nth : forall ds ls o c l a, length ds = length ls -> nth_error ls c = Some l -> a < length l ->
  nth (length (concat (firstn c ls)) + a) (stack o ds ls) 0 = o + total (firstn c ds) + nth a l 0.
Proof.
  induction ds as [|d ds IH]; intros [|l0 ls] o c l a L E H; cbn [length] in L; try discriminate.
  - destruct c; discriminate.
  - destruct c as [|c]; cbn [nth_error firstn concat stack] in *.
    + injection E as ->. rewrite app_nth1 by (rewrite map_length; cbn; auto). cbn [length].
      rewrite Nat.add_0_l. rewrite (nth_indep _ 0 (o + 0)) by (rewrite map_length; auto). rewrite (map_nth (Nat.add o)).
      unfold total. simpl. lia.
    + rewrite app_length. rewrite app_nth2 by (rewrite map_length; lia). rewrite map_length, total_cons.
      replace (length l0 + length (concat (firstn c ls)) + a - length l0) with (length (concat (firstn c ls)) + a) by lia.
      rewrite (IH ls _ c l a) by (auto; lia). lia.
Qed.

Section Component.
Variables (m : mesh) (dms : list dof_map) (p : pdofh).
Hypothesis W : wf_mesh m.
Hypothesis HP : product m dms = Ok p.
Let ds := map (fun dm => u_handler (uniform m dm true)) dms.

Lemma component_inv : forall c d, p_ComponentDofHandler p c = Ok d -> nth_error ds c = Some d.
Proof.
  intros c d H. destruct (product_inv m dms p W HP) as (_ & _ & EC & _).
  unfold p_ComponentDofHandler, elem_at in H. rewrite EC in H. unfold ds. rewrite nth_error_map in *.
  destruct (nth_error dms c); [|discriminate]. cbn in *. congruence.
Qed.
Lemma component_serves : forall c d, p_ComponentDofHandler p c = Ok d -> serves d (entities m 0) (dofs_of d).
Proof.
  intros c d H. apply component_inv in H. destruct (comp_handler m dms c d H) as (dm & _ & ->). apply uniform_serves; auto.
Qed.
Lemma component_place : forall c d, p_ComponentDofHandler p c = Ok d ->
  exists o, p_Offset p c = Ok o /\ o + NumDofs d <= NumDofs (p_handler p) /\
  forall e, valid m e -> p_NumLocalC p e c = Ok (length (dofs_of d e)) /\
    exists r, p_LocalStartIndex p e c = Ok r /\ r + length (dofs_of d e) <= length (dofs_of (p_handler p) e) /\
    forall a, a < length (dofs_of d e) -> nth (r + a) (dofs_of (p_handler p) e) 0 = o + nth a (dofs_of d e) 0.
Proof.
  intros c d H. apply component_inv in H. pose proof (product_stacked m dms p W HP) as S. fold ds in S.
  assert (Hc : c < length ds) by (apply nth_error_Some; congruence).
  exists (total (firstn c ds)). split; [apply (sk_offset _ _ _ S); lia|]. split.
  { rewrite (sk_total _ _ _ S). clear - H. revert c H. induction ds as [|d0 l IH]; intros [|c] E1; try discriminate; cbn [nth_error firstn] in *; rewrite ?total_cons.
    - injection E1 as ->. unfold total. simpl. lia.
    - specialize (IH c E1). lia. }
  intros e V. destruct (all_global m dms e W V) as [ls Hl]. fold ds in Hl.
  destruct (F2_nth _ _ _ _ _ c d Hl H) as (l & El & Gl).
  destruct (sk_global _ _ _ S e ls V Hl) as [G1 G2].
  assert (ED : dofs_of d e = l) by (unfold dofs_of; now rewrite Gl). rewrite ED.
  assert (EP : dofs_of (p_handler p) e = stack 0 ds ls) by (unfold dofs_of; now rewrite G1). rewrite EP.
  destruct (comp_handler m dms c d H) as (dm & _ & Edm). destruct (uniform_global m dm e W V) as (l' & U1 & U2). rewrite <- Edm in U1, U2.
  assert (l' = l) by congruence. subst l'.
  assert (NL : p_NumLocalC p e c = Ok (length l)).
  { destruct (sk_component_handler _ _ _ S c d H) as (_ & _ & Q). destruct (Q e) as [-> _]. auto. }
  split; auto. pose proof (F2_len _ _ _ _ _ Hl) as LL.
  exists (length (concat (firstn c ls))). split; [apply (sk_start _ _ _ S); auto; lia|]. split.
  - eapply start_inside; [exact W|exact HP|exact V| |exact NL|apply (sk_start _ _ _ S); [auto|exact Hl|lia]].
    unfold p_NumLocal. cbn [p_handler GlobalDofIndices] in G1. rewrite G1. reflexivity.
  - intros a Ha. rewrite (stack_nth ds ls 0 c l a) by auto. reflexivity.
Qed.
Lemma product_local_count : forall e, valid m e -> p_NumLocal p e = Ok (length (dofs_of (p_handler p) e)).
Proof.
  intros e V. destruct (all_global m dms e W V) as [ls Hl]. fold ds in Hl.
  destruct (sk_global _ _ _ (product_stacked m dms p W HP) e ls V Hl) as [G1 G2]. unfold dofs_of. rewrite G1. unfold p_NumLocal. cbn [p_handler GlobalDofIndices] in G1. now rewrite G1.
Qed.
End Component.

Section Global.
Variable K : cring.
Add Ring Kring_dpg4b : (kth K).
Open Scope K_scope.
Variables (m : mesh) (dmu dmv : list dof_map) (trial test : pdofh).
Hypothesis W : wf_mesh m.
Hypothesis HU : product m dmu = Ok trial.
Hypothesis HV : product m dmv = Ok test.

Definition start_of (p : pdofh) (e : ent) (c : nat) : nat := match p_LocalStartIndex p e c with Ok r => r | _ => 0%nat end.
Definition lb (e : ent) (s : sub_mat K) : block K :=
  let N := mat_of K (sm_eval s) e in
  mkBlock (d_rows K N) (d_cols K N) (start_of test e (sm_test s)) (start_of trial e (sm_trial s)) (d_coef K N).
Definition ls (e : ent) (s : sub_vec K) : segment K :=
  let w := vec_of K (sv_eval s) e in mkSegment (length w) (start_of test e (sv_test s)) (comp K w).

Lemma fits_local : forall e s, In e (entities m 0) -> fits K m trial test s -> sm_active s e = true -> local_block K trial test e s (lb e s).
Proof.
  intros e s He ((du & Hdu) & (dv & Hdv) & F) A. destruct (F e He A) as (N & E1 & E2 & E3).
  pose proof (entities_valid m 0 e He) as V.
  destruct (component_place m dmu trial W HU _ _ Hdu) as (ou & _ & _ & Pu). destruct (Pu e V) as (_ & ru & Ru & _).
  destruct (component_place m dmv test W HV _ _ Hdv) as (ov & _ & _ & Pv). destruct (Pv e V) as (_ & rv & Rv & _).
  exists N. unfold lb, mat_of, start_of. rewrite E1, Ru, Rv. cbn [b_rows b_cols b_row0 b_col0 b_coef]. auto 10.
Qed.
Lemma fits_local_vec : forall e s, In e (entities m 0) -> fits_vec K m test s -> sv_active s e = true -> local_segment K test e s (ls e s).
Proof.
  intros e s He ((dv & Hdv) & F) A. destruct (F e He A) as (w & E1 & E2).
  pose proof (entities_valid m 0 e He) as V.
  destruct (component_place m dmv test W HV _ _ Hdv) as (ov & _ & _ & Pv). destruct (Pv e V) as (_ & rv & Rv & _).
  exists w. unfold ls, vec_of, start_of. rewrite E1, Rv. cbn [g_size g_at g_coef]. auto 10.
Qed.

(** The matrices of the sub-providers on the component spaces. *)
Lemma sub_global : forall s, fits K m trial test s -> exists b, global_block K m trial test s b /\
  inside K (NumDofs (p_handler test)) (NumDofs (p_handler trial)) b /\
  forall v u, b_form K b v u = suml (map (fun e => if sm_active s e then
    b_form K (lb e s) (restrict K v (dofs_of (p_handler test) e)) (restrict K u (dofs_of (p_handler trial) e)) else 0) (entities m 0)).
Proof.
  intros s F. pose proof F as ((du & Hdu) & (dv & Hdv) & FE).
  destruct (component_place m dmu trial W HU _ _ Hdu) as (ou & Ou & Bu & Pu).
  destruct (component_place m dmv test W HV _ _ Hdv) as (ov & Ov & Bv & Pv).
  assert (SZ : forall e, In e (entities m 0) -> sm_active s e = true ->
     d_rows K (mat_of K (sm_eval s) e) = length (dofs_of dv e) /\ d_cols K (mat_of K (sm_eval s) e) = length (dofs_of du e)).
  { intros e He A. destruct (FE e He A) as (N & E1 & E2 & E3). pose proof (entities_valid m 0 e He) as V. unfold mat_of. rewrite E1.
    destruct (Pu e V) as (Qu & _). destruct (Pv e V) as (Qv & _). split; congruence. }
  destruct (assemble_form K m 0 du dv (mkMP K (sm_active s) (mat_of K (sm_eval s))) (dofs_of dv) (dofs_of du)) as (A & D & E & M & HF).
  { apply (component_serves m dmv test W HV _ _ Hdv). }
  { apply (component_serves m dmu trial W HU _ _ Hdu). }
  { intros e He EA. cbn [mp_active mp_eval] in *. destruct (SZ e He EA) as [-> ->]. auto. }
  exists (mkBlock (NumDofs dv) (NumDofs du) ov ou D). split; [|split].
  - exists du, dv, A. cbn [b_rows b_cols b_row0 b_col0 b_coef]. rewrite assemble_total.
    + auto 12.
    + intros e He EA. destruct (FE e He EA) as (N & E1 & _). eauto.
  - split; cbn [b_rows b_cols b_row0 b_col0]; auto.
  - intros v u. unfold b_form at 1. cbn [b_rows b_cols b_row0 b_col0 b_coef]. rewrite HF. apply suml_map_ext. intros e He. cbn [mp_active mp_eval].
    destruct (sm_active s e) eqn:EA; auto. destruct (SZ e He EA) as [S1 S2]. pose proof (entities_valid m 0 e He) as V.
    destruct (Pu e V) as (_ & ru & Ru & _ & Nu). destruct (Pv e V) as (_ & rv & Rv & _ & Nv).
    unfold b_form, lb. cbn [b_rows b_cols b_row0 b_col0 b_coef]. rewrite S1, S2. unfold start_of. rewrite Ru, Rv.
    apply form_vec_ext.
    + intros i Hi. unfold restrict, part. now rewrite Nv.
    + intros i Hi. unfold restrict, part. now rewrite Nu.
Qed.
Lemma sub_global_vec : forall s, fits_vec K m test s -> exists b, global_segment K m test s b /\
  ginside K (NumDofs (p_handler test)) b /\
  forall v, g_form K b v = suml (map (fun e => if sv_active s e then
    g_form K (ls e s) (restrict K v (dofs_of (p_handler test) e)) else 0) (entities m 0)).
Proof.
  intros s F. pose proof F as ((dv & Hdv) & FE).
  destruct (component_place m dmv test W HV _ _ Hdv) as (ov & Ov & Bv & Pv).
  assert (SZ : forall e, In e (entities m 0) -> sv_active s e = true -> length (vec_of K (sv_eval s) e) = length (dofs_of dv e)).
  { intros e He A. destruct (FE e He A) as (N & E1 & E2). pose proof (entities_valid m 0 e He) as V. unfold vec_of. rewrite E1.
    destruct (Pv e V) as (Qv & _). congruence. }
  destruct (assemble_linear K m dv (mkVP K (sv_active s) (vec_of K (sv_eval s))) (dofs_of dv)) as (w & E & L & HF).
  { apply (component_serves m dmv test W HV _ _ Hdv). }
  { intros e He EA. cbn [vp_active vp_eval] in *. rewrite (SZ e He EA). auto. }
  exists (mkSegment (NumDofs dv) ov (comp K w)). split; [|split].
  - exists dv, w. cbn [g_size g_at g_coef]. rewrite assemble_vec_total.
    + auto 12.
    + intros e He EA. destruct (FE e He EA) as (N & E1 & _). eauto.
  - unfold ginside. cbn [g_size g_at]. auto.
  - intros v. unfold g_form at 1. cbn [g_size g_at g_coef]. rewrite HF. apply suml_map_ext. intros e He. cbn [vp_active vp_eval].
    destruct (sv_active s e) eqn:EA; auto. pose proof (entities_valid m 0 e He) as V.
    destruct (Pv e V) as (_ & rv & Rv & _ & Nv).
    unfold g_form, ls. cbn [g_size g_at g_coef]. rewrite (SZ e He EA). unfold start_of. rewrite Rv.
    apply sumn_ext. intros i Hi. unfold restrict, part. now rewrite Nv.
Qed.

Lemma eval_ok : forall subs e, Forall (fits K m trial test) subs -> In e (entities m 0) ->
  exists M, ProductMatEval K trial test subs e = Ok M /\ d_rows K M = length (dofs_of (p_handler test) e) /\
    d_cols K M = length (dofs_of (p_handler trial) e) /\
    forall v u, form K (d_rows K M) (d_cols K M) (d_coef K M) v u =
      suml (map (fun s => if sm_active s e then b_form K (lb e s) v u else 0) subs).
Proof.
  intros subs e F He. pose proof (entities_valid m 0 e He) as V.
  destruct (product_matrix_local K m dmu dmv trial test subs e (map (lb e) (filter (fun s => sm_active s e) subs)) W HU HV V) as (M & E & R1 & R2 & _ & R3).
  { rewrite Forall_forall in F. assert (G : forall s, In s (filter (fun s => sm_active s e) subs) -> local_block K trial test e s (lb e s)).
    { intros s Hs. apply filter_In in Hs as [H1 H2]. apply fits_local; auto. }
    clear - G. induction (filter _ subs) as [|s l IH]; cbn [map]; constructor; [apply G; cbn; auto|]. apply IH. intros; apply G; cbn; auto. }
  rewrite (product_local_count m dmv test W HV e V) in R1. rewrite (product_local_count m dmu trial W HU e V) in R2.
  exists M. split; auto. split; [congruence|]. split; [congruence|]. intros v u. rewrite R3, map_map, suml_filter. reflexivity.
Qed.
Lemma eval_vec_ok : forall subs e, Forall (fits_vec K m test) subs -> In e (entities m 0) ->
  exists w, ProductVecEval K test subs e = Ok w /\ length w = length (dofs_of (p_handler test) e) /\
    forall v, linear K (length w) (comp K w) v = suml (map (fun s => if sv_active s e then g_form K (ls e s) v else 0) subs).
Proof.
  intros subs e F He. pose proof (entities_valid m 0 e He) as V.
  destruct (product_vector_local K m dmv test subs e (map (ls e) (filter (fun s => sv_active s e) subs)) W HV V) as (w & E & R1 & _ & R3).
  { rewrite Forall_forall in F. assert (G : forall s, In s (filter (fun s => sv_active s e) subs) -> local_segment K test e s (ls e s)).
    { intros s Hs. apply filter_In in Hs as [H1 H2]. apply fits_local_vec; auto. }
    clear - G. induction (filter _ subs) as [|s l IH]; cbn [map]; constructor; [apply G; cbn; auto|]. apply IH. intros; apply G; cbn; auto. }
  rewrite (product_local_count m dmv test W HV e V) in R1.
  exists w. split; auto. split; [congruence|]. intros v. rewrite R3, map_map, suml_filter. reflexivity.
Qed.

Theorem product_matrix_global : forall subs, Forall (fits K m trial test) subs ->
  exists A D bs, AssembleMat K m (p_handler trial) (p_handler test) (fun _ => true) (ProductMatEval K trial test subs) = Ok A /\
    is_matrix K A (NumDofs (p_handler test)) (NumDofs (p_handler trial)) D /\
    Forall2 (global_block K m trial test) subs bs /\
    sum_of_blocks K (NumDofs (p_handler test)) (NumDofs (p_handler trial)) D bs.
Proof.
  intros subs F.
  assert (OKE : forall e, In e (entities m 0) -> (fun _ => true) e = true -> exists M, ProductMatEval K trial test subs e = Ok M).
  { intros e He _. destruct (eval_ok subs e F He) as (M & E & _). eauto. }
  rewrite (assemble_total K m (p_handler trial) (p_handler test) (fun _ => true) _ OKE).
  destruct (assemble_form K m 0 (p_handler trial) (p_handler test) (mkMP K (fun _ => true) (mat_of K (ProductMatEval K trial test subs)))
    (dofs_of (p_handler test)) (dofs_of (p_handler trial))) as (A & D & E & M & HF).
  { apply (product_serves m dmv test W HV). }
  { apply (product_serves m dmu trial W HU). }
  { intros e He _. cbn [mp_eval]. destruct (eval_ok subs e F He) as (N & E & R1 & R2 & _). unfold mat_of. rewrite E. lia. }
  assert (BS : exists bs, Forall2 (global_block K m trial test) subs bs /\ Forall (inside K (NumDofs (p_handler test)) (NumDofs (p_handler trial))) bs /\
    forall v u, suml (map (fun b => b_form K b v u) bs) = suml (map (fun s => suml (map (fun e => if sm_active s e then
      b_form K (lb e s) (restrict K v (dofs_of (p_handler test) e)) (restrict K u (dofs_of (p_handler trial) e)) else 0) (entities m 0))) subs)).
  { clear - F W HU HV. induction F as [|s subs Hs F (bs & B1 & B2 & B3)].
    - exists []. split; constructor; auto.
    - destruct (sub_global s Hs) as (b & G1 & G2 & G3). exists (b :: bs). split; [constructor; auto|]. split; [constructor; auto|].
      intros v u. cbn [map suml]. now rewrite G3, B3. }
  destruct BS as (bs & B1 & B2 & B3). exists A, D, bs. split; auto. split; auto. split; auto.
  apply form_blocks; auto. intros v u. rewrite HF, B3. rewrite suml_swap. apply suml_map_ext. intros e He. cbn [mp_active mp_eval].
  destruct (eval_ok subs e F He) as (N & EN & R1 & R2 & R3). unfold mat_of. rewrite EN, <- R1, <- R2, R3. reflexivity.
Qed.
Theorem product_vector_global : forall subs, Forall (fits_vec K m test) subs ->
  exists w bs, AssembleVec K m (p_handler test) (fun _ => true) (ProductVecEval K test subs) = Ok w /\
    length w = NumDofs (p_handler test) /\
    Forall2 (global_segment K m test) subs bs /\
    sum_of_segments K (NumDofs (p_handler test)) (comp K w) bs.
Proof.
  intros subs F.
  assert (OKE : forall e, In e (entities m 0) -> (fun _ => true) e = true -> exists M, ProductVecEval K test subs e = Ok M).
  { intros e He _. destruct (eval_vec_ok subs e F He) as (M & E & _). eauto. }
  rewrite (assemble_vec_total K m (p_handler test) (fun _ => true) _ OKE).
  destruct (assemble_linear K m (p_handler test) (mkVP K (fun _ => true) (vec_of K (ProductVecEval K test subs)))
    (dofs_of (p_handler test))) as (w & E & L & HF).
  { apply (product_serves m dmv test W HV). }
  { intros e He _. cbn [vp_eval]. destruct (eval_vec_ok subs e F He) as (N & E & R1 & _). unfold vec_of. rewrite E. lia. }
  assert (BS : exists bs, Forall2 (global_segment K m test) subs bs /\ Forall (ginside K (NumDofs (p_handler test))) bs /\
    forall v, suml (map (fun b => g_form K b v) bs) = suml (map (fun s => suml (map (fun e => if sv_active s e then
      g_form K (ls e s) (restrict K v (dofs_of (p_handler test) e)) else 0) (entities m 0))) subs)).
  { clear - F W HV. induction F as [|s subs Hs F (bs & B1 & B2 & B3)].
    - exists []. split; constructor; auto.
    - destruct (sub_global_vec s Hs) as (b & G1 & G2 & G3). exists (b :: bs). split; [constructor; auto|]. split; [constructor; auto|].
      intros v. cbn [map suml]. now rewrite G3, B3. }
  destruct BS as (bs & B1 & B2 & B3). exists w, bs. split; auto. split; auto. split; auto.
  apply form_segments; auto. intros v. rewrite HF, B3. rewrite suml_swap. apply suml_map_ext. intros e He. cbn [vp_active vp_eval].
  destruct (eval_vec_ok subs e F He) as (N & EN & R1 & R3). unfold vec_of. rewrite EN, <- R1, R3. reflexivity.
Qed.
End Global.
