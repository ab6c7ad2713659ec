From Coq Require Import Reals List Arith Lia Lra Bool.
Import ListNotations.
From Verif Require Import Base Scalars MeshModel MeshView DofModel DofSpec RefPatModel GeoModel GeoSpec GeoProofs3 FeModel QuadModel AssembleModel AssembleSpec AssembleProofs AssembleProofs2
  FeSpec FeProofs QuadSpec ElemModel ElemSpec ElemProofs ElemProofs2 ElemProofs3 FeToolsModel FeToolsSpec FeToolsProofs GalerkinModel GalerkinSpec.
Local Open Scope R_scope.

(** *** Assembly *)
Definition mat_of (eval : ent -> res emat) (e : ent) : emat := match eval e with Ok M => M | _ => ezero 0 end.
Definition vec_of (eval : ent -> res (list R)) (e : ent) : list R := match eval e with Ok v => v | _ => [] end.
Definition idx_of (V : fe_space) (e : ent) : list nat := match GlobalDofIndices (sp_dofs V) e with Ok l => l | _ => [] end.

Lemma with_pure : forall d act eval es A, (forall e, In e es -> act e = true -> exists M, eval e = Ok M) ->
  assemble_with_loop d d act eval es A =
  assemble_loop Rring d d (mkMP Rring act (fun e => to_dense (mat_of eval e))) (filter act es) A.
Proof.
  intros d act eval es. induction es as [|e es IH]; intros A H; [reflexivity|]. cbn [assemble_with_loop filter].
  assert (H' : forall e', In e' es -> act e' = true -> exists M, eval e' = Ok M) by (intros; apply H; [right|]; assumption).
  unfold assemble_with. destruct (act e) eqn:Ea.
  - destruct (H e (or_introl eq_refl) Ea) as [M EM]. cbn [assemble_loop]. unfold assemble_entity. cbn [mp_active mp_eval]. rewrite Ea.
    unfold mat_of at 1 2 3. rewrite EM. cbn [bind]. unfold to_dense at 2 3 4. cbn [d_rows d_cols].
    destruct (NumLocalDofs d e) as [nr| |]; cbn [bind]; try reflexivity.
    destruct (GlobalDofIndices d e) as [rows| |]; cbn [bind]; try reflexivity.
    destruct (lf_assert (nr <=? em_n M)%nat); cbn [bind]; try reflexivity.
    destruct (lf_assert ((nr <=? length rows) && (nr <=? length rows))%nat); cbn [bind]; try reflexivity.
    apply IH, H'.
  - cbn [bind]. apply IH, H'.
Qed.
Lemma with_vec_pure : forall d act eval es r, (forall e, In e es -> act e = true -> exists v, eval e = Ok v) ->
  assemble_vec_with_loop d act eval es r =
  assemble_vec_loop Rring d (mkVP Rring act (vec_of eval)) (filter act es) r.
Proof.
  intros d act eval es. induction es as [|e es IH]; intros r H; [reflexivity|]. cbn [assemble_vec_with_loop filter].
  assert (H' : forall e', In e' es -> act e' = true -> exists v, eval e' = Ok v) by (intros; apply H; [right|]; assumption).
  unfold assemble_vec_with. destruct (act e) eqn:Ea.
  - destruct (H e (or_introl eq_refl) Ea) as [v EM]. cbn [assemble_vec_loop]. unfold assemble_vec_entity. cbn [vp_active vp_eval]. rewrite Ea.
    assert (Ev : vec_of eval e = v) by (unfold vec_of; rewrite EM; reflexivity). rewrite Ev, EM. cbn [bind].
    destruct (NumLocalDofs d e) as [nr| |]; cbn [bind]; try reflexivity.
    destruct (GlobalDofIndices d e) as [rows| |]; cbn [bind]; try reflexivity.
    change (@length (car Rring) v) with (@length R v).
    destruct (lf_assert (nr <=? length v)%nat); cbn [bind]; try reflexivity.
    destruct (lf_assert (nr <=? length rows)%nat); cbn [bind]; try reflexivity.
    destruct (add_vec_local Rring rows v (seq 0 nr) r); cbn [bind]; try reflexivity.
    apply IH, H'.
  - cbn [bind]. apply IH, H'.
Qed.

Lemma idx_is : forall V e l, has_dofs V e l -> idx_of V e = l.
Proof. intros V e l H. unfold idx_of. rewrite H. reflexivity. Qed.
Lemma sumn_to : forall n h, sumn (K := Rring) n h = sum_to n h.
Proof. intros n h. unfold sumn, sum_to. induction (seq 0 n) as [|a l IH]; [reflexivity|]. cbn [map suml fold_right]. rewrite IH. reflexivity. Qed.
Lemma suml_over : forall es (F : ent -> R), suml (K := Rring) (map F es) = sum_over es F.
Proof. intros es F. unfold sum_over. induction es as [|a l IH]; [reflexivity|]. cbn [map suml fold_right]. rewrite IH. reflexivity. Qed.
Lemma over_ext : forall es (F G : ent -> R), (forall e, In e es -> F e = G e) -> sum_over es F = sum_over es G.
Proof. intros es F G H. unfold sum_over. f_equal. apply map_ext_in, H. Qed.

(** What a provider has to deliver: matrices [H e] of the size of the elements. *)
Lemma assembled : forall V codim act eval (H : ent -> nat -> nat -> R) , let es := filter act (entities (sp_mesh V) codim) in
  (forall e, In e es -> exists f l, element_of V e f l /\ ElemSpec.is_matrix (eval e) (fe_total f) (H e)) ->
  let N := NumDofs (sp_dofs V) in
  exists A D, AssembleMatrixWith (sp_mesh V) codim (sp_dofs V) (sp_dofs V) act eval = Ok A /\ AssembleSpec.is_matrix Rring A N N D /\
    forall v u, form Rring N N D v u = sum_over es (fun e => let l := idx_of V e in
      sum_to (length l) (fun i => v (nth i l 0%nat) * sum_to (length l) (fun j => H e i j * u (nth j l 0%nat)))).
Proof.
  intros V codim act eval H es HE N.
  assert (OK : forall e, In e (entities (sp_mesh V) codim) -> act e = true -> exists M, eval e = Ok M).
  { intros e I Ha. destruct (HE e) as (f & l & _ & M & EM & _); [apply filter_In; auto|]. exists M. exact EM. }
  unfold AssembleMatrixWith. rewrite (with_pure _ _ _ _ _ OK). fold es.
  assert (Sv : serves (sp_dofs V) es (idx_of V)).
  { intros e I. destruct (HE e I) as (f & l & E & _). rewrite (idx_is _ _ _ (eo_dofs _ _ _ _ E)).
    split; [exact (eo_dofs _ _ _ _ E)|]. split; [exact (eo_num _ _ _ _ E)|]. apply Forall_forall. exact (eo_range _ _ _ _ E). }
  set (p := mkMP Rring act (fun e => to_dense (mat_of eval e))).
  assert (Be : big_enough Rring p es (idx_of V) (idx_of V)).
  { intros e I Ha. destruct (HE e I) as (f & l & E & M & EM & EN & _). rewrite (idx_is _ _ _ (eo_dofs _ _ _ _ E)).
    cbn [p mp_eval]. unfold mat_of. rewrite EM. cbn [to_dense d_rows d_cols]. rewrite EN, (eo_total _ _ _ _ E). auto. }
  destruct (assemble_loop_spec Rring (sp_dofs V) (sp_dofs V) p (idx_of V) (idx_of V) es
              (setZero Rring (coo_new Rring N N)) Sv Sv Be) as (A & E & R1 & R2 & R3).
  exists A, (local_sum Rring p es (idx_of V) (idx_of V)). split; [exact E|]. destruct R3 as [R3 R4]; [apply le_n|apply le_n|]. split.
  - apply is_matrix_intro; [apply R1, new_ok|exact R3|exact R4|]. intros i j _ _. rewrite R2. unfold tval. cbn. lra.
  - intros v u. rewrite form_local_sum by (intros e I; split; apply (Sv e I)).
    rewrite suml_over. apply over_ext. intros e I. cbv zeta. unfold local_form. cbn [p mp_active mp_eval].
    destruct (HE e I) as (f & l & El & M & EM & EN & HM). rewrite (idx_is _ _ _ (eo_dofs _ _ _ _ El)).
    assert (Ha : act e = true) by (apply filter_In in I; apply I). rewrite Ha. unfold form. rewrite sumn_to. apply sum_to_ext. intros i Hi.
    unfold restrict, mv. rewrite sumn_to. cbn [kmul Rring]. f_equal. apply sum_to_ext. intros j Hj.
    unfold mat_of. rewrite EM. cbn [to_dense d_coef]. rewrite HM by (rewrite <- (eo_total _ _ _ _ El); assumption). reflexivity.
Qed.

Lemma assembled_vec : forall V codim act eval (h : ent -> nat -> R) , let es := filter act (entities (sp_mesh V) codim) in
  (forall e, In e es -> exists f l, element_of V e f l /\ is_vector (eval e) (fe_total f) (h e)) ->
  let N := NumDofs (sp_dofs V) in
  exists b, AssembleVectorWith (sp_mesh V) codim (sp_dofs V) act eval = Ok b /\ length b = N /\
    forall v, sum_to N (fun i => nth i b 0 * v i) = sum_over es (fun e => let l := idx_of V e in
      sum_to (length l) (fun i => h e i * v (nth i l 0%nat))).
Proof.
  intros V codim act eval h es HE N.
  assert (OK : forall e, In e (entities (sp_mesh V) codim) -> act e = true -> exists M, eval e = Ok M).
  { intros e I Ha. destruct (HE e) as (f & l & _ & M & EM & _); [apply filter_In; auto|]. exists M. exact EM. }
  unfold AssembleVectorWith. rewrite (with_vec_pure _ _ _ _ _ OK). fold es.
  assert (Sv : serves (sp_dofs V) es (idx_of V)).
  { intros e I. destruct (HE e I) as (f & l & E & _). rewrite (idx_is _ _ _ (eo_dofs _ _ _ _ E)).
    split; [exact (eo_dofs _ _ _ _ E)|]. split; [exact (eo_num _ _ _ _ E)|]. apply Forall_forall. exact (eo_range _ _ _ _ E). }
  set (p := mkVP Rring act (vec_of eval)).
  assert (Be : vec_big_enough Rring p es (idx_of V)).
  { intros e I Ha. destruct (HE e I) as (f & l & E & M & EM & EN & _). rewrite (idx_is _ _ _ (eo_dofs _ _ _ _ E)).
    cbn [p vp_eval]. unfold vec_of. rewrite EM. change (@length (car Rring) M) with (@length R M). rewrite EN, (eo_total _ _ _ _ E). auto. }
  destruct (assemble_vec_into Rring es (sp_dofs V) p (idx_of V) (repeat 0 N) Sv Be) as (w & E & L & Hw); [rewrite repeat_length; apply le_n|].
  rewrite repeat_length in L. exists w. split; [exact E|]. split; [exact L|]. intros v.
  transitivity (sumn (K := Rring) N (fun i => suml (K := Rring) (map (fun e => sumn (K := Rring) (length (idx_of V e))
      (fun a => if (nth a (idx_of V e) 0 =? i)%nat then h e a * v i else 0)) es))).
  { etransitivity; [|symmetry; apply sumn_to]. apply sum_to_ext. intros i Hi. specialize (Hw i). unfold comp in Hw. rewrite nth_repeat in Hw.
    cbn [k0 Rring kadd] in Hw. change (nth i w 0 = 0 + vec_sum Rring p es (idx_of V) i) in Hw. rewrite Rplus_0_l in Hw. change (@nth (car Rring)) with (@nth R) in *. rewrite Hw. unfold vec_sum. clear Hw E L OK Be.
    cut (forall es0, (forall e, In e es0 -> In e es) -> suml (K := Rring)
      (map (fun e => if vp_active Rring p e then sumn (K := Rring) (length (idx_of V e))
         (fun a => if (nth a (idx_of V e) 0 =? i)%nat then comp Rring (vp_eval Rring p e) a else (0 : Rring)) else (0 : Rring)) es0) * v i =
      suml (K := Rring) (map (fun e => sumn (K := Rring) (length (idx_of V e))
         (fun a => if (nth a (idx_of V e) 0 =? i)%nat then h e a * v i else 0)) es0)).
    { intros Q. apply Q. auto. }
    induction es0 as [|e es0 IH]; intros Sub; cbn [map suml]; [cbn [k0 Rring]; lra|]. cbn [kadd Rring]. rewrite Rmult_plus_distr_r.
    f_equal; [|apply IH; intros; apply Sub; right; assumption].
    pose proof (Sub e (or_introl eq_refl)) as I. cbn [p vp_active vp_eval].
    assert (Ha : act e = true) by (apply filter_In in I; apply I). rewrite Ha.
    destruct (HE e I) as (f & l & El & M & EM & EN & HM). rewrite (idx_is _ _ _ (eo_dofs _ _ _ _ El)).
    change ((sumn (K := Rring) (length l) (fun a => if (nth a l 0 =? i)%nat then comp Rring (vec_of eval e) a else (0 : Rring)) * v i)%K =
       sumn (K := Rring) (length l) (fun a => if (nth a l 0 =? i)%nat then h e a * v i else 0)).
    rewrite <- sumn_mulr. apply sumn_ext. intros a Ha'. unfold vec_of. rewrite EM. unfold comp. cbn [kmul Rring k0].
    destruct (nth a l 0 =? i)%nat; [|lra]. change (@nth (car Rring)) with (@nth R). rewrite HM by (rewrite <- (eo_total _ _ _ _ El); exact Ha'). reflexivity. }
  rewrite sumn_suml_swap, suml_over. apply over_ext. intros e I. cbv zeta. rewrite sumn_swap, sumn_to. apply sum_to_ext. intros a Ha.
  rewrite (sumn_single Rring N (nth a (idx_of V e) 0%nat)).
  - rewrite Nat.eqb_refl. reflexivity.
  - destruct (Sv e I) as (_ & _ & F). rewrite Forall_forall in F. apply F, nth_In, Ha.
  - intros j Hj Ne. destruct (nth a (idx_of V e) 0 =? j)%nat eqn:Q; [apply Nat.eqb_eq in Q; congruence|reflexivity].
Qed.
