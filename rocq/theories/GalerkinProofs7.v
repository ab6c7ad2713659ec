(** Proofs for C75: MeshFunctionGradFE computes the gradient of MeshFunctionFE. *)
From Coq Require Import Reals List Arith Lia Lra Bool.
Import ListNotations.
From Verif Require Import Base Scalars MeshModel MeshView DofModel DofSpec RefPatModel GeoModel GeoSpec GeoProofs GeoProofs3 FeModel LagrModel QuadModel
  FeSpec FeProofs LagrProofs LagrProofs2 QuadSpec ElemModel ElemSpec ElemProofs ElemProofs2 ElemProofs3 ElemProofs7 FeToolsModel FeToolsSpec FeToolsProofs
  GalerkinModel GalerkinSpec GalerkinProofs GalerkinProofs2.
Local Open Scope R_scope.

Lemma sum_to_S : forall n f, sum_to (S n) f = sum_to n f + f n.
Proof. intros n f. rewrite <- !sumn_to. exact (sumn_S Rring n f). Qed.

(** *** Derivatives of linear combinations *)
Lemma deriv_weighted : forall n F x J p (c : nat -> R), F x = Ok p -> derivative n F x J ->
  forall m, (m <= n)%nat -> forall eps, 0 < eps -> exists dl, 0 < dl /\
  forall h r, length h = length x -> (forall e, In e h -> Rabs e < dl) -> F (plus x h) = Ok r ->
    Rabs (sum_to m (fun i => c i * (r i - p i - apply J h i))) <= sum_to m (fun i => Rabs (c i)) * eps * length1 h.
Proof.
  intros n F x J p c HF [p' [HF' [L D]]] m. rewrite HF in HF'. injection HF' as <-.
  induction m as [|m IH]; intros Hm eps He.
  - exists 1. split; [lra|]. intros h r _ _ _. unfold sum_to. cbn [seq map fold_right]. rewrite Rabs_R0. lra.
  - destruct (IH ltac:(lia) eps He) as [d1 [P1 H1]]. destruct (D m ltac:(lia) eps He) as [d2 [P2 H2]].
    exists (Rmin d1 d2). split; [apply Rmin_pos; assumption|]. intros h r Lh Sm E.
    specialize (H1 h r Lh (fun e I => Rlt_le_trans _ _ _ (Sm e I) (Rmin_l _ _)) E).
    specialize (H2 h r Lh (fun e I => Rlt_le_trans _ _ _ (Sm e I) (Rmin_r _ _)) E).
    rewrite !sum_to_S. eapply Rle_trans; [apply Rabs_triang|]. rewrite Rabs_mult.
    pose proof (Rmult_le_compat_l (Rabs (c m)) _ _ (Rabs_pos _) H2). lra.
Qed.
Lemma abs_sum_nonneg : forall n c, 0 <= sum_to n (fun i => Rabs (c i)).
Proof. induction n as [|n IH]; intros c; [unfold sum_to; cbn; lra|]. rewrite sum_to_S. pose proof (IH c). pose proof (Rabs_pos (c n)). lra. Qed.
Lemma apply_consts : forall (c : nat -> R) n (h : list R) (J : nat -> vec) s,
  apply (map (fun j (_ : nat) => sum_to n (fun i => c i * J j i)) (seq s (length h))) h 0%nat = sum_to n (fun i => c i * apply (map J (seq s (length h))) h i).
Proof.
  intros c n h J. unfold apply. induction h as [|x h IH]; intros s; cbn [length seq map combine fold_right fst snd].
  - symmetry. transitivity (0 * sum_to n c); [rewrite <- sum_to_scal; apply sum_to_ext; intros; ring|ring].
  - rewrite IH. rewrite Rmult_comm, <- sum_to_scal, <- sum_to_plus. apply sum_to_ext. intros i _. ring.
Qed.
Lemma deriv_combination : forall f x gr (c : nat -> R) F, length x = dimension (fe_el f) ->
  derivative (fe_total f) (shape_functions f) x (map (fun j i => nth j (nth i gr []) 0) (seq 0 (dimension (fe_el f)))) ->
  (forall y v, length y = length x -> fe_eval f y = Ok v -> F y = Ok (sum_to (fe_total f) (fun i => c i * nth i v 0))) ->
  (forall y, length y = length x -> exists v, fe_eval f y = Ok v) ->
  derivative 1 (scalar F) x (map (fun a (_ : nat) => a) (map (fun j => sum_to (fe_total f) (fun i => c i * nth j (nth i gr []) 0)) (seq 0 (dimension (fe_el f))))).
Proof.
  intros f x gr c F Lx D HF EV. destruct (EV x eq_refl) as (v0 & E0).
  exists (fun _ => sum_to (fe_total f) (fun i => c i * nth i v0 0)). unfold scalar. rewrite (HF x v0 eq_refl E0). cbn [bind]. split; [reflexivity|].
  split; [rewrite !map_length, seq_length; auto|].
  intros k Hk eps He. replace k with 0%nat by lia. set (K := sum_to (fe_total f) (fun i => Rabs (c i))). pose proof (abs_sum_nonneg (fe_total f) c) as PK. fold K in PK.
  assert (SF : shape_functions f x = Ok (fun i => nth i v0 0)) by (unfold shape_functions; rewrite E0; reflexivity).
  destruct (deriv_weighted _ _ _ _ _ c SF D (fe_total f) (Nat.le_refl _) (eps / (K + 1)) ltac:(apply Rdiv_lt_0_compat; lra)) as (dl & Pd & H).
  exists dl. split; [exact Pd|]. intros h q Lh Sm Eq.
  assert (Lp : length (plus x h) = length x).
  { unfold plus. rewrite map_length, combine_length. lia. }
  destruct (EV _ Lp) as (v & Ev). rewrite (HF _ v Lp Ev) in Eq. cbn [bind] in Eq. injection Eq as <-.
  specialize (H h (fun i => nth i v 0) Lh Sm ltac:(unfold shape_functions; rewrite Ev; reflexivity)). cbn beta.
  rewrite map_map. rewrite <- Lx, <- Lh. 
  rewrite (apply_consts c (fe_total f) h (fun j i => nth j (nth i gr []) 0) 0).
  rewrite <- Lx, <- Lh in H. change (@map nat (nat -> R)) with (@map nat vec) in *.
  match goal with |- Rabs ?t <= _ => replace t with (sum_to (fe_total f) (fun i => c i * (nth i v 0 - nth i v0 0 - apply (map (fun j i0 => nth j (nth i0 gr []) 0) (seq 0 (length h))) h i))) end.
  2:{ assert (SM : forall n a b, sum_to n (fun i => a i - b i) = sum_to n a - sum_to n b).
      { induction n as [|n IH]; intros a b; [unfold sum_to; cbn; lra|]. rewrite !sum_to_S, IH. ring. }
      rewrite <- !SM. change (@map nat (nat -> R)) with (@map nat vec). apply sum_to_ext. intros; ring. }
  eapply Rle_trans; [exact H|]. apply Rmult_le_compat_r.
  - unfold length1. clear. induction h as [|a h IH]; cbn [map fold_right]; [lra|]. pose proof (Rabs_pos a). lra.
  - fold K. apply (Rmult_le_reg_r (K + 1)); [lra|]. replace (K * (eps / (K + 1)) * (K + 1)) with (K * eps) by (field; lra). nra.
Qed.

(** *** World gradients *)
Lemma world_one : forall d J M (r : list R) w, length J = 1%nat -> gramian_det d J <> 0 -> is_inverse_gramian d J M ->
  (forall k, w k = rsum (map (fun c => nth c M vzero k * nth c r 0) (seq 0 (length M)))) -> world_gradient d J r w.
Proof.
  intros d J M r w LJ ND (LM & HM) Hw. destruct J as [|a [|]]; try discriminate LJ. cbn [length] in *. rewrite LM in Hw. destruct M as [|b [|]]; try discriminate LM.
  unfold gramian_det in ND. cbn [length] in ND. unfold gramian in *. cbn [nth] in *. 
  assert (E : forall k, (k < d)%nat -> b k * inner d a a = a k).
  { intros k Hk. specialize (HM 0%nat k ltac:(lia) Hk). cbn [seq map fold_right nth] in HM. rewrite Rplus_0_r in HM. exact HM. }
  assert (B : forall k, (k < d)%nat -> b k = a k * / inner d a a) by (intros k Hk; rewrite <- (E k Hk) at 1; field; exact ND).
  assert (Wk : forall k, (k < d)%nat -> w k = a k * (/ inner d a a * nth 0 r 0)).
  { intros k Hk. rewrite Hw. cbn [seq map rsum fold_right nth]. rewrite (B k Hk). unfold rsum. cbn [fold_right]. ring. }
  split.
  - intros [|c] Hc; [|cbn [length] in Hc; lia]. cbn [nth].
    transitivity (inner d a a * (/ inner d a a * nth 0 r 0)); [|field; exact ND].
    generalize dependent (/ inner d a a * nth 0 r 0); intros t Wk. rewrite !inner_rsum. rewrite Rmult_comm, <- rs_scal. apply rs_ext. intros k Hk. apply in_seq in Hk. rewrite (Wk k ltac:(lia)). ring.
  - exists [/ inner d a a * nth 0 r 0]. split; [reflexivity|]. intros k Hk. rewrite (Wk k Hk). unfold apply. cbn. ring.
Qed.
Lemma world_any : forall d J M (r : list R) w, length J = 1%nat \/ length J = 2%nat -> gramian_det d J <> 0 -> is_inverse_gramian d J M ->
  (forall k, w k = rsum (map (fun c => nth c M vzero k * nth c r 0) (seq 0 (length M)))) -> world_gradient d J r w.
Proof.
  intros d J M r w [L|L] ND IG Hw; [eapply world_one; eauto|]. pose proof (trf_world d J M [r] 0 L ND IG) as (A & s & Ls & B).
  destruct IG as (LM & _). rewrite LM, L in Hw. cbn [nth] in A.
  assert (E : forall k, w k = trf_grad M [r] 0 k) by (intros k; rewrite Hw; reflexivity).
  split; [|exists s; split; [exact Ls|]; intros k Hk; rewrite E; apply B, Hk].
  intros c Hc. rewrite <- (A c Hc). rewrite !inner_rsum. apply rs_ext. intros k _. rewrite E. reflexivity.
Qed.

Theorem gradient_correct : forall V geom e f l u p, element_of V e f l -> counts f -> gradients_ok f ->
  fe_el f = kind_el (go_kind (geom e)) -> kind_el (go_kind (geom e)) = ent_type (sp_mesh V) e -> dim_local (go_kind (geom e)) <> 0%nat ->
  length u = NumDofs (sp_dofs V) -> admissible (geom e) p -> nondegenerate (geom e) p ->
  exists w, fe_grad_value V geom u e p = Ok w /\ world_gradient_of (geom e) (fe_value V u e) p w.
Proof.
  intros V geom e f l u p El Co Gr Ef Et D0 Lu Ad (J & HJ & ND).
  assert (Dm : dimension (fe_el f) = dim_local (go_kind (geom e))) by (rewrite Ef; destruct (go_kind (geom e)); reflexivity).
  assert (Lp : length p = dimension (fe_el f)) by (rewrite Dm; apply Ad).
  destruct (Gr p Lp) as (gr & Eg & Lg & _ & DD).
  destruct (inverse_gramian (geom e) p J Ad HJ D0 ND) as (M & EM & IG).
  pose proof (jacobian_cols (geom e) p J Ad HJ) as LJ.
  assert (LM : length M = dim_local (go_kind (geom e))) by (destruct IG as (Q & _); lia).
  destruct (grad_sum V geom e f l u El Lu p gr M Eg Lg EM) as (w & Ew & Hw); [rewrite LM, <- Et; destruct (go_kind (geom e)); reflexivity|].
  exists w. split; [exact Ew|]. exists J, (map (fun j => sum_to (fe_total f) (fun i => loc l u i * nth j (nth i gr []) 0)) (seq 0 (dimension (fe_el f)))).
  split; [exact HJ|]. split; [rewrite map_length, seq_length; lia|]. split.
  - apply (deriv_combination f p gr (loc l u)); [exact Lp|exact DD| |].
    + intros y v Ly Ev. apply (value_sum V e f l u El Lu y v Ev). destruct (co_eval _ Co y ltac:(lia)) as (v' & Ev' & Lv). congruence.
    + intros y Ly. destruct (co_eval _ Co y ltac:(lia)) as (v' & Ev' & Lv). eauto.
  - apply (world_any _ J M); auto.
    + rewrite LJ. destruct (go_kind (geom e)); cbn in *; auto; contradiction.
    + intros k. rewrite Hw. apply rs_ext. intros c Hc. apply in_seq in Hc. f_equal.
      rewrite (nth_indep _ 0 (sum_to (fe_total f) (fun i => loc l u i * nth 0 (nth i gr []) 0))) by (rewrite map_length, seq_length; lia).
      rewrite (map_nth (fun j => sum_to (fe_total f) (fun i => loc l u i * nth j (nth i gr []) 0)) (seq 0 (dimension (fe_el f))) 0%nat c).
      rewrite seq_nth by lia. reflexivity.
Qed.
