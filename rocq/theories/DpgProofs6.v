(** The DPG providers, and the DPG solution minimises the estimated error. *)
From Coq Require Import List Arith Bool Lia Reals Lra.
Import ListNotations.
From Verif Require Import Base Scalars MeshModel MeshView DofModel DofSpec DofProofs4 FeModel AssembleModel AssembleSpec AssembleProofs AssembleProofs2 DpgModel DpgSpec DpgProofs DpgProofs2 DpgProofs3 DpgProofs4 DpgProofs5.
Local Open Scope R_scope.

Lemma dpg_mat_eval : forall st gr cell B G, st cell = Ok B -> gr cell = Ok G ->
  d_rows Rring G = d_cols Rring G -> d_rows Rring B = d_rows Rring G ->
  DpgMatEval st gr cell = Ok (mkDense Rring (d_cols Rring B) (d_cols Rring B) (dpg_entry (d_rows Rring G) (d_coef Rring G) (d_coef Rring B))).
Proof.
  intros st gr cell B G E1 E2 H1 H2. unfold DpgMatEval. rewrite E1, E2. cbn [bind]. rewrite H2, H1, Nat.eqb_refl. reflexivity.
Qed.
Lemma dpg_vec_eval : forall st gr ld cell B G l, st cell = Ok B -> gr cell = Ok G -> ld cell = Ok l ->
  d_rows Rring G = d_cols Rring G -> d_rows Rring B = d_rows Rring G -> length l = d_rows Rring G ->
  DpgVecEval st gr ld cell = Ok (map (dpg_load (d_rows Rring G) (d_coef Rring G) (d_coef Rring B) (fun i => nth i l 0)) (seq 0 (d_cols Rring B))).
Proof.
  intros st gr ld cell B G l E1 E2 E3 H1 H2 H3. unfold DpgVecEval. rewrite E1, E2, E3. cbn [bind]. rewrite H2, H3, <- H1, Nat.eqb_refl. reflexivity.
Qed.
Lemma comp_map_seq : forall (f : nat -> R) n i, (i < n)%nat -> comp Rring (map f (seq 0 n)) i = f i.
Proof.
  intros f n i Hi. unfold comp. rewrite (nth_indep _ (@k0 Rring) (f 0%nat)) by (rewrite map_length, seq_length; auto). rewrite map_nth, seq_nth by auto. reflexivity.
Qed.
Theorem dpg_matrix : forall st gr cell B G, st cell = Ok B -> gr cell = Ok G ->
  d_rows Rring G = d_cols Rring G -> d_rows Rring B = d_rows Rring G -> spd (d_rows Rring G) (d_coef Rring G) ->
  exists A, DpgMatEval st gr cell = Ok A /\ d_rows Rring A = d_cols Rring B /\ d_cols Rring A = d_cols Rring B /\
  let n := d_rows Rring G in let k := d_cols Rring B in
  (forall w, exists t, optimal_test n k (d_coef Rring G) (d_coef Rring B) w t) /\
  (forall w t, optimal_test n k (d_coef Rring G) (d_coef Rring B) w t ->
    (forall u, Rform k k (d_coef Rring A) w u = Rform n k (d_coef Rring B) t u) /\
    Rform k k (d_coef Rring A) w w = Rform n n (d_coef Rring G) t t) /\
  (forall i j, (i < k)%nat -> (j < k)%nat -> d_coef Rring A i j = d_coef Rring A j i).
Proof.
  intros st gr cell B G E1 E2 H1 H2 HG. eexists. split; [apply dpg_mat_eval; eauto|]. cbn [d_rows d_cols d_coef]. split; auto. split; auto.
  set (n := d_rows Rring G) in *. set (k := d_cols Rring B) in *. split; [|split].
  - intros w. eexists. apply trial_to_test_ok. exact HG.
  - intros w t Ht. split; [intros u; now apply dpg_form|]. apply (dpg_form_gram n k _ _ HG w w t t Ht Ht).
  - intros i j Hi Hj. pose proof (dpg_symmetric n k (d_coef Rring G) (d_coef Rring B) HG (unit_at Rring i) (unit_at Rring j)) as Q.
    rewrite !(form_unit Rring) in Q by auto. exact Q.
Qed.
Theorem dpg_vector : forall st gr ld cell B G l, st cell = Ok B -> gr cell = Ok G -> ld cell = Ok l ->
  d_rows Rring G = d_cols Rring G -> d_rows Rring B = d_rows Rring G -> length l = d_rows Rring G -> spd (d_rows Rring G) (d_coef Rring G) ->
  exists f, DpgVecEval st gr ld cell = Ok f /\ length f = d_cols Rring B /\
  let n := d_rows Rring G in let k := d_cols Rring B in
  forall w t, optimal_test n k (d_coef Rring G) (d_coef Rring B) w t -> Rlin k (comp Rring f) w = Rlin n (comp Rring l) t.
Proof.
  intros st gr ld cell B G l E1 E2 E3 H1 H2 H3 HG. eexists. split; [apply dpg_vec_eval; eauto|]. split; [now rewrite map_length, seq_length|].
  intros n k w t Ht. rewrite <- (dpg_vec n k _ _ (comp Rring l) HG w t Ht). apply (linear_ext Rring). intros i Hi. now rewrite comp_map_seq.
Qed.

Lemma traverse_map : forall A C (f : A -> res C) g l, (forall x, In x l -> f x = Ok (g x)) -> traverse f l = Ok (map g l).
Proof. induction l as [|x l IH]; intros H; cbn [traverse map]; auto. rewrite H by (cbn; auto). cbn [bind]. rewrite IH; auto. intros; apply H; cbn; auto. Qed.

Theorem estimator : forall st gr ld cell B G l trial idx u, st cell = Ok B -> gr cell = Ok G -> ld cell = Ok l ->
  d_rows Rring G = d_cols Rring G -> d_rows Rring B = d_rows Rring G -> length l = d_rows Rring G -> spd (d_rows Rring G) (d_coef Rring G) ->
  NumLocalDofs trial cell = Ok (d_cols Rring B) -> GlobalDofIndices trial cell = Ok idx -> length idx = d_cols Rring B ->
  Forall (fun g => g < length u)%nat idx ->
  exists e, element_error st gr ld trial u cell = Ok e /\
    e = sqrt (energy (d_rows Rring G) (d_cols Rring B) (d_coef Rring G) (d_coef Rring B) (comp Rring l) (restrict Rring (comp Rring u) idx)) /\
    dual_norm (d_rows Rring G) (d_coef Rring G)
      (fun i => comp Rring l i - Rsum (d_cols Rring B) (fun j => d_coef Rring B i j * comp Rring u (nth j idx 0%nat))) e.
Proof.
  intros st gr ld cell B G l trial idx u E1 E2 E3 H1 H2 H3 HG N1 N2 N3 F. unfold element_error. rewrite E1, E2, E3. cbn [bind]. rewrite N1, N2. cbn [bind].
  rewrite (traverse_map _ _ _ (fun i => comp Rring u (nth i idx 0%nat))).
  2:{ intros i Hi. apply in_seq in Hi. unfold elem_at. rewrite (nth_error_nth' idx 0%nat) by lia. cbn [bind].
      rewrite Forall_forall in F. rewrite (nth_error_nth' u 0) by (apply F, nth_In; lia). reflexivity. }
  cbn [bind]. rewrite Nat.eqb_refl, H2, H3, <- H1, Nat.eqb_refl. cbn [bind andb lf_assert].
  eexists. split; [reflexivity|].
  set (n := d_rows Rring G). set (k := d_cols Rring B).
  set (r := residual k (d_coef Rring B) (comp Rring l) (restrict Rring (comp Rring u) idx)).
  assert (ER : forall i, nth i l 0 - Rsum k (fun j => d_coef Rring B i j * nth j (map (fun i => comp Rring u (nth i idx 0%nat)) (seq 0 k)) 0) = r i).
  { intros i. unfold r, residual. unfold comp at 2. f_equal. apply rs_ext. intros j Hj. f_equal.
    exact (comp_map_seq (fun i => comp Rring u (nth i idx 0%nat)) k j Hj). }
  assert (EX : forall b b', (forall i, b i = b' i) -> forall n G i, ldlt n G b i = ldlt n G b' i).
  { clear. intros b b' H n. revert b b' H. induction n as [|n IH]; intros b b' H G i; cbn [ldlt]; auto.
    assert (IH' : forall j, ldlt n (fun i0 j0 => G (S i0) (S j0) - G (S i0) 0%nat / G 0%nat 0%nat * G 0%nat 0%nat * (G (S j0) 0%nat / G 0%nat 0%nat)) (fun i0 => b (S i0) - G (S i0) 0%nat / G 0%nat 0%nat * b 0%nat) j =
       ldlt n (fun i0 j0 => G (S i0) (S j0) - G (S i0) 0%nat / G 0%nat 0%nat * G 0%nat 0%nat * (G (S j0) 0%nat / G 0%nat 0%nat)) (fun i0 => b' (S i0) - G (S i0) 0%nat / G 0%nat 0%nat * b' 0%nat) j).
    { intros j. apply IH. intros i0. now rewrite !H. }
    destruct i as [|i]; [|apply IH']. f_equal; [now rewrite H|]. apply rs_ext. intros j Hj. f_equal. apply IH'. }
  match goal with |- ?s = _ /\ _ => assert (ES : s = sqrt (Rlin n r (ldlt_solve n (d_coef Rring G) r))) end.
  { f_equal. unfold linear. cbn [kmul Rring]. apply rs_ext. intros i Hi. rewrite ER. f_equal. unfold ldlt_solve. apply EX. exact ER. }
  rewrite ES. split; [reflexivity|]. exact (proj1 (residual_norm n (d_coef Rring G) r HG)).
Qed.

Lemma posterior : forall l, EvalPosteriorError l = sqrt (@suml Rring (map (fun e => e * e) l)).
Proof.
  intros l. unfold EvalPosteriorError. f_equal. assert (H : forall a, fold_left (fun error e => error + e * e) l a = a + @suml Rring (map (fun e => e * e) l)).
  { induction l as [|e l IH]; intros a; cbn [fold_left map suml]; [cbn; ring|]. rewrite IH. cbn. ring. }
  rewrite H. ring.
Qed.

Section Global.
Variables (m : mesh) (trial : dofh) (idx : ent -> list nat) (st gr : ent -> res (dense Rring)) (ld : ent -> res (list R)).
Hypothesis HS : serves trial (entities m 0) idx.
Hypothesis HD : dpg_data m trial st gr ld.
Let N := NumDofs trial.
Let Be e := mat_of Rring st e.
Let Ge e := mat_of Rring gr e.
Let le e := vec_of Rring ld e.
Definition cell_energy (e : ent) (u : nat -> R) : R :=
  energy (d_rows Rring (Ge e)) (d_cols Rring (Be e)) (d_coef Rring (Ge e)) (d_coef Rring (Be e)) (comp Rring (le e)) (restrict Rring u (idx e)).
Definition all_energy (u : nat -> R) : R := @suml Rring (map (fun e => cell_energy e u) (entities m 0)).

Lemma cell_data : forall e, In e (entities m 0) ->
  st e = Ok (Be e) /\ gr e = Ok (Ge e) /\ ld e = Ok (le e) /\ d_rows Rring (Ge e) = d_cols Rring (Ge e) /\ d_rows Rring (Be e) = d_rows Rring (Ge e) /\
  length (le e) = d_rows Rring (Ge e) /\ length (idx e) = d_cols Rring (Be e) /\ spd (d_rows Rring (Ge e)) (d_coef Rring (Ge e)).
Proof.
  intros e He. destruct (HD e He) as (B & G & l & E1 & E2 & E3 & H1 & H2 & H3 & H4 & H5).
  unfold Be, Ge, le, mat_of, vec_of. rewrite E1, E2, E3. destruct (HS e He) as (_ & Q & _). rewrite Q in H4. injection H4 as H4.
  repeat (split; auto).
Qed.
Lemma all_energy_nonneg : forall u, 0 <= all_energy u.
Proof.
  intros u. unfold all_energy. assert (H : forall e, In e (entities m 0) -> 0 <= cell_energy e u).
  { intros e He. apply energy_nonneg. apply cell_data. auto. }
  clear HS HD. induction (entities m 0) as [|e l IH]; cbn [map suml]; [cbn; lra|]. specialize (H e (or_introl eq_refl)) as Q.
  assert (0 <= @suml Rring (map (fun e => cell_energy e u) l)) by (apply IH; intros; apply H; cbn; auto). cbn in *. lra.
Qed.
Lemma estimators : forall u, length u = N ->
  ElementErrorEstimators st gr ld m trial u = Ok (map (fun e => sqrt (cell_energy e (comp Rring u))) (entities m 0)).
Proof.
  intros u L. apply traverse_map. intros e He. destruct (cell_data e He) as (E1 & E2 & E3 & H1 & H2 & H3 & H4 & H5).
  destruct (HS e He) as (S1 & S2 & S3).
  destruct (estimator st gr ld e (Be e) (Ge e) (le e) trial (idx e) u) as (x & X1 & X2 & _); auto; try congruence.
  { rewrite L. auto. }
  rewrite X1, X2. reflexivity.
Qed.
Lemma error_energy : forall u e, length u = N -> (error_of st gr ld m trial u e <-> e = sqrt (all_energy (comp Rring u))).
Proof.
  intros u e L. unfold error_of. rewrite (estimators u L).
  assert (E : EvalPosteriorError (map (fun e => sqrt (cell_energy e (comp Rring u))) (entities m 0)) = sqrt (all_energy (comp Rring u))).
  { rewrite posterior, map_map. f_equal. unfold all_energy. apply (suml_map_ext Rring). intros c Hc. apply sqrt_sqrt.
    apply energy_nonneg. apply cell_data. auto. }
  split.
  - intros (est & [= <-] & ->). exact E.
  - intros ->. eexists. split; [reflexivity|]. now rewrite E.
Qed.

Lemma assembled : exists A D phi,
  AssembleMat Rring m trial trial (fun _ => true) (DpgMatEval st gr) = Ok A /\ is_matrix Rring A N N D /\
  AssembleVec Rring m trial (fun _ => true) (DpgVecEval st gr ld) = Ok phi /\ length phi = N /\
  (forall w, 0 <= Rform N N D w w) /\
  (forall i j, (i < N)%nat -> (j < N)%nat -> D i j = D j i) /\
  (forall u w c, all_energy (fun i => u i + c * w i) =
    all_energy u - 2 * c * (Rlin N (comp Rring phi) w - Rform N N D w u) + c * c * Rform N N D w w).
Proof.
  assert (EM : forall e, In e (entities m 0) -> DpgMatEval st gr e = Ok (mkDense Rring (d_cols Rring (Be e)) (d_cols Rring (Be e)) (dpg_entry (d_rows Rring (Ge e)) (d_coef Rring (Ge e)) (d_coef Rring (Be e))))).
  { intros e He. destruct (cell_data e He) as (E1 & E2 & E3 & H1 & H2 & H3 & H4 & H5). apply dpg_mat_eval; auto. }
  assert (EV : forall e, In e (entities m 0) -> DpgVecEval st gr ld e = Ok (map (dpg_load (d_rows Rring (Ge e)) (d_coef Rring (Ge e)) (d_coef Rring (Be e)) (comp Rring (le e))) (seq 0 (d_cols Rring (Be e))))).
  { intros e He. destruct (cell_data e He) as (E1 & E2 & E3 & H1 & H2 & H3 & H4 & H5). exact (dpg_vec_eval st gr ld e _ _ _ E1 E2 E3 H1 H2 H3). }
  rewrite assemble_total by (intros e He _; eexists; apply EM; auto).
  rewrite assemble_vec_total by (intros e He _; eexists; apply EV; auto).
  destruct (assemble_form Rring m 0 trial trial (mkMP Rring (fun _ => true) (mat_of Rring (DpgMatEval st gr))) idx idx HS HS) as (A & D & EA & MA & FA).
  { intros e He _. cbn [mp_eval]. unfold mat_of. rewrite (EM e He). cbn [d_rows d_cols]. destruct (cell_data e He) as (_ & _ & _ & _ & _ & _ & -> & _). lia. }
  destruct (assemble_linear Rring m trial (mkVP Rring (fun _ => true) (vec_of Rring (DpgVecEval st gr ld))) idx HS) as (phi & EP & LP & FP).
  { intros e He _. cbn [vp_eval]. unfold vec_of. rewrite (EV e He), map_length, seq_length. destruct (cell_data e He) as (_ & _ & _ & _ & _ & _ & -> & _). lia. }
  assert (FA' : forall v u, Rform N N D v u = @suml Rring (map (fun e => Rform (d_cols Rring (Be e)) (d_cols Rring (Be e)) (dpg_entry (d_rows Rring (Ge e)) (d_coef Rring (Ge e)) (d_coef Rring (Be e))) (restrict Rring v (idx e)) (restrict Rring u (idx e))) (entities m 0))).
  { intros v u. unfold N. rewrite FA. apply (suml_map_ext Rring). intros e He. cbn [mp_active mp_eval]. unfold mat_of. rewrite (EM e He). cbn [d_coef].
    destruct (cell_data e He) as (_ & _ & _ & _ & _ & _ & -> & _). reflexivity. }
  assert (FP' : forall v, Rlin N (comp Rring phi) v = @suml Rring (map (fun e => Rlin (d_cols Rring (Be e)) (dpg_load (d_rows Rring (Ge e)) (d_coef Rring (Ge e)) (d_coef Rring (Be e)) (comp Rring (le e))) (restrict Rring v (idx e))) (entities m 0))).
  { intros v. unfold N. rewrite FP. apply (suml_map_ext Rring). intros e He. cbn [vp_active vp_eval]. unfold vec_of. rewrite (EV e He).
    destruct (cell_data e He) as (_ & _ & _ & _ & _ & _ & -> & _). apply (linear_ext Rring). intros i Hi. now rewrite comp_map_seq. }
  exists A, D, phi. split; auto. split; auto. split; auto. split; auto. split; [|split].
  - intros w. rewrite FA'. assert (H : forall e, In e (entities m 0) -> 0 <= Rform (d_cols Rring (Be e)) (d_cols Rring (Be e)) (dpg_entry (d_rows Rring (Ge e)) (d_coef Rring (Ge e)) (d_coef Rring (Be e))) (restrict Rring w (idx e)) (restrict Rring w (idx e))).
    { intros e He. apply dpg_nonneg. apply cell_data. auto. }
    revert H. generalize (entities m 0). clear. intros es H. induction es as [|e l IH]; cbn [map suml]; [cbn; lra|].
    apply Rplus_le_le_0_compat; [apply H; cbn; auto|apply IH; intros; apply H; cbn; auto].
  - intros i j Hi Hj. rewrite <- (form_unit Rring N N D i j Hi Hj), <- (form_unit Rring N N D j i Hj Hi), !FA'.
    apply (suml_map_ext Rring). intros e He. apply dpg_symmetric. apply cell_data. auto.
  - intros u w c. rewrite !FA', FP'. unfold all_energy.
    rewrite (suml_map_ext Rring _ (fun e => cell_energy e (fun i => u i + c * w i))
      (fun e => cell_energy e u - 2 * c * (Rlin (d_cols Rring (Be e)) (dpg_load (d_rows Rring (Ge e)) (d_coef Rring (Ge e)) (d_coef Rring (Be e)) (comp Rring (le e))) (restrict Rring w (idx e)) -
          Rform (d_cols Rring (Be e)) (d_cols Rring (Be e)) (dpg_entry (d_rows Rring (Ge e)) (d_coef Rring (Ge e)) (d_coef Rring (Be e))) (restrict Rring w (idx e)) (restrict Rring u (idx e))) +
        c * c * Rform (d_cols Rring (Be e)) (d_cols Rring (Be e)) (dpg_entry (d_rows Rring (Ge e)) (d_coef Rring (Ge e)) (d_coef Rring (Be e))) (restrict Rring w (idx e)) (restrict Rring w (idx e)))).
    + generalize (entities m 0) as es. induction es as [|e l IH]; cbn [map suml]; [cbn; ring|]. rewrite IH. cbn. ring.
    + intros e He. unfold cell_energy. rewrite <- energy_expand by (apply cell_data; auto). reflexivity.
Qed.

Lemma energy_ext : forall u u', (forall i, (i < N)%nat -> u i = u' i) -> all_energy u = all_energy u'.
Proof.
  intros u u' H. destruct assembled as (A & D & phi & _ & _ & _ & _ & _ & _ & X).
  assert (Z : forall n l (v : nat -> R), (forall i, (i < n)%nat -> v i = 0) -> Rlin n l v = 0).
  { intros n l v Hv. apply (sumn_zero Rring). intros i Hi. rewrite Hv by auto. cbn. ring. }
  assert (ZF : forall n k M (v w : nat -> R), (forall i, (i < n)%nat -> v i = 0) -> Rform n k M v w = 0).
  { intros n k M v w Hv. apply (sumn_zero Rring). intros i Hi. rewrite Hv by auto. cbn. ring. }
  pose proof (X u (fun i => u' i - u i) 1) as Q.
  assert (HZ : forall i, (i < N)%nat -> u' i - u i = 0) by (intros i Hi; rewrite (H i Hi); ring).
  rewrite Z, !ZF in Q by auto.
  transitivity (all_energy (fun i => u i + 1 * (u' i - u i))); [rewrite Q; ring|].
  f_equal. apply FunctionalExtensionality.functional_extensionality. intros i. ring.
Qed.

Theorem dpg_minimises : forall sel, exists A phi A' b' D', 
  AssembleMat Rring m trial trial (fun _ => true) (DpgMatEval st gr) = Ok A /\
  AssembleVec Rring m trial (fun _ => true) (DpgVecEval st gr ld) = Ok phi /\
  FixFlaggedSolutionComponents Rring sel A phi = Ok (A', b') /\
  is_matrix Rring A' N N D' /\
  (forall i j, (i < N)%nat -> (j < N)%nat -> D' i j = D' j i) /\
  forall u, length u = N ->
    (exists e, error_of st gr ld m trial u e) /\
    (solves Rring N D' (comp Rring b') (comp Rring u) <->
     (obeys sel N u /\
      forall w e e', obeys sel N w -> error_of st gr ld m trial u e -> error_of st gr ld m trial w e' -> e <= e')).
Proof.
  intros sel. destruct assembled as (A & D & phi & EA & MA & EP & LP & PS & SY & X).
  destruct (fix_flagged Rring sel A phi N D MA LP) as (A' & b' & D' & EF & LB & MA' & HF & HSY).
  exists A, phi, A', b', D'. split; auto. split; auto. split; auto. split; auto. split; [apply HSY; auto|].
  intros u LU. split; [eexists; apply error_energy; auto|]. rewrite HF. clear HF HSY EF MA'.
  assert (LE : forall w, length w = N -> (forall e e', error_of st gr ld m trial u e -> error_of st gr ld m trial w e' -> e <= e') <->
     all_energy (comp Rring u) <= all_energy (comp Rring w)).
  { intros w LW. split.
    - intros H. specialize (H _ _ (proj2 (error_energy u _ LU) eq_refl) (proj2 (error_energy w _ LW) eq_refl)).
      apply sqrt_le_0; auto using all_energy_nonneg.
    - intros H e e' He He'. apply error_energy in He, He'; auto. subst. apply sqrt_le_1_alt. auto. }
  split.
  - intros [H1 H2]. split; [split; auto|]. intros w e e' [LW Hw]. revert e e'. apply LE; auto.
    rewrite (energy_ext (comp Rring w) (fun i => comp Rring u i + 1 * (comp Rring w i - comp Rring u i))) by (intros j Hj; generalize (comp Rring w j) (comp Rring u j); intros a b; cbn in a, b; cbn; ring).
    rewrite X. 
    assert (Z : Rlin N (comp Rring phi) (fun i => comp Rring w i - comp Rring u i) - Rform N N D (fun i => comp Rring w i - comp Rring u i) (comp Rring u) = 0).
    { rewrite form_def. unfold linear. cbn [kmul Rring]. rewrite <- rs_sub. apply (sumn_zero Rring). intros i Hi.
      destruct (fst (sel i)) eqn:E.
      - specialize (H1 i Hi E). specialize (Hw i Hi E). change (nth i w 0) with (comp Rring w i) in Hw. rewrite H1, Hw. cbn. ring.
      - specialize (H2 i Hi E). unfold mv in H2. cbn [kmul Rring] in H2. cbn [car Rring] in *. rewrite H2. cbn. ring. }
    rewrite Z. pose proof (PS (fun i => comp Rring w i - comp Rring u i)). lra.
  - intros [[_ H1] H2]. split; auto. intros i Hi E.
    set (g := comp Rring phi i - mv Rring N D (comp Rring u) i). set (a := D i i).
    assert (Ha : 0 <= a) by (unfold a; rewrite <- (form_unit Rring N N D i i Hi Hi); apply PS).
    assert (Q : forall c, 0 <= - 2 * c * g + c * c * a).
    { intros c. set (w := map (fun j => comp Rring u j + c * unit_at Rring i j) (seq 0 N)).
      assert (LW : length w = N) by (unfold w; now rewrite map_length, seq_length).
      assert (OW : obeys sel N w).
      { split; auto. intros j Hj Ej. change (nth j w 0) with (comp Rring w j). unfold w. rewrite comp_map_seq by auto.
        unfold unit_at. destruct (Nat.eqb_spec j i) as [->|]; [discriminate (eq_trans (eq_sym E) Ej)|]. rewrite <- (H1 j Hj Ej). cbn. unfold comp. cbn. ring. }
      assert (I : all_energy (comp Rring u) <= all_energy (comp Rring w)) by (apply LE; auto; intros e e'; apply H2; auto).
      rewrite (energy_ext (comp Rring w) (fun j => comp Rring u j + c * unit_at Rring i j)) in I by (intros j Hj; unfold w; now rewrite comp_map_seq).
      rewrite X in I. rewrite (linear_unit Rring) in I by auto. rewrite (form_unit Rring) in I by auto.
      assert (EQ : Rform N N D (unit_at Rring i) (comp Rring u) = mv Rring N D (comp Rring u) i).
      { rewrite form_linear. rewrite <- (linear_unit Rring N (mv Rring N D (comp Rring u)) i Hi). reflexivity. }
      rewrite EQ in I. fold a in I. unfold g. cbn in *. lra. }
    specialize (Q (g / (a + 1))).
    assert (Q2 : 0 <= - (g * g) * (a + 2)).
    { replace (- 2 * (g / (a + 1)) * g + g / (a + 1) * (g / (a + 1)) * a) with ((- (g * g) * (a + 2)) * / ((a + 1) * (a + 1))) in Q by (field; lra).
      apply (Rmult_le_compat_r ((a + 1) * (a + 1))) in Q; [|apply Rmult_le_pos; lra]. rewrite Rmult_0_l, Rmult_assoc, Rinv_l, Rmult_1_r in Q; auto.
      apply Rmult_integral_contrapositive. lra. }
    assert (G0 : g * g <= 0).
    { apply Rmult_le_reg_r with (a + 2); [lra|]. lra. }
    assert (g = 0).
    { apply Rsqr_0_uniq. unfold Rsqr. pose proof (Rle_0_sqr g) as Y. unfold Rsqr in Y. lra. }
    unfold g in *. lra.
Qed.
End Global.

Theorem estimator_norm : forall st gr ld cell B G l trial idx u, st cell = Ok B -> gr cell = Ok G -> ld cell = Ok l ->
  d_rows Rring G = d_cols Rring G -> d_rows Rring B = d_rows Rring G -> length l = d_rows Rring G -> spd (d_rows Rring G) (d_coef Rring G) ->
  NumLocalDofs trial cell = Ok (d_cols Rring B) -> GlobalDofIndices trial cell = Ok idx -> length idx = d_cols Rring B ->
  Forall (fun g => g < length u)%nat idx ->
  exists e, element_error st gr ld trial u cell = Ok e /\
    dual_norm (d_rows Rring G) (d_coef Rring G)
      (fun i => comp Rring l i - Rsum (d_cols Rring B) (fun j => d_coef Rring B i j * comp Rring u (nth j idx 0%nat))) e.
Proof.
  intros st gr ld cell B G l trial idx u E1 E2 E3 H1 H2 H3 HG N1 N2 N3 F.
  destruct (estimator st gr ld cell B G l trial idx u E1 E2 E3 H1 H2 H3 HG N1 N2 N3 F) as (e & X1 & _ & X2). eauto.
Qed.

Lemma traverse_F2 : forall A C (f : A -> res C) l r, traverse f l = Ok r -> Forall2 (fun x y => f x = Ok y) l r.
Proof.
  induction l as [|x l IH]; intros r H; cbn [traverse] in H; [injection H as <-; constructor|].
  destruct (f x) eqn:E; cbn [bind] in H; try discriminate. destruct (traverse f l); cbn [bind] in H; try discriminate. injection H as <-.
  constructor; auto.
Qed.
Theorem total_error : forall st gr ld m trial u est, ElementErrorEstimators st gr ld m trial u = Ok est ->
  Forall2 (fun cell e => element_error st gr ld trial u cell = Ok e) (entities m 0) est /\
  0 <= EvalPosteriorError est /\ EvalPosteriorError est * EvalPosteriorError est = @suml Rring (map (fun e => e * e) est).
Proof.
  intros st gr ld m trial u est H. split; [apply traverse_F2, H|]. rewrite posterior. split; [apply sqrt_pos|]. apply sqrt_sqrt.
  induction est as [|e l IH]; [cbn; lra|]. clear - e l. cbn [map suml]. pose proof (Rle_0_sqr e) as Q. unfold Rsqr in Q.
  assert (0 <= @suml Rring (map (fun e => e * e) l)).
  { induction l as [|x l IH]; [cbn; lra|]. cbn [map suml]. pose proof (Rle_0_sqr x) as Y. unfold Rsqr in Y. cbn in *. lra. }
  cbn in *. lra.
Qed.
