(** Symmetric positive definite systems: the LDLT decomposition solves them, and the DPG element
    matrix, load vector and error estimate. *)
From Coq Require Import List Arith Bool Lia Reals Lra.
Import ListNotations.
From Verif Require Import Base Scalars MeshModel DofModel DofSpec FeModel AssembleModel AssembleSpec DpgModel DpgSpec DpgProofs3.
Local Open Scope R_scope.

Notation Rsum := (@sumn Rring).
Notation Rform := (form Rring).
Notation Rlin := (linear Rring).
Ltac rr := cbn [car kadd kmul ksub kopp k0 k1 Rring] in *; ring.

Lemma rs_ext : forall n f g, (forall j, (j < n)%nat -> f j = g j) -> Rsum n f = Rsum n g.
Proof. exact (sumn_ext Rring). Qed.
Lemma rs_add : forall n f g, Rsum n (fun j => f j + g j) = Rsum n f + Rsum n g.
Proof. exact (sumn_add Rring). Qed.
Lemma rs_sub : forall n f g, Rsum n (fun j => f j - g j) = Rsum n f - Rsum n g.
Proof. exact (sumn_sub Rring). Qed.
Lemma rs_mul : forall n c f, Rsum n (fun j => c * f j) = c * Rsum n f.
Proof. exact (sumn_mul Rring). Qed.
Lemma rs_mulr : forall n c f, Rsum n (fun j => f j * c) = Rsum n f * c.
Proof. exact (sumn_mulr Rring). Qed.
Lemma rs_swap : forall n m f, Rsum n (fun i => Rsum m (fun j => f i j)) = Rsum m (fun j => Rsum n (fun i => f i j)).
Proof. exact (sumn_swap Rring). Qed.
Lemma rs_head : forall n f, Rsum (S n) f = f 0%nat + Rsum n (fun i => f (S i)).
Proof. intros n f. unfold sumn. cbn [seq map suml]. rewrite <- seq_shift, map_map. reflexivity. Qed.
Lemma form_def : forall n k D v u, Rform n k D v u = Rsum n (fun i => v i * Rsum k (fun j => D i j * u j)).
Proof. reflexivity. Qed.
Lemma form_double : forall n k D v u, Rform n k D v u = Rsum n (fun i => Rsum k (fun j => v i * D i j * u j)).
Proof. intros. rewrite form_def. apply rs_ext. intros i Hi. rewrite <- rs_mul. apply rs_ext. intros. rr. Qed.
Lemma form_ext2 : forall n k D D' v v' u u', (forall i j, (i < n)%nat -> (j < k)%nat -> D i j = D' i j) ->
  (forall i, (i < n)%nat -> v i = v' i) -> (forall i, (i < k)%nat -> u i = u' i) -> Rform n k D v u = Rform n k D' v' u'.
Proof. intros. rewrite !form_double. apply rs_ext. intros i Hi. apply rs_ext. intros j Hj. rewrite H, H0, H1; auto. Qed.
Lemma form_sym : forall n D v u, (forall i j, (i < n)%nat -> (j < n)%nat -> D i j = D j i) -> Rform n n D v u = Rform n n D u v.
Proof. intros n D v u H. rewrite !form_double, rs_swap. apply rs_ext. intros i Hi. apply rs_ext. intros j Hj. rewrite (H j i) by auto. rr. Qed.
Lemma form_add_r : forall n k D v u u' c, Rform n k D v (fun i => u i + c * u' i) = Rform n k D v u + c * Rform n k D v u'.
Proof.
  intros. rewrite !form_double, <- rs_mul, <- rs_add. apply rs_ext. intros i Hi. rewrite <- rs_mul, <- rs_add. apply rs_ext. intros j Hj. rr.
Qed.
Lemma form_add_l : forall n k D v v' u c, Rform n k D (fun i => v i + c * v' i) u = Rform n k D v u + c * Rform n k D v' u.
Proof.
  intros. rewrite !form_double, <- rs_mul, <- rs_add. apply rs_ext. intros i Hi. rewrite <- rs_mul, <- rs_add. apply rs_ext. intros j Hj. rr.
Qed.
Lemma lin_add : forall n l v v' c, Rlin n l (fun i => v i + c * v' i) = Rlin n l v + c * Rlin n l v'.
Proof. intros. unfold linear. cbn. rewrite <- rs_mul, <- rs_add. apply rs_ext. intros. rr. Qed.
Lemma form_linear : forall n k D v u, Rform n k D v u = Rlin n (fun i => Rsum k (fun j => D i j * u j)) v.
Proof. intros. rewrite form_def. unfold linear. cbn. apply rs_ext. intros. rr. Qed.
Lemma form_linear2 : forall n k D v u, Rform n k D v u = Rlin k (fun j => Rsum n (fun i => v i * D i j)) u.
Proof.
  intros. rewrite form_double, rs_swap. unfold linear. cbn. apply rs_ext. intros. rewrite <- rs_mulr. reflexivity.
Qed.

Lemma spd_ext : forall n G G', (forall i j, (i < n)%nat -> (j < n)%nat -> G i j = G' i j) -> spd n G -> spd n G'.
Proof.
  intros n G G' E [H1 H2]. split.
  - intros. rewrite <- !E by auto. auto.
  - intros x Hx. rewrite <- (form_ext2 n n G G' x x x x); auto.
Qed.
Lemma spd_nonneg : forall n G x, spd n G -> 0 <= Rform n n G x x.
Proof.
  intros n G x [_ H]. destruct (Nat.eq_dec (length (filter (fun i => if Req_EM_T (x i) 0 then false else true) (seq 0 n))) 0) as [E|E].
  - assert (Z : forall i, (i < n)%nat -> x i = 0).
    { intros i Hi. destruct (Req_EM_T (x i) 0) as [|N]; auto. exfalso. apply length_zero_iff_nil in E.
      assert (In i []); [|auto]. rewrite <- E. apply filter_In. split; [apply in_seq; lia|]. destruct (Req_EM_T (x i) 0); auto. }
    rewrite form_double. rewrite (rs_ext n _ (fun _ => 0)); [right; symmetry; apply (sumn_zero Rring); auto|].
    intros i Hi. apply (sumn_zero Rring). intros j Hj. rewrite Z by auto. cbn. rr.
  - left. apply H. destruct (filter _ _) as [|i l] eqn:F; [cbn in E; lia|].
    assert (In i (i :: l)) by (cbn; auto). rewrite <- F in H0. apply filter_In in H0 as [H1 H3]. exists i. apply in_seq in H1. split; [lia|].
    destruct (Req_EM_T (x i) 0); [discriminate|auto].
Qed.
Lemma spd_zero : forall n G x, spd n G -> Rform n n G x x = 0 -> forall i, (i < n)%nat -> x i = 0.
Proof.
  intros n G x [_ H] E i Hi. destruct (Req_EM_T (x i) 0); auto. exfalso. assert (0 < Rform n n G x x) by (apply H; eauto). lra.
Qed.

(** Elimination of the first unknown. *)
Section Step.
Variables (n : nat) (G : nat -> nat -> R).
Hypothesis HG : spd (S n) G.
Let d := G 0%nat 0%nat.
Let l (i : nat) := G (S i) 0%nat / d.
Definition schur (i j : nat) : R := G (S i) (S j) - l i * d * l j.
Lemma pivot_pos : 0 < d.
Proof.
  destruct HG as [_ H]. unfold d. rewrite <- (form_unit Rring (S n) (S n) G 0 0) by lia. apply H. exists 0%nat. split; [lia|]. cbn. lra.
Qed.
Lemma column : forall i, G (S i) 0%nat = d * l i.
Proof. intros. unfold l. pose proof pivot_pos. field. lra. Qed.
Lemma row_eq : forall i, (i < n)%nat -> G 0%nat (S i) = d * l i.
Proof. intros. destruct HG as [H1 _]. rewrite H1 by lia. apply column. Qed.
Lemma schur_spd : spd n schur.
Proof.
  split.
  - intros i j Hi Hj. unfold schur. destruct HG as [H1 _]. rewrite (H1 (S i) (S j)) by lia. rr.
  - intros x (i0 & Hi0 & Nz). set (L := Rsum n (fun j => l j * x j)).
    set (y := fun i => match i with O => - L | S i => x i end).
    assert (P : 0 < Rform (S n) (S n) G y y). { apply HG. exists (S i0). split; [lia|]. auto. }
    assert (Q1 : Rform n n schur x x = Rform n n (fun i j => G (S i) (S j)) x x - d * L * L).
    { rewrite !form_def. unfold L. rewrite Rmult_assoc, <- !rs_mulr, <- rs_mul, <- rs_sub. apply rs_ext. intros i Hi.
      transitivity (x i * (Rsum n (fun j => G (S i) (S j) * x j) - Rsum n (fun j => l i * d * (l j * x j)))).
      - f_equal. rewrite <- rs_sub. apply rs_ext. intros j Hj. unfold schur. rr.
      - rewrite rs_mul. rr. }
    assert (Q2 : Rform (S n) (S n) G y y = Rform n n (fun i j => G (S i) (S j)) x x - d * L * L).
    { rewrite form_def, rs_head. cbv beta. rewrite rs_head. unfold y at 1 2. cbv iota.
      rewrite (rs_ext n (fun i => G 0%nat (S i) * y (S i)) (fun i => d * (l i * x i))) by (intros; rewrite row_eq by auto; cbn; rr).
      rewrite rs_mul. fold L. fold d.
      rewrite (rs_ext n _ (fun i => (- L * d) * (l i * x i) + x i * Rsum n (fun j => G (S i) (S j) * x j))).
      - rewrite rs_add, rs_mul. fold L. rewrite form_def. rr.
      - intros i Hi. rewrite rs_head. unfold y at 1 2. cbv iota. rewrite column. unfold y. rr. }
    rewrite Q1, <- Q2. auto.
Qed.
End Step.

Theorem ldlt_correct : forall n G b, spd n G -> forall i, (i < n)%nat -> Rsum n (fun j => G i j * ldlt n G b j) = b i.
Proof.
  induction n as [|n IH]; intros G b HG i Hi; [lia|]. rewrite rs_head. cbn [ldlt].
  set (d := G 0%nat 0%nat). set (l := fun i => G (S i) 0%nat / d). set (y := ldlt n _ _).
  assert (HS : spd n (fun i j => G (S i) (S j) - l i * d * l j)) by exact (schur_spd n G HG).
  pose proof (pivot_pos n G HG) as P. fold d in P.
  assert (EY : forall i, (i < n)%nat -> Rsum n (fun j => (G (S i) (S j) - l i * d * l j) * y j) = b (S i) - l i * b 0%nat).
  { intros i0 Hi0. exact (IH _ (fun i => b (S i) - l i * b 0%nat) HS i0 Hi0). }
  clearbody y. cbv beta iota. change (@car Rring) with R in *. destruct i as [|i].
  - rewrite (rs_ext n (fun j => G 0%nat (S j) * y j) (fun j => d * (l j * y j))).
    + rewrite rs_mul. fold d. set (s := Rsum n _). change ((fun j : nat => l j * y j)) with (fun j : nat => l j * y j) in s. fold s. field. lra.
    + intros j Hj. rewrite (row_eq n G HG j Hj). fold d. unfold l. rr.
  - specialize (EY i ltac:(lia)).
    rewrite (rs_ext n _ (fun j => G (S i) (S j) * y j - l i * d * (l j * y j))) in EY by (intros; rr).
    rewrite rs_sub, rs_mul in EY. rewrite (column n G HG). fold d. change (G (S i) 0%nat / d) with (l i).
    replace (b (S i)) with (Rsum n (fun j => G (S i) (S j) * y j) - l i * d * Rsum n (fun j => l j * y j) + l i * b 0%nat) by (rewrite EY; rr).
    change (fun j : nat => G (S j) 0%nat / d * y j) with (fun j : nat => l j * y j).
    generalize (Rsum n (fun j => l j * y j)) (Rsum n (fun j => G (S i) (S j) * y j)). generalize (l i). clear - P. clearbody d. intros. field. lra.
Qed.
Theorem ldlt_solve_correct : forall n G b, spd n G -> forall i, (i < n)%nat -> Rsum n (fun j => G i j * ldlt_solve n G b j) = b i.
Proof.
  intros n G b HG i Hi. unfold ldlt_solve.
  assert (E : forall i j, (i < n)%nat -> (j < n)%nat -> G i j = lower G i j).
  { intros a c Ha Hc. unfold lower. destruct (Nat.le_ge_cases a c).
    - rewrite Nat.max_r, Nat.min_l by lia. apply HG; auto.
    - rewrite Nat.max_l, Nat.min_r by lia. auto. }
  rewrite (rs_ext n _ (fun j => lower G i j * ldlt n (lower G) b j)) by (intros; rewrite E; auto).
  apply ldlt_correct; auto. eapply spd_ext; eauto.
Qed.
Lemma riesz : forall n G b v, spd n G -> Rform n n G v (ldlt_solve n G b) = Rlin n b v.
Proof.
  intros. rewrite form_linear. apply (linear_ext Rring). intros i Hi. apply ldlt_solve_correct; auto.
Qed.

(** * Cauchy-Schwarz *)
Lemma cauchy : forall n G v x, spd n G -> Rform n n G v x <= norm_of n G x * norm_of n G v.
Proof.
  intros n G v x HG. unfold norm_of. pose proof (spd_nonneg n G v HG) as Pv. pose proof (spd_nonneg n G x HG) as Px.
  destruct (Req_dec (Rform n n G x x) 0) as [Z|Nz].
  - rewrite Z, sqrt_0, Rmult_0_l. rewrite form_double. right. rewrite (rs_ext n _ (fun _ => 0)); [apply (sumn_zero Rring); auto|].
    intros i Hi. apply (sumn_zero Rring). intros j Hj. rewrite (spd_zero n G x HG Z j Hj). cbn. rr.
  - set (c := Rform n n G x x) in *. set (b := Rform n n G v x). set (a := Rform n n G v v) in *.
    assert (Hc : 0 < c) by lra.
    pose proof (spd_nonneg n G (fun i => v i + - (b / c) * x i) HG) as P.
    rewrite form_add_l, !form_add_r in P. rewrite (form_sym n G x v) in P by apply HG. fold a b c in P.
    assert (P2 : b * b <= c * a).
    { apply (Rmult_le_compat_l c) in P; [|lra]. rewrite Rmult_0_r in P.
      replace (c * (a + - (b / c) * b + - (b / c) * (b + - (b / c) * c))) with (c * a - b * b) in P by (field; lra). lra. }
    rewrite <- sqrt_mult by lra. apply Rle_trans with (Rabs b); [apply Rle_abs|]. rewrite <- sqrt_Rsqr_abs. apply sqrt_le_1_alt. exact P2.
Qed.
Theorem residual_norm : forall n G r, spd n G ->
  dual_norm n G r (sqrt (Rlin n r (ldlt_solve n G r))) /\ Rlin n r (ldlt_solve n G r) = Rform n n G (ldlt_solve n G r) (ldlt_solve n G r).
Proof.
  intros n G r HG. pose proof (fun v => riesz n G r v HG) as Z. split; [|symmetry; apply Z].
  rewrite <- Z. set (x := ldlt_solve n G r) in *. change (sqrt (Rform n n G x x)) with (norm_of n G x). repeat split.
  - apply sqrt_pos.
  - intros v. rewrite <- Z. apply cauchy. auto.
  - intros e' He H. specialize (H x). rewrite <- Z in H.
    pose proof (spd_nonneg n G x HG) as P. rewrite <- (sqrt_sqrt _ P) in H. fold (norm_of n G x) in H.
    destruct (Rle_lt_or_eq_dec 0 (norm_of n G x) (sqrt_pos _)) as [Q|Q].
    + apply Rmult_le_reg_r in H; auto.
    + rewrite <- Q. auto.
Qed.

(** * The element matrix *)
Section Element.
Variables (n k : nat) (G B : nat -> nat -> R) (l : nat -> R).
Hypothesis HG : spd n G.
Definition trial_to_test (w : nat -> R) : nat -> R := ldlt_solve n G (fun i => Rsum k (fun j => B i j * w j)).
Lemma trial_to_test_ok : forall w, optimal_test n k G B w (trial_to_test w).
Proof. intros w v. unfold trial_to_test. rewrite riesz by auto. symmetry. apply form_linear. Qed.
Lemma optimal_unique : forall w t t', optimal_test n k G B w t -> optimal_test n k G B w t' -> forall i, (i < n)%nat -> t i = t' i.
Proof.
  intros w t t' H H' i Hi. assert (E : Rform n n G (fun i => t i + -1 * t' i) (fun i => t i + -1 * t' i) = 0).
  { rewrite form_add_r, H, H'. rr. }
  pose proof (spd_zero n G _ HG E i Hi) as Q. cbv beta in Q. lra.
Qed.
Definition dpg_entry (i j : nat) : R := Rsum n (fun a => B a i * ldlt_solve n G (fun c => B c j) a).
Definition dpg_load (i : nat) : R := Rsum n (fun a => B a i * ldlt_solve n G l a).
(** The columns of G^{-1} B combine to the optimal test function. *)
Lemma columns_optimal : forall u, optimal_test n k G B u (fun a => Rsum k (fun j => ldlt_solve n G (fun c => B c j) a * u j)).
Proof.
  intros u v. rewrite form_def.
  transitivity (Rsum k (fun j => Rform n n G v (ldlt_solve n G (fun c => B c j)) * u j)).
  - transitivity (Rsum n (fun i => Rsum k (fun j => (v i * Rsum n (fun b => G i b * ldlt_solve n G (fun c => B c j) b)) * u j))).
    + apply rs_ext. intros i Hi.
      rewrite (rs_ext k _ (fun j => v i * (Rsum n (fun b => G i b * ldlt_solve n G (fun c => B c j) b) * u j))) by (intros; rr).
      rewrite rs_mul. f_equal. rewrite (rs_ext n _ (fun b => Rsum k (fun j => G i b * ldlt_solve n G (fun c => B c j) b * u j))).
      * rewrite rs_swap. apply rs_ext. intros j Hj. apply rs_mulr.
      * intros b Hb. rewrite <- rs_mul. apply rs_ext. intros; rr.
    + rewrite rs_swap. apply rs_ext. intros j Hj. rewrite rs_mulr, form_def. reflexivity.
  - rewrite (rs_ext k _ (fun j => Rlin n (fun c => B c j) v * u j)) by (intros; rewrite riesz by auto; reflexivity).
    rewrite form_linear2. unfold linear. cbn. apply rs_ext. intros j Hj. f_equal. apply rs_ext. intros; rr.
Qed.
Lemma dpg_form : forall w u t, optimal_test n k G B w t -> Rform k k dpg_entry w u = Rform n k B t u.
Proof.
  intros w u t Ht. set (tu := fun a => Rsum k (fun j => ldlt_solve n G (fun c => B c j) a * u j)).
  assert (E : Rform k k dpg_entry w u = Rform n k B tu w).
  { rewrite form_def.
    transitivity (Rsum k (fun i => w i * Rsum n (fun a => B a i * tu a))).
    - apply rs_ext. intros i Hi. f_equal. unfold dpg_entry, tu.
      rewrite (rs_ext n (fun a => B a i * _) (fun a => Rsum k (fun j => B a i * ldlt_solve n G (fun c => B c j) a * u j))).
      + rewrite rs_swap. apply rs_ext. intros j Hj. symmetry. apply rs_mulr.
      + intros a Ha. rewrite <- rs_mul. apply rs_ext. intros. rr.
    - rewrite form_linear2. unfold linear. cbn. apply rs_ext. intros i Hi. rewrite Rmult_comm. f_equal. apply rs_ext. intros. rr. }
  rewrite E, <- (Ht tu), <- (columns_optimal u t). apply form_sym. apply HG.
Qed.
Lemma dpg_form_gram : forall w u t s, optimal_test n k G B w t -> optimal_test n k G B u s -> Rform k k dpg_entry w u = Rform n n G t s.
Proof. intros w u t s Ht Hs. rewrite (dpg_form w u t Ht). symmetry. apply Hs. Qed.
Lemma dpg_symmetric : forall w u, Rform k k dpg_entry w u = Rform k k dpg_entry u w.
Proof.
  intros w u. rewrite (dpg_form_gram w u _ _ (trial_to_test_ok w) (trial_to_test_ok u)), (dpg_form_gram u w _ _ (trial_to_test_ok u) (trial_to_test_ok w)).
  apply form_sym, HG.
Qed.
Lemma dpg_nonneg : forall w, 0 <= Rform k k dpg_entry w w.
Proof. intros w. rewrite (dpg_form_gram w w _ _ (trial_to_test_ok w) (trial_to_test_ok w)). apply spd_nonneg, HG. Qed.
Lemma dpg_vec : forall w t, optimal_test n k G B w t -> Rlin k dpg_load w = Rlin n l t.
Proof.
  intros w t Ht. rewrite <- (riesz n G l t HG). rewrite (form_sym n G t) by apply HG. rewrite (Ht (ldlt_solve n G l)).
  rewrite form_linear2. unfold linear. cbn. apply rs_ext. intros i Hi. unfold dpg_load. f_equal. apply rs_ext. intros. rr.
Qed.
(** The squared norm of the residual is quadratic in the trial function. *)
Definition residual (u : nat -> R) (i : nat) : R := l i - Rsum k (fun j => B i j * u j).
Definition energy (u : nat -> R) : R := Rlin n (residual u) (ldlt_solve n G (residual u)).
Lemma solve_unique : forall x b, (forall v, Rform n n G v x = Rlin n b v) -> forall i, (i < n)%nat -> x i = ldlt_solve n G b i.
Proof.
  intros x b H i Hi. assert (E : Rform n n G (fun i => x i + -1 * ldlt_solve n G b i) (fun i => x i + -1 * ldlt_solve n G b i) = 0).
  { rewrite form_add_r, H, riesz by auto. rr. }
  pose proof (spd_zero n G _ HG E i Hi) as Q. cbv beta in Q. lra.
Qed.
Lemma energy_expand : forall u w c, energy (fun j => u j + c * w j) =
  energy u - 2 * c * (Rlin k dpg_load w - Rform k k dpg_entry w u) + c * c * Rform k k dpg_entry w w.
Proof.
  intros u w c. set (x := ldlt_solve n G (residual u)). set (t := trial_to_test w).
  assert (Ht : optimal_test n k G B w t) by apply trial_to_test_ok.
  assert (HX : forall v, Rform n n G v x = Rlin n (residual u) v) by (intros; apply riesz; auto).
  assert (HR : forall i, residual (fun j => u j + c * w j) i = residual u i + - c * Rsum k (fun j => B i j * w j)).
  { intros i. unfold residual. rewrite (rs_ext k _ (fun j => B i j * u j + c * (B i j * w j))) by (intros; rr). rewrite rs_add, rs_mul. rr. }
  assert (HY : forall v, Rform n n G v (fun i => x i + - c * t i) = Rlin n (residual (fun j => u j + c * w j)) v).
  { intros v. rewrite form_add_r, HX, (Ht v), form_linear. unfold linear. cbn. rewrite <- rs_mul, <- rs_add. apply rs_ext. intros i Hi. rewrite HR. rr. }
  assert (EN : energy (fun j => u j + c * w j) = Rform n n G (fun i => x i + - c * t i) (fun i => x i + - c * t i)).
  { unfold energy. rewrite HY. apply rs_ext. intros i Hi. cbn. f_equal. symmetry. exact (solve_unique (fun i => x i + - c * t i) _ HY i Hi). }
  assert (E0 : energy u = Rform n n G x x) by (unfold energy; fold x; symmetry; apply HX).
  rewrite EN, E0, form_add_l, !form_add_r. rewrite (form_sym n G x t) by apply HG. rewrite (HX t).
  rewrite (dpg_form w w t Ht), (dpg_form w u t Ht), (dpg_vec w t Ht), (Ht t).
  assert (ER : Rlin n (residual u) t = Rlin n l t - Rform n k B t u).
  { rewrite form_linear. unfold linear. cbn. rewrite <- rs_sub. apply rs_ext. intros i Hi. unfold residual. rr. }
  rewrite ER. rr.
Qed.
Lemma energy_nonneg : forall u, 0 <= energy u.
Proof. intros u. unfold energy. rewrite (proj2 (residual_norm n G _ HG)). apply spd_nonneg, HG. Qed.
End Element.
