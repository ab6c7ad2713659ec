(** Duality of the one-dimensional functionals: segments and edges. *)
From Coq Require Import Reals List Arith Lia Lra Bool.
From Coquelicot Require Import Coquelicot.
Import ListNotations.
From Verif Require Import Base MeshModel MeshView DofModel RefPatModel GeoModel GeoSpec
  FeModel LagrModel QuadModel HierModel FeSpec QuadSpec Calc LagrProofs2 FeProofs LegendreProofs JacobiProofs OrthoProofs
  HierProofs HierProofs2 PolyProofs.
Local Open Scope R_scope.

(** *** Unit vectors *)
Lemma dot_unit : forall A (eqb : A -> A -> bool), (forall a b, eqb a b = true <-> a = b) ->
  forall (l : list A) w, NoDup l -> length w = length l ->
  map (fun a => dot w (map (fun b => if eqb a b then 1 else 0) l)) l = w.
Proof.
  intros A eqb E l w N. revert w. induction N as [|a l H N IH]; intros w L; destruct w as [|c w]; try discriminate L; [reflexivity|].
  cbn [map]. rewrite dot_cons. assert (Ea : eqb a a = true) by (apply E; reflexivity). rewrite Ea.
  assert (Za : dot w (map (fun b => if eqb a b then 1 else 0) l) = 0).
  { rewrite map_zero; [apply dot_zeros|]. intros b Hb. destruct (eqb a b) eqn:X; [|reflexivity].
    apply E in X. subst b. contradiction. }
  rewrite Za. f_equal; [ring|]. transitivity (map (fun a0 => dot w (map (fun b => if eqb a0 b then 1 else 0) l)) l).
  - apply map_ext_in. intros b Hb. rewrite dot_cons. replace (eqb b a) with false; [ring|].
    destruct (eqb b a) eqn:X; [|reflexivity]. apply E in X. subst b. contradiction.
  - apply IH. cbn in L. lia.
Qed.
Lemma combine_maps : forall A B C (f : A -> B) (g : A -> C) l, combine (map f l) (map g l) = map (fun a => (f a, g a)) l.
Proof. induction l; cbn; congruence. Qed.

(** *** The functional *)
Definition lam (q : quadrule) (i : nat) (g : R -> R) : R :=
  seg_dual q (g 0) (g 1) (map (at1 g) (qr_points q)) i.
Lemma lam_eq : forall q i g, lam q i g =
  (ilegendre_dx i 1 1 * g 1 - ilegendre_dx i 0 1 * g 0
   - quadrature q (at1 (fun x => legendre_dx (i - 1) x 1 * g x))) * (2 * INR i - 1).
Proof.
  intros q i g. unfold lam, seg_dual. cbv zeta. rewrite combine_maps, map_map. reflexivity.
Qed.
Lemma lam_ext : forall q i g h, (forall x, g x = h x) -> lam q i g = lam q i h.
Proof.
  intros q i g h E. rewrite !lam_eq, !E. do 2 f_equal. apply quadrature_ext. intros p _. unfold at1. rewrite E. reflexivity.
Qed.
Lemma lam_plus : forall q i g h, lam q i (fun x => g x + h x) = lam q i g + lam q i h.
Proof.
  intros q i g h. rewrite !lam_eq.
  rewrite (quadrature_ext q _ (fun p => at1 (fun x => legendre_dx (i - 1) x 1 * g x) p + at1 (fun x => legendre_dx (i - 1) x 1 * h x) p))
    by (intros; unfold at1; ring). rewrite quadrature_plus. ring.
Qed.
Lemma lam_scal : forall q i c g, lam q i (fun x => c * g x) = c * lam q i g.
Proof.
  intros q i c g. rewrite !lam_eq.
  rewrite (quadrature_ext q _ (fun p => c * at1 (fun x => legendre_dx (i - 1) x 1 * g x) p))
    by (intros; unfold at1; ring). rewrite quadrature_scal. ring.
Qed.
Lemma lam_zero : forall q i, lam q i (fun _ => 0) = 0.
Proof. intros. rewrite (lam_ext q i _ (fun _ => 0 * 0)) by (intros; ring). rewrite lam_scal. ring. Qed.
Lemma lam_dot : forall A q i (l : list A) (X : A -> R -> R) u,
  lam q i (fun x => dot u (map (fun a => X a x) l)) = dot u (map (fun a => lam q i (X a)) l).
Proof.
  intros A q i l X. induction l as [|a l IH]; intros u; cbn [map].
  - rewrite dot_nil. apply lam_zero.
  - destruct u as [|c u]; [apply lam_zero|]. rewrite dot_cons.
    transitivity (lam q i (fun x => c * X a x + dot u (map (fun a => X a x) l))); [apply lam_ext; intros; reflexivity|].
    rewrite lam_plus, lam_scal, IH. reflexivity.
Qed.

(** *** Duality with the basis *)
Lemma xdeg_zero : xdeg 0 0 0. Proof. split; auto. Qed.
Lemma xdeg_mono : forall n m a b, (n <= m)%nat -> xdeg n a b -> xdeg m a b.
Proof. unfold xdeg. intros. lia. Qed.
Lemma xdeg_add : forall n m a b a' b', xdeg n a b -> xdeg m a' b' -> xdeg (n + m) (a + a') (b + b').
Proof. unfold xdeg. intros. lia. Qed.
Lemma xdeg_id : mono (xdeg 1) (fun x _ => x).
Proof. eapply mono_eq; [|apply (mono_one (xdeg 1) 1 0 1)]; [intros; cbn; ring|split; auto]. Qed.
Lemma xdeg_const : forall n c, mono (xdeg n) (fun _ _ => c).
Proof. intros. apply gr_const; [apply xdeg_zero|apply xdeg_mono]. Qed.
Lemma seg_row_mono : forall m k, (1 <= m)%nat -> mono (xdeg (Nat.max 1 k)) (fun x _ => nth k (seg_rows m x) 0).
Proof.
  intros m k Hm. destruct k as [|[|k]].
  - apply (mono_minus (xdeg 1)); [apply xdeg_const|apply xdeg_id].
  - apply xdeg_id.
  - destruct (Nat.lt_ge_cases k (m - 1)) as [H|H].
    + apply (mono_eq _ (fun x _ => ilegendre (k + 2) x 1)).
      { intros. symmetry. apply (seg_row_S m x k H). }
      replace (Nat.max 1 (S (S k))) with (k + 2)%nat by lia.
      apply (gr_ilegendre xdeg xdeg_zero xdeg_mono xdeg_add (k + 2) (fun x _ => x) (fun _ _ => 1)); [lia|apply xdeg_id|apply xdeg_const].
    + apply (mono_eq _ (fun _ _ => 0)); [|apply xdeg_const]. intros. symmetry. apply nth_overflow. rewrite seg_rows_length. lia.
Qed.
Lemma parts : forall f f' g g' : R -> R, (forall x, qd (fun s _ => f s) x 0 (f' x) 0) -> (forall x, qd (fun s _ => g s) x 0 (g' x) 0) ->
  smooth f' -> smooth g' -> RInt (fun x => f' x * g x) 0 1 = f 1 * g 1 - f 0 * g 0 - RInt (fun x => f x * g' x) 0 1.
Proof.
  intros f f' g g' Hf Hg Sf Sg.
  assert (Sf0 : smooth f) by (intros x; exists (f' x); apply Hf).
  assert (Sg0 : smooth g) by (intros x; exists (g' x); apply Hg).
  assert (E : RInt (fun x => f' x * g x + f x * g' x) 0 1 = f 1 * g 1 - f 0 * g 0).
  { apply (ftc (fun x => f x * g x)); [|smooth_tac]. intros x.
    eapply qd_eq; [eapply qd_mult; [apply Hf|apply Hg]| |]; cbv beta; ring. }
  rewrite RInt_p in E by smooth_tac. lra.
Qed.
Lemma smooth_legendre_dx : forall n, smooth (fun x => legendre_dx n x 1).
Proof.
  intros n. apply (mono_smooth (xdeg (n - 1)) (fun x _ => legendre_dx n x 1) 0).
  apply (gr_legendre_dx xdeg xdeg_zero xdeg_mono xdeg_add n (fun x _ => x) (fun _ _ => 1)); [apply xdeg_id|apply xdeg_const].
Qed.
Lemma legendre_one_qd : forall n x, qd (fun s _ => legendre n s 1) x 0 (legendre_dx n x 1) 0.
Proof.
  intros n x. eapply qd_eq; [apply (qd_comp (legendre n) (fun s _ => s) (fun _ _ => 1)); [apply legendre_qd|apply qd_fst|apply qd_const]| |]; ring.
Qed.
Lemma seg_grad_legendre : forall m k, (k <= m)%nat -> (1 <= m)%nat -> exists c n, (forall x, nth k (seg_grads m x) 0 = c * legendre n x 1) /\
  (k < 2 -> n = 0)%nat /\ ((2 <= k)%nat -> c = 1 /\ n = (k - 1)%nat).
Proof.
  intros m k Hk Hm. destruct k as [|[|k]].
  - exists (-1), 0%nat. split; [|lia]. intros. cbn. ring.
  - exists 1, 0%nat. split; [|lia]. intros. cbn. ring.
  - exists 1, (S k). split; [|split; [lia|split; auto; lia]].
    intros x. unfold seg_grads. cbn [app nth]. rewrite nth_map_seq by lia. unfold ilegendre_dx.
    replace (k + 2 - 1)%nat with (S k) by lia. ring.
Qed.
Lemma lam_basis : forall q m i k, rule_for kSegment (2 * (m - 1)) q -> (2 <= i <= m)%nat -> (k <= m)%nat ->
  lam q i (fun x => nth k (seg_rows m x) 0) = if (i =? k)%nat then 1 else 0.
Proof.
  intros q m i k Rq Hi Hk. set (g := fun x => nth k (seg_rows m x) 0). rewrite lam_eq.
  assert (Ex : quadrature q (at1 (fun x => legendre_dx (i - 1) x 1 * g x)) = RInt (fun x => legendre_dx (i - 1) x 1 * g x) 0 1).
  { apply (exact_one q (2 * (m - 1)) (fun x _ => legendre_dx (i - 1) x 1 * g x) Rq).
    apply (gr_up xdeg xdeg_mono (i - 1 - 1 + Nat.max 1 k)); [lia|].
    apply (gr_mult xdeg xdeg_add (i - 1 - 1) (Nat.max 1 k) (fun x _ => legendre_dx (i - 1) x 1) (fun x _ => g x)).
    - apply (gr_legendre_dx xdeg xdeg_zero xdeg_mono xdeg_add (i - 1) (fun x _ => x) (fun _ _ => 1)); [apply xdeg_id|apply xdeg_const].
    - apply seg_row_mono. lia. }
  rewrite Ex. destruct (seg_grad_legendre m k Hk) as (c & n & Eg & N1 & N2); [lia|].
  rewrite (parts (fun x => legendre (i - 1) x 1) _ g (fun x => c * legendre n x 1)).
  - unfold ilegendre_dx.
    rewrite (RInt_e (fun x => legendre (i - 1) x 1 * (c * legendre n x 1)) (fun x => c * (legendre (i - 1) x 1 * legendre n x 1))) by (intros; ring).
    rewrite RInt_c by (pose proof (smooth_legendre (i - 1)); pose proof (smooth_legendre n); smooth_tac).
    rewrite legendre_orthogonal. rewrite minus_INR by lia. cbn [INR].
    assert (P2 : 2 <= INR i) by (apply (le_INR 2); lia).
    destruct (Nat.eqb_spec (i - 1) n) as [En|En]; destruct (Nat.eqb_spec i k) as [Ek|Ek].
    + assert (c = 1) as -> by (apply N2; lia). field. lra.
    + exfalso. destruct (Nat.lt_ge_cases k 2) as [H|H]; [specialize (N1 H); lia|specialize (N2 H); lia].
    + exfalso. specialize (N2 ltac:(lia)). lia.
    + ring.
  - intros x. apply legendre_one_qd.
  - intros x. eapply qd_eq; [apply seg_row_qd|apply Eg|reflexivity].
  - apply smooth_legendre_dx.
  - pose proof (smooth_legendre n). smooth_tac.
Qed.

(** *** Coefficients of an edge *)
(** The function with values [a], [b] at the ends and coefficients [y]. *)
Definition seg_fun (m : nat) (a b : R) (y : list R) (t : R) : R := dot (a :: b :: y) (seg_rows m t).
Lemma seg_fun_ends : forall m a b y, seg_fun m a b y 0 = a /\ seg_fun m a b y 1 = b.
Proof.
  intros m a b y. unfold seg_fun, seg_rows. cbn [app]. rewrite !dot_cons.
  rewrite (map_zero _ (fun i => ilegendre (i + 2) 0 1)), (map_zero _ (fun i => ilegendre (i + 2) 1 1)), !dot_zeros
    by (intros; first [apply ilegendre_left|apply ilegendre_right]; lia). lra.
Qed.
Lemma seg_rows_nth : forall m x, (1 <= m)%nat -> seg_rows m x = map (fun k => nth k (seg_rows m x) 0) (seq 0 (m + 1)).
Proof.
  intros m x Hm. apply (nth_ext _ _ 0 0).
  - rewrite map_length, seq_length, seg_rows_length. lia.
  - intros n Hn. rewrite seg_rows_length in Hn. rewrite nth_map_seq by lia. reflexivity.
Qed.
Lemma seg_fun_dual : forall q m a b y, (1 <= m)%nat -> rule_for kSegment (2 * (m - 1)) q -> length y = (m - 1)%nat ->
  map (fun i => lam q (i + 2) (seg_fun m a b y)) (seq 0 (m - 1)) = y.
Proof.
  intros q m a b y Hm Rq Ly.
  transitivity (map (fun i => dot y (map (fun k => if (i =? k)%nat then 1 else 0) (seq 0 (m - 1)))) (seq 0 (m - 1))).
  - apply map_ext_in. intros i Hi. apply in_seq in Hi.
    rewrite (lam_ext q _ _ (fun x => dot (a :: b :: y) (map (fun k => nth k (seg_rows m x) 0) (seq 0 (m + 1)))))
      by (intros; unfold seg_fun; rewrite <- seg_rows_nth by exact Hm; reflexivity).
    rewrite (lam_dot _ q (i + 2) (seq 0 (m + 1)) (fun k x => nth k (seg_rows m x) 0)).
    replace (m + 1)%nat with (S (S (m - 1))) by lia. cbn [seq map]. rewrite !dot_cons.
    rewrite !(lam_basis q m (i + 2)) by (auto; lia).
    replace (i + 2 =? 0)%nat with false by (symmetry; apply Nat.eqb_neq; lia).
    replace (i + 2 =? 1)%nat with false by (symmetry; apply Nat.eqb_neq; lia).
    rewrite <- !seq_shift, !map_map. rewrite !Rmult_0_r, !Rplus_0_l. f_equal. apply map_ext_in. intros k Hk. apply in_seq in Hk.
    rewrite (lam_basis q m (i + 2)) by (auto; lia).
    destruct (Nat.eqb_spec (i + 2) (S (S k))), (Nat.eqb_spec i k); auto; lia.
  - apply (dot_unit nat Nat.eqb); [apply Nat.eqb_eq|apply seq_NoDup|]. rewrite seq_length. exact Ly.
Qed.
Lemma seg_n2d_ok : forall q m a b y, (1 <= m)%nat -> rule_for kSegment (2 * (m - 1)) q -> length y = (m - 1)%nat ->
  seg_n2d m q ([seg_fun m a b y 0; seg_fun m a b y 1] ++ map (at1 (seg_fun m a b y)) (qr_points q)) = a :: b :: y.
Proof.
  intros q m a b y Hm Rq Ly. unfold seg_n2d. cbn [app nth skipn]. destruct (seg_fun_ends m a b y) as (E0 & E1).
  f_equal; [exact E0|]. f_equal; [exact E1|]. rewrite <- (seg_fun_dual q m a b y Hm Rq Ly) at 4.
  rewrite <- !seq_shift, !map_map. apply map_ext. intros i. unfold lam. replace (i + 2)%nat with (S (S i)) by lia. reflexivity.
Qed.

(** *** Dual elements *)
Definition value (f : srfe) (u x : list R) : res R := do b <- fe_eval f x; Ok (dot u b).
Lemma traverse_map : forall A B (f : A -> res B) (g : A -> B) l, (forall a, In a l -> f a = Ok (g a)) -> traverse f l = Ok (map g l).
Proof.
  induction l as [|a l IH]; intros H; [reflexivity|]. cbn [traverse map]. rewrite (H a (or_introl eq_refl)). cbn [bind].
  rewrite IH by (intros; apply H; right; auto). reflexivity.
Qed.
Lemma segment_dual : forall p q, (1 <= p)%nat -> rule_for kSegment (2 * (p - 1)) q ->
  forall u, length u = fe_total (hier_segment p q) ->
  exists vs, traverse (value (hier_segment p q) u) (fe_nodes (hier_segment p q)) = Ok vs /\ fe_n2d (hier_segment p q) vs = Ok u.
Proof.
  intros p q Hp Rq u Lu. cbn [hier_segment fe_total] in Lu.
  exists (map (at1 (fun t => dot u (seg_rows p t))) (fe_nodes (hier_segment p q))). split.
  - apply traverse_map. intros x Hx. unfold value.
    assert (L : length x = 1%nat).
    { cbn [hier_segment fe_nodes] in Hx. apply in_app_or in Hx. destruct Hx as [Hx|Hx].
      - destruct Hx as [<-|[<-|[]]]; reflexivity.
      - apply (rf_points _ _ _ Rq), Hx. }
    destruct x as [|s [|]]; try discriminate L. reflexivity.
  - cbn [hier_segment fe_n2d fe_nodes]. unfold sized, NumPoints. rewrite map_length, app_length. cbn [length].
    rewrite Nat.add_comm, Nat.eqb_refl. cbn [lf_assert bind]. f_equal.
    destruct u as [|a [|b y]]; cbn [length] in Lu; try lia.
    rewrite map_app. apply (seg_n2d_ok q p a b y); auto. lia.
Qed.
