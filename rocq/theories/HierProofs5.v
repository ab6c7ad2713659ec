(** Duality of the functionals on triangles: interior functions. *)
From Coq Require Import Reals List Arith Lia Lra Bool.
From Coquelicot Require Import Coquelicot.
Import ListNotations.
From Verif Require Import Base MeshModel MeshView DofModel RefPatModel GeoModel GeoSpec
  FeModel LagrModel QuadModel HierModel FeSpec QuadSpec Calc LagrProofs2 FeProofs LegendreProofs JacobiProofs OrthoProofs
  HierProofs HierProofs2 PolyProofs HierProofs3 HierProofs4.
Local Open Scope R_scope.

Lemma legendre_dx_scale : forall n x t s, legendre_dx (S n) (s * x) (s * t) = s ^ n * legendre_dx (S n) x t.
Proof.
  induction n as [|n IH]; intros x t s.
  - cbn. ring.
  - rewrite !(legendre_dx_S _ _ (S n)), IH, legendre_scale. cbn [pow]. ring.
Qed.
(** *** The functional *)
Definition face_test (o : bool) (i j : nat) (x y : R) : R :=
  let xnorm := x / (1 - y) in
  let xadj := if o then xnorm else 1 - xnorm in
  legendre_dx (i + 1) xadj 1 *
    ((1 - y) ^ (i + 1) * jacobi_dx j (2 * INR i + 4) y - (2 * INR i + 4) * (1 - y) ^ i * ijacobi_dx (j + 1) (2 * INR i + 4) y).
Definition phi (o : bool) (q : quadrule) (ij : nat * nat) (g : R -> R -> R) : R :=
  face_dual o q (map (at2 g) (qr_points q)) ij.
Lemma combine_self : forall A B (g : A -> B) l, combine l (map g l) = map (fun a => (a, g a)) l.
Proof. induction l; cbn; congruence. Qed.
Lemma phi_eq : forall o q ij g, phi o q ij g =
  quadrature q (at2 (fun x y => g x y * face_test o (fst ij) (snd ij) x y))
  * (2 * INR (fst ij) + 3) * (2 * INR (snd ij) + 2 * INR (fst ij) + 5).
Proof.
  intros o q [i j] g. unfold phi, face_dual. cbn [fst snd]. rewrite combine_self, map_map. cbn [fst snd].
  do 2 f_equal. apply quadrature_ext. intros p _. unfold at2, face_test. cbv zeta. ring.
Qed.
Lemma phi_ext : forall o q ij g h, (forall x y, g x y = h x y) -> phi o q ij g = phi o q ij h.
Proof. intros o q ij g h E. rewrite !phi_eq. do 2 f_equal. apply quadrature_ext. intros p _. unfold at2. rewrite E. reflexivity. Qed.
Lemma phi_plus : forall o q ij g h, phi o q ij (fun x y => g x y + h x y) = phi o q ij g + phi o q ij h.
Proof.
  intros. rewrite !phi_eq.
  rewrite (quadrature_ext q _ (fun p => at2 (fun x y => g x y * face_test o (fst ij) (snd ij) x y) p
                                      + at2 (fun x y => h x y * face_test o (fst ij) (snd ij) x y) p)) by (intros; unfold at2; ring).
  rewrite quadrature_plus. ring.
Qed.
Lemma phi_scal : forall o q ij c g, phi o q ij (fun x y => c * g x y) = c * phi o q ij g.
Proof.
  intros. rewrite !phi_eq.
  rewrite (quadrature_ext q _ (fun p => c * at2 (fun x y => g x y * face_test o (fst ij) (snd ij) x y) p)) by (intros; unfold at2; ring).
  rewrite quadrature_scal. ring.
Qed.
Lemma phi_dot : forall A o q ij (l : list A) (X : A -> R -> R -> R) u,
  phi o q ij (fun x y => dot u (map (fun a => X a x y) l)) = dot u (map (fun a => phi o q ij (X a)) l).
Proof.
  intros A o q ij l X. assert (Z : phi o q ij (fun _ _ => 0) = 0).
  { rewrite (phi_ext o q ij _ (fun _ _ => 0 * 0)) by (intros; ring). rewrite (phi_scal o q ij 0 (fun _ _ => 0)). ring. }
  induction l as [|a l IH]; intros u; cbn [map].
  - rewrite dot_nil. exact Z.
  - destruct u as [|c u]; [exact Z|]. rewrite dot_cons.
    transitivity (phi o q ij (fun x y => c * X a x y + dot u (map (fun a => X a x y) l))); [apply phi_ext; intros; reflexivity|].
    rewrite (phi_plus o q ij (fun x y => c * X a x y)), phi_scal, IH. reflexivity.
Qed.

(** *** The integrals *)
Section Integrals.
Variable o : bool.
Definition z (x y : R) : R := if o then x else 1 - x - y.
Definition inner (kl : nat * nat) (x y : R) : R :=
  tria_edge0 o (fst kl) (1 - x - y) x * ijacobi (snd kl + 1) (2 * INR (fst kl) + 4) y.
(** The polynomial that agrees with [face_test] unless y = 1. *)
Definition test (i j : nat) (x y : R) : R :=
  legendre_dx (i + 1) (z x y) (1 - y) * ((1 - y) * jacobi_dx j (2 * INR i + 4) y - (2 * INR i + 4) * jacobi j (2 * INR i + 4) y).
Lemma inner_eq : forall kl x y, inner kl x y =
  ilegendre (fst kl + 2) (z x y) (1 - y) * ijacobi (snd kl + 1) (2 * INR (fst kl) + 4) y.
Proof.
  intros kl x y. unfold inner, tria_edge0, z. f_equal. destruct o; f_equal; ring.
Qed.
Lemma test_eq : forall i j x y, y <> 1 -> face_test o i j x y = test i j x y.
Proof.
  intros i j x y H. unfold face_test, test. cbv zeta. set (s := 1 - y). assert (Hs : s <> 0) by (unfold s; lra).
  replace (legendre_dx (i + 1) (z x y) s) with (s ^ i * legendre_dx (i + 1) (if o then x / s else 1 - x / s) 1).
  - unfold ijacobi_dx. rewrite Nat.add_sub, pow_add. cbn [pow]. ring.
  - replace (i + 1)%nat with (S i) by lia. rewrite <- legendre_dx_scale. unfold z.
    destruct o; f_equal; unfold s in *; field; exact Hs.
Qed.
Lemma tdeg_zero : tdeg 0 0 0. Proof. unfold tdeg. lia. Qed.
Lemma tdeg_mono : forall n m a b, (n <= m)%nat -> tdeg n a b -> tdeg m a b. Proof. unfold tdeg. intros. lia. Qed.
Lemma tdeg_add : forall n m a b a' b', tdeg n a b -> tdeg m a' b' -> tdeg (n + m) (a + a') (b + b').
Proof. unfold tdeg. intros. lia. Qed.
Lemma t_const : forall n c, mono (tdeg n) (fun _ _ => c).
Proof. intros. apply gr_const; [apply tdeg_zero|apply tdeg_mono]. Qed.
Lemma t_x : mono (tdeg 1) (fun x _ => x).
Proof. eapply mono_eq; [|apply (mono_one (tdeg 1) 1 0 1)]; [intros; cbn; ring|unfold tdeg; lia]. Qed.
Lemma t_y : mono (tdeg 1) (fun _ y => y).
Proof. eapply mono_eq; [|apply (mono_one (tdeg 1) 0 1 1)]; [intros; cbn; ring|unfold tdeg; lia]. Qed.
Lemma t_1y : mono (tdeg 1) (fun _ y => 1 - y).
Proof. apply (mono_minus (tdeg 1)); [apply t_const|apply t_y]. Qed.
Lemma t_z : mono (tdeg 1) z.
Proof.
  unfold z. destruct o; [apply t_x|]. apply (mono_minus (tdeg 1) (fun x _ => 1 - x)); [|apply t_y].
  apply (mono_minus (tdeg 1)); [apply t_const|apply t_x].
Qed.
Lemma test_mono : forall i j, mono (tdeg (i + (j + 1))) (test i j).
Proof.
  intros i j. pose proof (INR_pos i) as Pi.
  apply (gr_mult tdeg tdeg_add i (j + 1) (fun x y => legendre_dx (i + 1) (z x y) (1 - y))).
  - replace i with (i + 1 - 1)%nat at 1 by lia.
    apply (gr_legendre_dx tdeg tdeg_zero tdeg_mono tdeg_add (i + 1) z (fun _ y => 1 - y)); [apply t_z|apply t_1y].
  - apply mono_minus.
    + apply (gr_up tdeg tdeg_mono (1 + (j - 1))); [lia|].
      apply (gr_mult tdeg tdeg_add 1 (j - 1) (fun _ y => 1 - y)); [apply t_1y|].
      apply (gr_jacobi_dx tdeg tdeg_zero tdeg_mono tdeg_add j _ (fun _ y => y)); [lra|apply t_y].
    + apply (mono_scale _ (fun _ y => jacobi j (2 * INR i + 4) y)).
      apply (gr_up tdeg tdeg_mono j); [lia|].
      apply (gr_jacobi_ab tdeg tdeg_zero tdeg_mono tdeg_add j _ 0 (fun _ y => y)); [lra|lra|apply t_y].
Qed.
Lemma inner_mono : forall k l, mono (tdeg (k + 2 + (l + 1))) (inner (k, l)).
Proof.
  intros k l. pose proof (INR_pos k) as Pk. eapply mono_eq; [intros; symmetry; apply inner_eq|]. cbn [fst snd].
  apply (gr_mult tdeg tdeg_add (k + 2) (l + 1) (fun x y => ilegendre (k + 2) (z x y) (1 - y))).
  - apply (gr_ilegendre tdeg tdeg_zero tdeg_mono tdeg_add (k + 2) z (fun _ y => 1 - y)); [lia|apply t_z|apply t_1y].
  - apply (gr_ijacobi tdeg tdeg_zero tdeg_mono tdeg_add (l + 1) _ (fun _ y => y)); [lra|lia|apply t_y].
Qed.

(** Substitution *)
Lemma comp_lin : forall (f : R -> R) u v a b, smooth f ->
  RInt (fun y => u * f (u * y + v)) a b = RInt f (u * a + v) (u * b + v).
Proof. intros f u v a b Hf. apply (RInt_comp_lin f u v a b), smooth_int, Hf. Qed.
Lemma substitute : forall (f : R -> R) s, smooth f ->
  RInt f 0 s = RInt (fun t => s * f (if o then s * t else s * (1 - t))) 0 1.
Proof.
  intros f s Hf. destruct o.
  - rewrite (RInt_e (fun t => s * f (s * t)) (fun t => s * f (s * t + 0))) by (intros t; rewrite Rplus_0_r; reflexivity).
    rewrite comp_lin by exact Hf. replace (s * 0 + 0) with 0 by ring. replace (s * 1 + 0) with s by ring. reflexivity.
  - assert (S1 : smooth (fun t => - s * f (- s * t + s))).
    { intros t. destruct (Hf (- s * t + s)) as (a & Ha). exists (- s * (a * - s)).
      eapply qd_eq; [eapply qd_scale, (qd_comp (fun u _ => f u) (fun t _ => - s * t + s) (fun _ _ => 0) t 0); [exact Ha|qd_auto; reflexivity|apply qd_const]| |];
        cbv beta; ring. }
    rewrite (RInt_e (fun t => s * f (s * (1 - t))) (fun t => -1 * (- s * f (- s * t + s)))).
    2: { intros t. to_R. replace (- s * t + s) with (s * (1 - t)) by ring. ring. }
    rewrite RInt_c by exact S1. rewrite comp_lin by exact Hf.
    replace (- s * 0 + s) with s by ring. replace (- s * 1 + s) with 0 by ring.
    pose proof (opp_RInt_swap f 0 s ltac:(apply smooth_int, Hf)) as E. assert (E' : RInt f s 0 = - RInt f 0 s) by (symmetry; exact E).
    rewrite E'. assert (G : forall I : R, I = -1 * - I) by (intros; ring). apply G.
Qed.
Lemma z_sub : forall s y t, s = 1 - y -> z (if o then s * t else s * (1 - t)) y = s * t.
Proof. intros s y t ->. unfold z. destruct o; ring. Qed.

(** Integral in x *)
Lemma smooth_ilegendre : forall n, (1 <= n)%nat -> smooth (fun x => ilegendre n x 1).
Proof. intros n Hn x. exists (ilegendre_dx n x 1). apply ilegendre_one_qd, Hn. Qed.
Lemma int_x1 : forall k i, RInt (fun t => ilegendre (k + 2) t 1 * legendre_dx (i + 1) t 1) 0 1 =
  if (k =? i)%nat then - (1 / (2 * INR i + 3)) else 0.
Proof.
  intros k i. rewrite (RInt_e _ (fun t => legendre_dx (i + 1) t 1 * ilegendre (k + 2) t 1)) by (intros; ring).
  rewrite (parts (fun x => legendre (i + 1) x 1) _ _ (fun x => ilegendre_dx (k + 2) x 1)).
  - rewrite ilegendre_left, ilegendre_right by lia. unfold ilegendre_dx. rewrite legendre_orthogonal.
    replace (k + 2 - 1)%nat with (k + 1)%nat by lia. rewrite plus_INR. cbn [INR]. pose proof (INR_pos i).
    destruct (Nat.eqb_spec (i + 1) (k + 1)), (Nat.eqb_spec k i); try lia; to_R; [field; lra|ring].
  - apply legendre_one_qd.
  - intros x. apply ilegendre_one_qd. lia.
  - apply smooth_legendre_dx.
  - apply smooth_legendre.
Qed.
Lemma int_x : forall k i y,
  RInt (fun x => ilegendre (k + 2) (z x y) (1 - y) * legendre_dx (i + 1) (z x y) (1 - y)) 0 (1 - y) =
  (1 - y) ^ (k + i + 3) * if (k =? i)%nat then - (1 / (2 * INR i + 3)) else 0.
Proof.
  intros k i y. set (s := 1 - y).
  rewrite substitute.
  2: { apply (mono_smooth (tdeg (k + 2 + i)) (fun x y => ilegendre (k + 2) (z x y) (1 - y) * legendre_dx (i + 1) (z x y) (1 - y)) y).
       apply (gr_mult tdeg tdeg_add (k + 2) i (fun x y => ilegendre (k + 2) (z x y) (1 - y))).
       - apply (gr_ilegendre tdeg tdeg_zero tdeg_mono tdeg_add (k + 2) z (fun _ y => 1 - y)); [lia|apply t_z|apply t_1y].
       - replace i with (i + 1 - 1)%nat at 1 by lia.
         apply (gr_legendre_dx tdeg tdeg_zero tdeg_mono tdeg_add (i + 1) z (fun _ y => 1 - y)); [apply t_z|apply t_1y]. }
  transitivity (s ^ (k + i + 3) * RInt (fun t => ilegendre (k + 2) t 1 * legendre_dx (i + 1) t 1) 0 1);
    [|rewrite int_x1; reflexivity].
  rewrite <- RInt_c by (pose proof (smooth_ilegendre (k + 2) ltac:(lia)); pose proof (smooth_legendre_dx (i + 1)); smooth_tac).
  apply RInt_e. intros t. rewrite (z_sub s y t eq_refl).
  replace s with (s * 1) at 3 5 by ring. rewrite ilegendre_scale by lia. replace (i + 1)%nat with (S i) by lia.
  rewrite legendre_dx_scale. replace (k + i + 3)%nat with (1 + (k + 2) + i)%nat by lia. rewrite !pow_add. cbn [pow]. ring.
Qed.
(** Integral in y *)
Lemma int_y : forall i l j, let al := 2 * INR i + 4 in
  RInt (fun y => ijacobi (l + 1) al y * ((1 - y) ^ (2 * i + 3) * ((1 - y) * jacobi_dx j al y - al * jacobi j al y))) 0 1 =
  if (l =? j)%nat then - (1 / (2 * INR j + 2 * INR i + 5)) else 0.
Proof.
  intros i l j al. set (n := (2 * i + 4)%nat). assert (En : al = INR n).
  { unfold al, n. rewrite plus_INR, mult_INR. cbn [INR]. ring. }
  pose proof (INR_pos i) as Pi. pose proof (INR_pos j) as Pj. assert (Pal : 0 <= al) by (unfold al; lra).
  pose proof (smooth_jacobi j al Pal) as S1. pose proof (smooth_jacobi l al Pal) as S2.
  assert (S3 : smooth (jacobi_dx j al)).
  { apply (mono_smooth (xdeg (j - 1)) (fun x _ => jacobi_dx j al x) 0).
    apply (gr_jacobi_dx xdeg xdeg_zero xdeg_mono xdeg_add j al (fun x _ => x)); [exact Pal|apply xdeg_id]. }
  rewrite (RInt_e _ (fun y => ((1 - y) ^ (2 * i + 3) * ((1 - y) * jacobi_dx j al y - al * jacobi j al y)) * ijacobi (l + 1) al y))
    by (intros; ring).
  rewrite (parts (fun y => (1 - y) ^ n * jacobi j al y) _ _ (fun y => jacobi l al y)).
  - rewrite ijacobi_at_0 by (auto; lia). replace (1 - 1) with 0 by ring. rewrite (pow_i n) by (unfold n; lia).
    rewrite (RInt_e _ (fun y => jacobi j (INR n) y * jacobi l (INR n) y * (1 - y) ^ n)) by (intros; rewrite En; ring).
    rewrite jacobi_orthogonal, <- En. replace (2 * INR j + al + 1) with (2 * INR j + 2 * INR i + 5) by (unfold al; ring).
    destruct (Nat.eqb_spec j l), (Nat.eqb_spec l j); try congruence; to_R; ring.
  - intros y. replace n with (S (2 * i + 3)) by (unfold n; lia).
    eapply qd_eq; [eapply qd_mult; [apply (qd_comp (fun s _ => s ^ S (2 * i + 3)) (fun s _ => 1 - s) (fun _ _ => 0) y 0);
      [apply pow_qd|qd_auto; reflexivity|apply qd_const]|apply jacobi_qd, Pal]| |]; cbv beta.
    + replace (INR (2 * i + 3) + 1) with al by (rewrite En; unfold n; rewrite !plus_INR; cbn [INR]; ring).
      cbn [pow]. ring.
    + ring.
  - intros y. eapply qd_eq; [apply (ijacobi_qd (l + 1)); [exact Pal|lia]| |reflexivity].
    unfold ijacobi_dx. rewrite Nat.add_sub. reflexivity.
  - smooth_tac.
  - smooth_tac.
Qed.
End Integrals.

(** *** Duality *)
Lemma in_tria_ij : forall p i j, In (i, j) (tria_ij p) -> (i + j + 3 <= p)%nat.
Proof.
  intros p i j H. unfold tria_ij in H. destruct (Nat.ltb_spec 2 p) as [H2|H2]; [|destruct H].
  apply in_concat in H. destruct H as (l & Hl & H). apply in_map_iff in Hl. destruct Hl as (i' & <- & Hi).
  apply in_map_iff in H. destruct H as (j' & E & Hj). injection E as -> ->. apply in_seq in Hi, Hj. lia.
Qed.
Lemma tria_ij_nodup : forall p, NoDup (tria_ij p).
Proof.
  intros p. unfold tria_ij. destruct (2 <? p)%nat; [|constructor].
  pose proof (seq_NoDup (p - 2) 0) as N. revert N. generalize (seq 0 (p - 2)) as l. intros l N.
  induction N as [|i l H N IH]; cbn [map concat]; [constructor|]. apply nodup_app; [|exact IH|].
  - apply FinFun.Injective_map_NoDup; [|apply seq_NoDup]. intros a b E. congruence.
  - intros [a b] Ha Hb. apply in_map_iff in Ha. destruct Ha as (c & E & _). injection E as <- <-.
    apply in_concat in Hb. destruct Hb as (l' & Hl & Hb). apply in_map_iff in Hl. destruct Hl as (i' & <- & Hi).
    apply in_map_iff in Hb. destruct Hb as (j' & E & _). injection E as -> _. contradiction.
Qed.
Definition pair_eqb (a b : nat * nat) : bool := (fst a =? fst b)%nat && (snd a =? snd b)%nat.
Lemma pair_eqb_eq : forall a b, pair_eqb a b = true <-> a = b.
Proof.
  intros [a a'] [b b']. unfold pair_eqb. cbn [fst snd]. rewrite andb_true_iff, !Nat.eqb_eq. split; [intros [-> ->]; reflexivity|].
  intros E. injection E as -> ->. auto.
Qed.
Lemma phi_basis : forall o p q ij kl, rule_for kTria (2 * (p - 1)) q -> (forall x, In x (qr_points q) -> nth 1 x 0 <> 1) ->
  In ij (tria_ij p) -> In kl (tria_ij p) -> phi o q ij (inner o kl) = if pair_eqb ij kl then 1 else 0.
Proof.
  intros o p q [i j] [k l] Rq Hq Hij Hkl. apply in_tria_ij in Hij, Hkl. rewrite phi_eq. cbn [fst snd].
  rewrite (quadrature_ext q _ (at2 (fun x y => inner o (k, l) x y * test o i j x y))).
  2: { intros x Hx. unfold at2. rewrite test_eq by (apply Hq, Hx). reflexivity. }
  rewrite (exact_two q kTria (2 * (p - 1)) _ (or_introl eq_refl) Rq).
  2: { apply (gr_up tdeg tdeg_mono (k + 2 + (l + 1) + (i + (j + 1)))); [lia|].
       apply (gr_mult tdeg tdeg_add); [apply inner_mono|apply test_mono]. }
  rewrite integral_two by auto. cbn [outer]. set (al := 2 * INR i + 4).
  pose proof (INR_pos i) as Pi. pose proof (INR_pos j) as Pj. pose proof (INR_pos k) as Pk.
  set (A := fun y => ijacobi (l + 1) (2 * INR k + 4) y * ((1 - y) * jacobi_dx j al y - al * jacobi j al y)).
  set (c := if (k =? i)%nat then - (1 / (2 * INR i + 3)) else 0).
  assert (SL : forall y, smooth (fun x => ilegendre (k + 2) (z o x y) (1 - y) * legendre_dx (i + 1) (z o x y) (1 - y))).
  { intros y. apply (mono_smooth (tdeg (k + 2 + i)) (fun x y => ilegendre (k + 2) (z o x y) (1 - y) * legendre_dx (i + 1) (z o x y) (1 - y)) y).
    apply (gr_mult tdeg tdeg_add (k + 2) i (fun x y => ilegendre (k + 2) (z o x y) (1 - y))).
    - apply (gr_ilegendre tdeg tdeg_zero tdeg_mono tdeg_add (k + 2) (z o) (fun _ y => 1 - y)); [lia|apply t_z|apply t_1y].
    - replace i with (i + 1 - 1)%nat at 1 by lia.
      apply (gr_legendre_dx tdeg tdeg_zero tdeg_mono tdeg_add (i + 1) (z o) (fun _ y => 1 - y)); [apply t_z|apply t_1y]. }
  rewrite (RInt_e _ (fun y => A y * ((1 - y) ^ (k + i + 3) * c))).
  2: { intros y. unfold c. rewrite <- (int_x o k i y). rewrite <- RInt_c by apply SL.
       apply RInt_e. intros x. rewrite inner_eq. cbn [fst snd]. unfold test, A. fold al. ring. }
  unfold pair_eqb. cbn [fst snd]. unfold c. rewrite (Nat.eqb_sym i k), (Nat.eqb_sym j l).
  destruct (Nat.eqb_spec k i) as [->|Hk].
  - assert (Pal : 0 <= al) by (unfold al; lra).
    pose proof (smooth_jacobi j al Pal) as S1. pose proof (smooth_ijacobi (l + 1) al Pal ltac:(lia)) as S2.
    assert (S3 : smooth (jacobi_dx j al)).
    { apply (mono_smooth (xdeg (j - 1)) (fun x _ => jacobi_dx j al x) 0).
      apply (gr_jacobi_dx xdeg xdeg_zero xdeg_mono xdeg_add j al (fun x _ => x)); [exact Pal|apply xdeg_id]. }
    rewrite (RInt_e _ (fun y => - (1 / (2 * INR i + 3)) * (ijacobi (l + 1) al y * ((1 - y) ^ (2 * i + 3) * ((1 - y) * jacobi_dx j al y - al * jacobi j al y))))).
    2: { intros y. unfold A. fold al. replace (i + i + 3)%nat with (2 * i + 3)%nat by lia. ring. }
    rewrite RInt_c by smooth_tac. unfold al. rewrite int_y. destruct (Nat.eqb_spec l j) as [->|_]; cbn [andb]; [field; lra|ring].
  - rewrite (RInt_e _ (fun _ => 0 * 0)) by (intros; ring). rewrite (RInt_c (fun _ => 0)) by apply smooth_const. cbn [andb]. ring.
Qed.
