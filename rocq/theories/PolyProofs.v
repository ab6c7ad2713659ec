(** Polynomials in two variables and exactness of quadrature rules. *)
From Coq Require Import Reals List Arith Lia Lra Bool FinFun.
From Coquelicot Require Import Coquelicot.
Import ListNotations.
From Verif Require Import Base MeshModel MeshView DofModel RefPatModel GeoModel GeoSpec
  FeModel QuadModel HierModel FeSpec QuadSpec Calc LagrProofs2 FeProofs LegendreProofs JacobiProofs OrthoProofs.
Local Open Scope R_scope.

Ltac to_R := match goal with |- @eq _ ?a ?b => change (@eq R a b) end.
(** *** Sums of monomials with exponents in [P] *)
Inductive mono (P : nat -> nat -> Prop) : (R -> R -> R) -> Prop :=
| mono_zero : mono P (fun _ _ => 0)
| mono_term : forall a b c f, P a b -> mono P f -> mono P (fun x y => f x y + c * (x ^ a * y ^ b))
| mono_eq : forall f g, (forall x y, f x y = g x y) -> mono P f -> mono P g.

Lemma mono_weaken : forall (P Q : nat -> nat -> Prop) f, (forall a b, P a b -> Q a b) -> mono P f -> mono Q f.
Proof.
  intros P Q f H M. induction M as [|a b c f Pab M IH|f g E M IH].
  - apply mono_zero.
  - apply mono_term; auto.
  - eapply mono_eq; eauto.
Qed.
Lemma mono_one : forall (P : nat -> nat -> Prop) a b c, P a b -> mono P (fun x y => c * (x ^ a * y ^ b)).
Proof.
  intros P a b c H. eapply mono_eq; [|apply (mono_term P a b c _ H (mono_zero P))]. intros. cbv beta. ring.
Qed.
Lemma mono_plus : forall P f g, mono P f -> mono P g -> mono P (fun x y => f x y + g x y).
Proof.
  intros P f g F G. induction G as [|a b c g Pab G IH|g h E G IH].
  - eapply mono_eq; [|exact F]. intros. cbv beta. ring.
  - eapply mono_eq; [|apply (mono_term P a b c _ Pab IH)]. intros. cbv beta. ring.
  - eapply mono_eq; [|exact IH]. intros. cbv beta. rewrite E. reflexivity.
Qed.
Lemma mono_scale : forall P f k, mono P f -> mono P (fun x y => k * f x y).
Proof.
  intros P f k F. induction F as [|a b c f Pab F IH|f g E F IH].
  - eapply mono_eq; [|apply mono_zero]. intros. cbv beta. ring.
  - eapply mono_eq; [|apply (mono_term P a b (k * c) _ Pab IH)]. intros. cbv beta. ring.
  - eapply mono_eq; [|exact IH]. intros. cbv beta. rewrite E. reflexivity.
Qed.
Lemma mono_minus : forall P f g, mono P f -> mono P g -> mono P (fun x y => f x y - g x y).
Proof.
  intros P f g F G. eapply mono_eq; [|apply (mono_plus P f _ F (mono_scale P g (-1) G))]. intros. cbv beta. ring.
Qed.
Lemma mono_mult : forall (P Q T : nat -> nat -> Prop) f g,
  (forall a b a' b', P a b -> Q a' b' -> T (a + a') (b + b'))%nat ->
  mono P f -> mono Q g -> mono T (fun x y => f x y * g x y).
Proof.
  intros P Q T f g H F G. induction F as [|a b c f Pab F IH|f h E F IH].
  - eapply mono_eq; [|apply mono_zero]. intros. cbv beta. ring.
  - assert (M : mono T (fun x y => c * (x ^ a * y ^ b) * g x y)).
    { clear IH F. induction G as [|a' b' c' g Qab G IH|g h E G IH].
      - eapply mono_eq; [|apply mono_zero]. intros. cbv beta. ring.
      - eapply mono_eq; [|apply (mono_term T (a + a') (b + b') (c * c') _ (H _ _ _ _ Pab Qab) IH)].
        intros. cbv beta. rewrite !pow_add. ring.
      - eapply mono_eq; [|exact IH]. intros. cbv beta. rewrite E. reflexivity. }
    eapply mono_eq; [|apply (mono_plus T _ _ IH M)]. intros. cbv beta. ring.
  - eapply mono_eq; [|exact IH]. intros. cbv beta. rewrite E. reflexivity.
Qed.

(** *** Graded families: total degree, or degree in the first variable only *)
Section Graded.
Variable D : nat -> nat -> nat -> Prop.
Hypothesis D_zero : D 0 0 0.
Hypothesis D_mono : forall n m a b, (n <= m)%nat -> D n a b -> D m a b.
Hypothesis D_add : forall n m a b a' b', D n a b -> D m a' b' -> D (n + m) (a + a') (b + b').
Lemma gr_up : forall n m f, (n <= m)%nat -> mono (D n) f -> mono (D m) f.
Proof. intros n m f H. apply mono_weaken. intros a b. apply D_mono, H. Qed.
Lemma gr_const : forall n c, mono (D n) (fun _ _ => c).
Proof.
  intros n c. apply (gr_up 0); [lia|]. eapply mono_eq; [|apply (mono_one (D 0) 0 0 c D_zero)]. intros. cbv beta. cbn. ring.
Qed.
Lemma gr_mult : forall n m f g, mono (D n) f -> mono (D m) g -> mono (D (n + m)) (fun x y => f x y * g x y).
Proof. intros n m f g. apply mono_mult. intros. apply D_add; auto. Qed.
Lemma gr_pow : forall u k, mono (D 1) u -> mono (D k) (fun x y => u x y ^ k).
Proof.
  intros u k Hu. induction k as [|k IH]; [apply (gr_const 0 1)|]. apply (gr_mult 1 k _ _ Hu IH).
Qed.
Lemma gr_pe : forall a n u, mono (D 1) u -> mono (D n) (fun x y => pe a (S n) (u x y)).
Proof.
  intros a n u Hu. induction n as [|n IH].
  - eapply mono_eq; [|apply (gr_const 0 (a 0%nat))]. intros. cbn. ring.
  - change (mono (D (S n)) (fun x y => pe a (S n) (u x y) + a (S n) * u x y ^ S n)).
    apply mono_plus; [apply (gr_up n); auto|]. apply mono_scale, gr_pow, Hu.
Qed.
Lemma gr_legendre : forall n u v, mono (D 1) u -> mono (D 1) v -> mono (D n) (fun x y => legendre n (u x y) (v x y)).
Proof.
  intros n u v Hu Hv.
  enough (H : mono (D n) (fun x y => legendre n (u x y) (v x y)) /\
              mono (D (S n)) (fun x y => legendre (S n) (u x y) (v x y))) by apply H.
  assert (M1 : mono (D 1) (fun x y => 2 * u x y - v x y)) by (apply mono_minus; [apply mono_scale|]; auto).
  induction n as [|n [H0 H1]].
  - split; [apply (gr_const 0 1)|]. exact M1.
  - split; [exact H1|]. eapply mono_eq; [intros; symmetry; apply legendre_rec|].
    apply mono_minus.
    + apply (mono_eq _ (fun x y => (2 * INR n + 3) / (INR n + 2) * ((2 * u x y - v x y) * legendre (S n) (u x y) (v x y))));
        [intros; ring|]. apply mono_scale. apply (gr_mult 1 (S n)); auto.
    + apply (mono_eq _ (fun x y => (INR n + 1) / (INR n + 2) * (v x y ^ 2 * legendre n (u x y) (v x y)))); [intros; ring|].
      apply mono_scale. apply (gr_mult 2 n); auto. apply gr_pow, Hv.
Qed.
Lemma gr_legendre_dx : forall n u v, mono (D 1) u -> mono (D 1) v -> mono (D (n - 1)) (fun x y => legendre_dx n (u x y) (v x y)).
Proof.
  intros n u v Hu Hv. induction n as [|n IH]; [apply (gr_const 0 0)|].
  replace (S n - 1)%nat with n by lia. eapply mono_eq; [intros; symmetry; apply legendre_dx_S|].
  apply mono_plus.
  - apply (mono_scale (D n) (fun x y => legendre n (u x y) (v x y))). apply gr_legendre; auto.
  - destruct n as [|n].
    + eapply mono_eq; [|apply (gr_const 0 0)]. intros. cbn. ring.
    + cbn [Nat.sub] in IH. rewrite Nat.sub_0_r in IH.
      apply (gr_mult 1 n (fun x y => 2 * u x y - v x y) (fun x y => legendre_dx (S n) (u x y) (v x y))); auto.
      apply mono_minus; [apply mono_scale|]; auto.
Qed.
Lemma gr_ilegendre : forall n u v, (2 <= n)%nat -> mono (D 1) u -> mono (D 1) v ->
  mono (D n) (fun x y => ilegendre n (u x y) (v x y)).
Proof.
  intros [|[|n]] u v Hn Hu Hv; try lia. unfold ilegendre. cbn [Nat.eqb Nat.sub]. rewrite Nat.sub_0_r.
  apply (mono_eq _ (fun x y => / (2 * (2 * INR (S (S n)) - 1)) *
    (legendre (S (S n)) (u x y) (v x y) - v x y ^ 2 * legendre n (u x y) (v x y)))).
  { intros. unfold Rdiv. ring. }
  apply mono_scale, mono_minus; [apply gr_legendre; auto|]. apply (gr_mult 2 n); [apply gr_pow|apply gr_legendre]; auto.
Qed.
Lemma gr_jacobi_ab : forall n al be u, 0 <= al -> 0 <= be -> mono (D 1) u -> mono (D n) (fun x y => jacobi_ab n al be (u x y)).
Proof.
  intros n al be u Ha Hb Hu. apply (mono_eq _ (fun x y => sgn be n * pe (coef al be (INR n)) (S n) (u x y))).
  { intros. symmetry. apply (jacobi_closed al be (u x y) Ha Hb n (S n)). lia. }
  apply (mono_scale (D n) (fun x y => pe (coef al be (INR n)) (S n) (u x y))). apply gr_pe, Hu.
Qed.
Lemma gr_jacobi_dx : forall n al u, 0 <= al -> mono (D 1) u -> mono (D (n - 1)) (fun x y => jacobi_dx n al (u x y)).
Proof.
  intros n al u Ha Hu. unfold jacobi_dx. destruct (Nat.eqb_spec n 0) as [->|H]; [apply (gr_const 0 0)|].
  apply (mono_eq _ (fun x y => (al + INR n + 1) * jacobi_ab (n - 1) (al + 1) 1 (u x y))); [intros; ring|].
  apply (mono_scale (D (n - 1)) (fun x y => jacobi_ab (n - 1) (al + 1) 1 (u x y))). apply gr_jacobi_ab; auto; lra.
Qed.
Lemma gr_ijacobi : forall n al u, 0 <= al -> (1 <= n)%nat -> mono (D 1) u -> mono (D n) (fun x y => ijacobi n al (u x y)).
Proof.
  intros n al u Ha Hn Hu. destruct n as [|[|n]]; [lia|exact Hu|].
  apply (mono_eq _ (fun x y => pe (icoef n al) (S (S (S n))) (u x y))).
  { intros. symmetry. apply ijacobi_closed; auto. }
  apply gr_pe, Hu.
Qed.
End Graded.

(** *** Exactness on monomials *)
Lemma rsum_indicator : forall (es : list (list nat)) e0 x, NoDup es -> In e0 es ->
  poly es (fun e => if list_eq_dec Nat.eq_dec e e0 then 1 else 0) x = monomial e0 x.
Proof.
  assert (Z : forall es e0 x, ~ In e0 es -> poly es (fun e => if list_eq_dec Nat.eq_dec e e0 then 1 else 0) x = 0).
  { induction es as [|e es IH]; intros e0 x H; [reflexivity|]. unfold poly in *. cbn [map rsum fold_right].
    fold (rsum (map (fun e : list nat => (if list_eq_dec Nat.eq_dec e e0 then 1 else 0) * monomial e x) es)).
    rewrite IH by (intros N; apply H; right; exact N).
    destruct (list_eq_dec Nat.eq_dec e e0) as [->|_]; [exfalso; apply H; left; reflexivity|ring]. }
  intros es e0 x N I. induction N as [|e es H N IH]; [destruct I|]. unfold poly in *. cbn [map rsum fold_right].
  fold (rsum (map (fun e : list nat => (if list_eq_dec Nat.eq_dec e e0 then 1 else 0) * monomial e x) es)).
  destruct I as [->|I].
  - specialize (Z es e0 x H). unfold poly in Z. rewrite Z. destruct (list_eq_dec Nat.eq_dec e0 e0); [ring|congruence].
  - rewrite (IH I). destruct (list_eq_dec Nat.eq_dec e e0) as [->|_]; [contradiction|ring].
Qed.
Lemma nodup_app : forall A (l l' : list A), NoDup l -> NoDup l' -> (forall a, In a l -> ~ In a l') -> NoDup (l ++ l').
Proof.
  intros A l l' N N' H. induction N as [|a l Ha N IH]; [exact N'|]. cbn. constructor.
  - rewrite in_app_iff. intros [X|X]; [contradiction|]. apply (H a (or_introl eq_refl) X).
  - apply IH. intros b Hb. apply H. right. exact Hb.
Qed.
Lemma nodup_prod : forall A B (l : list A) (l' : list B), NoDup l -> NoDup l' -> NoDup (list_prod l l').
Proof.
  intros A B l l' N N'. induction N as [|a l H N IH]; cbn [list_prod]; [constructor|].
  apply nodup_app; [|exact IH|].
  - apply FinFun.Injective_map_NoDup; [|exact N']. intros u v E. congruence.
  - intros [u v] Hu Hp. apply in_map_iff in Hu. destruct Hu as (w & E & _). injection E as <- <-.
    apply in_prod_iff in Hp. apply H, Hp.
Qed.
Lemma exponents_nodup : forall t k, NoDup (exponents t k).
Proof.
  intros t k. unfold exponents. destruct t.
  - repeat constructor. cbn. tauto.
  - apply FinFun.Injective_map_NoDup; [|apply seq_NoDup]. intros u v E. congruence.
  - apply FinFun.Injective_map_NoDup; [|apply NoDup_filter, nodup_prod; apply seq_NoDup].
    intros [a b] [a' b'] E. cbn in E. congruence.
  - apply FinFun.Injective_map_NoDup; [|apply nodup_prod; apply seq_NoDup].
    intros [a b] [a' b'] E. cbn in E. congruence.
Qed.
Definition tdeg (n a b : nat) : Prop := (a + b <= n)%nat.
Definition xdeg (n a b : nat) : Prop := (a <= n /\ b = 0)%nat.
Definition qdeg (n a b : nat) : Prop := (a <= n /\ b <= n)%nat.
Lemma in_exponents : forall k a b,
  (In [a] (exponents kSegment k) <-> (a <= k)%nat) /\ (In [a; b] (exponents kTria k) <-> tdeg k a b) /\
  (In [a; b] (exponents kQuad k) <-> qdeg k a b).
Proof.
  intros k a b. unfold exponents, tdeg, qdeg. split; [|split].
  - rewrite in_map_iff. split.
    + intros (n & E & I). apply in_seq in I. injection E as <-. lia.
    + intros H. exists a. split; [reflexivity|]. apply in_seq. lia.
  - rewrite in_map_iff. split.
    + intros ([u v] & E & I). apply filter_In in I. destruct I as [_ I]. apply Nat.leb_le in I. cbn in *. injection E as <- <-. exact I.
    + intros H. exists (a, b). split; [reflexivity|]. apply filter_In. split; [|apply Nat.leb_le; exact H].
      apply in_prod; apply in_seq; lia.
  - rewrite in_map_iff. split.
    + intros ([u v] & E & I). apply in_prod_iff in I. rewrite !in_seq in I. cbn in E. injection E as <- <-. lia.
    + intros H. exists (a, b). split; [reflexivity|]. apply in_prod; apply in_seq; lia.
Qed.
Lemma integral_ext : forall t f g, (forall x, length x = dimension t -> f x = g x) -> integral t f = integral t g.
Proof.
  intros t f g H. destruct t; cbn [integral].
  - apply H. reflexivity.
  - apply RInt_e. intros. apply H. reflexivity.
  - apply RInt_e. intros. apply RInt_e. intros. apply H. reflexivity.
  - apply RInt_e. intros. apply RInt_e. intros. apply H. reflexivity.
Qed.
Lemma quadrature_ext : forall q f g, (forall x, In x (qr_points q) -> f x = g x) -> quadrature q f = quadrature q g.
Proof. intros q f g H. unfold quadrature. f_equal. apply map_ext_in, H. Qed.
Lemma exact_monomial : forall q k e, exact_to q k -> In e (exponents (qr_el q) k) ->
  quadrature q (monomial e) = integral (qr_el q) (monomial e).
Proof.
  intros q k e H I. specialize (H (fun e' => if list_eq_dec Nat.eq_dec e' e then 1 else 0)).
  rewrite (quadrature_ext q _ (monomial e)), (integral_ext _ _ (monomial e)) in H; auto;
    intros; apply rsum_indicator; auto using exponents_nodup.
Qed.
Lemma dot_cons : forall c w b l, dot (c :: w) (b :: l) = c * b + dot w l. Proof. reflexivity. Qed.
Lemma dot_nil : forall w, dot w [] = 0. Proof. destruct w; reflexivity. Qed.
Lemma dot_plus : forall A (w : list R) (f g : A -> R) l, dot w (map (fun a => f a + g a) l) = dot w (map f l) + dot w (map g l).
Proof.
  intros A w f g l. revert w. induction l as [|a l IH]; intros w; cbn [map]; [rewrite dot_nil; ring|].
  destruct w as [|c w]; [cbn; ring|]. rewrite !dot_cons, IH. ring.
Qed.
Lemma dot_scal : forall A (w : list R) (f : A -> R) c l, dot w (map (fun a => c * f a) l) = c * dot w (map f l).
Proof.
  intros A w f c l. revert w. induction l as [|a l IH]; intros w; cbn [map]; [rewrite dot_nil; ring|].
  destruct w as [|d w]; [cbn; ring|]. rewrite !dot_cons, IH. ring.
Qed.
Lemma quadrature_plus : forall q f g, quadrature q (fun x => f x + g x) = quadrature q f + quadrature q g.
Proof. intros. apply dot_plus. Qed.
Lemma quadrature_scal : forall q c f, quadrature q (fun x => c * f x) = c * quadrature q f.
Proof. intros. apply dot_scal. Qed.
Lemma quadrature_zero : forall q, quadrature q (fun _ => 0) = 0.
Proof. intros. rewrite (quadrature_ext q _ (fun _ => 0 * 0)) by (intros; ring). rewrite quadrature_scal. ring. Qed.

Definition at1 (f : R -> R) (p : list R) : R := f (nth 0 p 0).
Definition at2 (f : R -> R -> R) (p : list R) : R := f (nth 0 p 0) (nth 1 p 0).

(** Integrable polynomials, with smooth inner integral. *)
Lemma mono_smooth : forall P f y, mono P f -> smooth (fun x => f x y).
Proof.
  intros P f y M. induction M as [|a b c f Pab M IH|f g E M IH].
  - apply smooth_const.
  - apply smooth_plus; [exact IH|]. smooth_tac.
  - eapply smooth_ext; [|exact IH]. intros. apply E.
Qed.
Lemma int_pow : forall n b, RInt (fun x => x ^ n) 0 b = b ^ S n / (INR n + 1).
Proof.
  intros n b. pose proof (INR_pos n). rewrite (ftc (fun x => x ^ S n / (INR n + 1))).
  - rewrite pow_i by lia. to_R. field. lra.
  - intros x. apply (qd_ext (fun s _ => / (INR n + 1) * s ^ S n)); [intros; field; lra|].
    eapply qd_eq; [apply qd_scale, pow_qd| |]; [field; lra|ring].
  - apply smooth_pow, smooth_id.
Qed.
Lemma mono_inner : forall P f h, mono P f -> smooth h -> smooth (fun y => RInt (fun x => f x y) 0 (h y)).
Proof.
  intros P f h M H. induction M as [|a b c f Pab M IH|f g E M IH].
  - apply (smooth_ext (fun _ => 0)); [|apply smooth_const]. intros y. symmetry.
    rewrite (RInt_e _ (fun x => 0 * x ^ 0)) by (intros; ring). rewrite RInt_c, int_pow; [ring|]. smooth_tac.
  - apply (smooth_ext (fun y => RInt (fun x => f x y) 0 (h y) + c * y ^ b * (h y ^ S a * / (INR a + 1)))).
    + intros y. rewrite RInt_p; [|eapply mono_smooth, M|smooth_tac]. f_equal.
      rewrite (RInt_e _ (fun x => (c * y ^ b) * x ^ a)) by (intros; ring).
      rewrite RInt_c, int_pow; [reflexivity|]. smooth_tac.
    + smooth_tac.
  - eapply smooth_ext; [|exact IH]. intros y. apply RInt_e. intros. apply E.
Qed.
Lemma integral2_plus : forall P f g h, mono P f -> mono P g -> smooth h ->
  RInt (fun y => RInt (fun x => f x y + g x y) 0 (h y)) 0 1 =
  RInt (fun y => RInt (fun x => f x y) 0 (h y)) 0 1 + RInt (fun y => RInt (fun x => g x y) 0 (h y)) 0 1.
Proof.
  intros P f g h F G H.
  rewrite (RInt_e _ (fun y => RInt (fun x => f x y) 0 (h y) + RInt (fun x => g x y) 0 (h y))).
  - apply RInt_p; eapply mono_inner; eauto.
  - intros y. apply RInt_p; eapply mono_smooth; eauto.
Qed.
Lemma integral2_scal : forall P f c h, mono P f -> smooth h ->
  RInt (fun y => RInt (fun x => c * f x y) 0 (h y)) 0 1 = c * RInt (fun y => RInt (fun x => f x y) 0 (h y)) 0 1.
Proof.
  intros P f c h F H. rewrite (RInt_e _ (fun y => c * RInt (fun x => f x y) 0 (h y))).
  - apply RInt_c. eapply mono_inner; eauto.
  - intros y. apply RInt_c; eapply mono_smooth; eauto.
Qed.
Definition outer (t : refel) (y : R) : R := match t with kTria => 1 - y | _ => 1 end.
Lemma smooth_outer : forall t, smooth (outer t).
Proof. intros t. unfold outer. destruct t; smooth_tac. Qed.
Lemma integral_two : forall t f, t = kTria \/ t = kQuad ->
  integral t (at2 f) = RInt (fun y => RInt (fun x => f x y) 0 (outer t y)) 0 1.
Proof. intros t f [-> | ->]; reflexivity. Qed.
Lemma exact_two : forall q t k f, t = kTria \/ t = kQuad -> rule_for t k q ->
  mono (match t with kTria => tdeg k | _ => qdeg k end) f -> quadrature q (at2 f) = integral t (at2 f).
Proof.
  intros q t k f Ht Rq M. set (P := match t with kTria => tdeg k | _ => qdeg k end) in *.
  induction M as [|a b c f Pab M IH|f g E M IH].
  - unfold at2. rewrite quadrature_zero. change (fun _ : list R => 0) with (at2 (fun _ _ => 0)).
    rewrite integral_two by exact Ht. symmetry. rewrite (RInt_e _ (fun _ => 0 * 0)).
    + rewrite (RInt_c (fun _ => 0)); [ring|apply smooth_const].
    + intros y. rewrite (RInt_e _ (fun _ => 0 * 0)) by (intros; ring). rewrite (RInt_c (fun _ => 0)); [ring|apply smooth_const].
  - change (at2 (fun x y => f x y + c * (x ^ a * y ^ b))) with (fun p => at2 f p + c * at2 (fun x y => x ^ a * y ^ b) p).
    rewrite quadrature_plus, quadrature_scal, IH.
    change (fun p => at2 f p + c * at2 (fun x y => x ^ a * y ^ b) p) with (at2 (fun x y => f x y + c * (x ^ a * y ^ b))).
    rewrite !(integral_two t) by exact Ht.
    assert (M1 : mono P (fun x y => x ^ a * y ^ b)).
    { eapply mono_eq; [|apply (mono_one P a b 1 Pab)]. intros. cbv beta. ring. }
    rewrite (integral2_plus P f (fun x y => c * (x ^ a * y ^ b))); [|exact M|apply mono_scale, M1|apply smooth_outer].
    f_equal. rewrite (integral2_scal P (fun x y => x ^ a * y ^ b)) by (try exact M1; apply smooth_outer). f_equal.
    rewrite <- (integral_two t (fun x y => x ^ a * y ^ b)) by exact Ht.
    assert (I : In [a; b] (exponents (qr_el q) k)).
    { rewrite (rf_el _ _ _ Rq). unfold P in Pab. destruct (in_exponents k a b) as (_ & I1 & I2).
      destruct Ht as [-> | ->]; [apply I1|apply I2]; exact Pab. }
    assert (Ed : dimension t = 2%nat) by (destruct Ht as [-> | ->]; reflexivity).
    assert (Em : forall p, length p = dimension t -> at2 (fun x y => x ^ a * y ^ b) p = monomial [a; b] p).
    { intros p Hp. rewrite Ed in Hp. destruct p as [|x [|y [|]]]; try discriminate Hp. unfold at2, monomial. cbn. ring. }
    rewrite (quadrature_ext q _ (monomial [a; b])) by (intros p Hp; apply Em, (rf_points _ _ _ Rq), Hp).
    rewrite (integral_ext t _ (monomial [a; b])) by exact Em.
    rewrite (exact_monomial q k [a; b] (rf_exact _ _ _ Rq) I), (rf_el _ _ _ Rq). reflexivity.
  - rewrite (quadrature_ext q _ (at2 f)), (integral_ext t _ (at2 f)); auto; intros; unfold at2; symmetry; apply E.
Qed.
Lemma exact_one : forall q k (f : R -> R -> R), rule_for kSegment k q -> mono (xdeg k) f ->
  quadrature q (at1 (fun x => f x 0)) = RInt (fun x => f x 0) 0 1.
Proof.
  intros q k f Rq M. induction M as [|a b c f Pab M IH|f g E M IH].
  - unfold at1. rewrite quadrature_zero. rewrite (RInt_e _ (fun _ => 0 * 0)) by (intros; ring).
    rewrite (RInt_c (fun _ => 0)); [ring|apply smooth_const].
  - change (at1 (fun x => f x 0 + c * (x ^ a * 0 ^ b)))
      with (fun p => at1 (fun x => f x 0) p + c * at1 (fun x => x ^ a * 0 ^ b) p).
    rewrite quadrature_plus, quadrature_scal, IH.
    rewrite RInt_p; [|eapply (mono_smooth _ f 0), M|smooth_tac]. f_equal.
    rewrite (RInt_c (fun x => x ^ a * 0 ^ b)) by smooth_tac. f_equal.
    destruct Pab as (Ha & ->). change (RInt (fun x => x ^ a * 0 ^ 0) 0 1) with (integral kSegment (at1 (fun x => x ^ a * 0 ^ 0))).
    assert (Em : forall p, length p = dimension kSegment -> at1 (fun x => x ^ a * 0 ^ 0) p = monomial [a] p).
    { intros p Hp. destruct p as [|x [|]]; try discriminate Hp. reflexivity. }
    rewrite (quadrature_ext q _ (monomial [a])) by (intros p Hp; apply Em, (rf_points _ _ _ Rq), Hp).
    rewrite (integral_ext kSegment _ (monomial [a])) by exact Em.
    rewrite (exact_monomial q k [a] (rf_exact _ _ _ Rq)), (rf_el _ _ _ Rq); [reflexivity|].
    rewrite (rf_el _ _ _ Rq). apply (in_exponents k a 0). exact Ha.
  - rewrite (quadrature_ext q _ (at1 (fun x => f x 0))) by (intros; unfold at1; symmetry; apply E).
    rewrite IH. apply RInt_e. intros. apply E.
Qed.
