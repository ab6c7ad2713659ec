(** Exactness of element matrices on affine cells. *)
From Coq Require Import Reals List Arith Bool Lia Lra.
From Coquelicot Require Import Coquelicot.
Import ListNotations.
From Verif Require Import Base MeshModel MeshView DofModel RefPatModel GeoModel GeoSpec GeoProofs GeoProofs2 GeoProofs3 GeoProofs4 FeModel QuadModel FeSpec QuadSpec
  HierProofs HierProofs3 PolyProofs QuadProofs TriaSpec TriaProofs2 ElemModel ElemSpec ElemProofs ElemProofs2 ElemProofs3.
Local Open Scope R_scope.

Definition deg (t : refel) (k : nat) : nat -> nat -> Prop := match t with kTria => tdeg k | _ => qdeg k end.
Lemma deg_add : forall t k l a b a' b', deg t k a b -> deg t l a' b' -> deg t (k + l) (a + a') (b + b').
Proof. intros t k l a b a' b'. unfold deg. destruct t; unfold tdeg, qdeg; lia. Qed.
Lemma deg_in : forall t k a b, t = kTria \/ t = kQuad -> In [a; b] (exponents t k) -> deg t k a b.
Proof. intros t k a b [-> | ->] I; apply (in_exponents k a b); exact I. Qed.
Lemma poly_mono : forall t k es c, t = kTria \/ t = kQuad -> (forall e, In e es -> In e (exponents t k)) ->
  mono (deg t k) (fun x y => poly es c [x; y]).
Proof.
  intros t k es c Ht. induction es as [|e es IH]; intros H; [apply mono_zero|].
  pose proof (exponents_len t k e (H e (or_introl eq_refl))) as L.
  assert (Dt : dimension t = 2%nat) by (destruct Ht as [-> | ->]; reflexivity). rewrite Dt in L.
  destruct e as [|a [|b [|]]]; try discriminate L.
  eapply mono_eq; [|apply (mono_term (deg t k) a b (c [a; b]) _ (deg_in t k a b Ht (H _ (or_introl eq_refl))) (IH (fun e He => H e (or_intror He))))].
  intros x y. cbv beta. rewrite poly_cons, mono2. ring.
Qed.
Lemma mono_dx : forall t k f, mono (deg t k) f -> exists f', mono (deg t k) f' /\ forall x y, derivable_pt_lim (fun s => f s y) x (f' x y).
Proof.
  intros t k f M. induction M as [|a b c f Pab M [f' [M' D]]|f g E M [f' [M' D]]].
  - exists (fun _ _ => 0). split; [apply mono_zero|]. intros. apply derivable_pt_lim_const.
  - exists (fun x y => f' x y + (c * INR a) * (x ^ (a - 1) * y ^ b)). split.
    + apply mono_term; [|exact M']. revert Pab. unfold deg. destruct t; unfold tdeg, qdeg; lia.
    + intros x y. apply (derivable_pt_lim_plus (fun s => f s y) (fun s => c * (s ^ a * y ^ b))); [apply D|].
      replace (c * INR a * (x ^ (a - 1) * y ^ b)) with (c * y ^ b * (INR a * x ^ pred a)) by (rewrite Nat.sub_1_r; ring).
      pose proof (derivable_pt_lim_scal (fun s => s ^ a) (c * y ^ b) x _ (derivable_pt_lim_pow x a)) as X.
      intros eps He. destruct (X eps He) as [dl Hd]. exists dl. intros h Nh Sh. specialize (Hd h Nh Sh). unfold mult_real_fct in Hd.
      replace (c * ((x + h) ^ a * y ^ b) - c * (x ^ a * y ^ b)) with (c * y ^ b * (x + h) ^ a - c * y ^ b * x ^ a) by ring. exact Hd.
  - exists f'. split; [exact M'|]. intros x y eps He. destruct (D x y eps He) as [dl Hd]. exists dl. intros h Nh Sh. rewrite <- !E. auto.
Qed.
Lemma mono_dy : forall t k f, mono (deg t k) f -> exists f', mono (deg t k) f' /\ forall x y, derivable_pt_lim (fun s => f x s) y (f' x y).
Proof.
  intros t k f M. induction M as [|a b c f Pab M [f' [M' D]]|f g E M [f' [M' D]]].
  - exists (fun _ _ => 0). split; [apply mono_zero|]. intros. apply derivable_pt_lim_const.
  - exists (fun x y => f' x y + (c * INR b) * (x ^ a * y ^ (b - 1))). split.
    + apply mono_term; [|exact M']. revert Pab. unfold deg. destruct t; unfold tdeg, qdeg; lia.
    + intros x y. apply (derivable_pt_lim_plus (fun s => f x s) (fun s => c * (x ^ a * s ^ b))); [apply D|].
      replace (c * INR b * (x ^ a * y ^ (b - 1))) with (c * x ^ a * (INR b * y ^ pred b)) by (rewrite Nat.sub_1_r; ring).
      pose proof (derivable_pt_lim_scal (fun s => s ^ b) (c * x ^ a) y _ (derivable_pt_lim_pow y b)) as X.
      intros eps He. destruct (X eps He) as [dl Hd]. exists dl. intros h Nh Sh. specialize (Hd h Nh Sh). unfold mult_real_fct in Hd.
      replace (c * (x ^ a * (y + h) ^ b) - c * (x ^ a * y ^ b)) with (c * x ^ a * (y + h) ^ b - c * x ^ a * y ^ b) by ring. exact Hd.
  - exists f'. split; [exact M'|]. intros x y eps He. destruct (D x y eps He) as [dl Hd]. exists dl. intros h Nh Sh. rewrite <- !E. auto.
Qed.

(** *** Shape functions and their gradients *)
Section Element.
Variable (f : srfe) (t : refel) (k : nat).
Hypothesis (Ht : t = kTria \/ t = kQuad) (Ef : fe_el f = t).
Hypothesis (Cn : contained f (exponents t k)).
Lemma two_coords : forall p : list R, length p = 2%nat -> p = [nth 0 p 0; nth 1 p 0].
Proof. intros [|x [|y [|]]] L; try discriminate L. reflexivity. Qed.
Lemma fdim : dimension (fe_el f) = 2%nat. Proof. rewrite Ef. destruct Ht as [-> | ->]; reflexivity. Qed.
Lemma shape_mono : forall i, (i < fe_total f)%nat -> exists F, mono (deg t k) F /\
  forall x y, exists v, fe_eval f [x; y] = Ok v /\ nth i v 0 = F x y.
Proof.
  intros i Hi. destruct (Cn i Hi) as [c H]. exists (fun x y => poly (exponents t k) c [x; y]).
  split; [apply (poly_mono t k); auto|]. intros x y. apply H. rewrite fdim. reflexivity.
Qed.
Hypothesis (Gr : gradients_ok f).
Lemma quotient_lim : forall F x l, (forall eps, 0 < eps -> exists dl, 0 < dl /\ forall h, Rabs h < dl -> Rabs (F (x + h) - F x - l * h) <= eps * Rabs h) ->
  derivable_pt_lim F x l.
Proof.
  intros F x l H eps He. destruct (H (eps / 2) ltac:(lra)) as [dl [Pd Hd]]. exists (mkposreal dl Pd). intros h Nh Sh. cbn in Sh.
  specialize (Hd h Sh). replace ((F (x + h) - F x) / h - l) with ((F (x + h) - F x - l * h) / h) by (field; exact Nh).
  unfold Rdiv. rewrite Rabs_mult, Rabs_inv. pose proof (Rabs_pos_lt h Nh).
  apply (Rmult_lt_reg_r (Rabs h)); [assumption|]. rewrite Rmult_assoc, Rinv_l, Rmult_1_r by lra.
  eapply Rle_lt_trans; [exact Hd|]. apply Rmult_lt_compat_r; lra.
Qed.
Lemma grad_mono : forall i c, (i < fe_total f)%nat -> (c < 2)%nat -> exists F, mono (deg t k) F /\
  forall x y, exists gr, fe_grad f [x; y] = Ok gr /\ nth c (nth i gr []) 0 = F x y.
Proof.
  intros i c Hi Hc. destruct (shape_mono i Hi) as [F [M E]].
  assert (Der : forall x y, exists gr, fe_grad f [x; y] = Ok gr /\
     derivable_pt_lim (fun s => F s y) x (nth 0 (nth i gr []) 0) /\ derivable_pt_lim (fun s => F x s) y (nth 1 (nth i gr []) 0)).
  { intros x y. destruct (Gr [x; y]) as [gr [Eg [_ [_ [p [Ep [_ D]]]]]]]; [rewrite fdim; reflexivity|]. exists gr. split; [exact Eg|].
    rewrite fdim in D. cbn [seq map] in D. specialize (D i Hi).
    assert (V : forall x y v, shape_functions f [x; y] = Ok v -> v i = F x y).
    { intros x' y' v Hv. destruct (E x' y') as [w [Ew Fw]]. unfold shape_functions in Hv. rewrite Ew in Hv. injection Hv as <-. exact Fw. }
    assert (Vx : forall x y, exists v, shape_functions f [x; y] = Ok v).
    { intros x' y'. destruct (E x' y') as [w [Ew _]]. unfold shape_functions. rewrite Ew. eauto. }
    split; apply quotient_lim; intros eps He; destruct (D eps He) as [dl [Pd Hd]]; exists dl; (split; [exact Pd|]); intros h Sh.
    - destruct (Vx (x + h) y) as [v Ev]. specialize (Hd [h; 0] v eq_refl).
      assert (P1 : plus [x; y] [h; 0] = [x + h; y]) by (unfold plus; cbn [combine map fst snd]; rewrite Rplus_0_r; reflexivity).
      rewrite P1 in Hd.
      assert (Sm : forall e, In e [h; 0] -> Rabs e < dl). { intros e [<-|[<-|[]]]; [exact Sh|rewrite Rabs_R0; exact Pd]. }
      specialize (Hd Sm Ev). rewrite (V _ _ _ Ev), (V _ _ _ Ep) in Hd. unfold apply, length1 in Hd. cbn [combine map fold_right fst snd] in Hd.
      rewrite Rabs_R0 in Hd. replace (nth 0 (nth i gr []) 0 * h + (nth 1 (nth i gr []) 0 * 0 + 0)) with (nth 0 (nth i gr []) 0 * h) in Hd by ring.
      replace (Rabs h + (0 + 0)) with (Rabs h) in Hd by ring. exact Hd.
    - destruct (Vx x (y + h)) as [v Ev]. specialize (Hd [0; h] v eq_refl).
      assert (P1 : plus [x; y] [0; h] = [x; y + h]) by (unfold plus; cbn [combine map fst snd]; rewrite Rplus_0_r; reflexivity).
      rewrite P1 in Hd.
      assert (Sm : forall e, In e [0; h] -> Rabs e < dl). { intros e [<-|[<-|[]]]; [rewrite Rabs_R0; exact Pd|exact Sh]. }
      specialize (Hd Sm Ev). rewrite (V _ _ _ Ev), (V _ _ _ Ep) in Hd. unfold apply, length1 in Hd. cbn [combine map fold_right fst snd] in Hd.
      rewrite Rabs_R0 in Hd. replace (nth 0 (nth i gr []) 0 * 0 + (nth 1 (nth i gr []) 0 * h + 0)) with (nth 1 (nth i gr []) 0 * h) in Hd by ring.
      replace (0 + (Rabs h + 0)) with (Rabs h) in Hd by ring. exact Hd. }
  assert (c = 0 \/ c = 1)%nat as [-> | ->] by lia.
  - destruct (mono_dx t k F M) as [F' [M' D']]. exists F'. split; [exact M'|]. intros x y. destruct (Der x y) as [gr [Eg [D0 _]]].
    exists gr. split; [exact Eg|]. exact (uniqueness_limite _ _ _ _ D0 (D' x y)).
  - destruct (mono_dy t k F M) as [F' [M' D']]. exists F'. split; [exact M'|]. intros x y. destruct (Der x y) as [gr [Eg [_ D1]]].
    exists gr. split; [exact Eg|]. exact (uniqueness_limite _ _ _ _ D1 (D' x y)).
Qed.
End Element.

(** *** Exact integration of products *)
Lemma mono_sum : forall P (h : nat -> R -> R -> R) l, (forall i, In i l -> mono P (h i)) -> mono P (fun x y => rsum (map (fun i => h i x y) l)).
Proof.
  intros P h l. induction l as [|a l IH]; intros H; [apply mono_zero|].
  apply (mono_plus P (h a) (fun x y => rsum (map (fun i => h i x y) l))); [apply H; left; reflexivity|]. apply IH. intros; apply H; right; assumption.
Qed.
Definition eqb_exp (e e' : list nat) : bool := if list_eq_dec Nat.eq_dec e e' then true else false.
Lemma poly_add : forall es c c' x, poly es (fun e => c e + c' e) x = poly es c x + poly es c' x.
Proof. intros. induction es as [|e es IH]; [unfold poly; cbn; ring|]. rewrite !poly_cons, IH. ring. Qed.
Lemma poly_one : forall es e a x, NoDup es -> In e es -> poly es (fun e' => if eqb_exp e e' then a else 0) x = a * monomial e x.
Proof.
  intros es e a x N I. rewrite (poly_single es e); auto.
  - unfold eqb_exp. destruct (list_eq_dec Nat.eq_dec e e); [reflexivity|congruence].
  - intros e' Ne. unfold eqb_exp. destruct (list_eq_dec Nat.eq_dec e e'); [congruence|reflexivity].
Qed.
Lemma poly_nil : forall es x, poly es (fun _ => 0) x = 0.
Proof. intros. induction es as [|e es IH]; [reflexivity|]. rewrite poly_cons, IH. ring. Qed.
Lemma mono_poly : forall t k F, t = kTria \/ t = kQuad -> mono (deg t k) F -> exists c, forall x y, F x y = poly (exponents t k) c [x; y].
Proof.
  intros t k F Ht M. induction M as [|a b c f Pab M [c0 IH]|f g E M [c0 IH]].
  - exists (fun _ => 0). intros. symmetry. apply poly_nil.
  - exists (fun e => c0 e + (if eqb_exp [a; b] e then c else 0)). intros x y.
    assert (I : In [a; b] (exponents t k)) by (destruct Ht as [-> | ->]; apply (in_exponents k a b), Pab).
    rewrite poly_add, (poly_one (exponents t k) [a; b] c [x; y] (exponents_nodup t k) I), IH, mono2. ring.
  - exists c0. intros. rewrite <- E. apply IH.
Qed.
Lemma close_fun : forall t k F H, t = kTria \/ t = kQuad -> mono (deg t k) F -> (forall x y, H [x; y] = F x y) ->
  exists C, 0 <= C /\ forall tol q, rule_within tol t k q -> Rabs (quadrature q H - integral t H) <= tol * C.
Proof.
  intros t k F H Ht M E. destruct (mono_poly t k F Ht M) as [c Hc].
  exists (rsum (map (fun e => Rabs (c e)) (exponents t k))). split.
  { apply rs_nonneg. intros. apply Rabs_pos. }
  intros tol q Rq.
  assert (X : forall p, length p = dimension t -> H p = poly (exponents t k) c p).
  { intros p L. assert (Dt : dimension t = 2%nat) by (destruct Ht as [-> | ->]; reflexivity). rewrite Dt in L.
    rewrite (two_coords p L), E. apply Hc. }
  rewrite (quadrature_ext q H (poly (exponents t k) c)) by (intros p I; apply X, (rw_points _ _ _ _ Rq), I).
  rewrite (integral_ext t H (poly (exponents t k) c)) by exact X.
  pose proof (rw_exact _ _ _ _ Rq c) as Y. rewrite (rw_el _ _ _ _ Rq) in Y. exact Y.
Qed.
Lemma mono_prod : forall t k f g, mono (deg t k) f -> mono (deg t k) g -> mono (deg t (2 * k)) (fun x y => f x y * g x y).
Proof.
  intros t k f g. apply mono_mult. intros a b a' b' X Y. replace (2 * k)%nat with (k + k)%nat by lia. apply deg_add; assumption.
Qed.

(** *** Affine cells *)
Section Affine.
Variable (g : geo) (f : srfe) (k : nat) (vol : list R -> R).
Hypothesis (Aff : isAffine g = true) (No2 : is_o2 (go_kind g) = false) (Dl : dim_local (go_kind g) = 2%nat).
Hypothesis (Ef : fe_el f = kind_el (go_kind g)) (Cn : contained f (exponents (kind_el (go_kind g)) k)).
Hypothesis (HV : forall p, length p = 2%nat -> volume_at g vol p).
Lemma el_cell : kind_el (go_kind g) = kTria \/ kind_el (go_kind g) = kQuad.
Proof. destruct (go_kind g); try discriminate Dl; auto. Qed.
Lemma el_dim2 : dimension (kind_el (go_kind g)) = 2%nat. Proof. destruct el_cell as [-> | ->]; reflexivity. Qed.
Lemma adm2 : forall p, length p = 2%nat -> admissible g p.
Proof. intros p L. split; [congruence|]. rewrite No2. discriminate. Qed.
Lemma same_jac : forall p p', length p = 2%nat -> length p' = 2%nat -> Jacobian g p = Jacobian g p'.
Proof. intros p p' L L'. apply (proj2 (affine_true g Aff No2)); congruence. Qed.
Lemma same_vol : forall p, length p = 2%nat -> vol p = vol [0; 0].
Proof.
  intros p L. destruct (HV p L) as [J [HJ E]]. destruct (HV [0; 0] eq_refl) as [J' [HJ' E']].
  rewrite (same_jac p [0; 0] L eq_refl), HJ' in HJ. injection HJ as <-. congruence.
Qed.

Lemma mass_integrand : forall c b i j, (forall p, length p = 2%nat -> shape_at f b p) -> (i < fe_total f)%nat -> (j < fe_total f)%nat ->
  exists F, mono (deg (kind_el (go_kind g)) (2 * k)) F /\ forall x y, vol [x; y] * (c * b i [x; y] * b j [x; y]) = F x y.
Proof.
  intros c b i j HB Hi Hj.
  destruct (shape_mono f _ k el_cell Ef Cn i Hi) as [Fi [Mi Ei]]. destruct (shape_mono f _ k el_cell Ef Cn j Hj) as [Fj [Mj Ej]].
  exists (fun x y => (vol [0; 0] * c) * (Fi x y * Fj x y)). split.
  - apply (mono_scale _ (fun x y => Fi x y * Fj x y)), mono_prod; assumption.
  - intros x y. rewrite (same_vol [x; y] eq_refl). destruct (HB [x; y] eq_refl) as [v [Ev [_ Vv]]].
    destruct (Ei x y) as [v1 [Ev1 F1]]. destruct (Ej x y) as [v2 [Ev2 F2]].
    rewrite <- (Vv i Hi), <- (Vv j Hj). assert (v1 = v) by congruence. assert (v2 = v) by congruence. subst v1 v2.
    rewrite F1, F2. ring.
Qed.
Lemma load_integrand : forall (h : list R -> R) c b i,
  (forall p, length p = 2%nat -> h p = poly (exponents (kind_el (go_kind g)) k) c p) ->
  (forall p, length p = 2%nat -> shape_at f b p) -> (i < fe_total f)%nat ->
  exists F, mono (deg (kind_el (go_kind g)) (2 * k)) F /\ forall x y, vol [x; y] * (h [x; y] * b i [x; y]) = F x y.
Proof.
  intros h c b i HP HB Hi.
  destruct (shape_mono f _ k el_cell Ef Cn i Hi) as [Fi [Mi Ei]].
  exists (fun x y => vol [0; 0] * (poly (exponents (kind_el (go_kind g)) k) c [x; y] * Fi x y)). split.
  - apply (mono_scale _ (fun x y => poly (exponents (kind_el (go_kind g)) k) c [x; y] * Fi x y)), mono_prod; [|assumption].
    apply poly_mono; [apply el_cell|auto].
  - intros x y. rewrite (same_vol [x; y] eq_refl). destruct (HB [x; y] eq_refl) as [v [Ev [_ Vv]]].
    destruct (Ei x y) as [v1 [Ev1 F1]]. rewrite <- (Vv i Hi). assert (v1 = v) by congruence. subst v1.
    rewrite F1, (HP [x; y] eq_refl). ring.
Qed.
Lemma flux_mono : forall d a (T : nat -> R -> R -> R) P m, (forall l, mono P (T l)) -> mono P (fun x y => flux d a (fun l => T l x y) m).
Proof.
  intros d [s|A] T P m H; cbn [flux].
  - apply mono_scale, H.
  - apply (mono_sum P (fun l x y => A m l * T l x y)). intros l _. apply mono_scale, H.
Qed.
Lemma diffusion_integrand : forall A G i j, gradients_ok f -> (forall p, length p = 2%nat -> gradient_at g f G p) ->
  (i < fe_total f)%nat -> (j < fe_total f)%nat ->
  exists F, mono (deg (kind_el (go_kind g)) (2 * k)) F /\
    forall x y, vol [x; y] * inner (go_dim g) (G i [x; y]) (flux (go_dim g) A (G j [x; y])) = F x y.
Proof.
  intros A G i j Gr HG Hi Hj.
  destruct (HG [0; 0] eq_refl) as [J [gr0 [HJ [ND _]]]].
  destruct (inverse_gramian g [0; 0] J (adm2 [0; 0] eq_refl) HJ ltac:(lia) ND) as [W [_ IW]].
  pose proof (jacobian_cols g [0; 0] J (adm2 [0; 0] eq_refl) HJ) as LJ. rewrite Dl in LJ.
  assert (Comp : forall u, (u < fe_total f)%nat -> exists T, (forall m, mono (deg (kind_el (go_kind g)) k) (T m)) /\
     forall x y m, (m < go_dim g)%nat -> G u [x; y] m = T m x y).
  { intros u Hu. destruct (grad_mono f _ k el_cell Ef Cn Gr u 0 Hu ltac:(lia)) as [F0 [M0 E0]].
    destruct (grad_mono f _ k el_cell Ef Cn Gr u 1 Hu ltac:(lia)) as [F1 [M1 E1]].
    exists (fun m x y => nth 0 W vzero m * F0 x y + nth 1 W vzero m * F1 x y). split.
    - intros m. apply (mono_plus _ (fun x y => nth 0 W vzero m * F0 x y) (fun x y => nth 1 W vzero m * F1 x y)); apply mono_scale; assumption.
    - intros x y m Hm. destruct (HG [x; y] eq_refl) as [J' [gr [HJ' [_ [Eg HW]]]]].
      rewrite (same_jac [x; y] [0; 0] eq_refl eq_refl), HJ in HJ'. injection HJ' as <-.
      rewrite (world_unique (go_dim g) J (nth u gr []) _ (trf_grad W gr u) LJ ND (HW u Hu)
        (trf_world (go_dim g) J W gr u LJ ND IW) m Hm).
      destruct (E0 x y) as [g0 [G0 C0]]. destruct (E1 x y) as [g1 [G1 C1]].
      assert (g0 = gr) by congruence. assert (g1 = gr) by congruence. subst g0 g1.
      unfold trf_grad. cbn [seq map]. unfold rsum. cbn [fold_right]. rewrite C0, C1. ring. }
  destruct (Comp i Hi) as [Ti [Mi Ei]]. destruct (Comp j Hj) as [Tj [Mj Ej]].
  exists (fun x y => vol [0; 0] * rsum (map (fun m => Ti m x y * flux (go_dim g) A (fun l => Tj l x y) m) (seq 0 (go_dim g)))). split.
  - apply mono_scale. apply (mono_sum _ (fun m x y => Ti m x y * flux (go_dim g) A (fun l => Tj l x y) m)).
    intros m _. apply (mono_prod _ k (Ti m) (fun x y => flux (go_dim g) A (fun l => Tj l x y) m)); [apply Mi|].
    apply flux_mono, Mj.
  - intros x y. rewrite (same_vol [x; y] eq_refl). f_equal. rewrite inner_rsum. apply rs_ext. intros m Hm. apply in_seq in Hm.
    rewrite Ei by lia. f_equal. apply flux_ext; [|lia]. intros l Hl. apply Ej. exact Hl.
Qed.
End Affine.
