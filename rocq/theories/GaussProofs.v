(** Gaussian quadrature for the weight (1 - y)^q on the unit interval. *)
From Coq Require Import Reals List Arith Lia Lra Bool.
From Coquelicot Require Import Coquelicot.
Import ListNotations.
From Verif Require Import Base MeshModel MeshView DofModel RefPatModel GeoModel GeoSpec
  FeModel LagrModel QuadModel HierModel FeSpec QuadSpec Calc LagrProofs2 FeProofs LegendreProofs JacobiProofs OrthoProofs
  HierProofs HierProofs2 PolyProofs HierProofs3 QuadRuleModel QuadProofs.
Local Open Scope R_scope.

(** *** Polynomials of degree less than n *)
Definition isp (n : nat) (f : R -> R) : Prop := exists a, forall x, f x = pe a n x.
Lemma isp_ext : forall n f g, (forall x, f x = g x) -> isp n f -> isp n g.
Proof. intros n f g E (a & H). exists a. intros. rewrite <- E. apply H. Qed.
Lemma isp_plus : forall n f g, isp n f -> isp n g -> isp n (fun x => f x + g x).
Proof. intros n f g (a & A) (b & B). exists (fun k => a k + b k). intros. rewrite pe_plus, A, B. reflexivity. Qed.
Lemma isp_scale : forall n f c, isp n f -> isp n (fun x => c * f x).
Proof. intros n f c (a & A). exists (fun k => c * a k). intros. rewrite pe_scale, A. reflexivity. Qed.
Lemma isp_minus : forall n f g, isp n f -> isp n g -> isp n (fun x => f x - g x).
Proof. intros n f g F G. apply (isp_ext n (fun x => f x + -1 * g x)); [intros; ring|]. apply isp_plus; [exact F|apply isp_scale, G]. Qed.
Lemma isp_up : forall n m f, (n <= m)%nat -> isp n f -> isp m f.
Proof.
  intros n m f H (a & A). exists (fun k => if (k <? n)%nat then a k else 0). intros x.
  rewrite (pe_more _ n m x H).
  - rewrite A. apply pe_ext. intros k Hk. destruct (Nat.ltb_spec k n); [reflexivity|lia].
  - intros k Hk. destruct (Nat.ltb_spec k n); [lia|reflexivity].
Qed.
Lemma isp_x : forall n f, isp n f -> isp (S n) (fun x => x * f x).
Proof. intros n f (a & A). exists (shift a). intros. rewrite pe_shift, A. reflexivity. Qed.
Lemma isp_zero : forall n, isp n (fun _ => 0).
Proof. intros n. exists (fun _ => 0). intros. symmetry. apply pe_zero. reflexivity. Qed.
Lemma isp_const : forall n c, isp (S n) (fun _ => c).
Proof. intros n c. apply (isp_up 1); [lia|]. exists (fun _ => c). intros. cbn. ring. Qed.
Lemma isp_smooth : forall n f, isp n f -> smooth f.
Proof. intros n f (a & A). apply (smooth_ext (pe a n)); [intros; symmetry; apply A|apply smooth_pe]. Qed.
Lemma pow_minus : forall m r, exists b, forall x, x ^ m - r ^ m = (x - r) * pe b m x.
Proof.
  intros m r. induction m as [|m (b & B)]; [exists (fun _ => 0); intros; cbn; ring|].
  exists (fun k => shift b k + (if Nat.eqb k 0 then r ^ m else 0)). intros x. rewrite pe_plus, pe_shift.
  assert (E : pe (fun k => if Nat.eqb k 0 then r ^ m else 0) (S m) x = r ^ m).
  { rewrite (pe_more _ 1); [cbn; ring|lia|]. intros [|k] Hk; [lia|reflexivity]. }
  rewrite E. replace ((x - r) * (x * pe b m x + r ^ m)) with (x * ((x - r) * pe b m x) + (x - r) * r ^ m) by ring.
  rewrite <- B. cbn [pow]. ring.
Qed.
Lemma divide : forall n a r, exists b, forall x, pe a (S n) x - pe a (S n) r = (x - r) * pe b n x.
Proof.
  induction n as [|n IH]; intros a r; [exists (fun _ => 0); intros; cbn; ring|].
  destruct (IH a r) as (b & B). destruct (pow_minus (S n) r) as (d & D).
  destruct (isp_up n (S n) (pe b n) ltac:(lia) ltac:(exists b; reflexivity)) as (b' & B').
  exists (fun k => b' k + a (S n) * d k). intros x. rewrite pe_plus, pe_scale, <- B'.
  change (pe a (S (S n)) x) with (pe a (S n) x + a (S n) * x ^ S n). change (pe a (S (S n)) r) with (pe a (S n) r + a (S n) * r ^ S n).
  replace ((x - r) * (pe b n x + a (S n) * pe d (S n) x)) with ((x - r) * pe b n x + a (S n) * ((x - r) * pe d (S n) x)) by ring.
  rewrite <- B, <- D. ring.
Qed.
(** Fewer zeros than the degree allows. *)
Lemma zeros : forall n a l, NoDup l -> length l = n -> (forall r, In r l -> pe a n r = 0) -> forall x, pe a n x = 0.
Proof.
  induction n as [|n IH]; intros a l ND L Hz x; [reflexivity|]. destruct l as [|r l]; [discriminate|]. inversion ND as [|? ? Hr ND']; subst.
  destruct (divide n a r) as (b & B). pose proof (Hz r ltac:(left; reflexivity)) as Zr.
  assert (Zb : forall y, pe b n y = 0).
  { apply (IH b l ND' ltac:(cbn in L; lia)). intros s Hs. pose proof (B s) as Bs. rewrite (Hz s), Zr in Bs by (right; exact Hs).
    assert (Hsr : s - r <> 0) by (intros E; apply Hr; replace r with s by lra; exact Hs). 
    apply (Rmult_eq_reg_l (s - r)); lra. }
  pose proof (B x) as Bx. rewrite Zr, Zb in Bx. lra.
Qed.
Lemma isp_equal : forall n f g l, isp n f -> isp n g -> NoDup l -> length l = n -> (forall r, In r l -> f r = g r) -> forall x, f x = g x.
Proof.
  intros n f g l F G ND L H x. destruct (isp_minus n f g F G) as (a & A).
  pose proof (zeros n a l ND L) as Z. specialize (Z ltac:(intros r Hr; rewrite <- A, (H r Hr); ring) x). rewrite <- A in Z. lra.
Qed.
Lemma rsum_pick : forall (F : R -> R) l t, NoDup l -> In t l -> (forall s, In s l -> s <> t -> F s = 0) -> rsum (map F l) = F t.
Proof.
  intros F l t ND Ht H. induction ND as [|s l Hs ND IH]; [destruct Ht|]. cbn [map rsum fold_right]. fold (rsum (map F l)).
  destruct Ht as [->|Ht].
  - enough (E : rsum (map F l) = 0) by (rewrite E; ring).
    assert (Hl : forall u, In u l -> F u = 0) by (intros u Hu; apply H; [right; exact Hu|intros ->; contradiction]). clear -Hl.
    induction l as [|u l IH]; [reflexivity|]. cbn [map rsum fold_right]. fold (rsum (map F l)).
    rewrite IH, (Hl u) by (intros; (left; reflexivity) || (apply Hl; right; assumption)). ring.
  - rewrite IH; [|exact Ht|intros; apply H; [right; assumption|assumption]].
    rewrite (H s); [ring|left; reflexivity|intros ->; contradiction].
Qed.

Section Gauss.
Variable q : nat.
Let al := INR q.
Let Ha : 0 <= al := INR_pos q.
Let P n := jacobi n al.
Let w (y : R) := (1 - y) ^ q.
Let A := rA q. Let B := rB q. Let C := rC q.
Lemma next_P : forall n x, P (S n) x = / A n * (x * P n x - B n * P n x - C n * P (pred n) x).
Proof.
  intros n x. pose proof (times_y q n x) as T. change (x * P n x = A n * P (S n) x + B n * P n x + C n * P (pred n) x) in T. rewrite T.
  pose proof (rA_pos q n) as Hp. fold A in Hp. field. lra.
Qed.
Lemma leading : forall n, exists l a, l <> 0 /\ forall x, P n x = l * x ^ n + pe a n x.
Proof.
  intros n. enough (H : (exists l a, l <> 0 /\ forall x, P n x = l * x ^ n + pe a n x) /\
                      (exists l a, l <> 0 /\ forall x, P (S n) x = l * x ^ S n + pe a (S n) x)) by apply H.
  assert (Step : forall k, isp k (P (pred k)) \/ k = 0%nat -> (exists l a, l <> 0 /\ forall x, P k x = l * x ^ k + pe a k x) ->
                   exists l a, l <> 0 /\ forall x, P (S k) x = l * x ^ S k + pe a (S k) x).
  { intros k Hk (l & a & Hl & E). pose proof (rA_pos q k) as Hp. fold A in Hp.
    assert (Ip : isp (S k) (P k)).
    { destruct (isp_up k (S k) (pe a k) ltac:(lia) ltac:(exists a; reflexivity)) as (a' & A').
      apply (isp_ext _ (fun x => l * x ^ k + pe a k x)); [intros; symmetry; apply E|]. apply isp_plus; [|exists a'; exact A'].
      exists (fun i => if Nat.eqb i k then l else 0). intros x. cbn [pe]. rewrite Nat.eqb_refl.
      rewrite (pe_zero _ k); [ring|]. intros i Hi. destruct (Nat.eqb_spec i k); [lia|reflexivity]. }
    assert (I : isp (S k) (fun x => / A k * (x * pe a k x - B k * P k x - C k * P (pred k) x))).
    { apply isp_scale, isp_minus; [apply isp_minus|].
      - apply isp_x. exists a. reflexivity.
      - apply isp_scale, Ip.
      - destruct Hk as [Hk| ->]; [apply isp_scale, (isp_up k); [lia|exact Hk]|].
        apply (isp_ext _ (fun _ => 0)); [intros; unfold C; cbn [rC]; ring|]. apply isp_zero. }
    destruct I as (b & I). exists (/ A k * l), b. split.
    { apply Rmult_integral_contrapositive_currified; [apply Rinv_neq_0_compat; lra|exact Hl]. }
    intros x. rewrite <- I, next_P, (E x). cbn [pow]. ring. }
  induction n as [|n [H0 H1]].
  - assert (H : exists l a, l <> 0 /\ forall x, P 0 x = l * x ^ 0 + pe a 0 x).
    { exists 1, (fun _ => 0). split; [lra|]. intros. cbn. unfold P, jacobi, jacobi_ab. ring. }
    split; [exact H|]. apply Step; [right; reflexivity|exact H].
  - split; [exact H1|]. apply Step; [left|exact H1]. cbn [pred]. destruct H0 as (l & a & _ & E).
    exists (fun i => if Nat.eqb i n then l else a i). intros x. cbn [pe]. rewrite Nat.eqb_refl, E.
    rewrite (pe_ext (fun i => if Nat.eqb i n then l else a i) a n); [ring|]. intros i Hi. destruct (Nat.eqb_spec i n); [lia|reflexivity].
Qed.
Lemma isp_P : forall n, isp (S n) (P n).
Proof.
  intros n. destruct (leading n) as (l & a & _ & E). exists (fun i => if Nat.eqb i n then l else a i). intros x. cbn [pe]. rewrite Nat.eqb_refl, E.
  rewrite (pe_ext (fun i => if Nat.eqb i n then l else a i) a n); [ring|]. intros i Hi. destruct (Nat.eqb_spec i n); [lia|reflexivity].
Qed.
Lemma sm_P : forall n, smooth (P n). Proof. intros n. apply smooth_jacobi, Ha. Qed.
Lemma sm_w : smooth w. Proof. apply (smooth_w q). Qed.
Lemma sm_pe : forall a n, smooth (fun x => pe a n x). Proof. exact smooth_pe. Qed.
Ltac sm := repeat first [ apply smooth_plus | apply smooth_minus | apply smooth_mult | apply sm_P | apply sm_w | apply sm_pe
  | apply smooth_const | apply smooth_id | apply (smooth_pow (fun x => x)) ].
Lemma orth_pow : forall n k, (k < n)%nat -> RInt (fun x => P n x * x ^ k * w x) 0 1 = 0.
Proof.
  intros n k. induction k as [k IH] using lt_wf_ind. intros Hk. destruct (leading k) as (l & a & Hl & E).
  assert (O : RInt (fun x => P n x * P k x * w x) 0 1 = 0).
  { pose proof (jacobi_orthogonal q n k) as J. destruct (Nat.eqb_spec n k); [lia|]. exact J. }
  assert (L : forall j, (j <= k)%nat -> RInt (fun x => P n x * pe a j x * w x) 0 1 = 0).
  { induction j as [|j IHj]; intros Hj.
    - cbn [pe]. rewrite (RInt_e _ (fun x => 0 * 0)) by (intros; ring). rewrite (RInt_c (fun _ => 0)) by sm. to_R; ring.
    - cbn [pe]. rewrite (RInt_e _ (fun x => P n x * pe a j x * w x + a j * (P n x * x ^ j * w x))) by (intros; ring).
      rewrite RInt_p, RInt_c, IHj, (IH j) by (lia || sm). to_R; ring. }
  specialize (L k (le_n k)).
  rewrite (RInt_e _ (fun x => l * (P n x * x ^ k * w x) + P n x * pe a k x * w x)) in O by (intros x; rewrite (E x); ring).
  rewrite RInt_p, RInt_c, L in O by sm. apply (Rmult_eq_reg_l l); [lra|exact Hl].
Qed.

(** *** The kernel *)
Fixpoint K (n : nat) (x y : R) : R :=
  match n with 0%nat => 0 | S k => K k x y + (2 * INR k + al + 1) * (P k x * P k y) end.
Definition gam (n : nat) : R := A n * (2 * INR n + al + 1).
Lemma christoffel : forall n x y, (x - y) * K (S n) x y = gam n * (P (S n) x * P n y - P n x * P (S n) y).
Proof.
  assert (E : forall n x y, (x - y) * (P n x * P n y) =
     A n * (P (S n) x * P n y - P n x * P (S n) y) + C n * (P (pred n) x * P n y - P n x * P (pred n) y)).
  { intros n x y. pose proof (times_y q n x) as T. pose proof (times_y q n y) as T'. 
    change (x * P n x = A n * P (S n) x + B n * P n x + C n * P (pred n) x) in T.
    change (y * P n y = A n * P (S n) y + B n * P n y + C n * P (pred n) y) in T'.
    transitivity (x * P n x * P n y - P n x * (y * P n y)); [ring|]. rewrite T, T'. ring. }
  induction n as [|n IH]; intros x y.
  - cbn [K]. rewrite Rmult_plus_distr_l. rewrite Rmult_0_r, Rplus_0_l.
    transitivity ((2 * INR 0 + al + 1) * ((x - y) * (P 0 x * P 0 y))); [ring|]. rewrite E. unfold gam, C. cbn [rC]. ring.
  - change (K (S (S n)) x y) with (K (S n) x y + (2 * INR (S n) + al + 1) * (P (S n) x * P (S n) y)).
    rewrite Rmult_plus_distr_l, IH.
    transitivity (gam n * (P (S n) x * P n y - P n x * P (S n) y) + (2 * INR (S n) + al + 1) * ((x - y) * (P (S n) x * P (S n) y))); [ring|].
    rewrite E. cbn [pred]. unfold gam.
    assert (G : A n * (2 * INR n + al + 1) = C (S n) * (2 * INR (S n) + al + 1)).
    { unfold A, C, rA, rC. fold al. rewrite S_INR. pose proof (INR_pos n). field. repeat split; lra. }
    rewrite G. ring.
Qed.
Lemma K_pos : forall n x, 0 < K (S n) x x.
Proof.
  induction n as [|n IH]; intros x.
  - cbn [K INR]. unfold P, jacobi, jacobi_ab. lra.
  - change (K (S (S n)) x x) with (K (S n) x x + (2 * INR (S n) + al + 1) * (P (S n) x * P (S n) x)).
    pose proof (IH x). pose proof (INR_pos (S n)). pose proof (Rle_0_sqr (P (S n) x)) as H1. unfold Rsqr in H1.
    assert (0 <= (2 * INR (S n) + al + 1) * (P (S n) x * P (S n) x)) by (apply Rmult_le_pos; lra). lra.
Qed.
Lemma isp_K : forall n y, isp n (fun x => K n x y).
Proof.
  induction n as [|n IH]; intros y; [apply isp_zero|]. cbn [K]. apply isp_plus; [apply (isp_up n); [lia|apply IH]|].
  apply (isp_ext _ (fun x => ((2 * INR n + al + 1) * P n y) * P n x)); [intros; ring|]. apply isp_scale, isp_P.
Qed.
Lemma int_K : forall n y, (1 <= n)%nat -> RInt (fun x => K n x y * w x) 0 1 = 1.
Proof.
  intros n y Hn. destruct n as [|n]; [lia|]. clear Hn. induction n as [|n IH].
  - pose proof (jacobi_orthogonal q 0 0) as J. cbn [Nat.eqb] in J. cbn [K].
    rewrite (RInt_e _ (fun x => (2 * INR 0 + al + 1) * (jacobi 0 (INR q) x * jacobi 0 (INR q) x * (1 - x) ^ q))).
    2: { intros x. unfold P, w, jacobi, jacobi_ab. ring. }
    rewrite RInt_c by (repeat apply smooth_mult; try apply sm_P; apply sm_w). rewrite J. fold al. cbn [INR]. to_R. field. lra.
  - rewrite (RInt_e _ (fun x => K (S n) x y * w x + ((2 * INR (S n) + al + 1) * P (S n) y) * (P (S n) x * x ^ 0 * w x)))
      by (intros x; change (K (S (S n)) x y) with (K (S n) x y + (2 * INR (S n) + al + 1) * (P (S n) x * P (S n) y)); cbn [pow]; ring).
    rewrite RInt_p, RInt_c, IH, (orth_pow (S n) 0) by (first [lia | apply smooth_mult; [apply (isp_smooth _ _ (isp_K (S n) y))|apply sm_w] | sm]).
    to_R; ring.
Qed.
(** Value on the diagonal. *)
Lemma K_diagonal : forall n x, K (S n) x x = gam n * (jacobi_dx (S n) al x * P n x - jacobi_dx n al x * P (S n) x).
Proof.
  intros n y.
  assert (HK : exists d, is_derive (fun x => K (S n) x y) y d).
  { destruct (isp_K (S n) y) as (a & Ea). exists (pe (deriv a) n y).
    apply (is_derive_ext (fun x => pe a (S n) x)); [intros; symmetry; apply Ea|]. apply (qd_derive _ y 0 _ 0), pe_qd. }
  destruct HK as (d & HK).
  assert (D1 : is_derive (fun x => (x - y) * K (S n) x y) y (K (S n) y y)).
  { evar_last. apply (is_derive_mult (fun x => x - y) (fun x => K (S n) x y) y 1 d).
    - auto_derive; [exact I|ring].
    - exact HK.
    - intros; apply Rmult_comm.
    - cbn. unfold plus, mult; cbn. ring. }
  assert (DP : forall k, is_derive (P k) y (jacobi_dx k al y)) by (intros k; apply (qd_derive _ y 0 _ 0), jacobi_qd, Ha).
  assert (D2 : is_derive (fun x => gam n * (P (S n) x * P n y - P n x * P (S n) y)) y (gam n * (jacobi_dx (S n) al y * P n y - jacobi_dx n al y * P (S n) y))).
  { apply (is_derive_scal (fun x => P (S n) x * P n y - P n x * P (S n) y) y (gam n)).
    apply (is_derive_minus (fun x => P (S n) x * P n y) (fun x => P n x * P (S n) y)).
    - apply (is_derive_ext (fun x => P n y * P (S n) x)); [intros; apply Rmult_comm|]. rewrite Rmult_comm. apply is_derive_scal, DP.
    - apply (is_derive_ext (fun x => P (S n) y * P n x)); [intros; apply Rmult_comm|]. rewrite (Rmult_comm (jacobi_dx n al y)). apply is_derive_scal, DP. }
  apply (is_derive_ext _ (fun x => (x - y) * K (S n) x y)) in D2; [|intros x; symmetry; apply christoffel].
  rewrite <- (is_derive_unique _ _ _ D1). apply (is_derive_unique _ _ _ D2).
Qed.

(** *** Exactness *)
Section Roots.
Variable n : nat.
Hypothesis Hn : (1 <= n)%nat.
Variable r : list R.
Hypothesis Lr : length r = n.
Hypothesis Nr : NoDup r.
Hypothesis Zr : forall s, In s r -> P n s = 0.
Lemma K_off : forall s t, In s r -> In t r -> s <> t -> K n s t = 0.
Proof.
  intros s t Hs Ht H. destruct n as [|m] eqn:En; [lia|]. pose proof (christoffel m s t) as E.
  rewrite (Zr s Hs), (Zr t Ht) in E. apply (Rmult_eq_reg_l (s - t)); lra.
Qed.
Lemma Kn_pos : forall s, 0 < K n s s. Proof. intros s. destruct n as [|m]; [lia|apply K_pos]. Qed.
Lemma isp_sum : forall (F : R -> R -> R) l m, (forall s, isp m (F s)) -> isp m (fun x => rsum (map (fun s => F s x) l)).
Proof. intros F l m H. induction l; cbn; [apply isp_zero|]. apply isp_plus; [apply H|exact IHl]. Qed.
Lemma interpolate : forall g, isp n g -> forall x, g x = rsum (map (fun s => g s / K n s s * K n x s) r).
Proof.
  intros g Hg. apply (isp_equal n g (fun x => rsum (map (fun s => g s / K n s s * K n x s) r)) r Hg).
  - apply (isp_sum (fun s x => g s / K n s s * K n x s)). intros s. apply isp_scale, isp_K.
  - exact Nr.
  - exact Lr.
  - intros t Ht. cbv beta. rewrite (rsum_pick (fun s => g s / K n s s * K n t s) r t Nr Ht).
    + pose proof (Kn_pos t). field. lra.
    + intros s Hs Hst. rewrite (K_off t s Ht Hs) by auto. ring.
Qed.
Definition weight (s : R) : R := 1 / K n s s.
Definition Q (f : R -> R) : R := rsum (map (fun s => weight s * f s) r).
Lemma Q_plus : forall f g, Q (fun x => f x + g x) = Q f + Q g.
Proof. intros f g. unfold Q. clear. induction r as [|s l IH]; cbn; [ring|]. unfold rsum in IH. rewrite IH. ring. Qed.
Lemma Q_scale : forall f c, Q (fun x => c * f x) = c * Q f.
Proof. intros f c. unfold Q. clear. induction r as [|s l IH]; cbn; [ring|]. unfold rsum in IH. rewrite IH. ring. Qed.
Lemma Q_ext : forall f g, (forall s, In s r -> f s = g s) -> Q f = Q g.
Proof. intros f g H. unfold Q. f_equal. apply map_ext_in. intros s Hs. rewrite (H s Hs). reflexivity. Qed.
Lemma exact_low : forall g, isp n g -> Q g = RInt (fun x => g x * w x) 0 1.
Proof.
  intros g Hg. rewrite (RInt_e _ (fun x => rsum (map (fun s => g s / K n s s * K n x s) r) * w x)) by (intros x; rewrite <- (interpolate g Hg); reflexivity).
  unfold Q, weight. generalize r as l. induction l as [|s l IH].
  - cbn [map rsum fold_right]. rewrite (RInt_e _ (fun x => 0 * 0)) by (intros; ring). rewrite (RInt_c (fun _ => 0)) by sm. to_R; ring.
  - cbn [map rsum fold_right] in *. fold (rsum (map (fun s => 1 / K n s s * g s) l)) in *.
    rewrite (RInt_e _ (fun x => (g s / K n s s) * (K n x s * w x) + rsum (map (fun s => g s / K n s s * K n x s) l) * w x)) by (intros x; unfold rsum; ring).
    rewrite RInt_p, RInt_c, int_K by (first [exact Hn | sm; apply (isp_smooth n); first [apply isp_K | apply isp_scale, isp_K | apply (isp_sum (fun s x => g s / K n s s * K n x s)); intros; apply isp_scale, isp_K]]).
    rewrite <- IH. pose proof (Kn_pos s). to_R. unfold rsum. field. lra.
Qed.
Lemma exact_pow : forall k, (k < 2 * n)%nat -> Q (fun x => x ^ k) = RInt (fun x => x ^ k * w x) 0 1.
Proof.
  intros k. induction k as [k IH] using lt_wf_ind. intros Hk. destruct (le_lt_dec n k) as [Hl|Hl].
  - destruct (leading n) as (l & a & Hl0 & E). set (i := (k - n)%nat).
    assert (Hi : (i < n)%nat) by (unfold i; lia). assert (Ek : k = (n + i)%nat) by (unfold i; lia).
    (* the remainder *)
    assert (Low : forall j, (j <= n)%nat -> Q (fun x => x ^ i * pe a j x) = RInt (fun x => x ^ i * pe a j x * w x) 0 1).
    { induction j as [|j IHj]; intros Hj; cbn [pe].
      - rewrite (Q_ext _ (fun x => 0 * 0)) by (intros; ring). rewrite (Q_scale (fun _ => 0)).
        rewrite (RInt_e _ (fun x => 0 * 0)) by (intros; ring). rewrite (RInt_c (fun _ => 0)) by sm. to_R; ring.
      - rewrite (Q_ext _ (fun x => x ^ i * pe a j x + a j * x ^ (i + j))) by (intros; rewrite pow_add; ring).
        rewrite Q_plus, Q_scale, IHj, (IH (i + j)%nat) by lia.
        rewrite (RInt_e (fun x => x ^ i * (pe a j x + a j * x ^ j) * w x) (fun x => x ^ i * pe a j x * w x + a j * (x ^ (i + j) * w x))) by (intros; rewrite pow_add; ring).
        rewrite RInt_p, RInt_c by sm. reflexivity. }
    specialize (Low n (le_n n)).
    assert (Top : Q (fun x => x ^ i * P n x) = RInt (fun x => x ^ i * P n x * w x) 0 1).
    { rewrite (Q_ext _ (fun x => 0 * 0)) by (intros s Hs; rewrite (Zr s Hs); ring). rewrite (Q_scale (fun _ => 0)).
      rewrite (RInt_e _ (fun x => P n x * x ^ i * w x)) by (intros; ring). rewrite (orth_pow n i Hi). to_R; ring. }
    assert (X : forall x, x ^ k = / l * (x ^ i * P n x) + (- / l) * (x ^ i * pe a n x)).
    { intros x. rewrite (E x), Ek, pow_add. field. exact Hl0. }
    rewrite (Q_ext _ (fun x => / l * (x ^ i * P n x) + (- / l) * (x ^ i * pe a n x))) by (intros; apply X).
    rewrite Q_plus, !Q_scale, Top, Low.
    rewrite (RInt_e (fun x => x ^ k * w x) (fun x => / l * (x ^ i * P n x * w x) + (- / l) * (x ^ i * pe a n x * w x))) by (intros x; rewrite (X x); ring).
    rewrite RInt_p, !RInt_c by sm. reflexivity.
  - apply exact_low. exists (fun i => if Nat.eqb i k then 1 else 0). intros x.
    rewrite (pe_more _ (S k)); [|lia|intros j Hj; destruct (Nat.eqb_spec j k); [lia|reflexivity]].
    cbn [pe]. rewrite Nat.eqb_refl, pe_zero; [ring|]. intros j Hj. destruct (Nat.eqb_spec j k); [lia|reflexivity].
Qed.
End Roots.
End Gauss.
