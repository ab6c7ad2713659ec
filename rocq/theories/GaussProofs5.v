(** Rules of make_QuadRule built from Gaussian quadrature. *)
From Coq Require Import Reals List Arith Lia Lra Bool.
From Coquelicot Require Import Coquelicot.
Import ListNotations.
From Verif Require Import Base MeshModel MeshView DofModel RefPatModel GeoModel GeoSpec
  FeModel LagrModel QuadModel HierModel FeSpec QuadSpec Calc LagrProofs2 FeProofs LegendreProofs JacobiProofs OrthoProofs
  HierProofs HierProofs2 PolyProofs HierProofs3 HierProofs5 QuadRuleModel QuadProofs QuadProofs2 GaussSpec
  GaussProofs GaussProofs2 GaussProofs3 GaussProofs4.
Local Open Scope R_scope.

(** *** The points are different *)
Lemma increasing_nodup : forall (f : nat -> R) n, (forall i j, (i < j)%nat -> (j < n)%nat -> f i < f j) -> NoDup (map f (seq 0 n)).
Proof.
  intros f n H. assert (G : forall m k, (k + m <= n)%nat -> NoDup (map f (seq k m))).
  { induction m as [|m IH]; intros k Hk; [constructor|]. cbn [seq map]. constructor; [|apply IH; lia].
    intros Hin. apply in_map_iff in Hin. destruct Hin as (j & Ej & Hj). apply in_seq in Hj. pose proof (H k j ltac:(lia) ltac:(lia)). lra. }
  apply G. lia.
Qed.
Lemma zero_legendre_jacobi : forall n x, legendre n x 1 = 0 -> 0 < x < 1.
Proof. intros n x H. apply (roots_inside 0 n). cbn [INR]. rewrite <- legendre_jacobi. exact H. Qed.

Lemma even_middle : forall k, legendre (2 * k) (1 / 2) 1 <> 0.
Proof.
  induction k as [|k IH]; [cbn; lra|]. replace (2 * S k)%nat with (S (S (2 * k))) by lia. rewrite legendre_rec. intros E. apply IH.
  pose proof (INR_pos (2 * k)) as Hp.
  apply (Rmult_eq_reg_l (- ((INR (2 * k) + 1) / (INR (2 * k) + 2)))).
  - rewrite Rmult_0_r, <- E. field. lra.
  - apply Ropp_neq_0_compat. apply Rmult_integral_contrapositive_currified; [lra|apply Rinv_neq_0_compat; lra].
Qed.
Lemma stops_positive : forall stop n i, finds_legendre_zeros stop n -> (2 * i + 1 < n)%nat -> 0 < stop n i.
Proof.
  intros stop n i (Hz & Hd) Hi. pose proof (half_low n i Hi) as Hh. destruct (Hz i Hh) as (H0 & Z).
  destruct (Nat.lt_ge_cases (S i) ((n + 1) / 2)) as [H|H].
  - pose proof (Hd i (S i) ltac:(lia) H). pose proof (proj1 (Hz (S i) H)). lra.
  - destruct (Req_dec (stop n i) 0) as [E|E]; [|lra]. exfalso. rewrite E in Z.
    pose proof (Nat.div_mod (n + 1) 2 ltac:(lia)). pose proof (Nat.mod_upper_bound (n + 1) 2 ltac:(lia)).
    apply (even_middle (S i)). replace (2 * S i)%nat with n by lia. rewrite <- Z. f_equal. field.
Qed.
Lemma gauss_legendre : forall stop n, (1 <= n)%nat -> finds_legendre_zeros stop n ->
  exists pw, GaussLegendre stop n = Ok pw /\ length (fst pw) = n /\ length (snd pw) = n /\ (forall c, In c (snd pw) -> 0 < c) /\
    (forall x, In x (fst pw) -> legendre n x 1 = 0 /\ 0 < x < 1) /\ exact_weighted 0 1 (fun _ => 1) (2 * n - 1) pw.
Proof.
  intros stop n Hn F. pose proof (fun i => stops_positive stop n i F) as Hp. destruct F as (Hz & Hd).
  destruct (gauss_legendre_exact stop n Hn ltac:(intros; apply Hz; assumption)) as (pw & E & L & L' & Pw & Zp & X).
  exists pw. split; [exact E|]. split; [exact L|]. split; [exact L'|]. split; [exact Pw|]. split.
  { intros x Hx. split; [apply Zp, Hx|apply (zero_legendre_jacobi n), Zp, Hx]. }
  apply X. rewrite (gauss_legendre_eq stop n Hn) in E. injection E as <-. cbn [fst].
  apply increasing_nodup. intros i j Hij Hj.
  assert (G : forall k, (k < (n + 1) / 2)%nat -> gl_next n (stop n k) = stop n k) by (intros k Hk; apply gl_at_root; [exact Hn|apply Hz, Hk]).
  unfold gl_point. destruct (Nat.ltb_spec (2 * i + 1) n) as [Hi|Hi], (Nat.ltb_spec (2 * j + 1) n) as [Hj'|Hj']; try lia.
  - rewrite !G by (apply half_low; assumption). pose proof (Hd i j Hij (half_low n j Hj')). lra.
  - rewrite G by (apply half_low; assumption). pose proof (half_up n j Hj Hj') as Hh. rewrite G by exact Hh. pose proof (Hp i Hi).
    pose proof (proj1 (Hz _ Hh)). lra.
  - pose proof (half_up n i ltac:(lia) Hi) as H1. pose proof (half_up n j Hj Hj') as H2. rewrite !G by assumption.
    pose proof (Hd (n - 1 - j)%nat (n - 1 - i)%nat ltac:(lia) H1). lra.
Qed.
Lemma gauss_jacobi : forall stopj n, (1 <= n)%nat -> finds_jacobi_zeros stopj n ->
  exists pw, GaussJacobi stopj n = Ok pw /\ length (fst pw) = n /\ length (snd pw) = n /\ (forall c, In c (snd pw) -> 0 < c) /\
    (forall z, In z (fst pw) -> jacobi n 1 ((z + 1) / 2) = 0 /\ -1 < z < 1) /\ exact_weighted (-1) 1 (fun z => 1 - z) (2 * n - 1) pw.
Proof.
  intros stopj n Hn (Hz & ND). destruct (gauss_jacobi_exact stopj n Hn Hz) as (pw & E & L & L' & Pw & Zp & X).
  exists pw. split; [exact E|]. split; [exact L|]. split; [exact L'|]. split; [exact Pw|]. split.
  { intros z Hx. destruct (Zp z Hx) as (Z0 & _). rewrite (Rplus_comm z 1). split; [exact Z0|]. pose proof (roots_inside 1 n _ Z0). lra. }
  apply X. unfold GaussJacobi in E. destruct (Nat.ltb_spec 0 n); [|lia]. cbn [lf_assert bind] in E. injection E as <-. cbn [fst].
  replace (map (fun i => gj_next n (stopj n i)) (seq 0 n)) with (map (stopj n) (seq 0 n)); [exact ND|].
  apply map_ext_in. intros i Hi. apply in_seq in Hi. symmetry. apply gj_at_root; [exact Hn|apply Hz; lia].
Qed.

(** *** The hypotheses can be met for every number of points *)
Lemma all_roots : forall q n r, (forall i, (i <= n)%nat -> r i < r (S i)) -> (forall i, (1 <= i <= n)%nat -> jacobi n (INR q) (r i) = 0) ->
  forall x, jacobi n (INR q) x = 0 -> exists i, (1 <= i <= n)%nat /\ x = r i.
Proof.
  intros q n r Hr Z x Zx. destruct (factor q n r Hr Z) as (l & Hl & El). rewrite El in Zx. apply Rmult_integral in Zx. destruct Zx as [Zx|Zx]; [lra|].
  clear -Zx. induction n as [|n IH]; cbn [prodr] in Zx; [lra|]. apply Rmult_integral in Zx. destruct Zx as [Zx|Zx].
  - destruct (IH Zx) as (i & Hi & E). exists i. split; [lia|exact E].
  - exists (S n). split; [lia|lra].
Qed.
Lemma monotone_identity : forall (g : nat -> nat) n, (forall i, (1 <= i <= n)%nat -> (1 <= g i <= n)%nat) ->
  (forall i j, (1 <= i)%nat -> (i < j)%nat -> (j <= n)%nat -> (g i < g j)%nat) -> forall i, (1 <= i <= n)%nat -> g i = i.
Proof.
  intros g n Hg Hm. assert (Lo : forall i, (1 <= i <= n)%nat -> (i <= g i)%nat).
  { induction i as [|i IH]; intros Hi; [lia|]. destruct i as [|i]; [apply Hg; lia|]. pose proof (IH ltac:(lia)). pose proof (Hm (S i) (S (S i)) ltac:(lia) ltac:(lia) ltac:(lia)). lia. }
  assert (Up : forall k i, (i = n - k)%nat -> (1 <= i <= n)%nat -> (g i <= i)%nat).
  { induction k as [|k IH]; intros i Ei Hi.
    - replace i with n by lia. apply (Hg n). lia.
    - destruct (Nat.eq_dec i n) as [->|]; [apply (Hg n); lia|]. pose proof (IH (S i) ltac:(lia) ltac:(lia)). pose proof (Hm i (S i) ltac:(lia) ltac:(lia) ltac:(lia)). lia. }
  intros i Hi. pose proof (Lo i Hi). pose proof (Up (n - i)%nat i ltac:(lia) Hi). lia.
Qed.
Lemma legendre_symmetric : forall n r, (forall i, (i <= n)%nat -> r i < r (S i)) -> (forall i, (1 <= i <= n)%nat -> jacobi n 0 (r i) = 0) ->
  forall i, (1 <= i <= n)%nat -> r i = 1 - r (S n - i)%nat.
Proof.
  intros n r Hr Z.
  assert (C : forall i, exists k, (1 <= i <= n)%nat -> (1 <= k <= n)%nat /\ 1 - r (S n - i)%nat = r k).
  { intros i. destruct (le_lt_dec 1 i); [|exists 0%nat; intros; lia]. destruct (le_lt_dec i n); [|exists 0%nat; intros; lia].
    destruct (all_roots 0 n r Hr Z (1 - r (S n - i)%nat)) as (k & Hk & E); [|exists k; auto].
    cbn [INR]. rewrite <- legendre_jacobi, legendre_flip, legendre_jacobi, (Z (S n - i)%nat) by lia. ring. }
  assert (F : exists g : nat -> nat, forall i, (1 <= i <= n)%nat -> (1 <= g i <= n)%nat /\ 1 - r (S n - i)%nat = r (g i)).
  { clear -C. assert (G : forall m, exists g : nat -> nat, forall i, (i <= m)%nat -> (1 <= i <= n)%nat -> (1 <= g i <= n)%nat /\ 1 - r (S n - i)%nat = r (g i)).
    { induction m as [|m (g & G)]; [exists (fun i => i); intros; lia|]. destruct (C (S m)) as (k & K0).
      exists (fun i => if Nat.eqb i (S m) then k else g i). intros i Hi. destruct (Nat.eqb_spec i (S m)) as [->|]; [exact K0|apply G; lia]. }
    destruct (G n) as (g & G'). exists g. intros i Hi. apply G'; lia. }
  destruct F as (g & G). intros i Hi. destruct (G i Hi) as (_ & E). rewrite E. f_equal. symmetry. apply (monotone_identity g n); [intros; apply G; assumption| |exact Hi].
  intros a b Ha Hab Hb. destruct (G a ltac:(lia)) as (Ga & Ea). destruct (G b ltac:(lia)) as (Gb & Eb).
  pose proof (increasing r n Hr (S n - b)%nat (S n - a)%nat ltac:(lia) ltac:(lia)) as Lt.
  destruct (Nat.lt_ge_cases (g a) (g b)) as [|Ge]; [assumption|]. exfalso.
  destruct (Nat.eq_dec (g a) (g b)) as [Eg|Ng]; [rewrite Eg in Ea; lra|].
  pose proof (increasing r n Hr (g b) (g a) ltac:(lia) ltac:(lia)). lra.
Qed.
Lemma legendre_zeros_exist : forall n, exists stop, finds_legendre_zeros stop n.
Proof.
  assert (C : forall n, exists f : nat -> R, (forall i, (i < (n + 1) / 2)%nat -> 0 <= f i /\ legendre n ((1 + f i) / 2) 1 = 0) /\
     (forall i j, (i < j)%nat -> (j < (n + 1) / 2)%nat -> f j < f i)).
  { intros n. destruct (interlacing 0 n) as (r & R0 & R1 & Rm & Rz & _). cbn [INR] in Rz.
    assert (Hm : (2 * ((n + 1) / 2) <= n + 1)%nat) by (apply Nat.mul_div_le; lia).
    exists (fun i => 2 * r (n - i)%nat - 1). split.
    - intros i Hi. split.
      + pose proof (legendre_symmetric n r Rm Rz (n - i) ltac:(lia)) as Sy. replace (S n - (n - i))%nat with (S i) in Sy by lia.
        destruct (Nat.eq_dec (S i) (n - i)) as [E|Ne]; [rewrite <- E in *; lra|].
        pose proof (increasing r n Rm (S i) (n - i) ltac:(lia) ltac:(lia)). lra.
      + rewrite legendre_jacobi. etransitivity; [|apply (Rz (n - i)%nat); lia]. f_equal. field.
    - intros i j Hij Hj. pose proof (increasing r n Rm (n - j) (n - i) ltac:(lia) ltac:(lia)). lra. }
  intros n. destruct (C n) as (f & F). exists (fun _ => f). exact F.
Qed.
Lemma jacobi_zeros_exist : forall n, exists stopj, finds_jacobi_zeros stopj n.
Proof.
  intros n. destruct (interlacing 1 n) as (r & R0 & R1 & Rm & Rz & _). cbn [INR] in Rz.
  exists (fun _ i => 2 * r (S i) - 1). split.
  - intros i Hi. etransitivity; [|apply (Rz (S i)); lia]. f_equal. field.
  - apply increasing_nodup. intros i j Hij Hj. pose proof (increasing r n Rm (S i) (S j) ltac:(lia) ltac:(lia)). lra.
Qed.

(** *** Exactness is not better *)
Lemma legendre_square : forall n, RInt (fun x => legendre n x 1 * legendre n x 1) 0 1 <> 0.
Proof.
  intros n. rewrite legendre_orthogonal, Nat.eqb_refl. pose proof (INR_pos n). apply Rgt_not_eq. apply Rdiv_lt_0_compat; lra.
Qed.
Lemma quadrature_vanishes : forall q f, (forall x, In x (qr_points q) -> f x = 0) -> quadrature q f = 0.
Proof.
  intros q f H. rewrite (quadrature_ext q f (fun _ => 0) H). apply quadrature_zero.
Qed.
Lemma segment_not : forall q n k, qr_el q = kSegment -> rule_for kSegment k q -> (forall x, In x (qr_points q) -> exists s, x = [s] /\ legendre n s 1 = 0) ->
  ~ exact_to q (2 * n).
Proof.
  intros q n k El Rq H X. pose proof Rq as [_ Rp Rw _].
  assert (Rn : rule_for kSegment (2 * n) q) by (constructor; assumption).
  assert (M : mono (xdeg (2 * n)) (fun x _ => legendre n x 1 * legendre n x 1)).
  { replace (2 * n)%nat with (n + n)%nat by lia.
    apply (gr_mult xdeg xdeg_add n n (fun x _ => legendre n x 1)); apply (gr_legendre xdeg xdeg_zero xdeg_mono xdeg_add n (fun x _ => x) (fun _ _ => 1));
      first [apply xdeg_id | apply xdeg_const]. }
  pose proof (exact_one q (2 * n) _ Rn M) as E. cbv beta in E. apply (legendre_square n). rewrite <- E. apply quadrature_vanishes.
  intros x Hx. destruct (H x Hx) as (s & -> & Z). unfold at1. cbn [nth]. rewrite Z. ring.
Qed.
Lemma qdeg_zero : qdeg 0 0 0. Proof. unfold qdeg. lia. Qed.
Lemma qdeg_mono : forall n m a b, (n <= m)%nat -> qdeg n a b -> qdeg m a b. Proof. unfold qdeg. intros. lia. Qed.
Lemma qdeg_add : forall n m a b a' b', qdeg n a b -> qdeg m a' b' -> qdeg (n + m) (a + a') (b + b'). Proof. unfold qdeg. intros. lia. Qed.
Lemma qdeg_x : mono (qdeg 1) (fun x _ => x).
Proof. eapply mono_eq; [|apply (mono_one (qdeg 1) 1 0 1); unfold qdeg; lia]. intros; cbn; ring. Qed.
Lemma quad_not : forall q n k, qr_el q = kQuad -> rule_for kQuad k q -> (forall x, In x (qr_points q) -> exists s t, x = [s; t] /\ legendre n s 1 = 0) ->
  ~ exact_to q (2 * n).
Proof.
  intros q n k El Rq H X. pose proof Rq as [_ Rp Rw _].
  assert (Rn : rule_for kQuad (2 * n) q) by (constructor; assumption).
  assert (M : mono (qdeg (2 * n)) (fun x _ => legendre n x 1 * legendre n x 1)).
  { replace (2 * n)%nat with (n + n)%nat by lia.
    apply (gr_mult qdeg qdeg_add n n (fun x _ => legendre n x 1)); apply (gr_legendre qdeg qdeg_zero qdeg_mono qdeg_add n (fun x _ => x) (fun _ _ => 1));
      first [apply qdeg_x | apply (gr_const qdeg qdeg_zero qdeg_mono)]. }
  pose proof (exact_two q kQuad (2 * n) _ (or_intror eq_refl) Rn M) as E. rewrite quadrature_vanishes in E.
  - rewrite integral_two in E by (right; reflexivity). apply (legendre_square n).
    rewrite (RInt_e _ (fun _ => RInt (fun x => legendre n x 1 * legendre n x 1) 0 1 * 1)) in E.
    + rewrite (RInt_c (fun _ => 1)) in E by apply smooth_const. rewrite RInt_const in E. unfold scal in E; cbn in E. unfold mult in E; cbn in E.
      assert (E' : forall v : R, 0 = v * ((1 - 0) * 1) -> v = 0) by (intros; lra). apply E', E.
    + intros y. cbn [outer]. assert (G : forall v : R, v = v * 1) by (intros; ring). apply G.
  - intros x Hx. destruct (H x Hx) as (s & t & -> & Z). unfold at2. cbn [nth]. rewrite Z. ring.
Qed.
Lemma tria_not : forall q n k, qr_el q = kTria -> rule_for kTria k q -> (forall x, In x (qr_points q) -> exists s t, x = [s; t] /\ jacobi n 1 t = 0) ->
  ~ exact_to q (2 * n).
Proof.
  intros q n k El Rq H X. pose proof Rq as [_ Rp Rw _].
  assert (Rn : rule_for kTria (2 * n) q) by (constructor; assumption).
  assert (M : mono (tdeg (2 * n)) (fun _ y => jacobi n 1 y * jacobi n 1 y)).
  { replace (2 * n)%nat with (n + n)%nat by lia.
    apply (gr_mult tdeg tdeg_add n n (fun _ y => jacobi n 1 y)); apply (gr_jacobi_ab tdeg tdeg_zero tdeg_mono tdeg_add n 1 0 (fun _ y => y)); try lra;
      (eapply mono_eq; [|apply (mono_one (tdeg 1) 0 1 1); unfold tdeg; lia]; intros; cbn; ring). }
  pose proof (exact_two q kTria (2 * n) _ (or_introl eq_refl) Rn M) as E. rewrite quadrature_vanishes in E.
  - rewrite integral_two in E by (left; reflexivity).
    pose proof (jacobi_orthogonal 1 n n) as J. rewrite Nat.eqb_refl in J. cbn [INR] in J. pose proof (INR_pos n).
    assert (J' : RInt (fun y => jacobi n 1 y * jacobi n 1 y * (1 - y) ^ 1) 0 1 <> 0) by (rewrite J; apply Rgt_not_eq, Rdiv_lt_0_compat; lra).
    apply J'. etransitivity; [|symmetry; exact E]. apply RInt_e. intros y. cbn [outer].
    rewrite RInt_const. unfold scal; cbn. unfold mult; cbn. ring.
  - intros x Hx. destruct (H x Hx) as (s & t & -> & Z). unfold at2. cbn [nth]. rewrite Z. ring.
Qed.

(** *** The rules *)
Lemma rule_fields : forall t p w d q, QuadRule t p w d = Ok q -> qr_el q = t /\ qr_points q = p /\ qr_weights q = w /\ qr_degree q = d.
Proof.
  intros t p w d q H. unfold QuadRule in H. do 2 (apply bind_ok in H; destruct H as (? & _ & H)). injection H as <-. auto.
Qed.
Lemma in_kron : forall a b x, In x (kron a b) -> exists u v, In u a /\ In v b /\ x = u * v.
Proof.
  intros a b x H. unfold kron in H. apply in_concat in H. destruct H as (l & Hl & Hx). apply in_map_iff in Hl. destruct Hl as (u & <- & Hu).
  apply in_map_iff in Hx. destruct Hx as (v & <- & Hv). exists u, v. auto.
Qed.
Section Final.
Variables stop stopj : nat -> nat -> R.
Let leg := GaussLegendre stop.
Let jac := GaussJacobi stopj.
Lemma segment_rule : forall degree, finds_legendre_zeros stop (degree / 2 + 1) ->
  exists q, make_segment leg degree = Ok q /\ qr_degree q = (2 * (degree / 2 + 1) - 1)%nat /\ rule_for kSegment (qr_degree q) q /\
    degree_of_exactness q (qr_degree q) /\ positive_inside q.
Proof.
  intros degree F. set (n := (degree / 2 + 1)%nat) in *. assert (Hn : (1 <= n)%nat) by (unfold n; lia).
  destruct (gauss_legendre stop n Hn F) as (pw & E & L & L' & Pw & Zp & X).
  destruct (segment_ok leg degree) as (q & Eq & Dq & Rq); [exists pw; auto|]. fold n in Dq, Rq. exists q. split; [exact Eq|]. split; [exact Dq|]. rewrite Dq. split; [exact Rq|].
  unfold make_segment in Eq. cbv zeta in Eq. fold n in Eq. unfold leg in Eq. rewrite E in Eq. cbn [bind] in Eq. apply rule_fields in Eq. destruct Eq as (El & Ep & Ew & _).
  split.
  - split; [exact (rf_exact _ _ _ Rq)|]. replace (2 * n - 1 + 1)%nat with (2 * n)%nat by lia. apply (segment_not q n (2 * n - 1) El Rq).
    intros x Hx. rewrite Ep in Hx. apply in_map_iff in Hx. destruct Hx as (s & <- & Hs). exists s. split; [reflexivity|apply Zp, Hs].
  - split; [rewrite Ew; exact Pw|]. rewrite El, Ep. intros x Hx. apply in_map_iff in Hx. destruct Hx as (s & <- & Hs). apply Zp, Hs.
Qed.
Lemma quad_rule : forall degree, finds_legendre_zeros stop (degree / 2 + 1) ->
  exists q, make_quad leg degree = Ok q /\ qr_degree q = (2 * (degree / 2 + 1) - 1)%nat /\ rule_for kQuad (qr_degree q) q /\
    degree_of_exactness q (qr_degree q) /\ positive_inside q.
Proof.
  intros degree F. set (n := (degree / 2 + 1)%nat) in *. assert (Hn : (1 <= n)%nat) by (unfold n; lia).
  destruct (gauss_legendre stop n Hn F) as (pw & E & L & L' & Pw & Zp & X).
  destruct (quad_ok leg degree) as (q & Eq & Dq & Rq); [exists pw; auto|]. fold n in Dq, Rq. exists q. split; [exact Eq|]. split; [exact Dq|]. rewrite Dq. split; [exact Rq|].
  unfold make_quad in Eq. cbv zeta in Eq. fold n in Eq. unfold leg in Eq. rewrite E in Eq. cbn [bind] in Eq. apply rule_fields in Eq. destruct Eq as (El & Ep & Ew & _).
  assert (Hp : forall x, In x (qr_points q) -> exists s t, x = [s; t] /\ In s (fst pw) /\ In t (fst pw)).
  { intros x Hx. rewrite Ep in Hx.
    replace (repeat 1 n) with (map (fun _ => 1) (fst pw)) in Hx by (rewrite <- L; clear; induction (fst pw); cbn; congruence).
    replace (replicate n (fst pw)) with (replicate (length (fst pw)) (fst pw)) in Hx by (rewrite L; reflexivity).
    rewrite (columns_grid (fst pw) (fst pw) (fun _ => 1)) in Hx. apply in_concat in Hx. destruct Hx as (l & Hl & Hx).
    apply in_map_iff in Hl. destruct Hl as (s & <- & Hs). apply in_map_iff in Hx. destruct Hx as (t & <- & Ht). exists s, t. rewrite Rmult_1_r. auto. }
  split.
  - split; [exact (rf_exact _ _ _ Rq)|]. replace (2 * n - 1 + 1)%nat with (2 * n)%nat by lia. apply (quad_not q n (2 * n - 1) El Rq).
    intros x Hx. destruct (Hp x Hx) as (s & t & -> & Hs & _). exists s, t. split; [reflexivity|apply Zp, Hs].
  - split.
    + rewrite Ew. intros w Hw. apply in_kron in Hw. destruct Hw as (u & v & Hu & Hv & ->). apply Rmult_lt_0_compat; apply Pw; assumption.
    + rewrite El. intros x Hx. destruct (Hp x Hx) as (s & t & -> & Hs & Ht). split; apply Zp; assumption.
Qed.
Lemma duffy_rule : forall degree, finds_legendre_zeros stop (degree / 2 + 1) -> finds_jacobi_zeros stopj (degree / 2 + 1) ->
  exists q, make_duffy leg jac degree = Ok q /\ qr_degree q = (2 * (degree / 2 + 1) - 1)%nat /\ rule_for kTria (qr_degree q) q /\
    degree_of_exactness q (qr_degree q) /\ positive_inside q.
Proof.
  intros degree F F'. set (n := (degree / 2 + 1)%nat) in *. assert (Hn : (1 <= n)%nat) by (unfold n; lia).
  destruct (gauss_legendre stop n Hn F) as (pw & E & L & L' & Pw & Zp & X).
  destruct (gauss_jacobi stopj n Hn F') as (jw & Ej & Lj & Lj' & Pj & Zj & Xj).
  destruct (duffy_ok leg jac degree) as (q & Eq & Dq & Rq); [exists pw; auto|exists jw; auto|]. fold n in Dq, Rq. exists q. split; [exact Eq|]. split; [exact Dq|]. rewrite Dq. split; [exact Rq|].
  unfold make_duffy in Eq. cbv zeta in Eq. fold n in Eq. unfold leg, jac in Eq. rewrite E, Ej in Eq. cbn [bind] in Eq. apply rule_fields in Eq. destruct Eq as (El & Ep & Ew & _).
  set (jp := map (fun x => (x + 1) / 2) (fst jw)) in *.
  assert (Hp : forall x, In x (qr_points q) -> exists s t, x = [s * (1 - t); t] /\ In s (fst pw) /\ In t jp).
  { intros x Hx. rewrite Ep in Hx.
    replace (replicate n jp) with (replicate (length (fst pw)) jp) in Hx by (rewrite L; reflexivity).
    rewrite (columns_grid (fst pw) jp (fun y => 1 - y)) in Hx. apply in_concat in Hx. destruct Hx as (l & Hl & Hx).
    apply in_map_iff in Hl. destruct Hl as (s & <- & Hs). apply in_map_iff in Hx. destruct Hx as (t & <- & Ht). exists s, t. auto. }
  assert (Hj : forall t, In t jp -> jacobi n 1 t = 0 /\ 0 < t < 1).
  { intros t Ht. apply in_map_iff in Ht. destruct Ht as (z & <- & Hz). destruct (Zj z Hz) as (H1 & H2). split; [exact H1|lra]. }
  split.
  - split; [exact (rf_exact _ _ _ Rq)|]. replace (2 * n - 1 + 1)%nat with (2 * n)%nat by lia. apply (tria_not q n (2 * n - 1) El Rq).
    intros x Hx. destruct (Hp x Hx) as (s & t & -> & _ & Ht). exists (s * (1 - t)), t. split; [reflexivity|apply Hj, Ht].
  - split.
    + rewrite Ew. intros w Hw. apply in_kron in Hw. destruct Hw as (u & v & Hu & Hv & ->). apply in_map_iff in Hv. destruct Hv as (v' & <- & Hv').
      apply Rmult_lt_0_compat; [apply Pw, Hu|]. pose proof (Pj v' Hv'). lra.
    + rewrite El. intros x Hx. destruct (Hp x Hx) as (s & t & -> & Hs & Ht). cbn [inside]. destruct (Zp s Hs) as (_ & H1). destruct (Hj t Ht) as (_ & H2).
      assert (0 < s * (1 - t)) by (apply Rmult_lt_0_compat; lra). assert (0 < (1 - s) * (1 - t)) by (apply Rmult_lt_0_compat; lra). lra.
Qed.
End Final.
