(** The Gauss-Legendre and Gauss-Jacobi rules of the code. *)
From Coq Require Import Reals List Arith Lia Lra Bool.
From Coquelicot Require Import Coquelicot.
Import ListNotations.
From Verif Require Import Base MeshModel MeshView DofModel RefPatModel GeoModel GeoSpec
  FeModel LagrModel QuadModel HierModel FeSpec QuadSpec Calc LagrProofs2 FeProofs LegendreProofs JacobiProofs OrthoProofs
  HierProofs HierProofs2 PolyProofs HierProofs3 QuadRuleModel QuadProofs QuadProofs2 GaussProofs.
Local Open Scope R_scope.

Lemma poly_pe : forall k c x, poly (exponents kSegment k) c [x] = pe (fun a => c [a]) (k + 1) x.
Proof.
  intros k c x. unfold poly, exponents. rewrite map_map. rewrite (map_ext _ (fun a => c [a] * x ^ a)) by (intros; rewrite mono1; reflexivity).
  induction (k + 1)%nat as [|n IH]; [reflexivity|]. rewrite seq_S, map_app. cbn [pe map Nat.add].
  rewrite <- IH. unfold rsum. rewrite fold_right_app. cbn [fold_right]. generalize (map (fun a => c [a] * x ^ a) (seq 0 n)). intros l.
  rewrite Rplus_0_r. induction l as [|a l IHl]; cbn [fold_right]; [ring|]. rewrite IHl. ring.
Qed.
Lemma dot_rsum : forall (u f : R -> R) l, dot (map u l) (map f l) = rsum (map (fun s => u s * f s) l).
Proof. intros u f l. induction l as [|s l IH]; [reflexivity|]. cbn [map]. rewrite dot_cons, IH. reflexivity. Qed.

(** *** Rules on the unit interval *)
Section Roots.
Variables q n : nat.
Hypothesis Hn : (1 <= n)%nat.
Variable r : list R.
Hypothesis Lr : length r = n.
Hypothesis Nr : NoDup r.
Hypothesis Zr : forall s, In s r -> jacobi n (INR q) s = 0.
Lemma exact_pe : forall a k, (k <= 2 * n)%nat -> Q q n r (pe a k) = RInt (fun x => pe a k x * (1 - x) ^ q) 0 1.
Proof.
  intros a. assert (Sw := smooth_w q). cbv beta in Sw. induction k as [|k IH]; intros Hk.
  - rewrite (Q_ext q n r _ (fun x => 0 * 0)) by (intros; cbn; ring). rewrite (Q_scale q n r (fun _ => 0)).
    rewrite (RInt_e _ (fun x => 0 * 0)) by (intros; cbn; ring). rewrite (RInt_c (fun _ => 0)) by smooth_tac. to_R. ring.
  - rewrite (Q_ext q n r _ (fun x => pe a k x + a k * x ^ k)) by reflexivity. rewrite Q_plus, Q_scale.
    change (Q q n r (fun x => pe a k x)) with (Q q n r (pe a k)).
    rewrite IH, (exact_pow q n Hn r Lr Nr Zr k) by lia.
    rewrite (RInt_e (fun x => pe a (S k) x * (1 - x) ^ q) (fun x => pe a k x * (1 - x) ^ q + a k * (x ^ k * (1 - x) ^ q))) by (intros; cbn [pe]; ring).
    rewrite RInt_p, RInt_c; [reflexivity| | |]; repeat first [apply smooth_mult | apply Sw | apply smooth_const | apply smooth_pe | apply (smooth_pow (fun x => x)); apply smooth_id].
Qed.
Lemma exact_rule : exact_weighted 0 1 (fun y => (1 - y) ^ q) (2 * n - 1) (r, map (weight q n) r).
Proof.
  split; [cbn; apply map_length|]. intros c. cbn [fst snd]. rewrite dot_rsum.
  pose proof (exact_pe (fun a => c [a]) (2 * n - 1 + 1) ltac:(lia)) as E.
  rewrite (RInt_e _ (fun x => pe (fun a => c [a]) (2 * n - 1 + 1) x * (1 - x) ^ q)) by (intros; rewrite poly_pe; reflexivity).
  rewrite <- E. unfold Q. f_equal. apply map_ext. intros s. rewrite poly_pe. reflexivity.
Qed.
End Roots.
Lemma weight_pos : forall q n s, (1 <= n)%nat -> 0 < weight q n s.
Proof. intros q n s Hn. unfold weight. apply Rdiv_lt_0_compat; [lra|]. destruct n as [|m]; [lia|apply K_pos]. Qed.

(** *** Gauss-Legendre *)
Lemma gl_values_eq : forall n z, gl_values (S n) z = (legendre (S n) ((1 + z) / 2) 1, legendre n ((1 + z) / 2) 1).
Proof.
  intros n z. unfold gl_values. induction n as [|n IH].
  - cbn. unfold gl_step. cbn [fst snd INR]. f_equal. field.
  - rewrite seq_S, fold_left_app, IH. cbn [fold_left Nat.add]. unfold gl_step. cbn [fst snd]. f_equal.
    rewrite legendre_rec. rewrite !S_INR. pose proof (INR_pos n). field. lra.
Qed.
Lemma legendre_dx_jacobi : forall n x, jacobi_dx n 0 x = legendre_dx n x 1.
Proof.
  intros n x. assert (D1 : is_derive (fun s => legendre n s 1) x (legendre_dx n x 1)).
  { pose proof (legendre_qd n x 1) as Hq.
    apply (qd_derive _ x 1 _ 0). eapply qd_eq; [apply (qd_comp _ (fun s _ => s) (fun _ _ => 1)); [exact Hq|apply qd_fst|apply qd_const]| |]; ring. }
  assert (D2 : is_derive (jacobi n 0) x (jacobi_dx n 0 x)) by (apply (qd_derive _ x 0 _ 0), jacobi_qd; lra).
  apply (is_derive_ext _ (fun s => legendre n s 1)) in D2; [|intros; symmetry; apply legendre_jacobi].
  rewrite <- (is_derive_unique _ _ _ D1). symmetry. apply (is_derive_unique _ _ _ D2).
Qed.

Lemma weight_legendre : forall n x, (1 <= n)%nat -> legendre n x 1 = 0 ->
  (2 * x - 1) * (2 * x - 1) <> 1 /\ legendre (n - 1) x 1 <> 0 /\
  weight 0 n x = (1 - (2 * x - 1) * (2 * x - 1)) / (INR n * legendre (n - 1) x 1) ^ 2.
Proof.
  intros n x Hn Z. destruct n as [|n]; [lia|]. rewrite Nat.sub_succ, Nat.sub_0_r.
  pose proof (legendre_E x 1 n) as E1. pose proof (legendre_dx_S x 1 n) as E2. cbv beta zeta in E1, E2.
  set (z := 2 * x - 1) in *. pose proof (INR_pos n) as Hp.
  assert (D : (1 - z * z) * legendre_dx (S n) x 1 = 2 * (INR n + 1) * legendre n x 1).
  { rewrite Z in E1. replace (legendre_dx n x 1) with (z * legendre_dx (S n) x 1) in E2 by lra. lra. }
  pose proof (K_diagonal 0 n x) as Kd. pose proof (K_pos 0 n x) as Kp. cbn [INR] in Kd.
  rewrite <- !legendre_jacobi, Z, legendre_dx_jacobi in Kd. 
  replace (gam 0 n) with ((INR n + 1) / 2) in Kd.
  2: { unfold gam, rA. cbn [INR]. field. lra. }
  rewrite Rmult_0_r, Rminus_0_r in Kd.
  assert (L0 : legendre n x 1 <> 0) by (intros E; rewrite E, Rmult_0_r, Rmult_0_r in Kd; lra).
  assert (Z1 : z * z <> 1).
  { intros E. rewrite E in D. apply L0. apply (Rmult_eq_reg_l (2 * (INR n + 1))); lra. }
  split; [exact Z1|]. split; [exact L0|]. unfold weight. rewrite Kd.
  replace (legendre_dx (S n) x 1) with (2 * (INR n + 1) * legendre n x 1 / (1 - z * z)).
  2: { rewrite <- D. field. lra. }
  rewrite S_INR. field. repeat split; lra.
Qed.
Lemma upd_map_seq : forall (f : nat -> R) n i v, upd i v (map f (seq 0 n)) = map (fun j => if Nat.eqb j i then v else f j) (seq 0 n).
Proof.
  assert (G : forall n (f : nat -> R) i v k, upd i v (map f (seq k n)) = map (fun j => if Nat.eqb j (k + i) then v else f j) (seq k n)).
  { induction n as [|n IH]; intros f i v k; [destruct i; reflexivity|]. destruct i as [|i]; cbn [seq map upd].
    - rewrite Nat.add_0_r, Nat.eqb_refl. f_equal. apply map_ext_in. intros j Hj. apply in_seq in Hj. destruct (Nat.eqb_spec j k); [lia|reflexivity].
    - destruct (Nat.eqb_spec k (k + S i)); [lia|]. f_equal. rewrite IH. apply map_ext. intros j. replace (S k + i)%nat with (k + S i)%nat by lia. reflexivity. }
  intros f n i v. rewrite G. reflexivity.
Qed.
Lemma repeat_map_seq : forall n (v : R), repeat v n = map (fun _ => v) (seq 0 n).
Proof. intros n v. generalize 0%nat. induction n as [|n IH]; intros k; cbn; [reflexivity|]. f_equal. apply IH. Qed.
(** Both loops that write entries i and n - 1 - i, for i up to the middle. *)
Lemma mirrored : forall (n m : nat) (u v : nat -> R), (m <= (n + 1) / 2)%nat ->
  fold_left (fun l i => upd (n - 1 - i) (v i) (upd i (u i) l)) (seq 0 m) (repeat 0 n) =
  map (fun j => if ((2 * j + 1 <? n) && (j <? m))%nat then u j
                else if ((n <=? 2 * j + 1) && (n - 1 - j <? m))%nat then v (n - 1 - j)%nat else 0) (seq 0 n).
Proof.
  intros n m u v. assert (Hm : (2 * ((n + 1) / 2) <= n + 1)%nat) by (apply Nat.mul_div_le; lia). revert Hm. generalize ((n + 1) / 2)%nat. intros h Hh Hm.
  induction m as [|m IH].
  - cbn [seq fold_left]. rewrite repeat_map_seq. apply map_ext. intros j.
    rewrite !andb_false_r. reflexivity.
  - rewrite seq_S, fold_left_app, IH by lia. cbn [fold_left Nat.add]. rewrite !upd_map_seq. apply map_ext_in. intros j Hj. apply in_seq in Hj.
    destruct (Nat.eqb_spec j (n - 1 - m)), (Nat.eqb_spec j m), (Nat.ltb_spec (2 * j + 1) n), (Nat.leb_spec n (2 * j + 1)),
      (Nat.ltb_spec j m), (Nat.ltb_spec j (S m)), (Nat.ltb_spec (n - 1 - j) m), (Nat.ltb_spec (n - 1 - j) (S m)); cbn [andb]; try lia; try reflexivity; subst; try reflexivity; f_equal; lia.
Qed.
Lemma fold_pair : forall (X : Type) (f g : list R -> X -> list R) l a b,
  fold_left (fun (s : list R * list R) i => (f (fst s) i, g (snd s) i)) l (a, b) = (fold_left f l a, fold_left g l b).
Proof. intros X f g l. induction l as [|x l IH]; intros a b; [reflexivity|]. cbn [fold_left fst snd]. apply IH. Qed.
Definition gl_point (stop : nat -> nat -> R) (n j : nat) : R :=
  if (2 * j + 1 <? n)%nat then 1 / 2 * (1 - gl_next n (stop n j)) else 1 / 2 * (1 + gl_next n (stop n (n - 1 - j)%nat)).
Definition gl_stop (stop : nat -> nat -> R) (n j : nat) : R := if (2 * j + 1 <? n)%nat then stop n j else stop n (n - 1 - j)%nat.
Definition gl_weight (n : nat) (z1 : R) : R :=
  let z := gl_next n z1 in let pp := gl_pp n z1 in 1 / ((1 - z * z) * pp * pp).
Lemma half_up : forall n j, (j < n)%nat -> (n <= 2 * j + 1)%nat -> (n - 1 - j < (n + 1) / 2)%nat.
Proof. intros n j H H'. apply Nat.div_le_lower_bound; lia. Qed.
Lemma half_low : forall n j, (2 * j + 1 < n)%nat -> (j < (n + 1) / 2)%nat.
Proof. intros n j H. apply Nat.div_le_lower_bound; lia. Qed.
Lemma gauss_legendre_eq : forall stop n, (1 <= n)%nat ->
  GaussLegendre stop n = Ok (map (gl_point stop n) (seq 0 n), map (fun j => gl_weight n (gl_stop stop n j)) (seq 0 n)).
Proof.
  intros stop n Hn. unfold GaussLegendre. destruct (Nat.ltb_spec 0 n); [|lia]. cbn [lf_assert bind]. cbv zeta. f_equal.
  rewrite (fold_pair nat (fun l i => upd (n - 1 - i) (1 / 2 * (1 + gl_next n (stop n i))) (upd i (1 / 2 * (1 - gl_next n (stop n i))) l))
             (fun l i => upd (n - 1 - i) (gl_weight n (stop n i)) (upd i (gl_weight n (stop n i)) l))).
  rewrite (mirrored n _ (fun i => 1 / 2 * (1 - gl_next n (stop n i))) (fun i => 1 / 2 * (1 + gl_next n (stop n i))) (le_n _)).
  rewrite (mirrored n _ (fun i => gl_weight n (stop n i)) (fun i => gl_weight n (stop n i)) (le_n _)).
  f_equal; apply map_ext_in; intros j Hj; apply in_seq in Hj; unfold gl_point, gl_stop;
    pose proof (half_up n j); pose proof (half_low n j);
    destruct (Nat.ltb_spec (2 * j + 1) n), (Nat.leb_spec n (2 * j + 1)); try lia;
    destruct (Nat.ltb_spec j ((n + 1) / 2)), (Nat.ltb_spec (n - 1 - j) ((n + 1) / 2)); cbn [andb]; try lia; reflexivity.
Qed.
Lemma gl_at_root : forall n z, (1 <= n)%nat -> legendre n ((1 + z) / 2) 1 = 0 ->
  gl_next n z = z /\ gl_weight n z = weight 0 n ((1 + z) / 2) /\ gl_weight n z = weight 0 n ((1 - z) / 2) /\ legendre n ((1 - z) / 2) 1 = 0 /\ z * z <> 1.
Proof.
  intros n z Hn Z. destruct (weight_legendre n ((1 + z) / 2) Hn Z) as (Z1 & L0 & W).
  assert (F : forall k, legendre k ((1 - z) / 2) 1 = (-1) ^ k * legendre k ((1 + z) / 2) 1).
  { intros k. rewrite <- (legendre_flip k ((1 + z) / 2) 1). f_equal. field. }
  assert (Z' : legendre n ((1 - z) / 2) 1 = 0) by (rewrite F, Z; ring).
  destruct (weight_legendre n ((1 - z) / 2) Hn Z') as (_ & _ & W').
  replace (2 * ((1 + z) / 2) - 1) with z in * by field. replace (2 * ((1 - z) / 2) - 1) with (- z) in W' by field.
  assert (V : gl_next n z = z /\ gl_pp n z = INR n * legendre (n - 1) ((1 + z) / 2) 1 / (1 - z * z)).
  { destruct n as [|n]; [lia|]. rewrite Nat.sub_succ, Nat.sub_0_r in *. unfold gl_next, gl_pp. rewrite gl_values_eq. cbn [fst snd]. rewrite Z. split.
    - unfold Rdiv. ring.
    - field. lra. }
  destruct V as (V & V'). assert (N0 : INR n <> 0) by (apply not_0_INR; lia). split; [exact V|].
  assert (Wz : gl_weight n z = (1 - z * z) / (INR n * legendre (n - 1) ((1 + z) / 2) 1) ^ 2).
  { unfold gl_weight. cbv zeta. rewrite V, V'. field. repeat split; auto; lra. }
  split; [rewrite Wz, W; reflexivity|]. split; [|split; [exact Z'|exact Z1]].
  rewrite Wz, W', F. assert (S1 : (-1) ^ (n - 1) * (-1) ^ (n - 1) = 1) by (rewrite <- Rpow_mult_distr; replace (-1 * -1) with 1 by ring; apply pow1).
  replace ((INR n * ((-1) ^ (n - 1) * legendre (n - 1) ((1 + z) / 2) 1)) ^ 2)
    with ((INR n * legendre (n - 1) ((1 + z) / 2) 1) ^ 2 * ((-1) ^ (n - 1) * (-1) ^ (n - 1))) by ring.
  rewrite S1. field. split; auto.
Qed.
(** The hypothesis on the iteration: it ends at zeros of the Legendre polynomial. *)
Lemma gauss_legendre_exact : forall stop n, (1 <= n)%nat ->
  (forall i, (i < (n + 1) / 2)%nat -> legendre n ((1 + stop n i) / 2) 1 = 0) ->
  exists pw, GaussLegendre stop n = Ok pw /\ length (fst pw) = n /\ length (snd pw) = n /\ (forall c, In c (snd pw) -> 0 < c) /\
    (forall x, In x (fst pw) -> legendre n x 1 = 0) /\
    (NoDup (fst pw) -> exact_weighted 0 1 (fun _ => 1) (2 * n - 1) pw).
Proof.
  intros stop n Hn H. rewrite (gauss_legendre_eq stop n Hn). eexists. split; [reflexivity|]. cbn [fst snd]. rewrite !map_length, seq_length.
  assert (X : forall j, (j < n)%nat -> legendre n (gl_point stop n j) 1 = 0 /\ gl_weight n (gl_stop stop n j) = weight 0 n (gl_point stop n j)).
  { intros j Hj. unfold gl_stop, gl_point. destruct (Nat.ltb_spec (2 * j + 1) n) as [Hc|Hc].
    - destruct (gl_at_root n (stop n j) Hn (H j (half_low n j Hc))) as (E & W & W' & Z & _).
      rewrite E. replace (1 / 2 * (1 - stop n j)) with ((1 - stop n j) / 2) by field. auto.
    - pose proof (H _ (half_up n j Hj Hc)) as Z. destruct (gl_at_root n (stop n (n - 1 - j)%nat) Hn Z) as (E & W & W' & _).
      rewrite E. replace (1 / 2 * (1 + stop n (n - 1 - j)%nat)) with ((1 + stop n (n - 1 - j)%nat) / 2) by field. auto. }
  split; [reflexivity|]. split; [reflexivity|]. split.
  { intros c Hc. apply in_map_iff in Hc. destruct Hc as (j & <- & Hj). apply in_seq in Hj. rewrite (proj2 (X j ltac:(lia))). apply weight_pos, Hn. }
  split. { intros x Hx. apply in_map_iff in Hx. destruct Hx as (j & <- & Hj). apply in_seq in Hj. apply X. lia. }
  intros ND. set (r := map (gl_point stop n) (seq 0 n)) in *.
  assert (E : map (fun j => gl_weight n (gl_stop stop n j)) (seq 0 n) = map (weight 0 n) r).
  { unfold r. rewrite map_map. apply map_ext_in. intros j Hj. apply in_seq in Hj. apply X. lia. }
  rewrite E. assert (Lr : length r = n) by (unfold r; rewrite map_length, seq_length; reflexivity).
  assert (Zr : forall s, In s r -> jacobi n (INR 0) s = 0).
  { intros s Hs. cbn [INR]. rewrite <- legendre_jacobi. apply in_map_iff in Hs. destruct Hs as (j & <- & Hj). apply in_seq in Hj. apply X. lia. }
  destruct (exact_rule 0 n Hn r Lr ND Zr) as (L & G). split; [exact L|]. intros c. rewrite (G c). apply RInt_e. intros; cbn [pow]; ring.
Qed.
