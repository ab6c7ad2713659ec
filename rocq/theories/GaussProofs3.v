(** The Gauss-Jacobi rule of the code and the rules built from it. *)
From Coq Require Import Reals List Arith Lia Lra Bool.
From Coquelicot Require Import Coquelicot.
Import ListNotations.
From Verif Require Import Base MeshModel MeshView DofModel RefPatModel GeoModel GeoSpec
  FeModel LagrModel QuadModel HierModel FeSpec QuadSpec Calc LagrProofs2 FeProofs LegendreProofs JacobiProofs OrthoProofs
  HierProofs HierProofs2 PolyProofs HierProofs3 QuadRuleModel QuadProofs QuadProofs2 GaussProofs GaussProofs2.
Local Open Scope R_scope.

Lemma gj_values_eq : forall n z, let y := (1 + z) / 2 in gj_values (S n) z = (2 * INR (S n) + 1, jacobi (S n) 1 y, jacobi n 1 y).
Proof.
  intros n z y. unfold gj_values. rewrite Nat.sub_succ, Nat.sub_0_r. induction n as [|n IH].
  - cbn [seq fold_left]. unfold jacobi, jacobi_ab, y. cbn [INR]. apply f_equal2; [apply f_equal2|]; [ring|field|reflexivity].
  - rewrite seq_S, fold_left_app, IH. cbn [fold_left Nat.add]. unfold gj_step. cbv beta iota zeta. apply f_equal2; [apply f_equal2|reflexivity]; [rewrite !S_INR; ring|].
    unfold jacobi. rewrite (jacobi_rec 1 0 y n). cbv zeta. unfold y. rewrite !S_INR. pose proof (INR_pos n). field. repeat split; lra.
Qed.
Lemma times_dx : forall n y, jacobi n 1 y + y * jacobi_dx n 1 y =
  rA 1 n * jacobi_dx (S n) 1 y + rB 1 n * jacobi_dx n 1 y + rC 1 n * jacobi_dx (pred n) 1 y.
Proof.
  intros n y. assert (DP : forall k, is_derive (jacobi k 1) y (jacobi_dx k 1 y)) by (intros k; apply (qd_derive _ y 0 _ 0), jacobi_qd; lra).
  assert (D1 : is_derive (fun x => x * jacobi n 1 x) y (jacobi n 1 y + y * jacobi_dx n 1 y)).
  { evar_last. apply (is_derive_mult (fun x => x) (jacobi n 1) y 1 (jacobi_dx n 1 y)).
    - apply (is_derive_id y).
    - apply DP.
    - intros; apply Rmult_comm.
    - cbn. unfold plus, mult; cbn. ring. }
  assert (D2 : is_derive (fun x => rA 1 n * jacobi (S n) 1 x + rB 1 n * jacobi n 1 x + rC 1 n * jacobi (pred n) 1 x) y
     (rA 1 n * jacobi_dx (S n) 1 y + rB 1 n * jacobi_dx n 1 y + rC 1 n * jacobi_dx (pred n) 1 y)).
  { apply (is_derive_plus (fun x => rA 1 n * jacobi (S n) 1 x + rB 1 n * jacobi n 1 x)).
    - apply (is_derive_plus (fun x => rA 1 n * jacobi (S n) 1 x)); apply is_derive_scal, DP.
    - apply is_derive_scal, DP. }
  apply (is_derive_ext _ (fun x => x * jacobi n 1 x)) in D2; [|intros x; symmetry; apply (times_y 1 n x)].
  rewrite <- (is_derive_unique _ _ _ D1). apply (is_derive_unique _ _ _ D2).
Qed.
(** Derivative in terms of the polynomials. *)
Lemma jacobi_structure : forall n y, let z := 2 * y - 1 in
  (2 * INR (S n) + 1) * (1 - z * z) * jacobi_dx (S n) 1 y =
  2 * (INR (S n) * (1 - (2 * INR (S n) + 1) * z) * jacobi (S n) 1 y + 2 * INR (S n) * (INR (S n) + 1) * jacobi n 1 y).
Proof.
  assert (J1 : forall y, jacobi 1 1 y = 1 / 2 * (1 - 0 + (2 * y - 1) * (1 + 0 + 2))) by reflexivity.
  assert (J0 : forall y, jacobi 0 1 y = 1) by reflexivity.
  assert (D0 : forall y, jacobi_dx 0 1 y = 0) by (intros; reflexivity).
  assert (D1 : forall y, jacobi_dx 1 1 y = 3).
  { intros y. pose proof (times_dx 0 y) as T. rewrite D0, J0 in T. unfold rA, rB, rC in T. cbn [INR pred] in T. lra. }
  intros n y z. enough (H : forall k,
    (2 * INR (S k) + 1) * (1 - z * z) * jacobi_dx (S k) 1 y =
      2 * (INR (S k) * (1 - (2 * INR (S k) + 1) * z) * jacobi (S k) 1 y + 2 * INR (S k) * (INR (S k) + 1) * jacobi k 1 y) /\
    (2 * INR (S (S k)) + 1) * (1 - z * z) * jacobi_dx (S (S k)) 1 y =
      2 * (INR (S (S k)) * (1 - (2 * INR (S (S k)) + 1) * z) * jacobi (S (S k)) 1 y + 2 * INR (S (S k)) * (INR (S (S k)) + 1) * jacobi (S k) 1 y)) by apply H.
  assert (Nx : forall k, jacobi_dx (S k) 1 y = / rA 1 k * (jacobi k 1 y + y * jacobi_dx k 1 y - rB 1 k * jacobi_dx k 1 y - rC 1 k * jacobi_dx (pred k) 1 y)).
  { intros k. rewrite times_dx. pose proof (rA_pos 1 k). field. lra. }
  assert (Np : forall k, jacobi (S k) 1 y = / rA 1 k * (y * jacobi k 1 y - rB 1 k * jacobi k 1 y - rC 1 k * jacobi (pred k) 1 y)).
  { intros k. apply (next_P 1). }
  induction k as [|k [H0 H1]].
  - split.
    + rewrite D1, J1, J0. cbn [INR]. unfold z. field.
    + rewrite (Nx 1%nat), (Np 1%nat). cbn [pred]. rewrite D1, D0, J1, J0. unfold rA, rB, rC. cbn [INR]. unfold z. field.
  - split; [exact H1|]. rewrite (Nx (S (S k))). cbn [pred].
    pose proof (INR_pos k) as Hk. rewrite (Np (S (S k))). cbn [pred]. pose proof (Np (S k)) as N1. cbn [pred] in N1.
    set (Dk := jacobi_dx (S k) 1 y) in *. set (Dk1 := jacobi_dx (S (S k)) 1 y) in *.
    set (P0 := jacobi k 1 y) in *. set (P1 := jacobi (S k) 1 y) in *. set (P2 := jacobi (S (S k)) 1 y) in *.
    assert (E1 : (1 - z * z) * Dk = / (2 * INR (S k) + 1) * (2 * (INR (S k) * (1 - (2 * INR (S k) + 1) * z) * P1 + 2 * INR (S k) * (INR (S k) + 1) * P0))).
    { rewrite <- H0. rewrite !S_INR. field. lra. }
    assert (E2 : (1 - z * z) * Dk1 = / (2 * INR (S (S k)) + 1) * (2 * (INR (S (S k)) * (1 - (2 * INR (S (S k)) + 1) * z) * P2 + 2 * INR (S (S k)) * (INR (S (S k)) + 1) * P1))).
    { rewrite <- H1. rewrite !S_INR. field. lra. }
    set (a := rA 1 (S (S k))) in *. set (b := rB 1 (S (S k))) in *. set (c := rC 1 (S (S k))) in *.
    transitivity ((2 * INR (S (S (S k))) + 1) * (/ a * ((1 - z * z) * P2 + (y - b) * ((1 - z * z) * Dk1) - c * ((1 - z * z) * Dk)))); [ring|].
    rewrite E1, E2.
    assert (P0e : P0 = (y * P1 - rB 1 (S k) * P1 - rA 1 (S k) * P2) / rC 1 (S k)).
    { rewrite N1. unfold rA, rC. rewrite !S_INR. cbn [INR]. field. repeat split; lra. }
    rewrite P0e. unfold a, b, c, rA, rB, rC. rewrite !S_INR. cbn [INR]. unfold z. field. repeat split; lra.
Qed.
Lemma gj_at_root : forall n z, (1 <= n)%nat -> jacobi n 1 ((1 + z) / 2) = 0 ->
  gj_next n z = z /\ gj_weight n z = 4 * weight 1 n ((1 + z) / 2) /\ z * z <> 1.
Proof.
  intros n z Hn Z. destruct n as [|n]; [lia|]. set (y := (1 + z) / 2) in *.
  pose proof (jacobi_structure n y) as St. cbv zeta in St. replace (2 * y - 1) with z in St by (unfold y; field).
  pose proof (K_diagonal 1 n y) as Kd. pose proof (K_pos 1 n y) as Kp. cbn [INR] in Kd.
  rewrite Z in Kd, St. rewrite Rmult_0_r, Rminus_0_r in Kd.
  assert (P0 : jacobi n 1 y <> 0) by (intros E; rewrite E, Rmult_0_r, Rmult_0_r in Kd; lra).
  assert (D0 : jacobi_dx (S n) 1 y <> 0) by (intros E; rewrite E, Rmult_0_l, Rmult_0_r in Kd; lra).
  pose proof (INR_pos n) as Hp. rewrite S_INR in St.
  assert (Z1 : z * z <> 1).
  { intros E. rewrite E in St. apply P0. apply (Rmult_eq_reg_l (4 * ((INR n + 1) * (INR n + 2)))).
    - lra.
    - apply Rmult_integral_contrapositive_currified; [lra|]. apply Rmult_integral_contrapositive_currified; lra. }
  assert (Pp : gj_pp (S n) z = jacobi_dx (S n) 1 y / 2).
  { unfold gj_pp. rewrite gj_values_eq. fold y. rewrite Z. cbv beta iota.
    replace (jacobi_dx (S n) 1 y) with (2 * (2 * (INR n + 1) * (INR n + 1 + 1) * jacobi n 1 y) / ((2 * (INR n + 1) + 1) * (1 - z * z))).
    - rewrite S_INR. field. repeat split; lra.
    - apply (Rmult_eq_reg_l ((2 * (INR n + 1) + 1) * (1 - z * z))).
      + rewrite St. field. repeat split; lra.
      + apply Rmult_integral_contrapositive_currified; lra. }
  split; [|split; [|exact Z1]].
  - unfold gj_next. rewrite gj_values_eq. fold y. cbn [fst snd]. rewrite Z. unfold Rdiv. ring.
  - unfold gj_weight. rewrite gj_values_eq. fold y. cbv beta iota. rewrite Pp, Nat.sub_succ, Nat.sub_0_r.
    unfold weight. rewrite Kd. unfold gam, rA. replace (S n + 1)%nat with (S (S n)) by lia. rewrite !fact_S. rewrite !S_INR. cbn [INR].
    pose proof (INR_fact_lt_0 n). field. repeat split; lra.
Qed.

Lemma isp_affine : forall n f, isp n f -> isp n (fun y => f (2 * y - 1)).
Proof.
  assert (Pw : forall k, isp (S k) (fun y => (2 * y - 1) ^ k)).
  { induction k as [|k IH]; [apply (isp_ext _ (fun _ => 1)); [reflexivity|apply isp_const]|].
    apply (isp_ext _ (fun y => 2 * (y * (2 * y - 1) ^ k) - (2 * y - 1) ^ k)); [intros; cbn [pow]; ring|].
    apply isp_minus; [apply isp_scale, isp_x, IH|]. apply (isp_up (S k)); [lia|exact IH]. }
  intros n f (a & E). apply (isp_ext _ (fun y => pe a n (2 * y - 1))); [intros; symmetry; apply E|]. clear E.
  induction n as [|n IH]; [apply isp_zero|]. cbn [pe]. apply isp_plus; [apply (isp_up n); [lia|exact IH]|]. apply isp_scale, Pw.
Qed.
Lemma gauss_jacobi_exact : forall stopj n, (1 <= n)%nat ->
  (forall i, (i < n)%nat -> jacobi n 1 ((1 + stopj n i) / 2) = 0) ->
  exists pw, GaussJacobi stopj n = Ok pw /\ length (fst pw) = n /\ length (snd pw) = n /\ (forall c, In c (snd pw) -> 0 < c) /\
    (forall z, In z (fst pw) -> jacobi n 1 ((1 + z) / 2) = 0 /\ z <> 1) /\
    (NoDup (fst pw) -> exact_weighted (-1) 1 (fun z => 1 - z) (2 * n - 1) pw).
Proof.
  intros stopj n Hn H. unfold GaussJacobi. destruct (Nat.ltb_spec 0 n); [|lia]. cbn [lf_assert bind].
  eexists. split; [reflexivity|]. cbn [fst snd]. rewrite !map_length, seq_length.
  assert (Ep : map (fun i => gj_next n (stopj n i)) (seq 0 n) = map (stopj n) (seq 0 n)).
  { apply map_ext_in. intros i Hi. apply in_seq in Hi. apply gj_at_root; [exact Hn|apply H; lia]. }
  assert (Ew : map (fun i => gj_weight n (stopj n i)) (seq 0 n) = map (fun z => 4 * weight 1 n ((1 + z) / 2)) (map (stopj n) (seq 0 n))).
  { rewrite map_map. apply map_ext_in. intros i Hi. apply in_seq in Hi. apply gj_at_root; [exact Hn|apply H; lia]. }
  rewrite Ep, Ew. set (zs := map (stopj n) (seq 0 n)) in *.
  assert (Zz : forall z, In z zs -> jacobi n 1 ((1 + z) / 2) = 0).
  { intros z Hz. apply in_map_iff in Hz. destruct Hz as (i & <- & Hi). apply in_seq in Hi. apply H. lia. }
  split; [reflexivity|]. split; [reflexivity|]. split.
  { intros c Hc. apply in_map_iff in Hc. destruct Hc as (j & <- & _). pose proof (weight_pos 1 n ((1 + j) / 2) Hn). lra. }
  split. { intros z Hz. split; [apply Zz, Hz|]. intros ->. destruct (gj_at_root n 1 Hn (Zz 1 Hz)) as (_ & _ & Z1). lra. }
  intros ND. split; [cbn; apply map_length|]. intros c. cbn [fst snd].
  set (r := map (fun z => (1 + z) / 2) zs).
  assert (Lr : length r = n) by (unfold r, zs; rewrite !map_length, seq_length; reflexivity).
  assert (Nr : NoDup r).
  { unfold r. apply FinFun.Injective_map_NoDup; [|exact ND]. intros u v E. lra. }
  assert (Zr : forall s, In s r -> jacobi n (INR 1) s = 0).
  { intros s Hs. apply in_map_iff in Hs. destruct Hs as (z & <- & Hz). apply Zz, Hz. }
  set (f := fun z => poly (exponents kSegment (2 * n - 1)) c [z]).
  destruct (isp_affine (2 * n) f) as (a & Ea).
  { exists (fun i => c [i]). intros x. unfold f. rewrite poly_pe. f_equal. lia. }
  pose proof (exact_pe 1 n Hn r Lr Nr Zr a (2 * n) (le_n _)) as E.
  change (dot (map (fun z => 4 * weight 1 n ((1 + z) / 2)) zs) (map f zs) = RInt (fun x => f x * (1 - x)) (-1) 1).
  rewrite dot_rsum.
  assert (El : rsum (map (fun s => 4 * weight 1 n ((1 + s) / 2) * f s) zs) = 4 * Q 1 n r (pe a (2 * n))).
  { unfold Q, r. rewrite map_map. clear -Ea. induction zs as [|z zs IH]; cbn [map rsum fold_right]; [ring|].
    unfold rsum in IH. rewrite IH. rewrite <- (Ea ((1 + z) / 2)). replace (2 * ((1 + z) / 2) - 1) with z by field. ring. }
  rewrite El, E. clear El E.
  assert (Sf : smooth f) by (apply (isp_smooth (2 * n)); exists (fun i => c [i]); intros x; unfold f; rewrite poly_pe; f_equal; lia).
  assert (Sg : smooth (fun x => f x * (1 - x))) by (apply smooth_mult; [exact Sf|smooth_tac]).
  assert (C := RInt_comp_lin (fun x => f x * (1 - x)) 2 (-1) 0 1 ltac:(apply smooth_int, Sg)).
  replace (2 * 0 + -1) with (-1) in C by ring. replace (2 * 1 + -1) with 1 in C by ring. rewrite <- C.
  rewrite <- RInt_c.
  - apply RInt_e. intros y. unfold scal; cbn [NormedModule.sort]. rewrite <- Ea.
    change (4 * (f (2 * y - 1) * (1 - y) ^ 1) = 2 * (f (2 * y + -1) * (1 - (2 * y + -1)))).
    replace (2 * y + -1) with (2 * y - 1) by ring. ring.
  - apply smooth_mult; [apply smooth_pe|]. apply (smooth_w 1).
Qed.
