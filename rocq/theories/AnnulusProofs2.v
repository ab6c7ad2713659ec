(** Geometry of the mesh of an annulus. *)
From Coq Require Import Reals Lra List Arith Lia Bool.
Import ListNotations.
From Verif Require Import Base MeshModel MeshSpec MeshView RefineSpec GeoModel BuilderModel BuilderSpec
  BuilderProofs BuilderProofs2 BuilderProofs3 BuilderProofs4 BuilderProofs5 AnnulusModel AnnulusSpec AnnulusProofs.
Local Open Scope R_scope.

Section Geo.
Variable p : annulus.
Hypothesis P : proper_annulus p.
Let m := an_radial p.
Let n := an_angular p.
Let r0 := an_inner p.
Let r1 := an_outer p.
Lemma Pm : (1 <= m)%nat. Proof. apply P. Qed.
Lemma Pn : (3 <= n)%nat. Proof. apply P. Qed.
Lemma Pr : 0 < r0 < r1. Proof. apply P. Qed.
Lemma Im : 0 < INR m. Proof. apply lt_0_INR. pose proof Pm. lia. Qed.
Lemma In3 : 3 <= INR n. Proof. pose proof Pn as H. apply le_INR in H. simpl in H. lra. Qed.

(** Radii of the circles and directions of the corners. *)
Definition rho (i : nat) : R := r0 + INR i * ((r1 - r0) / INR m).
Definition ec (k : nat) : R := cos (2 * PI * INR k / INR n).
Definition es (k : nat) : R := sin (2 * PI * INR k / INR n).
Lemma h_pos : 0 < (r1 - r0) / INR m.
Proof. apply Rdiv_lt_0_compat; [pose proof Pr; lra|apply Im]. Qed.
Lemma rho_0 : rho 0 = r0. Proof. unfold rho. simpl. ring. Qed.
Lemma rho_m : rho m = r1. Proof. unfold rho. field. pose proof Im. lra. Qed.
Lemma rho_S : forall i, rho (i + 1) = rho i + (r1 - r0) / INR m.
Proof. intros. unfold rho. rewrite plus_INR. simpl (INR 1). ring. Qed.
Lemma rho_mono : forall i j, (i <= j)%nat -> rho i <= rho j.
Proof. intros i j H. apply le_INR in H. unfold rho. pose proof h_pos. nra. Qed.
Lemma rho_lt : forall i j, (i < j)%nat -> rho i < rho j.
Proof. intros i j H. apply lt_INR in H. unfold rho. pose proof h_pos. nra. Qed.
Lemma rho_pos : forall i, 0 < rho i.
Proof. intros i. pose proof (rho_mono 0 i ltac:(lia)). rewrite rho_0 in *. pose proof Pr. lra. Qed.
Lemma rho_le : forall i, (i <= m)%nat -> r0 <= rho i <= r1.
Proof. intros i H. rewrite <- rho_0, <- rho_m. split; apply rho_mono; lia. Qed.
Lemma position : forall i k, node_position p i k = [rho i * ec k; rho i * es k].
Proof.
  intros. unfold node_position, an_dr, an_dphi, rho, ec, es. fold m n r0 r1.
  replace (INR k * (2 * PI / INR n)) with (2 * PI * INR k / INR n); [reflexivity|]. field. pose proof In3. lra.
Qed.
Lemma position_circle : forall i k, node_position p i k = circle_point p i k.
Proof. intros. rewrite position. reflexivity. Qed.
Lemma unit : forall k, ec k * ec k + es k * es k = 1.
Proof. intros. unfold ec, es. pose proof (sin2_cos2 (2 * PI * INR k / INR n)). unfold Rsqr in *. lra. Qed.
Lemma wrap : forall k, (k < n)%nat -> ec (sm n k) = ec (k + 1) /\ es (sm n k) = es (k + 1).
Proof.
  intros k Hk. destruct (sm_spec n k Hk) as [[E ->]|[E ->]]; auto. rewrite E. unfold ec, es. pose proof In3.
  replace (2 * PI * INR n / INR n) with (2 * PI) by (field; lra).
  simpl (INR 0). replace (2 * PI * 0 / INR n) with 0 by (field; lra). rewrite cos_2PI, sin_2PI, cos_0, sin_0. auto.
Qed.
(** Cross and dot products of directions. *)
Definition sn (t : nat) : R := sin (2 * PI * INR t / INR n).
Lemma cross_dir : forall k t, ec k * es (k + t) - es k * ec (k + t) = sn t.
Proof.
  intros. unfold ec, es, sn. rewrite <- (Rmult_comm (sin _)).
  replace (2 * PI * INR t / INR n) with (2 * PI * INR (k + t) / INR n - 2 * PI * INR k / INR n).
  - rewrite sin_minus. ring.
  - rewrite plus_INR. field. pose proof In3. lra.
Qed.
Lemma dot_dir : forall k, ec k * ec (k + 1) + es k * es (k + 1) = 1 - 2 * sin (PI / INR n) ^ 2.
Proof.
  intros. pose proof (turn (mkParams 0 0 0 0 0 0) n k ltac:(pose proof Pn; lia)) as T. unfold ec, es. lra.
Qed.
Let s := sin (PI / INR n).
Let c := cos (PI / INR n).
Lemma sc : s * s + c * c = 1.
Proof. unfold s, c. pose proof (sin2_cos2 (PI / INR n)). unfold Rsqr in *. lra. Qed.
Lemma ang : 0 < PI / INR n <= PI / 3.
Proof.
  pose proof PI_RGT_0. pose proof In3. split; [apply Rdiv_lt_0_compat; lra|].
  apply Rmult_le_compat_l; [lra|]. apply Rinv_le_contravar; lra.
Qed.
Lemma s_pos : 0 < s. Proof. unfold s. pose proof ang. pose proof PI_RGT_0. apply sin_gt_0; lra. Qed.
Lemma c_half : 1 / 2 <= c.
Proof.
  unfold c. pose proof ang. pose proof PI_RGT_0. rewrite <- cos_PI3. apply cos_decr_1; lra.
Qed.
Lemma sn1 : sn 1 = 2 * s * c.
Proof.
  unfold sn, s, c. rewrite <- sin_2a. f_equal. simpl. field. pose proof In3. lra.
Qed.
Lemma sn1_pos : 0 < sn 1. Proof. rewrite sn1. pose proof s_pos. pose proof c_half. nra. Qed.
Lemma sn_pos : forall t, 2 * PI * INR t / INR n <= PI -> 0 <= sn t.
Proof.
  intros t H. unfold sn. pose proof PI_RGT_0. pose proof In3. pose proof (pos_INR t).
  apply sin_ge_0; auto. apply Rmult_le_pos; [nra|]. left. apply Rinv_0_lt_compat. lra.
Qed.
Lemma sn_neg : forall t, (t <= n)%nat -> PI <= 2 * PI * INR t / INR n -> sn t <= 0.
Proof.
  intros t Ht H. unfold sn. pose proof PI_RGT_0. pose proof In3. apply sin_le_0; auto.
  apply le_INR in Ht. assert (INR t / INR n <= 1). { apply Rmult_le_reg_r with (INR n); [lra|]. unfold Rdiv. rewrite Rmult_assoc, Rinv_l by lra. lra. }
  replace (2 * PI * INR t / INR n) with (2 * PI * (INR t / INR n)) by (field; lra). nra.
Qed.

(** A direction lies inside one sector only. *)
Lemma sectors_lt : forall k k' a b a' b', (k < k')%nat -> (k' < n)%nat -> 0 < a -> 0 < b -> 0 < a' -> 0 < b' ->
  a * ec k + b * ec (k + 1) = a' * ec k' + b' * ec (k' + 1) ->
  a * es k + b * es (k + 1) = a' * es k' + b' * es (k' + 1) -> False.
Proof.
  intros k k' a b a' b' Hk Hk' Ha Hb Ha' Hb' Ex Ey. pose proof sn1_pos as S1.
  pose proof (cross_dir k 1) as C1.
  set (d := (k' - k)%nat). assert (D1 : (1 <= d)%nat) by (unfold d; lia).
  pose proof (cross_dir k d) as Cd. pose proof (cross_dir k (d + 1)) as Cd1.
  pose proof (cross_dir (k + 1) (d - 1)) as Ce. pose proof (cross_dir (k + 1) d) as Ce1.
  replace (k + d)%nat with k' in * by (unfold d; lia). replace (k + (d + 1))%nat with (k' + 1)%nat in * by (unfold d; lia).
  replace (k + 1 + (d - 1))%nat with k' in * by (unfold d; lia). replace (k + 1 + d)%nat with (k' + 1)%nat in * by (unfold d; lia).
  assert (I1 : b * sn 1 = a' * sn d + b' * sn (d + 1)).
  { transitivity (ec k * (a * es k + b * es (k + 1)) - es k * (a * ec k + b * ec (k + 1))); [rewrite <- C1; ring|].
    rewrite Ex, Ey, <- Cd, <- Cd1. ring. }
  assert (I2 : a * sn 1 = - (a' * sn (d - 1) + b' * sn d)).
  { transitivity ((a * ec k + b * ec (k + 1)) * es (k + 1) - (a * es k + b * es (k + 1)) * ec (k + 1)); [rewrite <- C1; ring|].
    rewrite Ex, Ey, <- Ce, <- Ce1. ring. }
  assert (0 < b * sn 1) by (apply Rmult_lt_0_compat; auto). assert (0 < a * sn 1) by (apply Rmult_lt_0_compat; auto).
  pose proof In3. pose proof PI_RGT_0.
  assert (Mono : forall t u, (t <= u)%nat -> 2 * PI * INR t / INR n <= 2 * PI * INR u / INR n).
  { intros t u Htu. apply le_INR in Htu. apply Rmult_le_compat_r; [left; apply Rinv_0_lt_compat; lra|nra]. }
  destruct (Rle_lt_dec (2 * PI * INR d / INR n) PI) as [L|L].
  - pose proof (sn_pos d L). pose proof (Mono (d - 1)%nat d ltac:(lia)). pose proof (sn_pos (d - 1) ltac:(lra)). nra.
  - pose proof (Mono d (d + 1)%nat ltac:(lia)).
    assert (sn d <= 0) by (apply sn_neg; [unfold d; lia|lra]).
    assert (sn (d + 1) <= 0) by (apply sn_neg; [unfold d; lia|lra]). nra.
Qed.
Lemma sectors : forall k k' a b a' b', (k < n)%nat -> (k' < n)%nat -> 0 < a -> 0 < b -> 0 < a' -> 0 < b' ->
  a * ec k + b * ec (k + 1) = a' * ec k' + b' * ec (k' + 1) ->
  a * es k + b * es (k + 1) = a' * es k' + b' * es (k' + 1) -> k = k' /\ a = a' /\ b = b'.
Proof.
  intros k k' a b a' b' Hk Hk' Ha Hb Ha' Hb' Ex Ey.
  destruct (Nat.lt_trichotomy k k') as [L|[E|L]].
  - exfalso. apply (sectors_lt k k' a b a' b'); auto.
  - subst k'. split; auto. pose proof sn1_pos as S1. pose proof (cross_dir k 1) as C1.
    assert (I1 : b * sn 1 = b' * sn 1).
    { transitivity (ec k * (a * es k + b * es (k + 1)) - es k * (a * ec k + b * ec (k + 1))); [rewrite <- C1; ring|].
      rewrite Ex, Ey, <- C1. ring. }
    assert (I2 : a * sn 1 = a' * sn 1).
    { transitivity ((a * ec k + b * ec (k + 1)) * es (k + 1) - (a * es k + b * es (k + 1)) * ec (k + 1)); [rewrite <- C1; ring|].
      rewrite Ex, Ey, <- C1. ring. }
    split; eapply Rmult_eq_reg_r; try eassumption; lra.
  - exfalso. apply (sectors_lt k' k a' b' a b); auto.
Qed.

(** The cells in coordinates of their sector. *)
Lemma geo_in_eq : forall i k, (k < n)%nat -> geo_in p i k =
  [[rho i * ec k; rho i * es k]; [rho (i + 1) * ec k; rho (i + 1) * es k]; [rho i * ec (k + 1); rho i * es (k + 1)]].
Proof.
  intros i k Hk. unfold geo_in. rewrite !position. fold n. destruct (wrap k Hk) as [-> ->]. reflexivity.
Qed.
Lemma geo_out_eq : forall i k, (k < n)%nat -> geo_out p i k =
  [[rho (i + 1) * ec k; rho (i + 1) * es k]; [rho (i + 1) * ec (k + 1); rho (i + 1) * es (k + 1)];
   [rho i * ec (k + 1); rho i * es (k + 1)]].
Proof.
  intros i k Hk. unfold geo_out. rewrite !position. fold n. destruct (wrap k Hk) as [-> ->]. reflexivity.
Qed.

(** Areas. *)
Lemma area_in : forall i k, (k < n)%nat -> signed_area (geo_in p i k) = (rho (i + 1) - rho i) * rho i * sn 1 / 2.
Proof.
  intros i k Hk. rewrite geo_in_eq by auto. unfold signed_area, area2. cbn [nth].
  rewrite <- (cross_dir k 1). field.
Qed.
Lemma area_out : forall i k, (k < n)%nat -> signed_area (geo_out p i k) = (rho (i + 1) - rho i) * rho (i + 1) * sn 1 / 2.
Proof.
  intros i k Hk. rewrite geo_out_eq by auto. unfold signed_area, area2. cbn [nth].
  rewrite <- (cross_dir k 1). field.
Qed.
Lemma area_pos : forall cs, In cs (ageo p) -> 0 < signed_area cs.
Proof.
  intros cs H. apply in_grid in H as (i & k & Hi & Hk & H). pose proof sn1_pos. pose proof (rho_pos i). pose proof (rho_pos (i + 1)).
  pose proof (rho_lt i (i + 1) ltac:(lia)).
  assert (0 < (rho (i + 1) - rho i) * rho i) by (apply Rmult_lt_0_compat; lra).
  assert (0 < (rho (i + 1) - rho i) * rho (i + 1)) by (apply Rmult_lt_0_compat; lra).
  destruct H as [<-|[<-|[]]]; [rewrite area_in by auto|rewrite area_out by auto];
    apply Rdiv_lt_0_compat; try lra; apply Rmult_lt_0_compat; auto.
Qed.
Lemma sumR_app : forall l l', sumR (l ++ l') = sumR l + sumR l'.
Proof. induction l; intros; cbn [sumR fold_right app]; [unfold sumR; lra|]. fold (sumR (l ++ l')). rewrite IHl. fold (sumR l). ring. Qed.
Lemma sumR_flat : forall (f : nat -> list R) x q, (forall i, (i < q)%nat -> sumR (f i) = x) ->
  sumR (flat_map f (seq 0 q)) = INR q * x.
Proof.
  intros f x q. induction q; intros H; [cbn; ring|].
  rewrite flat_map_S, sumR_app, IHq by (intros; apply H; lia). rewrite H by lia. rewrite S_INR. ring.
Qed.
Lemma area_total : sumR (map signed_area (ageo p)) = INR n * sn 1 / 2 * (r1 ^ 2 - r0 ^ 2).
Proof.
  unfold ageo. rewrite grid_map. fold m n.
  assert (G : forall q, sumR (grid (fun i j => map signed_area [geo_in p i j; geo_out p i j]) q n) =
    INR n * sn 1 / 2 * (rho q ^ 2 - r0 ^ 2)).
  { induction q.
    - rewrite rho_0. cbn. ring.
    - rewrite grid_S, sumR_app, IHq.
      rewrite (sumR_flat _ ((rho (q + 1) - rho q) * rho q * sn 1 / 2 + (rho (q + 1) - rho q) * rho (q + 1) * sn 1 / 2)).
      + replace (S q) with (q + 1)%nat by lia. field.
      + intros k Hk. cbn [map]. rewrite area_in, area_out by auto. unfold sumR. cbn [fold_right]. ring. }
  rewrite G, rho_m. reflexivity.
Qed.
End Geo.
