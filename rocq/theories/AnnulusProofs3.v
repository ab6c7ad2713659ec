(** The mesh of an annulus: tiling, boundary, and the theorems. *)
From Coq Require Import Reals Lra List Arith Lia Bool.
Import ListNotations.
From Verif Require Import Base MeshModel MeshSpec MeshView RefineSpec GeoModel BuilderModel BuilderSpec
  BuilderProofs BuilderProofs2 BuilderProofs3 BuilderProofs4 BuilderProofs5 AnnulusModel AnnulusSpec AnnulusProofs AnnulusProofs2.
Local Open Scope R_scope.

Section Geo.
Variable p : annulus.
Hypothesis P : proper_annulus p.
Let m := an_radial p.
Let n := an_angular p.
Let r0 := an_inner p.
Let r1 := an_outer p.
Notation rho := (rho p).
Notation ec := (ec p).
Notation es := (es p).

(** The constructors accept the cells. *)
Lemma an_shaped_accepted : annulus_shaped p -> an_accepted p.
Proof.
  intros [C1 C2] i k Hi Hk. cbv zeta in C1, C2. fold m n r0 r1 in C1, C2.
  set (s := sin (PI / INR n)) in *. set (h := (r1 - r0) / INR m) in *.
  assert (H0 : 0 < h) by (apply h_pos; auto). pose proof (s_pos p P) as S0. fold n s in S0.
  pose proof (c_half p P) as C0. fold n in C0.
  pose proof (dot_dir p P k) as D. fold n s in D.
  pose proof (unit p k) as U. pose proof (unit p (k + 1)) as U'.
  pose proof (cross_dir p P k 1) as X. rewrite (sn1 p P) in X. fold n s in X. set (c := cos (PI / INR n)) in *.
  assert (E : rho (i + 1) = rho i + h) by apply rho_S.
  destruct (rho_le p P i) as [B1 B2]; [fold m in Hi; lia|]. destruct (rho_le p P (i + 1)) as [B3 B4]; [fold m in Hi; lia|].
  fold r0 r1 in B1, B2, B3, B4. assert (R0 : 0 < r0) by apply P.
  assert (Sq : forall a b, r0 <= a <= r1 -> r0 <= b <= r1 -> r0 * r0 * (s * s) <= a * b * (s * s) <= r1 * r1 * (s * s)).
  { intros a b Ha Hb. split; apply Rmult_le_compat_r; try nra; apply Rmult_le_compat; lra. }
  pose proof (Sq _ _ (conj B1 B2) (conj B1 B2)) as Q1. pose proof (Sq _ _ (conj B1 B2) (conj B3 B4)) as Q2.
  pose proof (Sq _ _ (conj B3 B4) (conj B3 B4)) as Q3.
  assert (EH : (2 * r1 * s) ^ 2 = 4 * (r1 * r1 * (s * s))) by ring.
  assert (EL : (2 * r0 * s) ^ 2 = 4 * (r0 * r0 * (s * s))) by ring.
  rewrite EH in C1, C2. rewrite EL in C2.
  set (A := r0 * r0 * (s * s)) in *. set (B := r1 * r1 * (s * s)) in *.
  assert (Ap : 0 < A) by (unfold A; apply Rmult_lt_0_compat; nra).
  set (T := tol * (2 * (h ^ 2 + 4 * B))).
  assert (T0 : 0 < T) by (unfold T, tol; assert (0 < h ^ 2) by nra; lra).
  assert (T1 : 2 * T < h ^ 2) by (unfold T, tol; lra). assert (T2 : 2 * T < 4 * A) by (unfold T, tol; lra).
  assert (T3 : forall r, r0 <= r -> T < h * r * (2 * s * c)).
  { intros r Hr.
    assert (L : 2 * T < h * (2 * r0 * s)).
    { apply Rnot_le_lt. intros F. assert (G : (h * (2 * r0 * s)) * (h * (2 * r0 * s)) <= (2 * T) * (2 * T)).
      { apply Rmult_le_compat; auto; apply Rmult_le_pos; try lra; nra. }
      assert (G' : (2 * T) * (2 * T) < h ^ 2 * (4 * A)) by (apply Rmult_le_0_lt_compat; lra).
      unfold A in G'. nra. }
    assert (h * r0 * s <= h * r * s) by (apply Rmult_le_compat_r; [lra|]; apply Rmult_le_compat_l; lra).
    assert (0 < h * r * s) by (apply Rmult_lt_0_compat; [|lra]; apply Rmult_lt_0_compat; lra). nra. }
  assert (TT : forall x, x <= 2 * (h ^ 2 + 4 * B) -> tol * x <= T) by (intros; apply Rmult_le_compat_l; [unfold tol; lra|auto]).
  rewrite geo_in_eq, geo_out_eq by auto.
  set (x := ec k) in *. set (y := es k) in *. set (x' := ec (k + 1)) in *. set (y' := es (k + 1)) in *.
  set (q := rho i) in *. set (q' := rho (i + 1)) in *.
  assert (N1 : forall a b, (a * x - b * x') ^ 2 + (a * y - b * y') ^ 2 = (a - b) ^ 2 + 4 * (a * b * (s * s))).
  { intros. transitivity (a ^ 2 * (x * x + y * y) + b ^ 2 * (x' * x' + y' * y') - 2 * a * b * (x * x' + y * y')); [ring|].
    rewrite U, U', D. ring. }
  assert (N2 : forall a b, (b * x' - a * x) ^ 2 + (b * y' - a * y) ^ 2 = (a - b) ^ 2 + 4 * (a * b * (s * s))).
  { intros. rewrite <- N1. ring. }
  assert (N3 : forall a b, (b * x - a * x) ^ 2 + (b * y - a * y) ^ 2 = (b - a) ^ 2).
  { intros. transitivity ((b - a) ^ 2 * (x * x + y * y)); [ring|]. rewrite U. ring. }
  assert (N4 : forall a b, (b * x' - a * x') ^ 2 + (b * y' - a * y') ^ 2 = (b - a) ^ 2).
  { intros. transitivity ((b - a) ^ 2 * (x' * x' + y' * y')); [ring|]. rewrite U'. ring. }
  assert (Hq : q' - q = h) by lra.
  assert (HqS : (q' - q) ^ 2 = h ^ 2) by (rewrite Hq; auto). assert (HqS' : (q - q') ^ 2 = h ^ 2) by (rewrite <- HqS; ring).
  assert (Z0 : forall a, (a - a) ^ 2 = 0) by (intros; ring).
  split.
  - apply (proj1 (tria_ok [q * x; q * y] [q' * x; q' * y] [q * x'; q * y'] eq_refl)). cbv zeta. cbn [nth].
    rewrite N3, (N2 q' q), (N1 q q). rewrite HqS, Z0.
    match goal with |- tol * ?e < _ /\ _ => assert (TL : tol * e <= T) end.
    { apply TT. replace (q' * q * (s * s)) with (q * q' * (s * s)) by ring. lra. }
    split; [lra|]. split; [replace (q' * q * (s * s)) with (q * q' * (s * s)) by ring; lra|]. split; [lra|].
    eapply Rle_lt_trans; [exact TL|]. eapply Rlt_le_trans; [apply (T3 q); lra|].
    eapply Rle_trans; [|apply Rle_abs]. rewrite <- X, <- Hq. apply Req_le. ring.
  - apply (proj1 (tria_ok [q' * x; q' * y] [q' * x'; q' * y'] [q * x'; q * y'] eq_refl)). cbv zeta. cbn [nth].
    rewrite (N2 q' q'), (N4 q' q), (N1 q' q). rewrite HqS', HqS, Z0.
    match goal with |- tol * ?e < _ /\ _ => assert (TL : tol * e <= T) end.
    { apply TT. replace (q' * q * (s * s)) with (q * q' * (s * s)) by ring. lra. }
    split; [lra|]. split; [lra|]. split; [replace (q' * q * (s * s)) with (q * q' * (s * s)) by ring; lra|].
    eapply Rle_lt_trans; [exact TL|]. eapply Rlt_le_trans; [apply (T3 q'); lra|].
    eapply Rle_trans; [|apply Rle_abs]. rewrite <- X, <- Hq. apply Req_le. ring.
Qed.

(** Points of the cells in coordinates of their sector. *)
Lemma hull3 : forall ok (a b c : coords) x y, hull ok [a; b; c] x y <-> exists u v w, ok u /\ ok v /\ ok w /\ u + v + w = 1 /\
  x = u * nth 0 a 0 + v * nth 0 b 0 + w * nth 0 c 0 /\ y = u * nth 1 a 0 + v * nth 1 b 0 + w * nth 1 c 0.
Proof.
  intros ok a b c x y. split.
  - intros (ws & L & F & S1 & X & Y). destruct ws as [|u [|v [|w [|? ?]]]]; try discriminate.
    inversion F as [|? ? F1 F']; inversion F' as [|? ? F2 F'']; inversion F'' as [|? ? F3 _]; subst.
    exists u, v, w. unfold weighted, sumR in *. cbn [combine map fold_right fst snd] in *.
    do 3 (split; [assumption|]). split; [lra|]. split; ring.
  - intros (u & v & w & F1 & F2 & F3 & S1 & X & Y). exists [u; v; w]. split; [reflexivity|].
    split; [auto|]. unfold weighted, sumR. cbn [combine map fold_right fst snd].
    split; [lra|]. split; lra.
Qed.
Definition at_ (k : nat) (a b x y : R) : Prop := x = a * ec k + b * ec (k + 1) /\ y = a * es k + b * es (k + 1).
Lemma hull_in : forall ok i k x y, (k < n)%nat -> (hull ok (geo_in p i k) x y <->
  exists u v w, ok u /\ ok v /\ ok w /\ u + v + w = 1 /\ at_ k (u * rho i + v * rho (i + 1)) (w * rho i) x y).
Proof.
  intros ok i k x y Hk. rewrite geo_in_eq, hull3 by auto. cbn [nth]. unfold at_.
  split; intros (u & v & w & ? & ? & ? & ? & -> & ->); exists u, v, w; do 4 (split; [assumption|]); split; ring.
Qed.
Lemma hull_out : forall ok i k x y, (k < n)%nat -> (hull ok (geo_out p i k) x y <->
  exists u v w, ok u /\ ok v /\ ok w /\ u + v + w = 1 /\ at_ k (u * rho (i + 1)) (v * rho (i + 1) + w * rho i) x y).
Proof.
  intros ok i k x y Hk. rewrite geo_out_eq, hull3 by auto. cbn [nth]. unfold at_.
  split; intros (u & v & w & ? & ? & ? & ? & -> & ->); exists u, v, w; do 4 (split; [assumption|]); split; ring.
Qed.

Lemma layer : forall s, r0 <= s <= r1 -> exists i, (i < m)%nat /\ rho i <= s <= rho (i + 1).
Proof.
  intros s Hs. assert (G : forall q, s <= rho q -> (1 <= q)%nat -> exists i, (i < q)%nat /\ rho i <= s <= rho (i + 1)).
  { induction q; intros H L; [lia|]. destruct (Rle_lt_dec s (rho q)) as [D|D].
    - destruct q as [|q].
      + rewrite rho_0 in D. fold r0 in D. exists 0%nat. split; [lia|]. rewrite rho_0. fold r0.
        replace (0 + 1)%nat with 1%nat by lia. lra.
      + destruct IHq as (i & Hi & H'); auto; [lia|]. exists i. split; [lia|auto].
    - exists q. split; [lia|]. replace (q + 1)%nat with (S q) by lia. lra. }
  apply G; [rewrite rho_m by auto; apply Hs|apply P].
Qed.

Lemma ring_covered : forall x y, between_polygons p x y <-> exists cs, In cs (ageo p) /\ covers cs x y.
Proof.
  intros x y. unfold covers. split.
  - intros (k & s & t & Hk & Hs & Ht & X & Y). fold n in Hk.
    destruct (layer s) as (i & Hi & L); auto. pose proof (rho_pos p P i) as R0. pose proof (rho_lt p P i (i + 1) ltac:(lia)) as RL.
    set (q := rho i) in *. set (q' := rho (i + 1)) in *.
    assert (AT : at_ k (s * (1 - t)) (s * t) x y).
    { unfold at_. cbv zeta in X, Y. split; [rewrite X|rewrite Y]; unfold AnnulusProofs2.ec, AnnulusProofs2.es; ring. }
    assert (S0 : 0 <= s * t) by (apply Rmult_le_pos; lra). assert (S1 : 0 <= s * (1 - t)) by (apply Rmult_le_pos; lra).
    destruct (Rle_lt_dec (s * (1 - t) / q' + s * t / q) 1) as [C|C].
    + exists (geo_in p i k). split; [apply in_grid; exists i, k; simpl; auto|].
      apply hull_in; auto. exists ((q' * (1 - (s * (1 - t) / q' + s * t / q))) / (q' - q)), ((s - q) / (q' - q)), (s * t / q).
      split; [apply Rmult_le_pos; [apply Rmult_le_pos; lra|left; apply Rinv_0_lt_compat; lra]|].
      split; [apply Rmult_le_pos; [lra|left; apply Rinv_0_lt_compat; lra]|].
      split; [apply Rmult_le_pos; [lra|left; apply Rinv_0_lt_compat; lra]|].
      split; [field; lra|]. fold q q'.
      match goal with |- at_ k ?a ?b _ _ => replace a with (s * (1 - t)) by (field; lra); replace b with (s * t) by (field; lra) end.
      exact AT.
    + exists (geo_out p i k). split; [apply in_grid; exists i, k; simpl; auto|].
      apply hull_out; auto. exists (s * (1 - t) / q'), ((q * (s * (1 - t) / q' + s * t / q - 1)) / (q' - q)), ((q' - s) / (q' - q)).
      split; [apply Rmult_le_pos; [lra|left; apply Rinv_0_lt_compat; lra]|].
      split; [apply Rmult_le_pos; [apply Rmult_le_pos; lra|left; apply Rinv_0_lt_compat; lra]|].
      split; [apply Rmult_le_pos; [lra|left; apply Rinv_0_lt_compat; lra]|].
      split; [field; lra|]. fold q q'.
      match goal with |- at_ k ?a ?b _ _ => replace a with (s * (1 - t)) by (field; lra); replace b with (s * t) by (field; lra) end.
      exact AT.
  - intros (cs & H & C). apply in_grid in H as (i & k & Hi & Hk & H). fold m n in Hi, Hk.
    pose proof (rho_pos p P i) as R0. pose proof (rho_lt p P i (i + 1) ltac:(lia)) as RL.
    destruct (rho_le p P i) as [B1 _]; [lia|]. destruct (rho_le p P (i + 1)) as [_ B2]; [lia|].
    assert (G : forall a b, 0 <= a -> 0 <= b -> rho i <= a + b <= rho (i + 1) -> at_ k a b x y -> between_polygons p x y).
    { intros a b Ha Hb S0 [X Y]. exists k, (a + b), (b / (a + b)). split; auto. split; [lra|].
      assert (0 < a + b) by lra.
      split; [split; [apply Rmult_le_pos; [lra|left; apply Rinv_0_lt_compat; lra]|]|].
      - apply Rmult_le_reg_r with (a + b); auto. unfold Rdiv. rewrite Rmult_assoc, Rinv_l by lra. lra.
      - cbv zeta. split; [rewrite X|rewrite Y]; unfold AnnulusProofs2.ec, AnnulusProofs2.es; field; lra. }
    destruct H as [<-|[<-|[]]].
    + apply hull_in in C as (u & v & w & Hu & Hv & Hw & E & AT); auto.
      apply (G _ _) in AT; auto; [nra|nra|].
      replace (u * rho i + v * rho (i + 1) + w * rho i) with ((u + v + w) * rho i + v * (rho (i + 1) - rho i)) by ring.
      rewrite E. split; nra.
    + apply hull_out in C as (u & v & w & Hu & Hv & Hw & E & AT); auto.
      apply (G _ _) in AT; auto; [nra|nra|].
      replace (u * rho (i + 1) + (v * rho (i + 1) + w * rho i)) with ((u + v + w) * rho (i + 1) - w * (rho (i + 1) - rho i)) by ring.
      rewrite E. split; nra.
Qed.

(** Interiors do not meet. *)
Lemma inside : forall i k r cs x y, (k < n)%nat -> nth_error [geo_in p i k; geo_out p i k] r = Some cs -> covers_inside cs x y ->
  exists a b, 0 < a /\ 0 < b /\ rho i < a + b < rho (i + 1) /\ at_ k a b x y /\
    ((r = 0%nat /\ a * rho i + b * rho (i + 1) < rho i * rho (i + 1)) \/
     (r = 1%nat /\ rho i * rho (i + 1) < a * rho i + b * rho (i + 1))).
Proof.
  intros i k r cs x y Hk H C. pose proof (rho_pos p P i) as R0. pose proof (rho_lt p P i (i + 1) ltac:(lia)) as RL.
  destruct r as [|[|r]]; [| |destruct r; discriminate]; injection H as <-; unfold covers_inside in C.
  - apply hull_in in C as (u & v & w & Hu & Hv & Hw & E & AT); auto.
    exists (u * rho i + v * rho (i + 1)), (w * rho i). split; [nra|]. split; [nra|].
    assert (0 < v * (rho (i + 1) - rho i)) by (apply Rmult_lt_0_compat; lra).
    assert (0 < u * (rho (i + 1) - rho i)) by (apply Rmult_lt_0_compat; lra).
    assert (0 < w * (rho (i + 1) - rho i)) by (apply Rmult_lt_0_compat; lra).
    replace w with (1 - u - v) in * by lra.
    split; [split; nra|]. split; auto. left. split; auto.
    assert (0 < rho i * (u * (rho (i + 1) - rho i))) by (apply Rmult_lt_0_compat; lra). nra.
  - apply hull_out in C as (u & v & w & Hu & Hv & Hw & E & AT); auto.
    exists (u * rho (i + 1)), (v * rho (i + 1) + w * rho i). split; [nra|]. split; [nra|].
    assert (0 < v * (rho (i + 1) - rho i)) by (apply Rmult_lt_0_compat; lra).
    assert (0 < u * (rho (i + 1) - rho i)) by (apply Rmult_lt_0_compat; lra).
    assert (0 < w * (rho (i + 1) - rho i)) by (apply Rmult_lt_0_compat; lra).
    replace w with (1 - u - v) in * by lra.
    split; [split; nra|]. split; auto. right. split; auto.
    assert (0 < rho (i + 1) * (v * (rho (i + 1) - rho i))) by (apply Rmult_lt_0_compat; lra). nra.
Qed.
Lemma cells_disjoint : forall c c' cs cs' x y, nth_error (ageo p) c = Some cs -> nth_error (ageo p) c' = Some cs' ->
  covers_inside cs x y -> covers_inside cs' x y -> c = c'.
Proof.
  intros c c' cs cs' x y H H' C C'.
  apply grid_nth_inv with (c := 2%nat) in H as (i & k & r & Hi & Hk & -> & Hr); auto.
  apply grid_nth_inv with (c := 2%nat) in H' as (i' & k' & r' & Hi' & Hk' & -> & Hr'); auto.
  fold m n in Hi, Hk, Hi', Hk'.
  destruct (inside i k r cs x y Hk Hr C) as (a & b & Ha & Hb & S1 & [X Y] & T).
  destruct (inside i' k' r' cs' x y Hk' Hr' C') as (a' & b' & Ha' & Hb' & S1' & [X' Y'] & T').
  destruct (sectors p P k k' a b a' b') as (-> & -> & ->); auto; [congruence|congruence|].
  assert (i = i').
  { destruct (Nat.lt_trichotomy i i') as [L|[E|L]]; auto; exfalso.
    - pose proof (rho_mono p P (i + 1) i' ltac:(lia)). lra.
    - pose proof (rho_mono p P (i' + 1) i ltac:(lia)). lra. }
  subst i'. destruct T as [[-> T]|[-> T]], T' as [[-> T']|[-> T']]; auto; exfalso; lra.
Qed.

(** How far the region is from a true annulus. *)
Lemma ring_bounds : forall x y, between_polygons p x y ->
  (r0 * cos (PI / INR n)) ^ 2 <= x ^ 2 + y ^ 2 <= r1 ^ 2.
Proof.
  intros x y (k & s & t & Hk & Hs & Ht & X & Y). cbv zeta in X, Y. fold n in Hk, X, Y. fold r0 r1 in Hs.
  change (cos (2 * PI * INR k / INR n)) with (ec k) in X. change (cos (2 * PI * INR (k + 1) / INR n)) with (ec (k + 1)) in X.
  change (sin (2 * PI * INR k / INR n)) with (es k) in Y. change (sin (2 * PI * INR (k + 1) / INR n)) with (es (k + 1)) in Y.
  pose proof (dot_dir p P k) as D. fold n in D. pose proof (sc p) as SC. fold n in SC.
  pose proof (unit p k) as U. pose proof (unit p (k + 1)) as U'. pose proof (c_half p P) as C0. fold n in C0.
  set (sn := sin (PI / INR n)) in *. set (c := cos (PI / INR n)) in *.
  assert (E : x ^ 2 + y ^ 2 = s ^ 2 * (1 - 4 * (t * (1 - t)) * (sn * sn))).
  { rewrite X, Y. transitivity (s ^ 2 * ((1 - t) ^ 2 * (ec k * ec k + es k * es k) + t ^ 2 * (ec (k + 1) * ec (k + 1) + es (k + 1) * es (k + 1)) +
      2 * (t * (1 - t)) * (ec k * ec (k + 1) + es k * es (k + 1)))); [ring|]. rewrite U, U', D. ring. }
  rewrite E. assert (R0 : 0 < r0) by apply P.
  clear X Y U U' D E.
  assert (T0 : 0 <= 4 * (t * (1 - t)) <= 1).
  { pose proof (pow2_ge_0 (1 - 2 * t)). assert (0 <= t * (1 - t)) by (apply Rmult_le_pos; lra). nra. }
  set (w := 4 * (t * (1 - t))) in *.
  assert (S2 : 0 <= sn * sn) by nra.
  assert (F1 : c * c <= 1 - w * (sn * sn) <= 1) by nra.
  assert (r0 ^ 2 <= s ^ 2 <= r1 ^ 2) by (split; apply pow_incr; lra).
  split.
  - replace ((r0 * c) ^ 2) with (r0 ^ 2 * (c * c)) by ring. apply Rmult_le_compat; nra.
  - replace (r1 ^ 2) with (r1 ^ 2 * 1) by ring. apply Rmult_le_compat; nra.
Qed.

(** Boundary edges. *)
Lemma on_circle_iff : forall i k r, 0 < r -> (on_circle r (node_position p i k) <-> rho i = r).
Proof.
  intros i k r Hr. rewrite position by auto. unfold on_circle. cbn [nth].
  pose proof (rho_pos p P i). pose proof (unit p k) as U.
  replace ((rho i * ec k) ^ 2 + (rho i * es k) ^ 2) with (rho i ^ 2 * (ec k * ec k + es k * es k)) by ring. rewrite U, Rmult_1_r.
  split; [|intros ->; auto]. intros E.
  assert (Z : (rho i - r) * (rho i + r) = 0) by nra. apply Rmult_integral in Z as [Z|Z]; lra.
Qed.
Lemma rho_eq : forall i j, rho i = rho j -> i = j.
Proof.
  intros i j E. destruct (Nat.lt_trichotomy i j) as [L|[?|L]]; auto; apply (rho_lt p P) in L; lra.
Qed.
Lemma common_iff : forall i k j l, (on_common_circle p (node_position p i k) (node_position p j l) <->
  (i = 0%nat /\ j = 0%nat) \/ (i = m /\ j = m)).
Proof.
  intros i k j l. unfold on_common_circle. assert (R0 : 0 < r0 < r1) by apply P.
  rewrite !on_circle_iff by (fold r0 r1; lra). fold r0 r1.
  pose proof (rho_0 p) as E0. pose proof (rho_m p P) as E1. fold r0 in E0. fold r1 m in E1.
  fold m. rewrite <- E0, <- E1.
  split; (intros [[A B]|[A B]]; [left|right]); auto using rho_eq; subst; auto.
Qed.
End Geo.

Local Open Scope nat_scope.
Theorem annulus_mesh : forall p check, proper_annulus p -> annulus_shaped p -> exists M g,
  annulus_build p check = Ok (Some (M, g)) /\ (exists h, built check h M) /\
  num_entities 2 M = an_angular p * (an_radial p + 1) /\
  num_entities 1 M = an_angular p * (3 * an_radial p + 1) /\
  num_entities_of_type kTria M = 2 * an_angular p * an_radial p /\ num_entities_of_type kQuad M = 0 /\
  (forall i k, i <= an_radial p -> k < an_angular p ->
     nth_error (g_points g) (an_angular p * i + k) = Some (circle_point p i k)) /\
  geometry_matches M g /\
  (forall cs, In cs (g_cells g) -> (0 < signed_area cs)%R) /\
  sumR (map signed_area (g_cells g)) =
    (INR (an_angular p) * sin (2 * PI / INR (an_angular p)) / 2 * (an_outer p ^ 2 - an_inner p ^ 2))%R /\
  tiles_ring p (g_cells g) /\
  (forall e a b, nth_error (mv_edges (view M)) e = Some (a, b) ->
     (adjacent (view M) e = 1 \/ adjacent (view M) e = 2) /\
     (adjacent (view M) e = 1 <-> on_common_circle p (place g a) (place g b))).
Proof.
  intros p check P W. destruct P as (PR & Hm & Hn). assert (P : proper_annulus p) by (split; auto).
  destruct (annulus_topology p Hm Hn (an_shaped_accepted p P W) check) as (M & E & B & N2 & N1 & N3 & N4 & GM & Ed).
  exists M, (asites p). split; auto. split; auto. split; auto. split; auto. split; auto. split; auto.
  split.
  { intros i k Hi Hk. rewrite <- position_circle by auto. cbn [asites g_points]. unfold an_points.
    replace (an_angular p * i + k) with (k + i * an_angular p) by lia.
    apply (grid_nth _ (fun r k => node_position p r k)); auto. lia. }
  split; auto. cbn [asites g_cells].
  split; [apply area_pos; auto|].
  split. { rewrite area_total by auto. unfold sn. simpl (INR 1). rewrite Rmult_1_r. reflexivity. }
  split; [split; [apply ring_covered; auto|intros k l cs cs' x y; apply cells_disjoint; auto]|].
  intros e a b He. destruct (Ed e a b He) as (t & Ht & HS & ->). apply in_aU in Ht.
  assert (Sym : forall x y, on_common_circle p x y <-> on_common_circle p y x) by (intros; unfold on_common_circle; tauto).
  assert (CC : on_common_circle p (place (asites p) a) (place (asites p) b) <->
    on_common_circle p (place (asites p) (fst (apr p t))) (place (asites p) (snd (apr p t)))).
  { destruct HS as [[E1 E2]|[E1 E2]]; cbn [fst snd] in E1, E2; rewrite <- E1, <- E2; [tauto|apply Sym]. }
  rewrite CC. clear CC.
  destruct t as [r k|r k|r k]; cbn [a_ok] in Ht; destruct Ht as [Hr Hk]; cbn [apr fst snd]; pose proof (smb _ _ Hk);
    rewrite !an_place by (auto; lia); rewrite common_iff by auto.
  - split; auto. split; [discriminate|lia].
  - destruct (Nat.ltb_spec r (an_radial p)), (Nat.leb_spec 1 r); cbn [b2n]; (split; [lia|]); split; intros; lia.
  - split; auto. split; [discriminate|lia].
  - assumption.
  - assumption.
Qed.

(** Findings. *)
Theorem annulus_center : forall p q check, an_inner p = an_inner q -> an_outer p = an_outer q ->
  an_radial p = an_radial q -> an_angular p = an_angular q -> annulus_build p check = annulus_build q check.
Proof. intros [a b c d e] [a' b' c' d' e'] check. cbn. intros -> -> -> ->. reflexivity. Qed.

Theorem annulus_few : forall p check, (0 < an_inner p < an_outer p)%R -> 1 <= an_radial p ->
  an_angular p = 1 \/ an_angular p = 2 -> annulus_build p check = Throw.
Proof.
  intros p check PR Hm Hn. unfold annulus_build.
  set (m := an_radial p) in *. set (n := an_angular p) in *.
  replace (n * (m + 1)) with (S m * n) by lia. rewrite start_st.
  unfold annulus_vertices. fold m n. rewrite (points_loop check (fun k r => node_position p r k)). cbn [bind].
  set (pts := grid (fun j i => [node_position p j i]) (S m) n).
  assert (Lp : length pts = S m * n) by (unfold pts; rewrite (grid_length _ _ 1) by auto; lia).
  assert (Y : forall i k, k < n -> nth 1 (node_position p i k) 0%R = 0%R).
  { intros i k Hk. unfold node_position. cbn [nth].
    assert (S0 : sin (INR k * an_dphi p) = 0%R); [|rewrite S0; ring]. unfold an_dphi. fold n.
    destruct Hn as [N|N]; rewrite N in *.
    - replace k with 0 by lia. simpl (INR 0). rewrite Rmult_0_l. apply sin_0.
    - simpl (INR 2). replace (2 * PI / (1 + 1))%R with PI by field. destruct k as [|[|k]]; [| |lia]; simpl (INR _).
      + rewrite Rmult_0_l. apply sin_0.
      + rewrite Rmult_1_l. apply sin_PI. }
  assert (T : forall i k, k < n -> cell_geometry kTria
    [node_position p i k; node_position p (i + 1) k; node_position p i ((k + 1) mod n)] = Throw).
  { intros i k Hk. pose proof (Nat.mod_upper_bound (k + 1) n ltac:(lia)) as Hk'.
    destruct (tria_ok (node_position p i k) (node_position p (i + 1) k) (node_position p i ((k + 1) mod n)) eq_refl) as [E [T|T]]; auto.
    exfalso. apply E in T as (_ & _ & _ & T). rewrite !Y in T by auto.
    match type of T with (_ < Rabs ?u)%R => replace u with 0%R in T by ring end. rewrite Rabs_R0 in T.
    match type of T with (tol * ?u < _)%R => assert (0 <= tol * u)%R; [|lra] end.
    apply Rmult_le_pos; [unfold tol; lra|].
    repeat match goal with |- context [(?u ^ 2)%R] => let H := fresh in pose proof (pow2_ge_0 u) as H; set (u ^ 2)%R in * end. lra. }
  rewrite <- Lp. unfold annulus_cells. fold m n.
  rewrite (for_grid_throw _ (fun s => s = st check (length pts) pts [] []) _ m n _ 0 0); auto; try lia.
  - intros i k s Hi Hk ->. right. cbv zeta. rewrite put_cell_throw; [reflexivity| |apply T; auto].
    intros q Hq. rewrite Lp. pose proof (Nat.mod_upper_bound (k + 1) n ltac:(lia)).
    destruct Hq as [<-|[<-|[<-|[]]]]; nia.
  - intros s ->. cbv zeta. rewrite put_cell_throw; [reflexivity| |apply T; lia].
    intros q Hq. rewrite Lp. pose proof (Nat.mod_upper_bound (0 + 1) n ltac:(lia)).
    destruct Hq as [<-|[<-|[<-|[]]]]; nia.
Qed.

(** The default settings. *)
Local Open Scope R_scope.
Lemma annulus_default : proper_annulus (mkAnnulus (1 / 4) 1 1 4 (0, 0)) /\ annulus_shaped (mkAnnulus (1 / 4) 1 1 4 (0, 0)).
Proof.
  unfold proper_annulus, annulus_shaped. cbn [an_inner an_outer an_radial an_angular]. cbv zeta.
  split; [split; [lra|lia]|].
  replace (PI / INR 4) with (PI / 4) by (simpl; field).
  assert (S2 : sin (PI / 4) ^ 2 = 1 / 2).
  { rewrite sin_PI4. assert (sqrt 2 * sqrt 2 = 2) by (apply sqrt_sqrt; lra). assert (0 < sqrt 2) by (apply sqrt_lt_R0; lra).
    replace ((1 / sqrt 2) ^ 2) with (1 / (sqrt 2 * sqrt 2)) by (field; lra). rewrite H. lra. }
  rewrite !Rpow_mult_distr, S2. simpl (INR 1). split; lra.
Qed.
Local Open Scope nat_scope.
Theorem annulus_offcenter : forall p check, proper_annulus p -> annulus_shaped p -> an_center p <> (0%R, 0%R) -> exists M g,
  annulus_build p check = Ok (Some (M, g)) /\
  nth_error (g_points g) 0 <> Some [(fst (an_center p) + an_inner p)%R; snd (an_center p)].
Proof.
  intros p check P W C. destruct (annulus_mesh p check P W) as (M & g & E & _ & _ & _ & _ & _ & Pos & _).
  exists M, g. split; auto. destruct P as (_ & _ & Hn). specialize (Pos 0 0 ltac:(lia) ltac:(lia)).
  replace (an_angular p * 0 + 0) with 0 in Pos by lia. rewrite Pos. intros F. apply C.
  unfold circle_point in F. cbv zeta in F. injection F as F1 F2. simpl (INR 0) in *.
  replace (2 * PI * 0 / INR (an_angular p))%R with 0%R in * by (unfold Rdiv; ring).
  rewrite cos_0 in F1. rewrite sin_0 in F2. destruct (an_center p) as [x y]. cbn [fst snd] in *. f_equal; lra.
Qed.
