(** The children of a triangle do not overlap. *)
From Coq Require Import Reals List Arith Lia Bool Lra.
Import ListNotations.
From Verif Require Import Base MeshModel MeshView RefPatModel RefPatSpec RefineModel RefineSpec DofModel DofSpec FlagSpec FlagModel GeoModel GeoSpec FeModel FeSpec FeToolsModel
  TransferModel TransferSpec TransferProofs TransferProofs2 TransferProofs4 TransferProofs5 NormalSpec NormalProofs2 NormalProofs4 StokesModel StokesSpec RectProofs4 RectProofs5.
Local Open Scope R_scope.

(** The first barycentric coordinate. *)
Definition lam (a b c x : vec) : R := area2 b c x / area2 a b c.
Lemma lam_affine : forall a b c p q u x r s t, r + s + t = 1 -> (forall k, (k < 2)%nat -> x k = r * p k + s * q k + t * u k) ->
  lam a b c x = r * lam a b c p + s * lam a b c q + t * lam a b c u.
Proof.
  intros a b c p q u x r s t S H. unfold lam, Rdiv. rewrite <- !Rmult_assoc, <- !Rmult_plus_distr_r. f_equal. unfold area2.
  rewrite (H 0%nat), (H 1%nat) by lia. replace t with (1 - r - s) by lra. ring.
Qed.
Lemma lam_sum : forall a b c x, area2 a b c <> 0 -> lam a b c x + lam b c a x + lam c a b x = 1.
Proof.
  intros a b c x N. unfold lam. replace (area2 b c a) with (area2 a b c) by (unfold area2; ring). replace (area2 c a b) with (area2 a b c) by (unfold area2; ring).
  unfold Rdiv. rewrite <- !Rmult_plus_distr_r. replace (area2 b c x + area2 c a x + area2 a b x) with (area2 a b c) by (unfold area2; ring). field. exact N.
Qed.
Lemma lam_here : forall a b c, area2 a b c <> 0 -> lam a b c a = 1 /\ lam a b c b = 0 /\ lam a b c c = 0.
Proof.
  intros a b c N. unfold lam. replace (area2 b c a) with (area2 a b c) by (unfold area2; ring). replace (area2 b c b) with 0 by (unfold area2; ring).
  replace (area2 b c c) with 0 by (unfold area2; ring). split; [field; exact N|]. split; field; exact N.
Qed.
Lemma lam_inside : forall a b c x, area2 a b c <> 0 -> 0 <= lam a b c x -> 0 <= lam b c a x -> 0 <= lam c a b x -> in_triangle a b c x.
Proof.
  intros a b c x N A B C. exists (lam a b c x), (lam b c a x), (lam c a b x). do 3 (split; [auto|]). split; [apply lam_sum; auto|].
  intros k Hk. unfold lam. replace (area2 b c a) with (area2 a b c) by (unfold area2; ring). replace (area2 c a b) with (area2 a b c) by (unfold area2; ring).
  assert (D : area2 a b c * x k = area2 b c x * a k + area2 c a x * b k + area2 a b x * c k) by (destruct k as [|[|]]; [| |lia]; unfold area2; ring).
  apply (Rmult_eq_reg_l (area2 a b c)); auto. rewrite D. field. exact N.
Qed.
Lemma lam_strict : forall a b c P x, area2 a b c <> 0 -> inside P x -> (forall y, region P y -> 1 / 2 <= lam a b c y) -> 1 / 2 < lam a b c x.
Proof.
  intros a b c P x N (r & Hr & I) H. set (M := 1 + Rabs (b 0%nat - a 0%nat) + Rabs (b 1%nat - a 1%nat)).
  assert (HM : 0 < M) by (unfold M; pose proof (Rabs_pos (b 0%nat - a 0%nat)); pose proof (Rabs_pos (b 1%nat - a 1%nat)); lra).
  set (t := r / M / 2). assert (Ht : 0 < t) by (unfold t; apply Rmult_lt_0_compat; [apply Rdiv_lt_0_compat; auto|lra]).
  set (y := fun k => x k + t * (b k - a k)). assert (Hy : region P y).
  { apply I. intros k Hk. unfold y. replace (x k + t * (b k - a k) - x k) with (t * (b k - a k)) by ring. rewrite Rabs_mult, (Rabs_pos_eq t) by lra.
    assert (Q : Rabs (b k - a k) < M) by (unfold M; pose proof (Rabs_pos (b 0%nat - a 0%nat)); pose proof (Rabs_pos (b 1%nat - a 1%nat)); destruct k as [|[|]]; [lra|lra|lia]).
    apply Rlt_le_trans with (t * M); [apply Rmult_lt_compat_l; auto|]. unfold t. replace (r / M / 2 * M) with (r / 2) by (field; lra). lra. }
  specialize (H y Hy). replace (lam a b c y) with (lam a b c x - t) in H; [lra|].
  unfold lam. apply (Rmult_eq_reg_l (area2 a b c)); auto. replace (area2 a b c * (area2 b c x / area2 a b c - t)) with (area2 b c x - area2 a b c * t) by (field; auto).
  replace (area2 a b c * (area2 b c y / area2 a b c)) with (area2 b c y) by (field; auto). unfold y, area2. ring.
Qed.
(** The four children. *)
Definition same2 (p q : vec) : Prop := forall k, (k < 2)%nat -> p k = q k.
Definition middle (p q : vec) : vec := fun k => (p k + q k) / 2.
Lemma lam_middle : forall a b c p q, lam a b c (middle p q) = (lam a b c p + lam a b c q) / 2.
Proof.
  intros a b c p q. rewrite (lam_affine a b c p q q (middle p q) (1 / 2) (1 / 2) 0); [field_simplify; reflexivity|lra|].
  intros k _. unfold middle. field.
Qed.
Lemma lam_same : forall a b c p q, same2 p q -> lam a b c p = lam a b c q.
Proof. intros a b c p q H. unfold lam, area2. rewrite (H 0%nat), (H 1%nat) by lia. reflexivity. Qed.
Lemma lam_region : forall a b c p q u x lo hi, region [p; q; u] x -> lo <= lam a b c p <= hi -> lo <= lam a b c q <= hi -> lo <= lam a b c u <= hi -> lo <= lam a b c x <= hi.
Proof.
  intros a b c p q u x lo hi H A B C. apply tria_region in H as (r & s & t & R1 & R2 & R3 & S & E). rewrite (lam_affine a b c p q u x r s t S E).
  replace lo with ((r + s + t) * lo) by (rewrite S; ring). replace hi with ((r + s + t) * hi) by (rewrite S; ring). nra.
Qed.
Section Children.
Variables a b c : vec.
Hypothesis N : area2 a b c <> 0.
(** [quarter j P]: [P] is child number [j]. *)
Definition quarter (j : nat) (P : list vec) : Prop := exists p q u, P = [p; q; u] /\
  match j with
  | 0 => same2 p a /\ same2 q (middle a b) /\ same2 u (middle c a)
  | 1 => same2 p b /\ same2 q (middle a b) /\ same2 u (middle b c)
  | 2 => same2 p c /\ same2 q (middle c a) /\ same2 u (middle b c)
  | _ => same2 p (middle a b) /\ same2 q (middle b c) /\ same2 u (middle c a)
  end%nat.
Lemma Nb : area2 b c a <> 0. Proof. replace (area2 b c a) with (area2 a b c) by (unfold area2; ring). exact N. Qed.
Lemma Nc : area2 c a b <> 0. Proof. replace (area2 c a b) with (area2 a b c) by (unfold area2; ring). exact N. Qed.
Lemma bounds : forall j P x, quarter j P -> region P x ->
  (0 <= lam a b c x /\ 0 <= lam b c a x /\ 0 <= lam c a b x) /\
  match j with 0%nat => 1 / 2 <= lam a b c x | 1%nat => 1 / 2 <= lam b c a x | 2%nat => 1 / 2 <= lam c a b x | _ => lam a b c x <= 1 / 2 /\ lam b c a x <= 1 / 2 /\ lam c a b x <= 1 / 2 end.
Proof.
  intros j P x (p & q & u & -> & Q) R. destruct (lam_here a b c N) as (A1 & A2 & A3). destruct (lam_here b c a Nb) as (B1 & B2 & B3). destruct (lam_here c a b Nc) as (C1 & C2 & C3).
  destruct j as [|[|[|j]]]; destruct Q as (Q1 & Q2 & Q3).
  all: pose proof (lam_region a b c p q u x) as RA; pose proof (lam_region b c a p q u x) as RB; pose proof (lam_region c a b p q u x) as RC;
    rewrite (lam_same a b c _ _ Q1), (lam_same a b c _ _ Q2), (lam_same a b c _ _ Q3), ?lam_middle, ?A1, ?A2, ?A3 in RA;
    rewrite (lam_same b c a _ _ Q1), (lam_same b c a _ _ Q2), (lam_same b c a _ _ Q3), ?lam_middle, ?B1, ?B2, ?B3 in RB;
    rewrite (lam_same c a b _ _ Q1), (lam_same c a b _ _ Q2), (lam_same c a b _ _ Q3), ?lam_middle, ?C1, ?C2, ?C3 in RC.
  - specialize (RA (1 / 2) 1 R). specialize (RB 0 1 R). specialize (RC 0 1 R). lra.
  - specialize (RA 0 1 R). specialize (RB (1 / 2) 1 R). specialize (RC 0 1 R). lra.
  - specialize (RA 0 1 R). specialize (RB 0 1 R). specialize (RC (1 / 2) 1 R). lra.
  - specialize (RA 0 (1 / 2) R). specialize (RB 0 (1 / 2) R). specialize (RC 0 (1 / 2) R). lra.
Qed.
Lemma quarter_in : forall j P x, quarter j P -> inside P x -> inside [a; b; c] x.
Proof.
  intros j P x Q (r & Hr & I). exists r. split; auto. intros y Hy. destruct (bounds j P y Q (I y Hy)) as ((B1 & B2 & B3) & _). constructor. apply lam_inside; auto.
Qed.
Lemma quarter_strict : forall j P x, quarter j P -> inside P x ->
  match j with 0%nat => 1 / 2 < lam a b c x | 1%nat => 1 / 2 < lam b c a x | 2%nat => 1 / 2 < lam c a b x | _ => True end.
Proof.
  intros [|[|[|j]]] P x Q I; auto.
  - apply (lam_strict a b c P x N I). intros y Hy. exact (proj2 (bounds 0 P y Q Hy)).
  - apply (lam_strict b c a P x Nb I). intros y Hy. exact (proj2 (bounds 1 P y Q Hy)).
  - apply (lam_strict c a b P x Nc I). intros y Hy. exact (proj2 (bounds 2 P y Q Hy)).
Qed.
Lemma quarters_apart : forall j j' P P', (j < 4)%nat -> (j' < 4)%nat -> j <> j' -> quarter j P -> quarter j' P' -> disjoint_interiors P P'.
Proof.
  intros j j' P P' Hj Hj' NE Q Q' x [I I']. pose proof (quarter_strict j P x Q I) as S1. pose proof (quarter_strict j' P' x Q' I') as S2.
  destruct (bounds j P x Q (inside_region _ _ I)) as ((B1 & B2 & B3) & B4). destruct (bounds j' P' x Q' (inside_region _ _ I')) as (_ & B5).
  pose proof (lam_sum a b c x N) as SU.
  destruct j as [|[|[|[|]]]]; destruct j' as [|[|[|[|]]]]; try lia; try congruence; lra.
Qed.
End Children.
