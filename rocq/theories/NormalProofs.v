(** Plane geometry for C87: triangles and quadrilaterals by signed areas. *)
From Coq Require Import Reals List Arith Lia Lra.
Import ListNotations.
From Verif Require Import Base MeshModel RefPatModel GeoModel GeoSpec NormalSpec.
Local Open Scope R_scope.

Definition near (r : R) (x y : vec) : Prop := forall k, (k < 2)%nat -> Rabs (y k - x k) < r.
Lemma near_weaken : forall r r' x y, r <= r' -> near r x y -> near r' x y.
Proof. intros r r' x y H N k Hk. specialize (N k Hk). lra. Qed.

Lemma abs_le : forall a b, Rabs a <= b -> - b <= a <= b.
Proof. intros a b. unfold Rabs. destruct (Rcase_abs a); intros; lra. Qed.
Lemma affine_pos : forall u v w x, 0 < u + v * x 0%nat + w * x 1%nat -> exists r, 0 < r /\ forall y, near r x y -> 0 < u + v * y 0%nat + w * y 1%nat.
Proof.
  intros u v w x H. set (val := u + v * x 0%nat + w * x 1%nat) in *.
  pose proof (Rabs_pos v) as Pv. pose proof (Rabs_pos w) as Pw.
  assert (M : 0 < 1 + Rabs v + Rabs w) by lra.
  exists (val / (1 + Rabs v + Rabs w)). split; [apply Rdiv_lt_0_compat; assumption|].
  intros y N. pose proof (N 0%nat ltac:(lia)) as N0. pose proof (N 1%nat ltac:(lia)) as N1.
  set (r := val / (1 + Rabs v + Rabs w)) in *.
  assert (E : val = r * (1 + Rabs v + Rabs w)) by (unfold r; field; lra).
  assert (A : Rabs (v * (y 0%nat - x 0%nat)) <= Rabs v * r) by (rewrite Rabs_mult; apply Rmult_le_compat_l; lra).
  assert (B : Rabs (w * (y 1%nat - x 1%nat)) <= Rabs w * r) by (rewrite Rabs_mult; apply Rmult_le_compat_l; lra).
  apply abs_le in A. apply abs_le in B.
  assert (Pr : 0 < r) by (apply Rdiv_lt_0_compat; assumption).
  unfold val in E. lra.
Qed.
Lemma side_pos : forall sg p q x, 0 < sg * area2 p q x -> exists r, 0 < r /\ forall y, near r x y -> 0 < sg * area2 p q y.
Proof.
  intros sg p q x H.
  destruct (affine_pos (sg * (- (q 0%nat - p 0%nat) * p 1%nat + (q 1%nat - p 1%nat) * p 0%nat)) (sg * - (q 1%nat - p 1%nat)) (sg * (q 0%nat - p 0%nat)) x) as [r [Hr K]].
  - unfold area2 in H. lra.
  - exists r. split; [exact Hr|]. intros y N. specialize (K y N). unfold area2. lra.
Qed.

Lemma in_triangle_rot : forall a b c x, in_triangle a b c x -> in_triangle b c a x.
Proof.
  intros a b c x [r [s [t [Hr [Hs [Ht [E K]]]]]]]. exists s, t, r.
  split; [exact Hs|]. split; [exact Ht|]. split; [exact Hr|]. split; [lra|]. intros k Hk. rewrite (K k Hk). ring.
Qed.
Lemma triangle_sides : forall a b c x, in_triangle a b c x -> exists r s t, 0 <= r /\ 0 <= s /\ 0 <= t /\
  area2 a b x = t * area2 a b c /\ area2 b c x = r * area2 a b c /\ area2 c a x = s * area2 a b c.
Proof.
  intros a b c x [r [s [t [Hr [Hs [Ht [E K]]]]]]]. exists r, s, t.
  split; [exact Hr|]. split; [exact Hs|]. split; [exact Ht|].
  unfold area2. rewrite (K 0%nat), (K 1%nat) by lia. replace r with (1 - s - t) by lra. repeat split; ring.
Qed.
Lemma triangle_half : forall sg a b c x, 0 < sg * area2 a b c -> in_triangle a b c x -> 0 <= sg * area2 a b x.
Proof.
  intros sg a b c x H T. destruct (triangle_sides _ _ _ _ T) as [r [s [t [_ [_ [Ht [E _]]]]]]]. rewrite E.
  replace (sg * (t * area2 a b c)) with (t * (sg * area2 a b c)) by ring. apply Rmult_le_pos; lra.
Qed.
Lemma sides_triangle : forall sg a b c x, 0 < sg * area2 a b c -> 0 <= sg * area2 a b x -> 0 <= sg * area2 b c x -> 0 <= sg * area2 c a x -> in_triangle a b c x.
Proof.
  intros sg a b c x H H1 H2 H3. set (A := area2 a b c) in *.
  assert (Z : A <> 0) by (intros Z; rewrite Z in H; lra).
  assert (Zs : sg <> 0) by (intros Zs; rewrite Zs in H; lra).
  assert (D : forall y, y / A = (sg * y) / (sg * A)) by (intros y; field; split; assumption).
  assert (P : forall y, 0 <= sg * y -> 0 <= y / A).
  { intros y Hy. rewrite D. unfold Rdiv. apply Rmult_le_pos; [exact Hy|]. apply Rlt_le, Rinv_0_lt_compat, H. }
  exists (area2 b c x / A), (area2 c a x / A), (area2 a b x / A).
  split; [exact (P _ H2)|]. split; [exact (P _ H3)|]. split; [exact (P _ H1)|].
  assert (ES : area2 b c x + area2 c a x + area2 a b x = A) by (unfold A, area2; ring).
  split.
  - transitivity ((area2 b c x + area2 c a x + area2 a b x) / A); [field; exact Z|]. rewrite ES. field. exact Z.
  - intros k Hk.
    assert (K : x k * A = area2 b c x * a k + area2 c a x * b k + area2 a b x * c k).
    { unfold A, area2. destruct k as [|[|]]; [ring|ring|lia]. }
    apply Rmult_eq_reg_r with A; [|exact Z]. rewrite K. field. exact Z.
Qed.

(** The normal of the edge from p to q, on the side opposite to sg. *)
Definition nrm (sg : R) (p q : vec) : vec := fun k => match k with 0%nat => sg * (q 1%nat - p 1%nat) / distance 2 p q | _ => - (sg * (q 0%nat - p 0%nat)) / distance 2 p q end.
Definition sign1 (sg : R) : Prop := sg = 1 \/ sg = -1.
Lemma dist_sq : forall p q, distance 2 p q * distance 2 p q = (q 0%nat - p 0%nat) * (q 0%nat - p 0%nat) + (q 1%nat - p 1%nat) * (q 1%nat - p 1%nat).
Proof.
  intros p q. unfold distance. rewrite sqrt_def; cbn [seq map fold_right].
  - ring.
  - pose proof (Rle_0_sqr (q 0%nat - p 0%nat)). pose proof (Rle_0_sqr (q 1%nat - p 1%nat)). unfold Rsqr in *. lra.
Qed.
Lemma dist_pos : forall p q, 0 <= distance 2 p q.
Proof. intros. apply sqrt_pos. Qed.
Lemma area_dist : forall p q c, area2 p q c <> 0 -> 0 < distance 2 p q.
Proof.
  intros p q c H. pose proof (dist_pos p q) as P. pose proof (dist_sq p q) as E. destruct (Req_dec (distance 2 p q) 0) as [Z|Z]; [|lra].
  rewrite Z in E. pose proof (Rle_0_sqr (q 0%nat - p 0%nat)) as A. pose proof (Rle_0_sqr (q 1%nat - p 1%nat)) as B. unfold Rsqr in *.
  assert (A0 : (q 0%nat - p 0%nat) * (q 0%nat - p 0%nat) = 0) by lra.
  assert (B0 : (q 1%nat - p 1%nat) * (q 1%nat - p 1%nat) = 0) by lra.
  apply Rmult_integral in A0. apply Rmult_integral in B0. exfalso. apply H. unfold area2.
  replace (q 0%nat - p 0%nat) with 0 by (destruct A0; lra). replace (q 1%nat - p 1%nat) with 0 by (destruct B0; lra). ring.
Qed.
Lemma nrm_unit : forall sg p q, sign1 sg -> 0 < distance 2 p q -> inner 2 (nrm sg p q) (nrm sg p q) = 1 /\ inner 2 (nrm sg p q) (vsub q p) = 0.
Proof.
  intros sg p q S L. pose proof (dist_sq p q) as E. unfold inner, nrm, vsub. cbn [seq map fold_right].
  assert (SS : sg * sg = 1) by (destruct S as [-> | ->]; ring).
  split; [|field; lra].
  transitivity (sg * sg * ((q 0%nat - p 0%nat) * (q 0%nat - p 0%nat) + (q 1%nat - p 1%nat) * (q 1%nat - p 1%nat)) / (distance 2 p q * distance 2 p q)); [field; lra|].
  rewrite <- E, SS. field. lra.
Qed.
Lemma nrm_bound : forall sg p q k, sign1 sg -> 0 < distance 2 p q -> Rabs (nrm sg p q k) <= 1.
Proof.
  intros sg p q k S L. destruct (nrm_unit sg p q S L) as [U _]. unfold inner in U. cbn [seq map fold_right] in U.
  assert (K : nrm sg p q k * nrm sg p q k <= 1).
  { pose proof (Rle_0_sqr (nrm sg p q 0%nat)). pose proof (Rle_0_sqr (nrm sg p q 1%nat)). unfold Rsqr in *.
    destruct k as [|k]; [lra|]. change (nrm sg p q (Datatypes.S k)) with (nrm sg p q 1%nat). lra. }
  rewrite <- (Rabs_pos_eq 1) by lra. apply Rsqr_le_abs_0. unfold Rsqr. lra.
Qed.
Lemma nrm_area : forall sg p q s t, sign1 sg -> 0 < distance 2 p q -> sg * area2 p q (shifted (along p q s) t (nrm sg p q)) = - t * distance 2 p q.
Proof.
  intros sg p q s t S L. pose proof (dist_sq p q) as E. assert (SS : sg * sg = 1) by (destruct S as [-> | ->]; ring).
  unfold area2, shifted, along, nrm.
  transitivity (- t * (sg * sg) * ((q 0%nat - p 0%nat) * (q 0%nat - p 0%nat) + (q 1%nat - p 1%nat) * (q 1%nat - p 1%nat)) / distance 2 p q); [field; lra|].
  rewrite <- E, SS. field. lra.
Qed.
Lemma near_shift : forall r sg p q x t, sign1 sg -> 0 < distance 2 p q -> Rabs t < r -> near r x (shifted x t (nrm sg p q)).
Proof.
  intros r sg p q x t S L Ht k _. unfold shifted. replace (x k + t * nrm sg p q k - x k) with (t * nrm sg p q k) by ring.
  rewrite Rabs_mult. pose proof (nrm_bound sg p q k S L). pose proof (Rabs_pos t). pose proof (Rabs_pos (nrm sg p q k)).
  apply Rle_lt_trans with (Rabs t * 1); [apply Rmult_le_compat_l; lra|lra].
Qed.

(** Small steps from an edge of a triangle. *)
Lemma edge_out : forall sg p q c s t, sign1 sg -> 0 < sg * area2 p q c -> 0 < t -> ~ in_triangle p q c (shifted (along p q s) t (nrm sg p q)).
Proof.
  intros sg p q c s t S H Ht T. assert (L : 0 < distance 2 p q) by (apply (area_dist p q c); intros Z; rewrite Z in H; lra).
  pose proof (triangle_half sg _ _ _ _ H T) as K. rewrite nrm_area in K by assumption. assert (0 < t * distance 2 p q) by (apply Rmult_lt_0_compat; assumption). lra.
Qed.
Lemma edge_in : forall sg p q c s, sign1 sg -> 0 < sg * area2 p q c -> 0 < s < 1 -> exists eps, 0 < eps /\ forall t, 0 < t < eps ->
  exists r, 0 < r /\ forall y, near r (shifted (along p q s) (- t) (nrm sg p q)) y -> in_triangle p q c y.
Proof.
  intros sg p q c s S H Hs. assert (L : 0 < distance 2 p q) by (apply (area_dist p q c); intros Z; rewrite Z in H; lra).
  destruct (side_pos sg q c (along p q s)) as [r1 [R1 K1]].
  { replace (sg * area2 q c (along p q s)) with ((1 - s) * (sg * area2 p q c)) by (unfold area2, along; ring). apply Rmult_lt_0_compat; lra. }
  destruct (side_pos sg c p (along p q s)) as [r2 [R2 K2]].
  { replace (sg * area2 c p (along p q s)) with (s * (sg * area2 p q c)) by (unfold area2, along; ring). apply Rmult_lt_0_compat; lra. }
  exists (Rmin r1 r2). split; [apply Rmin_pos; assumption|]. intros t Ht.
  pose proof (Rmin_l r1 r2). pose proof (Rmin_r r1 r2).
  set (z := shifted (along p q s) (- t) (nrm sg p q)).
  assert (N : near (Rmin r1 r2) (along p q s) z) by (apply near_shift; [assumption|assumption|rewrite Rabs_Ropp, Rabs_pos_eq; lra]).
  assert (P0 : 0 < sg * area2 p q z) by (unfold z; rewrite nrm_area by assumption; replace (- - t) with t by ring; apply Rmult_lt_0_compat; lra).
  destruct (side_pos _ _ _ _ P0) as [a0 [A0 B0]].
  destruct (side_pos _ _ _ _ (K1 z (near_weaken _ _ _ _ (Rmin_l r1 r2) N))) as [a1 [A1 B1]].
  destruct (side_pos _ _ _ _ (K2 z (near_weaken _ _ _ _ (Rmin_r r1 r2) N))) as [a2 [A2 B2]].
  exists (Rmin a0 (Rmin a1 a2)). split; [apply Rmin_pos; [assumption|apply Rmin_pos; assumption]|].
  intros y Ny. apply (sides_triangle sg); [exact H| | |]; apply Rlt_le.
  - apply B0. eapply near_weaken; [|exact Ny]. apply Rmin_l.
  - apply B1. eapply near_weaken; [|exact Ny]. eapply Rle_trans; [apply Rmin_r|apply Rmin_l].
  - apply B2. eapply near_weaken; [|exact Ny]. eapply Rle_trans; [apply Rmin_r|apply Rmin_r].
Qed.
(** The other triangle lies on the other side of the line from u to v. *)
Lemma edge_other : forall sg p q u v w s, sign1 sg -> 0 < distance 2 p q -> 0 < sg * area2 u v w -> sg * area2 u v (along p q s) < 0 ->
  exists eps, 0 < eps /\ forall t, 0 < t < eps -> ~ in_triangle u v w (shifted (along p q s) t (nrm sg p q)).
Proof.
  intros sg p q u v w s S L H X. destruct (side_pos (- sg) u v (along p q s)) as [r [Hr K]]; [lra|].
  exists r. split; [exact Hr|]. intros t Ht T. pose proof (triangle_half sg _ _ _ _ H T) as P.
  specialize (K (shifted (along p q s) t (nrm sg p q))).
  assert (0 < - sg * area2 u v (shifted (along p q s) t (nrm sg p q))); [|lra].
  apply K. apply near_shift; [assumption|assumption|rewrite Rabs_pos_eq; lra].
Qed.
