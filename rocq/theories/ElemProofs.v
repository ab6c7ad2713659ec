(** Proofs about element matrices and vectors. *)
From Coq Require Import Reals List Arith Bool Lia Lra.
Import ListNotations.
From Verif Require Import Base MeshModel MeshView DofModel RefPatModel GeoModel GeoSpec GeoProofs GeoProofs2 FeModel QuadModel FeSpec QuadSpec
  HierProofs HierProofs3 ElemModel ElemSpec.
Local Open Scope R_scope.

(** *** Sums *)
Lemma rs_ext : forall {A} (f g : A -> R) l, (forall a, In a l -> f a = g a) -> rsum (map f l) = rsum (map g l).
Proof. intros A f g l H. f_equal. apply map_ext_in, H. Qed.
Lemma rs_plus : forall {A} (f g : A -> R) l, rsum (map (fun a => f a + g a) l) = rsum (map f l) + rsum (map g l).
Proof. intros A f g l. induction l as [|a l IH]; cbn [map rsum fold_right]; [lra|]. unfold rsum in *. rewrite IH. lra. Qed.
Lemma rs_scal : forall {A} (f : A -> R) t l, rsum (map (fun a => t * f a) l) = t * rsum (map f l).
Proof. intros A f t l. induction l as [|a l IH]; cbn [map rsum fold_right]; [lra|]. unfold rsum in *. rewrite IH. lra. Qed.
Lemma rs_zero : forall {A} (f : A -> R) l, (forall a, In a l -> f a = 0) -> rsum (map f l) = 0.
Proof.
  intros A f l H. induction l as [|a l IH]; [reflexivity|]. cbn [map rsum fold_right]. unfold rsum in *.
  rewrite IH, H; [lra|left; reflexivity|]. intros b Hb. apply H. right. exact Hb.
Qed.
Lemma rs_swap : forall {A B} (f : A -> B -> R) l m,
  rsum (map (fun a => rsum (map (fun b => f a b) m)) l) = rsum (map (fun b => rsum (map (fun a => f a b) l)) m).
Proof.
  intros A B f l m. induction l as [|a l IH].
  - cbn [map]. symmetry. apply rs_zero. reflexivity.
  - cbn [map]. change (rsum (?x :: ?y)) with (x + rsum y). rewrite IH, <- rs_plus. apply rs_ext. reflexivity.
Qed.
Lemma rs_nonneg : forall {A} (f : A -> R) l, (forall a, In a l -> 0 <= f a) -> 0 <= rsum (map f l).
Proof.
  intros A f l H. induction l as [|a l IH]; cbn [map rsum fold_right]; [lra|].
  assert (0 <= f a) by (apply H; left; reflexivity).
  assert (0 <= rsum (map f l)) by (apply IH; intros b Hb; apply H; right; exact Hb). unfold rsum in *. lra.
Qed.
Lemma sum_to_rsum : forall n h, sum_to n h = rsum (map h (seq 0 n)). Proof. reflexivity. Qed.
Lemma inner_rsum : forall d a b, inner d a b = rsum (map (fun k => a k * b k) (seq 0 d)). Proof. reflexivity. Qed.

(** *** Traversals and quadrature by index *)
Lemma traverse_nth : forall A B (f : A -> res B) l bs, traverse f l = Ok bs ->
  length bs = length l /\ forall k a b, (k < length l)%nat -> f (nth k l a) = Ok (nth k bs b).
Proof.
  intros A B f l. induction l as [|x l IH]; intros bs H; cbn [traverse] in H.
  - injection H as <-. split; [reflexivity|]. cbn [length]. intros. lia.
  - destruct (bind_ok _ _ _ _ _ H) as [y [Hy H1]]. destruct (bind_ok _ _ _ _ _ H1) as [ys [Hys H2]]. injection H2 as <-.
    destruct (IH _ Hys) as [E F]. split; [cbn [length]; lia|]. intros [|k] a b Hk; cbn [nth]; [exact Hy|].
    apply F. cbn [length] in Hk. lia.
Qed.
Lemma quad_idx : forall q F, length (qr_weights q) = length (qr_points q) ->
  quadrature q F = rsum (map (fun k => nth k (qr_weights q) 0 * F (nth k (qr_points q) [])) (seq 0 (NumPoints q))).
Proof.
  intros q F. unfold quadrature, NumPoints, FeModel.dot. generalize (qr_weights q) as w, (qr_points q) as p.
  intros w p. revert w. induction p as [|x p IH]; intros [|a w] L; try discriminate; [reflexivity|].
  cbn [length seq map combine fst snd]. rewrite <- seq_shift, map_map.
  change (rsum (?x :: ?y)) with (x + rsum y). cbn [nth]. f_equal. apply IH. injection L as L. exact L.
Qed.
Lemma acc_entry : forall (w : nat -> R) (X : nat -> nat -> nat -> R) ks m i j,
  em_n (fold_left (fun m k => eadd m (w k) (X k)) ks m) = em_n m /\
  em_at (fold_left (fun m k => eadd m (w k) (X k)) ks m) i j = em_at m i j + rsum (map (fun k => w k * X k i j) ks).
Proof.
  intros w X ks. induction ks as [|k ks IH]; intros m i j; cbn [fold_left map].
  - split; [reflexivity|]. cbn [rsum fold_right]. lra.
  - destruct (IH (eadd m (w k) (X k)) i j) as [A B]. split; [exact A|]. rewrite B.
    change (rsum (?x :: ?y)) with (x + rsum y). cbn [eadd em_at]. lra.
Qed.
Lemma axpy_nth : forall w v u i, length v = length u -> (i < length u)%nat ->
  nth i (vec_axpy w v u) 0 = nth i u 0 + w * nth i v 0.
Proof.
  intros w v u i L Hi. unfold vec_axpy.
  set (F := fun p : R * R => fst p + w * snd p).
  transitivity (nth i (map F (combine u v)) (F (0, 0))).
  { apply nth_indep. rewrite map_length, combine_length. lia. }
  rewrite map_nth, combine_nth by lia. reflexivity.
Qed.
Lemma acc_vec : forall (w : nat -> R) (X : nat -> list R) ks n v, length v = n -> (forall k, In k ks -> length (X k) = n) ->
  length (fold_left (fun v k => vec_axpy (w k) (X k) v) ks v) = n /\
  forall i, (i < n)%nat -> nth i (fold_left (fun v k => vec_axpy (w k) (X k) v) ks v) 0 =
                           nth i v 0 + rsum (map (fun k => w k * nth i (X k) 0) ks).
Proof.
  intros w X ks. induction ks as [|k ks IH]; intros n v L H; cbn [fold_left map].
  - split; [exact L|]. intros. cbn [rsum fold_right]. lra.
  - assert (Lk : length (X k) = n) by (apply H; left; reflexivity).
    assert (L' : length (vec_axpy (w k) (X k) v) = n) by (unfold vec_axpy; rewrite map_length, combine_length; lia).
    destruct (IH n _ L' (fun k' Hk => H k' (or_intror Hk))) as [A B]. split; [exact A|]. intros i Hi. rewrite B by exact Hi.
    rewrite axpy_nth by lia. change (rsum (?x :: ?y)) with (x + rsum y). lra.
Qed.

(** *** Bilinear forms *)
Lemma flux_cmul : forall d a v k, cmul d a v k = flux d a v k. Proof. intros d [s|A] v k; reflexivity. Qed.
Lemma flux_ext : forall d a v w, (forall k, (k < d)%nat -> v k = w k) -> forall k, (k < d)%nat -> flux d a v k = flux d a w k.
Proof.
  intros d [s|A] v w H k Hk; cbn [flux]; [rewrite H by exact Hk; reflexivity|].
  apply (rs_ext (fun l => A k l * v l)). intros l Hl. apply in_seq in Hl. rewrite H by lia. reflexivity.
Qed.
Lemma inner_ext : forall d a b a' b', (forall k, (k < d)%nat -> a k = a' k) -> (forall k, (k < d)%nat -> b k = b' k) ->
  inner d a b = inner d a' b'.
Proof.
  intros d a b a' b' H H'. rewrite !inner_rsum. apply rs_ext. intros k Hk. apply in_seq in Hk.
  rewrite H, H' by lia. reflexivity.
Qed.
Definition combo (n : nat) (u : nat -> R) (g : nat -> vec) : vec := fun k => sum_to n (fun i => u i * g i k).
Lemma inner_combo : forall d n u g w, inner d (combo n u g) w = sum_to n (fun i => u i * inner d (g i) w).
Proof.
  intros d n u g w. rewrite inner_rsum, sum_to_rsum. unfold combo.
  transitivity (rsum (map (fun k => rsum (map (fun i => u i * (g i k * w k)) (seq 0 n))) (seq 0 d))).
  - apply rs_ext. intros k _. rewrite sum_to_rsum, Rmult_comm, <- rs_scal. apply rs_ext. intros. ring.
  - rewrite rs_swap. apply rs_ext. intros i _. rewrite inner_rsum, <- rs_scal. reflexivity.
Qed.
Lemma flux_combo : forall d a n u g k, flux d a (combo n u g) k = sum_to n (fun i => u i * flux d a (g i) k).
Proof.
  intros d [s|A] n u g k; cbn [flux].
  - unfold combo. rewrite !sum_to_rsum, <- rs_scal. apply rs_ext. intros. ring.
  - unfold combo. change (fold_right Rplus 0) with rsum. rewrite sum_to_rsum.
    transitivity (rsum (map (fun l => rsum (map (fun i => u i * (A k l * g i l)) (seq 0 n))) (seq 0 d))).
    + apply rs_ext. intros l _. rewrite sum_to_rsum, <- rs_scal. apply rs_ext. intros. ring.
    + rewrite rs_swap. apply rs_ext. intros i _. rewrite <- rs_scal. reflexivity.
Qed.
Lemma inner_comm : forall d a b, inner d a b = inner d b a.
Proof. intros. rewrite !inner_rsum. apply rs_ext. intros. ring. Qed.
Lemma inner_flux_combo : forall d a n u g v, inner d v (flux d a (combo n u g)) = sum_to n (fun j => inner d v (flux d a (g j)) * u j).
Proof.
  intros d a n u g v. rewrite inner_comm.
  rewrite (inner_ext d _ v (combo n u (fun i => flux d a (g i))) v); [|intros; rewrite flux_combo; reflexivity|reflexivity].
  rewrite inner_combo, !sum_to_rsum. apply rs_ext. intros. rewrite inner_comm. ring.
Qed.
Lemma form_combo : forall d a n u g,
  sum_to n (fun i => sum_to n (fun j => u i * inner d (g i) (flux d a (g j)) * u j)) =
  inner d (combo n u g) (flux d a (combo n u g)).
Proof.
  intros d a n u g. rewrite inner_combo. rewrite !(sum_to_rsum n). apply rs_ext. intros i _.
  rewrite inner_flux_combo, !sum_to_rsum, <- rs_scal. apply rs_ext. intros. ring.
Qed.
Lemma flux_symmetric : forall d a v w, symmetric_coeff d a -> inner d v (flux d a w) = inner d w (flux d a v).
Proof.
  intros d [s|A] v w H; rewrite !inner_rsum; cbn [flux].
  - apply rs_ext. intros. ring.
  - transitivity (rsum (map (fun k => rsum (map (fun l => v k * A k l * w l) (seq 0 d))) (seq 0 d))).
    + apply rs_ext. intros k _. change (fold_right Rplus 0) with rsum. rewrite <- rs_scal. apply rs_ext. intros. ring.
    + rewrite rs_swap. apply rs_ext. intros k Hk. change (fold_right Rplus 0) with rsum. rewrite <- rs_scal. apply rs_ext.
      intros l Hl. apply in_seq in Hk, Hl. cbn [symmetric_coeff] in H. rewrite (H l k) by lia. ring.
Qed.

(** *** Gradients in world coordinates *)
Lemma two_cols : forall (J : list vec), length J = 2%nat -> exists a b, J = [a; b].
Proof. intros [|a [|b [|c J]]] H; try discriminate. exists a, b. reflexivity. Qed.
Lemma inner_lin : forall d a b s t w, inner d (fun k => s * a k + t * b k) w = s * inner d a w + t * inner d b w.
Proof.
  intros. rewrite !inner_rsum, <- !rs_scal, <- rs_plus. apply rs_ext. intros. ring.
Qed.
Lemma trf_world : forall d J M gr i, length J = 2%nat -> gramian_det d J <> 0 -> is_inverse_gramian d J M ->
  world_gradient d J (nth i gr []) (trf_grad M gr i).
Proof.
  intros d J M gr i L D [LM HM]. destruct (two_cols J L) as [a [b ->]]. rewrite L in LM. destruct (two_cols M LM) as [m [n ->]].
  cbn [length] in HM. set (r := nth i gr []).
  unfold gramian_det in D. cbn [length] in D.
  assert (Ea : forall k, (k < d)%nat -> m k * inner d a a + n k * inner d b a = a k).
  { intros k Hk. pose proof (HM 0%nat k ltac:(lia) Hk) as E. cbn [seq map fold_right nth] in E. unfold gramian in E. cbn [nth] in E. lra. }
  assert (Eb : forall k, (k < d)%nat -> m k * inner d a b + n k * inner d b b = b k).
  { intros k Hk. pose proof (HM 1%nat k ltac:(lia) Hk) as E. cbn [seq map fold_right nth] in E. unfold gramian in E. cbn [nth] in E. lra. }
  unfold gramian in D. cbn [nth] in D. clear HM.
  set (A := inner d a a) in *. set (B := inner d a b) in *. set (C := inner d b b) in *.
  assert (Bs : inner d b a = B) by apply inner_comm. rewrite Bs in *.
  set (D0 := A * C - B * B) in *.
  assert (Em : forall k, (k < d)%nat -> m k = C / D0 * a k + - B / D0 * b k).
  { intros k Hk. rewrite <- (Ea k Hk), <- (Eb k Hk). unfold D0. field. exact D. }
  assert (En : forall k, (k < d)%nat -> n k = - B / D0 * a k + A / D0 * b k).
  { intros k Hk. rewrite <- (Ea k Hk), <- (Eb k Hk). unfold D0. field. exact D. }
  set (r0 := nth 0 r 0). set (r1 := nth 1 r 0).
  assert (ET : forall k, (k < d)%nat -> trf_grad [m; n] gr i k =
     ((C * r0 - B * r1) / D0) * a k + ((A * r1 - B * r0) / D0) * b k).
  { intros k Hk. unfold trf_grad. cbn [seq map nth rsum fold_right]. fold r. fold r0 r1. rewrite Em, En by exact Hk. field. exact D. }
  split.
  - intros c Hc. rewrite inner_comm.
    rewrite (inner_ext d _ _ (fun k => ((C * r0 - B * r1) / D0) * a k + ((A * r1 - B * r0) / D0) * b k) (nth c [a; b] vzero) ET (fun _ _ => eq_refl)).
    rewrite inner_lin. cbn [length] in Hc. destruct c as [|[|c]]; [| |lia]; cbn [nth].
    + fold A. rewrite Bs. fold r0. unfold D0. field. exact D.
    + fold B C. fold r1. unfold D0. field. exact D.
  - exists [(C * r0 - B * r1) / D0; (A * r1 - B * r0) / D0]. split; [reflexivity|]. intros k Hk. rewrite (ET k Hk).
    unfold apply. cbn [combine map fst snd fold_right]. ring.
Qed.
Lemma world_unique : forall d J r G G', length J = 2%nat -> gramian_det d J <> 0 ->
  world_gradient d J r G -> world_gradient d J r G' -> forall k, (k < d)%nat -> G k = G' k.
Proof.
  intros d J r G G' L D [H1 [s [Ls Hs]]] [H2 [t [Lt Ht]]] k Hk. destruct (two_cols J L) as [a [b ->]].
  unfold gramian_det, gramian in D. cbn [length nth] in D. cbn [length] in Ls, Lt, H1, H2.
  destruct s as [|s0 [|s1 [|? ?]]]; try discriminate. destruct t as [|t0 [|t1 [|? ?]]]; try discriminate.
  assert (E1 : forall k, (k < d)%nat -> G k = s0 * a k + s1 * b k).
  { intros j Hj. rewrite (Hs j Hj). unfold apply. cbn. ring. }
  assert (E2 : forall k, (k < d)%nat -> G' k = t0 * a k + t1 * b k).
  { intros j Hj. rewrite (Ht j Hj). unfold apply. cbn. ring. }
  assert (F : forall c, (c < 2)%nat ->
     s0 * inner d a (nth c [a; b] vzero) + s1 * inner d b (nth c [a; b] vzero) =
     t0 * inner d a (nth c [a; b] vzero) + t1 * inner d b (nth c [a; b] vzero)).
  { intros c Hc. rewrite <- !inner_lin.
    rewrite (inner_ext d _ _ G (nth c [a; b] vzero)); [|intros; symmetry; apply E1; assumption|reflexivity].
    rewrite (inner_ext d (fun k => t0 * a k + _) _ G' (nth c [a; b] vzero)); [|intros; symmetry; apply E2; assumption|reflexivity].
    rewrite !(inner_comm d _ (nth c _ _)). rewrite H1, H2 by exact Hc. reflexivity. }
  pose proof (F 0%nat ltac:(lia)) as F0. pose proof (F 1%nat ltac:(lia)) as F1. cbn [nth] in F0, F1.
  rewrite (inner_comm d b a) in *.
  set (A := inner d a a) in *. set (B := inner d a b) in *. set (C := inner d b b) in *.
  assert (X : (s0 - t0) * (A * C - B * B) = 0).
  { replace ((s0 - t0) * (A * C - B * B)) with
      (C * ((s0 * A + s1 * B) - (t0 * A + t1 * B)) - B * ((s0 * B + s1 * C) - (t0 * B + t1 * C))) by ring.
    rewrite F0, F1. ring. }
  assert (Y : (s1 - t1) * (A * C - B * B) = 0).
  { replace ((s1 - t1) * (A * C - B * B)) with
      (A * ((s0 * B + s1 * C) - (t0 * B + t1 * C)) - B * ((s0 * A + s1 * B) - (t0 * A + t1 * B))) by ring.
    rewrite F0, F1. ring. }
  apply Rmult_integral in X, Y. rewrite E1, E2 by exact Hk.
  replace s0 with t0 by (destruct X; [lra|contradiction]). replace s1 with t1 by (destruct Y; [lra|contradiction]). reflexivity.
Qed.
