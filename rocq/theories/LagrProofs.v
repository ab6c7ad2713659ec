(** Proofs about Lagrangian elements: counts, cardinality, reproduction of polynomials. *)
From Coq Require Import Reals List Arith Lia Lra Bool.
Import ListNotations.
From Verif Require Import Base MeshModel MeshView DofModel RefPatModel GeoModel GeoSpec FeModel LagrModel FeSpec.
Local Open Scope R_scope.

Lemma point_length1 : forall x : list R, length x = 1%nat -> exists s, x = [s].
Proof. intros [|s [|]]; try discriminate. eauto. Qed.
Lemma point_length2 : forall x : list R, length x = 2%nat -> exists s t, x = [s; t].
Proof. intros [|s [|t [|]]]; try discriminate. eauto. Qed.

Lemma lagrange_counts : forall k t, counts (lagrange k t).
Proof.
  intros k t. split.
  - intros x L. destruct k, t; cbn [lagrange fe_el o1_tria o1_quad o1_segment o2_tria o2_quad o2_segment
      o3_tria o3_quad o3_segment fe_point dimension] in L;
    try (destruct x; [|discriminate L]; eexists; split; reflexivity);
    try (destruct (point_length1 x L) as (s & ->); eexists; split; reflexivity);
    destruct (point_length2 x L) as (s & r & ->); eexists; split; reflexivity.
  - exists (fun c i => match fe_num2 (lagrange k t) c i with Ok n => n | _ => 0%nat end). split.
    + intros c i Hc Hi. destruct k, t; cbn [lagrange fe_el o1_tria o1_quad o1_segment o2_tria o2_quad o2_segment
        o3_tria o3_quad o3_segment fe_point dimension] in Hc, Hi;
      destruct c as [|[|[|c]]]; try lia; cbn [num_sub_entities] in Hi;
      try reflexivity; destruct i as [|[|[|[|i]]]]; try lia; reflexivity.
    + destruct k, t; reflexivity.
Qed.
Lemma lagrange_uniform_counts : forall k t, t <> kPoint -> uniform_counts (lagrange k t).
Proof.
  intros k t Ht c i Hc Hi. destruct k, t; try congruence;
    cbn [lagrange fe_el o1_tria o1_quad o1_segment o2_tria o2_quad o2_segment
        o3_tria o3_quad o3_segment fe_point dimension] in Hc, Hi;
    destruct c as [|[|[|c]]]; try lia; cbn [num_sub_entities] in Hi;
      try reflexivity; destruct i as [|[|[|[|i]]]]; try lia; reflexivity.
Qed.

Lemma lagrange_cardinal : forall k t, cardinal (lagrange k t).
Proof.
  intros k t. split; [destruct k, t; reflexivity|]. split; [destruct k, t; reflexivity|].
  assert (H : Forall (fun jp => exists v, fe_eval (lagrange k t) (snd jp) = Ok v /\
      Forall (fun iw => snd iw = delta (fst iw) (fst jp)) (combine (seq 0 (fe_total (lagrange k t))) v) /\
      length v = fe_total (lagrange k t))
    (combine (seq 0 (fe_total (lagrange k t))) (fe_nodes (lagrange k t)))).
  { destruct k, t; cbn [lagrange fe_total fe_nodes o1_tria o1_quad o1_segment o2_tria o2_quad o2_segment
        o3_tria o3_quad o3_segment fe_point seq combine app map];
    repeat constructor; cbn [snd fst];
    (eexists; split; [reflexivity|]; split; [|reflexivity]);
    repeat constructor; cbn; unfold delta; cbn; try field; lra. }
  intros j p Hp. rewrite Forall_forall in H.
  assert (Hj : (j < length (fe_nodes (lagrange k t)))%nat) by (apply nth_error_Some; congruence).
  assert (Ln : length (fe_nodes (lagrange k t)) = fe_total (lagrange k t)) by (destruct k, t; reflexivity).
  destruct (H (j, p)) as (v & Ev & Hv & Lv).
  { apply nth_error_In with (n := j).
    assert (G : forall (l : list (list R)) a n, nth_error l n = Some p -> nth_error (combine (seq a (length l)) l) n = Some (a + n, p)%nat).
    { induction l as [|q l IH]; intros a n Hn; destruct n; cbn in *; try discriminate.
      - injection Hn as ->. rewrite Nat.add_0_r. reflexivity.
      - rewrite (IH (S a) n Hn). f_equal. f_equal. lia. }
    rewrite <- Ln. apply (G _ 0%nat), Hp. }
  exists v. split; [exact Ev|]. intros i Hi. rewrite Forall_forall in Hv.
  assert (G : forall (l : list R) a n, (n < length l)%nat -> In ((a + n)%nat, nth n l 0) (combine (seq a (length l)) l)).
  { induction l as [|q l IH]; intros a n Hn; cbn in Hn; [lia|]. destruct n; cbn.
    - left. rewrite Nat.add_0_r. reflexivity.
    - right. replace (a + S n)%nat with (S a + n)%nat by lia. apply IH. lia. }
  rewrite <- Lv in Hv. apply (Hv (i, nth i v 0)). apply (G v 0%nat i). lia.
Qed.

Lemma lagrange_unity : forall k t, partition_of_unity (lagrange k t).
Proof.
  intros k t x L. destruct k, t; cbn [lagrange fe_el o1_tria o1_quad o1_segment o2_tria o2_quad o2_segment
      o3_tria o3_quad o3_segment fe_point dimension] in L;
    try (destruct x; [|discriminate L]); try destruct (point_length1 x L) as (s & ->);
    try destruct (point_length2 x L) as (s & r & ->); eexists; (split; [reflexivity|]);
    cbn; try field; lra.
Qed.

(** *** Reproduction *)
Lemma dot_map_plus : forall {A} (f g : A -> R) (l : list A) v,
  dot (map (fun a => f a + g a) l) v = dot (map f l) v + dot (map g l) v.
Proof.
  intros A f g. unfold dot. induction l as [|a l IH]; intros v; cbn; [ring|]. destruct v as [|b v]; cbn; [ring|].
  specialize (IH v). unfold rsum in *. rewrite IH. ring.
Qed.
Lemma dot_map_scale : forall {A} q (f : A -> R) (l : list A) v, dot (map (fun a => q * f a) l) v = q * dot (map f l) v.
Proof.
  intros A q f. unfold dot. induction l as [|a l IH]; intros v; cbn; [ring|]. destruct v as [|b v]; cbn; [ring|].
  specialize (IH v). unfold rsum in *. rewrite IH. ring.
Qed.
Lemma dot_map_zero : forall {A} (l : list A) v, dot (map (fun _ => 0) l) v = 0.
Proof.
  intros A. unfold dot. induction l as [|a l IH]; intros v; cbn; [ring|]. destruct v as [|b v]; cbn; [ring|].
  specialize (IH v). unfold rsum in *. rewrite IH. ring.
Qed.
Lemma reproduce_poly : forall (nodes : list (list R)) v x es c,
  Forall (fun e => monomial e x = dot (map (monomial e) nodes) v) es ->
  poly es c x = dot (map (poly es c) nodes) v.
Proof.
  intros nodes v x es c H. induction H as [|e es E H IH]; unfold poly; cbn [map].
  - cbn [rsum fold_right]. rewrite dot_map_zero. reflexivity.
  - cbn [rsum fold_right]. rewrite (dot_map_plus (fun y => c e * monomial e y) (fun y => rsum (map (fun e => c e * monomial e y) es))).
    rewrite dot_map_scale, <- E. fold (rsum (map (fun e0 => c e0 * monomial e0 x) es)).
    change (rsum (map (fun e0 => c e0 * monomial e0 x) es)) with (poly es c x). rewrite IH. reflexivity.
Qed.
Lemma lagrange_reproduces : forall k t, reproduces (lagrange k t) (exponents t (ord k)).
Proof.
  intros k t c x L. destruct k, t; cbn [lagrange fe_el o1_tria o1_quad o1_segment o2_tria o2_quad o2_segment
      o3_tria o3_quad o3_segment fe_point dimension] in L;
    try (destruct x; [|discriminate L]); try destruct (point_length1 x L) as (s & ->);
    try destruct (point_length2 x L) as (s & r & ->); eexists; (split; [reflexivity|]);
    apply reproduce_poly; cbn [exponents ord Nat.add seq map list_prod app filter fst snd Nat.leb];
    repeat constructor; cbn; try field; lra.
Qed.

(** *** The shape functions are polynomials of the space *)
(** Coefficients: table of x^a y^b. *)
Definition coeff (tb : list (list R)) (e : list nat) : R :=
  match e with [] => nth 0 (nth 0 tb []) 0 | [a] => nth 0 (nth a tb []) 0 | a :: b :: _ => nth b (nth a tb []) 0 end.
Definition o1_tria_coeff : list (list (list R)) :=
  [[[1; (-1)]; [(-1); 0]];
   [[0; 0]; [1; 0]];
   [[0; 1]; [0; 0]]].
Definition o1_segment_coeff : list (list (list R)) :=
  [[[1]; [(-1)]];
   [[0]; [1]]].
Definition o1_quad_coeff : list (list (list R)) :=
  [[[1; (-1)]; [(-1); 1]];
   [[0; 0]; [1; (-1)]];
   [[0; 0]; [0; 1]];
   [[0; 1]; [0; (-1)]]].
Definition o2_tria_coeff : list (list (list R)) :=
  [[[1; (-3); 2]; [(-3); 4; 0]; [2; 0; 0]];
   [[0; 0; 0]; [(-1); 0; 0]; [2; 0; 0]];
   [[0; (-1); 2]; [0; 0; 0]; [0; 0; 0]];
   [[0; 0; 0]; [4; (-4); 0]; [(-4); 0; 0]];
   [[0; 0; 0]; [0; 4; 0]; [0; 0; 0]];
   [[0; 4; (-4)]; [0; (-4); 0]; [0; 0; 0]]].
Definition o2_segment_coeff : list (list (list R)) :=
  [[[1]; [(-3)]; [2]];
   [[0]; [(-1)]; [2]];
   [[0]; [4]; [(-4)]]].
Definition o2_quad_coeff : list (list (list R)) :=
  [[[1; (-3); 2]; [(-3); 9; (-6)]; [2; (-6); 4]];
   [[0; 0; 0]; [(-1); 3; (-2)]; [2; (-6); 4]];
   [[0; 0; 0]; [0; 1; (-2)]; [0; (-2); 4]];
   [[0; (-1); 2]; [0; 3; (-6)]; [0; (-2); 4]];
   [[0; 0; 0]; [4; (-12); 8]; [(-4); 12; (-8)]];
   [[0; 0; 0]; [0; (-4); 4]; [0; 8; (-8)]];
   [[0; 0; 0]; [0; (-4); 8]; [0; 4; (-8)]];
   [[0; 4; (-4)]; [0; (-12); 12]; [0; 8; (-8)]];
   [[0; 0; 0]; [0; 16; (-16)]; [0; (-16); 16]]].
Definition o3_tria_coeff : list (list (list R)) :=
  [[[1; (-11) / 2; 9; (-9) / 2]; [(-11) / 2; 18; (-27) / 2; 0]; [9; (-27) / 2; 0; 0]; [(-9) / 2; 0; 0; 0]];
   [[0; 0; 0; 0]; [1; 0; 0; 0]; [(-9) / 2; 0; 0; 0]; [9 / 2; 0; 0; 0]];
   [[0; 1; (-9) / 2; 9 / 2]; [0; 0; 0; 0]; [0; 0; 0; 0]; [0; 0; 0; 0]];
   [[0; 0; 0; 0]; [9; (-45) / 2; 27 / 2; 0]; [(-45) / 2; 27; 0; 0]; [27 / 2; 0; 0; 0]];
   [[0; 0; 0; 0]; [(-9) / 2; 9 / 2; 0; 0]; [18; (-27) / 2; 0; 0]; [(-27) / 2; 0; 0; 0]];
   [[0; 0; 0; 0]; [0; (-9) / 2; 0; 0]; [0; 27 / 2; 0; 0]; [0; 0; 0; 0]];
   [[0; 0; 0; 0]; [0; (-9) / 2; 27 / 2; 0]; [0; 0; 0; 0]; [0; 0; 0; 0]];
   [[0; (-9) / 2; 18; (-27) / 2]; [0; 9 / 2; (-27) / 2; 0]; [0; 0; 0; 0]; [0; 0; 0; 0]];
   [[0; 9; (-45) / 2; 27 / 2]; [0; (-45) / 2; 27; 0]; [0; 27 / 2; 0; 0]; [0; 0; 0; 0]];
   [[0; 0; 0; 0]; [0; 27; (-27); 0]; [0; (-27); 0; 0]; [0; 0; 0; 0]]].
Definition o3_segment_coeff : list (list (list R)) :=
  [[[1]; [(-11) / 2]; [9]; [(-9) / 2]];
   [[0]; [1]; [(-9) / 2]; [9 / 2]];
   [[0]; [9]; [(-45) / 2]; [27 / 2]];
   [[0]; [(-9) / 2]; [18]; [(-27) / 2]]].
Definition o3_quad_coeff : list (list (list R)) :=
  [[[1; (-11) / 2; 9; (-9) / 2]; [(-11) / 2; 121 / 4; (-99) / 2; 99 / 4]; [9; (-99) / 2; 81; (-81) / 2]; [(-9) / 2; 99 / 4; (-81) / 2; 81 / 4]];
   [[0; 0; 0; 0]; [1; (-11) / 2; 9; (-9) / 2]; [(-9) / 2; 99 / 4; (-81) / 2; 81 / 4]; [9 / 2; (-99) / 4; 81 / 2; (-81) / 4]];
   [[0; 0; 0; 0]; [0; 1; (-9) / 2; 9 / 2]; [0; (-9) / 2; 81 / 4; (-81) / 4]; [0; 9 / 2; (-81) / 4; 81 / 4]];
   [[0; 1; (-9) / 2; 9 / 2]; [0; (-11) / 2; 99 / 4; (-99) / 4]; [0; 9; (-81) / 2; 81 / 2]; [0; (-9) / 2; 81 / 4; (-81) / 4]];
   [[0; 0; 0; 0]; [9; (-99) / 2; 81; (-81) / 2]; [(-45) / 2; 495 / 4; (-405) / 2; 405 / 4]; [27 / 2; (-297) / 4; 243 / 2; (-243) / 4]];
   [[0; 0; 0; 0]; [(-9) / 2; 99 / 4; (-81) / 2; 81 / 4]; [18; (-99); 162; (-81)]; [(-27) / 2; 297 / 4; (-243) / 2; 243 / 4]];
   [[0; 0; 0; 0]; [0; 9; (-45) / 2; 27 / 2]; [0; (-81) / 2; 405 / 4; (-243) / 4]; [0; 81 / 2; (-405) / 4; 243 / 4]];
   [[0; 0; 0; 0]; [0; (-9) / 2; 18; (-27) / 2]; [0; 81 / 4; (-81); 243 / 4]; [0; (-81) / 4; 81; (-243) / 4]];
   [[0; 0; 0; 0]; [0; (-9) / 2; 81 / 4; (-81) / 4]; [0; 18; (-81); 81]; [0; (-27) / 2; 243 / 4; (-243) / 4]];
   [[0; 0; 0; 0]; [0; 9; (-81) / 2; 81 / 2]; [0; (-45) / 2; 405 / 4; (-405) / 4]; [0; 27 / 2; (-243) / 4; 243 / 4]];
   [[0; (-9) / 2; 18; (-27) / 2]; [0; 99 / 4; (-99); 297 / 4]; [0; (-81) / 2; 162; (-243) / 2]; [0; 81 / 4; (-81); 243 / 4]];
   [[0; 9; (-45) / 2; 27 / 2]; [0; (-99) / 2; 495 / 4; (-297) / 4]; [0; 81; (-405) / 2; 243 / 2]; [0; (-81) / 2; 405 / 4; (-243) / 4]];
   [[0; 0; 0; 0]; [0; 81; (-405) / 2; 243 / 2]; [0; (-405) / 2; 2025 / 4; (-1215) / 4]; [0; 243 / 2; (-1215) / 4; 729 / 4]];
   [[0; 0; 0; 0]; [0; (-81) / 2; 405 / 4; (-243) / 4]; [0; 162; (-405); 243]; [0; (-243) / 2; 1215 / 4; (-729) / 4]];
   [[0; 0; 0; 0]; [0; 81 / 4; (-81); 243 / 4]; [0; (-81); 324; (-243)]; [0; 243 / 4; (-243); 729 / 4]];
   [[0; 0; 0; 0]; [0; (-81) / 2; 162; (-243) / 2]; [0; 405 / 4; (-405); 1215 / 4]; [0; (-243) / 4; 243; (-729) / 4]]].
Definition coeffs (k : order) (t : refel) : list (list (list R)) :=
  match t, k with
  | kPoint, _ => [[[1]]]
  | kSegment, O1 => o1_segment_coeff | kSegment, O2 => o2_segment_coeff | kSegment, O3 => o3_segment_coeff
  | kTria, O1 => o1_tria_coeff | kTria, O2 => o2_tria_coeff | kTria, O3 => o3_tria_coeff
  | kQuad, O1 => o1_quad_coeff | kQuad, O2 => o2_quad_coeff | kQuad, O3 => o3_quad_coeff
  end.
Lemma lagrange_contained : forall k t, contained (lagrange k t) (exponents t (ord k)).
Proof.
  intros k t i Hi. exists (coeff (nth i (coeffs k t) [])). intros x L.
  assert (H : exists v, fe_eval (lagrange k t) x = Ok v /\
     Forall2 (fun w tb => w = poly (exponents t (ord k)) (coeff tb) x) v (coeffs k t)).
  { destruct k, t; cbn [lagrange fe_el o1_tria o1_quad o1_segment o2_tria o2_quad o2_segment
      o3_tria o3_quad o3_segment fe_point dimension] in L;
    try (destruct x; [|discriminate L]); try destruct (point_length1 x L) as (s & ->);
    try destruct (point_length2 x L) as (s & r & ->); eexists; (split; [reflexivity|]);
    repeat constructor; cbn; try field; lra. }
  destruct H as (v & Ev & H). exists v. split; [exact Ev|].
  destruct (co_eval _ (lagrange_counts k t) x L) as (v' & Ev' & Lv). rewrite Ev in Ev'. injection Ev' as <-.
  rewrite <- Lv in Hi. clear Ev Lv L. revert i Hi. induction H as [|w tb v tbs E H IH]; intros i Hi; cbn in Hi; [lia|].
  destruct i; cbn [nth]; auto. apply IH. lia.
Qed.
Lemma lagrange_describes : forall k t, fe_el (lagrange k t) = t /\ fe_degree (lagrange k t) = ord k /\
  counts (lagrange k t) /\ (t <> kPoint -> uniform_counts (lagrange k t)).
Proof.
  intros k t. split; [destruct k, t; reflexivity|]. split; [destruct k, t; reflexivity|].
  split; [apply lagrange_counts|apply lagrange_uniform_counts].
Qed.
