(** C87: outer normals of triangles and quadrilaterals. *)
From Coq Require Import Reals List Arith Lia Lra Psatz.
Import ListNotations.
From Verif Require Import Base MeshModel RefPatModel GeoModel GeoSpec NormalModel NormalSpec NormalProofs.
Local Open Scope R_scope.

(** What is required of [n] at the edge from p to q. *)
Definition steps (P : list vec) (p q n : vec) : Prop := forall s, 0 < s < 1 -> exists eps, 0 < eps /\ forall t, 0 < t < eps ->
  ~ region P (shifted (along p q s) t n) /\ inside P (shifted (along p q s) (- t) n).

Lemma tria_region : forall a b c x, region [a; b; c] x -> in_triangle a b c x.
Proof. intros a b c x H. inversion H; subst. assumption. Qed.
Lemma quad_region : forall a b c d x, region [a; b; c; d] x ->
  (separates a c b d /\ (in_triangle a b c x \/ in_triangle c d a x)) \/ (separates b d a c /\ (in_triangle d a b x \/ in_triangle b c d x)).
Proof. intros a b c d x H. inversion H; subst; [left|right]; split; assumption. Qed.

Lemma region_rot3 : forall a b c x, region [a; b; c] x -> region [b; c; a] x.
Proof. intros a b c x H. apply region_tria. apply in_triangle_rot, tria_region, H. Qed.
Lemma separates_flip : forall a c b d, separates a c b d -> separates a c d b.
Proof. unfold separates. intros. lra. Qed.
Lemma separates_turn : forall a c b d, separates a c b d -> separates c a b d.
Proof. unfold separates. intros a c b d H. replace (area2 c a b * area2 c a d) with (area2 a c b * area2 a c d) by (unfold area2; ring). exact H. Qed.
Lemma region_rot4 : forall a b c d x, region [a; b; c; d] x -> region [b; c; d; a] x.
Proof.
  intros a b c d x H. destruct (quad_region _ _ _ _ _ H) as [[S T]|[S T]].
  - apply region_bd; [apply separates_turn; exact S|]. exact T.
  - apply region_ac; [apply separates_flip; exact S|]. destruct T; [right|left]; assumption.
Qed.

Lemma steps_mono : forall P P' p q n, (forall x, region P x -> region P' x) -> (forall x, region P' x -> region P x) -> steps P p q n -> steps P' p q n.
Proof.
  intros P P' p q n H H' K s Hs. destruct (K s Hs) as [eps [He G]]. exists eps. split; [exact He|]. intros t Ht. destruct (G t Ht) as [G1 G2].
  split; [intros X; apply G1, H', X|]. destruct G2 as [r [Hr G2]]. exists r. split; [exact Hr|]. intros y N. apply H, (G2 y N).
Qed.
Lemma steps_rot3 : forall a b c p q n, steps [a; b; c] p q n -> steps [b; c; a] p q n.
Proof.
  intros a b c p q n. apply steps_mono; intros x; [apply region_rot3|]. intros H. apply region_rot3, region_rot3, H.
Qed.
Lemma steps_rot4 : forall a b c d p q n, steps [a; b; c; d] p q n -> steps [b; c; d; a] p q n.
Proof.
  intros a b c d p q n. apply steps_mono; intros x; [apply region_rot4|]. intros H. apply region_rot4, region_rot4, region_rot4, H.
Qed.

Lemma tria_steps : forall sg a b c, sign1 sg -> 0 < sg * area2 a b c -> steps [a; b; c] a b (nrm sg a b).
Proof.
  intros sg a b c S H s Hs. destruct (edge_in sg a b c s S H Hs) as [eps [He K]]. exists eps. split; [exact He|]. intros t Ht. split.
  - intros T. apply tria_region in T. revert T. apply edge_out; [exact S|exact H|lra].
  - destruct (K t Ht) as [r [Hr K']]. exists r. split; [exact Hr|]. intros y N. apply region_tria. exact (K' y N).
Qed.

Lemma same_sign : forall sg u v, 0 < u * v -> 0 < sg * (u + v) -> 0 < sg * u /\ 0 < sg * v.
Proof.
  intros sg u v H K. assert (Z : sg <> 0) by (intros Z; rewrite Z in K; lra).
  assert (P : 0 < (sg * u) * (sg * v)).
  { replace (sg * u * (sg * v)) with (sg * sg * (u * v)) by ring. apply Rmult_lt_0_compat; [|exact H]. pose proof (Rlt_0_sqr sg Z) as Q. exact Q. }
  replace (sg * (u + v)) with (sg * u + sg * v) in K by ring. generalize dependent (sg * u). generalize (sg * v). intros V U K P. split; nra.
Qed.
Lemma cut_ac : forall sg a b c d, separates a c b d -> 0 < sg * (area2 a b c + area2 c d a) -> 0 < sg * area2 a b c /\ 0 < sg * area2 c d a.
Proof.
  intros sg a b c d S K. apply same_sign; [|exact K]. unfold separates in S.
  replace (area2 a b c * area2 c d a) with (- (area2 a c b * area2 a c d)) by (unfold area2; ring). lra.
Qed.
Lemma cut_bd : forall sg a b c d, separates b d a c -> 0 < sg * (area2 a b c + area2 c d a) -> 0 < sg * area2 d a b /\ 0 < sg * area2 b c d.
Proof.
  intros sg a b c d S K. apply same_sign.
  - unfold separates in S. replace (area2 d a b * area2 b c d) with (- (area2 b d a * area2 b d c)) by (unfold area2; ring). lra.
  - replace (area2 d a b + area2 b c d) with (area2 a b c + area2 c d a) by (unfold area2; ring). exact K.
Qed.
Lemma steps_ac : forall sg a b c d s, sign1 sg -> separates a c b d -> 0 < sg * (area2 a b c + area2 c d a) -> 0 < s < 1 ->
  exists eps, 0 < eps /\ forall t, 0 < t < eps ->
    ~ (in_triangle a b c (shifted (along a b s) t (nrm sg a b)) \/ in_triangle c d a (shifted (along a b s) t (nrm sg a b))) /\
    inside [a; b; c; d] (shifted (along a b s) (- t) (nrm sg a b)).
Proof.
  intros sg a b c d s S C K Hs. destruct (cut_ac _ _ _ _ _ C K) as [H1 H2].
  assert (L : 0 < distance 2 a b) by (apply (area_dist a b c); intros Z; rewrite Z in H1; lra).
  destruct (edge_in sg a b c s S H1 Hs) as [e1 [E1 K1]].
  destruct (edge_other sg a b a c d s S L) as [e2 [E2 K2]].
  { replace (area2 a c d) with (area2 c d a) by (unfold area2; ring). exact H2. }
  { replace (sg * area2 a c (along a b s)) with (- (s * (sg * area2 a b c))) by (unfold area2, along; ring). assert (0 < s * (sg * area2 a b c)) by (apply Rmult_lt_0_compat; lra). lra. }
  exists (Rmin e1 e2). split; [apply Rmin_pos; assumption|]. intros t Ht. pose proof (Rmin_l e1 e2). pose proof (Rmin_r e1 e2). split.
  - intros [T|T]; revert T.
    + apply edge_out; [exact S|exact H1|lra].
    + intros T. apply in_triangle_rot, in_triangle_rot in T. revert T. apply K2. lra.
  - destruct (K1 t) as [r [Hr G]]; [lra|]. exists r. split; [exact Hr|]. intros y N. apply region_ac; [exact C|]. left. exact (G y N).
Qed.
Lemma steps_bd : forall sg a b c d s, sign1 sg -> separates b d a c -> 0 < sg * (area2 a b c + area2 c d a) -> 0 < s < 1 ->
  exists eps, 0 < eps /\ forall t, 0 < t < eps ->
    ~ (in_triangle d a b (shifted (along a b s) t (nrm sg a b)) \/ in_triangle b c d (shifted (along a b s) t (nrm sg a b))) /\
    inside [a; b; c; d] (shifted (along a b s) (- t) (nrm sg a b)).
Proof.
  intros sg a b c d s S C K Hs. destruct (cut_bd _ _ _ _ _ C K) as [H1 H2].
  assert (H1' : 0 < sg * area2 a b d) by (replace (area2 a b d) with (area2 d a b) by (unfold area2; ring); exact H1).
  assert (L : 0 < distance 2 a b) by (apply (area_dist a b d); intros Z; rewrite Z in H1'; lra).
  destruct (edge_in sg a b d s S H1' Hs) as [e1 [E1 K1]].
  destruct (edge_other sg a b d b c s S L) as [e2 [E2 K2]].
  { replace (area2 d b c) with (area2 b c d) by (unfold area2; ring). exact H2. }
  { replace (sg * area2 d b (along a b s)) with (- ((1 - s) * (sg * area2 a b d))) by (unfold area2, along; ring). assert (0 < (1 - s) * (sg * area2 a b d)) by (apply Rmult_lt_0_compat; lra). lra. }
  exists (Rmin e1 e2). split; [apply Rmin_pos; assumption|]. intros t Ht. pose proof (Rmin_l e1 e2). pose proof (Rmin_r e1 e2). split.
  - intros [T|T].
    + apply in_triangle_rot in T. revert T. apply edge_out; [exact S|exact H1'|lra].
    + apply in_triangle_rot, in_triangle_rot in T. revert T. apply K2. lra.
  - destruct (K1 t) as [r [Hr G]]; [lra|]. exists r. split; [exact Hr|]. intros y N. apply region_bd; [exact C|]. left. apply in_triangle_rot, in_triangle_rot. exact (G y N).
Qed.
Lemma quad_steps : forall sg a b c d, sign1 sg -> simple [a; b; c; d] -> 0 < sg * (area2 a b c + area2 c d a) -> steps [a; b; c; d] a b (nrm sg a b) /\ 0 < distance 2 a b.
Proof.
  intros sg a b c d S Si K.
  assert (L : 0 < distance 2 a b).
  { destruct Si as [C|C].
    - destruct (cut_ac sg _ _ _ _ C K) as [H1 _]. apply (area_dist a b c). intros Z. rewrite Z in H1. lra.
    - destruct (cut_bd sg _ _ _ _ C K) as [H1 _]. apply (area_dist a b d). intros Z. replace (area2 a b d) with (area2 d a b) in Z by (unfold area2; ring). rewrite Z in H1. lra. }
  split; [|exact L]. intros s Hs.
  destruct (Rlt_dec (area2 a c b * area2 a c d) 0) as [C1|C1]; destruct (Rlt_dec (area2 b d a * area2 b d c) 0) as [C2|C2].
  - destruct (steps_ac sg a b c d s S C1 K Hs) as [e1 [E1 K1]]. destruct (steps_bd sg a b c d s S C2 K Hs) as [e2 [E2 K2]].
    exists (Rmin e1 e2). split; [apply Rmin_pos; assumption|]. intros t Ht. pose proof (Rmin_l e1 e2). pose proof (Rmin_r e1 e2).
    destruct (K1 t ltac:(lra)) as [A B]. destruct (K2 t ltac:(lra)) as [A' _]. split; [|exact B].
    intros X. destruct (quad_region _ _ _ _ _ X) as [[_ T]|[_ T]]; [exact (A T)|exact (A' T)].
  - destruct (steps_ac sg a b c d s S C1 K Hs) as [e1 [E1 K1]]. exists e1. split; [exact E1|]. intros t Ht. destruct (K1 t Ht) as [A B]. split; [|exact B].
    intros X. destruct (quad_region _ _ _ _ _ X) as [[_ T]|[C T]]; [exact (A T)|exact (C2 C)].
  - destruct (steps_bd sg a b c d s S C2 K Hs) as [e1 [E1 K1]]. exists e1. split; [exact E1|]. intros t Ht. destruct (K1 t Ht) as [A B]. split; [|exact B].
    intros X. destruct (quad_region _ _ _ _ _ X) as [[C T]|[_ T]]; [exact (C1 C)|exact (A T)].
  - exfalso. destruct Si; contradiction.
Qed.

(** * All edges *)
Definition total_area (P : list vec) : R :=
  match P with
  | [a; b; c] => area2 a b c
  | [a; b; c; d] => area2 a b c + area2 c d a
  | _ => 0
  end.
Lemma outer_of_steps : forall P i sg, sign1 sg -> 0 < distance 2 (start P i) (stop P i) -> steps P (start P i) (stop P i) (nrm sg (start P i) (stop P i)) ->
  outer_normal P i (nrm sg (start P i) (stop P i)).
Proof. intros P i sg S L K. destruct (nrm_unit sg _ _ S L) as [U V]. split; [exact U|]. split; [exact V|]. exact K. Qed.
Theorem polygon_normals : forall P sg, sign1 sg -> simple P -> 0 < sg * total_area P -> forall i, (i < length P)%nat -> outer_normal P i (nrm sg (start P i) (stop P i)) /\ 0 < distance 2 (start P i) (stop P i).
Proof.
  intros P sg S Si K i Hi. destruct P as [|a [|b [|c [|d [|? ?]]]]]; try (exfalso; exact Si).
  - cbn [total_area] in K.
    assert (K1 : 0 < sg * area2 b c a) by (replace (area2 b c a) with (area2 a b c) by (unfold area2; ring); exact K).
    assert (K2 : 0 < sg * area2 c a b) by (replace (area2 c a b) with (area2 a b c) by (unfold area2; ring); exact K).
    assert (L0 : 0 < distance 2 a b) by (apply (area_dist a b c); intros Z; rewrite Z in K; lra).
    assert (L1 : 0 < distance 2 b c) by (apply (area_dist b c a); intros Z; rewrite Z in K1; lra).
    assert (L2 : 0 < distance 2 c a) by (apply (area_dist c a b); intros Z; rewrite Z in K2; lra).
    cbn [length] in Hi. destruct i as [|[|[|]]]; [| | |lia]; (split; [apply outer_of_steps; [exact S|assumption|]|assumption]).
    + apply (tria_steps sg a b c S K).
    + apply steps_rot3, steps_rot3. apply (tria_steps sg b c a S K1).
    + apply steps_rot3. apply (tria_steps sg c a b S K2).
  - cbn [total_area] in K.
    assert (T : forall a b c d, simple [a; b; c; d] -> simple [b; c; d; a]).
    { intros a' b' c' d' [H|H]; [right; apply separates_turn; exact H|left; apply separates_flip; exact H]. }
    assert (A : forall a b c d, area2 b c d + area2 d a b = area2 a b c + area2 c d a) by (intros; unfold area2; ring).
    destruct (quad_steps sg a b c d S Si K) as [Q0 L0].
    pose proof (T _ _ _ _ Si) as Si1. assert (K1 : 0 < sg * (area2 b c d + area2 d a b)) by (rewrite A; exact K).
    destruct (quad_steps sg b c d a S Si1 K1) as [Q1 L1].
    pose proof (T _ _ _ _ Si1) as Si2. assert (K2 : 0 < sg * (area2 c d a + area2 a b c)) by (rewrite A; exact K1).
    destruct (quad_steps sg c d a b S Si2 K2) as [Q2 L2].
    pose proof (T _ _ _ _ Si2) as Si3. assert (K3 : 0 < sg * (area2 d a b + area2 b c d)) by (rewrite A; exact K2).
    destruct (quad_steps sg d a b c S Si3 K3) as [Q3 L3].
    cbn [length] in Hi. destruct i as [|[|[|[|]]]]; [| | | |lia]; (split; [apply outer_of_steps; [exact S|assumption|]|assumption]).
    + exact Q0.
    + apply steps_rot4, steps_rot4, steps_rot4. exact Q1.
    + apply steps_rot4, steps_rot4. exact Q2.
    + apply steps_rot4. exact Q3.
Qed.

(** * The model *)
Lemma normal_nrm : forall P sg i, sign1 sg -> (i < length P)%nat -> 0 < distance 2 (start P i) (stop P i) ->
  forall k, (k < 2)%nat -> normal P sg i k = nrm sg (start P i) (stop P i) k.
Proof.
  intros P sg i S Hi L k Hk. unfold normal, normalized. rewrite Nat.mod_small with (a := i) by exact Hi.
  fold (start P i). fold (stop P i). set (p := start P i) in *. set (q := stop P i) in *.
  assert (SS : sg * sg = 1) by (destruct S as [-> | ->]; ring).
  match goal with |- context [sqnorm 2 ?v] => assert (E : sqnorm 2 v = distance 2 p q * distance 2 p q) end.
  { rewrite dist_sq. unfold sqnorm, GeoModel.dot, vsub. cbn [seq map fold_right].
    transitivity (sg * sg * ((q 0%nat - p 0%nat) * (q 0%nat - p 0%nat) + (q 1%nat - p 1%nat) * (q 1%nat - p 1%nat))); [ring|]. rewrite SS. ring. }
  rewrite E. rewrite sqrt_square by lra. unfold gtb. destruct (Rlt_dec 0 (distance 2 p q * distance 2 p q)) as [_|N]; [|exfalso; apply N, Rmult_lt_0_compat; exact L].
  unfold nrm, vsub. destruct k as [|[|]]; [| |lia]; field; lra.
Qed.
