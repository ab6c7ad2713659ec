(** Proofs for C76: rules that settle Lagrangian elements. *)
From Coq Require Import Reals List Arith ZArith Lia Lra Bool.
Import ListNotations.
From Verif Require Import Base Scalars MeshModel MeshView RefPatModel GeoModel FeModel LagrModel QuadModel TriaTab QuadRuleModel ElemModel ElemSpec DirichletSpec.
Local Open Scope R_scope.

Definition good (q : quadrule) (s t : R) : Prop := exists j w, nth_error (qr_points q) j = Some [s; t] /\ nth_error (qr_weights q) j = Some w /\ 0 < w.

(** Polynomials of degree 0, 1, 2 are determined by their values at the points with positive weights. *)
Definition fixes0 (q : quadrule) : Prop := exists s t, good q s t.
Definition fixes1 (q : quadrule) : Prop := forall a b c, (forall s t, good q s t -> a + b * s + c * t = 0) -> a = 0 /\ b = 0 /\ c = 0.
Definition fixes2 (q : quadrule) : Prop := forall a b c d e f, (forall s t, good q s t -> a + b * s + c * t + d * (s * s) + e * (s * t) + f * (t * t) = 0) ->
  a = 0 /\ b = 0 /\ c = 0 /\ d = 0 /\ e = 0 /\ f = 0.

Lemma at_good : forall q f (x : nat -> R) s t gr,
  (forall j p w gr, nth_error (qr_points q) j = Some p -> nth_error (qr_weights q) j = Some w -> 0 < w -> fe_grad f p = Ok gr ->
     forall c, (c < 2)%nat -> sum_to (fe_total f) (fun i => x i * nth c (nth i gr []) 0) = 0) ->
  good q s t -> fe_grad f [s; t] = Ok gr ->
  sum_to (fe_total f) (fun i => x i * nth 0 (nth i gr []) 0) = 0 /\ sum_to (fe_total f) (fun i => x i * nth 1 (nth i gr []) 0) = 0.
Proof. intros q f x s t gr H (j & w & Ep & Ew & Pw) Eg. split; [apply (H j [s; t] w gr Ep Ew Pw Eg 0%nat)|apply (H j [s; t] w gr Ep Ew Pw Eg 1%nat)]; lia. Qed.

Lemma settles_tria1 : forall q, fixes0 q -> settles q (lagrange O1 kTria).
Proof.
  intros q (s & t & G) x H. destruct (at_good q _ x s t _ H G eq_refl) as (A & B). unfold sum_to in A, B. cbn in A, B.
  intros i Hi. cbn in Hi. destruct i as [|[|[|i]]]; [reflexivity|lra|lra|lia].
Qed.
Lemma settles_tria2 : forall q, fixes1 q -> settles q (lagrange O2 kTria).
Proof.
  intros q F x H.
  destruct (F (-3 * x 0%nat - x 1%nat + 4 * x 3%nat) (4 * x 0%nat + 4 * x 1%nat - 8 * x 3%nat) (4 * x 0%nat - 4 * x 3%nat + 4 * x 4%nat - 4 * x 5%nat)) as (A0 & A1 & A2).
  { intros s t G. destruct (at_good q _ x s t _ H G eq_refl) as (A & _). unfold sum_to in A. cbn in A. lra. }
  destruct (F (-3 * x 0%nat - x 2%nat + 4 * x 5%nat) (4 * x 0%nat - 4 * x 3%nat + 4 * x 4%nat - 4 * x 5%nat) (4 * x 0%nat + 4 * x 2%nat - 8 * x 5%nat)) as (B0 & B1 & B2).
  { intros s t G. destruct (at_good q _ x s t _ H G eq_refl) as (_ & A). unfold sum_to in A. cbn in A. lra. }
  intros i Hi. cbn in Hi. do 6 (destruct i as [|i]; [lra|]). lia.
Qed.
Lemma settles_tria3 : forall q, fixes2 q -> settles q (lagrange O3 kTria).
Proof.
  intros q F x H.
  set (P c s t := sum_to 10 (fun i => x i * nth c (nth i (o3_tria_grad s t) []) 0)).
  assert (D : forall c, (c < 2)%nat -> forall s t, P c s t = P c 0 0 + (2 * P c 1 0 - 3 / 2 * P c 0 0 - P c 2 0 / 2) * s + (2 * P c 0 1 - 3 / 2 * P c 0 0 - P c 0 2 / 2) * t +
     ((P c 2 0 - 2 * P c 1 0 + P c 0 0) / 2) * (s * s) + (P c 1 1 - P c 1 0 - P c 0 1 + P c 0 0) * (s * t) + ((P c 0 2 - 2 * P c 0 1 + P c 0 0) / 2) * (t * t)).
  { intros c Hc s t. destruct c as [|[|c]]; [| |lia]; unfold P, sum_to; cbn; field. }
  assert (Z : forall c, (c < 2)%nat -> P c 0 0 = 0 /\ P c 1 0 = 0 /\ P c 2 0 = 0 /\ P c 0 1 = 0 /\ P c 0 2 = 0 /\ P c 1 1 = 0).
  { intros c Hc. destruct (F (P c 0 0) (2 * P c 1 0 - 3 / 2 * P c 0 0 - P c 2 0 / 2) (2 * P c 0 1 - 3 / 2 * P c 0 0 - P c 0 2 / 2)
     ((P c 2 0 - 2 * P c 1 0 + P c 0 0) / 2) (P c 1 1 - P c 1 0 - P c 0 1 + P c 0 0) ((P c 0 2 - 2 * P c 0 1 + P c 0 0) / 2)) as (E1 & E2 & E3 & E4 & E5 & E6); [|repeat split; lra].
    intros s t G. rewrite <- (D c Hc s t). destruct (at_good q _ x s t _ H G eq_refl) as (A & B). destruct c as [|[|c]]; [exact A|exact B|lia]. }
  destruct (Z 0%nat ltac:(lia)) as (A1 & A2 & A3 & A4 & A5 & A6). destruct (Z 1%nat ltac:(lia)) as (B1 & B2 & B3 & B4 & B5 & B6).
  unfold P, sum_to in A1, A2, A3, A4, A5, A6, B1, B2, B3, B4, B5, B6. cbn in A1, A2, A3, A4, A5, A6, B1, B2, B3, B4, B5, B6. clear - A1 A2 A3 A4 A5 A6 B1 B2 B3 B4 B5 B6.
  intros i Hi. cbn in Hi. do 10 (destruct i as [|i]; [lra|]). lia.
Qed.
(** Bilinear elements: two points. *)
Lemma settles_quad1 : forall q s t s' t', good q s t -> good q s' t' -> [s; t] <> [s'; t'] -> settles q (lagrange O1 kQuad).
Proof.
  intros q s t s' t' G G' N x H. destruct (at_good q _ x s t _ H G eq_refl) as (A & B). destruct (at_good q _ x s' t' _ H G' eq_refl) as (A' & B'). unfold sum_to in A, B, A', B'. cbn in A, B, A', B'.
  set (a := x 1%nat - x 0%nat). set (b := x 0%nat - x 1%nat + x 2%nat - x 3%nat). set (c := x 3%nat - x 0%nat).
  assert (E1 : a + b * t = 0) by (unfold a, b; lra). assert (E2 : c + b * s = 0) by (unfold b, c; lra). assert (E3 : a + b * t' = 0) by (unfold a, b; lra). assert (E4 : c + b * s' = 0) by (unfold b, c; lra).
  assert (B0 : b = 0).
  { destruct (Req_dec b 0) as [E|E]; [exact E|]. exfalso. apply N. f_equal; [|f_equal]; apply (Rmult_eq_reg_l b); lra. }
  rewrite B0 in E1, E2. unfold a, b, c in *. intros i Hi. cbn in Hi. do 4 (destruct i as [|i]; [lra|]). lia.
Qed.
(** Three points that are not on a line. *)
Lemma three_points : forall q s1 t1 s2 t2 s3 t3, good q s1 t1 -> good q s2 t2 -> good q s3 t3 -> (s2 - s1) * (t3 - t1) - (s3 - s1) * (t2 - t1) <> 0 -> fixes1 q.
Proof.
  intros q s1 t1 s2 t2 s3 t3 G1 G2 G3 N a b c H. pose proof (H _ _ G1) as E1. pose proof (H _ _ G2) as E2. pose proof (H _ _ G3) as E3.
  assert (B : b = 0). { apply (Rmult_eq_reg_r ((s2 - s1) * (t3 - t1) - (s3 - s1) * (t2 - t1))); [|exact N].
    transitivity ((t3 - t1) * ((a + b * s2 + c * t2) - (a + b * s1 + c * t1)) - (t2 - t1) * ((a + b * s3 + c * t3) - (a + b * s1 + c * t1))); [ring|]. rewrite E1, E2, E3. ring. }
  assert (C : c = 0). { apply (Rmult_eq_reg_r ((s2 - s1) * (t3 - t1) - (s3 - s1) * (t2 - t1))); [|exact N].
    transitivity ((s2 - s1) * ((a + b * s3 + c * t3) - (a + b * s1 + c * t1)) - (s3 - s1) * ((a + b * s2 + c * t2) - (a + b * s1 + c * t1))); [ring|]. rewrite E1, E2, E3. ring. }
  subst. lra.
Qed.
