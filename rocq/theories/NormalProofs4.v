(** C87: the divergence theorem, uniqueness of normals. *)
From Coq Require Import Reals List Arith Lia Lra Bool.
Import ListNotations.
From Verif Require Import Base MeshModel RefPatModel GeoModel GeoSpec NormalModel NormalSpec NormalProofs NormalProofs2 NormalProofs3.
Local Open Scope R_scope.

Definition mid_flux (sg : R) (f c0 c1 p q : vec) : R :=
  let m := field f c0 c1 (along p q (1 / 2)) in sg * ((q 1%nat - p 1%nat) * m 0%nat - (q 0%nat - p 0%nat) * m 1%nat).
Lemma flux_nrm : forall sg f c0 c1 p q n, 0 < distance 2 p q -> (forall k, (k < 2)%nat -> n k = nrm sg p q k) -> flux f c0 c1 p q n = mid_flux sg f c0 c1 p q.
Proof.
  intros sg f c0 c1 p q n L E. unfold flux, mid_flux, inner. cbn [seq map fold_right]. rewrite !E by lia. unfold nrm. field. lra.
Qed.
Lemma abs_sign : forall sg A, sign1 sg -> 0 < sg * A -> Rabs A = sg * A.
Proof. intros sg A [-> | ->] H; [rewrite Rabs_pos_eq; lra|rewrite Rabs_left; lra]. Qed.
Lemma polygon_gauss : forall P sg f c0 c1, sign1 sg -> simple P -> 0 < sg * total_area P ->
  fold_right Rplus 0 (map (fun i => mid_flux sg f c0 c1 (start P i) (stop P i)) (seq 0 (length P))) = (c0 0%nat + c1 1%nat) * polygon_area P.
Proof.
  intros P sg f c0 c1 S Si K. unfold polygon_area.
  match goal with |- context [Rabs ?x] => replace x with (total_area P) end.
  2: { destruct P as [|a [|b [|c [|d [|? ?]]]]]; try (exfalso; exact Si); cbn; unfold area2; ring. }
  rewrite (abs_sign sg) by assumption. clear K.
  destruct P as [|a [|b [|c [|d [|? ?]]]]]; try (exfalso; exact Si); unfold mid_flux, start, stop, field, along; cbn; unfold area2; field.
Qed.
Theorem gauss : forall g N f c0 c1, straight g -> OuterNormals g = Ok N ->
  fold_right Rplus 0 (map (fun i => flux f c0 c1 (start (go_cols g) i) (stop (go_cols g) i) (nth i N vzero)) (seq 0 (length (go_cols g))))
  = (c0 0%nat + c1 1%nat) * polygon_area (go_cols g).
Proof.
  intros g N f c0 c1 St HN. destruct (straight_oriented g St) as [sg O]. destruct St as [K [D _]].
  assert (EN : N = map (normal (go_cols g) sg) (seq 0 (length (go_cols g)))).
  { unfold OuterNormals in HN. rewrite (or_corners g sg O), D, (or_value g sg O) in HN. destruct K as [K|[K|K]]; rewrite K in HN; cbn in HN; injection HN as <-; reflexivity. }
  rewrite <- (polygon_gauss (go_cols g) sg f c0 c1 (or_sign g sg O) (or_simple g sg O) (or_area g sg O)). f_equal. apply map_ext_in. intros i Hi. apply in_seq in Hi.
  assert (Hi' : (i < length (go_cols g))%nat) by lia.
  destruct (polygon_normals (go_cols g) sg (or_sign g sg O) (or_simple g sg O) (or_area g sg O) i Hi') as [_ L].
  apply flux_nrm; [exact L|]. intros k Hk. rewrite EN. rewrite nth_indep with (d' := normal (go_cols g) sg 0) by (rewrite map_length, seq_length; exact Hi').
  rewrite map_nth, seq_nth by exact Hi'. apply normal_nrm; [exact (or_sign g sg O)|exact Hi'|exact L|exact Hk].
Qed.

(** * Uniqueness *)
Lemma parallel_units : forall n n' e, inner 2 n n = 1 -> inner 2 n' n' = 1 -> inner 2 n e = 0 -> inner 2 n' e = 0 -> inner 2 e e <> 0 ->
  exists s, (s = 1 \/ s = -1) /\ forall k, (k < 2)%nat -> n' k = s * n k.
Proof.
  intros n n' e. unfold inner. cbn [seq map fold_right].
  set (x := n 0%nat). set (y := n 1%nat). set (x' := n' 0%nat). set (y' := n' 1%nat). set (a := e 0%nat). set (b := e 1%nat). intros U U' V V' Z.
  assert (C : (x * y' - y * x') * (a * a + b * b) = 0).
  { replace ((x * y' - y * x') * (a * a + b * b)) with ((x * a + y * b) * (a * y' - b * x') - (x' * a + y' * b) * (a * y - b * x)) by ring.
    replace (x * a + y * b) with 0 by lra. replace (x' * a + y' * b) with 0 by lra. ring. }
  apply Rmult_integral in C. destruct C as [C|C]; [|exfalso; apply Z; lra].
  set (s := x * x' + y * y').
  assert (Q : s * s = 1).
  { replace (s * s) with ((x * x + y * y) * (x' * x' + y' * y') - (x * y' - y * x') * (x * y' - y * x')) by (unfold s; ring).
    rewrite C. replace (x * x + y * y) with 1 by lra. replace (x' * x' + y' * y') with 1 by lra. ring. }
  exists s. split.
  - assert (F : (s - 1) * (s + 1) = 0) by (replace ((s - 1) * (s + 1)) with (s * s - 1) by ring; lra).
    apply Rmult_integral in F. destruct F; [left|right]; lra.
  - intros k Hk. destruct k as [|[|]]; [| |lia].
    + change (n' 0%nat) with x'. change (n 0%nat) with x. transitivity (x' * (x * x + y * y)); [replace (x * x + y * y) with 1 by lra; ring|].
      replace (x' * (x * x + y * y)) with (s * x - (x * y' - y * x') * y) by (unfold s; ring). rewrite C. ring.
    + change (n' 1%nat) with y'. change (n 1%nat) with y. transitivity (y' * (x * x + y * y)); [replace (x * x + y * y) with 1 by lra; ring|].
      replace (y' * (x * x + y * y)) with (s * y + (x * y' - y * x') * x) by (unfold s; ring). rewrite C. ring.
Qed.
Lemma dist_inner : forall p q, 0 < distance 2 p q -> inner 2 (vsub q p) (vsub q p) <> 0.
Proof.
  intros p q L. pose proof (dist_sq p q) as E. unfold inner, vsub. cbn [seq map fold_right].
  assert (0 < distance 2 p q * distance 2 p q) by (apply Rmult_lt_0_compat; exact L). lra.
Qed.
Lemma inside_region : forall P x, inside P x -> region P x.
Proof. intros P x [r [Hr K]]. apply K. intros k _. rewrite Rminus_diag_eq by reflexivity. rewrite Rabs_R0. exact Hr. Qed.
Lemma simple_sign : forall P, simple P -> exists sg, sign1 sg /\ 0 < sg * total_area P.
Proof.
  intros P Si. assert (Z : total_area P <> 0).
  { destruct P as [|a [|b [|c [|d [|? ?]]]]]; try (exfalso; exact Si); [exact Si|]. cbn [total_area]. intros Z. destruct Si as [C|C]; unfold separates in C.
    - replace (area2 a c b * area2 a c d) with (- (area2 a b c * area2 c d a)) in C by (unfold area2; ring).
      replace (area2 c d a) with (- area2 a b c) in C by lra. pose proof (Rle_0_sqr (area2 a b c)) as Q. unfold Rsqr in Q. lra.
    - replace (area2 b d a * area2 b d c) with (- (area2 d a b * area2 b c d)) in C by (unfold area2; ring).
      replace (area2 a b c + area2 c d a) with (area2 d a b + area2 b c d) in Z by (unfold area2; ring).
      replace (area2 b c d) with (- area2 d a b) in C by lra. pose proof (Rle_0_sqr (area2 d a b)) as Q. unfold Rsqr in Q. lra. }
  destruct (sign_total _ Z) as [A B]. eexists. split; [exact A|exact B].
Qed.
Lemma edge_length : forall P i, simple P -> (i < length P)%nat -> 0 < distance 2 (start P i) (stop P i).
Proof. intros P i Si Hi. destruct (simple_sign P Si) as [sg [S K]]. apply (polygon_normals P sg S Si K i Hi). Qed.
Theorem outer_unique : forall P i n n', simple P -> (i < length P)%nat -> outer_normal P i n -> outer_normal P i n' -> forall k, (k < 2)%nat -> n' k = n k.
Proof.
  intros P i n n' Si Hi [U [V K]] [U' [V' K']]. pose proof (edge_length P i Si Hi) as L.
  destruct (parallel_units n n' _ U U' V V' (dist_inner _ _ L)) as [s [[-> | ->] E]]; intros k Hk; [rewrite (E k Hk); ring|]. exfalso.
  destruct (K (1 / 2)) as [e1 [E1 K1]]; [lra|]. destruct (K' (1 / 2)) as [e2 [E2 K2]]; [lra|].
  set (t := Rmin e1 e2 / 2). pose proof (Rmin_l e1 e2). pose proof (Rmin_r e1 e2). pose proof (Rmin_pos e1 e2 E1 E2).
  destruct (K1 t) as [_ I1]; [unfold t; lra|]. destruct (K2 t) as [O2 _]; [unfold t; lra|].
  apply O2. eapply region_ext; [|exact (inside_region _ _ I1)]. intros j Hj. unfold shifted. rewrite (E j Hj). ring.
Qed.
