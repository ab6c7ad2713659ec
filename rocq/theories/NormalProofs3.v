(** C87: the normals computed by OuterNormals. *)
From Coq Require Import Reals List Arith Lia Lra Bool FunctionalExtensionality.
Import ListNotations.
From Verif Require Import Base MeshModel RefPatModel GeoModel GeoSpec GeoProofs GeoProofs2 GeoProofs3 GeoProofs8 NormalModel NormalSpec NormalProofs NormalProofs2.
Local Open Scope R_scope.

Lemma region_ext : forall P x y, (forall k, (k < 2)%nat -> x k = y k) -> region P x -> region P y.
Proof.
  intros P x y E H. assert (T : forall a b c, in_triangle a b c x -> in_triangle a b c y).
  { intros a b c [r [s [t [Hr [Hs [Ht [Es K]]]]]]]. exists r, s, t. split; [exact Hr|]. split; [exact Hs|]. split; [exact Ht|]. split; [exact Es|].
    intros k Hk. rewrite <- (E k Hk). apply K, Hk. }
  destruct H as [a b c x H|a b c d x S H|a b c d x S H].
  - apply region_tria, T, H.
  - apply region_ac; [exact S|]. destruct H; [left|right]; apply T; assumption.
  - apply region_bd; [exact S|]. destruct H; [left|right]; apply T; assumption.
Qed.
Lemma outer_normal_ext : forall P i n n', (forall k, (k < 2)%nat -> n k = n' k) -> outer_normal P i n -> outer_normal P i n'.
Proof.
  intros P i n n' E [U [V K]].
  assert (I : forall a b, inner 2 n' a = inner 2 n b -> True) by (intros; exact Logic.I).
  split; [|split].
  - rewrite <- U. unfold inner. cbn [seq map fold_right]. rewrite !E by lia. reflexivity.
  - rewrite <- V. unfold inner. cbn [seq map fold_right]. rewrite !E by lia. reflexivity.
  - intros s Hs. destruct (K s Hs) as [eps [He G]]. exists eps. split; [exact He|]. intros t Ht. destruct (G t Ht) as [G1 G2].
    assert (X : forall u k, (k < 2)%nat -> shifted (along (start P i) (stop P i) s) u n k = shifted (along (start P i) (stop P i) s) u n' k).
    { intros u k Hk. unfold shifted. rewrite (E k Hk). reflexivity. }
    split.
    + intros Y. apply G1. eapply region_ext; [|exact Y]. intros k Hk. symmetry. apply X, Hk.
    + destruct G2 as [r [Hr G2]]. exists r. split; [exact Hr|]. intros y N. apply G2. intros k Hk. rewrite X by exact Hk. apply N, Hk.
Qed.

Lemma det_area : forall a b c, det2 (vsub b a) (vsub c a) = area2 a b c.
Proof. intros. unfold det2, vsub, area2. ring. Qed.
Lemma gtb_case : forall a b, (gtb a b = true /\ b < a) \/ (gtb a b = false /\ a <= b).
Proof. intros a b. unfold gtb. destruct (Rlt_dec b a); [left|right]; split; try reflexivity; lra. Qed.
Lemma circum_pos : forall d u, 0 <= sqnorm d u.
Proof. exact sqnorm_pos. Qed.
Lemma tol_pos : 0 < tol.
Proof. unfold tol. apply Rinv_0_lt_compat. apply pow_lt. lra. Qed.

Lemma tria_nonflat : forall g, go_kind g = GTriaO1 -> go_dim g = 2%nat -> constructed g -> area2 (col g 0) (col g 1) (col g 2) <> 0.
Proof.
  intros g K D C. pose proof (constructed_check g C) as H. rewrite K, D in H. unfold check_tria in H. cbv zeta in H.
  do 3 (apply bind_ok in H as [[] [_ H]]). apply verify_ok, gtb_true in H.
  intros Z. replace (cross2 (vsub (col g 1) (col g 0)) (vsub (col g 2) (col g 0))) with (area2 (col g 0) (col g 1) (col g 2)) in H by (unfold cross2, vsub, area2; ring).
  rewrite Z, Rabs_R0 in H.
  assert (0 <= tol * (sqnorm 2 (vsub (col g 1) (col g 0)) + sqnorm 2 (vsub (col g 2) (col g 1)) + sqnorm 2 (vsub (col g 0) (col g 2)))).
  { apply Rmult_le_pos; [apply Rlt_le, tol_pos|]. pose proof (sqnorm_pos 2 (vsub (col g 1) (col g 0))). pose proof (sqnorm_pos 2 (vsub (col g 2) (col g 1))). pose proof (sqnorm_pos 2 (vsub (col g 0) (col g 2))). lra. }
  lra.
Qed.
Lemma para_simple : forall g, go_kind g = GParallelogram -> go_dim g = 2%nat -> constructed g -> exact_parallelogram g ->
  separates (col g 0) (col g 2) (col g 1) (col g 3).
Proof.
  intros g K D C X. pose proof (constructed_check g C) as H. rewrite K, D in H. unfold check_quad in H. cbv zeta in H.
  do 4 (apply bind_ok in H as [[] [_ H]]). apply verify_ok, gtb_true in H.
  pose proof (X K 0%nat) as X0. pose proof (X K 1%nat) as X1.
  set (A := area2 (col g 0) (col g 1) (col g 3)).
  replace (cross2 (vsub (col g 1) (col g 0)) (vsub (col g 2) (col g 0))) with A in H.
  2: { unfold A, cross2, vsub, area2. replace (col g 2 0%nat) with (col g 1 0%nat + col g 3 0%nat - col g 0 0%nat) by lra. replace (col g 2 1%nat) with (col g 1 1%nat + col g 3 1%nat - col g 0 1%nat) by lra. ring. }
  replace (cross2 (vsub (col g 3) (col g 0)) (vsub (col g 2) (col g 0))) with (- A) in H.
  2: { unfold A, cross2, vsub, area2. replace (col g 2 0%nat) with (col g 1 0%nat + col g 3 0%nat - col g 0 0%nat) by lra. replace (col g 2 1%nat) with (col g 1 1%nat + col g 3 1%nat - col g 0 1%nat) by lra. ring. }
  assert (Z : A <> 0).
  { intros Z. rewrite Z, Ropp_0, Rabs_R0 in H.
    assert (0 <= tol * (sqnorm 2 (vsub (col g 1) (col g 0)) + sqnorm 2 (vsub (col g 2) (col g 1)) + sqnorm 2 (vsub (col g 3) (col g 2)) + sqnorm 2 (vsub (col g 0) (col g 3)))); [|lra].
    apply Rmult_le_pos; [apply Rlt_le, tol_pos|].
    pose proof (sqnorm_pos 2 (vsub (col g 1) (col g 0))). pose proof (sqnorm_pos 2 (vsub (col g 2) (col g 1))). pose proof (sqnorm_pos 2 (vsub (col g 3) (col g 2))). pose proof (sqnorm_pos 2 (vsub (col g 0) (col g 3))). lra. }
  unfold separates. replace (area2 (col g 0) (col g 2) (col g 1) * area2 (col g 0) (col g 2) (col g 3)) with (- (A * A)).
  2: { unfold A, area2. replace (col g 2 0%nat) with (col g 1 0%nat + col g 3 0%nat - col g 0 0%nat) by lra. replace (col g 2 1%nat) with (col g 1 1%nat + col g 3 1%nat - col g 0 1%nat) by lra. ring. }
  pose proof (Rlt_0_sqr A Z) as Q. unfold Rsqr in Q. lra.
Qed.

Record oriented (g : geo) (sg : R) : Prop := {
  or_sign : sign1 sg;
  or_simple : simple (go_cols g);
  or_area : 0 < sg * total_area (go_cols g);
  or_corners : Corners g = Ok (go_cols g);
  or_value : orientation g = Ok sg
}.
Lemma sign_total : forall A, A <> 0 -> sign1 (if gtb A 0 then 1 else -1) /\ 0 < (if gtb A 0 then 1 else -1) * A.
Proof. intros A Z. destruct (gtb_case A 0) as [[-> H]|[-> H]]; (split; [unfold sign1; auto|lra]). Qed.

Lemma quad_count : forall d0 d1 d2 d3, d0 + d2 = d1 + d3 -> d1 * d3 > 0 \/ d0 * d2 > 0 ->
  let sg := if (3 <=? length (filter (fun d => gtb d 0%R) [d0; d1; d2; d3]))%nat then 1 else - 1 in sign1 sg /\ 0 < sg * (d1 + d3).
Proof.
  intros d0 d1 d2 d3 E H.
  assert (M : forall u v, u * v > 0 -> (0 < u /\ 0 < v) \/ (u < 0 /\ v < 0)).
  { intros u v Huv. destruct (Rtotal_order u 0) as [A|[A|A]].
    - right. split; [exact A|]. destruct (Rlt_le_dec v 0) as [B|B]; [exact B|]. exfalso. assert (0 <= (- u) * v) by (apply Rmult_le_pos; lra). lra.
    - subst u. lra.
    - left. split; [exact A|]. destruct (Rlt_le_dec 0 v) as [B|B]; [exact B|]. exfalso. assert (0 <= u * (- v)) by (apply Rmult_le_pos; lra). lra. }
  assert (H' : (0 < d1 /\ 0 < d3) \/ (d1 < 0 /\ d3 < 0) \/ (0 < d0 /\ 0 < d2) \/ (d0 < 0 /\ d2 < 0)).
  { destruct H as [H|H]; destruct (M _ _ H); tauto. }
  cbn [filter].
  destruct (gtb_case d0 0) as [[-> A0]|[-> A0]]; destruct (gtb_case d1 0) as [[-> A1]|[-> A1]]; destruct (gtb_case d2 0) as [[-> A2]|[-> A2]]; destruct (gtb_case d3 0) as [[-> A3]|[-> A3]];
    cbn [length Nat.leb]; (split; [unfold sign1; auto|lra]).
Qed.

Lemma straight_oriented : forall g, straight g -> exists sg, oriented g sg.
Proof.
  intros g [K [D [C [X S]]]]. pose proof (constructed_cols g C) as L.
  assert (CK : forall x y, x * (1 - 0 - 0) + y * 0 + y * 0 = x) by (intros; ring).
  destruct K as [K|[K|K]]; rewrite K in L; cbn [num_cols] in L.
  - pose proof (tria_nonflat g K D C) as NF. destruct (sign_total _ NF) as [S1 S2].
    remember (go_cols g) as cs eqn:Ecs. destruct cs as [|a [|b [|c [|]]]]; try discriminate L.
    assert (Ec : col g = fun i => nth i [a; b; c] vzero) by (unfold col; rewrite <- Ecs; reflexivity).
    rewrite Ec in NF, S1, S2. cbn [nth] in NF, S1, S2.
    eexists. constructor; [exact S1| | | |].
    + rewrite <- Ecs. exact NF.
    + rewrite <- Ecs. exact S2.
    + rewrite <- Ecs. unfold Corners. rewrite K. cbn [kind_el NodeCoords mapM]. unfold Global, range_check, with_local, global_at, dim_local. rewrite K, Ec.
      cbn [is_o2 bind kind_el RefPatModel.el_dim length Nat.eqb lf_assert nth]. f_equal. f_equal; [|f_equal; [|f_equal]]; apply functional_extensionality; intros k; ring.
    + unfold orientation. rewrite K. cbn [kind_el]. unfold Jacobian, range_check, with_local, jac_cols, dim_local. rewrite K, Ec.
      cbn [is_o2 bind kind_el RefPatModel.el_dim length Nat.eqb lf_assert nth determinant]. rewrite det_area. reflexivity.
  - specialize (S K). remember (go_cols g) as cs eqn:Ecs. destruct cs as [|a [|b [|c [|d [|]]]]]; try discriminate L.
    assert (Ec : col g = fun i => nth i [a; b; c; d] vzero) by (unfold col; rewrite <- Ecs; reflexivity).
    destruct (quad_count (area2 a b d) (area2 a b c) (area2 b c d) (area2 c d a)) as [S1 S2].
    { unfold area2. ring. }
    { destruct S as [S|S]; unfold separates in S; [left|right].
      - replace (area2 a b c * area2 c d a) with (- (area2 a c b * area2 a c d)) by (unfold area2; ring). lra.
      - replace (area2 a b d * area2 b c d) with (- (area2 b d a * area2 b d c)) by (unfold area2; ring). lra. }
    eexists. constructor; [exact S1| | | |].
    + rewrite <- Ecs. exact S.
    + rewrite <- Ecs. exact S2.
    + rewrite <- Ecs. unfold Corners. rewrite K. cbn [kind_el NodeCoords mapM]. unfold Global, range_check, with_local, global_at, dim_local. rewrite K, Ec.
      cbn [is_o2 bind kind_el RefPatModel.el_dim length Nat.eqb lf_assert nth]. f_equal. f_equal; [|f_equal; [|f_equal; [|f_equal]]]; apply functional_extensionality; intros k; ring.
    + unfold orientation. rewrite K. cbn [kind_el NodeCoords mapM]. unfold Jacobian, range_check, with_local, jac_cols, dim_local. rewrite K, Ec.
      cbn [is_o2 bind kind_el RefPatModel.el_dim length Nat.eqb lf_assert nth determinant mapM].
      match goal with |- Ok (if (3 <=? length (filter _ ?l))%nat then _ else _) = _ => replace l with [area2 a b d; area2 a b c; area2 b c d; area2 c d a] end; [reflexivity|].
      unfold det2, area2. f_equal; [ring|f_equal; [ring|f_equal; [ring|f_equal; ring]]].
  - pose proof (para_simple g K D C X) as PS. pose proof (X K) as XK. remember (go_cols g) as cs eqn:Ecs. destruct cs as [|a [|b [|c [|d [|]]]]]; try discriminate L.
    assert (Ec : col g = fun i => nth i [a; b; c; d] vzero) by (unfold col; rewrite <- Ecs; reflexivity).
    rewrite Ec in PS, XK. cbn [nth] in PS, XK. pose proof (XK 0%nat) as X0. pose proof (XK 1%nat) as X1.
    assert (E1 : area2 a b c = area2 a b d) by (unfold area2; replace (c 0%nat) with (b 0%nat + d 0%nat - a 0%nat) by lra; replace (c 1%nat) with (b 1%nat + d 1%nat - a 1%nat) by lra; ring).
    assert (E2 : area2 c d a = area2 a b d) by (unfold area2; replace (c 0%nat) with (b 0%nat + d 0%nat - a 0%nat) by lra; replace (c 1%nat) with (b 1%nat + d 1%nat - a 1%nat) by lra; ring).
    assert (Z : area2 a b d <> 0).
    { intros Z. unfold separates in PS. replace (area2 a c b * area2 a c d) with (- (area2 a b c * area2 c d a)) in PS by (unfold area2; ring). rewrite E1, E2, Z in PS. lra. }
    destruct (quad_count (area2 a b d) (area2 a b d) (area2 a b d) (area2 a b d)) as [S1 S2].
    { ring. }
    { left. pose proof (Rlt_0_sqr _ Z) as Q. unfold Rsqr in Q. lra. }
    eexists. constructor; [exact S1| | | |].
    + rewrite <- Ecs. left. exact PS.
    + rewrite <- Ecs. cbn [total_area]. rewrite E1, E2. exact S2.
    + rewrite <- Ecs. unfold Corners. rewrite K. cbn [kind_el NodeCoords mapM]. unfold Global, range_check, with_local, global_at, dim_local. rewrite K, Ec.
      cbn [is_o2 bind kind_el RefPatModel.el_dim length Nat.eqb lf_assert nth]. f_equal. f_equal; [|f_equal; [|f_equal; [|f_equal]]]; apply functional_extensionality; intros k; [ring|ring| |ring].
      pose proof (XK k). lra.
    + unfold orientation. rewrite K. cbn [kind_el NodeCoords mapM]. unfold Jacobian, range_check, with_local, jac_cols, dim_local. rewrite K, Ec.
      cbn [is_o2 bind kind_el RefPatModel.el_dim length Nat.eqb lf_assert nth determinant mapM]. rewrite !det_area. reflexivity.
Qed.

Theorem outer_normals : forall g, straight g -> exists N, OuterNormals g = Ok N /\ length N = length (go_cols g) /\
  forall i, (i < length (go_cols g))%nat -> outer_normal (go_cols g) i (nth i N vzero).
Proof.
  intros g St. destruct (straight_oriented g St) as [sg O]. destruct St as [K [D _]].
  exists (map (normal (go_cols g) sg) (seq 0 (length (go_cols g)))). split; [|split].
  - unfold OuterNormals. rewrite (or_corners g sg O), D, (or_value g sg O). destruct K as [-> |[-> | ->]]; reflexivity.
  - rewrite map_length. apply seq_length.
  - intros i Hi. destruct (polygon_normals (go_cols g) sg (or_sign g sg O) (or_simple g sg O) (or_area g sg O) i Hi) as [P L].
    eapply outer_normal_ext; [|exact P]. intros k Hk. rewrite nth_indep with (d' := normal (go_cols g) sg 0) by (rewrite map_length, seq_length; exact Hi).
    rewrite map_nth, seq_nth by exact Hi. symmetry. apply normal_nrm; [exact (or_sign g sg O)|exact Hi|exact L|exact Hk].
Qed.
