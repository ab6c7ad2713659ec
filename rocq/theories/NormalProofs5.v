(** C88: prescribed signs. *)
From Coq Require Import Reals List Arith ZArith Lia Lra Bool.
Import ListNotations.
From Verif Require Import Base MeshModel MeshView RefPatModel GeoModel GeoSpec GeoProofs2 DofModel FlagModel FlagSpec FlagProofs DpgModel NormalModel NormalSpec NormalProofs NormalProofs2 NormalProofs3 NormalProofs4.
Local Open Scope nat_scope.

Lemma edge_of_parts : forall m c i e, edge_of m c i e <-> c < length (mv_cells m) /\ nth_error (cv_edges (cell_at m c)) i = Some e.
Proof.
  intros m c i e. unfold edge_of, cell_at. split.
  - intros [v [A B]]. split; [apply nth_error_Some; rewrite A; discriminate|]. rewrite (nth_error_nth _ _ _ A). exact B.
  - intros [A B]. eexists. split; [apply nth_error_nth'; exact A|exact B].
Qed.
Lemma cell_at_edge_in : forall m e c, cell_at_edge m e c <-> c < length (mv_cells m) /\ In e (cv_edges (cell_at m c)).
Proof.
  intros m e c. unfold cell_at_edge. split.
  - intros [i H]. apply edge_of_parts in H. destruct H as [A B]. split; [exact A|]. eapply nth_error_In. exact B.
  - intros [A B]. apply In_nth_error in B. destruct B as [i B]. exists i. apply edge_of_parts. auto.
Qed.
Lemma edge_range : forall m c i e, wf_mesh m -> edge_of m c i e -> e < length (mv_edges m).
Proof.
  intros m c i e W H. apply edge_of_parts in H. destruct H as [A B]. apply nth_error_In in B.
  exact (parts_range m 0 1 c e W ltac:(lia) A B).
Qed.

(** * The data set *)
(** Entry [e] is the largest of the listed cells at [e], or -1. *)
Definition largest (n : nat) (at_ : nat -> nat -> Prop) (d : dset Z) : Prop :=
  d_codim d = 1 /\ length (d_data d) = n /\
  forall e, e < n ->
    (nth e (d_data d) (-1)%Z = (-1)%Z /\ forall c, ~ at_ e c) \/
    (exists c, at_ e c /\ nth e (d_data d) (-1)%Z = Z.of_nat c /\ forall c', at_ e c' -> c' <= c).
Lemma largest_ext : forall n P Q d, (forall e c, P e c <-> Q e c) -> largest n P d -> largest n Q d.
Proof.
  intros n P Q d E [A [B H]]. split; [exact A|]. split; [exact B|]. intros e He. destruct (H e He) as [[X Y]|[c [X [Y K]]]].
  - left. split; [exact X|]. intros c Hc. apply (Y c), E, Hc.
  - right. exists c. split; [apply E, X|]. split; [exact Y|]. intros c' Hc'. apply K, E, Hc'.
Qed.
Lemma largest_step : forall n P d c s, s < n -> largest n P d ->
  exists d', dset_at d 1 s (fun x => Z.max x (Z.of_nat c)) = Ok d' /\ largest n (fun e c' => P e c' \/ (e = s /\ c' = c)) d'.
Proof.
  intros n P d c s Hs [A [B H]]. unfold dset_at. rewrite (dget_ok _ d 1 s (-1)%Z A) by lia. cbn [bind]. eexists. split; [reflexivity|].
  split; [exact A|]. cbn [d_data]. split; [rewrite upd_length; exact B|]. intros e He.
  destruct (Nat.eq_dec e s) as [-> | Ne].
  - rewrite nth_upd_eq by lia. right. destruct (H s Hs) as [[X Y]|[c0 [X [Y K]]]].
    + exists c. split; [right; auto|]. split; [rewrite X; lia|]. intros c' [Hc'|[_ ->]]; [exfalso; exact (Y c' Hc')|lia].
    + destruct (Nat.le_gt_cases c0 c) as [L|L].
      * exists c. split; [right; auto|]. split; [rewrite Y; lia|]. intros c' [Hc'|[_ ->]]; [specialize (K c' Hc'); lia|lia].
      * exists c0. split; [left; exact X|]. split; [rewrite Y; lia|]. intros c' [Hc'|[_ ->]]; [exact (K c' Hc')|lia].
  - rewrite nth_upd_neq by auto. destruct (H e He) as [[X Y]|[c0 [X [Y K]]]].
    + left. split; [exact X|]. intros c' [Hc'|[E _]]; [exact (Y c' Hc')|exact (Ne E)].
    + right. exists c0. split; [left; exact X|]. split; [exact Y|]. intros c' [Hc'|[E _]]; [exact (K c' Hc')|exfalso; exact (Ne E)].
Qed.
Lemma provider_ok : forall m, wf_mesh m -> exists d, SignProvider m = Ok d /\ largest (length (mv_edges m)) (cell_at_edge m) d.
Proof.
  intros m W. set (n := length (mv_edges m)).
  destruct (each_inv (fun done d => largest n (fun e c => In c done /\ In e (cv_edges (cell_at m c))) d)
    (fun e d => do subs <- sub_entities m 0 e 1; each subs (fun s d => dset_at d 1 s (fun x => Z.max x (Z.of_nat e))) d)
    (seq 0 (mv_count m 0)) (new_dset m 1 (-1)%Z)) as [d [E H]].
  - split; [reflexivity|]. split; [apply repeat_length|]. intros e He. left. split; [apply nth_repeat_same|]. intros c [[] _].
  - intros done c d Hc I. apply in_seq in Hc. change (mv_count m 0) with (length (mv_cells m)) in Hc. cbn [sub_entities bind].
    destruct (each_inv (fun sd d => largest n (fun e c' => (In c' done /\ In e (cv_edges (cell_at m c'))) \/ (In e sd /\ c' = c)) d)
      (fun s d => dset_at d 1 s (fun x => Z.max x (Z.of_nat c))) (cv_edges (cell_at m c)) d) as [d' [E' H']].
    + eapply largest_ext; [|exact I]. intros e c'. cbn [In]. tauto.
    + intros sd s d1 Hs I1. destruct (largest_step n _ d1 c s (parts_range m 0 1 c s W ltac:(lia) (proj2 Hc) Hs) I1) as [d2 [E2 H2]].
      exists d2. split; [exact E2|]. eapply largest_ext; [|exact H2]. intros e c'. cbn beta. rewrite in_app_iff. cbn [In]. intuition congruence.
    + exists d'. split; [exact E'|]. eapply largest_ext; [|exact H']. intros e c'. cbn beta. rewrite in_app_iff. cbn [In].
      split; [intros [[X Y]|[X ->]]; auto|]. intros [[X|[->|[]]] Y]; auto.
  - exists d. split; [exact E|]. eapply largest_ext; [|exact H]. intros e c. cbn beta. rewrite cell_at_edge_in, in_seq.
    change (mv_count m 0) with (length (mv_cells m)). split; intros [X Y]; (split; [lia|exact Y]).
Qed.

Theorem prescribed_signs : forall m, wf_mesh m -> exists d, SignProvider m = Ok d /\
  (forall c e, e < size m 1 -> PrescribedSign d c e = Ok 1%Z \/ PrescribedSign d c e = Ok (-1)%Z) /\
  (forall c e, cell_at_edge m e c ->
     (PrescribedSign d c e = Ok 1%Z <-> forall c', cell_at_edge m e c' -> c' <= c)).
Proof.
  intros m W. destruct (provider_ok m W) as [d [E [A [B H]]]]. exists d. split; [exact E|]. split.
  - intros c e He. unfold PrescribedSign. rewrite (dget_ok _ d 1 e (-1)%Z A) by (rewrite B; exact He). cbn [bind]. destruct (_ =? _)%Z; auto.
  - intros c e Hc. pose proof Hc as Hc0. destruct Hc as [i Hi]. pose proof (edge_range m c i e W Hi) as He. unfold PrescribedSign.
    rewrite (dget_ok _ d 1 e (-1)%Z A) by lia. cbn [bind]. destruct (H e He) as [[_ Y]|[c0 [X [Y K]]]]; [exfalso; exact (Y c Hc0)|]. rewrite Y.
    destruct (Z.eqb_spec (Z.of_nat c) (Z.of_nat c0)) as [Q|Q].
    + assert (c = c0) by lia. subst c0. split; [intros _; exact K|reflexivity].
    + split; [discriminate|]. intros L. specialize (L c0 X). specialize (K c Hc0). lia.
Qed.
Theorem one_sign : forall m d e c, wf_mesh m -> SignProvider m = Ok d -> cell_at_edge m e c ->
  exists c0, cell_at_edge m e c0 /\ PrescribedSign d c0 e = Ok 1%Z /\
    forall c', cell_at_edge m e c' -> c' <> c0 -> PrescribedSign d c' e = Ok (-1)%Z.
Proof.
  intros m d e c W E Hc. destruct (provider_ok m W) as [d' [E' [A [B H]]]]. rewrite E in E'. injection E' as <-.
  assert (He : e < length (mv_edges m)) by (destruct Hc as [i Hi]; exact (edge_range m c i e W Hi)).
  destruct (H e He) as [[_ Y]|[c0 [X [Y K]]]]; [exfalso; exact (Y c Hc)|]. exists c0. split; [exact X|]. unfold PrescribedSign.
  rewrite (dget_ok _ d 1 e (-1)%Z A) by lia. cbn [bind]. rewrite Y. split; [rewrite Z.eqb_refl; reflexivity|].
  intros c' Hc' Ne. destruct (Z.eqb_spec (Z.of_nat c') (Z.of_nat c0)); [exfalso; lia|reflexivity].
Qed.

(** * Normals of two cells at an edge *)
Local Open Scope R_scope.
Lemma opposite_normals : forall P i n P' i' n', simple P -> (i < length P)%nat -> outer_normal P i n -> outer_normal P' i' n' ->
  common_edge P i P' i' -> disjoint_interiors P P' -> forall k, (k < 2)%nat -> n' k = - n k.
Proof.
  intros P i n P' i' n' Si Hi [U [V K]] [U' [V' K']] C D. pose proof (edge_length P i Si Hi) as L.
  assert (M : forall k, (k < 2)%nat -> along (start P' i') (stop P' i') (1 / 2) k = along (start P i) (stop P i) (1 / 2) k).
  { intros k Hk. unfold along. destruct C as [[A B]|[A B]]; rewrite (A k Hk), (B k Hk); field. }
  assert (V2 : inner 2 n' (vsub (stop P i) (start P i)) = 0).
  { revert V'. unfold inner, vsub. cbn [seq map fold_right]. destruct C as [[A B]|[A B]]; rewrite !A, !B by lia; intros; lra. }
  destruct (parallel_units n n' _ U U' V V2 (dist_inner _ _ L)) as [s [[-> | ->] E]]; intros k Hk; [|rewrite (E k Hk); ring]. exfalso.
  destruct (K (1 / 2)) as [e1 [E1 K1]]; [lra|]. destruct (K' (1 / 2)) as [e2 [E2 K2]]; [lra|].
  set (t := Rmin e1 e2 / 2). pose proof (Rmin_l e1 e2). pose proof (Rmin_r e1 e2). pose proof (Rmin_pos e1 e2 E1 E2).
  destruct (K1 t) as [_ I1]; [unfold t; lra|]. destruct (K2 t) as [_ I2]; [unfold t; lra|].
  apply (D (shifted (along (start P i) (stop P i) (1 / 2)) (- t) n)). split; [exact I1|].
  destruct I2 as [r [Hr Q]]. exists r. split; [exact Hr|]. intros y Hy. apply Q. intros j Hj. specialize (Hy j Hj).
  unfold shifted in *. rewrite (M j Hj), (E j Hj). rewrite Rmult_1_l. exact Hy.
Qed.
Theorem consistent_normals : forall m geom d e c i N c' i' N', wf_mesh m -> SignProvider m = Ok d ->
  straight (geom (ECell c)) -> straight (geom (ECell c')) ->
  (i < length (polygon geom c))%nat -> (i' < length (polygon geom c'))%nat ->
  OuterNormals (geom (ECell c)) = Ok N -> OuterNormals (geom (ECell c')) = Ok N' ->
  c <> c' -> edge_of m c i e -> edge_of m c' i' e -> (forall c2, cell_at_edge m e c2 -> c2 = c \/ c2 = c') ->
  common_edge (polygon geom c) i (polygon geom c') i' -> disjoint_interiors (polygon geom c) (polygon geom c') ->
  exists s s', PrescribedSign d c e = Ok s /\ PrescribedSign d c' e = Ok s' /\ (s' = - s)%Z /\ (s = 1 \/ s = -1)%Z /\
    forall k, (k < 2)%nat -> nth i' N' vzero k = - nth i N vzero k /\ IZR s' * nth i' N' vzero k = IZR s * nth i N vzero k.
Proof.
  intros m geom d e c i N c' i' N' W E St St' Hi Hi' HN HN' Ne Ec Ec' Two C D.
  assert (O : forall k, (k < 2)%nat -> nth i' N' vzero k = - nth i N vzero k).
  { destruct (straight_oriented _ St) as [sg Or].
    destruct (outer_normals _ St) as [N0 [E0 [L0 P0]]]. rewrite HN in E0. injection E0 as <-.
    destruct (outer_normals _ St') as [N1 [E1 [L1 P1]]]. rewrite HN' in E1. injection E1 as <-.
    exact (opposite_normals _ i _ _ i' _ (or_simple _ _ Or) Hi (P0 i Hi) (P1 i' Hi') C D). }
  destruct (one_sign m d e c W E (ex_intro _ i Ec)) as [c0 [A [B K]]].
  destruct (Two c0 A) as [-> | ->].
  - exists 1%Z, (-1)%Z. split; [exact B|]. split; [apply K; [exists i'; exact Ec'|auto]|]. split; [reflexivity|]. split; [auto|].
    intros k Hk. split; [exact (O k Hk)|]. rewrite (O k Hk). ring.
  - exists (-1)%Z, 1%Z. split; [apply K; [exists i; exact Ec|auto]|]. split; [exact B|]. split; [reflexivity|]. split; [auto|].
    intros k Hk. split; [exact (O k Hk)|]. rewrite (O k Hk). ring.
Qed.
