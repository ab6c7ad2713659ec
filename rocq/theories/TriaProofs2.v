(** The tabulated rules for the triangle. *)
From Coq Require Import Reals List Arith ZArith Lia Lra Bool.
From Coquelicot Require Import Coquelicot.
Import ListNotations.
From Verif Require Import Base MeshModel MeshView DofModel RefPatModel GeoModel GeoSpec
  FeModel LagrModel QuadModel HierModel FeSpec QuadSpec GaussSpec QuadRuleModel Calc FeProofs LegendreProofs JacobiProofs OrthoProofs HierProofs3 PolyProofs QuadProofs TriaTab TriaSpec TriaCheck TriaProofs TriaChk.
Local Open Scope R_scope.

Lemma tria_table_ok : forall k, (1 <= k <= 50)%nat -> k <> 3%nat -> exists l, tria_table k = Some l /\ exists sh, check sh k l = true.
Proof.
  intros k H H3.
  destruct k as [|k]; [lia|].
  destruct k as [|k]; [exists tab_1; split; [reflexivity|eexists; exact chk_1]|].
  destruct k as [|k]; [exists tab_2; split; [reflexivity|eexists; exact chk_2]|].
  destruct k as [|k]; [congruence|].
  destruct k as [|k]; [exists tab_4; split; [reflexivity|eexists; exact chk_4]|].
  destruct k as [|k]; [exists tab_5; split; [reflexivity|eexists; exact chk_5]|].
  destruct k as [|k]; [exists tab_6; split; [reflexivity|eexists; exact chk_6]|].
  destruct k as [|k]; [exists tab_7; split; [reflexivity|eexists; exact chk_7]|].
  destruct k as [|k]; [exists tab_8; split; [reflexivity|eexists; exact chk_8]|].
  destruct k as [|k]; [exists tab_9; split; [reflexivity|eexists; exact chk_9]|].
  destruct k as [|k]; [exists tab_10; split; [reflexivity|eexists; exact chk_10]|].
  destruct k as [|k]; [exists tab_11; split; [reflexivity|eexists; exact chk_11]|].
  destruct k as [|k]; [exists tab_12; split; [reflexivity|eexists; exact chk_12]|].
  destruct k as [|k]; [exists tab_13; split; [reflexivity|eexists; exact chk_13]|].
  destruct k as [|k]; [exists tab_14; split; [reflexivity|eexists; exact chk_14]|].
  destruct k as [|k]; [exists tab_15; split; [reflexivity|eexists; exact chk_15]|].
  destruct k as [|k]; [exists tab_16; split; [reflexivity|eexists; exact chk_16]|].
  destruct k as [|k]; [exists tab_17; split; [reflexivity|eexists; exact chk_17]|].
  destruct k as [|k]; [exists tab_18; split; [reflexivity|eexists; exact chk_18]|].
  destruct k as [|k]; [exists tab_19; split; [reflexivity|eexists; exact chk_19]|].
  destruct k as [|k]; [exists tab_20; split; [reflexivity|eexists; exact chk_20]|].
  destruct k as [|k]; [exists tab_21; split; [reflexivity|eexists; exact chk_21]|].
  destruct k as [|k]; [exists tab_22; split; [reflexivity|eexists; exact chk_22]|].
  destruct k as [|k]; [exists tab_23; split; [reflexivity|eexists; exact chk_23]|].
  destruct k as [|k]; [exists tab_24; split; [reflexivity|eexists; exact chk_24]|].
  destruct k as [|k]; [exists tab_25; split; [reflexivity|eexists; exact chk_25]|].
  destruct k as [|k]; [exists tab_26; split; [reflexivity|eexists; exact chk_26]|].
  destruct k as [|k]; [exists tab_27; split; [reflexivity|eexists; exact chk_27]|].
  destruct k as [|k]; [exists tab_28; split; [reflexivity|eexists; exact chk_28]|].
  destruct k as [|k]; [exists tab_29; split; [reflexivity|eexists; exact chk_29]|].
  destruct k as [|k]; [exists tab_30; split; [reflexivity|eexists; exact chk_30]|].
  destruct k as [|k]; [exists tab_31; split; [reflexivity|eexists; exact chk_31]|].
  destruct k as [|k]; [exists tab_32; split; [reflexivity|eexists; exact chk_32]|].
  destruct k as [|k]; [exists tab_33; split; [reflexivity|eexists; exact chk_33]|].
  destruct k as [|k]; [exists tab_34; split; [reflexivity|eexists; exact chk_34]|].
  destruct k as [|k]; [exists tab_35; split; [reflexivity|eexists; exact chk_35]|].
  destruct k as [|k]; [exists tab_36; split; [reflexivity|eexists; exact chk_36]|].
  destruct k as [|k]; [exists tab_37; split; [reflexivity|eexists; exact chk_37]|].
  destruct k as [|k]; [exists tab_38; split; [reflexivity|eexists; exact chk_38]|].
  destruct k as [|k]; [exists tab_39; split; [reflexivity|eexists; exact chk_39]|].
  destruct k as [|k]; [exists tab_40; split; [reflexivity|eexists; exact chk_40]|].
  destruct k as [|k]; [exists tab_41; split; [reflexivity|eexists; exact chk_41]|].
  destruct k as [|k]; [exists tab_42; split; [reflexivity|eexists; exact chk_42]|].
  destruct k as [|k]; [exists tab_43; split; [reflexivity|eexists; exact chk_43]|].
  destruct k as [|k]; [exists tab_44; split; [reflexivity|eexists; exact chk_44]|].
  destruct k as [|k]; [exists tab_45; split; [reflexivity|eexists; exact chk_45]|].
  destruct k as [|k]; [exists tab_46; split; [reflexivity|eexists; exact chk_46]|].
  destruct k as [|k]; [exists tab_47; split; [reflexivity|eexists; exact chk_47]|].
  destruct k as [|k]; [exists tab_48; split; [reflexivity|eexists; exact chk_48]|].
  destruct k as [|k]; [exists tab_49; split; [reflexivity|eexists; exact chk_49]|].
  destruct k as [|k]; [exists tab_50; split; [reflexivity|eexists; exact chk_50]|].
  lia.
Qed.
Lemma hard_ok : forall k, (1 <= k <= 50)%nat -> k <> 3%nat -> exists q, HardcodedQuadRule k = Ok q /\ table_rule tolerance k q.
Proof.
  intros k H H3. destruct (tria_table_ok k H H3) as (l & E & sh & C). unfold HardcodedQuadRule. rewrite E. fold (table_points l) (table_weights l).
  assert (Q : exists q, QuadRule kTria (table_points l) (table_weights l) k = Ok q).
  { unfold QuadRule. eexists.
    assert (A : forallb (fun p => (length p =? dimension kTria)%nat) (table_points l) = true).
    { apply forallb_forall. intros p Hp. apply in_map_iff in Hp. destruct Hp as (t & <- & _). reflexivity. }
    assert (B : (length (table_weights l) =? length (table_points l))%nat = true).
    { unfold table_weights, table_points. rewrite !map_length. apply Nat.eqb_refl. }
    rewrite A, B. reflexivity. }
  destruct Q as (q & Q). exists q. split; [exact Q|]. eapply table_ok; eauto.
Qed.
Lemma tria_tables : forall leg jac degree, (1 <= degree <= 50)%nat ->
  exists q k, make_QuadRule leg jac HardcodedQuadRule kTria degree = Ok q /\ (degree <= k)%nat /\ table_rule tolerance k q.
Proof.
  intros leg jac degree H. cbn [make_QuadRule]. unfold make_tria. destruct (Nat.eqb_spec degree 3) as [->|N].
  - destruct (hard_ok 4 ltac:(lia) ltac:(lia)) as (q & E & Q). exists q, 4%nat. split; auto.
  - replace ((1 <=? degree) && (degree <=? 50))%nat with true by (symmetry; apply andb_true_iff; split; apply Nat.leb_le; lia).
    destruct (hard_ok degree H N) as (q & E & Q). exists q, degree. split; auto.
Qed.
Lemma tables_rounded : exists q, HardcodedQuadRule 1 = Ok q /\ ~ exact_to q 1.
Proof.
  destruct (hard_ok 1 ltac:(lia) ltac:(lia)) as (q & E & _). exists q. split; [exact E|]. intros X.
  injection E as E. subst q.
  assert (I : In [1; 0]%nat (exponents kTria (0 + 1))) by (apply in_map_iff; exists (1, 0)%nat; split; [reflexivity|cbn; auto]).
  revert X. match goal with |- exact_to ?q _ -> _ => apply (not_exact q 0 [1; 0]%nat I) end.
  cbn [qr_el moment]. unfold quadrature. cbn [qr_weights qr_points map dot combine rsum fold_right fst snd].
  rewrite mono2. unfold tab_real, dec. cbn [fact INR Nat.add Nat.mul]. cbn. lra.
Qed.
Lemma poly_single : forall es (e : list nat) f x, In e es -> NoDup es -> (forall e', e' <> e -> f e' = 0) -> poly es f x = f e * monomial e x.
Proof.
  induction es as [|a es IH]; intros e f x Hin ND H; [destruct Hin|]. rewrite poly_cons. inversion ND as [|? ? N1 N2]; subst.
  destruct (list_eq_dec Nat.eq_dec a e) as [->|Ne].
  - assert (Z0 : poly es f x = 0).
    { clear IH Hin ND N2. induction es as [|b es IH]; [reflexivity|]. rewrite poly_cons, (H b), IH; [ring| |].
      - intros Hc. apply N1. right; auto.
      - intros ->. apply N1. left; auto. }
    rewrite Z0. ring.
  - rewrite (H a Ne), (IH e f x); [ring| |auto|auto]. destruct Hin; [congruence|auto].
Qed.
Lemma rsum_single : forall es (e : list nat) f, In e es -> NoDup es -> (forall e', e' <> e -> f e' = 0) -> rsum (map (fun e => Rabs (f e)) es) = Rabs (f e).
Proof.
  induction es as [|a es IH]; intros e f Hin ND H; [destruct Hin|]. cbn [map rsum fold_right]. inversion ND as [|? ? N1 N2]; subst.
  fold (rsum (map (fun e => Rabs (f e)) es)).
  destruct (list_eq_dec Nat.eq_dec a e) as [->|Ne].
  - assert (Z0 : rsum (map (fun e => Rabs (f e)) es) = 0).
    { clear IH Hin ND N2. induction es as [|b es IH]; [reflexivity|]. cbn [map rsum fold_right]. fold (rsum (map (fun e => Rabs (f e)) es)).
      rewrite (H b), IH, Rabs_R0; [ring| |].
      - intros Hc. apply N1. right; auto.
      - intros ->. apply N1. left; auto. }
    rewrite Z0. ring.
  - rewrite (H a Ne), (IH e f), Rabs_R0; [ring| |auto|auto]. destruct Hin; [congruence|auto].
Qed.
Lemma table_moment : forall tol k q i j, table_rule tol k q -> (i + j <= k)%nat ->
  Rabs (quadrature q (monomial [i; j]) - moment kTria [i; j]) <= tol.
Proof.
  intros tol k q i j T H. set (c := fun e => if list_eq_dec Nat.eq_dec e [i; j] then 1 else 0). pose proof (tr_exact _ _ _ T c) as X.
  rewrite (tr_el _ _ _ T) in X.
  assert (I : In [i; j] (exponents kTria k)) by (apply (proj2 (proj1 (proj2 (in_exponents k i j)))); exact H).
  assert (C1 : c [i; j] = 1) by (unfold c; destruct list_eq_dec; congruence).
  assert (C0 : forall e', e' <> [i; j] -> c e' = 0) by (intros e' N; unfold c; destruct list_eq_dec; congruence).
  assert (E : forall x, poly (exponents kTria k) c x = monomial [i; j] x).
  { intros x. rewrite (poly_single _ [i; j] c x I (exponents_nodup kTria k) C0), C1. ring. }
  rewrite (rsum_single _ [i; j] c I (exponents_nodup kTria k) C0), C1, Rabs_R1, Rmult_1_r in X.
  rewrite (quadrature_ext q _ (monomial [i; j])) in X by (intros; apply E).
  assert (E2 : integral kTria (poly (exponents kTria k) c) = integral kTria (monomial [i; j])).
  { cbn [integral]. apply RInt_e. intros y. apply RInt_e. intros x. apply E. }
  rewrite E2, integral_monomial in X by reflexivity. exact X.
Qed.
Lemma quadrature_one : forall w (p : list (list R)), length w = length p -> dot w (map (fun _ => 1) p) = rsum w.
Proof. induction w as [|a w IH]; intros [|b p] H; try discriminate H; [reflexivity|]. cbn [map].
  change (a * 1 + dot w (map (fun _ => 1) p) = a + rsum w). rewrite IH by (cbn in H; lia). ring. Qed.
Lemma table_sum : forall tol k q, table_rule tol k q -> Rabs (rsum (qr_weights q) - 1 / 2) <= tol.
Proof.
  intros tol k q T. pose proof (table_moment tol k q 0 0 T ltac:(lia)) as X.
  assert (Mo : moment kTria [0; 0]%nat = 1 / 2) by (cbn; field). rewrite Mo in X.
  assert (E : quadrature q (monomial [0; 0]%nat) = rsum (qr_weights q)).
  { rewrite <- (quadrature_one (qr_weights q) (qr_points q)) by apply T. unfold quadrature. f_equal. apply map_ext_in. intros p Hp.
    pose proof (proj2 (tr_inside _ _ _ T) p Hp) as I. rewrite (tr_el _ _ _ T) in I. destruct p as [|x [|y [|]]]; try destruct I.
    rewrite mono2. cbn. ring. }
  rewrite E in X. exact X.
Qed.
Lemma table_moment_20 : forall tol q k, table_rule tol k q -> (2 <= k)%nat -> Rabs (quadrature q (monomial [2; 0]%nat) - 1 / 12) <= tol.
Proof.
  intros tol q k T H. pose proof (table_moment tol k q 2 0 T ltac:(lia)) as X.
  assert (Mo : moment kTria [2; 0]%nat = 1 / 12) by (cbn; field). rewrite Mo in X. exact X.
Qed.
