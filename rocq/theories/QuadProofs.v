(** Exactness of quadrature rules. *)
From Coq Require Import Reals List Arith Lia Lra Bool.
From Coquelicot Require Import Coquelicot.
Import ListNotations.
From Verif Require Import Base MeshModel MeshView DofModel RefPatModel GeoModel GeoSpec
  FeModel LagrModel QuadModel HierModel FeSpec QuadSpec Calc LagrProofs2 FeProofs LegendreProofs JacobiProofs OrthoProofs
  HierProofs HierProofs2 PolyProofs HierProofs3 QuadRuleModel.
Local Open Scope R_scope.

(** *** Polynomials as sums *)
Lemma poly_cons : forall e es c x, poly (e :: es) c x = c e * monomial e x + poly es c x. Proof. reflexivity. Qed.
Lemma quadrature_poly : forall q es c, quadrature q (poly es c) = rsum (map (fun e => c e * quadrature q (monomial e)) es).
Proof.
  intros q es c. induction es as [|e es IH]; cbn [map rsum fold_right].
  - transitivity (quadrature q (fun _ => 0)); [reflexivity|apply quadrature_zero].
  - rewrite (quadrature_ext q _ (fun x => c e * monomial e x + poly es c x)) by reflexivity.
    rewrite (quadrature_plus q (fun x => c e * monomial e x)), quadrature_scal, IH. reflexivity.
Qed.
Lemma mono1 : forall a x, monomial [a] [x] = x ^ a. Proof. intros. unfold monomial. cbn. ring. Qed.
Lemma mono2 : forall a b x y, monomial [a; b] [x; y] = x ^ a * y ^ b. Proof. intros. unfold monomial. cbn. ring. Qed.
Lemma RInt_zero : forall a b, RInt (fun _ => 0) a b = 0.
Proof. intros. rewrite (RInt_e _ (fun _ => 0 * 0)) by (intros; ring). rewrite (RInt_c (fun _ => 0)); [to_R; ring|apply smooth_const]. Qed.
Lemma smooth_poly1 : forall es c, (forall e, In e es -> length e = 1%nat) -> smooth (fun x => poly es c [x]).
Proof.
  intros es c. induction es as [|e es IH]; intros H.
  - apply (smooth_const 0).
  - pose proof (H e (or_introl eq_refl)) as He. destruct e as [|a [|]]; try discriminate He.
    apply (smooth_ext (fun x => c [a] * x ^ a + poly es c [x])).
    + intros x. rewrite poly_cons, mono1. reflexivity.
    + apply smooth_plus; [smooth_tac|]. apply IH. intros; apply H; right; auto.
Qed.
Definition anydeg (a b : nat) : Prop := True.
Lemma mono_poly2 : forall es c, (forall e, In e es -> length e = 2%nat) -> mono anydeg (fun x y => poly es c [x; y]).
Proof.
  intros es c. induction es as [|e es IH]; intros H.
  - apply mono_zero.
  - pose proof (H e (or_introl eq_refl)) as He. destruct e as [|a [|b [|]]]; try discriminate He.
    eapply mono_eq; [|apply (mono_term anydeg a b (c [a; b]) _ I (IH (fun e He => H e (or_intror He))))].
    intros x y. cbv beta. rewrite poly_cons, mono2. ring.
Qed.
Lemma integral_poly : forall t es c, t <> kPoint -> (forall e, In e es -> length e = dimension t) ->
  integral t (poly es c) = rsum (map (fun e => c e * integral t (monomial e)) es).
Proof.
  intros t es c Ht H. induction es as [|e es IH]; cbn [map rsum fold_right].
  - destruct t; [congruence| | |]; cbn [integral].
    + apply RInt_zero.
    + rewrite (RInt_e _ (fun _ => 0)); [apply RInt_zero|]. intros. apply RInt_zero.
    + rewrite (RInt_e _ (fun _ => 0)); [apply RInt_zero|]. intros. apply RInt_zero.
  - pose proof (H e (or_introl eq_refl)) as He. assert (H' : forall e, In e es -> length e = dimension t) by (intros; apply H; right; auto).
    specialize (IH H'). fold (rsum (map (fun e => c e * integral t (monomial e)) es)). rewrite <- IH. clear IH.
    assert (Two : dimension t = 2%nat -> t = kTria \/ t = kQuad -> integral t (poly (e :: es) c) =
               c e * integral t (monomial e) + integral t (poly es c)).
    { intros Dt Ht'. rewrite Dt in *. destruct e as [|a [|b [|]]]; try discriminate He.
      pose proof (mono_poly2 es c H') as M. pose proof (mono_poly2 [[a; b]] (fun _ => 1)) as M1.
      assert (M2 : mono anydeg (fun x y => monomial [a; b] [x; y])).
      { eapply mono_eq; [|apply M1]. - intros; unfold poly; cbn [map rsum fold_right]; ring. - intros e' [<-|[]]; reflexivity. }
      assert (E : integral t (poly ([a; b] :: es) c) =
        RInt (fun y => RInt (fun x => c [a; b] * monomial [a; b] [x; y] + poly es c [x; y]) 0 (outer t y)) 0 1) by (destruct Ht' as [-> | ->]; reflexivity).
      rewrite E.
      rewrite (integral2_plus anydeg (fun x y => c [a; b] * monomial [a; b] [x; y]) (fun x y => poly es c [x; y])
                 _ (mono_scale _ _ _ M2) M (smooth_outer t)).
      rewrite (integral2_scal anydeg (fun x y => monomial [a; b] [x; y]) _ _ M2 (smooth_outer t)).
      destruct Ht' as [-> | ->]; reflexivity. }
    destruct t; [congruence| |apply Two; auto|apply Two; auto]. cbn [integral].
    cbn [dimension] in *. destruct e as [|a [|]]; try discriminate He.
    rewrite (RInt_e _ (fun x => c [a] * monomial [a] [x] + poly es c [x])) by reflexivity.
    assert (S1 : smooth (fun x => monomial [a] [x])) by (apply (smooth_ext (fun x => x ^ a)); [intros; symmetry; apply mono1|smooth_tac]).
    rewrite RInt_p; [|smooth_tac|apply smooth_poly1, H'].
    rewrite (RInt_c (fun x => monomial [a] [x])) by exact S1. reflexivity.
Qed.
Lemma exponents_len : forall t k e, In e (exponents t k) -> length e = dimension t.
Proof.
  intros t k e H. destruct t; cbn [exponents dimension] in *.
  - destruct H as [<-|[]]. reflexivity.
  - apply in_map_iff in H. destruct H as (a & <- & _). reflexivity.
  - apply in_map_iff in H. destruct H as (a & <- & _). reflexivity.
  - apply in_map_iff in H. destruct H as (a & <- & _). reflexivity.
Qed.
Lemma exact_moments : forall q k, (forall e, In e (exponents (qr_el q) k) -> quadrature q (monomial e) = integral (qr_el q) (monomial e)) ->
  exact_to q k.
Proof.
  intros q k H c. destruct (qr_el q) eqn:E.
  - specialize (H [] (or_introl eq_refl)). cbn [exponents]. rewrite quadrature_poly. cbn [map]. rewrite H. reflexivity.
  - rewrite quadrature_poly, integral_poly; [|congruence|apply exponents_len]. f_equal. apply map_ext_in. intros e He. rewrite H; auto.
  - rewrite quadrature_poly, integral_poly; [|congruence|apply exponents_len]. f_equal. apply map_ext_in. intros e He. rewrite H; auto.
  - rewrite quadrature_poly, integral_poly; [|congruence|apply exponents_len]. f_equal. apply map_ext_in. intros e He. rewrite H; auto.
Qed.

(** *** Moments *)
Lemma INR_S : forall n, INR (S n) = INR n + 1. Proof. intros. apply S_INR. Qed.
Lemma fact_S : forall n, INR (fact (S n)) = (INR n + 1) * INR (fact n).
Proof. intros. change (fact (S n)) with (S n * fact n)%nat. rewrite mult_INR, S_INR. reflexivity. Qed.
Lemma int_beta : forall a b, RInt (fun y => (1 - y) ^ a * y ^ b) 0 1 = INR (fact a) * INR (fact b) / INR (fact (a + b + 1)).
Proof.
  induction a as [|a IH]; intros b.
  - rewrite (RInt_e _ (fun y => y ^ b)) by (intros; cbn [pow]; ring). rewrite int_pow, pow1. to_R.
    replace (0 + b + 1)%nat with (S b) by lia. rewrite fact_S. cbn [fact INR].
    pose proof (INR_pos b). pose proof (INR_fact_neq_0 b). field. split; auto; lra.
  - pose proof (INR_pos b) as Pb.
    rewrite (RInt_e _ (fun y => y ^ b * (1 - y) ^ S a)) by (intros; ring).
    rewrite (parts (fun y => y ^ S b * / (INR b + 1)) _ _ (fun y => - (INR a + 1) * (1 - y) ^ a)).
    + rewrite (pow_i (S b)) by lia. replace (1 - 1) with 0 by ring. rewrite (pow_i (S a)) by lia.
      rewrite (RInt_e _ (fun y => - ((INR a + 1) * / (INR b + 1)) * ((1 - y) ^ a * y ^ S b))) by (intros; ring).
      rewrite RInt_c by smooth_tac. rewrite IH. to_R. replace (a + S b + 1)%nat with (S a + b + 1)%nat by lia.
      rewrite !fact_S.
      pose proof (INR_fact_neq_0 (S a + b + 1)). pose proof (INR_fact_neq_0 (a + b + 1)). field. split; auto; lra.
    + intros x. eapply qd_eq; [eapply (qd_ext (fun s _ => / (INR b + 1) * s ^ S b)); [intros; ring|apply qd_scale, pow_qd]| |]; [field; lra|ring].
    + intros x. eapply qd_eq; [apply (qd_comp (fun s _ => s ^ S a) (fun s _ => 1 - s) (fun _ _ => 0) x 0);
        [apply pow_qd|qd_auto; reflexivity|apply qd_const]| |]; cbv beta; ring.
    + smooth_tac.
    + smooth_tac.
Qed.
Definition moment (t : refel) (e : list nat) : R :=
  match t, e with
  | kSegment, [a] => 1 / (INR a + 1)
  | kTria, [a; b] => INR (fact a) * INR (fact b) / INR (fact (a + b + 2))
  | kQuad, [a; b] => 1 / ((INR a + 1) * (INR b + 1))
  | _, _ => 1
  end.
Lemma integral_monomial : forall t e, length e = dimension t -> integral t (monomial e) = moment t e.
Proof.
  intros t e H. destruct t; cbn [dimension] in H.
  - destruct e; [reflexivity|discriminate H].
  - destruct e as [|a [|]]; try discriminate H. cbn [integral moment]. rewrite (RInt_e _ (fun x => x ^ a)) by (intros; apply mono1).
    rewrite int_pow, pow1. reflexivity.
  - destruct e as [|a [|b [|]]]; try discriminate H. cbn [integral moment]. pose proof (INR_pos a) as Pa.
    rewrite (RInt_e _ (fun y => / (INR a + 1) * ((1 - y) ^ S a * y ^ b))).
    + rewrite RInt_c by smooth_tac. rewrite int_beta. to_R. replace (S a + b + 1)%nat with (a + b + 2)%nat by lia.
      rewrite fact_S. pose proof (INR_fact_neq_0 (a + b + 2)). field. split; [auto|lra].
    + intros y. rewrite (RInt_e _ (fun x => y ^ b * x ^ a)) by (intros; rewrite mono2; ring).
      rewrite RInt_c, int_pow by smooth_tac. to_R. field. lra.
  - destruct e as [|a [|b [|]]]; try discriminate H. cbn [integral moment]. pose proof (INR_pos a) as Pa. pose proof (INR_pos b) as Pb.
    rewrite (RInt_e _ (fun y => / (INR a + 1) * y ^ b)).
    + rewrite RInt_c by smooth_tac. rewrite int_pow, pow1. to_R. field. lra.
    + intros y. rewrite (RInt_e _ (fun x => y ^ b * x ^ a)) by (intros; rewrite mono2; ring).
      rewrite RInt_c, int_pow, pow1 by smooth_tac. to_R. field. lra.
Qed.
Lemma exact_by_moments : forall q t k, qr_el q = t ->
  (forall e, In e (exponents t k) -> quadrature q (monomial e) = moment t e) -> exact_to q k.
Proof.
  intros q t k E H. apply exact_moments. intros e He. rewrite E in *. rewrite (H e He). symmetry.
  apply integral_monomial. eapply exponents_len, He.
Qed.

(** *** Elementary rules *)
Lemma rule_by_moments : forall t pts w k, forallb (fun p => length p =? dimension t)%nat pts = true ->
  (length w =? length pts)%nat = true ->
  (forall e, In e (exponents t k) -> dot w (map (monomial e) pts) = moment t e) -> rule_ok (QuadRule t pts w k) t k.
Proof.
  intros t pts w k Hp Hw H. unfold QuadRule. rewrite Hp, Hw. cbn [lf_assert bind]. eexists. split; [reflexivity|]. split; [reflexivity|].
  constructor; cbn [qr_el qr_points qr_weights].
  - reflexivity.
  - intros p Ip. rewrite forallb_forall in Hp. apply Nat.eqb_eq, Hp, Ip.
  - apply Nat.eqb_eq, Hw.
  - apply (exact_by_moments _ t); [reflexivity|exact H].
Qed.
Ltac moments := apply rule_by_moments; [reflexivity|reflexivity|];
  let e := fresh "e" in let H := fresh "H" in intros e H; cbn in H;
  repeat (destruct H as [<-|H]; [unfold monomial; cbn; field|]); destruct H.
Lemma midpoint_ok : rule_ok make_TriaQR_MidpointRule kTria 1. Proof. moments. Qed.
Lemma edge_midpoint_ok : rule_ok make_TriaQR_EdgeMidpointRule kTria 2. Proof. moments. Qed.
Lemma quad_edge_midpoint_ok : rule_ok make_QuadQR_EdgeMidpointRule kQuad 1. Proof. moments. Qed.
Lemma p6o4_ok : rule_ok make_TriaQR_P6O4 kTria 3. Proof. moments. Qed.
Lemma nodal_ok : forall t, rule_ok (make_QuadRuleNodal t) t 1. Proof. destruct t; moments. Qed.

Lemma not_exact : forall q k e, In e (exponents (qr_el q) (k + 1)) -> quadrature q (monomial e) <> moment (qr_el q) e -> ~ exact_to q (k + 1).
Proof.
  intros q k e He N X. apply N. rewrite (exact_monomial q (k + 1) e X He). apply integral_monomial. eapply exponents_len, He.
Qed.
Lemma make_max : forall r t k e, rule_ok r t k -> In e (exponents t (k + 1)) ->
  (forall q, r = Ok q -> quadrature q (monomial e) <> moment t e) -> rule_max r t k.
Proof.
  intros r t k e (q & E & D & Rq) He N. exists q. split; [exact E|]. split; [exact D|]. split; [exact Rq|]. split; [apply Rq|].
  pose proof (rf_el _ _ _ Rq) as El. apply (not_exact q k e); rewrite El; auto.
Qed.
Ltac max_by e := apply (make_max _ _ _ e); [|cbn; tauto|
  let q := fresh "q" in let E := fresh "E" in intros q E; injection E as <-; unfold quadrature, monomial; cbn;
  let N := fresh "N" in intros N; match type of N with ?a = ?b => assert (a - b = 0) by (rewrite N; ring) end; lra].
Lemma midpoint_max : rule_max make_TriaQR_MidpointRule kTria 1. Proof. max_by [2; 0]%nat. apply midpoint_ok. Qed.
Lemma edge_midpoint_max : rule_max make_TriaQR_EdgeMidpointRule kTria 2. Proof. max_by [3; 0]%nat. apply edge_midpoint_ok. Qed.
Lemma quad_edge_midpoint_max : rule_max make_QuadQR_EdgeMidpointRule kQuad 1. Proof. max_by [2; 0]%nat. apply quad_edge_midpoint_ok. Qed.
Lemma p6o4_max : rule_max make_TriaQR_P6O4 kTria 3. Proof. max_by [4; 0]%nat. apply p6o4_ok. Qed.
Lemma nodal_max : forall t, t <> kPoint -> rule_max (make_QuadRuleNodal t) t 1.
Proof. destruct t; intros H; [congruence| | |]; [max_by [2]%nat|max_by [2; 0]%nat|max_by [2; 0]%nat]; apply nodal_ok. Qed.
