(** Proofs for C61. *)
From Coq Require Import ZArith Bool Lia.
From Verif Require Import Base NarrowModel NarrowSpec.
Local Open Scope Z_scope.

Lemma half : forall w, 1 <= w -> 2 ^ w = 2 * 2 ^ (w - 1) /\ 0 < 2 ^ (w - 1).
Proof.
  intros w W. split; [|apply Z.pow_pos_nonneg; lia].
  replace w with (Z.succ (w - 1)) at 1 by lia. apply Z.pow_succ_r. lia.
Qed.
Lemma cast_value : forall t v, itype_ok t -> value_of t (static_cast t v).
Proof.
  intros [|[|] w] v W; cbn in *.
  - destruct (Z.eqb_spec v 0); auto.
  - destruct (half w W) as [E P]. pose proof (Z.mod_pos_bound (v + 2 ^ (w - 1)) (2 ^ w)). lia.
  - destruct (half w W) as [E P]. pose proof (Z.mod_pos_bound v (2 ^ w)). lia.
Qed.
Lemma cast_id : forall t v, itype_ok t -> value_of t v -> static_cast t v = v.
Proof.
  intros [|[|] w] v W V; cbn in *.
  - destruct (Z.eqb_spec v 0); lia.
  - destruct (half w W) as [E P]. rewrite Z.mod_small; lia.
  - apply Z.mod_small. lia.
Qed.
Lemma mono : forall a b, 1 <= a -> a <= b -> 2 ^ (a - 1) <= 2 ^ (b - 1).
Proof. intros. apply Z.pow_le_mono_r; lia. Qed.
Lemma narrow_lemma : forall TO FROM v, itype_ok TO -> itype_ok FROM -> value_of FROM v ->
  (value_of TO v -> narrow TO FROM v = Ok v) /\ (~ value_of TO v -> narrow TO FROM v = Assert).
Proof.
  intros TO FROM v WT WF V. split; intros N.
  - unfold narrow. rewrite (cast_id TO v WT N), (cast_id FROM v WF V), Z.eqb_refl, eqb_reflx, orb_true_r. reflexivity.
  - unfold narrow. pose proof (cast_value TO v WT) as VT. remember (static_cast TO v) as to eqn:Eto.
    destruct (andb _ _) eqn:E; [|reflexivity]. exfalso. apply N.
    apply andb_true_iff in E. destruct E as [E1 E2]. apply Z.eqb_eq in E1.
    assert (K : value_of FROM to -> value_of TO v).
    { intros K. rewrite (cast_id FROM to WF K) in E1. rewrite <- E1. exact VT. }
    destruct TO as [|s1 w1], FROM as [|s2 w2]; try (apply K; cbn in *; assumption).
    + apply K. cbn in VT, WF. destruct (half w2 WF) as [E P]. cbn. destruct s2; [|lia].
      destruct (Z.eq_dec to 0); [lia|]. assert (to = 1) by lia.
      destruct (Z.eq_dec w2 1) as [->|]; [|pose proof (Z.pow_le_mono_r 2 1 (w2 - 1)); lia].
      cbn in V. exfalso. destruct (Z.ltb_spec to 0), (Z.ltb_spec v 0); cbn in E2; try discriminate; try lia.
      subst to. assert (v = 0) by lia. subst v. cbn in *. discriminate.
    + cbn in *. destruct (half w1 WT) as [P1 P2]. destruct s1; [|lia].
      destruct (Z.eq_dec w1 1) as [->|]; [|pose proof (Z.pow_le_mono_r 2 1 (w1 - 1)); lia].
      cbn in *. destruct V as [-> | ->]; [lia|]. subst to. cbn in *. discriminate.
    + cbn in WT, WF. destruct (half w1 WT) as [P1 P2], (half w2 WF) as [Q1 Q2].
      destruct (Z.le_gt_cases w1 w2) as [L|L].
      * pose proof (mono w1 w2 WT L). pose proof (mono (w1 + 1) w2) as Q. replace (w1 + 1 - 1) with w1 in * by lia.
        destruct (Z.eq_dec w1 w2) as [->|].
        { destruct s1, s2; cbn in *; try (apply K; lia); destruct (Z.ltb_spec to 0), (Z.ltb_spec v 0); cbn in *; try discriminate; lia. }
        destruct s1, s2; cbn in *; try (apply K; lia); destruct (Z.ltb_spec to 0), (Z.ltb_spec v 0); cbn in *; try discriminate; try lia; apply K; lia.
      * pose proof (mono (w2 + 1) w1). replace (w2 + 1 - 1) with w2 in * by lia. destruct s1, s2; cbn in *; try lia.
Qed.
