(** Correctness of the test for tabulated rules. *)
From Coq Require Import Reals List Arith ZArith Lia Lra Bool Uint63.
From Coquelicot Require Import Coquelicot.
Import ListNotations.
From Verif Require Import Base MeshModel MeshView DofModel RefPatModel GeoModel GeoSpec
  FeModel LagrModel QuadModel HierModel FeSpec QuadSpec GaussSpec QuadRuleModel Calc LagrProofs2 FeProofs HierProofs3 PolyProofs QuadProofs TriaTab TriaSpec TriaCheck TriaChk.
Local Open Scope R_scope.

Definition RM : R := IZR M.
Lemma RM_pos : 0 < RM. Proof. unfold RM, M. apply IZR_lt. reflexivity. Qed.
Lemma dec_pos : 0 < IZR dec. Proof. unfold dec. apply IZR_lt. reflexivity. Qed.

(** [U] is a lower approximation of [u], scaled by [M], with error at most [e]. *)
Definition approx (u : R) (U : int) (e : R) : Prop := 0 <= u <= 1 /\ IZR (to_Z U) <= u * RM <= IZR (to_Z U) + e.
Lemma div_bounds : forall n d, (0 < d)%Z -> IZR (n / d) <= IZR n / IZR d <= IZR (n / d) + 1.
Proof.
  intros n d H. pose proof (Z_div_mod_eq_full n d) as E. pose proof (Z.mod_pos_bound n d H) as B.
  assert (P : 0 < IZR d) by (apply IZR_lt; auto).
  assert (E' : IZR n = IZR d * IZR (n / d) + IZR (n mod d)) by (rewrite <- mult_IZR, <- plus_IZR; f_equal; exact E).
  assert (B1 : 0 <= IZR (n mod d)) by (apply IZR_le; lia). assert (B2 : IZR (n mod d) <= IZR d) by (apply IZR_le; lia).
  assert (Q : IZR n / IZR d = IZR (n / d) + IZR (n mod d) / IZR d) by (rewrite E'; field; lra).
  rewrite Q. assert (0 <= IZR (n mod d) / IZR d) by (apply Rmult_le_pos; [lra|apply Rlt_le, Rinv_0_lt_compat; lra]).
  assert (IZR (n mod d) / IZR d <= 1) by (apply Rmult_le_reg_r with (IZR d); [lra|]; unfold Rdiv; rewrite Rmult_assoc, Rinv_l by lra; lra).
  lra.
Qed.
Lemma wB_M : wB = M. Proof. reflexivity. Qed.
Lemma to_Z_range : forall x, (0 <= to_Z x < M)%Z. Proof. intros x. rewrite <- wB_M. apply to_Z_bounded. Qed.
(** [z / dec], times [2 ^ sh], below 1 *)
Definition scale (sh : nat) : R := IZR (2 ^ Z.of_nat sh).
Lemma scale_pos : forall sh, 0 < scale sh. Proof. intros. apply IZR_lt. apply Z.pow_pos_nonneg; lia. Qed.
Lemma approx_conv : forall sh z, (sh < 60)%nat -> (0 <= z)%Z -> (Z.shiftl z (Z.of_nat sh) < dec)%Z ->
  approx (scale sh * tab_real z) (conv sh z) 2.
Proof.
  intros sh z Hs H0 H1. rewrite Z.shiftl_mul_pow2 in H1 by lia. set (p := (2 ^ Z.of_nat sh)%Z) in *.
  assert (Pp : (0 < p)%Z) by (apply Z.pow_pos_nonneg; lia).
  pose proof dec_pos as D. assert (Dz : (0 < dec)%Z) by reflexivity.
  set (d := (2 ^ (84 - Z.of_nat sh))%Z). assert (Pd : (0 < d)%Z) by (apply Z.pow_pos_nonneg; lia).
  assert (Edp : (d * p = 2 ^ 84)%Z) by (unfold d, p; rewrite <- Z.pow_add_r by lia; f_equal; lia).
  assert (Z1 : Z.shiftr (cst * z) (84 - Z.of_nat sh) = (cst * z / d)%Z) by (rewrite Z.shiftr_div_pow2 by lia; reflexivity).
  (* cst * dec <= 2^147 < cst * dec + dec *)
  assert (C1 : (cst * dec <= 2 ^ 84 * M)%Z) by (vm_compute; discriminate).
  assert (C2 : (2 ^ 84 * M <= cst * dec + dec)%Z) by (vm_compute; discriminate).
  assert (C3 : (dec <= 2 ^ 84)%Z) by (vm_compute; discriminate).
  set (q := (cst * z / d)%Z) in *.
  assert (Q1 : (q * d <= cst * z)%Z) by (unfold q; rewrite Z.mul_comm; apply Z.mul_div_le; lia).
  assert (Q2 : (cst * z < q * d + d)%Z).
  { unfold q. pose proof (Z_div_mod_eq_full (cst * z) d). pose proof (Z.mod_pos_bound (cst * z) d Pd). lia. }
  assert (Q0 : (0 <= q)%Z) by (apply Z.div_pos; [apply Z.mul_nonneg_nonneg; [vm_compute; discriminate|lia]|lia]).
  (* q * dec <= z * p * M < (q + 2) * dec *)
  assert (B1 : (q * dec <= z * p * M)%Z).
  { apply Z.mul_le_mono_pos_r with d; [lia|]. apply Z.le_trans with (cst * z * dec)%Z.
    - replace (q * dec * d)%Z with (q * d * dec)%Z by ring. apply Z.mul_le_mono_nonneg_r; lia.
    - replace (z * p * M * d)%Z with (z * (d * p * M))%Z by ring. rewrite Edp.
      replace (cst * z * dec)%Z with (z * (cst * dec))%Z by ring. apply Z.mul_le_mono_nonneg_l; lia. }
  assert (B2 : (z * p * M <= (q + 2) * dec)%Z).
  { apply Z.mul_le_mono_pos_r with d; [lia|]. replace (z * p * M * d)%Z with (z * (d * p * M))%Z by ring. rewrite Edp.
    apply Z.le_trans with (z * (cst * dec + dec))%Z; [apply Z.mul_le_mono_nonneg_l; lia|].
    replace ((q + 2) * dec * d)%Z with ((q * d + d) * dec + d * dec)%Z by ring.
    replace (z * (cst * dec + dec))%Z with (cst * z * dec + z * dec)%Z by ring.
    apply Z.add_le_mono; [apply Z.mul_le_mono_nonneg_r; lia|]. apply Z.mul_le_mono_nonneg_r; [lia|].
    apply Z.mul_le_mono_pos_r with p; [lia|]. lia. }
  assert (B3 : (q < M)%Z).
  { apply Z.mul_lt_mono_pos_r with dec; [lia|]. apply Z.le_lt_trans with (z * p * M)%Z; [exact B1|].
    rewrite (Z.mul_comm M). apply Z.mul_lt_mono_pos_r; [reflexivity|lia]. }
  assert (TC : to_Z (conv sh z) = q).
  { unfold conv. rewrite Z1. rewrite of_Z_spec, wB_M. apply Z.mod_small. lia. }
  unfold approx. rewrite TC. apply IZR_le in B1, B2. rewrite ?mult_IZR, ?plus_IZR in B1, B2. change (IZR M) with RM in *.
  apply IZR_lt in H1. rewrite mult_IZR in H1. apply IZR_le in H0. set (dd := IZR dec) in *. apply IZR_lt in Pp. unfold scale, tab_real. fold p. fold dd.
  assert (Z0 : 0 <= IZR p * IZR z) by (apply Rmult_le_pos; lra).
  split; [split|split].
  - unfold Rdiv. rewrite <- Rmult_assoc. apply Rmult_le_pos; [exact Z0|apply Rlt_le, Rinv_0_lt_compat; lra].
  - apply Rmult_le_reg_r with (dd); [lra|]. replace (IZR p * (IZR z / dd) * dd) with (IZR z * IZR p) by (field; lra). lra.
  - apply Rmult_le_reg_r with (dd); [lra|]. replace (IZR p * (IZR z / dd) * RM * dd) with (IZR z * IZR p * RM) by (field; lra). lra.
  - apply Rmult_le_reg_r with (dd); [lra|]. replace (IZR p * (IZR z / dd) * RM * dd) with (IZR z * IZR p * RM) by (field; lra). rewrite plus_IZR in B2. lra.
Qed.
Lemma mulsh_div : forall u v, to_Z (mulsh u v) = (to_Z u * to_Z v / M)%Z.
Proof.
  intros u v. unfold mulsh. pose proof (mulc_spec u v) as H. rewrite wB_M in H. pose proof (to_Z_range (snd (mulc u v))) as B.
  apply (Z.div_unique _ _ _ (to_Z (snd (mulc u v)))); [left; exact B|]. rewrite H. ring.
Qed.
Lemma approx_mul : forall u U e v V f, approx u U e -> approx v V f -> approx (u * v) (mulsh U V) (e + f + 1).
Proof.
  intros u U e v V f ((U0 & U1) & U2 & U3) ((V0 & V1) & V2 & V3). pose proof RM_pos as MP.
  pose proof (to_Z_range U) as UP. pose proof (to_Z_range V) as VP.
  unfold approx. rewrite mulsh_div. set (A := to_Z U) in *. set (B := to_Z V) in *.
  assert (UP' : 0 <= IZR A) by (apply IZR_le; lia). assert (VP' : 0 <= IZR B) by (apply IZR_le; lia).
  split.
  - split; [apply Rmult_le_pos; auto|]. replace 1 with (1 * 1) by ring. apply Rmult_le_compat; auto.
  - pose proof (div_bounds (A * B) M ltac:(unfold M; lia)) as (B1 & B2). rewrite mult_IZR in B1, B2.
    change (IZR M) with RM in *.
    assert (L : IZR A * IZR B / RM <= u * v * RM).
    { apply Rmult_le_reg_r with RM; auto. unfold Rdiv. rewrite Rmult_assoc, Rinv_l by lra.
      replace (u * v * RM * RM) with ((u * RM) * (v * RM)) by ring. rewrite Rmult_1_r. apply Rmult_le_compat; auto. }
    assert (G : u * v * RM <= IZR A * IZR B / RM + e + f).
    { assert (A1 : u * v * RM = (u * RM - IZR A) * v + IZR A / RM * (v * RM - IZR B) + IZR A * IZR B / RM) by (field; lra).
      rewrite A1.
      assert (A2 : (u * RM - IZR A) * v <= e).
      { apply Rle_trans with ((u * RM - IZR A) * 1); [|lra]. apply Rmult_le_compat_l; lra. }
      assert (A3 : IZR A / RM <= 1).
      { apply Rmult_le_reg_r with RM; auto. unfold Rdiv. rewrite Rmult_assoc, Rinv_l by lra.
        apply Rle_trans with (u * RM); [lra|]. apply Rmult_le_compat_r; lra. }
      assert (A4 : IZR A / RM * (v * RM - IZR B) <= f).
      { apply Rle_trans with (1 * (v * RM - IZR B)); [|lra]. apply Rmult_le_compat_r; lra. }
      lra. }
    lra.
Qed.

(** *** Lists *)
Inductive approxs (e : R) : list R -> list int -> Prop :=
| approxs_nil : approxs e [] []
| approxs_cons : forall u us U Us, approx u U e -> approxs e us Us -> approxs e (u :: us) (U :: Us).
Fixpoint mulR (us vs : list R) : list R := match us, vs with u :: us, v :: vs => u * v :: mulR us vs | _, _ => [] end.
Lemma approxs_mul : forall e f us Us vs Vs, approxs e us Us -> approxs f vs Vs -> length us = length vs ->
  approxs (e + f + 1) (mulR us vs) (mul2 Us Vs).
Proof.
  intros e f us Us vs Vs A. revert vs Vs. induction A as [|u us U Us H A IH]; intros vs Vs B L.
  - constructor.
  - destruct B as [|v vs V Vs H' B]; [discriminate L|]. cbn [mulR mul2]. constructor; [apply approx_mul; auto|].
    apply IH; auto.
Qed.
Lemma mulR_length : forall us vs, length us = length vs -> length (mulR us vs) = length us.
Proof. induction us; intros [|]; cbn; intros; try discriminate; auto. Qed.
Lemma mulR_le : forall us vs, (forall u, In u us -> 0 <= u <= 1) -> (forall v, In v vs -> 0 <= v <= 1) -> rsum (mulR us vs) <= rsum us.
Proof.
  assert (P : forall us, (forall u, In u us -> 0 <= u <= 1) -> 0 <= rsum us).
  { induction us as [|u us IH]; intros H; cbn [rsum fold_right]; [lra|]. pose proof (H u (or_introl eq_refl)).
    specialize (IH (fun x Hx => H x (or_intror Hx))). unfold rsum in IH. lra. }
  induction us as [|u us IH]; intros [|v vs] H H'; cbn [mulR]; try lra.
  - cbn [rsum fold_right]. apply (P (u :: us) H).
  - change (rsum (?x :: ?y)) with (x + rsum y). apply Rplus_le_compat.
    + pose proof (H u (or_introl eq_refl)). pose proof (H' v (or_introl eq_refl)).
      replace u with (u * 1) at 2 by ring. apply Rmult_le_compat_l; lra.
    + apply IH; intros; [apply H|apply H']; right; auto.
Qed.
Lemma approxs_range : forall e us Us, approxs e us Us -> forall u, In u us -> 0 <= u <= 1.
Proof. intros e us Us A. induction A as [|u us U Us (H & _) A IH]; intros x Hx; [destruct Hx|]. destruct Hx as [<-|Hx]; auto. Qed.
(** The sum of the approximations as an integer *)
Fixpoint isum (l : list int) : Z := match l with [] => 0 | u :: l => to_Z u + isum l end%Z.
Lemma isum_pos : forall l, (0 <= isum l)%Z.
Proof. induction l as [|u l IH]; cbn [isum]; [lia|]. pose proof (to_Z_range u). lia. Qed.
Lemma approxs_sum : forall e us Us, approxs e us Us -> IZR (isum Us) <= rsum us * RM <= IZR (isum Us) + INR (length us) * e.
Proof.
  intros e us Us A. induction A as [|u us U Us (_ & H) A IH].
  - cbn. lra.
  - cbn [isum length]. rewrite S_INR, plus_IZR. change (rsum (u :: us)) with (u + rsum us). lra.
Qed.
Lemma add2_sum : forall l h a, (to_Z h * M + to_Z a + isum l < M * M)%Z ->
  (to_Z (fst (add2 l h a)) * M + to_Z (snd (add2 l h a)) = to_Z h * M + to_Z a + isum l)%Z.
Proof.
  induction l as [|u l IH]; intros h a H; cbn [add2 isum fst snd].
  - lia.
  - cbn [isum] in H. cbv zeta. pose proof (to_Z_range u) as Bu. pose proof (to_Z_range a) as Ba. pose proof (to_Z_range h) as Bh. pose proof (isum_pos l) as Bl.
    assert (E : to_Z (a + u)%uint63 = ((to_Z a + to_Z u) mod M)%Z) by (rewrite add_spec, wB_M; reflexivity).
    destruct (Z_lt_ge_dec (to_Z a + to_Z u) M) as [S1|S1].
    + rewrite (Z.mod_small (to_Z a + to_Z u)) in E by lia.
      assert (F : (a + u <? u)%uint63 = false).
      { destruct (a + u <? u)%uint63 eqn:F; [|reflexivity]. apply ltb_spec in F. lia. }
      rewrite F. rewrite IH by (rewrite E; lia). rewrite E. ring.
    + assert (E' : to_Z (a + u)%uint63 = (to_Z a + to_Z u - M)%Z).
      { rewrite E. symmetry. apply (Z.mod_unique _ _ 1); [left; lia|lia]. }
      assert (F : (a + u <? u)%uint63 = true) by (apply ltb_spec; lia). rewrite F.
      assert (Hh : (to_Z h + 1 < M)%Z).
      { apply Z.mul_lt_mono_pos_r with M; [reflexivity|]. lia. }
      assert (E1 : to_Z (h + 1)%uint63 = (to_Z h + 1)%Z).
      { rewrite add_spec, wB_M. change (to_Z 1) with 1%Z. apply Z.mod_small. lia. }
      rewrite IH by (rewrite E', E1; lia). rewrite E', E1. ring.
Qed.
Lemma ssum_div : forall sh l, (sh < 60)%nat -> (isum l < M * 2 ^ Z.of_nat sh)%Z ->
  to_Z (ssum sh l) = (isum l / 2 ^ Z.of_nat sh)%Z.
Proof.
  intros sh l Hs H. unfold ssum. cbv zeta.
  assert (Pp : (0 < 2 ^ Z.of_nat sh)%Z) by (apply Z.pow_pos_nonneg; lia).
  assert (LM : (2 ^ Z.of_nat sh <= 2 ^ 62)%Z) by (apply Z.pow_le_mono_r; lia).
  assert (E := add2_sum l 0%uint63 0%uint63). change (to_Z 0) with 0%Z in E.
  assert (HM : (0 * M + 0 + isum l < M * M)%Z).
  { apply Z.lt_le_trans with (M * 2 ^ Z.of_nat sh)%Z; [lia|]. apply Z.mul_le_mono_nonneg_l; [discriminate|]. eapply Z.le_trans; [exact LM|]. discriminate. }
  specialize (E HM). set (r := add2 l 0 0) in *. set (h := fst r) in *. set (a := snd r) in *.
  pose proof (to_Z_range h) as Bh. pose proof (to_Z_range a) as Ba.
  assert (S1 : to_Z (of_Z (Z.of_nat sh)) = Z.of_nat sh).
  { rewrite of_Z_spec. apply Z.mod_small. split; [lia|]. apply Z.lt_trans with 60%Z; [lia|reflexivity]. }
  assert (S2 : to_Z (63 - of_Z (Z.of_nat sh))%uint63 = (63 - Z.of_nat sh)%Z).
  { rewrite sub_spec, S1. change (to_Z 63) with 63%Z. apply Z.mod_small. split; [lia|]. apply Z.le_lt_trans with 63%Z; [lia|reflexivity]. }
  set (p := (2 ^ Z.of_nat sh)%Z) in *.
  assert (Eq : (2 ^ (63 - Z.of_nat sh) * p = M)%Z) by (unfold p; rewrite <- Z.pow_add_r by lia; replace (63 - Z.of_nat sh + Z.of_nat sh)%Z with 63%Z by lia; reflexivity).
  set (q := (2 ^ (63 - Z.of_nat sh))%Z) in *. assert (Pq : (0 < q)%Z) by (apply Z.pow_pos_nonneg; lia).
  assert (D : (isum l / p = to_Z h * q + to_Z a / p)%Z).
  { replace (isum l) with (to_Z a + to_Z h * q * p)%Z by (rewrite <- Z.mul_assoc, Eq; lia). rewrite Z.div_add by lia. ring. }
  assert (Bd : (isum l / p < M)%Z) by (apply Z.div_lt_upper_bound; lia).
  assert (Pa : (0 <= to_Z a / p)%Z) by (apply Z.div_pos; lia).
  assert (Hh : to_Z (h << (63 - of_Z (Z.of_nat sh)))%uint63 = (to_Z h * q)%Z).
  { rewrite lsl_spec, S2, wB_M. fold q. apply Z.mod_small. split; [apply Z.mul_nonneg_nonneg; lia|]. lia. }
  assert (Ha : to_Z (a >> of_Z (Z.of_nat sh))%uint63 = (to_Z a / p)%Z) by (rewrite lsr_spec, S1; reflexivity).
  rewrite add_spec, Hh, Ha, wB_M, D. apply Z.mod_small. split; [|lia].
  apply Z.add_nonneg_nonneg; [apply Z.mul_nonneg_nonneg; lia|exact Pa].
Qed.
Lemma zfact_fact : forall n, IZR (zfact n) = INR (fact n).
Proof.
  induction n; [reflexivity|]. change (zfact (S n)) with (Z.of_nat (S n) * zfact n)%Z. rewrite mult_IZR, IHn.
  change (fact (S n)) with (S n * fact n)%nat. rewrite mult_INR, <- INR_IZR_INZ. reflexivity.
Qed.
Lemma close_bound : forall s m, close s m = true -> Rabs (IZR (to_Z s) - IZR (to_Z m)) <= IZR (to_Z T).
Proof.
  intros s m H. rewrite <- minus_IZR, <- abs_IZR. apply IZR_le. unfold close in H.
  pose proof (to_Z_range s) as Bs. pose proof (to_Z_range m) as Bm.
  destruct (s <=? m)%uint63 eqn:E.
  - apply leb_spec in E, H. rewrite sub_spec, wB_M, Z.mod_small in H by lia. lia.
  - assert (E' : (to_Z m < to_Z s)%Z) by (destruct (Z_lt_ge_dec (to_Z m) (to_Z s)) as [L|L]; [exact L|]; exfalso; assert (X : (s <=? m)%uint63 = true) by (apply leb_spec; lia); congruence).
    apply leb_spec in H. rewrite sub_spec, wB_M, Z.mod_small in H by lia. lia.
Qed.
(** The table of moments *)
Definition good_row (a b : nat) (row : list int) : Prop :=
  forall j m, nth_error row j = Some m -> Rabs (IZR (to_Z m) - RM * moment kTria [a; b + j]%nat) <= 1.
Lemma row_ok_good : forall row a b num den, row_ok a b num den row = true ->
  IZR num = RM * INR (fact a) * INR (fact b) -> IZR den = INR (fact (a + b + 2)) -> good_row a b row.
Proof.
  induction row as [|m row IH]; intros a b num den H Hn Hd j m' Hj; [destruct j; discriminate Hj|].
  cbn [row_ok] in H. apply andb_true_iff in H. destruct H as (H1 & H2). destruct j as [|j].
  - injection Hj as <-. apply Z.leb_le, IZR_le in H1. rewrite abs_IZR, minus_IZR, mult_IZR, Hn, Hd in H1. rewrite Nat.add_0_r. cbn [moment].
    set (d := INR (fact (a + b + 2))) in *. assert (D : 0 < d) by apply INR_fact_lt_0.
    apply Rmult_le_reg_r with d; auto. rewrite <- (Rabs_right d) at 2 by lra. rewrite <- Rabs_mult.
    replace ((IZR (to_Z m) - RM * (INR (fact a) * INR (fact b) / d)) * d) with (d * IZR (to_Z m) - RM * INR (fact a) * INR (fact b)) by (field; lra).
    lra.
  - replace (b + S j)%nat with (S b + j)%nat by lia. apply (IH a (S b) _ _ H2); [| |exact Hj].
    + rewrite mult_IZR, Hn, <- INR_IZR_INZ. change (fact (S b)) with (S b * fact b)%nat. rewrite mult_INR. ring.
    + rewrite mult_IZR, Hd, <- INR_IZR_INZ. rewrite <- mult_INR. f_equal. replace (a + S b + 2)%nat with (S (a + b + 2)) by lia. reflexivity.
Qed.
Definition good_tab (a : nat) (tab : list (list int)) : Prop := forall i row, nth_error tab i = Some row -> good_row (a + i) 0 row.
Lemma tab_ok_good : forall tab a, tab_ok a tab = true -> good_tab a tab.
Proof.
  induction tab as [|row tab IH]; intros a H i row' Hi; [destruct i; discriminate Hi|].
  cbn [tab_ok] in H. apply andb_true_iff in H. destruct H as (H1 & H2). destruct i as [|i].
  - injection Hi as <-. rewrite Nat.add_0_r. apply (row_ok_good _ _ _ _ _ H1).
    + rewrite mult_IZR, zfact_fact. change (IZR M) with RM. cbn [fact INR]. ring.
    + rewrite zfact_fact. do 2 f_equal. lia.
  - replace (a + S i)%nat with (S a + i)%nat by lia. apply (IH (S a) H2 i). exact Hi.
Qed.

(** *** Powers *)
Fixpoint powR (us : list R) (n : nat) (l : list R) : list R := match n with O => l | S n => mulR (powR us n l) us end.
Lemma powR_S : forall n us l, powR us (S n) l = powR us n (mulR l us).
Proof. induction n; intros us l; [reflexivity|]. change (powR us (S (S n)) l) with (mulR (powR us (S n) l) us). rewrite IHn. reflexivity. Qed.
(** The weights are scaled by [scale sh], and their sum is below that. *)
Lemma sum_close : forall sh ps Ps e m mu, (sh < 60)%nat -> approxs e ps Ps -> rsum ps < scale sh ->
  close (ssum sh Ps) m = true -> Rabs (IZR (to_Z m) - RM * mu) <= 1 ->
  Rabs (rsum ps * RM - scale sh * (RM * mu)) <= scale sh * (IZR (to_Z T) + 2) + INR (length ps) * e.
Proof.
  intros sh ps Ps e m mu Hs A Hsum C Hm. pose proof (approxs_sum _ _ _ A) as (S1 & S2). pose proof (scale_pos sh) as SP. pose proof RM_pos as MP.
  assert (B : (isum Ps < M * 2 ^ Z.of_nat sh)%Z).
  { apply lt_IZR. rewrite mult_IZR. change (IZR M) with RM. fold (scale sh). apply Rle_lt_trans with (rsum ps * RM); [exact S1|].
    rewrite (Rmult_comm RM). apply Rmult_lt_compat_r; assumption. }
  apply close_bound in C. rewrite (ssum_div sh Ps Hs B) in C.
  pose proof (div_bounds (isum Ps) (2 ^ Z.of_nat sh) ltac:(apply Z.pow_pos_nonneg; lia)) as (D1 & D2). fold (scale sh) in D1, D2.
  set (q := IZR (isum Ps / 2 ^ Z.of_nat sh)) in *. set (v := IZR (isum Ps)) in *. set (s := scale sh) in *.
  assert (V : v = s * (v / s)) by (field; lra). set (w := v / s) in *.
  assert (W : Rabs (w - RM * mu) <= IZR (to_Z T) + 2).
  { revert C Hm. unfold Rabs. repeat destruct Rcase_abs; lra. }
  assert (X : Rabs (v - s * (RM * mu)) <= s * (IZR (to_Z T) + 2)).
  { rewrite V. replace (s * w - s * (RM * mu)) with (s * (w - RM * mu)) by ring. rewrite Rabs_mult, (Rabs_right s) by lra.
    apply Rmult_le_compat_l; [lra|exact W]. }
  revert X. unfold Rabs. repeat destruct Rcase_abs; lra.
Qed.
Lemma inner_ok : forall sh nb a b row ps Ps ys Ys e, (sh < 60)%nat -> inner sh nb row Ps Ys = true -> good_row a b row ->
  approxs e ps Ps -> approxs 2 ys Ys -> length ps = length ys -> rsum ps < scale sh ->
  forall j, (j < nb)%nat -> Rabs (rsum (powR ys j ps) * RM - scale sh * (RM * moment kTria [a; b + j]%nat)) <=
     scale sh * (IZR (to_Z T) + 2) + INR (length ps) * (e + 3 * INR j).
Proof.
  intros sh. induction nb as [|nb IH]; intros a b row ps Ps ys Ys e Hs H G A B L S0 j Hj; [lia|].
  cbn [inner] in H. destruct row as [|m row]; [discriminate H|]. destruct (close (ssum sh Ps) m) eqn:Et; [|discriminate H].
  destruct j as [|j].
  - cbn [powR INR]. replace (e + 3 * 0) with e by ring. apply (sum_close sh ps Ps e m _ Hs A S0 Et). apply (G 0%nat). reflexivity.
  - rewrite powR_S. replace (b + S j)%nat with (S b + j)%nat by lia.
    assert (G' : good_row a (S b) row).
    { intros i m' Hm'. replace (S b + i)%nat with (b + S i)%nat by lia. apply (G (S i)). exact Hm'. }
    assert (S1 : rsum (mulR ps ys) < scale sh).
    { apply Rle_lt_trans with (rsum ps); [|exact S0]. apply mulR_le; [apply (approxs_range _ _ _ A)|apply (approxs_range _ _ _ B)]. }
    specialize (IH a (S b) row (mulR ps ys) (mul2 Ps Ys) ys Ys (e + 2 + 1) Hs H G').
    specialize (IH (approxs_mul _ _ _ _ _ _ A B L) B ltac:(rewrite mulR_length; auto) S1 j ltac:(lia)).
    rewrite mulR_length in IH by auto. rewrite S_INR.
    replace (e + 3 * (INR j + 1)) with (e + 2 + 1 + 3 * INR j) by ring. exact IH.
Qed.
Lemma outer_ok : forall sh na a tab ps Ps xs Xs ys Ys e, (sh < 60)%nat -> outer sh na tab Ps Xs Ys = true -> good_tab a tab ->
  approxs e ps Ps -> approxs 2 xs Xs -> approxs 2 ys Ys -> length ps = length xs -> length ps = length ys -> rsum ps < scale sh ->
  forall i j, (i + j < na)%nat -> Rabs (rsum (powR ys j (powR xs i ps)) * RM - scale sh * (RM * moment kTria [a + i; j]%nat)) <=
     scale sh * (IZR (to_Z T) + 2) + INR (length ps) * (e + 3 * INR i + 3 * INR j).
Proof.
  intros sh. induction na as [|na IH]; intros a tab ps Ps xs Xs ys Ys e Hs H G A B C L L' S0 i j Hj; [lia|].
  cbn [outer] in H. destruct tab as [|row tab]; [discriminate H|]. destruct (inner sh (S na) row Ps Ys) eqn:Ei; [|discriminate H].
  destruct i as [|i].
  - assert (G0 : good_row a 0 row) by (specialize (G 0%nat row eq_refl); rewrite Nat.add_0_r in G; exact G).
    pose proof (inner_ok _ _ _ _ _ _ _ _ _ _ Hs Ei G0 A C L' S0 j ltac:(lia)) as I. cbn [Nat.add] in I. rewrite Nat.add_0_r.
    change (powR xs 0 ps) with ps. replace (e + 3 * INR 0 + 3 * INR j) with (e + 3 * INR j) by (cbn [INR]; ring). exact I.
  - rewrite powR_S. replace (a + S i)%nat with (S a + i)%nat by lia.
    assert (G' : good_tab (S a) tab).
    { intros i' row' Hr. replace (S a + i')%nat with (a + S i')%nat by lia. apply (G (S i')). exact Hr. }
    assert (S1 : rsum (mulR ps xs) < scale sh).
    { apply Rle_lt_trans with (rsum ps); [|exact S0]. apply mulR_le; [apply (approxs_range _ _ _ A)|apply (approxs_range _ _ _ B)]. }
    specialize (IH (S a) tab (mulR ps xs) (mul2 Ps Xs) xs Xs ys Ys (e + 2 + 1) Hs H G' (approxs_mul _ _ _ _ _ _ A B L) B C).
    specialize (IH ltac:(rewrite mulR_length; auto) ltac:(rewrite mulR_length; auto) S1 i j ltac:(lia)).
    rewrite mulR_length in IH by auto. rewrite S_INR.
    replace (e + 3 * (INR i + 1) + 3 * INR j) with (e + 2 + 1 + 3 * INR i + 3 * INR j) by ring. exact IH.
Qed.

(** *** Rules *)
Definition table_points (l : list (Z * Z * Z)) := map (fun t => [tab_real (fst (fst t)); tab_real (snd (fst t))]) l.
Definition table_weights (l : list (Z * Z * Z)) := map (fun t : Z * Z * Z => tab_real (snd t)) l.
Definition wxy (i j : nat) (t : Z * Z * Z) : R := tab_real (tw t) * tab_real (tx t) ^ i * tab_real (ty t) ^ j.
Lemma mulR_map : forall (f g : Z * Z * Z -> R) l, mulR (map f l) (map g l) = map (fun t => f t * g t) l.
Proof. induction l; cbn [map mulR]; f_equal; auto. Qed.
Lemma powR_map : forall n (f g : Z * Z * Z -> R) l, powR (map g l) n (map f l) = map (fun t => f t * g t ^ n) l.
Proof.
  induction n; intros; cbn [powR].
  - apply map_ext. intros. cbn [pow]. ring.
  - rewrite IHn, mulR_map. apply map_ext. intros. cbn [pow]. ring.
Qed.
Lemma quadrature_table : forall q i j l, qr_points q = table_points l -> qr_weights q = table_weights l ->
  quadrature q (monomial [i; j]) =
  rsum (powR (map (fun t => tab_real (ty t)) l) j (powR (map (fun t => tab_real (tx t)) l) i (map (fun t => tab_real (tw t)) l))).
Proof.
  intros q i j l P W. unfold quadrature. rewrite P, W, !powR_map. clear P W. induction l as [|[[x y] w] l IH]; [reflexivity|].
  cbn [table_points table_weights map]. cbn [table_points table_weights] in IH.
  change (dot (?a :: ?u) (?b :: ?v)) with (a * b + dot u v) || unfold dot; cbn [combine map rsum fold_right fst snd].
  unfold dot in IH. rewrite <- mono2 || idtac. rewrite mono2. fold (table_weights l). fold (table_points l).
  unfold table_weights, table_points in *. unfold tw, tx, ty in *. cbn [fst snd]. f_equal; [ring|]. exact IH.
Qed.
Lemma approxs_conv : forall sh l, (sh < 60)%nat -> (forall z, In z l -> 0 <= z /\ Z.shiftl z (Z.of_nat sh) < dec)%Z ->
  approxs 2 (map (fun z => scale sh * tab_real z) l) (map (conv sh) l).
Proof.
  intros sh l Hs. induction l as [|z l IH]; intros H; cbn [map]; constructor.
  - destruct (H z (or_introl eq_refl)). apply approx_conv; auto.
  - apply IH. intros; apply H; right; auto.
Qed.
Definition tolerance : R := 1 / 10 ^ 15.
Lemma forallb_In : forall {A} (f : A -> bool) l x, forallb f l = true -> In x l -> f x = true.
Proof. intros. rewrite forallb_forall in H. auto. Qed.
Lemma zsum_cons : forall l a, fold_left Z.add l a = (a + zsum l)%Z.
Proof.
  induction l as [|x l IH]; intros b; unfold zsum; cbn [fold_left].
  - lia.
  - rewrite IH. rewrite (IH (0 + x)%Z). lia.
Qed.
Lemma sum_weights : forall l, rsum (map tab_real l) = IZR (zsum l) / IZR dec.
Proof.
  pose proof dec_pos. induction l as [|z l IH].
  - cbn. unfold Rdiv. ring.
  - unfold zsum. cbn [map fold_left]. rewrite zsum_cons. change (rsum (?x :: ?y)) with (x + rsum y). rewrite IH.
    replace (0 + z + zsum l)%Z with (z + zsum l)%Z by lia. rewrite plus_IZR. unfold tab_real. field. lra.
Qed.
Lemma rsum_scal : forall (f : Z -> R) t l, rsum (map (fun z => t * f z) l) = t * rsum (map f l).
Proof. intros f t l. induction l as [|z l IH]; cbn [map]; [cbn; ring|]. change (rsum (?x :: ?y)) with (x + rsum y). rewrite IH. ring. Qed.
Lemma powR_scale : forall t n us l, powR us n (map (Rmult t) l) = map (Rmult t) (powR us n l).
Proof.
  intros t. assert (Hm : forall l us, mulR (map (Rmult t) l) us = map (Rmult t) (mulR l us)).
  { induction l as [|x l IH]; intros [|u us]; cbn [map mulR]; try reflexivity. rewrite IH. f_equal. ring. }
  induction n as [|n IH]; intros us l; cbn [powR]; [reflexivity|]. rewrite IH, Hm. reflexivity.
Qed.
Lemma rsum_scale_map : forall t l, rsum (map (Rmult t) l) = t * rsum l.
Proof. intros t l. induction l as [|x l IH]; cbn [map]; [cbn; ring|]. change (rsum (?x :: ?y)) with (x + rsum y). rewrite IH. ring. Qed.
Lemma table_moments : forall sh k l q, check sh k l = true -> qr_points q = table_points l -> qr_weights q = table_weights l ->
  forall i j, (i + j <= k)%nat -> Rabs (quadrature q (monomial [i; j]) - moment kTria [i; j]) <= tolerance.
Proof.
  intros sh k l q H P W i j Hij. unfold check in H. repeat (apply andb_true_iff in H; destruct H as (H & ?)).
  rename H0 into Ho, H1 into Ht, H2 into Hi, H3 into Hw, H4 into Hs. apply Z.leb_le in Ht. apply Z.ltb_lt in Hw. apply Nat.ltb_lt in Hs.
  rewrite (quadrature_table q i j l P W).
  assert (In_ok : forall t, In t l -> (0 <= tx t /\ tx t < dec /\ 0 <= ty t /\ ty t < dec /\ 0 <= tw t /\ Z.shiftl (tw t) (Z.of_nat sh) < dec)%Z).
  { intros t Hin. pose proof (forallb_In _ _ _ Hi Hin) as E. unfold inside_ok in E.
    repeat (apply andb_true_iff in E; destruct E as (E & ?)).
    repeat match goal with X : (_ <? _)%Z = true |- _ => apply Z.ltb_lt in X end. lia. }
  assert (A : approxs 2 (map (fun z => scale sh * tab_real z) (map tw l)) (map (conv sh) (map tw l))).
  { apply approxs_conv; [exact Hs|]. intros z Hz. apply in_map_iff in Hz. destruct Hz as (t & <- & Hin). split; apply (In_ok t Hin). }
  assert (one : forall z, scale 0 * tab_real z = tab_real z) by (intros; unfold scale; cbn; ring).
  assert (B : approxs 2 (map (fun t => tab_real (tx t)) l) (map (conv 0) (map tx l))).
  { rewrite <- (map_map tx tab_real). rewrite <- (map_ext _ _ one). apply approxs_conv; [lia|]. intros z Hz. apply in_map_iff in Hz. destruct Hz as (t & <- & Hin).
    destruct (In_ok t Hin) as (? & ? & ? & ? & ? & ?). cbn [Z.of_nat]. rewrite Z.shiftl_0_r. auto. }
  assert (C : approxs 2 (map (fun t => tab_real (ty t)) l) (map (conv 0) (map ty l))).
  { rewrite <- (map_map ty tab_real). rewrite <- (map_ext _ _ one). apply approxs_conv; [lia|]. intros z Hz. apply in_map_iff in Hz. destruct Hz as (t & <- & Hin).
    destruct (In_ok t Hin) as (? & ? & ? & ? & ? & ?). cbn [Z.of_nat]. rewrite Z.shiftl_0_r. auto. }
  pose proof (scale_pos sh) as SP. pose proof RM_pos as MP. pose proof dec_pos as DP.
  assert (S0 : rsum (map (fun z => scale sh * tab_real z) (map tw l)) < scale sh).
  { rewrite rsum_scal, sum_weights. apply IZR_lt in Hw. replace (scale sh) with (scale sh * 1) at 2 by ring.
    apply Rmult_lt_compat_l; [exact SP|]. apply Rmult_lt_reg_r with (IZR dec); [exact DP|]. unfold Rdiv. rewrite Rmult_assoc, Rinv_l by lra. lra. }
  pose proof (outer_ok _ _ 0 _ _ _ _ _ _ _ _ Hs Ho (tab_ok_good _ _ mom_ok) A B C ltac:(rewrite !map_length; auto) ltac:(rewrite !map_length; auto) S0 i j ltac:(lia)) as O.
  rewrite !map_length in O. change (0 + i)%nat with i in O.
  assert (E : map (fun z => scale sh * tab_real z) (map tw l) = map (Rmult (scale sh)) (map (fun t => tab_real (tw t)) l)).
  { rewrite !map_map. apply map_ext. reflexivity. }
  rewrite E, !powR_scale, rsum_scale_map in O. clear S0 A.
  set (s := rsum _) in *. set (mm := moment _ _) in *.
  assert (K : INR (length l) * (2 + 3 * INR i + 3 * INR j) <= INR (length l) * (2 + 3 * INR k)).
  { apply Rmult_le_compat_l; [apply pos_INR|]. apply le_INR in Hij. rewrite plus_INR in Hij. lra. }
  apply IZR_le in Ht. rewrite !mult_IZR, !plus_IZR, !mult_IZR, !plus_IZR, !mult_IZR, <- !INR_IZR_INZ in Ht.
  fold (scale sh) in Ht. change (IZR M) with RM in Ht.
  assert (E15 : IZR (10 ^ 15) = 10 ^ 15) by (rewrite (pow_IZR 10 15); reflexivity). rewrite E15 in Ht.
  assert (P15 : 0 < 10 ^ 15) by (apply pow_lt; lra).
  set (err := scale sh * (IZR (to_Z T) + 2) + INR (length l) * (2 + 3 * INR k)).
  assert (Err : err <= tolerance * (scale sh * RM)).
  { unfold tolerance. apply Rmult_le_reg_r with (10 ^ 15); [exact P15|].
    replace (1 / 10 ^ 15 * (scale sh * RM) * 10 ^ 15) with (RM * scale sh) by (field; lra). unfold err. lra. }
  apply Rmult_le_reg_r with (scale sh * RM); [apply Rmult_lt_0_compat; assumption|].
  rewrite <- (Rabs_right (scale sh * RM)) at 1 by (apply Rle_ge, Rlt_le, Rmult_lt_0_compat; assumption). rewrite <- Rabs_mult.
  replace ((s - mm) * (scale sh * RM)) with (scale sh * s * RM - scale sh * (RM * mm)) by ring.
  apply Rle_trans with err; [|exact Err]. eapply Rle_trans; [exact O|]. unfold err. lra.
Qed.
Lemma rsum_abs_le : forall {A} (es : list A) f g, (forall e, In e es -> Rabs (f e) <= g e) -> Rabs (rsum (map f es)) <= rsum (map g es).
Proof.
  induction es as [|e es IH]; intros f g H; cbn [map rsum fold_right].
  - rewrite Rabs_R0. lra.
  - eapply Rle_trans; [apply Rabs_triang|]. apply Rplus_le_compat; [apply H; left; auto|]. apply IH. intros; apply H; right; auto.
Qed.
Lemma rsum_minus : forall {A} (es : list A) f g, rsum (map f es) - rsum (map g es) = rsum (map (fun e => f e - g e) es).
Proof. induction es; intros; cbn [map rsum fold_right]; [ring|]. unfold rsum in *. rewrite <- IHes. ring. Qed.
Lemma rsum_scale : forall {A} (es : list A) f t, t * rsum (map f es) = rsum (map (fun e => t * f e) es).
Proof. induction es; intros; cbn [map rsum fold_right]; [ring|]. unfold rsum in *. rewrite <- IHes. ring. Qed.
Lemma within_by_moments : forall tol q k, qr_el q = kTria ->
  (forall i j, (i + j <= k)%nat -> Rabs (quadrature q (monomial [i; j]) - moment kTria [i; j]) <= tol) -> exact_within tol q k.
Proof.
  intros tol q k E H c. rewrite E. rewrite quadrature_poly, integral_poly; [|congruence|apply exponents_len].
  rewrite rsum_minus, rsum_scale. apply rsum_abs_le. intros e He. rewrite <- Rmult_minus_distr_l, Rabs_mult, (Rmult_comm tol).
  apply Rmult_le_compat_l; [apply Rabs_pos|]. pose proof (exponents_len _ _ _ He) as L. rewrite integral_monomial by exact L.
  destruct e as [|i [|j [|]]]; try discriminate L. apply H.
  apply (proj1 (proj1 (proj2 (in_exponents k i j)))) in He. exact He.
Qed.
Lemma tab_real_pos : forall z, (0 < z)%Z -> 0 < tab_real z.
Proof. intros z H. apply IZR_lt in H. unfold tab_real. apply Rmult_lt_0_compat; [lra|apply Rinv_0_lt_compat, dec_pos]. Qed.
Lemma table_ok : forall sh k l q, check sh k l = true -> QuadRule kTria (table_points l) (table_weights l) k = Ok q -> table_rule tolerance k q.
Proof.
  intros sh k l q H E.
  assert (E' : q = {| qr_el := kTria; qr_degree := k; qr_points := table_points l; qr_weights := table_weights l |}).
  { apply bind_ok in E. destruct E as (? & _ & E). apply bind_ok in E. destruct E as (? & _ & E). unfold table_points, table_weights in *. congruence. }
  subst q. constructor; cbn [qr_el qr_degree qr_points qr_weights].
  - reflexivity.
  - reflexivity.
  - unfold check in H. repeat (apply andb_true_iff in H; destruct H as (H & ?)). unfold NumPoints. cbn [qr_points].
    unfold table_points. rewrite map_length. apply Z.ltb_lt in H. lia.
  - unfold table_points, table_weights. rewrite !map_length. reflexivity.
  - unfold check in H. repeat (apply andb_true_iff in H; destruct H as (H & ?)). rename H2 into Hi. apply and_comm. split; cbn [qr_el qr_points qr_weights].
    + intros p Hp. apply in_map_iff in Hp. destruct Hp as (t & <- & Ht). pose proof (forallb_In _ _ _ Hi Ht) as I. unfold inside_ok in I.
      repeat (apply andb_true_iff in I; destruct I as (I & ?)). fold (tx t) (ty t). unfold inside.
      split; [apply tab_real_pos; lia|]. split; [apply tab_real_pos; lia|].
      assert (H9 : (tx t + ty t < dec)%Z) by (apply Z.ltb_lt; assumption). apply IZR_lt in H9. rewrite plus_IZR in H9. unfold tab_real. pose proof dec_pos.
      apply Rmult_lt_reg_r with (IZR dec); auto. replace ((IZR (tx t) / IZR dec + IZR (ty t) / IZR dec) * IZR dec) with (IZR (tx t) + IZR (ty t)) by (field; lra). lra.
    + intros w Hw. apply in_map_iff in Hw. destruct Hw as (t & <- & Ht). pose proof (forallb_In _ _ _ Hi Ht) as I. unfold inside_ok in I.
      repeat (apply andb_true_iff in I; destruct I as (I & ?)). apply tab_real_pos. unfold tw in *. lia.
  - apply within_by_moments; [reflexivity|]. apply (table_moments sh k l); auto.
Qed.
