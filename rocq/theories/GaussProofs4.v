(** The zeros of the Jacobi polynomials: as many as the degree, in the open interval. *)
From Coq Require Import Reals List Arith Lia Lra Bool.
From Coquelicot Require Import Coquelicot.
Import ListNotations.
From Verif Require Import Base MeshModel MeshView DofModel RefPatModel GeoModel GeoSpec
  FeModel LagrModel QuadModel HierModel FeSpec QuadSpec Calc LagrProofs2 FeProofs LegendreProofs JacobiProofs OrthoProofs
  HierProofs HierProofs2 PolyProofs HierProofs3 QuadRuleModel QuadProofs QuadProofs2 GaussProofs GaussProofs2 GaussProofs3.
Local Open Scope R_scope.

Lemma finite_choice : forall (Pr : nat -> R -> Prop) n, (forall j, (j < n)%nat -> exists x, Pr j x) -> exists f, forall j, (j < n)%nat -> Pr j (f j).
Proof.
  intros Pr n H. induction n as [|n IH]; [exists (fun _ => 0); intros; lia|].
  destruct IH as (f & F); [intros; apply H; lia|]. destruct (H n ltac:(lia)) as (x & X).
  exists (fun j => if Nat.eqb j n then x else f j). intros j Hj. destruct (Nat.eqb_spec j n) as [->|]; [exact X|apply F; lia].
Qed.
Fixpoint prodr (r : nat -> R) (n : nat) (x : R) : R := match n with 0%nat => 1 | S k => prodr r k x * (x - r (S k)) end.
Lemma prodr_lead : forall r n, exists a, forall x, prodr r n x = x ^ n + pe a n x.
Proof.
  intros r n. induction n as [|n (a & A)]; [exists (fun _ => 0); intros; cbn; ring|].
  assert (I : isp (S n) (fun x => x * pe a n x - r (S n) * (x ^ n + pe a n x))).
  { apply isp_minus; [apply isp_x; exists a; reflexivity|]. apply isp_scale. apply isp_plus.
    - exists (fun i => if Nat.eqb i n then 1 else 0). intros x. cbn [pe]. rewrite Nat.eqb_refl, pe_zero; [ring|].
      intros k Hk. destruct (Nat.eqb_spec k n); [lia|reflexivity].
    - apply (isp_up n); [lia|exists a; reflexivity]. }
  destruct I as (b & I). exists b. intros x. rewrite <- I. cbn [prodr pow]. rewrite A. ring.
Qed.
Lemma prodr_zero : forall r n i, (1 <= i <= n)%nat -> prodr r n (r i) = 0.
Proof.
  intros r n i H. induction n as [|n IH]; [lia|]. cbn [prodr]. destruct (Nat.eq_dec i (S n)) as [->|]; [ring|]. rewrite IH by lia. ring.
Qed.
Lemma sign_pow : forall k, (-1) ^ k * (-1) ^ k = 1.
Proof. intros k. rewrite <- Rpow_mult_distr. replace (-1 * -1) with 1 by ring. apply pow1. Qed.
(** Sign of the product between the zeros number [j] and [j + 1]. *)
Lemma prodr_sign : forall r n j x, (j <= n)%nat -> (forall i, (1 <= i <= j)%nat -> r i < x) -> (forall i, (j < i <= n)%nat -> x < r i) ->
  0 < (-1) ^ (n + j) * prodr r n x.
Proof.
  intros r n. induction n as [|n IH]; intros j x Hj Hl Hr.
  - replace j with 0%nat by lia. cbn. lra.
  - cbn [prodr]. destruct (Nat.eq_dec j (S n)) as [->|Hn].
    + pose proof (IH n x (le_n n) ltac:(intros; apply Hl; lia) ltac:(intros; lia)) as H. pose proof (Hl (S n) ltac:(lia)) as H'.
      replace ((-1) ^ (S n + S n)) with ((-1) ^ (n + n)) by (rewrite !pow_add, !sign_pow; reflexivity).
      replace ((-1) ^ (n + n) * (prodr r n x * (x - r (S n)))) with ((-1) ^ (n + n) * prodr r n x * (x - r (S n))) by ring.
      apply Rmult_lt_0_compat; lra.
    + pose proof (IH j x ltac:(lia) Hl ltac:(intros; apply Hr; lia)) as H. pose proof (Hr (S n) ltac:(lia)) as H'.
      cbn [Nat.add pow].
      replace (-1 * (-1) ^ (n + j) * (prodr r n x * (x - r (S n)))) with ((-1) ^ (n + j) * prodr r n x * (r (S n) - x)) by ring.
      apply Rmult_lt_0_compat; lra.
Qed.

Section Zeros.
Variable q : nat.
Let al := INR q.
Let Ha : 0 <= al := INR_pos q.
Let P n := jacobi n al.
Lemma nxt : forall n x, P (S n) x = / rA q n * (x * P n x - rB q n * P n x - rC q n * P (pred n) x).
Proof. exact (next_P q). Qed.
Lemma lead_pos : forall n, exists l a, 0 < l /\ forall x, P n x = l * x ^ n + pe a n x.
Proof.
  induction n as [|n (l & a & Hl & E)].
  - exists 1, (fun _ => 0). split; [lra|]. intros. cbn. unfold P, jacobi, jacobi_ab. ring.
  - assert (I : isp (S n) (fun x => / rA q n * (x * pe a n x - rB q n * P n x - rC q n * P (pred n) x))).
    { apply isp_scale, isp_minus; [apply isp_minus|].
      - apply isp_x. exists a. reflexivity.
      - apply isp_scale, (isp_P q n).
      - apply isp_scale. destruct n as [|n]; cbn [pred]; [apply (isp_P q 0)|]. apply (isp_up (S n)); [lia|apply (isp_P q n)]. }
    destruct I as (b & I). exists (/ rA q n * l), b. pose proof (rA_pos q n). split.
    { apply Rmult_lt_0_compat; [apply Rinv_0_lt_compat; lra|exact Hl]. }
    intros x. rewrite <- I. rewrite nxt.
    rewrite (E x) at 1. cbn [pow]. ring.
Qed.
Lemma at_zero : forall n, P n 0 = (-1) ^ n.
Proof.
  intros n. enough (H : P n 0 = (-1) ^ n /\ P (S n) 0 = (-1) ^ S n) by apply H. induction n as [|n [H0 H1]].
  - split; unfold P, jacobi, jacobi_ab; cbn; lra.
  - split; [exact H1|]. rewrite nxt. cbn [pred]. rewrite H1, H0. unfold rA, rB, rC. fold al. rewrite !S_INR. cbn [pow].
    pose proof (INR_pos n). field. repeat split; lra.
Qed.
Lemma at_one : forall n, 0 < P n 1.
Proof.
  intros n. enough (H : (INR n + 1) * P (S n) 1 = (INR n + 1 + al) * P n 1 /\ 0 < P n 1) by apply H. induction n as [|n [H0 H1]].
  - unfold P, jacobi, jacobi_ab. cbn. lra.
  - assert (Hp := INR_pos n). assert (Pn : 0 < P (S n) 1).
    { apply (Rmult_lt_reg_l (INR n + 1)); [lra|]. rewrite H0, Rmult_0_r. apply Rmult_lt_0_compat; lra. }
    split; [|exact Pn]. rewrite nxt. cbn [pred].
    replace (P n 1) with ((INR n + 1) * P (S n) 1 / (INR n + 1 + al)).
    2: { rewrite H0. field. lra. }
    unfold rA, rB, rC. fold al. rewrite !S_INR. field. repeat split; lra.
Qed.
Lemma increasing : forall (r : nat -> R) n, (forall i, (i <= n)%nat -> r i < r (S i)) -> forall i j, (i < j)%nat -> (j <= S n)%nat -> r i < r j.
Proof.
  intros r n H i j Hij Hj. induction Hij as [|j Hij IH]; [apply H; lia|]. pose proof (IH ltac:(lia)). pose proof (H j ltac:(lia)). lra.
Qed.
Lemma factor : forall n (r : nat -> R), (forall i, (i <= n)%nat -> r i < r (S i)) -> (forall i, (1 <= i <= n)%nat -> P n (r i) = 0) ->
  exists l, 0 < l /\ forall x, P n x = l * prodr r n x.
Proof.
  intros n r Hr Z. destruct (lead_pos n) as (l & a & Hl & E). destruct (prodr_lead r n) as (b & B). exists l. split; [exact Hl|].
  assert (Y : forall x, pe a n x = l * pe b n x).
  { apply (isp_equal n (pe a n) (fun x => l * pe b n x) (map r (seq 1 n))).
    - exists a. reflexivity.
    - apply isp_scale. exists b. reflexivity.
    - assert (G : forall k m, (k + m <= S n)%nat -> NoDup (map r (seq k m))).
      { intros k m. revert k. induction m as [|m IH]; intros k Hk; [constructor|]. cbn [seq map]. constructor; [|apply IH; lia].
        intros Hin. apply in_map_iff in Hin. destruct Hin as (j & Ej & Hj). apply in_seq in Hj.
        pose proof (increasing r n Hr k j ltac:(lia) ltac:(lia)). lra. }
      apply G. lia.
    - rewrite map_length, seq_length. reflexivity.
    - intros s Hs. apply in_map_iff in Hs. destruct Hs as (i & <- & Hi). apply in_seq in Hi.
      pose proof (Z i ltac:(lia)) as Zi. rewrite E in Zi. pose proof (prodr_zero r n i ltac:(lia)) as Zp. rewrite B in Zp.
      replace (pe a n (r i)) with (- (l * r i ^ n)) by lra. replace (pe b n (r i)) with (- r i ^ n) by lra. ring. }
  intros x. rewrite E, B, Y. ring.
Qed.
Lemma root_between : forall n u v, u < v -> P n u * P n v < 0 -> exists x, u < x < v /\ P n x = 0.
Proof.
  intros n u v Huv Hs.
  assert (Cn : Ranalysis1.continuity (P n)).
  { intros x. apply continuity_pt_filterlim. apply (smooth_cont _ (sm_P q n)). }
  destruct (Rlt_le_dec (P n u) 0) as [Hu|Hu].
  - assert (Hv : 0 < P n v).
    { destruct (Rle_lt_dec (P n v) 0) as [Hv|Hv]; [|exact Hv]. pose proof (Rmult_le_compat_neg_l (P n u) (P n v) 0 ltac:(lra) Hv). lra. }
    destruct (IVT (P n) u v Cn Huv Hu Hv) as (x & Hx & Zx). exists x. split; [|exact Zx].
    split; [destruct (Req_dec x u) as [->|]; lra|destruct (Req_dec x v) as [->|]; lra].
  - assert (Hu' : 0 < P n u) by (destruct (Req_dec (P n u) 0) as [E|]; [rewrite E in Hs; lra|lra]).
    assert (Hv : P n v < 0).
    { destruct (Rlt_le_dec (P n v) 0) as [Hv|Hv]; [exact Hv|]. pose proof (Rmult_le_pos (P n u) (P n v) ltac:(lra) Hv). lra. }
    assert (Cm : Ranalysis1.continuity (fun x => - P n x)) by (apply (Ranalysis1.continuity_opp (P n)), Cn).
    destruct (IVT (fun x => - P n x) u v Cm Huv ltac:(lra) ltac:(lra)) as (x & Hx & Zx). exists x. assert (Z' : P n x = 0) by lra. split; [|exact Z'].
    split; [destruct (Req_dec x u) as [->|]; lra|destruct (Req_dec x v) as [->|]; lra].
Qed.
Lemma interlacing : forall n, exists r : nat -> R, r 0%nat = 0 /\ r (S n) = 1 /\ (forall i, (i <= n)%nat -> r i < r (S i)) /\
  (forall i, (1 <= i <= n)%nat -> P n (r i) = 0) /\ (forall i, (i <= S n)%nat -> 0 < (-1) ^ (S n + i) * P (S n) (r i)).
Proof.
  induction n as [|n (r & R0 & R1 & Rm & Rz & Rs)].
  - exists (fun i => if Nat.eqb i 0 then 0 else 1). split; [reflexivity|]. split; [reflexivity|]. split.
    { intros i Hi. replace i with 0%nat by lia. cbn. lra. }
    split; [intros; lia|]. intros i Hi. destruct i as [|[|i]]; [| |lia]; cbn [Nat.eqb].
    + rewrite at_zero. cbn. lra.
    + pose proof (at_one 1). cbn. lra.
  - destruct (finite_choice (fun j x => r j < x < r (S j) /\ P (S n) x = 0) (S n)) as (f & F).
    { intros j Hj. apply root_between; [apply Rm; lia|].
      pose proof (Rs j ltac:(lia)) as S1. pose proof (Rs (S j) ltac:(lia)) as S2.
      pose proof (Rmult_lt_0_compat _ _ S1 S2) as S3. rewrite Nat.add_succ_r in S3. cbn [Nat.add pow] in S3.
      replace (-1 * (-1) ^ (n + j) * P (S n) (r j) * (-1 * (-1 * (-1) ^ (n + j)) * P (S n) (r (S j))))
        with (- (P (S n) (r j) * P (S n) (r (S j))) * ((-1) ^ (n + j) * (-1) ^ (n + j))) in S3 by ring.
      rewrite sign_pow in S3. lra. }
    set (s := fun i => match i with 0%nat => 0 | S j => if Nat.eqb j (S n) then 1 else f j end).
    assert (Sf : forall j, (j < S n)%nat -> s (S j) = f j) by (intros j Hj; unfold s; destruct (Nat.eqb_spec j (S n)); [lia|reflexivity]).
    assert (Sl : s (S (S n)) = 1) by (unfold s; rewrite Nat.eqb_refl; reflexivity).
    assert (Hr0 : forall i, (i <= S n)%nat -> 0 <= r i <= 1).
    { intros i Hi. split.
      - destruct (Nat.eq_dec i 0) as [->|]; [lra|]. pose proof (increasing r n Rm 0 i ltac:(lia) ltac:(lia)). lra.
      - destruct (Nat.eq_dec i (S n)) as [->|]; [lra|]. pose proof (increasing r n Rm i (S n) ltac:(lia) ltac:(lia)). lra. }
    exists s. split; [reflexivity|]. split; [exact Sl|].
    assert (Sm : forall i, (i <= S n)%nat -> s i < s (S i)).
    { intros i Hi. destruct i as [|i].
      - rewrite (Sf 0%nat) by lia. cbn [s]. destruct (F 0%nat ltac:(lia)) as ((H1 & _) & _). lra.
      - destruct (Nat.eq_dec i n) as [->|Hne].
        + rewrite Sl, (Sf n) by lia. destruct (F n ltac:(lia)) as ((_ & H1) & _). lra.
        + rewrite !Sf by lia. destruct (F i ltac:(lia)) as ((_ & H1) & _). destruct (F (S i) ltac:(lia)) as ((H2 & _) & _). lra. }
    split; [exact Sm|]. split.
    { intros i Hi. destruct i as [|i]; [lia|]. rewrite Sf by lia. apply F. lia. }
    intros i Hi. destruct i as [|i].
    { change (s 0%nat) with 0. rewrite at_zero, Nat.add_0_r, sign_pow. lra. }
    destruct (Nat.eq_dec i (S n)) as [->|Hne].
    { rewrite Sl. pose proof (at_one (S (S n))) as H1. rewrite pow_add, sign_pow. lra. }
    rewrite Sf by lia. destruct (F i ltac:(lia)) as ((Hlo & Hhi) & Hz). set (x := f i) in *.
    destruct (factor n r Rm Rz) as (l & Hl & El).
    assert (Sg : 0 < (-1) ^ (n + i) * P n x).
    { rewrite El. replace ((-1) ^ (n + i) * (l * prodr r n x)) with (l * ((-1) ^ (n + i) * prodr r n x)) by ring.
      apply Rmult_lt_0_compat; [exact Hl|]. apply prodr_sign; [lia| |].
      - intros k Hk. destruct (Nat.eq_dec k i) as [->|]; [exact Hlo|]. pose proof (increasing r n Rm k i ltac:(lia) ltac:(lia)). lra.
      - intros k Hk. destruct (Nat.eq_dec k (S i)) as [->|]; [exact Hhi|]. pose proof (increasing r n Rm (S i) k ltac:(lia) ltac:(lia)). lra. }
    rewrite nxt. cbn [pred]. rewrite Hz.
    assert (Ap := rA_pos q (S n)). assert (Cp : 0 < rC q (S n)).
    { unfold rC. fold al. rewrite S_INR. pose proof (INR_pos n). apply Rdiv_lt_0_compat; apply Rmult_lt_0_compat; lra. }
    replace ((-1) ^ (S (S n) + S i)) with (- (-1) ^ (n + i)) by (replace (S (S n) + S i)%nat with (S (S (S (n + i)))) by lia; cbn [pow]; ring).
    replace (- (-1) ^ (n + i) * (/ rA q (S n) * (x * 0 - rB q (S n) * 0 - rC q (S n) * P n x)))
      with ((rC q (S n) * / rA q (S n)) * ((-1) ^ (n + i) * P n x)) by ring.
    apply Rmult_lt_0_compat; [|exact Sg]. apply Rmult_lt_0_compat; [exact Cp|]. apply Rinv_0_lt_compat, Ap.
Qed.
Lemma roots_inside : forall n x, P n x = 0 -> 0 < x < 1.
Proof.
  intros n x Z. destruct (interlacing n) as (r & R0 & R1 & Rm & Rz & _). destruct (factor n r Rm Rz) as (l & Hl & El).
  assert (Hin : forall i, (1 <= i <= n)%nat -> 0 < r i < 1).
  { intros i Hi. pose proof (increasing r n Rm 0 i ltac:(lia) ltac:(lia)). pose proof (increasing r n Rm i (S n) ltac:(lia) ltac:(lia)). lra. }
  split; apply Rnot_le_lt; intros Hx.
  - pose proof (prodr_sign r n 0 x ltac:(lia) ltac:(intros; lia) ltac:(intros i Hi; pose proof (Hin i ltac:(lia)); lra)) as Sg.
    rewrite El in Z. apply Rmult_integral in Z. destruct Z as [Z|Z]; [lra|]. rewrite Z in Sg. lra.
  - pose proof (prodr_sign r n n x ltac:(lia) ltac:(intros i Hi; pose proof (Hin i ltac:(lia)); lra) ltac:(intros; lia)) as Sg.
    rewrite El in Z. apply Rmult_integral in Z. destruct Z as [Z|Z]; [lra|]. rewrite Z in Sg. lra.
Qed.
End Zeros.
