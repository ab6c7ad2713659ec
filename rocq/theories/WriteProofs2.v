(** printf's %g is correct to six significant digits. *)
From Coq Require Import String Ascii List Arith NArith ZArith QArith Qabs Qpower Bool Lia Lqa.
Import ListNotations.
From Verif Require Import Base MshModel MshSpec MshProofs WriteModel WriteSpec WriteProofs.
Local Open Scope list_scope.
Local Open Scope Q_scope.

Notation T k := (Qpower 10 k).
Lemma ten_nz : ~ 10 == 0.
Proof. discriminate. Qed.
Lemma T_pos : forall k, 0 < T k.
Proof. intro k. apply Qpower_0_lt. reflexivity. Qed.
Lemma T_nz : forall k, ~ T k == 0.
Proof. intro k. pose proof (T_pos k). lra. Qed.
Lemma T_plus : forall a b, T (a + b) == T a * T b.
Proof. intros. apply Qpower_plus, ten_nz. Qed.
Lemma T_Z : forall k, (0 <= k)%Z -> inject_Z (10 ^ k) == T k.
Proof. intros k H. apply (Zpower_Qpower 10 k H). Qed.
Lemma T_0 : T 0 == 1.
Proof. reflexivity. Qed.
Lemma T_opp : forall k, T k * T (- k) == 1.
Proof. intro k. rewrite <- T_plus, Z.add_opp_diag_r. reflexivity. Qed.

(** The number n / d, as a relation without division: v * d = n. *)
Definition quot (v : Q) (n d : Z) : Prop := (0 < d)%Z /\ v * inject_Z d == inject_Z n.
Lemma inj_pos : forall d, (0 < d)%Z -> 0 < inject_Z d.
Proof. intros d H. change 0 with (inject_Z 0). rewrite <- Zlt_Qlt. exact H. Qed.
Lemma scale_spec : forall v n d k a b, quot v n d -> scale n d k = (a, b) -> quot (v * T k) a b.
Proof.
  intros v n d k a b [Hd Hv] E. unfold scale in E. destruct (Z.leb_spec 0 k) as [K|K]; injection E as <- <-; split.
  - exact Hd.
  - rewrite inject_Z_mult, T_Z by exact K. rewrite <- Hv. ring.
  - apply Z.mul_pos_pos; [exact Hd|]. apply Z.pow_pos_nonneg; lia.
  - rewrite inject_Z_mult, (T_Z (- k)) by lia. rewrite <- Hv. setoid_replace (v * T k * (inject_Z d * T (- k))) with (v * inject_Z d * (T k * T (- k))) by ring. rewrite T_opp. ring.
Qed.
Lemma quot_le : forall v n d z, quot v n d -> (inject_Z z <= v <-> (z * d <= n)%Z).
Proof.
  intros v n d z [Hd Hv]. rewrite Zle_Qle, inject_Z_mult, <- Hv. apply inj_pos in Hd. symmetry. apply Qmult_le_r. exact Hd.
Qed.
Lemma quot_lt : forall v n d z, quot v n d -> (v < inject_Z z <-> (n < z * d)%Z).
Proof.
  intros v n d z [Hd Hv]. rewrite Zlt_Qlt, inject_Z_mult, <- Hv. apply inj_pos in Hd. symmetry. apply Qmult_lt_r. exact Hd.
Qed.
Lemma width_Z : forall z, (0 < z)%Z -> (10 ^ (Z.of_nat (width (Z.to_N z)) - 1) <= z < 10 ^ Z.of_nat (width (Z.to_N z)))%Z.
Proof.
  intros z H. destruct (width_spec (Z.to_N z)) as (A & B & P). specialize (B ltac:(lia)). set (w := width (Z.to_N z)) in *. clearbody w.
  apply N2Z.inj_lt in A. apply N2Z.inj_le in B. rewrite N2Z.inj_pow, Z2N.id, nat_N_Z in A by lia. rewrite N2Z.inj_pow, Z2N.id, nat_N_Z in B by lia.
  change (Z.of_N 10) with 10%Z in *. replace (Z.of_nat w - 1)%Z with (Z.of_nat (w - 1)) by lia. split; assumption.
Qed.
Lemma leading_spec : forall v n d, (0 < n)%Z -> quot v n d -> T (leading n d) <= v /\ v < T (leading n d + 1).
Proof.
  intros v n d Hn Q. pose proof (width_Z n Hn) as [N1 N2]. pose proof Q as [Hd Hv]. pose proof (width_Z d Hd) as [D1 D2].
  unfold leading. set (wn := Z.of_nat (width (Z.to_N n))) in *. set (wd := Z.of_nat (width (Z.to_N d))) in *.
  assert (Wn : (1 <= wn)%Z). { pose proof (width_spec (Z.to_N n)) as (_ & _ & P). unfold wn. lia. }
  assert (Wd : (1 <= wd)%Z). { pose proof (width_spec (Z.to_N d)) as (_ & _ & P). unfold wd. lia. }
  clearbody wn wd. cbv zeta. destruct (scale n d (- (wn - wd))) as [a b] eqn:E. pose proof (scale_spec v n d _ a b Q E) as Q'.
  rewrite Zle_Qle, T_Z in N1 by lia. rewrite Zlt_Qlt, T_Z in N2 by lia. rewrite Zle_Qle, T_Z in D1 by lia. rewrite Zlt_Qlt, T_Z in D2 by lia.
  apply inj_pos in Hd as Hd'. apply inj_pos in Hn as Hn'.
  assert (V : 0 < v). { apply (Qmult_lt_r 0 v (inject_Z d) Hd'). rewrite Hv. lra. }
  (* the two bounds that hold in any case *)
  assert (U : v < T (wn - wd + 1)).
  { pose proof (T_pos (wd - 1)) as P. apply (Qmult_lt_r _ _ _ P). rewrite <- T_plus. replace (wn - wd + 1 + (wd - 1))%Z with wn by lia.
    apply Qle_lt_trans with (v * inject_Z d); [|rewrite Hv; exact N2]. rewrite !(Qmult_comm v). apply Qmult_le_compat_r; lra. }
  assert (L : T (wn - wd - 1) <= v).
  { pose proof (T_pos wd) as P. apply (Qmult_le_r _ _ _ P). rewrite <- T_plus. replace (wn - wd - 1 + wd)%Z with (wn - 1)%Z by lia.
    apply Qle_trans with (v * inject_Z d); [rewrite Hv; exact N1|]. rewrite !(Qmult_comm v). apply Qmult_le_compat_r; lra. }
  pose proof (T_pos (wn - wd)) as P. pose proof (T_opp (wn - wd)) as O. pose proof (T_pos (- (wn - wd))) as P'.
  destruct (Z.leb_spec b a) as [K|K].
  - split; [|exact U]. assert (K' : (1 * b <= a)%Z) by lia. apply (quot_le _ _ _ 1 Q') in K'. change (inject_Z 1) with 1 in K'. rewrite <- O in K'.
    apply (Qmult_le_r _ _ _ P'). exact K'.
  - split; [exact L|]. replace (wn - wd - 1 + 1)%Z with (wn - wd)%Z by lia. assert (K' : (a < 1 * b)%Z) by lia. apply (quot_lt _ _ _ 1 Q') in K'. change (inject_Z 1) with 1 in K'. rewrite <- O in K'.
    apply (Qmult_lt_r _ _ _ P'). exact K'.
Qed.
Lemma round_even_spec : forall a b, (0 < b)%Z -> (- b <= 2 * (round_even a b * b - a) <= b)%Z /\ ((a mod b = 0)%Z -> (round_even a b * b = a)%Z).
Proof.
  intros a b Hb. unfold round_even. pose proof (Z.div_mod a b ltac:(lia)) as D. pose proof (Z.mod_pos_bound a b Hb) as M.
  set (q := (a / b)%Z) in *. set (r := (a mod b)%Z) in *. clearbody q r. cbv zeta. destruct (Z.compare_spec (2 * r) b) as [C|C|C].
  - destruct (Z.even q); split; lia.
  - split; lia.
  - split; lia.
Qed.
Lemma Qabs_bound : forall x y, - y <= x <= y -> Qabs x <= y.
Proof. intros x y H. apply Qabs_Qle_condition. exact H. Qed.
Lemma significand_spec : forall v n d m X, (0 < n)%Z -> quot v n d -> significand n d = (m, X) ->
  (10 ^ 5 <= m < 10 ^ 6)%Z /\ Qabs (inject_Z m * T (X - 5) - v) <= (5 # 1000000) * v /\
  (forall k e, (Z.abs k < 10 ^ 6)%Z -> v == inject_Z k * T e -> inject_Z m * T (X - 5) == v).
Proof.
  intros v n d m X Hn Q E. unfold significand in E. destruct (leading_spec v n d Hn Q) as [L U]. set (Y := leading n d) in *. clearbody Y.
  destruct (scale n d (5 - Y)) as [a b] eqn:Es. pose proof (scale_spec v n d _ a b Q Es) as Q'. pose proof Q' as [Hb Hv'].
  set (w := v * T (5 - Y)) in *.
  assert (W : v == w * T (Y - 5)). { unfold w. rewrite <- Qmult_assoc, <- T_plus. replace (5 - Y + (Y - 5))%Z with 0%Z by lia. rewrite T_0. ring. }
  pose proof (T_pos (5 - Y)) as P5. pose proof (T_pos (Y - 5)) as PY.
  assert (W1 : inject_Z (10 ^ 5) <= w).
  { rewrite T_Z by lia. unfold w. replace 5%Z with (Y + (5 - Y))%Z at 1 by lia. rewrite T_plus. apply Qmult_le_compat_r; lra. }
  assert (W2 : w < inject_Z (10 ^ 6)).
  { rewrite T_Z by lia. unfold w. replace 6%Z with (Y + 1 + (5 - Y))%Z by lia. rewrite T_plus. apply Qmult_lt_r; assumption. }
  apply (quot_le _ _ _ _ Q') in W1 as Z1. apply (quot_lt _ _ _ _ Q') in W2 as Z2.
  destruct (round_even_spec a b Hb) as [R1 R2]. set (q := round_even a b) in *. clearbody q.
  assert (B1 : (10 ^ 5 <= q)%Z) by nia. assert (B2 : (q <= 10 ^ 6)%Z) by nia.
  (* q is within 1/2 of w *)
  apply inj_pos in Hb as Hb'.
  assert (C1 : inject_Z q - w <= 1 # 2).
  { apply (Qmult_le_r _ _ _ Hb'). destruct R1 as [_ R1]. rewrite Zle_Qle, inject_Z_mult in R1. unfold Z.sub in R1. rewrite inject_Z_plus, inject_Z_opp, inject_Z_mult, <- Hv' in R1. change (inject_Z 2) with 2 in R1. lra. }
  assert (C2 : - (1 # 2) <= inject_Z q - w).
  { apply (Qmult_le_r _ _ _ Hb'). destruct R1 as [R1 _]. rewrite Zle_Qle, inject_Z_mult in R1. unfold Z.sub in R1. rewrite inject_Z_plus, !inject_Z_opp, inject_Z_mult, <- Hv' in R1. change (inject_Z 2) with 2 in R1. lra. }
  assert (M : inject_Z m * T (X - 5) == inject_Z q * T (Y - 5)).
  { cbv zeta in E. destruct (Z.eqb_spec q (10 ^ 6)) as [K|K]; injection E as <- <-; [|reflexivity].
    rewrite K. replace (Y + 1 - 5)%Z with (1 + (Y - 5))%Z by lia. rewrite T_plus. change (10 ^ 6)%Z with (10 ^ 5 * 10)%Z. rewrite inject_Z_mult. change (T 1) with (inject_Z 10). rewrite Qmult_assoc. reflexivity. }
  split; [cbv zeta in E; destruct (Z.eqb_spec q (10 ^ 6)) as [K|K]; injection E as <- <-; lia|]. rewrite M. split.
  - assert (F : inject_Z q * T (Y - 5) - v == (inject_Z q - w) * T (Y - 5)) by (rewrite W at 1; ring).
    assert (F2 : (1 # 2) * T (Y - 5) <= (5 # 1000000) * v).
    { rewrite W. rewrite Qmult_assoc. apply Qmult_le_compat_r; [|lra]. change (inject_Z (10 ^ 5)) with 100000 in W1. lra. }
    apply Qabs_bound. rewrite F. split.
    + apply Qle_trans with (- ((1 # 2)) * T (Y - 5)); [lra|]. apply Qmult_le_compat_r; lra.
    + apply Qle_trans with ((1 # 2) * T (Y - 5)); [|exact F2]. apply Qmult_le_compat_r; lra.
  - intros k e Hk Hv. destruct (Z.le_gt_cases (Y - 5) e) as [He|He].
    + assert (Hw : w == inject_Z (k * 10 ^ (e - (Y - 5)))).
      { unfold w. rewrite Hv, inject_Z_mult, T_Z by lia. rewrite <- Qmult_assoc, <- T_plus. replace (e + (5 - Y))%Z with (e - (Y - 5))%Z by lia. reflexivity. }
      assert (Ha : (a = (k * 10 ^ (e - (Y - 5))) * b)%Z). { apply inject_Z_injective. rewrite <- Hv', Hw, inject_Z_mult. reflexivity. }
      assert (Hm : (a mod b = 0)%Z) by (rewrite Ha; apply Z.mod_mul; lia). specialize (R2 Hm).
      assert (Hq : inject_Z q == w). { apply (Qmult_inj_r _ _ (inject_Z b)); [lra|]. rewrite Hv', <- inject_Z_mult, R2. reflexivity. }
      rewrite M, W. apply Qmult_comp; [exact Hq|reflexivity].
    + exfalso. assert (Hle : T Y <= T (e + 6) * 0 + inject_Z k * T e) by (rewrite <- Hv; lra).
      assert (K1 : T (e + 6) <= T Y) by (apply Qpower_le_compat_l; [lia|discriminate]). rewrite T_plus in K1.
      assert (K2 : inject_Z k < T 6). { rewrite <- T_Z by lia. rewrite <- Zlt_Qlt. lia. }
      pose proof (T_pos e) as Pe. assert (K3 : inject_Z k * T e < T 6 * T e) by (apply Qmult_lt_r; assumption). lra.
Qed.

(** *** The characters *)
Lemma drop_zeros_spec : forall l, exists j, l = repeat 0%N j ++ drop_zeros l.
Proof.
  induction l as [|d l [j IH]]; [exists O; reflexivity|]. destruct d as [|p]; [|exists O; reflexivity].
  cbn [drop_zeros]. exists (S j). cbn [repeat app]. f_equal. exact IH.
Qed.
Lemma rev_zeros : forall j, rev (repeat 0%N j) = repeat 0%N j.
Proof.
  induction j as [|j IH]; [reflexivity|]. cbn [repeat rev]. rewrite IH. change [0%N] with (repeat 0%N 1). rewrite <- repeat_app, Nat.add_comm. reflexivity.
Qed.
Lemma strip_spec : forall l, exists j, l = strip l ++ repeat 0%N j.
Proof.
  intro l. destruct (drop_zeros_spec (rev l)) as [j H]. exists j. unfold strip. apply (f_equal (@rev N)) in H. rewrite rev_involutive, rev_app_distr, rev_zeros in H. exact H.
Qed.
Lemma number_zeros : forall l j, number (l ++ repeat 0%N j) = (number l * 10 ^ N.of_nat j)%N.
Proof.
  intros l j. induction j as [|j IH].
  - cbn [repeat]. rewrite app_nil_r. change (10 ^ N.of_nat 0)%N with 1%N. lia.
  - replace (repeat 0%N (S j)) with (repeat 0%N j ++ [0%N]).
    + rewrite app_assoc, number_snoc, IH, Nat2N.inj_succ, N.pow_succ_r'. lia.
    + change [0%N] with (repeat 0%N 1). rewrite <- repeat_app, Nat.add_comm. reflexivity.
Qed.
Lemma number_leading : forall j l, number (repeat 0%N j ++ l) = number l.
Proof. intros j l. induction j as [|j IH]; [reflexivity|]. cbn [repeat app]. unfold number in *. cbn [fold_left]. change (10 * 0 + 0)%N with 0%N. exact IH. Qed.
(** Digits before the point, digits after it of which trailing zeros are left out, an
    exponent: the number that has all of the digits. *)
Lemma text_real : forall g s1 ip l k s4 w, sign_of g s1 -> Forall (fun d => (d < 10)%N) (ip ++ l) -> ip <> [] ->
  ((k = 0%Z /\ s4 = []) \/
   (exists e h ep t1 t2, (e = "e"%char \/ e = "E"%char) /\ s4 = e :: t1 ++ t2 /\ sign_of h t1 /\ ep <> [] /\ digits_of ep t2 /\ k = (h * Z.of_N (value ep))%Z)) ->
  number (ip ++ l) = w ->
  exists x, real x (s1 ++ map digit_char ip ++ fraction (strip l) ++ s4) /\ number_of x == inject_Z (g * Z.of_N w) * T (k - Z.of_nat (length l)).
Proof.
  intros g s1 ip l k s4 w Hg Hd Hne Hk Hw. destruct (strip_spec l) as [j Hl].
  exists ((g * Z.of_N (value (ip ++ strip l)))%Z, (k - Z.of_nat (length (strip l)))%Z). split.
  - exists g, ip, (strip l), s1, (map digit_char ip), (fraction (strip l)), s4, k.
    apply Forall_app in Hd. destruct Hd as [D1 D2]. rewrite Hl in D2. apply Forall_app in D2. destruct D2 as [D2 _].
    split; [reflexivity|]. split; [exact Hg|]. split; [split; [exact D1|reflexivity]|].
    split; [intro E; apply app_eq_nil in E; tauto|]. split.
    + unfold fraction. destruct (strip l) as [|c r]; [left; split; reflexivity|]. right. exists (map digit_char (c :: r)). split; [reflexivity|]. split; [exact D2|reflexivity].
    + split; [exact Hk|reflexivity].
  - unfold number_of. cbn [fst snd].
    assert (E : w = (value (ip ++ strip l) * 10 ^ N.of_nat j)%N).
    { rewrite <- Hw, Hl, app_assoc, number_zeros, number_value. f_equal. rewrite <- Hl. reflexivity. }
    rewrite E, N2Z.inj_mul, N2Z.inj_pow, nat_N_Z. change (Z.of_N 10) with 10%Z. rewrite Z.mul_assoc, (inject_Z_mult _ (10 ^ Z.of_nat j)), T_Z by lia.
    assert (HL : length l = (length (strip l) + j)%nat) by (rewrite Hl at 1; rewrite app_length, repeat_length; reflexivity).
    rewrite <- Qmult_assoc, <- T_plus. rewrite HL, Nat2Z.inj_add.
    replace (Z.of_nat j + (k - (Z.of_nat (length (strip l)) + Z.of_nat j)))%Z with (k - Z.of_nat (length (strip l)))%Z by lia. reflexivity.
Qed.
Lemma show_g_spec : forall x, exists d, real d (show_g x) /\ six_digits d x /\ True.
Proof.
  intro x. unfold show_g. destruct (Z.eqb_spec (Qnum x) 0) as [E0|E0].
  - assert (Hx : x == 0) by (unfold Qeq; rewrite E0; reflexivity). exists (nat_ 0). split; [exact (show_real 0)|].
    assert (Hn : number_of (nat_ 0) == 0) by reflexivity. split; [|exact I]. split.
    + rewrite Hn, Hx. apply Qabs_bound. cbn. lra.
    + intros. rewrite Hn, Hx. reflexivity.
  - set (g := if (Qnum x <? 0)%Z then (-1)%Z else 1%Z). set (s1 := if (Qnum x <? 0)%Z then str "-" else []).
    assert (Hg : sign_of g s1) by (unfold g, s1; destruct (Qnum x <? 0)%Z; [right|left]; split; auto).
    set (n := Z.abs (Qnum x)). set (dn := Zpos (Qden x)). assert (Hn : (0 < n)%Z) by (unfold n; lia).
    set (v := n # Qden x). assert (Qv : quot v n dn) by (split; [reflexivity|unfold Qeq, v, dn; cbn; lia]).
    assert (Gx : x == inject_Z g * v). { unfold Qeq, v, g, n. cbn. destruct (Z.ltb_spec (Qnum x) 0); lia. }
    assert (Ax : Qabs x == v) by (destruct x as [xn xd]; reflexivity).
    assert (Gg : inject_Z g * inject_Z g == 1) by (unfold g; destruct (Qnum x <? 0)%Z; reflexivity).
    destruct (significand n dn) as [m X] eqn:E. destruct (significand_spec v n dn m X Hn Qv E) as (Hm & Hc & Hex).
    set (ds := digs 6 (Z.to_N m)).
    assert (Hlen : length ds = 6%nat) by apply digs_length. assert (Hsm : Forall (fun d => (d < 10)%N) ds) by apply digs_small.
    assert (Hnum : number ds = Z.to_N m). { unfold ds. rewrite digs_number. apply N.mod_small. change (10 ^ N.of_nat 6)%N with 1000000%N. lia. }
    clearbody ds.
    assert (Key : exists d, real d (s1 ++ (if (-4 <=? X)%Z && (X <? 6)%Z then
       if (0 <=? X)%Z then let k := Z.to_nat (X + 1) in map digit_char (firstn k ds) ++ fraction (strip (skipn k ds))
       else str "0" ++ fraction (strip (repeat 0%N (Z.to_nat (- X - 1)) ++ ds))
       else map digit_char (firstn 1 ds) ++ fraction (strip (skipn 1 ds)) ++ str "e" ++ (if (X <? 0)%Z then str "-" else str "+") ++
          (let e := Z.abs_N X in map digit_char (digs (Nat.max 2 (width e)) e)))) /\ number_of d == inject_Z (g * m) * T (X - 5)).
    { assert (Em : Z.of_N (Z.to_N m) = m) by (apply Z2N.id; lia).
      destruct (Z.leb_spec (-4) X) as [K1|K1]; destruct (Z.ltb_spec X 6) as [K2|K2]; cbn [andb].
      - destruct (Z.leb_spec 0 X) as [K3|K3].
        + set (k := Z.to_nat (X + 1)).
          destruct (text_real g s1 (firstn k ds) (skipn k ds) 0 [] (Z.to_N m) Hg) as (d & Hr & Hv).
          * rewrite firstn_skipn. exact Hsm.
          * intro Z0. apply (f_equal (@length N)) in Z0. rewrite firstn_length, Hlen in Z0. cbn [length] in Z0. unfold k in Z0. lia.
          * left. split; reflexivity.
          * rewrite firstn_skipn. exact Hnum.
          * exists d. rewrite app_nil_r in Hr. split; [exact Hr|]. rewrite Hv, Em, skipn_length, Hlen. replace (0 - Z.of_nat (6 - k))%Z with (X - 5)%Z by (unfold k; lia). reflexivity.
        + destruct (text_real g s1 [0%N] (repeat 0%N (Z.to_nat (- X - 1)) ++ ds) 0 [] (Z.to_N m) Hg) as (d & Hr & Hv).
          * constructor; [reflexivity|]. apply Forall_app. split; [|exact Hsm]. apply Forall_forall. intros y Hy. apply repeat_spec in Hy. subst y. reflexivity.
          * discriminate.
          * left. split; reflexivity.
          * rewrite <- Hnum. change ([0%N] ++ repeat 0%N (Z.to_nat (- X - 1)) ++ ds) with (repeat 0%N (S (Z.to_nat (- X - 1))) ++ ds). apply number_leading.
          * exists d. rewrite app_nil_r in Hr. split; [exact Hr|]. rewrite Hv, Em, app_length, repeat_length, Hlen. replace (0 - Z.of_nat (Z.to_nat (- X - 1) + 6))%Z with (X - 5)%Z by lia. reflexivity.
      - destruct (Z.leb_spec 0 X) as [K3|K3]; [|lia]. clear K3. revert K1 K2. intros K1 K2. assert (Hsci : True) by exact I.
        set (e := Z.abs_N X). set (ep := digs (Nat.max 2 (width e)) e).
        destruct (text_real g s1 (firstn 1 ds) (skipn 1 ds) X (str "e" ++ (if (X <? 0)%Z then str "-" else str "+") ++ map digit_char ep) (Z.to_N m) Hg) as (d & Hr & Hv).
        + rewrite firstn_skipn. exact Hsm.
        + intro Z0. apply (f_equal (@length N)) in Z0. rewrite firstn_length, Hlen in Z0. discriminate Z0.
        + right. exists "e"%char, (if (X <? 0)%Z then (-1)%Z else 1%Z), ep, (if (X <? 0)%Z then str "-" else str "+"), (map digit_char ep).
          split; [left; reflexivity|]. split; [reflexivity|]. split; [destruct (X <? 0)%Z; [right|left]; split; auto|].
          split; [intro Z0; apply (f_equal (@length N)) in Z0; unfold ep in Z0; rewrite digs_length in Z0; cbn [length] in Z0; lia|].
          split; [split; [apply digs_small|reflexivity]|]. rewrite <- number_value. unfold ep. rewrite digs_number, N.mod_small; [unfold e; destruct (Z.ltb_spec X 0); lia|].
          apply N.lt_le_trans with (10 ^ N.of_nat (width e))%N; [apply width_spec|]. apply N.pow_le_mono_r; [discriminate|lia].
        + rewrite firstn_skipn. exact Hnum.
        + exists d. split; [exact Hr|]. rewrite Hv, Em, skipn_length, Hlen. change (Z.of_nat (6 - 1)) with 5%Z. reflexivity.
      - set (e := Z.abs_N X). set (ep := digs (Nat.max 2 (width e)) e).
        destruct (text_real g s1 (firstn 1 ds) (skipn 1 ds) X (str "e" ++ (if (X <? 0)%Z then str "-" else str "+") ++ map digit_char ep) (Z.to_N m) Hg) as (d & Hr & Hv).
        + rewrite firstn_skipn. exact Hsm.
        + intro Z0. apply (f_equal (@length N)) in Z0. rewrite firstn_length, Hlen in Z0. discriminate Z0.
        + right. exists "e"%char, (if (X <? 0)%Z then (-1)%Z else 1%Z), ep, (if (X <? 0)%Z then str "-" else str "+"), (map digit_char ep).
          split; [left; reflexivity|]. split; [reflexivity|]. split; [destruct (X <? 0)%Z; [right|left]; split; auto|].
          split; [intro Z0; apply (f_equal (@length N)) in Z0; unfold ep in Z0; rewrite digs_length in Z0; cbn [length] in Z0; lia|].
          split; [split; [apply digs_small|reflexivity]|]. rewrite <- number_value. unfold ep. rewrite digs_number, N.mod_small; [unfold e; destruct (Z.ltb_spec X 0); lia|].
          apply N.lt_le_trans with (10 ^ N.of_nat (width e))%N; [apply width_spec|]. apply N.pow_le_mono_r; [discriminate|lia].
        + rewrite firstn_skipn. exact Hnum.
        + exists d. split; [exact Hr|]. rewrite Hv, Em, skipn_length, Hlen. change (Z.of_nat (6 - 1)) with 5%Z. reflexivity.
      - lia. }
    destruct Key as (d & Hr & Hv). exists d. split; [exact Hr|]. rewrite inject_Z_mult in Hv. split; [|exact I]. split.
    + rewrite Ax. rewrite Hv. setoid_replace (inject_Z g * inject_Z m * T (X - 5) - x) with (inject_Z g * (inject_Z m * T (X - 5) - v)) by (rewrite Gx; ring).
      rewrite Qabs_Qmult. assert (Ag : Qabs (inject_Z g) == 1) by (unfold g; destruct (Qnum x <? 0)%Z; reflexivity). rewrite Ag, Qmult_1_l. exact Hc.
    + intros k e Hk Hx. rewrite Hv, <- Qmult_assoc, (Hex (g * k)%Z e); [symmetry; exact Gx| |].
      * unfold g. destruct (Qnum x <? 0)%Z; lia.
      * rewrite inject_Z_mult, <- Qmult_assoc, <- Hx, Gx, Qmult_assoc, Gg. ring.
Qed.
