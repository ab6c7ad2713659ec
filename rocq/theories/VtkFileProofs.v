(** Floating point numbers in text files. *)
From Coq Require Import String Ascii List Arith NArith ZArith QArith Qabs Qpower Bool Lia Psatz Lqa.
Import ListNotations.
From Verif Require Import Base MshModel MshSpec MshProofs WriteModel WriteSpec WriteProofs WriteProofs2 VtkFileModel VtkFileSpec.
Local Open Scope list_scope.
Local Open Scope Q_scope.

Lemma fixed_parts_spec : forall n d i f, (0 < d)%Z -> (0 <= n)%Z -> fixed_parts n d = (i, f) ->
  (0 <= i)%Z /\ (0 <= f < 1000)%Z /\ (- d <= 2 * ((1000 * i + f) * d - 1000 * n) <= d)%Z /\
  (forall k, (1000 * n = k * d)%Z -> (1000 * i + f = k)%Z).
Proof.
  intros n d i f Hd Hn E. unfold fixed_parts in E. pose proof (Z.div_mod n d ltac:(lia)) as D. pose proof (Z.mod_pos_bound n d Hd) as M.
  pose proof (Z.div_pos n d Hn Hd) as P. set (q := (n / d)%Z) in *. set (r := (n mod d)%Z) in *. clearbody q r.
  pose proof (Z.div_mod (2 * 1000 * r + d) (2 * d) ltac:(lia)) as D2. pose proof (Z.mod_pos_bound (2 * 1000 * r + d) (2 * d) ltac:(lia)) as M2.
  set (g := ((2 * 1000 * r + d) / (2 * d))%Z) in *. set (t := ((2 * 1000 * r + d) mod (2 * d))%Z) in *. clearbody g t.
  assert (G0 : (0 <= g)%Z) by nia. assert (G1 : (g <= 1000)%Z) by nia.
  assert (Key : (- d <= 2 * ((1000 * q + g) * d - 1000 * n) <= d)%Z) by nia.
  assert (Ex : forall k, (1000 * n = k * d)%Z -> (1000 * q + g = k)%Z).
  { intros k Hk. assert (F : (1000 * r = (k - 1000 * q) * d)%Z) by nia. set (j := (k - 1000 * q)%Z) in *. assert (g = j) by nia. unfold j in *. lia. }
  cbv zeta in E. destruct (Z.leb_spec 1000 g) as [K|K]; injection E as <- <-.
  - assert (g = 1000)%Z by lia. subst g. replace (1000 * (q + 1) + (1000 - 1000))%Z with (1000 * q + 1000)%Z by lia. split; [lia|]. split; [lia|]. split; assumption.
  - split; [lia|]. split; [lia|]. split; assumption.
Qed.
Lemma number_app : forall b a, number (a ++ b) = (number a * 10 ^ N.of_nat (length b) + number b)%N.
Proof.
  intros b a. induction b as [|d b IH] using rev_ind.
  - rewrite app_nil_r. cbn [length]. change (10 ^ N.of_nat 0)%N with 1%N. change (number []) with 0%N. lia.
  - rewrite app_assoc, !number_snoc, IH, app_length. cbn [length]. rewrite Nat.add_1_r, Nat2N.inj_succ, N.pow_succ_r'. lia.
Qed.
Lemma digs_app_number : forall n f, (f < 1000)%N -> number (digs (width n) n ++ digs 3 f) = (1000 * n + f)%N.
Proof.
  intros n f Hf. destruct (width_spec n) as (A & _ & _). rewrite number_app, digs_length, !digs_number.
  rewrite N.mod_small by exact A. change (10 ^ N.of_nat 3)%N with 1000%N. rewrite N.mod_small by exact Hf. lia.
Qed.
(** Sign, parts, exponent. *)
Lemma parts_real : forall g s1 i f k s4, sign_of g s1 -> (0 <= i)%Z -> (0 <= f < 1000)%Z ->
  ((k = 0%Z /\ s4 = []) \/
   (exists e h ep t1 t2, (e = "e"%char \/ e = "E"%char) /\ s4 = e :: t1 ++ t2 /\ sign_of h t1 /\ ep <> [] /\ digits_of ep t2 /\ k = (h * Z.of_N (MshSpec.value ep))%Z)) ->
  exists x, MshSpec.real x (s1 ++ parts_text (i, f) ++ s4) /\ number_of x == inject_Z (g * (1000 * i + f)) * T (k - 3).
Proof.
  intros g s1 i f k s4 Hg Hi Hf Hk. unfold parts_text. cbn [fst snd].
  set (ip := digs (width (Z.to_N i)) (Z.to_N i)). set (l := digs 3 (Z.to_N f)).
  assert (Nw : number (ip ++ l) = (1000 * Z.to_N i + Z.to_N f)%N) by (apply digs_app_number; lia).
  assert (Hip : ip <> []). { unfold ip. intro E. apply (f_equal (@length N)) in E. rewrite digs_length in E. pose proof (width_spec (Z.to_N i)) as (_ & _ & W). cbn in E. lia. }
  assert (Hsm : Forall (fun d => (d < 10)%N) (ip ++ l)) by (apply Forall_app; split; apply digs_small).
  assert (Ew : Z.of_N (1000 * Z.to_N i + Z.to_N f) = (1000 * i + f)%Z) by lia.
  assert (Ll : length l = 3%nat) by apply digs_length.
  destruct (strip l) as [|c r] eqn:Es.
  - assert (F0 : Z.to_N f = 0%N).
    { destruct (strip_spec l) as [j Hj]. rewrite Es in Hj. cbn [app] in Hj. assert (number l = 0%N) by (rewrite Hj; rewrite <- (app_nil_r (repeat 0%N j)), number_leading; reflexivity).
      unfold l in H. rewrite digs_number in H. change (10 ^ N.of_nat 3)%N with 1000%N in H. rewrite N.mod_small in H by lia. exact H. }
    exists ((g * Z.of_N (MshSpec.value (ip ++ [0%N])))%Z, (k - 1)%Z). split.
    + exists g, ip, [0%N], s1, (map digit_char ip), (str "." ++ str "0"), s4, k.
      apply Forall_app in Hsm. destruct Hsm as [D1 _].
      split; [unfold show_N; fold ip; rewrite <- !app_assoc; reflexivity|]. split; [exact Hg|]. split; [split; [exact D1|reflexivity]|].
      split; [intro E; apply app_eq_nil in E; tauto|]. split; [right; exists (str "0"); split; [reflexivity|split; [repeat constructor|reflexivity]]|].
      split; [exact Hk|]. cbn [length]. f_equal; lia.
    + unfold number_of. cbn [fst snd].
      assert (V : MshSpec.value (ip ++ [0%N]) = (10 * Z.to_N i)%N).
      { rewrite <- number_value, number_snoc. destruct (width_spec (Z.to_N i)) as (A & _ & _). unfold ip. rewrite digs_number, N.mod_small by exact A. lia. }
      rewrite V. replace (g * (1000 * i + f))%Z with ((g * (10 * i)) * 10 ^ 2)%Z by (replace f with 0%Z by lia; ring). rewrite (inject_Z_mult _ (10 ^ 2)), T_Z by lia. rewrite <- Qmult_assoc, <- T_plus.
      replace (2 + (k - 3))%Z with (k - 1)%Z by lia. replace (Z.of_N (10 * Z.to_N i)) with (10 * i)%Z by lia. reflexivity.
  - destruct (text_real g s1 ip l k s4 _ Hg Hsm Hip Hk Nw) as (x & Hx & Hv). exists x. rewrite Es in Hx. unfold fraction in Hx. split.
    + unfold show_N. fold ip. rewrite <- !app_assoc. exact Hx.
    + rewrite Hv, Ew, Ll. reflexivity.
Qed.
(** The rounded number. *)
Lemma rounding : forall v n d i f, quot v n d -> (0 <= n)%Z -> fixed_parts n d = (i, f) ->
  Qabs (inject_Z (1000 * i + f) * T (-3) - v) <= 1 # 2000 /\ (forall k, v == inject_Z k * T (-3) -> inject_Z (1000 * i + f) * T (-3) == v).
Proof.
  intros v n d i f [Hd Hv] Hn E. destruct (fixed_parts_spec n d i f Hd Hn E) as (_ & _ & K & X). set (m := (1000 * i + f)%Z) in *. clearbody m.
  apply inj_pos in Hd as Hd'. change (T (-3)) with (1 # 1000). split.
  - destruct K as [K1 K2]. rewrite Zle_Qle, inject_Z_mult in K1, K2. unfold Z.sub in K1, K2.
    rewrite inject_Z_plus, !inject_Z_opp, !inject_Z_mult, <- Hv in K1. rewrite inject_Z_plus, inject_Z_opp, !inject_Z_mult, <- Hv in K2.
    change (inject_Z 2) with 2 in K1, K2. change (inject_Z 1000) with 1000 in K1, K2. apply Qabs_bound. split; apply (Qmult_le_r _ _ _ Hd'); lra.
  - intros k Hk. assert (E1 : (1000 * n = k * d)%Z).
    { apply inject_Z_injective. rewrite !inject_Z_mult, <- Hv, Hk. change (T (-3)) with (1 # 1000). change (inject_Z 1000) with 1000. lra. }
    rewrite (X k E1). symmetry. exact Hk.
Qed.
Lemma real_text_spec : forall x, exists d, MshSpec.real d (real_text (Finite x)) /\ three_digits d x.
Proof.
  intro x. unfold real_text. set (n := Z.abs (Qnum x)). set (dn := Zpos (Qden x)). set (v := n # Qden x).
  assert (Ax : Qabs x == v) by (destruct x as [xn xd]; reflexivity).
  assert (Qv : quot v n dn) by (split; [reflexivity|unfold Qeq, v, dn; cbn; lia]).
  set (g := if (Qnum x <? 0)%Z then (-1)%Z else 1%Z).
  assert (Hg : sign_of g (minus (Qnum x <? 0)%Z)) by (unfold g, minus; destruct (Qnum x <? 0)%Z; [right|left]; split; auto).
  assert (Gx : x == inject_Z g * v). { unfold Qeq, v, g, n. cbn. destruct (Z.ltb_spec (Qnum x) 0); lia. }
  assert (Gg : inject_Z g * inject_Z g == 1) by (unfold g; destruct (Qnum x <? 0)%Z; reflexivity).
  assert (Ga : Qabs (inject_Z g) == 1) by (unfold g; destruct (Qnum x <? 0)%Z; reflexivity).
  assert (Hn0 : (0 <= n)%Z) by (unfold n; lia).
  destruct (Z.eqb_spec n 0) as [E0|E0].
  - assert (Hx : x == 0) by (unfold Qeq; cbn; unfold n in E0; lia).
    exists (0%Z, (-1)%Z). split.
    + exists 1%Z, [0%N], [0%N], [], (str "0"), (str ".0"), [], 0%Z. split; [reflexivity|]. split; [left; split; auto|].
      split; [split; [repeat constructor|reflexivity]|]. split; [discriminate|]. split; [right; exists (str "0"); split; [reflexivity|split; [repeat constructor|reflexivity]]|].
      split; [left; split; reflexivity|reflexivity].
    + split.
      * intros [M _]. exfalso. rewrite Hx in M. apply (Qle_not_lt _ _ M). reflexivity.
      * intros _. assert (N0 : number_of (0%Z, (-1)%Z) == 0) by reflexivity. split; [rewrite N0, Hx; discriminate|]. intros. rewrite N0, Hx. reflexivity.
  - assert (Mod : moderate x <-> (dn <=? n * 1000)%Z && (n <? 100000 * dn)%Z = true).
    { unfold moderate. rewrite Ax, andb_true_iff, Z.leb_le, Z.ltb_lt. destruct Qv as [Hd Hv]. apply inj_pos in Hd.
      rewrite Zle_Qle, Zlt_Qlt, !inject_Z_mult, <- Hv. change (inject_Z 1000) with 1000. change (inject_Z 100000) with 100000.
      pose proof (Qmult_le_r (1 # 1000) v _ Hd) as L1. pose proof (Qmult_lt_r v 100000 _ Hd) as L2.
      split; intros [M1 M2]; split; try (apply L2 in M2 || apply L2; exact M2).
      - apply L1 in M1. lra.
      - apply L1. lra. }
    destruct ((dn <=? n * 1000)%Z && (n <? 100000 * dn)%Z) eqn:EM.
    + destruct (fixed_parts n dn) as [i f] eqn:Ef. destruct (fixed_parts_spec n dn i f ltac:(reflexivity) Hn0 Ef) as (Hi & Hf & _ & _).
      destruct (parts_real g _ i f 0 [] Hg Hi Hf (or_introl (conj eq_refl eq_refl))) as (d & Hd & Hv). exists d. rewrite app_nil_r in Hd. split; [exact Hd|].
      destruct (rounding v n dn i f Qv Hn0 Ef) as [R1 R2]. change (0 - 3)%Z with (-3)%Z in Hv. rewrite inject_Z_mult in Hv. set (m := (1000 * i + f)%Z) in *. clearbody m.
      split; [|intro K; exfalso; apply K, Mod; reflexivity]. intros _. split.
      * rewrite Hv, Gx. setoid_replace (inject_Z g * inject_Z m * T (-3) - inject_Z g * v) with (inject_Z g * (inject_Z m * T (-3) - v)) by ring.
        rewrite Qabs_Qmult, Ga. rewrite Qmult_1_l. exact R1.
      * intros k Hk. assert (K : v == inject_Z (g * k) * T (-3)).
        { rewrite inject_Z_mult. rewrite <- Qmult_assoc, <- Hk, Gx, Qmult_assoc, Gg. ring. }
        rewrite Hv, <- Qmult_assoc, (R2 _ K). symmetry. exact Gx.
    + assert (Hn : (0 < n)%Z) by lia. destruct (leading_spec v n dn Hn Qv) as [L U]. cbv zeta. set (X := leading n dn) in *. clearbody X.
      destruct (scale n dn (- X)) as [a b] eqn:Es. pose proof (scale_spec v n dn _ a b Qv Es) as Qw. set (w := v * T (- X)) in *.
      assert (Ew : v == w * T X). { unfold w. rewrite <- Qmult_assoc, <- T_plus. replace (- X + X)%Z with 0%Z by lia. rewrite T_0. ring. }
      pose proof (T_pos X) as PX. pose proof (T_pos (- X)) as PX'.
      assert (W1 : 1 <= w). { assert (F : T X * T (- X) <= v * T (- X)) by (apply Qmult_le_compat_r; lra). rewrite T_opp in F. exact F. }
      assert (W2 : w < 10). { assert (F : T (X + 1) * T (- X) == 10) by (rewrite <- T_plus; replace (X + 1 + - X)%Z with 1%Z by lia; reflexivity). assert (F2 : v * T (- X) < T (X + 1) * T (- X)) by (apply Qmult_lt_r; assumption). fold w in F2. lra. }
      assert (Ha : (0 <= a)%Z). { apply (quot_le w a b 0 Qw). change (inject_Z 0) with 0. lra. }
      destruct (fixed_parts a b) as [i f] eqn:Ef. destruct Qw as [Hb Hbw]. destruct (fixed_parts_spec a b i f Hb Ha Ef) as (Hi & Hf & _ & _).
      destruct (rounding w a b i f (conj Hb Hbw) Ha Ef) as [R1 R2].
      set (e := Z.abs_N X). set (h := if (X <? 0)%Z then (-1)%Z else 1%Z). set (t2 := (if (e <? 10)%N then str "0" else []) ++ show_N e).
      assert (Hh : sign_of h (minus (X <? 0)%Z)) by (unfold h, minus; destruct (X <? 0)%Z; [right|left]; split; auto).
      destruct (show_N_digits e) as (ds & Hds & Hdd & Hdv).
      assert (Ht : exists ep, ep <> [] /\ digits_of ep t2 /\ MshSpec.value ep = e).
      { unfold t2. destruct (e <? 10)%N.
        - exists (0%N :: ds). split; [discriminate|]. destruct Hdd as [D1 D2]. split; [split; [constructor; [reflexivity|exact D1]|cbn [map app str list_ascii_of_string]; f_equal; exact D2]|].
          rewrite <- number_value, <- Hdv, <- number_value. exact (number_leading 1 ds).
        - exists ds. split; [exact Hds|]. split; [exact Hdd|exact Hdv]. }
      destruct Ht as (ep & He1 & He2 & He3).
      destruct (parts_real g (minus (Qnum x <? 0)%Z) i f X ("e"%char :: minus (X <? 0)%Z ++ t2) Hg Hi Hf) as (d & Hd & Hv).
      { right. exists "e"%char, h, ep, (minus (X <? 0)%Z), t2. split; [left; reflexivity|]. split; [reflexivity|]. split; [exact Hh|]. split; [exact He1|]. split; [exact He2|].
        rewrite He3. unfold h, e. destruct (Z.ltb_spec X 0); lia. }
      exists d. split; [exact Hd|]. rewrite inject_Z_mult in Hv. replace (X - 3)%Z with (-3 + X)%Z in Hv by lia. rewrite T_plus in Hv. set (m := (1000 * i + f)%Z) in *. clearbody m.
      split; [intro K; apply Mod in K; discriminate K|]. intros _. split.
      * rewrite Hv, Ax, Gx, Ew. setoid_replace (inject_Z g * inject_Z m * (T (-3) * T X) - inject_Z g * (w * T X)) with (inject_Z g * ((inject_Z m * T (-3) - w) * T X)) by ring.
        rewrite Qabs_Qmult, Ga, Qmult_1_l, Qabs_Qmult, (Qabs_pos (T X)) by lra.
        apply Qle_trans with ((1 # 2000) * T X); [apply Qmult_le_compat_r; [exact R1|lra]|]. rewrite Qmult_assoc. apply Qmult_le_compat_r; [lra|lra].
      * intros k j Hk Hx. assert (Hvk : v == inject_Z (g * k) * T j). { rewrite inject_Z_mult, <- Qmult_assoc, <- Hx, Gx, Qmult_assoc, Gg. ring. }
        assert (Hj : (X - 3 <= j)%Z).
        { destruct (Z.le_gt_cases (X - 3) j) as [J|J]; [exact J|]. exfalso.
          assert (K1 : T (j + 4) <= T X) by (apply Qpower_le_compat_l; [lia|discriminate]). rewrite T_plus in K1.
          assert (K2 : inject_Z (g * k) < T 4). { rewrite <- T_Z by lia. rewrite <- Zlt_Qlt. unfold g. destruct (Qnum x <? 0)%Z; lia. }
          pose proof (T_pos j) as Pj. assert (K3 : inject_Z (g * k) * T j < T 4 * T j) by (apply Qmult_lt_r; assumption). rewrite <- Hvk in K3. lra. }
        assert (Hw : w == inject_Z (g * k * 10 ^ (j - X + 3)) * T (-3)).
        { unfold w. rewrite Hvk, (inject_Z_mult (g * k)), T_Z by lia. rewrite <- !Qmult_assoc, <- !T_plus. replace (j - X + 3 + -3)%Z with (j + - X)%Z by lia. reflexivity. }
        rewrite Hv, Gx, Ew. setoid_replace (inject_Z g * inject_Z m * (T (-3) * T X)) with (inject_Z g * ((inject_Z m * T (-3)) * T X)) by ring. rewrite (R2 _ Hw). reflexivity.
Qed.
