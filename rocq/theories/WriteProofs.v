(** Numbers in text files. *)
From Coq Require Import String Ascii List Arith NArith ZArith QArith Qabs Bool Lia Psatz.
Import ListNotations.
From Verif Require Import Base MeshView MshModel MshSpec MshProofs RefineModel WriteModel WriteSpec.
Local Open Scope list_scope.
Local Open Scope nat_scope.

(** *** Decimal digits *)
Lemma number_snoc : forall l d, number (l ++ [d]) = (10 * number l + d)%N.
Proof. intros l d. unfold number. rewrite fold_left_app. reflexivity. Qed.
Lemma digs_small : forall k n, Forall (fun d => (d < 10)%N) (digs k n).
Proof.
  induction k as [|k IH]; intro n; cbn [digs]; [constructor|]. apply Forall_app. split; [apply IH|].
  constructor; [|constructor]. apply N.mod_lt. lia.
Qed.
Lemma digs_length : forall k n, length (digs k n) = k.
Proof. induction k as [|k IH]; intro n; cbn [digs]; [reflexivity|]. rewrite app_length, IH. cbn [length]. lia. Qed.
Lemma digs_number : forall k n, number (digs k n) = (n mod 10 ^ N.of_nat k)%N.
Proof.
  induction k as [|k IH]; intro n; cbn [digs].
  - change (10 ^ N.of_nat 0)%N with 1%N. rewrite N.mod_1_r. reflexivity.
  - rewrite number_snoc, IH, Nat2N.inj_succ, N.pow_succ_r'. rewrite (N.mod_mul_r n 10 (10 ^ N.of_nat k)); [lia|lia|].
    apply N.pow_nonzero. lia.
Qed.
Lemma width_pos : forall f n, 1 <= width_ f n.
Proof. intros [|f] n; cbn [width_]; [lia|]. destruct (n <? 10)%N; lia. Qed.
Lemma width_bound : forall f n, (n < 2 ^ N.of_nat f)%N -> (n < 10 ^ N.of_nat (width_ f n))%N /\ ((0 < n)%N -> (10 ^ N.of_nat (width_ f n - 1) <= n)%N).
Proof.
  induction f as [|f IH]; intros n H; cbn [width_].
  - change (2 ^ N.of_nat 0)%N with 1%N in H. change (10 ^ N.of_nat 1)%N with 10%N. split; [lia|]. change (10 ^ N.of_nat (1 - 1))%N with 1%N. lia.
  - destruct (N.ltb_spec n 10) as [K|K].
    + change (10 ^ N.of_nat 1)%N with 10%N. change (10 ^ N.of_nat (1 - 1))%N with 1%N. split; lia.
    + rewrite Nat2N.inj_succ, N.pow_succ_r' in H.
      assert (H1 : (n / 10 < 2 ^ N.of_nat f)%N). { apply N.div_lt_upper_bound; lia. }
      destruct (IH _ H1) as [A B]. assert (P : (1 <= n / 10)%N) by (apply N.div_le_lower_bound; lia).
      specialize (B ltac:(lia)). set (w := width_ f (n / 10)) in *. pose proof (width_pos f (n / 10)) as Hw. fold w in Hw. clearbody w.
      pose proof (N.div_mod n 10 ltac:(lia)) as D. pose proof (N.mod_lt n 10 ltac:(lia)) as M.
      split.
      * rewrite Nat2N.inj_succ, N.pow_succ_r'. lia.
      * intros _. replace (S w - 1) with (S (w - 1)) by lia. rewrite Nat2N.inj_succ, N.pow_succ_r'. revert B. generalize (10 ^ N.of_nat (w - 1))%N. intros z B. clear - B D M. revert B D M. generalize (n / 10)%N (n mod 10)%N. intros; lia.
Qed.
Lemma size_nat_bound : forall n, (n < 2 ^ N.of_nat (N.size_nat n))%N.
Proof.
  intros [|p]; [reflexivity|]. cbn [N.size_nat]. induction p as [p IH|p IH|]; cbn [Pos.size_nat].
  - rewrite Nat2N.inj_succ, N.pow_succ_r'. lia.
  - rewrite Nat2N.inj_succ, N.pow_succ_r'. lia.
  - reflexivity.
Qed.
Lemma width_spec : forall n, (n < 10 ^ N.of_nat (width n))%N /\ ((0 < n)%N -> (10 ^ N.of_nat (width n - 1) <= n)%N) /\ 1 <= width n.
Proof. intro n. destruct (width_bound _ n (size_nat_bound n)) as [A B]. split; [exact A|]. split; [exact B|]. apply width_pos. Qed.
Lemma show_N_digits : forall n, exists ds, ds <> [] /\ digits_of ds (show_N n) /\ value ds = n.
Proof.
  intro n. exists (digs (width n) n). destruct (width_spec n) as (A & _ & P). split.
  - intro E. apply (f_equal (@length N)) in E. rewrite digs_length in E. cbn in E. lia.
  - split; [split; [apply digs_small|reflexivity]|]. rewrite <- number_value, digs_number. apply N.mod_small. exact A.
Qed.

(** *** Numbers are read back *)
Definition stops (r : chars) : Prop := no_digit r /\ no_exp r /\ match r with c :: _ => Ascii.eqb c "." = false | [] => True end.
Lemma real_reads : forall x s r, real x s -> stops r -> double_ false (s ++ r) = Success x r.
Proof.
  intros x s r (g & ip & fp & s1 & s2 & s3 & s4 & k & -> & Hg & Hip & Hne & H3 & H4 & ->) (Hrd & Hre & Hrp).
  unfold double_, pre. rewrite <- !app_assoc.
  assert (K4 : no_digit (s4 ++ r) /\ (match s4 ++ r with c :: _ => Ascii.eqb c "." = false | [] => True end) /\
               (match s4 ++ r with
                | c :: r' => if Ascii.eqb c "e" || Ascii.eqb c "E" then
                    let (eg, r1) := sign r' in let (ep, r2) := digits r1 in
                    match ep with [] => Success ((g * Z.of_N (value (ip ++ fp)))%Z, (- Z.of_nat (length fp))%Z) (s4 ++ r)
                    | _ => Success ((g * Z.of_N (value (ip ++ fp)))%Z, (- Z.of_nat (length fp) + eg * Z.of_N (number ep))%Z) r2 end
                  else Success ((g * Z.of_N (value (ip ++ fp)))%Z, (- Z.of_nat (length fp))%Z) (s4 ++ r)
                | [] => Success ((g * Z.of_N (value (ip ++ fp)))%Z, (- Z.of_nat (length fp))%Z) (s4 ++ r)
                end) = Success ((g * Z.of_N (value (ip ++ fp)))%Z, (k - Z.of_nat (length fp))%Z) r).
  { destruct H4 as [[-> ->]|(e & h & ep & t1 & t2 & He & -> & Hh & Hep & Hd & ->)].
    - cbn [app]. split; [assumption|]. split; [assumption|].
      destruct r as [|c r].
      + reflexivity.
      + destruct Hre as [K1 K2]. rewrite K1, K2. reflexivity.
    - cbn [app]. assert (Ee : Ascii.eqb e "e" || Ascii.eqb e "E" = true) by (destruct He as [->| ->]; reflexivity).
      split; [destruct He as [->| ->]; reflexivity|]. split; [destruct He as [->| ->]; reflexivity|].
      rewrite Ee. rewrite <- app_assoc. rewrite (sign_read h t1 (t2 ++ r) Hh).
      2:{ destruct (digits_not_nil ep t2 Hd Hep) as (d & s' & -> & H). cbn [app]. split; now apply dchar_not. }
      rewrite (digits_read ep t2 r Hd Hrd). destruct ep as [|d ep]; [congruence|]. rewrite number_value. f_equal. f_equal. lia. }
  destruct K4 as (Kd & Kp & K4).
  assert (Hs : match s2 ++ s3 ++ s4 ++ r with [] => True | c :: _ => Ascii.eqb c "-" = false /\ Ascii.eqb c "+" = false end).
  { destruct ip as [|d ip].
    - destruct Hip as [_ ->]. cbn [map app]. destruct H3 as [[-> ->]|(t & -> & Ht)]; [cbn in Hne; congruence|]. cbn. split; reflexivity.
    - destruct (digits_not_nil (d :: ip) s2 Hip) as (d' & s' & -> & H); [discriminate|]. cbn [app]. split; now apply dchar_not. }
  rewrite (sign_read g s1 _ Hg Hs).
  assert (H3' : no_digit (s3 ++ s4 ++ r)) by (destruct H3 as [[-> ->]|(t & -> & Ht)]; [exact Kd|reflexivity]).
  rewrite (digits_read ip s2 _ Hip H3').
  assert (E3 : (let dot := match s3 ++ s4 ++ r with c :: r0 => if Ascii.eqb c "." then Some r0 else None | [] => None end in
                match dot with Some r0 => digits r0 | None => ([], s3 ++ s4 ++ r) end) = (fp, s4 ++ r)).
  { destruct H3 as [[-> ->]|(t & -> & Ht)].
    - cbn [app]. destruct (s4 ++ r) as [|c q]; [reflexivity|]. rewrite Kp. reflexivity.
    - cbn [str list_ascii_of_string app]. cbn. apply digits_read; assumption. }
  cbv zeta in E3 |- *. match goal with |- (let (_, _) := ?m in _) = _ => change m with (match match s3 ++ s4 ++ r with [] => None | c :: r0 => if Ascii.eqb c "." then Some r0 else None end with Some r0 => digits r0 | None => ([], s3 ++ s4 ++ r) end) end. rewrite E3. destruct (ip ++ fp) as [|d0 l0] eqn:El; [congruence|]. rewrite number_value. exact K4.
Qed.
Lemma show_Z_real : forall z, real (int z) (show_Z z).
Proof.
  intro z. destruct (show_N_digits (Z.abs_N z)) as (ds & Hne & Hd & Hv). unfold show_Z.
  exists (if (z <? 0)%Z then (-1)%Z else 1%Z), ds, [], (if (z <? 0)%Z then str "-" else []), (show_N (Z.abs_N z)), [], [], 0%Z.
  split; [rewrite !app_nil_r; reflexivity|]. split; [destruct (z <? 0)%Z; [right|left]; split; auto|].
  split; [exact Hd|]. split; [rewrite app_nil_r; exact Hne|]. split; [left; split; reflexivity|]. split; [left; split; reflexivity|].
  rewrite app_nil_r, Hv. unfold int. f_equal. destruct (Z.ltb_spec z 0); lia.
Qed.
Lemma show_real : forall n, real (nat_ n) (show n).
Proof.
  intro n. pose proof (show_Z_real (Z.of_nat n)) as H. unfold show_Z in H. destruct (Z.ltb_spec (Z.of_nat n) 0) as [K|K]; [lia|].
  replace (Z.abs_N (Z.of_nat n)) with (N.of_nat n) in H by lia. exact H.
Qed.
Lemma index_reads : forall n r, no_digit r -> index_ (show n ++ r) = Success (N.of_nat n) r.
Proof.
  intros n r Hr. destruct (show_N_digits (N.of_nat n)) as (ds & Hne & Hd & Hv). unfold index_. unfold show.
  rewrite skip_head.
  - rewrite (digits_read ds _ r Hd Hr). destruct ds as [|d ds]; [congruence|]. rewrite number_value, Hv. reflexivity.
  - destruct (digits_not_nil ds _ Hd Hne) as (d & s' & -> & H). cbn [app head_ok]. now apply digit_not_space.
Qed.
