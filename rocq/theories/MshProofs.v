(** Lexical elements of MSH files: what is written is read, and what is read was written. *)
From Coq Require Import String Ascii List Arith NArith ZArith Bool Lia.
Import ListNotations.
From Verif Require Import Base MshModel MshSpec.
Local Open Scope list_scope.
Local Open Scope nat_scope.

(** Complete: what [f] writes is read, if [ok] holds of what follows.  Sound: what is read was
    written. *)
Definition rd {A} (ok : chars -> Prop) (p : parser A) (f : format A) : Prop := forall a s r, f a s -> ok r -> p (s ++ r) = Success a r.
Definition sd {A} (p : parser A) (f : format A) : Prop := forall s a r, p s = Success a r -> exists t, s = t ++ r /\ f a t.
(** The end, or white space. *)
Definition okt (r : chars) : Prop := match r with [] => True | c :: _ => is_space c = true end.
Definition okb (r : chars) : Prop := True.

(** *** Characters *)
Lemma is_space_white : forall c, is_space c = true <-> white c.
Proof.
  intro c. unfold white. split.
  - intro H. destruct c as [[] [] [] [] [] [] [] []]; vm_compute in H; try discriminate H; vm_compute; tauto.
  - intros [<-|[<-|[<-|[<-|[<-|[<-|[]]]]]]]; reflexivity.
Qed.
Lemma not_space_white : forall c, is_space c = false <-> ~ white c.
Proof. intro c. rewrite <- is_space_white. destruct (is_space c); split; intros; congruence || (now try intro; try congruence) || (exfalso; auto). Qed.
Definition head_ok (s : chars) : Prop := match s with [] => True | c :: _ => is_space c = false end.
Lemma skip_head : forall s, head_ok s -> skip s = s.
Proof. intros [|c s] H; [reflexivity|]. cbn [skip]. cbn [head_ok] in H. rewrite H. reflexivity. Qed.
Lemma skip_blank : forall w s, blank w -> skip (w ++ s) = skip s.
Proof.
  intros w s H. induction H as [|c w Hc Hw IH]; [reflexivity|]. cbn [app skip].
  apply is_space_white in Hc. rewrite Hc. exact IH.
Qed.
Lemma skip_spec : forall s, exists w, s = w ++ skip s /\ blank w /\ head_ok (skip s).
Proof.
  induction s as [|c s (w & E & Hw & Hh)]; [exists []; repeat split; constructor|].
  cbn [skip]. destruct (is_space c) eqn:Ec.
  - exists (c :: w). cbn [app]. rewrite <- E. split; [reflexivity|]. split; [|exact Hh]. constructor; [now apply is_space_white|exact Hw].
  - exists []. split; [reflexivity|]. split; [constructor|exact Ec].
Qed.
Lemma skip_all : forall w, blank w -> skip w = [].
Proof. intros w H. rewrite <- (app_nil_r w). now rewrite skip_blank. Qed.

(** *** Digits *)
Definition dchar (d : N) : ascii := ascii_of_N (48 + d).
Lemma digit_dchar : forall d, (d < 10)%N -> digit (dchar d) = Some d.
Proof.
  intros d H. assert (K : In d [0;1;2;3;4;5;6;7;8;9]%N) by (cbn; lia).
  repeat destruct K as [<-|K]; try reflexivity. destruct K.
Qed.
Lemma digit_some : forall c d, digit c = Some d -> (d < 10)%N /\ c = dchar d.
Proof.
  intros c d H. destruct c as [[] [] [] [] [] [] [] []]; vm_compute in H; try discriminate H; injection H as <-; split; try reflexivity; lia.
Qed.
Lemma digit_not_space : forall d, (d < 10)%N -> is_space (dchar d) = false.
Proof.
  intros d H. assert (K : In d [0;1;2;3;4;5;6;7;8;9]%N) by (cbn; lia).
  repeat destruct K as [<-|K]; try reflexivity. destruct K.
Qed.
Lemma dchar_not : forall d c, (d < 10)%N -> digit c = None -> Ascii.eqb (dchar d) c = false.
Proof.
  intros d c H E. destruct (Ascii.eqb_spec (dchar d) c) as [K|K]; [|reflexivity].
  rewrite <- K, digit_dchar in E by exact H. discriminate E.
Qed.
Definition no_digit (r : chars) : Prop := match r with [] => True | c :: _ => digit c = None end.
Lemma okt_no_digit : forall r, okt r -> no_digit r.
Proof. intros [|c r] H; [exact I|]. cbn in *. apply is_space_white in H. destruct H as [<-|[<-|[<-|[<-|[<-|[<-|[]]]]]]]; reflexivity. Qed.
Lemma digits_read : forall ds s r, digits_of ds s -> no_digit r -> digits (s ++ r) = (ds, r).
Proof.
  intros ds s r [H ->] Hr. induction H as [|d ds Hd Hds IH]; cbn [map app].
  - destruct r as [|c r]; [reflexivity|]. cbn [digits]. cbn in Hr. rewrite Hr. reflexivity.
  - cbn [digits]. change (ascii_of_N (48 + d)) with (dchar d). rewrite (digit_dchar d Hd), IH. reflexivity.
Qed.
Lemma digits_sound : forall s ds r, digits s = (ds, r) -> exists t, s = t ++ r /\ digits_of ds t /\ no_digit r.
Proof.
  induction s as [|c s IH]; intros ds r H; cbn [digits] in H.
  - injection H as <- <-. exists []. split; [reflexivity|]. split; [|exact I]. split; [constructor|reflexivity].
  - destruct (digit c) as [d|] eqn:Ed.
    + destruct (digits s) as [ds' r'] eqn:E. injection H as <- <-. destruct (IH _ _ eq_refl) as (t & -> & [H1 ->] & H2).
      apply digit_some in Ed. destruct Ed as [Hd ->]. exists (dchar d :: map (fun d => ascii_of_N (48 + d)) ds').
      split; [reflexivity|]. split; [|exact H2]. split; [constructor; assumption|reflexivity].
    + injection H as <- <-. exists []. split; [reflexivity|]. split; [|exact Ed]. split; [constructor|reflexivity].
Qed.
Lemma number_value : forall ds, number ds = value ds.
Proof.
  assert (K : forall ds v, fold_left (fun v d => (10 * v + d)%N) ds v = (v * 10 ^ N.of_nat (length ds) + value ds)%N).
  { induction ds as [|d ds IH]; intro v; cbn [fold_left length value].
    - change (10 ^ N.of_nat 0)%N with 1%N. lia.
    - rewrite IH. rewrite Nat2N.inj_succ, N.pow_succ_r'. lia. }
  intro ds. unfold number. rewrite K. lia.
Qed.
Lemma digits_not_nil : forall ds s, digits_of ds s -> ds <> [] -> exists d s', s = dchar d :: s' /\ (d < 10)%N.
Proof. intros [|d ds] s [H ->] K; [congruence|]. inversion H; subst. exists d, (map (fun d => ascii_of_N (48 + d)) ds). split; [reflexivity|assumption]. Qed.

(** *** Naturals *)
Lemma uint_read : forall b n s r, natural b n s -> no_digit r -> uint false b (s ++ r) = Success n r.
Proof.
  intros b n s r (ds & Hne & Hd & -> & Hb) Hr. unfold uint, pre. rewrite (digits_read ds s r Hd Hr).
  destruct ds as [|d ds]; [congruence|]. rewrite number_value. apply N.ltb_lt in Hb. rewrite Hb. reflexivity.
Qed.
Lemma uint_sound : forall b, sd (uint false b) (natural b).
Proof.
  intros b s a r H. unfold uint, pre in H. destruct (digits s) as [ds r'] eqn:E. apply digits_sound in E. destruct E as (t & -> & Hd & _).
  destruct ds as [|d ds]; [discriminate H|]. destruct (N.ltb_spec (number (d :: ds)) b) as [Hb|]; [|discriminate H].
  injection H as <- <-. exists t. split; [reflexivity|]. exists (d :: ds). split; [discriminate|]. split; [exact Hd|]. rewrite <- number_value. split; [reflexivity|exact Hb].
Qed.
Lemma natural_head : forall b n s r, natural b n s -> head_ok (s ++ r).
Proof. intros b n s r (ds & Hne & Hd & _). destruct (digits_not_nil ds s Hd Hne) as (d & s' & -> & H). now apply digit_not_space. Qed.

(** *** Integers *)
Lemma sign_read : forall g s r, sign_of g s -> (match r with [] => True | c :: _ => Ascii.eqb c "-" = false /\ Ascii.eqb c "+" = false end) -> sign (s ++ r) = (g, r).
Proof.
  intros g s r [[-> [->| ->]]|[-> ->]] H; try reflexivity. cbn [app]. destruct r as [|c r]; [reflexivity|]. cbn [sign]. destruct H as [H1 H2]. rewrite H1, H2. reflexivity.
Qed.
Lemma sign_sound : forall s g r, sign s = (g, r) -> exists t, s = t ++ r /\ sign_of g t.
Proof.
  intros [|c s] g r H; cbn [sign] in H.
  - injection H as <- <-. exists []. split; [reflexivity|]. left. auto.
  - destruct (Ascii.eqb_spec c "-") as [->|]; [|destruct (Ascii.eqb_spec c "+") as [->|]]; injection H as <- <-.
    + exists (str "-"). split; [reflexivity|]. right. auto.
    + exists (str "+"). split; [reflexivity|]. left. auto.
    + exists []. split; [reflexivity|]. left. auto.
Qed.
Lemma int_read : forall z s r, integer z s -> no_digit r -> int_ false (s ++ r) = Success z r.
Proof.
  intros z s r (g & ds & s1 & s2 & -> & Hg & Hne & Hd & -> & Hb) Hr. unfold int_, pre. rewrite <- app_assoc. rewrite (sign_read g s1 (s2 ++ r) Hg).
  2:{ destruct (digits_not_nil ds s2 Hd Hne) as (d & s' & -> & H). cbn [app]. split; now apply dchar_not. }
  rewrite (digits_read ds s2 r Hd Hr). destruct ds as [|d ds]; [congruence|]. rewrite number_value.
  destruct Hb as [H1 H2]. apply Z.leb_le in H1. apply Z.ltb_lt in H2. rewrite H1, H2. reflexivity.
Qed.
Lemma int_sound : sd (int_ false) integer.
Proof.
  intros s a r H. unfold int_, pre in H. destruct (sign s) as [g s1] eqn:Eg. destruct (digits s1) as [ds r'] eqn:E.
  apply sign_sound in Eg. destruct Eg as (t1 & -> & Hg). apply digits_sound in E. destruct E as (t & -> & Hd & _).
  destruct ds as [|d ds]; [discriminate H|]. cbv zeta in H. destruct (Z.leb_spec (- 2 ^ 31) (g * Z.of_N (number (d :: ds)))) as [H1|]; [|discriminate H].
  destruct (Z.ltb_spec (g * Z.of_N (number (d :: ds))) (2 ^ 31)) as [H2|]; [|discriminate H]. cbn [andb] in H. injection H as <- <-.
  exists (t1 ++ t). split; [now rewrite app_assoc|]. exists g, (d :: ds), t1, t. rewrite <- number_value.
  split; [reflexivity|]. split; [exact Hg|]. split; [discriminate|]. split; [exact Hd|]. split; [reflexivity|]. split; assumption.
Qed.
Lemma sign_head : forall g s r, sign_of g s -> head_ok r -> head_ok (s ++ r).
Proof. intros g s r [[-> [->| ->]]|[-> ->]] H; try reflexivity. exact H. Qed.
Lemma integer_head : forall z s r, integer z s -> head_ok (s ++ r).
Proof.
  intros z s r (g & ds & s1 & s2 & -> & Hg & Hne & Hd & _). rewrite <- app_assoc. apply (sign_head g s1 _ Hg).
  destruct (digits_not_nil ds s2 Hd Hne) as (d & s' & -> & H). now apply digit_not_space.
Qed.

(** *** Decimal numbers *)
Definition no_exp (r : chars) : Prop := match r with [] => True | c :: _ => Ascii.eqb c "e" = false /\ Ascii.eqb c "E" = false end.
Lemma okt_no_exp : forall r, okt r -> no_exp r.
Proof. intros [|c r] H; [exact I|]. cbn in *. apply is_space_white in H. destruct H as [<-|[<-|[<-|[<-|[<-|[<-|[]]]]]]]; split; reflexivity. Qed.
Lemma okt_no_dot : forall r, okt r -> match r with c :: _ => Ascii.eqb c "." = false | [] => True end.
Proof. intros [|c r] H; [exact I|]. cbn in *. apply is_space_white in H. destruct H as [<-|[<-|[<-|[<-|[<-|[<-|[]]]]]]]; reflexivity. Qed.
Lemma real_read : forall x s r, real x s -> okt r -> double_ false (s ++ r) = Success x r.
Proof.
  intros x s r (g & ip & fp & s1 & s2 & s3 & s4 & k & -> & Hg & Hip & Hne & H3 & H4 & ->) Hr.
  unfold double_, pre. rewrite <- !app_assoc.
  (* what follows the fraction *)
  assert (K4 : no_digit (s4 ++ r) /\ (match s4 ++ r with c :: _ => Ascii.eqb c "." = false | [] => True end) /\
               (match s4 ++ r with
                | c :: r' => if Ascii.eqb c "e" || Ascii.eqb c "E" then
                    let (eg, r1) := sign r' in let (ep, r2) := digits r1 in
                    match ep with [] => Success ((g * Z.of_N (value (ip ++ fp)))%Z, (- Z.of_nat (length fp))%Z) (s4 ++ r)
                    | _ => Success ((g * Z.of_N (value (ip ++ fp)))%Z, (- Z.of_nat (length fp) + eg * Z.of_N (number ep))%Z) r2 end
                  else Success ((g * Z.of_N (value (ip ++ fp)))%Z, (- Z.of_nat (length fp))%Z) (s4 ++ r)
                | [] => Success ((g * Z.of_N (value (ip ++ fp)))%Z, (- Z.of_nat (length fp))%Z) (s4 ++ r)
                end) = Success ((g * Z.of_N (value (ip ++ fp)))%Z, (k - Z.of_nat (length fp))%Z) r).
  { destruct H4 as [[-> ->]|(e & h & ep & t1 & t2 & He & -> & Hh & Hep & Hd & ->)].
    - cbn [app]. split; [now apply okt_no_digit|]. split; [now apply okt_no_dot|].
      pose proof (okt_no_exp r Hr) as K. destruct r as [|c r].
      + reflexivity.
      + destruct K as [K1 K2]. rewrite K1, K2. reflexivity.
    - cbn [app]. assert (Ee : Ascii.eqb e "e" || Ascii.eqb e "E" = true) by (destruct He as [->| ->]; reflexivity).
      split; [destruct He as [->| ->]; reflexivity|]. split; [destruct He as [->| ->]; reflexivity|].
      rewrite Ee. rewrite <- app_assoc. rewrite (sign_read h t1 (t2 ++ r) Hh).
      2:{ destruct (digits_not_nil ep t2 Hd Hep) as (d & s' & -> & H). cbn [app]. split; now apply dchar_not. }
      rewrite (digits_read ep t2 r Hd (okt_no_digit r Hr)). destruct ep as [|d ep]; [congruence|]. rewrite number_value. f_equal. f_equal. lia. }
  destruct K4 as (Kd & Kp & K4).
  assert (Hs : match s2 ++ s3 ++ s4 ++ r with [] => True | c :: _ => Ascii.eqb c "-" = false /\ Ascii.eqb c "+" = false end).
  { destruct ip as [|d ip].
    - destruct Hip as [_ ->]. cbn [map app]. destruct H3 as [[-> ->]|(t & -> & Ht)]; [cbn in Hne; congruence|]. cbn. split; reflexivity.
    - destruct (digits_not_nil (d :: ip) s2 Hip) as (d' & s' & -> & H); [discriminate|]. cbn [app]. split; now apply dchar_not. }
  rewrite (sign_read g s1 _ Hg Hs).
  assert (H3' : no_digit (s3 ++ s4 ++ r)) by (destruct H3 as [[-> ->]|(t & -> & Ht)]; [exact Kd|reflexivity]).
  rewrite (digits_read ip s2 _ Hip H3').
  assert (E3 : (let dot := match s3 ++ s4 ++ r with c :: r0 => if Ascii.eqb c "." then Some r0 else None | [] => None end in
                match dot with Some r0 => digits r0 | None => ([], s3 ++ s4 ++ r) end) = (fp, s4 ++ r)).
  { destruct H3 as [[-> ->]|(t & -> & Ht)].
    - cbn [app]. destruct (s4 ++ r) as [|c q]; [reflexivity|]. rewrite Kp. reflexivity.
    - cbn [str list_ascii_of_string app]. cbn. apply digits_read; assumption. }
  cbv zeta in E3 |- *. match goal with |- (let (_, _) := ?m in _) = _ => change m with (match match s3 ++ s4 ++ r with [] => None | c :: r0 => if Ascii.eqb c "." then Some r0 else None end with Some r0 => digits r0 | None => ([], s3 ++ s4 ++ r) end) end. rewrite E3. destruct (ip ++ fp) as [|d0 l0] eqn:El; [congruence|]. rewrite number_value. exact K4.
Qed.
Lemma real_sound : sd (double_ false) real.
Proof.
  intros s a r H. unfold double_, pre in H. destruct (sign s) as [g s1] eqn:Eg. destruct (digits s1) as [ip s2] eqn:Ei.
  apply sign_sound in Eg. destruct Eg as (t1 & -> & Hg). apply digits_sound in Ei. destruct Ei as (t2 & -> & Hip & _). cbv zeta in H.
  set (dot := match s2 with c :: r0 => if Ascii.eqb c "." then Some r0 else None | [] => None end) in H.
  destruct (match dot with Some r0 => digits r0 | None => ([], s2) end) as [fp s3] eqn:Ef.
  assert (H3 : exists t3, s2 = t3 ++ s3 /\ ((fp = [] /\ t3 = []) \/ (exists t, t3 = str "." ++ t /\ digits_of fp t))).
  { destruct dot as [r0|] eqn:Ed.
    - unfold dot in Ed. destruct s2 as [|c q]; [discriminate Ed|]. destruct (Ascii.eqb_spec c ".") as [->|]; [|discriminate Ed]. injection Ed as ->.
      apply digits_sound in Ef. destruct Ef as (t & -> & Hf & _). exists ("."%char :: t). split; [reflexivity|]. right. exists t. split; [reflexivity|exact Hf].
    - injection Ef as <- <-. exists []. split; [reflexivity|]. left. auto. }
  destruct H3 as (t3 & -> & H3). clear Ef dot.
  destruct (ip ++ fp) as [|d0 l0] eqn:El; [discriminate H|].
  assert (Hne : ip ++ fp <> []) by (rewrite El; discriminate).
  assert (K : forall k t4 q, Success (A := decimal) ((g * Z.of_N (number (d0 :: l0)))%Z, (k - Z.of_nat (length fp))%Z) q = Success a r ->
      s3 = t4 ++ q ->
      ((k = 0%Z /\ t4 = []) \/ (exists e h ep u1 u2, (e = "e"%char \/ e = "E"%char) /\ t4 = e :: u1 ++ u2 /\ sign_of h u1 /\ ep <> [] /\ digits_of ep u2 /\ k = (h * Z.of_N (value ep))%Z)) ->
      exists t, t1 ++ t2 ++ t3 ++ s3 = t ++ r /\ real a t).
  { intros k t4 q E -> H4. injection E as <- <-. exists (t1 ++ t2 ++ t3 ++ t4). split; [now rewrite <- !app_assoc|].
    exists g, ip, fp, t1, t2, t3, t4, k. split; [reflexivity|]. split; [exact Hg|]. split; [exact Hip|]. split; [exact Hne|]. split; [exact H3|]. split; [exact H4|].
    rewrite El, number_value. reflexivity. }
  assert (K0 : Success (A := decimal) ((g * Z.of_N (number (d0 :: l0)))%Z, (- Z.of_nat (length fp))%Z) s3 = Success a r -> exists t, t1 ++ t2 ++ t3 ++ s3 = t ++ r /\ real a t).
  { intro E. apply (K 0%Z [] s3); [rewrite Z.sub_0_l; exact E|reflexivity|]. left. auto. }
  destruct s3 as [|c q]; [exact (K0 H)|].
  destruct (Ascii.eqb c "e" || Ascii.eqb c "E") eqn:Ec; [|exact (K0 H)].
  destruct (sign q) as [h q1] eqn:Eh. destruct (digits q1) as [ep q2] eqn:Ep. destruct ep as [|d ep]; [exact (K0 H)|].
  apply sign_sound in Eh. destruct Eh as (u1 & -> & Hh). apply digits_sound in Ep. destruct Ep as (u2 & -> & Hu & _).
  apply (K (h * Z.of_N (value (d :: ep)))%Z (c :: u1 ++ u2) q2).
  - rewrite <- H. rewrite !number_value. f_equal. f_equal. lia.
  - cbn [app]. now rewrite <- app_assoc.
  - right. exists c, h, (d :: ep), u1, u2. split.
    { apply orb_true_iff in Ec. destruct Ec as [Ec|Ec]; apply Ascii.eqb_eq in Ec; auto. }
    split; [reflexivity|]. split; [exact Hh|]. split; [discriminate|]. split; [exact Hu|reflexivity].
Qed.
Lemma real_head : forall x s r, real x s -> head_ok (s ++ r).
Proof.
  intros x s r (g & ip & fp & s1 & s2 & s3 & s4 & k & -> & Hg & Hip & Hne & H3 & _). rewrite <- app_assoc. apply (sign_head g s1 _ Hg).
  destruct ip as [|d ip].
  - destruct Hip as [_ ->]. destruct H3 as [[-> _]|(t & -> & _)]; [cbn in Hne; congruence|]. reflexivity.
  - destruct (digits_not_nil (d :: ip) s2 Hip) as (d' & s' & -> & H); [discriminate|]. now apply digit_not_space.
Qed.
