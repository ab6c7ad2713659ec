(** Rules that all grammars share: names, foreign sections. *)
From Coq Require Import String Ascii List Arith NArith ZArith Bool Lia.
Import ListNotations.
From Verif Require Import Base MshModel MshSpec MshProofs MshProofs2.
Local Open Scope list_scope.
Local Open Scope nat_scope.

(** *** Sequences of characters *)
Lemma star_chars : forall f t r n, forallb f t = true -> (match r with [] => True | c :: _ => f c = false end) -> length t < n ->
  star_ n (char_if false f) (t ++ r) = Success t r.
Proof.
  intros f. induction t as [|c t IH]; intros r n Ht Hr Hn; (destruct n as [|n]; [cbn in Hn; lia|]); cbn [app star_ char_if pre].
  - unfold char_if, pre. destruct r as [|c r]; [reflexivity|]. rewrite Hr. reflexivity.
  - cbn [forallb] in Ht. apply andb_true_iff in Ht. destruct Ht as [Hc Ht]. unfold char_if at 1, pre. rewrite Hc. cbn [length] in Hn. rewrite IH by (auto; lia). reflexivity.
Qed.
Lemma star_chars_sound : forall f n s t r, star_ n (char_if false f) s = Success t r -> s = t ++ r /\ forallb f t = true /\ (match r with [] => True | c :: _ => f c = false end).
Proof.
  intros f. induction n as [|n IH]; intros s t r H; cbn [star_] in H; [discriminate H|]. unfold char_if at 1, pre in H.
  destruct s as [|c s]; [injection H as <- <-; auto|]. destruct (f c) eqn:Ec; [|injection H as <- <-; auto].
  destruct (star_ n (char_if false f) s) as [l r'| | |] eqn:E; try discriminate H. injection H as <- <-. destruct (IH _ _ _ E) as (-> & H1 & H2).
  split; [reflexivity|]. split; [cbn; now rewrite Ec|exact H2].
Qed.
Lemma plus_chars : forall f c t r, forallb f (c :: t) = true -> (match r with [] => True | c :: _ => f c = false end) ->
  plus_ (char_if false f) ((c :: t) ++ r) = Success (c :: t) r.
Proof.
  intros f c t r H Hr. cbn [forallb] in H. apply andb_true_iff in H. destruct H as [Hc Ht]. unfold plus_, and_then at 1. cbn [app]. unfold char_if at 1, pre. rewrite Hc.
  unfold and_then, star. rewrite star_chars; [reflexivity|exact Ht|exact Hr|rewrite app_length; lia].
Qed.
Lemma plus_chars_sound : forall f s t r, plus_ (char_if false f) s = Success t r -> s = t ++ r /\ t <> [] /\ forallb f t = true /\ (match r with [] => True | c :: _ => f c = false end).
Proof.
  intros f s t r H. unfold plus_, and_then at 1 in H. unfold char_if at 1, pre in H. destruct s as [|c s]; [discriminate H|]. destruct (f c) eqn:Ec; [|discriminate H].
  unfold and_then, star in H. destruct (star_ (S (length s)) (char_if false f) s) as [l r'| | |] eqn:E; try discriminate H. injection H as <- <-.
  apply star_chars_sound in E. destruct E as (-> & H1 & H2). split; [reflexivity|]. split; [discriminate|]. split; [cbn; now rewrite Ec|exact H2].
Qed.
Lemma forallb_not_in : forall (d : ascii) t, ~ In d t -> forallb (fun c => negb (Ascii.eqb c d)) t = true.
Proof. intros d t H. apply forallb_forall. intros c Hc. destruct (Ascii.eqb_spec c d) as [->|]; [contradiction|reflexivity]. Qed.
Lemma not_in_forallb : forall (d : ascii) t, forallb (fun c => negb (Ascii.eqb c d)) t = true -> ~ In d t.
Proof. intros d t H K. rewrite forallb_forall in H. specialize (H d K). rewrite Ascii.eqb_refl in H. discriminate H. Qed.

(** *** Names *)
Definition quotedf : format chars := fun t s => t <> [] /\ ~ In """"%char t /\ s = str """" ++ t ++ str """".
Lemma quoted_read : forall t s r, quotedf t s ->
  (read _ <- lit false (str """"); read t <- plus_ (char_if false (fun c => negb (Ascii.eqb c """"))); read _ <- lit false (str """"); ret t) (s ++ r) = Success t r.
Proof.
  intros t s r (Hne & Hin & ->). unfold and_then at 1. rewrite <- app_assoc, lit_false_read. unfold and_then at 1. destruct t as [|c t]; [congruence|].
  rewrite <- app_assoc, plus_chars; [|now apply forallb_not_in|reflexivity]. unfold and_then. rewrite lit_false_read. reflexivity.
Qed.
Lemma quoted_sound :
  sd (read _ <- lit false (str """"); read t <- plus_ (char_if false (fun c => negb (Ascii.eqb c """"))); read _ <- lit false (str """"); ret t) quotedf.
Proof.
  intros s t r H. unfold and_then at 1 in H. destruct (lit false (str """") s) as [u s1| | |] eqn:E1; try discriminate H. apply lit_false_sound in E1. subst s.
  unfold and_then at 1 in H. destruct (plus_ _ s1) as [v s2| | |] eqn:E2; try discriminate H. apply plus_chars_sound in E2. destruct E2 as (-> & Hne & Hf & _).
  unfold and_then in H. destruct (lit false (str """") s2) as [u3 s3| | |] eqn:E3; try discriminate H. apply lit_false_sound in E3. subst s2. injection H as <- <-.
  exists (str """" ++ v ++ str """"). split; [now rewrite <- !app_assoc|]. split; [exact Hne|]. split; [now apply not_in_forallb|reflexivity].
Qed.
Lemma quoted_head : forall t s r, quotedf t s -> head_ok (s ++ r).
Proof. intros t s r (_ & _ & ->). reflexivity. Qed.
(** Words of text with white space before them *)
Lemma t_int : reads okt okt (int_ true) (after gap integer).
Proof. change (int_ true) with (lexeme (int_ false)). apply after_read; [apply integer_head|]. intros a s r H Hr. apply int_read; [exact H|now apply okt_no_digit]. Qed.
Lemma t_uint : forall b, reads okt okt (uint true b) (after gap (natural b)).
Proof. intro b. change (uint true b) with (lexeme (uint false b)). apply after_read; [apply natural_head|]. intros a s r H Hr. apply uint_read; [exact H|now apply okt_no_digit]. Qed.
Lemma t_real : reads okt okt (double_ true) (after gap real).
Proof. change (double_ true) with (lexeme (double_ false)). apply after_read; [apply real_head|]. intros a s r H Hr. now apply real_read. Qed.
Lemma t_quoted : reads okt okb quotedString (after gap quotedf).
Proof.
  intros a s r (w & t & -> & [Hw Hne] & Hf) _. split; [apply (afterk_gap_ok t); exists w; split; [reflexivity|split; assumption]|].
  unfold quotedString, lexeme. rewrite <- app_assoc, skip_blank by exact Hw. rewrite skip_head by (eapply quoted_head; exact Hf). now apply quoted_read.
Qed.
Lemma u_int : sd (int_ true) (after blank integer).
Proof. change (int_ true) with (lexeme (int_ false)). apply after_sound, int_sound. Qed.
Lemma u_uint : forall b, sd (uint true b) (after blank (natural b)).
Proof. intro b. change (uint true b) with (lexeme (uint false b)). apply after_sound, uint_sound. Qed.
Lemma u_real : sd (double_ true) (after blank real).
Proof. change (double_ true) with (lexeme (double_ false)). apply after_sound, real_sound. Qed.
Lemma u_quoted : sd quotedString (after blank quotedf).
Proof. apply after_sound, quoted_sound. Qed.
Lemma reads_ok_weaken : forall A (p : parser A) f (ol or or' : chars -> Prop), (forall r, or' r -> or r) -> reads ol or p f -> reads ol or' p f.
Proof. intros A p f ol or or' H K a s r Hf Hr. apply K; auto. Qed.
Lemma t_name : reads okt okt physicalName (physical_namef written).
Proof.
  unfold physicalName. apply reads_on_error. eapply reads_weaken.
  { eapply reads_bind; [exact t_int|intro]. eapply reads_bind; [eapply reads_must; exact t_int|intro].
    eapply reads_bind; [eapply reads_must, (reads_ok_weaken _ _ _ _ okb okt); [intros; exact I|exact t_quoted]|intro; apply reads_ret]. }
  intros [[d n] t] s (s1 & s2 & -> & (s3 & s4 & -> & H1 & H2) & H3). cbn [fst snd] in *. rewrite <- (app_nil_r s2), <- app_assoc.
  exists d, s3, (s4 ++ s2 ++ []). split; [reflexivity|]. split; [exact H1|]. exists n, s4, (s2 ++ []). split; [reflexivity|]. split; [exact H2|].
  exists t, s2, []. split; [reflexivity|]. split; [exact H3|]. split; reflexivity.
Qed.
Lemma u_name : sd physicalName (physical_namef accepted).
Proof.
  unfold physicalName. apply sd_on_error. eapply sd_weaken.
  { eapply sd_bind; [exact u_int|intro]. eapply sd_bind; [eapply sd_must; exact u_int|intro]. eapply sd_bind; [eapply sd_must; exact u_quoted|intro; apply sd_ret]. }
  intros a s (d & s1 & ? & -> & H1 & n & s2 & ? & -> & H2 & t & s3 & ? & -> & H3 & [-> ->]). rewrite app_nil_r, app_assoc.
  exists (s1 ++ s2), s3. split; [reflexivity|]. split; [|exact H3]. exists s1, s2. auto.
Qed.
Lemma t_close : forall t, head_ok (str t) -> str t <> [] -> reads okt okb (lit true (str t)) (fun _ => afterk gap (str t)).
Proof.
  intros t H1 H2 [] s r H _. split; [now apply (afterk_gap_ok (str t))|]. apply lit_read; [now apply afterk_gap_blank|exact H1|exact H2].
Qed.
Lemma t_open : forall t ok, head_ok (str t) -> str t <> [] -> reads okb ok (lit true (str t)) (fun _ => afterk blank (str t)).
Proof. intros t ok H1 H2 [] s r H _. split; [exact I|]. now apply lit_read. Qed.
Lemma u_lit : forall t, sd (lit true t) (fun _ => afterk blank t).
Proof. intros t s u r H. exact (lit_sound t s u r H). Qed.

(** *** Foreign sections *)
Definition line_end (c : ascii) : bool := Ascii.eqb c "013" || Ascii.eqb c "010".
Definition plain (n : string) : Prop := (exists t, str n = "$"%char :: t) /\ ~ In "010"%char (str n) /\ ~ In "013"%char (str n).
Lemma prefix_within : forall t u e v r, prefix t (u ++ e :: v) = Some r -> ~ In e t -> exists q, u = t ++ q.
Proof.
  induction t as [|c t IH]; intros u e v r H He; [exists u; reflexivity|]. destruct u as [|d u]; cbn [app prefix] in H.
  - destruct (Ascii.eqb_spec c e) as [->|]; [|discriminate H]. elim He. now left.
  - destruct (Ascii.eqb_spec c d) as [->|]; [|discriminate H]. destruct (IH u e v r H) as (q & ->); [intro K; apply He; now right|]. exists q. reflexivity.
Qed.
Lemma not_lits_none : forall sk names s, (forall n, In n names -> prefix (str n) (pre sk s) = None) -> not_lits sk names s = Success tt s.
Proof.
  intros sk names s H. unfold not_lits. induction names as [|n names IH]; [reflexivity|]. cbn [fold_right]. unfold and_then at 1, not_lit at 1.
  rewrite (H n (or_introl eq_refl)). apply IH. intros m Hm. apply H. now right.
Qed.
Lemma not_lits_some : forall sk names s n q, In n names -> prefix (str n) (pre sk s) = Some q -> not_lits sk names s = Fail.
Proof.
  intros sk names s n q Hin H. unfold not_lits. induction names as [|m names IH]; [destruct Hin|]. cbn [fold_right]. unfold and_then at 1, not_lit at 1.
  destruct (prefix (str m) (pre sk s)) eqn:E; [reflexivity|]. destruct Hin as [->|Hin]; [congruence|]. apply IH, Hin.
Qed.
Lemma not_lits_sound : forall sk names s u r, not_lits sk names s = Success u r -> r = s /\ forall n, In n names -> prefix (str n) (pre sk s) = None.
Proof.
  intros sk names s u r. unfold not_lits. induction names as [|n names IH]; cbn [fold_right]; intro H.
  - injection H as _ <-. split; [reflexivity|]. intros n [].
  - unfold and_then at 1, not_lit at 1 in H. destruct (prefix (str n) (pre sk s)) eqn:E; [discriminate H|]. destruct (IH H) as [-> K]. split; [reflexivity|].
    intros m [<-|Hm]; [exact E|now apply K].
Qed.
(** The lines of the section *)
Definition no_dollar : ascii -> bool := fun c => negb (Ascii.eqb c "$").
Lemma blank_or : forall b, blank b \/ exists w c t, b = w ++ c :: t /\ blank w /\ is_space c = false.
Proof.
  induction b as [|c b IH]; [left; constructor|]. destruct (is_space c) eqn:E.
  - destruct IH as [H|(w & d & t & -> & Hw & Hd)].
    + left. constructor; [now apply is_space_white|exact H].
    + right. exists (c :: w), d, t. split; [reflexivity|]. split; [|exact Hd]. constructor; [now apply is_space_white|exact Hw].
  - right. exists [], c, b. split; [reflexivity|]. split; [constructor|exact E].
Qed.
Lemma star_body : forall n b q, ~ In "$"%char b -> length b < n -> exists l w, star_ n (char_if true no_dollar) (b ++ "$"%char :: q) = Success l (w ++ "$"%char :: q) /\ blank w.
Proof.
  induction n as [|n IH]; intros b q Hb Hn; [lia|]. cbn [star_]. unfold char_if at 1, pre.
  destruct (blank_or b) as [Hw|(w & c & t & -> & Hw & Hc)].
  - rewrite skip_blank by exact Hw. cbn [skip]. change (is_space "$") with false. cbv iota. change (no_dollar "$") with false. exists [], b. split; [reflexivity|exact Hw].
  - rewrite <- app_assoc, skip_blank by exact Hw. cbn [app skip]. rewrite Hc.
    assert (Ec : no_dollar c = true). { unfold no_dollar. destruct (Ascii.eqb_spec c "$") as [->|]; [|reflexivity]. elim Hb. apply in_or_app. right. now left. }
    rewrite Ec. destruct (IH t q) as (l & w' & E & Hw').
    + intro K. apply Hb. apply in_or_app. right. now right.
    + rewrite app_length in Hn. cbn [length] in Hn. lia.
    + unfold chars in *. rewrite E. exists (c :: l), w'. auto.
Qed.
Lemma star_body_sound : forall n s l r, star_ n (char_if true no_dollar) s = Success l r -> exists b, s = b ++ r /\ ~ In "$"%char b.
Proof.
  induction n as [|n IH]; intros s l r H; cbn [star_] in H; [discriminate H|]. unfold char_if at 1, pre in H.
  destruct (skip_spec s) as (w & Es & Hw & _). destruct (skip s) as [|c q] eqn:Eq; [injection H as <- <-; exists []; auto|].
  destruct (no_dollar c) eqn:Ec; [|injection H as <- <-; exists []; auto].
  destruct (star_ n (char_if true no_dollar) q) as [l' r'| | |] eqn:E; try discriminate H. injection H as <- <-. destruct (IH _ _ _ E) as (b & -> & Hb).
  exists (w ++ c :: b). split; [rewrite Es, <- app_assoc; reflexivity|]. intro K. apply in_app_or in K. destruct K as [K|[K|K]].
  - unfold blank in Hw. rewrite Forall_forall in Hw. specialize (Hw _ K). apply is_space_white in Hw. discriminate Hw.
  - subst c. discriminate Ec.
  - contradiction.
Qed.
Lemma comment_read : forall names s r, Forall plain names -> foreign names s -> comment false names (s ++ r) = Success tt r.
Proof.
  intros names s r Hp (w & name & body & w2 & -> & Hw & Hw2 & Hres & (c & t & -> & Hc) & Hn1 & Hn2 & (e & b & -> & He) & Hd).
  set (name := c :: t) in *. set (body := e :: b) in *.
  unfold comment, on_error, startComment, lexeme. unfold and_then at 1 2. rewrite <- app_assoc, skip_blank by exact Hw. rewrite <- !app_assoc. rewrite skip_head by reflexivity.
  rewrite not_lits_none.
  2:{ intros n Hin. unfold pre. destruct (prefix (str n) _) as [q|] eqn:E; [|reflexivity]. exfalso.
      assert (Hpn := proj1 (Forall_forall _ _) Hp n Hin). destruct Hpn as (_ & P1 & P2). unfold body in E. rewrite app_assoc in E. cbn [app] in E. apply prefix_within in E; [|destruct He as [->| ->]; assumption].
      destruct E as (q' & E). apply Hres. exists n, q'. auto. }
  unfold and_then at 1. rewrite lit_false_read. unfold no_eol.
  assert (Hnl : forallb (fun c => negb (Ascii.eqb c "013" || Ascii.eqb c "010")) name = true).
  { apply forallb_forall. intros d Hdn. destruct (Ascii.eqb_spec d "013") as [->|]; [contradiction|]. destruct (Ascii.eqb_spec d "010") as [->|]; [contradiction|]. reflexivity. }
  unfold name at 1. rewrite plus_chars; [|exact Hnl|unfold body; cbn; destruct He as [->| ->]; reflexivity]. fold name.
  unfold must, and_then, star. destruct (star_body (S (length (body ++ str "$End" ++ w2 ++ name ++ r))) body (str "End" ++ w2 ++ name ++ r) Hd) as (l & w' & E & Hw').
  { rewrite app_length. lia. }
  change (str "$End" ++ w2 ++ name ++ r) with ("$"%char :: str "End" ++ w2 ++ name ++ r) in *. unfold no_dollar in E. rewrite E.
  assert (E2 : lit true (str "$End") (w' ++ "$"%char :: str "End" ++ w2 ++ name ++ r) = Success tt (w2 ++ name ++ r)).
  { change ("$"%char :: str "End" ++ w2 ++ name ++ r) with (str "$End" ++ w2 ++ name ++ r). rewrite app_assoc. apply lit_read; [exists w'; auto|reflexivity|discriminate]. }
  rewrite E2. assert (E3 : lit true name (w2 ++ name ++ r) = Success tt r).
  { rewrite app_assoc. apply lit_read; [exists w2; auto| |discriminate]. cbn. now apply not_space_white. }
  rewrite E3. reflexivity.
Qed.
Lemma comment_sound : forall names, sd (comment false names) (fun _ => foreign names).
Proof.
  intros names s u r H. unfold comment, on_error in H.
  destruct (and_then (startComment false names) _ s) as [x s'| | |] eqn:E; try discriminate H. injection H as -> ->.
  unfold and_then at 1 in E. destruct (startComment false names s) as [a s1| | |] eqn:E1; try discriminate E.
  unfold startComment, lexeme in E1. destruct (skip_spec s) as (w & Es & Hw & _). unfold and_then at 1 in E1. destruct (not_lits false names (skip s)) as [u1 q1| | |] eqn:E2; try discriminate E1.
  apply not_lits_sound in E2. destruct E2 as [-> Hnone]. unfold and_then in E1. destruct (lit false (str "$") (skip s)) as [u2 q2| | |] eqn:E3; try discriminate E1.
  apply lit_false_sound in E3. unfold no_eol in E1. apply plus_chars_sound in E1. destruct E1 as (-> & Hne & Hf & Hr1).
  unfold and_then at 1, must in E. destruct (and_then (star _) _ s1) as [v q3| | |] eqn:E4; try discriminate E. injection E as <- <-.
  unfold and_then at 1 in E4. destruct (star _ s1) as [l q4| | |] eqn:E5; try discriminate E4. apply star_body_sound in E5. destruct E5 as (b & -> & Hb).
  unfold and_then in E4. destruct (lit true (str "$End") q4) as [u5 q5| | |] eqn:E6; try discriminate E4. apply lit_sound in E6. destruct E6 as (v5 & -> & (w5 & -> & Hw5)).
  assert (Ha : exists c t, a = c :: t /\ ~ white c).
  { unfold lit, pre in E4. destruct (skip_spec q5) as (w6 & E7 & Hw6 & Hh). destruct (prefix a (skip q5)) as [q6|] eqn:E8; [|discriminate E4]. apply prefix_some in E8. rewrite E8 in Hh.
    destruct a as [|c t]; [congruence|]. exists c, t. split; [reflexivity|]. now apply not_space_white. }
  apply lit_sound in E4. destruct E4 as (v6 & -> & (w6 & -> & Hw6)).
  exists (w ++ str "$" ++ a ++ (b ++ w5) ++ str "$End" ++ w6 ++ a). split.
  { rewrite Es, E3. now rewrite <- !app_assoc. }
  exists w, a, (b ++ w5), w6. split; [reflexivity|]. split; [exact Hw|]. split; [exact Hw6|]. split.
  { intros (n & q & Hin & Eq). specialize (Hnone n Hin). unfold pre in Hnone. rewrite E3, app_assoc, Eq, <- app_assoc in Hnone. rewrite prefix_app in Hnone. discriminate Hnone. }
  split; [exact Ha|]. rewrite forallb_forall in Hf. split; [intro K; specialize (Hf _ K); discriminate Hf|]. split; [intro K; specialize (Hf _ K); discriminate Hf|].
  split.
  - rewrite <- app_assoc in Hr1. destruct (b ++ w5) as [|e t] eqn:Eb.
    + apply app_eq_nil in Eb. destruct Eb as [-> ->]. cbn in Hr1. discriminate Hr1.
    + exists e, t. split; [reflexivity|]. rewrite !app_assoc, Eb in Hr1. cbn in Hr1. apply negb_false_iff, orb_true_iff in Hr1. destruct Hr1 as [K|K]; apply Ascii.eqb_eq in K; auto.
  - intro K. apply in_app_or in K. destruct K as [K|K]; [contradiction|]. unfold blank in Hw5. rewrite Forall_forall in Hw5. specialize (Hw5 _ K). apply is_space_white in Hw5. discriminate Hw5.
Qed.
(** Where no foreign section starts *)
Definition starts (n : string) (R : chars) : Prop := exists w u, blank w /\ R = w ++ str n ++ u.
Definition follows (ns : list string) (R : chars) : Prop := blank R \/ exists n, In n ns /\ starts n R.
Lemma starts_skip : forall n R, plain n -> starts n R -> exists u, skip R = str n ++ u.
Proof. intros n R ((t & E) & _) (w & u & Hw & ->). exists u. rewrite skip_blank by exact Hw. rewrite E. reflexivity. Qed.
Lemma comment_stops : forall sk names R, Forall plain names -> follows names R -> comment sk names R = Fail.
Proof.
  intros sk names R Hp [Hb|(n & Hin & Hs)].
  - unfold comment, on_error. assert (E : startComment sk names R = Fail).
    { unfold startComment. destruct sk.
      - rewrite <- (app_nil_r R). unfold and_then at 1. rewrite not_lits_none.
        + unfold and_then, lit, pre. rewrite skip_blank by exact Hb. reflexivity.
        + intros m Hm. unfold pre. rewrite skip_blank by exact Hb. destruct (proj1 (Forall_forall _ _) Hp m Hm) as ((t & E) & _). rewrite E. reflexivity.
      - unfold lexeme. rewrite skip_all by exact Hb. unfold and_then at 1. rewrite not_lits_none; [reflexivity|].
        intros m Hm. unfold pre. destruct (proj1 (Forall_forall _ _) Hp m Hm) as ((t & E) & _). rewrite E. reflexivity. }
    unfold and_then at 1. rewrite E. reflexivity.
  - assert (Hpn := proj1 (Forall_forall _ _) Hp n Hin). destruct (starts_skip n R Hpn Hs) as (u & E). unfold comment, on_error.
    assert (E' : startComment sk names R = Fail).
    { unfold startComment. destruct sk.
      - unfold and_then at 1. rewrite (not_lits_some true names R n u Hin); [reflexivity|]. unfold pre. rewrite E. apply prefix_app.
      - unfold lexeme. unfold and_then at 1. rewrite (not_lits_some false names (skip R) n u Hin); [reflexivity|]. unfold pre. rewrite E. apply prefix_app. }
    unfold and_then at 1. rewrite E'. reflexivity.
Qed.
Lemma star_comments : forall names s R, Forall plain names -> foreigns names s -> follows names R -> exists l, star (comment false names) (s ++ R) = Success l R.
Proof.
  intros names s R Hp (ss & Hs & ->) HR. unfold star.
  assert (K : forall n, length ss < n -> exists l, star_ n (comment false names) (concat ss ++ R) = Success l R).
  { induction Hs as [|s ss Hf Hs IH]; intros n Hn; (destruct n as [|n]; [lia|]); cbn [concat app star_].
    - rewrite (comment_stops false names R Hp HR). exists []. reflexivity.
    - rewrite <- app_assoc, (comment_read names s _ Hp Hf). destruct (IH n) as (l & E); [cbn [length] in Hn; lia|]. rewrite E. exists (tt :: l). reflexivity. }
  apply K. rewrite app_length. assert (L : length ss <= length (concat ss)).
  { clear - Hs. induction Hs as [|s ss Hf Hs IH]; [auto|]. cbn [concat length]. rewrite app_length. assert (1 <= length s); [|lia].
    destruct Hf as (w & name & body & w2 & -> & _). rewrite app_length. cbn. lia. }
  lia.
Qed.
Lemma star_sound : forall A (p : parser A) f n s l r, sd p f -> star_ n p s = Success l r -> exists t, s = t ++ r /\ listf f l t.
Proof.
  intros A p f n s l r H. revert s l r. induction n as [|n IH]; intros s l r E; cbn [star_] in E; [discriminate E|].
  destruct (p s) as [a s'| | |] eqn:Ep; try discriminate E.
  - destruct (star_ n p s') as [l' r'| | |] eqn:El; try discriminate E. injection E as <- <-. destruct (H _ _ _ Ep) as (t1 & -> & H1). destruct (IH _ _ _ El) as (t2 & -> & H2).
    exists (t1 ++ t2). split; [now rewrite app_assoc|]. apply listf_cons. exists t1, t2. auto.
  - injection E as <- <-. exists []. split; [reflexivity|]. apply listf_nil; [reflexivity|auto].
Qed.
Lemma star_comments_sound : forall names, sd (star (comment false names)) (fun _ => foreigns names).
Proof.
  intros names s l r H. unfold star in H. apply (star_sound _ _ _ _ _ _ _ (comment_sound names)) in H. destruct H as (t & -> & (ss & Hs & ->)).
  exists (concat ss). split; [reflexivity|]. exists ss. split; [|reflexivity]. clear - Hs. induction Hs; constructor; assumption.
Qed.
