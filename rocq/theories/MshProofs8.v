(** Elements of format 2.2, files of format 2.2. *)
From Coq Require Import String Ascii List Arith NArith ZArith Bool Lia.
Import ListNotations.
From Verif Require Import Base MshModel MshSpec MshProofs MshProofs2 MshProofs3 MshProofs4 MshProofs5 MshProofs7.
Local Open Scope list_scope.
Local Open Scope nat_scope.

(** *** Text *)
Lemma int_sp_read : forall z s r, before integer blankf z s -> exists u, s = u ++ str " " /\ int_ false (u ++ str " " ++ r) = Success z (str " " ++ r).
Proof. intros z s r (u & b & -> & Hz & ->). exists u. split; [reflexivity|]. apply int_read; [exact Hz|reflexivity]. Qed.
Lemma nodes_read : forall l t b w r n, listf (after blankf (natural (2 ^ 32))) l t -> Forall (fun c => c = " "%char \/ c = "009"%char) b -> newlines w -> length (t ++ b ++ w ++ r) < n ->
  star_ n (read _ <- sp; uint false (2 ^ 32)) (t ++ b ++ w ++ r) = Success l (b ++ w ++ r).
Proof.
  induction l as [|x l IH]; intros t b w r n Ht Hb Hw Hn; (destruct n as [|n]; [lia|]).
  - apply listf_nil in Ht; [|reflexivity]. destruct Ht as [_ ->]. cbn [app star_].
    assert (E : (read _ <- sp; uint false (2 ^ 32)) (b ++ w ++ r) = Fail).
    { destruct b as [|c b]; [destruct Hw as [->| ->]; reflexivity|]. inversion Hb as [|? ? Hc Hb']; subst. destruct Hc as [->| ->]; [|reflexivity].
      unfold and_then. change ((" "%char :: b) ++ w ++ r) with (str " " ++ b ++ w ++ r). rewrite (sp_read _ (b ++ w ++ r) eq_refl).
      destruct b as [|c b]; [destruct Hw as [->| ->]; reflexivity|]. inversion Hb' as [|? ? Hc' _]; subst. destruct Hc' as [->| ->]; reflexivity. }
    rewrite E. reflexivity.
  - apply listf_cons in Ht. destruct Ht as (s1 & s2 & -> & (u & v & -> & -> & Hv) & H2). cbn [star_]. rewrite <- !app_assoc.
    assert (Nd : no_digit (s2 ++ b ++ w ++ r)).
    { destruct l as [|y l].
      - apply listf_nil in H2; [|reflexivity]. destruct H2 as [_ ->]. cbn [app]. destruct b as [|c b]; [exact (newlines_no_digit w r Hw)|]. inversion Hb as [|? ? Hc _]; subst. destruct Hc as [->| ->]; reflexivity.
      - apply listf_cons in H2. destruct H2 as (q1 & q2 & -> & (v1 & v2 & -> & -> & _) & _). reflexivity. }
    assert (E : (read _ <- sp; uint false (2 ^ 32)) (str " " ++ v ++ s2 ++ b ++ w ++ r) = Success x (s2 ++ b ++ w ++ r)).
    { go (apply sp_read; reflexivity). apply uint_read; [exact Hv|exact Nd]. }
    rewrite E, IH; [reflexivity|exact H2|exact Hb|exact Hw|]. rewrite <- !app_assoc in Hn. rewrite app_length in Hn. cbn [str list_ascii_of_string length] in Hn. rewrite app_length in Hn. lia.
Qed.
Lemma before_sp : forall a s r, before integer blankf a s -> (read p <- int_ false; read _ <- sp; ret p) (s ++ r) = Success a r.
Proof.
  intros a s r (u & b & -> & Hz & Hb). rewrite <- app_assoc. go (apply int_read; [exact Hz|now apply blankf_no_digit]). go (apply sp_read; exact Hb). reflexivity.
Qed.
Lemma elementText_read : forall e s r, element_line written e s -> elementText (s ++ r) = Success e r.
Proof.
  intros e s r (n & tags & s1 & s2 & s3 & s4 & s5 & s6 & s7 & t1 & t2 & b & w & -> & (u1 & b1 & -> & H1 & B1) & En & (u2 & b2 & -> & H2 & B2) & (u3 & b3 & -> & H3 & B3) & (u4 & b4 & -> & H4 & B4) & (u5 & b5 & -> & H5 & B5) &
    Hp & (x & l & El & Hx & Hl) & Hb & Hw).
  unfold elementText. rewrite <- !app_assoc.
  go (apply int_read; [exact H1|now apply blankf_no_digit]). go (apply sp_read; exact B1).
  go (apply int_read; [exact H2|now apply blankf_no_digit]). go (apply sp_read; exact B2).
  go (apply int_read; [exact H3|now apply blankf_no_digit]). go (apply sp_read; exact B3).
  go (apply int_read; [exact H4|now apply blankf_no_digit]). go (apply sp_read; exact B4).
  go (apply int_read; [exact H5|now apply blankf_no_digit]). go (apply sp_read; exact B5).
  assert (Nd : no_digit (t2 ++ b ++ w ++ r)).
  { destruct l as [|y l].
    - apply listf_nil in Hl; [|reflexivity]. destruct Hl as [_ ->]. cbn [app]. destruct b as [|c b]; [exact (newlines_no_digit w r Hw)|]. inversion Hb as [|? ? Hc _]; subst. destruct Hc as [->| ->]; reflexivity.
    - apply listf_cons in Hl. destruct Hl as (q1 & q2 & -> & (v1 & v2 & -> & -> & _) & _). reflexivity. }
  assert (Ns : space_list sp (uint false (2 ^ 32)) (t1 ++ t2 ++ b ++ w ++ r) = Success (e2_nodes e) (b ++ w ++ r)).
  { unfold space_list. go (apply uint_read; [exact Hx|exact Nd]). go (unfold star; apply nodes_read; [exact Hl|exact Hb|exact Hw|apply Nat.lt_succ_diag_r]). now rewrite El. }
  assert (Nb : star (char_if false is_blank) (b ++ w ++ r) = Success b (w ++ r)).
  { unfold star. apply star_chars.
    - clear - Hb. induction Hb as [|c b Hc Hb IH]; [reflexivity|]. cbn [forallb]. rewrite IH. destruct Hc as [->| ->]; reflexivity.
    - destruct Hw as [->| ->]; reflexivity.
    - rewrite app_length. lia. }
  destruct Hp as [(Ep & _ & Et & -> & ->)|(Et & Hk & Hp)].
  - cbn [st_redundant written] in Et. subst tags. go (reflexivity). cbn [app]. go (reflexivity). go (exact Ns). go (exact Nb). go (apply eol_read; exact Hw). unfold ret, to_unsigned. rewrite <- En, <- Ep. destruct e; reflexivity.
  - destruct Hk as [(k & (u6 & b6 & -> & H6 & B6) & _)|[_ []]].
    replace (2 <? tags)%Z with true by (symmetry; apply Z.ltb_lt; lia).
    go (unfold alt; rewrite <- !app_assoc; rewrite (bind_ok _ _ _ _ _ _ _ (int_read k u6 (b6 ++ s7 ++ t1 ++ t2 ++ b ++ w ++ r) H6 (blankf_no_digit _ _ B6))); rewrite (sp_read _ _ B6); reflexivity).
    replace (Z.to_nat (tags - 3)) with (length (e2_partitions e)) by lia.
    go (apply (repeat_read _ _ (before integer blankf)); [exact before_sp|exact Hp]). go (exact Ns). go (exact Nb). go (apply eol_read; exact Hw). unfold ret, to_unsigned. rewrite <- En. destruct e; reflexivity.
Qed.
Lemma int_sp_sound : sd (read p <- int_ false; read _ <- sp; ret p) (before integer blankf).
Proof. intros s a r H. next H E1. next H E2. injection H as <- <-. sound int_sound E1 t1 H1. sound sp_sound E2 t2 H2. exists (t1 ++ t2). split; [now rewrite <- app_assoc|]. exists t1, t2. auto. Qed.
Lemma sp_uint_sound : sd (read _ <- sp; uint false (2 ^ 32)) (after blankf (natural (2 ^ 32))).
Proof. intros s a r H. next H E1. sound sp_sound E1 t1 H1. sound uint_sound H t2 H2. exists (t1 ++ t2). split; [now rewrite <- app_assoc|]. exists t1, t2. auto. Qed.
Lemma elementText_sound : sd elementText (element_line accepted).
Proof.
  intros s e r H. unfold elementText in H. next H E1. next H E2. next H E3. next H E4. next H E5. next H E6. next H E7. next H E8. next H E9. next H E10. next H E11. next H E12. next H E13. next H E14. next H E15. injection H as <- <-.
  sound int_sound E1 t1 H1. sound sp_sound E2 b1 B1. sound int_sound E3 t3 H3. sound sp_sound E4 b3 B3. sound int_sound E5 t5 H5. sound sp_sound E6 b5 B5. sound int_sound E7 t7 H7. sound sp_sound E8 b7 B7. sound int_sound E9 t9 H9. sound sp_sound E10 b9 B9.
  assert (K : exists t, x18 = t ++ x20 /\ ((2 <? x7)%Z = false /\ t = [] \/ (2 <? x7)%Z = true /\ ((exists k, before integer blankf k t) \/ t = []))).
  { unfold alt in E11. destruct (2 <? x7)%Z.
    - destruct ((read _ <- int_ false; sp) x18) as [u q| | |] eqn:E; try discriminate E11.
      + injection E11 as _ <-. next E F. sound int_sound F v1 G1. sound sp_sound E v2 G2. exists (v1 ++ v2). split; [now rewrite <- app_assoc|]. right. split; [reflexivity|]. left. eexists. exists v1, v2. eauto.
      + injection E11 as _ <-. exists []. split; [reflexivity|]. right. split; [reflexivity|]. now right.
    - injection E11 as _ <-. exists []. split; [reflexivity|]. left. auto. }
  destruct K as (t11 & -> & K). apply (sd_repeat _ _ _ _ int_sp_sound) in E12. destruct E12 as (t12 & -> & L12 & H12). unfold space_list in E13. next E13 F1. next E13 F2. injection E13 as <- <-. sound uint_sound F1 v1 G1.
  apply (star_sound _ _ _ _ _ _ _ sp_uint_sound) in F2. destruct F2 as (v2 & -> & G2). apply star_chars_sound in E14. destruct E14 as (-> & H14 & _). sound eol_sound E15 t15 H15.
  exists ((t1 ++ b1) ++ (t3 ++ b3) ++ (t5 ++ b5) ++ (t7 ++ b7) ++ (t9 ++ b9) ++ t11 ++ t12 ++ v1 ++ v2 ++ x25 ++ t15). split; [now rewrite <- !app_assoc|].
  exists x, x7, (t1 ++ b1), (t3 ++ b3), (t5 ++ b5), (t7 ++ b7), (t9 ++ b9), t11, t12, v1, v2, x25, t15. split; [reflexivity|]. cbn [e2_number e2_type e2_physical e2_elementary e2_partitions e2_nodes].
  split; [exists t1, b1; auto|]. split; [reflexivity|]. split; [exists t3, b3; auto|]. split; [exists t5, b5; auto|]. split; [exists t7, b7; auto|]. split; [exists t9, b9; auto|].
  split; [|split; [|split; [|exact H15]]].
  - destruct K as [(K1 & ->)|(K1 & K2)].
    + apply Z.ltb_ge in K1. replace (Z.to_nat (x7 - 3)) with 0 in L12 by lia. apply listf_nil in H12; [|exact L12]. destruct H12 as [-> ->]. left. split; [reflexivity|]. split; [exact K1|]. split; [exact I|]. auto.
    + apply Z.ltb_lt in K1. right. split; [lia|]. split; [|exact H12]. destruct K2 as [(k & Hk)| ->]; [left; exists k; split; [exact Hk|exact I]|right; split; [reflexivity|exact I]].
  - eexists _, _. split; [reflexivity|]. split; [exact G1|exact G2].
  - clear - H14. apply Forall_forall. intros c Hc. rewrite forallb_forall in H14. specialize (H14 c Hc). unfold is_blank in H14. apply orb_true_iff in H14. destruct H14 as [H|H]; apply Ascii.eqb_eq in H; auto.
Qed.
Lemma elementGroupText_read : forall l s r, elements_text written l s -> lexeme (on_error elementGroupText) (s ++ r) = Success l r.
Proof.
  intros l s r (w & e1 & n & e2 & t & -> & Hw & H1 & Hn & H2 & Ht). unfold elementGroupText, lexeme. rewrite <- !app_assoc, skip_blank by exact Hw. rewrite skip_head by reflexivity. apply on_error_ok.
  go (apply lit_false_read). go (apply eol_read; exact H1). go (apply uint_read; [exact Hn|now apply newlines_no_digit]). go (apply eol_read; exact H2). rewrite Nat2N.id.
  go (apply (repeat_read _ _ (element_line written)); [exact elementText_read|exact Ht]). go (apply lit_false_read). reflexivity.
Qed.
Lemma elementGroupText_sound : sd (lexeme (on_error elementGroupText)) (elements_text accepted).
Proof.
  intros s l r H. unfold lexeme in H. destruct (skip_spec s) as (w & Es & Hw & _). apply on_error_inv in H. unfold elementGroupText in H.
  next H E1. next H E2. next H E3. next H E4. next H E5. next H E6. injection H as <- <-. apply lit_false_sound in E1. rewrite E1 in Es.
  sound eol_sound E2 t2 H2. sound uint_sound E3 t3 H3. sound eol_sound E4 t4 H4. apply (sd_repeat _ _ _ _ elementText_sound) in E5. destruct E5 as (t5 & -> & Hl & H5). apply lit_false_sound in E6. match type of E6 with ?y = _ => subst y end.
  exists (w ++ str "$Elements" ++ t2 ++ t3 ++ t4 ++ t5 ++ str "$EndElements"). split; [rewrite Es; now rewrite <- !app_assoc|].
  exists w, t2, t3, t4, t5. split; [reflexivity|]. split; [exact Hw|]. split; [exact H2|]. split; [replace (N.of_nat (length x7)) with x3 by lia; exact H3|]. split; [exact H4|]. exact H5.
Qed.

(** *** Binary *)
Lemma elementBin_read : forall big type tags e n s r, element_binary written big type tags e s -> num_nodes_of type = Some n -> elementBin big type tags n (s ++ r) = Success e r.
Proof.
  intros big type tags e n s r (s1 & s2 & s3 & s4 & s5 & s6 & -> & Et & H1 & H2 & H3 & Hp & Hc & H6) Hn. apply num_nodes_counts in Hc. rewrite Hn in Hc. injection Hc as ->.
  unfold elementBin. rewrite <- !app_assoc. go (apply word_read; exact H1). go (apply dword_read; exact H2). go (apply dword_read; exact H3).
  destruct Hp as [(Ep & _ & Eg & -> & ->)|(Eg & Hk & Hp)].
  - cbn [st_redundant written] in Eg. subst tags. go (reflexivity). cbn [app]. go (reflexivity). go (apply (repeat_read _ _ (wordf big 4)); [intros; now apply word_read|exact H6]). unfold ret. rewrite <- Ep, <- Et. destruct e; reflexivity.
  - destruct Hk as [(k & [_ Hk] & _)|[_ []]]. replace (2 <? tags)%Z with true by (symmetry; apply Z.ltb_lt; lia).
    go (unfold alt; rewrite (bind_ok _ _ _ _ _ _ _ (word_read big 4 _ s4 (s5 ++ s6 ++ r) Hk)); reflexivity). replace (Z.to_nat (tags - 3)) with (length (e2_partitions e)) by lia.
    go (apply (repeat_read _ _ (intf big)); [intros; now apply dword_read|exact Hp]). go (apply (repeat_read _ _ (wordf big 4)); [intros; now apply word_read|exact H6]). unfold ret. rewrite <- Et. destruct e; reflexivity.
Qed.
Lemma intf_word : forall big v s, wordf big 4 v s -> exists k, intf big k s.
Proof. intros big v s H. exists (to_int v). destruct H as [H ->]. destruct (mod_to_int v H) as [K1 K2]. split; [exact K1|]. rewrite K2. split; [exact H|reflexivity]. Qed.
Lemma elementBin_sound : forall big type tags n, num_nodes_of type = Some n -> sd (elementBin big type tags n) (element_binary accepted big type tags).
Proof.
  intros big type tags n Hn s e r H. unfold elementBin in H. next H E1. next H E2. next H E3. next H E4. next H E5. next H E6. injection H as <- <-.
  sound word_sound E1 t1 H1. sound dword_sound E2 t2 H2. sound dword_sound E3 t3 H3.
  assert (K : exists t, x4 = t ++ x6 /\ ((2 <? tags)%Z = false /\ t = [] \/ (2 <? tags)%Z = true /\ ((exists k, intf big k t) \/ t = []))).
  { unfold alt in E4. destruct (2 <? tags)%Z.
    - destruct ((read _ <- word false big 4; ret tt) x4) as [u q| | |] eqn:E; try discriminate E4.
      + injection E4 as _ <-. next E F. sound word_sound F v1 G1. injection E as _ <-. exists v1. split; [reflexivity|]. right. split; [reflexivity|]. left. exact (intf_word _ _ _ G1).
      + injection E4 as _ <-. exists []. split; [reflexivity|]. right. split; [reflexivity|]. now right.
    - injection E4 as _ <-. exists []. split; [reflexivity|]. left. auto. }
  destruct K as (t4 & -> & K). apply (sd_repeat _ _ _ _ (dword_sound big)) in E5. destruct E5 as (t5 & -> & L5 & H5). apply (sd_repeat _ _ _ _ (word_sound big 4)) in E6. destruct E6 as (t6 & -> & L6 & H6).
  exists (t1 ++ t2 ++ t3 ++ t4 ++ t5 ++ t6). split; [now rewrite <- !app_assoc|]. exists t1, t2, t3, t4, t5, t6. cbn [e2_number e2_type e2_physical e2_elementary e2_partitions e2_nodes]. split; [reflexivity|]. split; [reflexivity|].
  split; [exact H1|]. split; [exact H2|]. split; [exact H3|]. split; [|split; [apply num_nodes_counts; congruence|exact H6]].
  destruct K as [(K1 & ->)|(K1 & K2)].
  - apply Z.ltb_ge in K1. replace (Z.to_nat (tags - 3)) with 0 in L5 by lia. apply listf_nil in H5; [|exact L5]. destruct H5 as [-> ->]. left. split; [reflexivity|]. split; [exact K1|]. split; [exact I|]. auto.
  - apply Z.ltb_lt in K1. right. split; [lia|]. split; [|exact H5]. destruct K2 as [(k & Hk)| ->]; [left; exists k; split; [exact Hk|exact I]|right; split; [reflexivity|exact I]].
Qed.
Lemma wordf_length : forall big n v s, wordf big n v s -> length s = n.
Proof. intros big n v s [_ ->]. destruct big; rewrite ?rev_length; apply bytes_length. Qed.
Lemma groups_read : forall big a ls t r e fuel, listf (group_binary written big) ls t -> (a < 2 ^ 32)%N -> a = (e + N.of_nat (length (concat ls)))%N -> length ls < fuel ->
  groups big fuel a e (t ++ r) = Success (concat ls) r.
Proof.
  intros big a. induction ls as [|l ls IH]; intros t r e fuel Ht Ha Ea Hf; (destruct fuel as [|fuel]; [lia|]); cbn [groups].
  - apply listf_nil in Ht; [|reflexivity]. destruct Ht as [_ ->]. cbn [concat length app] in *. replace (e <? a)%N with false by (symmetry; apply N.ltb_ge; lia). reflexivity.
  - apply listf_cons in Ht. destruct Ht as (s1 & s2 & -> & (type & count & tags & u1 & u2 & -> & Hl & Hne & (p1 & p2 & -> & (p3 & p4 & -> & G1 & G2) & G3) & Hu) & H2). cbn [fst snd st_redundant written] in *.
    cbn [concat] in Ea |- *. rewrite app_length in Ea.
    assert (L0 : 0 < length l) by (destruct l; [now elim Hne|cbn [length]; lia]).
    replace (e <? a)%N with true by (symmetry; apply N.ltb_lt; lia). rewrite <- !app_assoc.
    assert (Hn : exists n, num_nodes_of type = Some n).
    { destruct l as [|y l']; [now elim Hne|]. apply listf_cons in Hu. destruct Hu as (q1 & q2 & _ & (w1 & w2 & w3 & w4 & w5 & w6 & _ & _ & _ & _ & _ & _ & Hc & _) & _). apply num_nodes_counts in Hc. eauto. }
    destruct Hn as (n & Hn).
    match goal with |- match ?g ?s0 with _ => _ end = _ => assert (E : g s0 = Success (l, count) (s2 ++ r)) end.
    { go (apply dword_read; exact G1). go (apply dword_read; exact G2). go (apply dword_read; exact G3). rewrite Hn, <- Hl.
      go (apply (repeat_read _ _ (element_binary written big type tags)); [intros; now apply elementBin_read|exact Hu]). reflexivity. }
    rewrite E. rewrite IH; [reflexivity|exact H2|exact Ha| |cbn [length] in Hf; lia].
    replace (Z.of_N e + count)%Z with (Z.of_N (e + N.of_nat (length l))) by lia. unfold to_unsigned. rewrite Z.mod_small by lia. lia.
Qed.
Lemma group_long : forall big l s, group_binary written big l s -> 1 <= length s.
Proof.
  intros big l s (type & count & tags & u1 & u2 & -> & _ & _ & (p1 & p2 & -> & (p3 & p4 & -> & [_ G1] & G2) & G3) & _). apply wordf_length in G1. rewrite !app_length. lia.
Qed.
Lemma groups_count : forall big ls t, listf (group_binary written big) ls t -> length ls <= length t.
Proof.
  induction ls as [|l ls IH]; intros t Ht; [apply Nat.le_0_l|]. apply listf_cons in Ht. destruct Ht as (s1 & s2 & -> & H1 & H2). apply group_long in H1. apply IH in H2. rewrite app_length. cbn [length]. lia.
Qed.
Lemma groups_sound : forall big a fuel e s l r, groups big fuel a e s = Success l r -> exists ls t, s = t ++ r /\ l = concat ls /\ listf (group_binary accepted big) ls t.
Proof.
  intros big a. induction fuel as [|fuel IH]; intros e s l r H; cbn [groups] in H; [discriminate H|].
  destruct (e <? a)%N.
  - match type of H with match ?g s with _ => _ end = _ => destruct (g s) as [[l1 c] s'| | |] eqn:E end; try discriminate H.
    + destruct (groups big fuel a _ s') as [l2 r'| | |] eqn:E2; try discriminate H. injection H as <- <-. apply IH in E2. destruct E2 as (ls & t & -> & -> & Ht).
      next E E1. next E F2. next E F3. next E F4. injection E as <- <- ->. sound dword_sound E1 t1 H1. sound dword_sound F2 t2 H2. sound dword_sound F3 t3 H3.
      assert (K : sd (match num_nodes_of x with Some n => elementBin big x x3 n | None => fun _ => Exception end) (element_binary accepted big x x3)).
      { destruct (num_nodes_of x) as [n|] eqn:En; [now apply elementBin_sound|]. intros ? ? ? Hx. discriminate Hx. }
      apply (sd_repeat _ _ _ _ K) in F4. destruct F4 as (t4 & -> & L4 & H4).
      exists (x5 :: ls), (((t1 ++ t2 ++ t3) ++ t4) ++ t). split; [now rewrite <- !app_assoc|]. split; [reflexivity|]. apply listf_cons. exists ((t1 ++ t2 ++ t3) ++ t4), t. split; [reflexivity|]. split; [|exact Ht].
      exists x, x1, x3, (t1 ++ t2 ++ t3), t4. split; [reflexivity|]. split; [exact L4|]. split; [exact I|]. split; [|exact H4]. exists (t1 ++ t2), t3. split; [now rewrite <- app_assoc|]. split; [|exact H3]. exists t1, t2. auto.
    + injection H as <- <-. exists [], []. split; [reflexivity|]. split; [reflexivity|]. apply listf_nil; [reflexivity|auto].
  - injection H as <- <-. exists [], []. split; [reflexivity|]. split; [reflexivity|]. apply listf_nil; [reflexivity|auto].
Qed.
Lemma elementGroupBin_read : forall big l s r, elements_binary written big l s -> lexeme (on_error (elementGroupBin big)) (s ++ r) = Success l r.
Proof.
  intros big l s r (w & e1 & k & n & e2 & ls & t & e3 & -> & Hw & H1 & Hn & Ek & H2 & -> & Ht & H3). unfold elementGroupBin, lexeme. rewrite <- !app_assoc, skip_blank by exact Hw. rewrite skip_head by reflexivity. apply on_error_ok.
  go (apply lit_false_read). go (apply eol_read; exact H1). go (apply uint_read; [exact Hn|now apply newlines_no_digit]). go (apply eol_read; exact H2).
  cbn [st_redundant written] in Ek.
  go (apply groups_read; [exact Ht|destruct Hn as (? & _ & _ & _ & Hk); exact Hk|exact Ek|]; apply groups_count in Ht; rewrite app_length; lia).
  go (apply eol_read; exact H3). go (apply lit_false_read). reflexivity.
Qed.
Lemma elementGroupBin_sound : forall big, sd (lexeme (on_error (elementGroupBin big))) (elements_binary accepted big).
Proof.
  intros big s l r H. unfold lexeme in H. destruct (skip_spec s) as (w & Es & Hw & _). apply on_error_inv in H. unfold elementGroupBin in H.
  next H E1. next H E2. next H E3. next H E4. next H E5. next H E6. next H E7. injection H as <- <-. apply lit_false_sound in E1. rewrite E1 in Es.
  sound eol_sound E2 t2 H2. sound uint_sound E3 t3 H3. sound eol_sound E4 t4 H4. apply groups_sound in E5. destruct E5 as (ls & t5 & -> & -> & H5). sound eol_sound E6 t6 H6. apply lit_false_sound in E7. match type of E7 with ?y = _ => subst y end.
  exists (w ++ str "$Elements" ++ t2 ++ t3 ++ t4 ++ t5 ++ t6 ++ str "$EndElements"). split; [rewrite Es; now rewrite <- !app_assoc|].
  exists w, t2, x3, t3, t4, ls, t5, t6. split; [reflexivity|]. split; [exact Hw|]. split; [exact H2|]. split; [exact H3|]. split; [exact I|]. split; [exact H4|]. split; [reflexivity|]. split; [exact H5|exact H6].
Qed.

(** *** Files *)
Section File2.
Variable D : Type.
Variable node : parser (N * vec3 D).
Variable elements : parser (list element2).
Variable nodesf : format (list (N * vec3 D)).
Variable elementsf : format (list element2).
Notation P_elements := (lexeme (on_error elements)).
Section Complete.
Hypothesis Hnod : forall a s r, nodesf a s -> nodeGroup node (s ++ r) = Success a r.
Hypothesis Hele : forall a s r, elementsf a s -> P_elements (s ++ r) = Success a r.
Hypothesis Snod : forall a s r, nodesf a s -> starts "$Nodes" (s ++ r).
Hypothesis Sele : forall a s r, elementsf a s -> starts "$Elements" (s ++ r).
Lemma start2_read : forall f s, msh2f written nodesf elementsf f s -> exists w, start2 node elements s = Success f w /\ blank w.
Proof.
  intros f s (c & a & b & e & p & w & -> & Hc & Ha & Hb & He & Hp & Hw). exists w. split; [|exact Hw].
  assert (Hstar : forall s R, foreigns names2 s -> follows names2 R -> exists l, star comment2 (s ++ R) = Success l R) by (intros; now apply star_comments; [exact plain2| |]).
  assert (F4 : follows [] w) by now left.
  assert (F3 : follows ["$Periodic"%string] (p ++ w)).
  { eapply follows_optional; [|exact Hp|exact F4]. intros y t r (s1 & s2 & s3 & -> & (w0 & -> & Hw0) & _). exists w0. rewrite <- !app_assoc. eexists. split; [exact Hw0|reflexivity]. }
  assert (F2 : follows ["$Elements"%string] (e ++ p ++ w)) by (eapply follows_section; [exact Sele|exact He|now left]).
  assert (F1 : follows ["$Nodes"%string] (b ++ e ++ p ++ w)) by (eapply follows_section; [exact Snod|exact Hb|now left]).
  assert (F0 : follows ["$PhysicalNames"; "$Nodes"]%string (a ++ b ++ e ++ p ++ w)).
  { eapply follows_optional; [|exact Ha|exact F1]. intros y t r (s1 & s2 & s3 & -> & (w0 & -> & Hw0) & _). exists w0. rewrite <- !app_assoc. eexists. split; [exact Hw0|reflexivity]. }
  assert (Inc : forall ms, forallb (fun m => existsb (String.eqb m) names2) ms = true -> incl ms names2).
  { intros ms H m Hm. rewrite forallb_forall in H. specialize (H m Hm). apply existsb_exists in H. destruct H as (m' & H1 & H2). apply String.eqb_eq in H2. congruence. }
  assert (Ins : forall m, existsb (String.eqb m) names2 = true -> In m names2).
  { intros m H. apply existsb_exists in H. destruct H as (m' & H1 & H2). apply String.eqb_eq in H2. congruence. }
  assert (Fo : forall ms R, follows ms R -> forallb (fun m => existsb (String.eqb m) names2) ms = true -> follows names2 R).
  { intros ms R H0 H. revert H0. apply follows_incl. now apply Inc. }
  unfold start2. apply on_error_ok. destruct (Hstar c _ Hc (Fo _ _ F0 eq_refl)) as (l0 & E0). go (exact E0).
  destruct (opt_read names2 comment2 (foreigns names2) plain2 Hstar _ physicalEntityGroup (names2f written) [] [] "$PhysicalNames" ["$Nodes"%string] (m2_names f) a (b ++ e ++ p ++ w)) as (oa & Ea & Oa);
    [exact t_names2| |now apply Ins|now apply Inc|reflexivity|exact Ha|exact F1|].
  { intros r Hr. unfold physicalEntityGroup, on_error, and_then at 1, lit, pre. rewrite app_nil_r in Hr. rewrite Hr. reflexivity. }
  go (exact Ea).
  assert (E2 := follow_read names2 comment2 (foreigns names2) Hstar _ (nodeGroup node) nodesf _ b (e ++ p ++ w) Hnod Hb (Fo _ _ F2 eq_refl)).
  unfold follow_, and_then in E2. unfold and_then at 1. destruct (nodeGroup node (b ++ e ++ p ++ w)) as [y2 q2| | |]; try discriminate E2. unfold and_then at 1. destruct (star comment2 q2) as [l2 r2| | |]; try discriminate E2. injection E2 as -> ->.
  assert (E3 := follow_read names2 comment2 (foreigns names2) Hstar _ P_elements elementsf _ e (p ++ w) Hele He (Fo _ _ F3 eq_refl)).
  unfold follow_, and_then in E3. unfold and_then at 1. destruct (P_elements (e ++ p ++ w)) as [y3 q3| | |]; try discriminate E3. unfold and_then at 1. destruct (star comment2 q3) as [l3 r3| | |]; try discriminate E3. injection E3 as -> ->.
  destruct (opt_read names2 comment2 (foreigns names2) plain2 Hstar _ periodicEntityGroup (periodic2f written) [] [] "$Periodic" [] (m2_periodic f) p w) as (op & Ep & Op);
    [exact t_periodics| |now apply Ins|now apply Inc|reflexivity|exact Hp|exact F4|].
  { intros r Hr. unfold periodicEntityGroup, on_error, and_then at 1, lit, pre. rewrite app_nil_r in Hr. rewrite Hr. reflexivity. }
  go (exact Ep). unfold ret, or_empty. rewrite Oa, Op. destruct f; reflexivity.
Qed.
End Complete.
Section Sound.
Hypothesis Hnod : sd (nodeGroup node) nodesf.
Hypothesis Hele : sd P_elements elementsf.
Lemma start2_sound : forall s f w, start2 node elements s = Success f w -> blank w -> msh2f accepted nodesf elementsf f s.
Proof.
  intros s f w H Hw. unfold start2 in H. apply on_error_inv in H. next H E0. next H E1. next H E2. next H E3. next H E4. next H E5. next H E6. injection H as <- <-.
  pose proof (star_comments_sound names2) as Hc. fold comment2 in Hc. sound Hc E0 c H0.
  fold (follow_ comment2 physicalEntityGroup) in E1. apply (opt_follow_sound _ _ _ _ _ u_names2 Hc []) in E1. destruct E1 as (a & -> & H1).
  sound Hnod E2 b H2. sound Hc E3 b' H3. sound Hele E4 e H4. sound Hc E5 e' H5.
  fold (follow_ comment2 periodicEntityGroup) in E6. apply (opt_follow_sound _ _ _ _ _ u_periodics Hc []) in E6. destruct E6 as (p & -> & H6).
  exists c, a, (b ++ b'), (e ++ e'), p, x12. split; [now rewrite <- !app_assoc|]. split; [exact H0|]. split; [exact H1|]. split; [exists b, b'; auto|]. split; [exists e, e'; auto|]. split; [exact H6|exact Hw].
Qed.
End Sound.
End File2.
Lemma file2_text_read : forall f s, msh2f written (nodes2f written (node_line written)) (elements_text written) f s -> exists w, start2 nodeText elementGroupText s = Success f w /\ blank w.
Proof.
  intros f s. apply start2_read.
  - intros a u r. apply nodeGroup_read. exact nodeText_read.
  - exact elementGroupText_read.
  - intros a u r (w & e1 & n & e2 & t & b & -> & Hw & _). exists w. rewrite <- !app_assoc. eexists. split; [exact Hw|reflexivity].
  - intros a u r (w & e1 & n & e2 & t & -> & Hw & _). exists w. rewrite <- !app_assoc. eexists. split; [exact Hw|reflexivity].
Qed.
Lemma file2_binary_read : forall big f s, msh2f written (nodes2f written (node_binary big)) (elements_binary written big) f s -> exists w, start2 (nodeBin big) (elementGroupBin big) s = Success f w /\ blank w.
Proof.
  intros big f s. apply start2_read.
  - intros a u r. apply nodeGroup_read. exact (nodeBin_read big).
  - exact (elementGroupBin_read big).
  - intros a u r (w & e1 & n & e2 & t & b & -> & Hw & _). exists w. rewrite <- !app_assoc. eexists. split; [exact Hw|reflexivity].
  - intros a u r (w & e1 & k & n & e2 & ls & t & e3 & -> & Hw & _). exists w. rewrite <- !app_assoc. eexists. split; [exact Hw|reflexivity].
Qed.
Lemma file2_text_sound : forall s f w, start2 nodeText elementGroupText s = Success f w -> blank w -> msh2f accepted (nodes2f accepted (node_line accepted)) (elements_text accepted) f s.
Proof. apply start2_sound; [apply nodeGroup_sound, nodeText_sound|exact elementGroupText_sound]. Qed.
Lemma file2_binary_sound : forall big s f w, start2 (nodeBin big) (elementGroupBin big) s = Success f w -> blank w -> msh2f accepted (nodes2f accepted (node_binary big)) (elements_binary accepted big) f s.
Proof. intro big. apply start2_sound; [apply nodeGroup_sound, nodeBin_sound|exact (elementGroupBin_sound big)]. Qed.
