(** Files of format 4.1, text and binary. *)
From Coq Require Import String Ascii List Arith NArith ZArith Bool Lia.
Import ListNotations.
From Verif Require Import Base MshModel MshSpec MshProofs MshProofs2 MshProofs3 MshProofs4 MshProofs5.
Local Open Scope list_scope.
Local Open Scope nat_scope.

Section EntrySound.
Variable D : Type.
Variables (int32 : parser Z) (size : parser N) (dbl : parser D).
Variables (open_ close_ : string -> parser unit) (zero sixteen : parser unit).
Variable section : forall A, parser A -> parser A.
Variable csk : bool.
Variable fg : chars -> Prop.
Variable x : lexis D.
Notation cm := (comment4 csk).
Hypothesis Hstar : sd (star cm) (fun _ => fg).
Hypothesis Hent : sd (section _ (entities_ D int32 size dbl open_ close_)) (entitiesf D x).
Hypothesis Hpar : sd (section _ (partitioned_entities_ D int32 size dbl open_ close_)) (partitionedf D x).
Hypothesis Hnod : sd (section _ (nodes_ D int32 size dbl open_ close_)) (nodesf D x).
Hypothesis Hele : sd (section _ (elements_ int32 size open_ close_)) (elementsf D x).
Hypothesis Hlin : sd (section _ (periodic_links_ D int32 size dbl open_ close_ zero sixteen)) (rawlinksf D x).
Hypothesis Hgho : sd (section _ (ghost_elements_ int32 size open_ close_)) (ghostsf D x).
Lemma entry_sound : forall s f0 r, entry4 D int32 size dbl open_ close_ zero sixteen section csk s = Success f0 r ->
  exists t, s = t ++ r /\ msh4f D accepted fg x (fix_links f0) t.
Proof.
  intros s f0 r H. unfold entry4 in H.
  assert (So : forall A (P : parser A) f none s o r, sd P f -> opt (follow_ cm P) s = Success o r ->
    exists t, s = t ++ r /\ optional none (sectionf fg f) (match o with Some y => y | None => none end) t).
  { intros A P f none u o q HP. exact (opt_follow_sound A P f cm fg HP Hstar none u o q). }
  unfold on_error in H.
  match type of H with match ?p s with _ => _ end = _ => destruct (p s) as [f1 r1| | |] eqn:E end; try discriminate H. injection H as -> ->.
  unfold and_then at 1 in E. destruct (star cm s) as [l0 s0| | |] eqn:E0; try discriminate E. apply Hstar in E0. destruct E0 as (c & -> & Hc).
  fold (follow_ cm physical_name_vector) in E. unfold and_then at 1 in E. destruct (opt _ s0) as [oa s1| | |] eqn:E1 in E; try discriminate E.
  apply (So _ _ _ [] _ _ _ u_names4) in E1. destruct E1 as (a & -> & Ha).
  unfold and_then at 1 in E. destruct (section _ (entities_ D int32 size dbl open_ close_) s1) as [b0 s2| | |] eqn:E2; try discriminate E. apply Hent in E2. destruct E2 as (b & -> & Hb).
  unfold and_then at 1 in E. destruct (star cm s2) as [l1 s3| | |] eqn:E3; try discriminate E. apply Hstar in E3. destruct E3 as (b' & -> & Hb').
  match type of E with context [opt (read y <- ?P; read _ <- star cm; ret y)] => fold (follow_ cm P) in E end.
  unfold and_then at 1 in E. destruct (opt _ s3) as [op s4| | |] eqn:E4 in E; try discriminate E. apply (So _ _ _ no_partitions _ _ _ Hpar) in E4. destruct E4 as (p & -> & Hp).
  unfold and_then at 1 in E. destruct (section _ (nodes_ D int32 size dbl open_ close_) s4) as [n0 s5| | |] eqn:E5; try discriminate E. apply Hnod in E5. destruct E5 as (n & -> & Hn).
  unfold and_then at 1 in E. destruct (star cm s5) as [l2 s6| | |] eqn:E6; try discriminate E. apply Hstar in E6. destruct E6 as (n' & -> & Hn').
  unfold and_then at 1 in E. destruct (section _ (elements_ int32 size open_ close_) s6) as [e0 s7| | |] eqn:E7; try discriminate E. apply Hele in E7. destruct E7 as (e & -> & He).
  unfold and_then at 1 in E. destruct (star cm s7) as [l3 s8| | |] eqn:E8; try discriminate E. apply Hstar in E8. destruct E8 as (e' & -> & He').
  match type of E with context [opt (read y <- ?P; read _ <- star cm; ret y)] => fold (follow_ cm P) in E end.
  unfold and_then at 1 in E. destruct (opt _ s8) as [ol s9| | |] eqn:E9 in E; try discriminate E. apply (So _ _ _ [] _ _ _ Hlin) in E9. destruct E9 as (l & -> & Hl).
  match type of E with context [opt (read y <- ?P; read _ <- star cm; ret y)] => fold (follow_ cm P) in E end.
  unfold and_then at 1 in E. destruct (opt _ s9) as [og s10| | |] eqn:E10 in E; try discriminate E. apply (So _ _ _ [] _ _ _ Hgho) in E10. destruct E10 as (g & -> & Hg).
  unfold ret in E. injection E as <- <-.
  exists (c ++ a ++ (b ++ b') ++ p ++ (n ++ n') ++ (e ++ e') ++ l ++ g). split; [now rewrite <- !app_assoc|].
  exists c, a, (b ++ b'), p, (n ++ n'), (e ++ e'), l, g. split; [reflexivity|]. split; [exact Hc|]. split; [exact Ha|].
  split; [exists b, b'; auto|]. split; [exact Hp|]. split; [exists n, n'; auto|]. split; [exists e, e'; auto|]. split; [|exact Hg].
  cbn [fix_links m4_periodic]. unfold or_empty. destruct Hl as [(s1 & s2 & -> & H1 & H2)|[Hl ->]].
  - left. exists s1, s2. split; [reflexivity|]. split; [now apply raw_links|exact H2].
  - right. split; [now rewrite Hl|reflexivity].
Qed.
End EntrySound.

(** *** Text *)
Lemma text_read : forall f s w, msh4f decimal written (foreigns names4) (textual written) f s -> blank w ->
  exists f0, entryText (s ++ w) = Success f0 w /\ fix_links f0 = f.
Proof.
  intros f s w Hf Hw. unfold entryText.
  assert (Hopen : forall n ok, reads okb ok (lit true (str (String "$" n))) (fun _ => afterk blank (str (String "$" n)))) by (intros; apply t_open; [reflexivity|discriminate]).
  assert (Hclose : forall n, reads okt okb (lit true (str (String "$" n))) (fun _ => afterk gap (str (String "$" n)))) by (intros; apply t_close; [reflexivity|discriminate]).
  assert (Hk : forall t, head_ok (str t) -> str t <> [] -> reads okt okt (lit true (str t)) (fun _ => afterk gap (str t))).
  { intros t H1 H2. apply (reads_ok_weaken _ _ _ _ okb); [intros; exact I|]. now apply t_close. }
  assert (H16 : forall s r, x_sixteen (textual written) s -> okt r -> okt (s ++ r) /\ lit true (str "0") (s ++ r) = Fail /\ lit true (str "16") (s ++ r) = Success tt r).
  { intros u r Hu Hr. destruct (Hk "16"%string eq_refl ltac:(discriminate) tt u r Hu Hr) as [K1 K2]. split; [exact K1|]. split; [|exact K2].
    destruct Hu as (v & -> & [Hv _]). unfold lit, pre. rewrite <- app_assoc, skip_blank by exact Hv. reflexivity. }
  apply (entry_read decimal (int_ true) (uint true (2 ^ 64)) (double_ true) (fun n => lit true (str n)) (fun n => lit true (str n)) (lit true (str "0")) (lit true (str "16"))
     (fun _ p => p) false (foreigns names4) (textual written) []); try assumption.
  - intros u R Hu HR. exact (star_comments names4 u R plain4 Hu HR).
  - intros n u r (v & -> & Hv). exists v, r. split; [exact Hv|now rewrite <- app_assoc].
  - intros A q n r Hr. unfold and_then, lit, pre. rewrite app_nil_r in Hr. rewrite Hr. reflexivity.
  - intros a u r H. apply (r_entities decimal (int_ true) _ (double_ true) _ _ (textual written) okt t_int (t_uint _) t_real (fun n => Hopen n okt) Hclose); [exact H|exact I].
  - intros a u r H. apply (r_partitioned decimal (int_ true) _ (double_ true) _ _ (textual written) okt t_int (t_uint _) t_real (fun n => Hopen n okt) Hclose); [exact H|exact I].
  - intros a u r H. apply (r_nodes decimal (int_ true) _ (double_ true) _ _ (textual written) okt t_int (t_uint _) t_real (fun n => Hopen n okt) Hclose); [exact H|exact I].
  - intros a u r H. apply (r_elements decimal (int_ true) _ _ _ (textual written) okt t_int (t_uint _) (fun n => Hopen n okt) Hclose); [exact H|exact I].
  - intros a u r H. apply (r_links decimal (int_ true) _ (double_ true) _ _ _ _ (textual written) okt t_int (t_uint _) t_real (fun n => Hopen n okt) Hclose (Hk "0"%string eq_refl ltac:(discriminate)) H16); [exact H|exact I].
  - intros a u r H. apply (r_ghosts decimal (int_ true) _ _ _ (textual written) okt t_int (t_uint _) (fun n => Hopen n okt) Hclose); [exact H|exact I].
Qed.
Lemma text_sound : forall s f0 r, entryText s = Success f0 r -> exists t, s = t ++ r /\ msh4f decimal accepted (foreigns names4) (textual accepted) (fix_links f0) t.
Proof.
  intros s f0 r. unfold entryText.
  assert (Hk : forall n, sd (lit true (str n)) (fun _ => afterk blank (str n))) by (intro; apply u_lit).
  apply entry_sound.
  - exact (star_comments_sound names4).
  - apply (s_entities decimal (int_ true) _ (double_ true) _ _ (textual accepted) u_int (u_uint _) u_real); intro; apply u_lit.
  - apply (s_partitioned decimal (int_ true) _ (double_ true) _ _ (textual accepted) u_int (u_uint _) u_real); intro; apply u_lit.
  - apply (s_nodes decimal (int_ true) _ (double_ true) _ _ (textual accepted) u_int (u_uint _) u_real); intro; apply u_lit.
  - apply (s_elements decimal (int_ true) _ _ _ (textual accepted) u_int (u_uint _)); intro; apply u_lit.
  - apply (s_links decimal (int_ true) _ (double_ true) _ _ _ _ (textual accepted) u_int (u_uint _) u_real); try intro; apply u_lit.
  - apply (s_ghosts decimal (int_ true) _ _ _ (textual accepted) u_int (u_uint _)); intro; apply u_lit.
Qed.

(** *** Binary *)
Definition binary0 (big : bool) : lexis N :=
  mkLexis N (intf big) (wordf big 8) (wordf big 8) (fun n => exactly (str n ++ newline)) (fun n => exactly (newline ++ str n)) (wordf big 8 0%N) (wordf big 8 16%N).
Lemma b_int : forall big, reads okb okb (dword false big) (intf big).
Proof. intros big a s r H _. split; [exact I|]. now apply dword_read. Qed.
Lemma b_word : forall big n, reads okb okb (word false big n) (wordf big n).
Proof. intros big n a s r H _. split; [exact I|]. now apply word_read. Qed.
Lemma b_open : forall n, reads okb okb (lit false (str (String "$" n) ++ newline)) (fun _ => exactly (str (String "$" n) ++ newline)).
Proof. intros n [] s r -> _. split; [exact I|]. apply lit_false_read. Qed.
Lemma b_close : forall n, reads okb okb (lit false (newline ++ str (String "$" n))) (fun _ => exactly (newline ++ str (String "$" n))).
Proof. intros n [] s r -> _. split; [exact I|]. apply lit_false_read. Qed.
Lemma b_lit : forall big v, reads okb okb (word_lit big 8 v) (fun _ => wordf big 8 v).
Proof. intros big v [] s r H _. split; [exact I|]. unfold word_lit. rewrite (word_read big 8 v s r H), N.eqb_refl. reflexivity. Qed.
Lemma b_sixteen : forall big s r, wordf big 8 16%N s -> okb r -> okb (s ++ r) /\ word_lit big 8 0 (s ++ r) = Fail /\ word_lit big 8 16 (s ++ r) = Success tt r.
Proof.
  intros big s r H _. split; [exact I|]. split; [|now apply b_lit]. unfold word_lit. rewrite (word_read big 8 _ s r H). reflexivity.
Qed.
Lemma lexeme_between : forall A t (f : format A) c p a s r, t <> [] -> head_ok t -> (forall b u r, between (exactly t) f c b u -> p (u ++ r) = Success b r) ->
  between (afterk blank t) f c a s -> lexeme p (s ++ r) = Success a r.
Proof.
  intros A t f c p a s r Hne Hh Hp (s1 & s2 & s3 & -> & (w & -> & Hw) & H2 & H3). unfold lexeme. rewrite <- !app_assoc, skip_blank by exact Hw.
  rewrite skip_head by (destruct t; [congruence|exact Hh]). replace (t ++ s2 ++ s3 ++ r) with ((t ++ s2 ++ s3) ++ r) by now rewrite <- !app_assoc. apply Hp. exists t, s2, s3. unfold exactly. auto.
Qed.
Lemma between_lexeme : forall A t (f : format A) c p, sd p (between (exactly t) f c) -> sd (lexeme p) (between (afterk blank t) f c).
Proof.
  intros A t f c p Hp s a r H. unfold lexeme in H. destruct (Hp _ _ _ H) as (u & Eu & (s1 & s2 & s3 & -> & -> & H2 & H3)). destruct (skip_spec s) as (w & Es & Hw & _). rewrite Eu in Es.
  exists (w ++ t ++ s2 ++ s3). split; [now rewrite <- !app_assoc in *|]. exists (w ++ t), s2, s3. split; [now rewrite <- !app_assoc|]. split; [exists w; auto|]. auto.
Qed.
Lemma star_no_comment : forall s R, no_foreign s -> follows names4 R -> exists l, star (comment4 true) (s ++ R) = Success l R.
Proof.
  intros s R -> HR. cbn [app]. exists []. unfold star. cbn [star_]. unfold comment4. rewrite (comment_stops true names4 R plain4 HR). reflexivity.
Qed.
Lemma binary_read : forall big f s w, msh4f N written no_foreign (binary big) f s -> blank w -> exists f0, entryBinary big (s ++ w) = Success f0 w /\ fix_links f0 = f.
Proof.
  intros big f s w Hf Hw. unfold entryBinary.
  apply (entry_read N (dword false big) (word false big 8) (word false big 8) (fun n => lit false (str n ++ newline)) (fun n => lit false (newline ++ str n)) (word_lit big 8 0) (word_lit big 8 16)
     (fun _ p => lexeme p) true no_foreign (binary big) newline); try assumption.
  - exact star_no_comment.
  - intros n u r (v & -> & Hv). exists v, (newline ++ r). split; [exact Hv|now rewrite <- !app_assoc].
  - intros A q n r Hr. unfold lexeme, and_then, lit, pre. rewrite Hr. reflexivity.
  - intros a u r H. eapply lexeme_between; [| | |exact H]; [discriminate|reflexivity|]. intros b v r' K.
    apply (r_entities N (dword false big) _ (word false big 8) _ _ (binary0 big) okb (b_int big) (b_word big 8) (b_word big 8) b_open b_close); [exact K|exact I].
  - intros a u r H. eapply lexeme_between; [| | |exact H]; [discriminate|reflexivity|]. intros b v r' K.
    apply (r_partitioned N (dword false big) _ (word false big 8) _ _ (binary0 big) okb (b_int big) (b_word big 8) (b_word big 8) b_open b_close); [exact K|exact I].
  - intros a u r H. eapply lexeme_between; [| | |exact H]; [discriminate|reflexivity|]. intros b v r' K.
    apply (r_nodes N (dword false big) _ (word false big 8) _ _ (binary0 big) okb (b_int big) (b_word big 8) (b_word big 8) b_open b_close); [exact K|exact I].
  - intros a u r H. eapply lexeme_between; [| | |exact H]; [discriminate|reflexivity|]. intros b v r' K.
    apply (r_elements N (dword false big) _ _ _ (binary0 big) okb (b_int big) (b_word big 8) b_open b_close); [exact K|exact I].
  - intros a u r H. eapply lexeme_between; [| | |exact H]; [discriminate|reflexivity|]. intros b v r' K.
    apply (r_links N (dword false big) _ (word false big 8) _ _ _ _ (binary0 big) okb (b_int big) (b_word big 8) (b_word big 8) b_open b_close (b_lit big 0%N) (b_sixteen big)); [exact K|exact I].
  - intros a u r H. eapply lexeme_between; [| | |exact H]; [discriminate|reflexivity|]. intros b v r' K.
    apply (r_ghosts N (dword false big) _ _ _ (binary0 big) okb (b_int big) (b_word big 8) b_open b_close); [exact K|exact I].
Qed.
(** No foreign section is read from binary files *)
Lemma star_all : forall n (s : chars) (l : chars) r, star_ n (char_if true (fun _ => true)) s = Success l r -> skip r = [].
Proof.
  induction n as [|n IH]; intros s l r H; cbn [star_] in H; [discriminate H|]. unfold char_if at 1, pre in H. destruct (skip s) as [|c q] eqn:E.
  - injection H as <- <-. exact E.
  - destruct (star_ n (char_if true (fun _ => true)) q) as [l' r'| | |] eqn:El; try discriminate H. injection H as <- <-. exact (IH _ _ _ El).
Qed.
Lemma no_comment : forall names s u r, comment true names s <> Success u r.
Proof.
  intros names s u r H. unfold comment, on_error in H. destruct (and_then (startComment true names) _ s) as [x s'| | |] eqn:E; try discriminate H.
  unfold and_then at 1 in E. destruct (startComment true names s) as [a s1| | |] eqn:E1; try discriminate E.
  assert (K : skip s1 = []).
  { unfold startComment in E1. unfold and_then at 1 in E1. destruct (not_lits true names s) as [u1 q1| | |]; try discriminate E1. unfold and_then in E1. destruct (lit true (str "$") q1) as [u2 q2| | |]; try discriminate E1.
    unfold no_eol, plus_, and_then in E1. destruct (char_if true (fun _ => true) q2) as [c q3| | |]; try discriminate E1. unfold star in E1.
    destruct (star_ (S (length q3)) (char_if true (fun _ => true)) q3) as [l q4| | |] eqn:E4; try discriminate E1. injection E1 as _ <-. exact (star_all _ _ _ _ E4). }
  unfold and_then at 1, must in E. unfold and_then at 1 in E. unfold star in E. cbn [star_] in E. unfold char_if at 1, pre in E. rewrite K in E. unfold and_then, lit, pre in E. rewrite K in E. discriminate E.
Qed.
Lemma star_no_comment_sound : sd (star (comment4 true)) (fun _ => no_foreign).
Proof.
  intros s l r H. unfold star in H. cbn [star_] in H. destruct (comment4 true s) as [u s'| | |] eqn:E; try discriminate H.
  - elim (no_comment names4 s u s' E).
  - injection H as _ <-. exists []. split; reflexivity.
Qed.
Lemma b_open_sound : forall n, sd (lit false (str (String "$" n) ++ newline)) (fun _ => exactly (str (String "$" n) ++ newline)).
Proof. intros n s u r H. apply lit_false_sound in H. subst s. eexists. split; [reflexivity|reflexivity]. Qed.
Lemma b_close_sound : forall n, sd (lit false (newline ++ str (String "$" n))) (fun _ => exactly (newline ++ str (String "$" n))).
Proof. intros n s u r H. apply lit_false_sound in H. subst s. eexists. split; [reflexivity|reflexivity]. Qed.
Lemma b_lit_sound : forall big v, sd (word_lit big 8 v) (fun _ => wordf big 8 v).
Proof.
  intros big v s u r H. unfold word_lit in H. destruct (word false big 8 s) as [w q| | |] eqn:E; try discriminate H. destruct (N.eqb_spec w v) as [->|]; [|discriminate H]. injection H as _ <-.
  exact (word_sound big 8 _ _ _ E).
Qed.
Lemma binary_sound : forall big s f0 r, entryBinary big s = Success f0 r -> exists t, s = t ++ r /\ msh4f N accepted no_foreign (binary big) (fix_links f0) t.
Proof.
  intros big s f0 r. unfold entryBinary. apply entry_sound.
  - exact star_no_comment_sound.
  - apply between_lexeme. apply (s_entities N (dword false big) _ (word false big 8) _ _ (binary0 big) (dword_sound big) (word_sound big 8) (word_sound big 8) b_open_sound b_close_sound).
  - apply between_lexeme. apply (s_partitioned N (dword false big) _ (word false big 8) _ _ (binary0 big) (dword_sound big) (word_sound big 8) (word_sound big 8) b_open_sound b_close_sound).
  - apply between_lexeme. apply (s_nodes N (dword false big) _ (word false big 8) _ _ (binary0 big) (dword_sound big) (word_sound big 8) (word_sound big 8) b_open_sound b_close_sound).
  - apply between_lexeme. apply (s_elements N (dword false big) _ _ _ (binary0 big) (dword_sound big) (word_sound big 8) b_open_sound b_close_sound).
  - apply between_lexeme. apply (s_links N (dword false big) _ (word false big 8) _ _ _ _ (binary0 big) (dword_sound big) (word_sound big 8) (word_sound big 8) b_open_sound b_close_sound (b_lit_sound big 0%N) (b_lit_sound big 16%N)).
  - apply between_lexeme. apply (s_ghosts N (dword false big) _ _ _ (binary0 big) (dword_sound big) (word_sound big 8) b_open_sound b_close_sound).
Qed.
