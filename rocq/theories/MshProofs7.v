(** Sections of format 2.2. *)
From Coq Require Import String Ascii List Arith NArith ZArith Bool Lia.
Import ListNotations.
From Verif Require Import Base MshModel MshSpec MshProofs MshProofs2 MshProofs3 MshProofs4 MshProofs5.
Local Open Scope list_scope.
Local Open Scope nat_scope.

Lemma bind_ok : forall A B (p : parser A) (q : A -> parser B) s a r, p s = Success a r -> and_then p q s = q a r.
Proof. intros A B p q s a r H. unfold and_then. now rewrite H. Qed.
Lemma must_ok : forall A (p : parser A) s a r, p s = Success a r -> must p s = Success a r.
Proof. intros A p s a r H. unfold must. now rewrite H. Qed.
Lemma bind_inv : forall A B (p : parser A) (q : A -> parser B) s b r, and_then p q s = Success b r -> exists a s', p s = Success a s' /\ q a s' = Success b r.
Proof. intros A B p q s b r H. unfold and_then in H. destruct (p s) as [a s'| | |]; try discriminate H. eauto. Qed.
Lemma must_inv : forall A (p : parser A) s a r, must p s = Success a r -> p s = Success a r.
Proof. intros A p s a r H. unfold must in H. destruct (p s); congruence. Qed.
Lemma on_error_inv : forall A (p : parser A) s a r, on_error p s = Success a r -> p s = Success a r.
Proof. intros A p s a r H. unfold on_error in H. destruct (p s); congruence. Qed.
Lemma on_error_ok : forall A (p : parser A) s a r, p s = Success a r -> on_error p s = Success a r.
Proof. intros A p s a r H. unfold on_error. now rewrite H. Qed.
Tactic Notation "go" tactic(t) := etransitivity; [eapply bind_ok; (try eapply must_ok); t|cbv beta].
Ltac next H E := apply bind_inv in H; destruct H as (? & ? & E & H); (try apply must_inv in E).

Lemma eol_read : forall s r, newlines s -> eol false (s ++ r) = Success tt r.
Proof.
  intros s r [->| ->]; unfold eol, pre; cbn [str list_ascii_of_string app]; cbn [Ascii.eqb Bool.eqb].
  - replace (length r =? length ("010"%char :: r)) with false; [reflexivity|]. symmetry. apply Nat.eqb_neq. cbn [length]. lia.
  - replace (length r =? length ("013"%char :: "010"%char :: r)) with false; [reflexivity|]. symmetry. apply Nat.eqb_neq. cbn [length]. lia.
Qed.
Lemma eol_fail : forall c s, Ascii.eqb c "013" = false -> Ascii.eqb c "010" = false -> eol false (c :: s) = Fail.
Proof. intros c s H1 H2. unfold eol, pre. rewrite H1, H2, Nat.eqb_refl. reflexivity. Qed.
Lemma eol_sound : sd (eol false) (fun _ => any_newlines).
Proof.
  intros s u r H. unfold eol, pre in H. destruct s as [|c s]; [discriminate H|]. destruct (Ascii.eqb_spec c "013") as [->|N1].
  - destruct s as [|d s].
    + cbn [length Nat.eqb] in H. injection H as _ <-. exists (str (String "013" "")). split; [reflexivity|]. now right.
    + destruct (Ascii.eqb_spec d "010") as [->|N2].
      * destruct (length s =? _) in H; [discriminate H|]. injection H as _ <-. exists (str (String "013" (String "010" ""))). split; [reflexivity|]. left. now right.
      * destruct (length (d :: s) =? _) in H; [discriminate H|]. injection H as _ <-. exists (str (String "013" "")). split; [reflexivity|]. now right.
  - destruct (Ascii.eqb_spec c "010") as [->|N2].
    + destruct (length s =? _) in H; [discriminate H|]. injection H as _ <-. exists (str (String "010" "")). split; [reflexivity|]. left. now left.
    + rewrite Nat.eqb_refl in H. discriminate H.
Qed.
Lemma newlines_okt : forall s r, newlines s -> okt (s ++ r).
Proof. intros s r [->| ->]; reflexivity. Qed.
Lemma newlines_no_digit : forall s r, newlines s -> no_digit (s ++ r).
Proof. intros s r H. now apply okt_no_digit, newlines_okt. Qed.
Lemma sp_read : forall s r, blankf s -> sp (s ++ r) = Success tt r.
Proof. intros s r ->. reflexivity. Qed.
Lemma sp_sound : sd sp (fun _ => blankf).
Proof. intros s u r H. apply lit_false_sound in H. subst s. eexists. split; reflexivity. Qed.
Lemma blankf_okt : forall s r, blankf s -> okt (s ++ r).
Proof. intros s r ->. reflexivity. Qed.
Lemma blankf_no_digit : forall s r, blankf s -> no_digit (s ++ r).
Proof. intros s r ->. reflexivity. Qed.

(** *** Physical names and periodic entities *)
Lemma t_names2 : forall l s r, names2f written l s -> physicalEntityGroup (s ++ r) = Success l r.
Proof.
  intros l s r (s1 & s2 & s3 & -> & H1 & (n & t & -> & Hn & Ht) & H3). unfold physicalEntityGroup. apply on_error_ok. rewrite <- !app_assoc.
  destruct (t_close "$EndPhysicalNames" eq_refl ltac:(discriminate) tt s3 r H3 I) as [K1 K2].
  destruct (reads_repeat _ _ _ (length l) _ t_name l t (s3 ++ r) (conj eq_refl Ht) K1) as [K3 K4].
  destruct (t_int _ n (t ++ s3 ++ r) Hn K3) as [K5 K6].
  go (exact (proj2 (t_open "$PhysicalNames" okb eq_refl ltac:(discriminate) tt s1 _ H1 I))). go (exact K6).
  replace (Z.of_N (N.of_nat (length l)) <? 0)%Z with false by (symmetry; apply Z.ltb_ge; lia).
  replace (Z.to_nat (Z.of_N (N.of_nat (length l)))) with (length l) by lia. go (exact K4). go (exact K2). reflexivity.
Qed.
Lemma u_names2 : sd physicalEntityGroup (names2f accepted).
Proof.
  intros s l r H. unfold physicalEntityGroup in H. apply on_error_inv in H. next H E1. next H E2. next H E3. next H E4. injection H as <- <-.
  apply u_lit in E1. destruct E1 as (t1 & -> & H1). apply u_int in E2. destruct E2 as (t2 & -> & H2). destruct (Z.ltb_spec x1 0) as [|Hn]; [discriminate E3|].
  apply (sd_repeat _ _ _ _ u_name) in E3. destruct E3 as (t3 & -> & Hl & H3). apply u_lit in E4. destruct E4 as (t4 & -> & H4).
  exists (t1 ++ (t2 ++ t3) ++ t4). split; [now rewrite <- !app_assoc|]. exists t1, (t2 ++ t3), t4. split; [reflexivity|]. split; [exact H1|]. split; [|exact H4].
  exists t2, t3. split; [reflexivity|]. split; [|exact H3].
  assert (En : Z.of_N (N.of_nat (length x3)) = x1) by lia. destruct H2 as (u & v & -> & Hu & Hv). exists u, v. split; [reflexivity|]. split; [exact Hu|]. rewrite En. exact Hv.
Qed.
Definition mappingf (nat : format N) : format (list (N * N)) := countedf nat (nat <*> nat).
Lemma t_mapping : reads okt okt periodicEntityNodeMapping (mappingf (after gap (natural (2 ^ 32)))).
Proof.
  unfold periodicEntityNodeMapping. apply reads_on_error. eapply reads_weaken.
  { eapply reads_bind; [apply t_uint|intro]. eapply reads_bind; [eapply reads_must, reads_repeat|intro; apply reads_ret].
    eapply reads_bind; [apply t_uint|intro]. eapply reads_bind; [eapply reads_must, t_uint|intro; apply reads_ret]. }
  intros l s (n & t & -> & Hn & Ht). exists (N.of_nat (length l)), n, t. split; [reflexivity|]. split; [exact Hn|]. exists l, t, []. split; [now rewrite app_nil_r|]. split; [|split; reflexivity].
  split; [now rewrite Nat2N.id|]. destruct Ht as (ss & Hs & ->). exists ss. split; [|reflexivity]. clear Hn. induction Hs as [|y u l0 ss0 Hy Hs IH]; [constructor|]. constructor; [|exact IH].
  revert y u Hy. clear. intros [a b] u (u1 & u2 & -> & H1 & H2). cbn [fst snd] in *.
  exists a, u1, u2. split; [reflexivity|]. split; [exact H1|]. exists b, u2, []. split; [now rewrite app_nil_r|]. split; [exact H2|]. split; reflexivity.
Qed.
Lemma u_mapping : sd periodicEntityNodeMapping (mappingf (after blank (natural (2 ^ 32)))).
Proof.
  intros s l r H. unfold periodicEntityNodeMapping in H. apply on_error_inv in H. next H E1. next H E2. injection H as <- <-. apply u_uint in E1. destruct E1 as (t1 & -> & H1).
  assert (K : sd (read x <- uint true (2 ^ 32); want y <- uint true (2 ^ 32); ret (x, y)) (after blank (natural (2 ^ 32)) <*> after blank (natural (2 ^ 32)))).
  { intros u [a b] q H. next H F1. next H F2. injection H as -> -> <-. apply u_uint in F1. destruct F1 as (v1 & -> & G1). apply u_uint in F2. destruct F2 as (v2 & -> & G2).
    exists (v1 ++ v2). split; [now rewrite <- app_assoc|]. exists v1, v2. auto. }
  apply (sd_repeat _ _ _ _ K) in E2. destruct E2 as (t2 & -> & Hl & H2). exists (t1 ++ t2). split; [now rewrite <- app_assoc|]. exists t1, t2. split; [reflexivity|]. split; [|exact H2].
  assert (En : x = N.of_nat (length x1)) by lia. rewrite En in H1. exact H1.
Qed.
Lemma t_periodic : reads okt okt periodicEntity (after gap integer <*> after gap integer <*> after gap integer <*> mappingf (after gap (natural (2 ^ 32)))).
Proof.
  unfold periodicEntity. apply reads_on_error. eapply reads_weaken.
  { eapply reads_bind; [apply t_int|intro]. eapply reads_bind; [eapply reads_must, t_int|intro]. eapply reads_bind; [eapply reads_must, t_int|intro].
    eapply reads_bind; [eapply reads_must, t_mapping|intro; apply reads_ret]. }
  intros a s H. crack. fwd.
Qed.
Lemma u_periodic : sd periodicEntity (after blank integer <*> after blank integer <*> after blank integer <*> mappingf (after blank (natural (2 ^ 32)))).
Proof.
  intros s a r H. unfold periodicEntity in H. apply on_error_inv in H. next H E1. next H E2. next H E3. next H E4. injection H as <- <-.
  apply u_int in E1. destruct E1 as (t1 & -> & H1). apply u_int in E2. destruct E2 as (t2 & -> & H2). apply u_int in E3. destruct E3 as (t3 & -> & H3). apply u_mapping in E4. destruct E4 as (t4 & -> & H4).
  exists (t1 ++ t2 ++ t3 ++ t4). split; [now rewrite <- !app_assoc|]. exists (t1 ++ t2 ++ t3), t4. split; [now rewrite <- !app_assoc|]. split; [|exact H4]. exists (t1 ++ t2), t3. split; [now rewrite <- !app_assoc|]. split; [|exact H3]. exists t1, t2. auto.
Qed.
Lemma t_periodics : forall l s r, periodic2f written l s -> periodicEntityGroup (s ++ r) = Success l r.
Proof.
  intros l s r (s1 & s2 & s3 & -> & H1 & (n & t & -> & Hn & Ht) & H3). unfold periodicEntityGroup. apply on_error_ok. rewrite <- !app_assoc.
  destruct (t_close "$EndPeriodic" eq_refl ltac:(discriminate) tt s3 r H3 I) as [K1 K2].
  destruct (reads_repeat _ _ _ (length l) _ t_periodic l t (s3 ++ r) (conj eq_refl Ht) K1) as [K3 K4].
  destruct (t_uint _ _ n (t ++ s3 ++ r) Hn K3) as [K5 K6].
  go (exact (proj2 (t_open "$Periodic" okb eq_refl ltac:(discriminate) tt s1 _ H1 I))). go (exact K6).
  rewrite Nat2N.id. go (exact K4). go (exact K2). reflexivity.
Qed.
Lemma u_periodics : sd periodicEntityGroup (periodic2f accepted).
Proof.
  intros s l r H. unfold periodicEntityGroup in H. apply on_error_inv in H. next H E1. next H E2. next H E3. next H E4. injection H as <- <-.
  apply u_lit in E1. destruct E1 as (t1 & -> & H1). apply u_uint in E2. destruct E2 as (t2 & -> & H2).
  apply (sd_repeat _ _ _ _ u_periodic) in E3. destruct E3 as (t3 & -> & Hl & H3). apply u_lit in E4. destruct E4 as (t4 & -> & H4).
  exists (t1 ++ (t2 ++ t3) ++ t4). split; [now rewrite <- !app_assoc|]. exists t1, (t2 ++ t3), t4. split; [reflexivity|]. split; [exact H1|]. split; [|exact H4].
  exists t2, t3. split; [reflexivity|]. split; [|exact H3]. assert (En : x1 = N.of_nat (length x3)) by lia. rewrite En in H2. exact H2.
Qed.

(** *** Nodes *)
Lemma repeat_read : forall A (p : parser A) (f : format A) l s r, (forall a s r, f a s -> p (s ++ r) = Success a r) -> listf f l s -> repeat_ (length l) p (s ++ r) = Success l r.
Proof.
  intros A p f l s r H Hl. exact (proj2 (reads_repeat A p f (length l) okb (fun a s r Hf _ => conj I (H a s r Hf)) l s r (conj eq_refl Hl) I)).
Qed.
Lemma nodeText_read : forall a s r, node_line written a s -> nodeText (s ++ r) = Success a r.
Proof.
  intros [n [[x y] z]] s r (s1 & e & -> & (s2 & s3 & -> & (u & b & -> & Hn & Hb) & H3) & He). cbn [fst snd] in *.
  destruct H3 as (s4 & s5 & -> & (s6 & s7 & -> & (v & b1 & -> & Hx & Hb1) & (w & b2 & -> & Hy & Hb2)) & Hz). cbn [fst snd] in *.
  unfold nodeText. rewrite <- !app_assoc.
  go (apply uint_read; [exact Hn|now apply blankf_no_digit]). go (apply sp_read; exact Hb).
  go (apply real_read; [exact Hx|now apply blankf_okt]). go (apply sp_read; exact Hb1).
  go (apply real_read; [exact Hy|now apply blankf_okt]). go (apply sp_read; exact Hb2).
  go (apply real_read; [exact Hz|now apply newlines_okt]). go (apply eol_read; exact He). reflexivity.
Qed.
Ltac sound L E T K := apply L in E; destruct E as (T & -> & K).
Lemma nodeText_sound : sd nodeText (node_line accepted).
Proof.
  intros s a r H. unfold nodeText in H. next H E1. next H E2. next H E3. next H E4. next H E5. next H E6. next H E7. next H E8. injection H as <- <-.
  sound uint_sound E1 t1 H1. sound sp_sound E2 t2 H2. sound real_sound E3 t3 H3. sound sp_sound E4 t4 H4. sound real_sound E5 t5 H5. sound sp_sound E6 t6 H6. sound real_sound E7 t7 H7. sound eol_sound E8 t8 H8.
  exists (((t1 ++ t2) ++ ((t3 ++ t4) ++ (t5 ++ t6)) ++ t7) ++ t8). split; [now rewrite <- !app_assoc|]. exists ((t1 ++ t2) ++ ((t3 ++ t4) ++ (t5 ++ t6)) ++ t7), t8. split; [reflexivity|]. split; [|exact H8].
  exists (t1 ++ t2), (((t3 ++ t4) ++ (t5 ++ t6)) ++ t7). split; [reflexivity|]. cbn [fst snd]. split; [exists t1, t2; auto|]. exists ((t3 ++ t4) ++ (t5 ++ t6)), t7. split; [reflexivity|]. cbn [fst snd]. split; [|exact H7].
  exists (t3 ++ t4), (t5 ++ t6). split; [reflexivity|]. split; [exists t3, t4; auto|exists t5, t6; auto].
Qed.
Lemma nodeBin_read : forall big a s r, node_binary big a s -> nodeBin big (s ++ r) = Success a r.
Proof.
  intros big a s r H. destruct a as [n [[x y] z]]. destruct H as (s1 & s2 & -> & H1 & (s3 & s4 & -> & (s5 & s6 & -> & H2 & H3) & H4)). cbn [fst snd] in *.
  unfold nodeBin. rewrite <- !app_assoc. go (apply word_read; exact H1). go (apply word_read; exact H2). go (apply word_read; exact H3). go (apply word_read; exact H4). reflexivity.
Qed.
Lemma nodeBin_sound : forall big, sd (nodeBin big) (node_binary big).
Proof.
  intros big s a r H. unfold nodeBin in H. next H E1. next H E2. next H E3. next H E4. injection H as <- <-.
  sound word_sound E1 t1 H1. sound word_sound E2 t2 H2. sound word_sound E3 t3 H3. sound word_sound E4 t4 H4.
  exists (t1 ++ (t2 ++ t3) ++ t4). split; [now rewrite <- !app_assoc|]. exists t1, ((t2 ++ t3) ++ t4). split; [reflexivity|]. split; [exact H1|]. exists (t2 ++ t3), t4. split; [reflexivity|]. split; [|exact H4]. exists t2, t3. auto.
Qed.
Lemma nodeGroup_read : forall D (node : parser (N * vec3 D)) (f : format (N * vec3 D)) l s r, (forall a s r, f a s -> node (s ++ r) = Success a r) ->
  nodes2f written f l s -> nodeGroup node (s ++ r) = Success l r.
Proof.
  intros D node f l s r Hf (w & e1 & n & e2 & t & b & -> & Hw & H1 & Hn & H2 & Ht & Hb). unfold nodeGroup, lexeme. rewrite <- !app_assoc, skip_blank by exact Hw.
  rewrite skip_head by reflexivity. apply on_error_ok. go (apply lit_false_read). go (apply eol_read; exact H1). go (apply uint_read; [exact Hn|now apply newlines_no_digit]). go (apply eol_read; exact H2).
  rewrite Nat2N.id. go (apply (repeat_read _ _ f); [intros; apply on_error_ok; now apply Hf|exact Ht]).
  destruct Hb as [->|Hb].
  - cbn [app]. go (unfold opt; rewrite (eol_fail "$" (str "EndNodes" ++ r) eq_refl eq_refl : eol false (str "$EndNodes" ++ r) = Fail); reflexivity). go (apply lit_false_read). reflexivity.
  - go (unfold opt; rewrite eol_read by exact Hb; reflexivity). go (apply lit_false_read). reflexivity.
Qed.
Lemma nodeGroup_sound : forall D (node : parser (N * vec3 D)) (f : format (N * vec3 D)), sd node f -> sd (nodeGroup node) (nodes2f accepted f).
Proof.
  intros D node f Hf s l r H. unfold nodeGroup, lexeme in H. destruct (skip_spec s) as (w & Es & Hw & _). apply on_error_inv in H.
  next H E1. next H E2. next H E3. next H E4. next H E5. next H E6. next H E7. injection H as <- <-. apply lit_false_sound in E1. rewrite E1 in Es.
  sound eol_sound E2 t2 H2. sound uint_sound E3 t3 H3. sound eol_sound E4 t4 H4. apply (sd_repeat _ _ _ _ (sd_on_error _ _ _ Hf)) in E5. destruct E5 as (t5 & -> & Hl & H5).
  apply (sd_opt _ _ _ eol_sound) in E6. destruct E6 as (t6 & -> & H6). apply lit_false_sound in E7. match type of E7 with ?y = _ => subst y end.
  exists (w ++ str "$Nodes" ++ t2 ++ t3 ++ t4 ++ t5 ++ t6 ++ str "$EndNodes"). split; [rewrite Es; now rewrite <- !app_assoc|].
  exists w, t2, t3, t4, t5, t6. split; [reflexivity|]. split; [exact Hw|]. split; [exact H2|]. split; [replace (N.of_nat (length x7)) with x3 by lia; exact H3|]. split; [exact H4|]. split; [exact H5|].
  destruct x9; [now right|now left].
Qed.
