(** Files of format 4.1: complete and sound. *)
From Coq Require Import String Ascii List Arith NArith ZArith Bool Lia.
Import ListNotations.
From Verif Require Import Base MshModel MshSpec MshProofs MshProofs2 MshProofs3 MshProofs4.
Local Open Scope list_scope.
Local Open Scope nat_scope.

(** *** Keywords that differ *)
Fixpoint clashes (a b : chars) : bool := match a, b with c :: a', d :: b' => if Ascii.eqb c d then clashes a' b' else true | _, _ => false end.
Lemma clash_prefix : forall a b z u, clashes a b = true -> prefix (a ++ z) (b ++ u) = None.
Proof.
  induction a as [|c a IH]; intros [|d b] z u H; try discriminate H. cbn [clashes] in H. cbn [app prefix]. destruct (Ascii.eqb c d); [now apply IH|reflexivity].
Qed.
Lemma follows_none : forall n ns R z, plain n -> Forall plain ns -> forallb (fun m => clashes (str n) (str m)) ns = true -> follows ns R -> prefix (str n ++ z) (skip R) = None.
Proof.
  intros n ns R z Hn Hp Hc [Hb|(m & Hin & Hs)].
  - rewrite skip_all by exact Hb. destruct Hn as ((t & ->) & _). reflexivity.
  - rewrite Forall_forall in Hp. destruct (starts_skip m R (Hp m Hin) Hs) as (u & ->). rewrite forallb_forall in Hc. apply clash_prefix. now apply Hc.
Qed.
Lemma plain4 : Forall plain names4.
Proof. repeat constructor; try (eexists; reflexivity); vm_compute; intuition discriminate. Qed.
Lemma plain2 : Forall plain names2.
Proof. repeat constructor; try (eexists; reflexivity); vm_compute; intuition discriminate. Qed.
Lemma follows_incl : forall ns ms R, incl ns ms -> follows ns R -> follows ms R.
Proof. intros ns ms R H [Hb|(m & Hin & Hs)]; [now left|]. right. exists m. split; [now apply H|exact Hs]. Qed.

(** *** Sections followed by foreign sections *)
Section Sections.
Variable names : list string.
Variable cm : parser unit.
Variable fg : chars -> Prop.
Hypothesis Hplain : Forall plain names.
Hypothesis Hstar : forall s R, fg s -> follows names R -> exists l, star cm (s ++ R) = Success l R.
Definition follow_ {A} (P : parser A) : parser A := read y <- P; read _ <- star cm; ret y.
Lemma follow_read : forall A (P : parser A) (f : format A) a s R, (forall b t r, f b t -> P (t ++ r) = Success b r) -> sectionf fg f a s -> follows names R ->
  follow_ P (s ++ R) = Success a R.
Proof.
  intros A P f a s R HP (s1 & s2 & -> & Hf & Hg) HR. unfold follow_, and_then at 1. rewrite <- app_assoc, (HP a s1 _ Hf).
  destruct (Hstar s2 R Hg HR) as (l & E). unfold and_then. rewrite E. reflexivity.
Qed.
Lemma opt_read : forall A (P : parser A) (f : format A) none z n ns a s R, (forall b t r, f b t -> P (t ++ r) = Success b r) ->
  (forall r, prefix (str n ++ z) (skip r) = None -> P r = Fail) ->
  In n names -> incl ns names -> forallb (fun m => clashes (str n) (str m)) ns = true ->
  optional none (sectionf fg f) a s -> follows ns R ->
  exists o, opt (follow_ P) (s ++ R) = Success o R /\ (match o with Some y => y | None => none end) = a.
Proof.
  intros A P f none z n ns a s R HP HF Hn Hi Hc [Hs|[-> ->]] HR.
  - exists (Some a). split; [|reflexivity]. unfold opt. rewrite (follow_read A P f a s R HP Hs (follows_incl _ _ _ Hi HR)). reflexivity.
  - exists None. split; [|reflexivity]. cbn [app]. unfold opt, follow_, and_then at 1. rewrite HF; [reflexivity|].
    rewrite Forall_forall in Hplain. apply (follows_none n ns); [now apply Hplain| |exact Hc|exact HR]. apply Forall_forall. intros m Hm. apply Hplain, Hi, Hm.
Qed.
Lemma follows_section : forall A (f : format A) n ns a s R, (forall b t r, f b t -> starts n (t ++ r)) -> sectionf fg f a s -> In n ns -> follows ns (s ++ R).
Proof. intros A f n ns a s R H (s1 & s2 & -> & Hf & _) Hin. right. exists n. split; [exact Hin|]. rewrite <- app_assoc. now apply (H a). Qed.
Lemma follows_optional : forall A (f : format A) none n ns a s R, (forall b t r, f b t -> starts n (t ++ r)) -> optional none (sectionf fg f) a s -> follows ns R -> follows (n :: ns) (s ++ R).
Proof.
  intros A f none n ns a s R H [Hs|[_ ->]] HR; [apply (follows_section A f n _ a s R H Hs); now left|]. cbn [app]. revert HR. apply follows_incl. intros m Hm. now right.
Qed.
End Sections.
Lemma sd_opt : forall A (p : parser A) f, sd p f -> sd (opt p) (fun o s => match o with Some a => f a s | None => s = [] end).
Proof.
  intros A p f H s o r E. unfold opt in E. destruct (p s) as [a r'| | |] eqn:Ep; try discriminate E; injection E as <- <-.
  - exact (H _ _ _ Ep).
  - exists []. auto.
Qed.
Lemma opt_follow_sound : forall A (P : parser A) (f : format A) cm fg, sd P f -> sd (star cm) (fun _ => fg) -> forall none s o r, opt (follow_ cm P) s = Success o r ->
  exists t, s = t ++ r /\ optional none (sectionf fg f) (match o with Some y => y | None => none end) t.
Proof.
  intros A P f cm fg HP Hc none s o r E.
  assert (K : sd (follow_ cm P) (sectionf fg f)).
  { unfold follow_. eapply sd_weaken; [eapply sd_bind; [exact HP|intro]; eapply sd_bind; [exact Hc|intro; apply sd_ret]|].
    intros a u (y & s1 & ? & -> & H1 & l & s2 & ? & -> & H2 & [-> ->]). rewrite app_nil_r. exists s1, s2. auto. }
  apply (sd_opt _ _ _ K) in E. destruct E as (t & -> & H). exists t. split; [reflexivity|]. destruct o as [y|]; [now left|]. right. auto.
Qed.

(** *** Physical names *)
Lemma t_names4 : reads okb okb physical_name_vector (names4f written).
Proof.
  unfold physical_name_vector. eapply reads_weaken.
  { eapply reads_bind; [apply t_open; [reflexivity|discriminate]|intro]. eapply reads_bind; [eapply reads_must, t_uint|intro].
    eapply reads_bind; [eapply reads_must, reads_repeat, t_name|intro]. eapply reads_bind; [eapply reads_must, t_close; [reflexivity|discriminate]|intro]. apply reads_ret. }
  intros l s (s1 & s2 & s3 & -> & H1 & (n & t & -> & Hn & Ht) & H3). rewrite <- (app_nil_r s3), <- app_assoc.
  exists tt, s1, (n ++ t ++ s3 ++ []). split; [reflexivity|]. split; [exact H1|]. exists (N.of_nat (length l)), n, (t ++ s3 ++ []). split; [reflexivity|]. split; [exact Hn|].
  exists l, t, (s3 ++ []). split; [reflexivity|]. split; [split; [now rewrite Nat2N.id|exact Ht]|]. exists tt, s3, []. split; [reflexivity|]. split; [exact H3|]. split; reflexivity.
Qed.
Lemma u_names4 : sd physical_name_vector (names4f accepted).
Proof.
  unfold physical_name_vector. eapply sd_weaken.
  { eapply sd_bind; [apply u_lit|intro]. eapply sd_bind; [eapply sd_must, u_uint|intro]. eapply sd_bind; [eapply sd_must, sd_repeat, u_name|intro].
    eapply sd_bind; [eapply sd_must, u_lit|intro]. apply sd_ret. }
  intros a s (u1 & s1 & ? & -> & H1 & n & s2 & ? & -> & H2 & l & s3 & ? & -> & [Hl H3] & u2 & s4 & ? & -> & H4 & [-> ->]). rewrite app_nil_r.
  exists s1, (s2 ++ s3), s4. split; [now rewrite <- app_assoc|]. split; [exact H1|]. split; [|exact H4]. exists s2, s3. split; [reflexivity|]. split; [|exact H3].
  replace (N.of_nat (length l)) with n by lia. exact H2.
Qed.

(** *** Affine transformations *)
Lemma sixteen_list : forall D (l : list D), length l = 16 -> exists a0 a1 a2 a3 a4 a5 a6 a7 a8 a9 b0 b1 b2 b3 b4 b5, l = [a0;a1;a2;a3;a4;a5;a6;a7;a8;a9;b0;b1;b2;b3;b4;b5].
Proof.
  intros D l H. do 16 (destruct l as [|? l]; [discriminate H|]). destruct l; [|discriminate H]. repeat eexists.
Qed.
Lemma transpose_spec : forall D (l : list D), length l = 16 -> length (transpose4 l) = 16 /\ forall i j, i < 4 -> j < 4 -> nth_error l (4 * i + j) = nth_error (transpose4 l) (4 * j + i).
Proof.
  intros D l H. destruct (sixteen_list D l H) as (a0&a1&a2&a3&a4&a5&a6&a7&a8&a9&b0&b1&b2&b3&b4&b5& ->). split; [reflexivity|].
  intros i j Hi Hj. do 4 (destruct i as [|i]; [do 4 (destruct j as [|j]; [reflexivity|]); lia|]). lia.
Qed.
Lemma transpose_unique : forall D (l c : list D), length l = 16 -> length c = 16 -> (forall i j, i < 4 -> j < 4 -> nth_error l (4 * i + j) = nth_error c (4 * j + i)) -> transpose4 l = c.
Proof.
  intros D l c H Hc K. destruct (transpose_spec D l H) as [H1 H2].
  assert (E : forall k, nth_error (transpose4 l) k = nth_error c k).
  { intro k. destruct (le_lt_dec 16 k) as [L|L].
    - rewrite (proj2 (nth_error_None (transpose4 l) k)) by lia. rewrite (proj2 (nth_error_None c k)) by lia. reflexivity.
    - rewrite (Nat.div_mod k 4) by discriminate. assert (k / 4 < 4) by (apply Nat.div_lt_upper_bound; lia). assert (k mod 4 < 4) by (apply Nat.mod_upper_bound; discriminate).
      rewrite <- H2, <- K by assumption. reflexivity. }
  clear - E. revert c E. induction (transpose4 l) as [|a t IH]; intros [|b c] E.
  - reflexivity.
  - specialize (E 0). discriminate E.
  - specialize (E 0). discriminate E.
  - f_equal; [specialize (E 0); cbn in E; congruence|]. apply IH. intro k. exact (E (S k)).
Qed.

Section Links.
Variable D : Type.
Variable x : lexis D.
Lemma link_raw : forall l s, linkf D x l s -> exists l0, rawlinkf D x l0 s /\ fix_link l0 = l.
Proof.
  intros [[[[d t] m] a] ns] s (s1 & s2 & -> & (s3 & s4 & -> & H1 & H2) & H3). cbn [fst snd] in *.
  assert (K : exists a0, rawf D x a0 s4 /\ option_map transpose4 a0 = a).
  { destruct a as [c|]; [|exists None; split; [exact H2|reflexivity]]. destruct H2 as (u1 & l & u2 & -> & K1 & K2 & K3 & K4 & K5). exists (Some l). split.
    - exists u1, u2. auto.
    - cbn [option_map]. f_equal. now apply transpose_unique. }
  destruct K as (a0 & K1 & K2). exists (d, t, m, a0, ns). split; [|cbn; congruence]. exists (s3 ++ s4), s2. split; [reflexivity|]. cbn [fst snd]. split; [|exact H3].
  exists s3, s4. auto.
Qed.
Lemma raw_link : forall l s, rawlinkf D x l s -> linkf D x (fix_link l) s.
Proof.
  intros [[[[d t] m] a] ns] s (s1 & s2 & -> & (s3 & s4 & -> & H1 & H2) & H3). cbn [fst snd] in *. exists (s3 ++ s4), s2. split; [reflexivity|]. cbn [fst snd fix_link]. split; [|exact H3].
  exists s3, s4. split; [reflexivity|]. cbn [fst snd]. split; [exact H1|]. destruct a as [l|]; [|exact H2]. cbn [option_map transformf]. destruct H2 as (u1 & u2 & -> & K1 & K2 & K3).
  destruct (transpose_spec D l K2) as [T1 T2]. exists u1, l, u2. auto 10.
Qed.
Definition rawlinksf : format (list (periodic_link D)) := between (x_open x "$Periodic") (countedf (x_size x) (rawlinkf D x)) (x_close x "$EndPeriodic").
Lemma links_raw : forall l s, periodicf D x l s -> exists l0, rawlinksf l0 s /\ map fix_link l0 = l.
Proof.
  intros l s (s1 & s2 & s3 & -> & H1 & (n & t & -> & Hn & (ss & Hs & ->)) & H3).
  assert (K : exists l0, Forall2 (rawlinkf D x) l0 ss /\ map fix_link l0 = l).
  { clear - Hs. induction Hs as [|a u l ss Ha Hl (l0 & IH1 & IH2)]; [exists []; split; constructor|]. destruct (link_raw a u Ha) as (a0 & K1 & K2). exists (a0 :: l0). split; [constructor; assumption|]. cbn. congruence. }
  destruct K as (l0 & K1 & K2). exists l0. split; [|exact K2]. exists s1, (n ++ concat ss), s3. split; [reflexivity|]. split; [exact H1|]. split; [|exact H3].
  exists n, (concat ss). split; [reflexivity|]. split; [rewrite <- K2, map_length in Hn; exact Hn|]. exists ss. auto.
Qed.
Lemma raw_links : forall l s, rawlinksf l s -> periodicf D x (map fix_link l) s.
Proof.
  intros l s (s1 & s2 & s3 & -> & H1 & (n & t & -> & Hn & (ss & Hs & ->)) & H3). exists s1, (n ++ concat ss), s3. split; [reflexivity|]. split; [exact H1|]. split; [|exact H3].
  exists n, (concat ss). split; [reflexivity|]. split; [rewrite map_length; exact Hn|]. exists ss. split; [|reflexivity]. clear - Hs. induction Hs; constructor; [now apply raw_link|assumption].
Qed.
End Links.

(** *** The whole file *)
Section Entry.
Variable D : Type.
Variables (int32 : parser Z) (size : parser N) (dbl : parser D).
Variables (open_ close_ : string -> parser unit) (zero sixteen : parser unit).
Variable section : forall A, parser A -> parser A.
Variable csk : bool.
Variable fg : chars -> Prop.
Variable x : lexis D.
Variable z : chars.
Notation cm := (comment4 csk).
Notation P_entities := (section _ (entities_ D int32 size dbl open_ close_)).
Notation P_partitioned := (section _ (partitioned_entities_ D int32 size dbl open_ close_)).
Notation P_nodes := (section _ (nodes_ D int32 size dbl open_ close_)).
Notation P_elements := (section _ (elements_ int32 size open_ close_)).
Notation P_links := (section _ (periodic_links_ D int32 size dbl open_ close_ zero sixteen)).
Notation P_ghosts := (section _ (ghost_elements_ int32 size open_ close_)).
Hypothesis Hstar : forall s R, fg s -> follows names4 R -> exists l, star cm (s ++ R) = Success l R.
Hypothesis Hx : forall n s r, x_open x (String "$" n) s -> starts (String "$" n) (s ++ r).
(** How a section fails *)
Hypothesis Hfail : forall A (q : unit -> parser A) n r, prefix (str (String "$" n) ++ z) (skip r) = None -> section _ (read u <- open_ (String "$" n); q u) r = Fail.
Hypothesis Hent : forall a s r, entitiesf D x a s -> P_entities (s ++ r) = Success a r.
Hypothesis Hpar : forall a s r, partitionedf D x a s -> P_partitioned (s ++ r) = Success a r.
Hypothesis Hnod : forall a s r, nodesf D x a s -> P_nodes (s ++ r) = Success a r.
Hypothesis Hele : forall a s r, elementsf D x a s -> P_elements (s ++ r) = Success a r.
Hypothesis Hlin : forall a s r, rawlinksf D x a s -> P_links (s ++ r) = Success a r.
Hypothesis Hgho : forall a s r, ghostsf D x a s -> P_ghosts (s ++ r) = Success a r.
Lemma starts_between : forall A n (f : format A) c a s r, between (x_open x (String "$" n)) f c a s -> starts (String "$" n) (s ++ r).
Proof. intros A n f c a s r (s1 & s2 & s3 & -> & H & _). rewrite <- app_assoc. now apply Hx. Qed.
Lemma entry_read : forall f s w, msh4f D written fg x f s -> blank w ->
  exists f0, entry4 D int32 size dbl open_ close_ zero sixteen section csk (s ++ w) = Success f0 w /\ fix_links f0 = f.
Proof.
  intros f s w (c & a & b & p & n & e & l & g & -> & Hc & Ha & Hb & Hp & Hn & He & Hl & Hg) Hw. rewrite <- !app_assoc.
  assert (F8 : follows [] w) by now left.
  assert (F7 : follows ["$GhostElements"%string] (g ++ w)) by (eapply follows_optional; [|exact Hg|exact F8]; intros; eapply starts_between; eassumption).
  assert (F6 : follows ["$Periodic"; "$GhostElements"]%string (l ++ g ++ w)) by (eapply follows_optional; [|exact Hl|exact F7]; intros; eapply starts_between; eassumption).
  assert (F5 : follows ["$Elements"%string] (e ++ l ++ g ++ w)) by (eapply follows_section; [|exact He|now left]; intros; eapply starts_between; eassumption).
  assert (F4 : follows ["$Nodes"%string] (n ++ e ++ l ++ g ++ w)) by (eapply follows_section; [|exact Hn|now left]; intros; eapply starts_between; eassumption).
  assert (F3 : follows ["$PartitionedEntities"; "$Nodes"]%string (p ++ n ++ e ++ l ++ g ++ w)) by (eapply follows_optional; [|exact Hp|exact F4]; intros; eapply starts_between; eassumption).
  assert (F2 : follows ["$Entities"%string] (b ++ p ++ n ++ e ++ l ++ g ++ w)) by (eapply follows_section; [|exact Hb|now left]; intros; eapply starts_between; eassumption).
  assert (F1 : follows ["$PhysicalNames"; "$Entities"]%string (a ++ b ++ p ++ n ++ e ++ l ++ g ++ w)).
  { eapply follows_optional; [|exact Ha|exact F2]. intros y t r (s1 & s2 & s3 & -> & (w0 & -> & Hw0) & _). exists w0. rewrite <- !app_assoc. eexists. split; [exact Hw0|reflexivity]. }
  assert (Fo : forall ms R, follows ms R -> forallb (fun m => existsb (String.eqb m) names4) ms = true -> follows names4 R).
  { intros ms R H0 H. revert H0. apply follows_incl. intros m Hm. rewrite forallb_forall in H. specialize (H m Hm). apply existsb_exists in H. destruct H as (m' & H1 & H2). apply String.eqb_eq in H2. congruence. }
  unfold entry4, on_error. unfold and_then at 1. destruct (Hstar c _ Hc (Fo _ _ F1 eq_refl)) as (l0 & ->).
  (* physical names *)
  assert (Inc : forall ms, forallb (fun m => existsb (String.eqb m) names4) ms = true -> incl ms names4).
  { intros ms H m Hm. rewrite forallb_forall in H. specialize (H m Hm). apply existsb_exists in H. destruct H as (m' & H1 & H2). apply String.eqb_eq in H2. congruence. }
  assert (Ins : forall m, existsb (String.eqb m) names4 = true -> In m names4).
  { intros m H. apply existsb_exists in H. destruct H as (m' & H1 & H2). apply String.eqb_eq in H2. congruence. }
  destruct (opt_read names4 cm fg plain4 Hstar _ physical_name_vector (names4f written) [] [] "$PhysicalNames" ["$Entities"%string] (m4_names f) a (b ++ p ++ n ++ e ++ l ++ g ++ w)) as (oa & Ea & Oa);
    [intros y t r Hy; exact (proj2 (t_names4 y t r Hy I))| | | | |exact Ha|exact F2|].
  { intros r Hr. unfold physical_name_vector, and_then at 1, lit, pre. rewrite app_nil_r in Hr. rewrite Hr. reflexivity. }
  { now apply Ins. }
  { now apply Inc. }
  { reflexivity. }
  fold (follow_ cm physical_name_vector). unfold and_then at 1. rewrite Ea.
  (* entities *)
  assert (E2 := follow_read names4 cm fg Hstar _ P_entities (entitiesf D x) _ b (p ++ n ++ e ++ l ++ g ++ w) Hent Hb (Fo _ _ F3 eq_refl)).
  unfold follow_, and_then in E2. unfold and_then at 1. destruct (P_entities (b ++ p ++ n ++ e ++ l ++ g ++ w)) as [y2 q2| | |]; try discriminate E2. unfold and_then at 1. destruct (star cm q2) as [l2 r2| | |]; try discriminate E2. injection E2 as -> ->.
  (* partitioned entities *)
  destruct (opt_read names4 cm fg plain4 Hstar _ P_partitioned (partitionedf D x) no_partitions z "$PartitionedEntities" ["$Nodes"%string] (m4_partitioned f) p (n ++ e ++ l ++ g ++ w)) as (op & Ep & Op);
    [exact Hpar|intros; unfold partitioned_entities_; now apply Hfail|now apply Ins|now apply Inc|reflexivity|exact Hp|exact F4|].
  fold (follow_ cm P_partitioned). unfold and_then at 1. rewrite Ep.
  (* nodes *)
  assert (E3 := follow_read names4 cm fg Hstar _ P_nodes (nodesf D x) _ n (e ++ l ++ g ++ w) Hnod Hn (Fo _ _ F5 eq_refl)).
  unfold follow_, and_then in E3. unfold and_then at 1. destruct (P_nodes (n ++ e ++ l ++ g ++ w)) as [y3 q3| | |]; try discriminate E3. unfold and_then at 1. destruct (star cm q3) as [l3 r3| | |]; try discriminate E3. injection E3 as -> ->.
  (* elements *)
  assert (E4 := follow_read names4 cm fg Hstar _ P_elements (elementsf D x) _ e (l ++ g ++ w) Hele He (Fo _ _ F6 eq_refl)).
  unfold follow_, and_then in E4. unfold and_then at 1. destruct (P_elements (e ++ l ++ g ++ w)) as [y4 q4| | |]; try discriminate E4. unfold and_then at 1. destruct (star cm q4) as [l4 r4| | |]; try discriminate E4. injection E4 as -> ->.
  (* periodic links *)
  assert (Hl' : exists k, optional [] (sectionf fg (rawlinksf D x)) k l /\ map fix_link k = m4_periodic f).
  { destruct Hl as [(s1 & s2 & -> & H1 & H2)|[-> ->]].
    - destruct (links_raw D x _ _ H1) as (k & K1 & K2). exists k. split; [|exact K2]. left. exists s1, s2. auto.
    - exists []. split; [right; auto|reflexivity]. }
  destruct Hl' as (k & Hk & Ek).
  destruct (opt_read names4 cm fg plain4 Hstar _ P_links (rawlinksf D x) [] z "$Periodic" ["$GhostElements"%string] k l (g ++ w)) as (ol & El & Ol);
    [exact Hlin|intros; unfold periodic_links_; now apply Hfail|now apply Ins|now apply Inc|reflexivity|exact Hk|exact F7|].
  fold (follow_ cm P_links). unfold and_then at 1. rewrite El.
  (* ghost elements *)
  destruct (opt_read names4 cm fg plain4 Hstar _ P_ghosts (ghostsf D x) [] z "$GhostElements" [] (m4_ghosts f) g w) as (og & Eg & Og);
    [exact Hgho|intros; unfold ghost_elements_; now apply Hfail|now apply Ins|now apply Inc|reflexivity|exact Hg|exact F8|].
  fold (follow_ cm P_ghosts). unfold and_then at 1. rewrite Eg. eexists. split; [reflexivity|].
  unfold fix_links. cbn [m4_names m4_entities m4_partitioned m4_nodes m4_elements m4_periodic m4_ghosts]. unfold or_empty. rewrite Oa, Op, Ol, Og, Ek. destruct f; reflexivity.
Qed.
End Entry.
