(** The header, files. *)
From Coq Require Import String Ascii List Arith NArith ZArith Bool Lia.
Import ListNotations.
From Verif Require Import Base MshModel MshSpec MshProofs MshProofs2 MshProofs3 MshProofs4 MshProofs5 MshProofs6 MshProofs7 MshProofs8.
Local Open Scope list_scope.
Local Open Scope nat_scope.

(** *** White space at the start of a file *)
Definition leads (P : chars -> Prop) : Prop := forall s, P s -> exists w s0, s = w ++ s0 /\ blank w /\ s0 <> [] /\ head_ok s0 /\ forall w', blank w' -> P (w' ++ s0).
Definition lead (P : chars -> Prop) : Prop := forall s, P s -> s = [] \/ exists w s0, s = w ++ s0 /\ blank w /\ s0 <> [] /\ head_ok s0 /\ forall w', blank w' -> P (w' ++ s0).
Definition cat (P Q : chars -> Prop) (s : chars) : Prop := exists s1 s2, s = s1 ++ s2 /\ P s1 /\ Q s2.
Lemma head_app : forall s t, s <> [] -> head_ok s -> head_ok (s ++ t).
Proof. intros [|c s] t H; [congruence|]. intro K. exact K. Qed.
Lemma leads_cat : forall P Q, leads P -> leads (cat P Q).
Proof.
  intros P Q H s (s1 & s2 & -> & H1 & H2). destruct (H _ H1) as (w & s0 & -> & Hw & Hne & Hh & Hs). exists w, (s0 ++ s2). split; [now rewrite app_assoc|]. split; [exact Hw|].
  split; [destruct s0; [congruence|discriminate]|]. split; [now apply head_app|]. intros w' Hw'. exists (w' ++ s0), s2. split; [now rewrite app_assoc|]. auto.
Qed.
Lemma lead_cat : forall P Q : chars -> Prop, lead P -> leads Q -> (forall s, P s -> s = [] -> P []) -> leads (cat P Q).
Proof.
  intros P Q H HQ H0 s (s1 & s2 & -> & H1 & H2). destruct (H _ H1) as [E|(w & s0 & -> & Hw & Hne & Hh & Hs)].
  - pose proof (H0 _ H1 E) as Hnil. subst s1. destruct (HQ _ H2) as (w & s0 & -> & Hw & Hne & Hh & Hs). exists w, s0. split; [reflexivity|]. split; [exact Hw|]. split; [exact Hne|]. split; [exact Hh|]. intros w' Hw'. exists [], (w' ++ s0). auto.
  - exists w, (s0 ++ s2). split; [now rewrite app_assoc|]. split; [exact Hw|]. split; [destruct s0; [congruence|discriminate]|]. split; [now apply head_app|]. intros w' Hw'. exists (w' ++ s0), s2. split; [now rewrite app_assoc|]. auto.
Qed.
Lemma lead_nil : forall (P : chars -> Prop) s, P s -> s = [] -> P [].
Proof. intros P s H E. now rewrite E in H. Qed.
Lemma lead_leads : forall P, leads P -> lead P.
Proof. intros P H s Hs. right. now apply H. Qed.
Lemma foreign_leads : forall names, leads (foreign names).
Proof.
  intros names s (w & name & body & w2 & -> & Hw & H). exists w, (str "$" ++ name ++ body ++ str "$End" ++ w2 ++ name). split; [reflexivity|]. split; [exact Hw|]. split; [discriminate|]. split; [reflexivity|].
  intros w' Hw'. exists w', name, body, w2. split; [reflexivity|]. split; [exact Hw'|exact H].
Qed.
Lemma foreigns_lead : forall names, lead (foreigns names).
Proof.
  intros names s (ss & Hs & ->). destruct Hs as [|s ss H1 Hs]; [now left|]. right. destruct (foreign_leads names s H1) as (w & s0 & -> & Hw & Hne & Hh & Hf).
  exists w, (s0 ++ concat ss). split; [cbn [concat]; now rewrite app_assoc|]. split; [exact Hw|]. split; [destruct s0; [congruence|discriminate]|]. split; [now apply head_app|].
  intros w' Hw'. exists ((w' ++ s0) :: ss). split; [constructor; auto|]. cbn [concat]. now rewrite app_assoc.
Qed.
Lemma between_leads : forall A t (f : format A) c a, t <> [] -> head_ok t -> leads (between (afterk blank t) f c a).
Proof.
  intros A t f c a Hne Hh s (s1 & s2 & s3 & -> & (w & -> & Hw) & H2 & H3). exists w, (t ++ s2 ++ s3). split; [now rewrite !app_assoc|]. split; [exact Hw|]. split; [destruct t; [congruence|discriminate]|].
  split; [now apply head_app|]. intros w' Hw'. exists (w' ++ t), s2, s3. split; [now rewrite <- app_assoc|]. split; [exists w'; auto|]. auto.
Qed.
Lemma section_leads : forall A fg (f : format A) a, leads (f a) -> leads (sectionf fg f a).
Proof. intros A fg f a H. exact (leads_cat _ _ H). Qed.
Lemma optional_lead : forall A none (f : format A) a, leads (f a) -> lead (optional none f a).
Proof.
  intros A none f a H s [Hs|[-> ->]]; [|now left]. right. destruct (H _ Hs) as (w & s0 & -> & Hw & Hne & Hh & Hf). exists w, s0. split; [reflexivity|]. split; [exact Hw|]. split; [exact Hne|]. split; [exact Hh|]. intros w' Hw'. left. auto.
Qed.
Lemma nodes2f_leads : forall D st (node : format (N * vec3 D)) l, leads (nodes2f st node l).
Proof.
  intros D st node l s (w & e1 & n & e2 & t & b & -> & Hw & H). exists w. eexists. split; [reflexivity|]. split; [exact Hw|]. split; [discriminate|]. split; [reflexivity|].
  intros w' Hw'. exists w', e1, n, e2, t, b. split; [reflexivity|]. split; [exact Hw'|exact H].
Qed.
Lemma msh2f_leads : forall D st (nodes : format (list (N * vec3 D))) elements f, (forall l, leads (nodes l)) -> leads (msh2f st nodes elements f).
Proof.
  intros D st nodes elements f Hn.
  pose (Rest := fun s => exists e p w, s = e ++ p ++ w /\ sectionf (foreigns names2) elements (m2_elements f) e /\ optional [] (sectionf (foreigns names2) (periodic2f st)) (m2_periodic f) p /\ blank w).
  assert (K : leads (cat (foreigns names2) (cat (optional [] (sectionf (foreigns names2) (names2f st)) (m2_names f)) (cat (sectionf (foreigns names2) nodes (m2_nodes f)) Rest)))).
  { apply lead_cat; [apply foreigns_lead| |intros; eapply lead_nil; eassumption]. apply lead_cat; [apply optional_lead, section_leads, between_leads; [discriminate|reflexivity]| |intros; eapply lead_nil; eassumption]. apply leads_cat, section_leads, Hn. }
  intros s (c & a & b & e & p & w & -> & Hc & Ha & Hb & He & Hp & Hw). destruct (K (c ++ a ++ b ++ e ++ p ++ w)) as (v & s0 & E & Hv & Hne & Hh & Hs).
  { exists c, (a ++ b ++ e ++ p ++ w). split; [reflexivity|]. split; [exact Hc|]. exists a, (b ++ e ++ p ++ w). split; [reflexivity|]. split; [exact Ha|]. exists b, (e ++ p ++ w). split; [reflexivity|]. split; [exact Hb|]. exists e, p, w. auto. }
  exists v, s0. split; [exact E|]. split; [exact Hv|]. split; [exact Hne|]. split; [exact Hh|]. intros w' Hw'. destruct (Hs w' Hw') as (c1 & ? & -> & K1 & a1 & ? & -> & K2 & b1 & ? & -> & K3 & e1 & p1 & w1 & -> & K4 & K5 & K6).
  exists c1, a1, b1, e1, p1, w1. auto 10.
Qed.
Lemma msh4f_leads : forall D st fg (x : lexis D) f, lead fg -> (forall l, leads (entitiesf D x l)) -> leads (msh4f D st fg x f).
Proof.
  intros D st fg x f Hfg Hent.
  pose (Rest := fun s => exists p n e l g, s = p ++ n ++ e ++ l ++ g /\ optional no_partitions (sectionf fg (partitionedf D x)) (m4_partitioned f) p /\ sectionf fg (nodesf D x) (m4_nodes f) n /\
     sectionf fg (elementsf D x) (m4_elements f) e /\ optional [] (sectionf fg (periodicf D x)) (m4_periodic f) l /\ optional [] (sectionf fg (ghostsf D x)) (m4_ghosts f) g).
  assert (K : leads (cat fg (cat (optional [] (sectionf fg (names4f st)) (m4_names f)) (cat (sectionf fg (entitiesf D x) (m4_entities f)) Rest)))).
  { apply lead_cat; [exact Hfg| |intros; eapply lead_nil; eassumption]. apply lead_cat; [apply optional_lead, section_leads, between_leads; [discriminate|reflexivity]| |intros; eapply lead_nil; eassumption]. apply leads_cat, section_leads, Hent. }
  intros s (c & a & b & p & n & e & l & g & -> & Hc & Ha & Hb & Hp & Hn & He & Hl & Hg). destruct (K (c ++ a ++ b ++ p ++ n ++ e ++ l ++ g)) as (v & s0 & E & Hv & Hne & Hh & Hs).
  { exists c. eexists. split; [reflexivity|]. split; [exact Hc|]. exists a. eexists. split; [reflexivity|]. split; [exact Ha|]. exists b. eexists. split; [reflexivity|]. split; [exact Hb|]. exists p, n, e, l, g. auto 10. }
  exists v, s0. split; [exact E|]. split; [exact Hv|]. split; [exact Hne|]. split; [exact Hh|]. intros w' Hw'. destruct (Hs w' Hw') as (c1 & ? & -> & K1 & a1 & ? & -> & K2 & b1 & ? & -> & K3 & p1 & n1 & e1 & l1 & g1 & -> & K4 & K5 & K6 & K7 & K8).
  exists c1, a1, b1, p1, n1, e1, l1, g1. auto 10.
Qed.
Lemma no_foreign_lead : lead no_foreign.
Proof. intros s H. now left. Qed.
Lemma text2_leads : forall st f, leads (msh2f st (nodes2f st (node_line st)) (elements_text st) f).
Proof. intros. apply msh2f_leads. intro. apply nodes2f_leads. Qed.
Lemma binary2_leads : forall st big f, leads (msh2f st (nodes2f st (node_binary big)) (elements_binary st big) f).
Proof. intros. apply msh2f_leads. intro. apply nodes2f_leads. Qed.
Lemma text4_leads : forall st f, leads (msh4f decimal st (foreigns names4) (textual st) f).
Proof. intros. apply msh4f_leads; [apply foreigns_lead|]. intro. apply between_leads; [discriminate|reflexivity]. Qed.
Lemma binary4_leads : forall st big f, leads (msh4f N st no_foreign (binary big) f).
Proof. intros. apply msh4f_leads; [apply no_foreign_lead|]. intro. apply between_leads; [discriminate|reflexivity]. Qed.
Lemma leads_skip : forall (P : chars -> Prop) s r, leads P -> P s -> exists s0, skip (s ++ r) = s0 ++ r /\ P s0.
Proof.
  intros P s r H Hs. destruct (H s Hs) as (w & s0 & -> & Hw & Hne & Hh & Hp). exists s0. split; [|exact (Hp [] (Forall_nil _))]. rewrite <- app_assoc, skip_blank by exact Hw. apply skip_head. now apply head_app.
Qed.
Lemma leads_blank : forall (P : chars -> Prop) w s, leads P -> blank w -> P s -> P (w ++ s).
Proof. intros P w s H Hw Hs. destruct (H s Hs) as (w0 & s0 & -> & Hw0 & _ & _ & Hp). rewrite app_assoc. apply Hp. apply Forall_app. split; assumption. Qed.

(** *** Header *)
Lemma version_read : forall w v w2 r, blank w -> gap w2 -> v <> [] -> forallb is_version_char v = true -> version_parser (w ++ v ++ w2 ++ r) = Success v (w2 ++ r).
Proof.
  intros w v w2 r Hw [Hw2 Hne2] Hne Hv. unfold version_parser, lexeme. rewrite skip_blank by exact Hw. destruct v as [|c v]; [congruence|].
  assert (Hc : is_space c = false).
  { cbn [forallb] in Hv. apply andb_true_iff in Hv. destruct Hv as [Hc _]. unfold is_version_char in Hc. apply andb_true_iff in Hc. destruct Hc as [H1 _]. apply Nat.leb_le in H1. unfold is_space.
    apply orb_false_iff. split; [apply andb_false_iff; right; apply Nat.leb_gt; lia|apply Nat.eqb_neq; lia]. }
  rewrite skip_head by exact Hc. apply plus_chars; [exact Hv|]. destruct w2 as [|d w2]; [congruence|]. cbn [app]. inversion Hw2 as [|? ? Hd _]; subst. repeat (destruct Hd as [<-|Hd]; [reflexivity|]). destruct Hd.
Qed.
Lemma version_sound : forall s v r, version_parser s = Success v r -> exists w, s = w ++ v ++ r /\ blank w /\ forallb is_version_char v = true /\ (match r with [] => True | c :: _ => is_version_char c = false end).
Proof.
  intros s v r H. unfold version_parser, lexeme in H. destruct (skip_spec s) as (w & Es & Hw & _). apply plus_chars_sound in H. destruct H as (E & _ & Hv & Hr). exists w. split; [now rewrite Es, E|]. auto.
Qed.
Definition version_ok (version : string) : Prop := version = "2.2"%string \/ version = "4.1"%string.
Lemma version_chars : forall v, version_ok v -> str v <> [] /\ forallb is_version_char (str v) = true.
Proof. intros v [->| ->]; (split; [discriminate|reflexivity]). Qed.
Definition one_of (big : option bool) (one : N) : Prop := match big with None => one = 1%N | Some b => b = negb (one =? 1)%N end.
Definition is_some (o : option bool) : bool := match o with Some _ => true | None => false end.
Lemma gap_okt : forall w r, gap w -> okt (w ++ r).
Proof. intros w r [Hw Hne]. destruct w as [|c w]; [congruence|]. cbn. apply is_space_white. now inversion Hw. Qed.
Lemma header_read : forall version big s r, version_ok version -> headerf written version big s ->
  exists one, header (s ++ r) = Success (str version, is_some big, 8%Z, one) r /\ one_of big one.
Proof.
  intros version big s r Hv (w0 & w1 & w2 & k & w3 & w4 & -> & H0 & [H1 _] & H2 & H4 & Hb). destruct (version_chars version Hv) as [V1 V2]. cbn [st_gap written] in *.
  assert (Hend : forall r0, lit true (str "$EndMeshFormat") ((w4 ++ str "$EndMeshFormat") ++ r0) = Success tt r0).
  { intro r0. apply lit_read; [exists w4; split; [reflexivity|exact (proj1 H4)]|reflexivity|discriminate]. }
  assert (Hopen : forall r0, lit true (str "$MeshFormat") (w0 ++ str "$MeshFormat" ++ r0) = Success tt r0).
  { intro r0. rewrite app_assoc. apply lit_read; [exists w0; auto|reflexivity|discriminate]. }
  assert (Okt : okt (w4 ++ str "$EndMeshFormat" ++ r)) by now apply gap_okt.
  destruct big as [b|].
  - destruct Hb as [-> (t & o & -> & Ht & [Ho|[[] _]])]. destruct Ho as (g & o' & -> & [Hg Hgne] & Ho).
    exists (if b then 16777216%N else 1%N). split; [|now destruct b].
    unfold header. rewrite <- !app_assoc. go (apply Hopen). go (idtac).
    { unfold alt. rewrite (bind_ok _ _ _ _ _ _ _ (version_read w1 (str version) w2 _ H1 H2 V1 V2)).
      assert (E0 : lit true (str "0") (w2 ++ str "1" ++ t ++ g ++ o' ++ w4 ++ str "$EndMeshFormat" ++ r) = Fail) by (unfold lit, pre; rewrite skip_blank by exact (proj1 H2); reflexivity).
      unfold and_then at 1. rewrite E0. go (apply (version_read w1 (str version) w2 _ H1 H2 V1 V2)).
      go (rewrite app_assoc; apply lit_read; [exists w2; split; [reflexivity|exact (proj1 H2)]|reflexivity|discriminate]).
      go (apply (proj2 (t_int 8%Z t _ Ht (gap_okt g _ (conj Hg Hgne))))).
      assert (Ew : word false false 4 (o' ++ w4 ++ str "$EndMeshFormat" ++ r) = Success (if b then 16777216%N else 1%N) (w4 ++ str "$EndMeshFormat" ++ r)) by (destruct Ho as [_ ->]; destruct b; reflexivity).
      assert (Hh : skip (g ++ o' ++ w4 ++ str "$EndMeshFormat" ++ r) = o' ++ w4 ++ str "$EndMeshFormat" ++ r).
      { rewrite skip_blank by exact Hg. apply skip_head. destruct Ho as [_ ->]. destruct b; reflexivity. }
      assert (Ew' : word true false 4 (g ++ o' ++ w4 ++ str "$EndMeshFormat" ++ r) = Success (if b then 16777216%N else 1%N) (w4 ++ str "$EndMeshFormat" ++ r)).
      { change (word true false 4) with (lexeme (word false false 4)). unfold lexeme. rewrite Hh. exact Ew. }
      go (exact Ew'). reflexivity. }
    go (rewrite app_assoc; apply Hend). reflexivity.
  - destruct Hb as [-> Ht]. exists 1%N. split; [|reflexivity]. unfold header. rewrite <- !app_assoc. go (apply Hopen). go (idtac).
    { unfold alt. rewrite (bind_ok _ _ _ _ _ _ _ (version_read w1 (str version) w2 _ H1 H2 V1 V2)).
      erewrite bind_ok by (rewrite app_assoc; apply lit_read; [exists w2; split; [reflexivity|exact (proj1 H2)]|reflexivity|discriminate]).
      erewrite bind_ok by (apply (proj2 (t_int 8%Z w3 _ Ht Okt))). reflexivity. }
    go (rewrite app_assoc; apply Hend). reflexivity.
Qed.
Lemma header_sound : forall s v bin n one r, header s = Success (v, bin, n, one) r ->
  exists t, s = t ++ r /\ forall version, v = str version -> n = 8%Z -> headerf accepted version (if bin then Some (negb (one =? 1)%N) else None) t /\ (bin = false -> one = 1%N).
Proof.
  intros s v bin n one r H. unfold header in H. next H E1. next H E2. next H E3. injection H as -> <-. sound u_lit E1 t1 H1. sound u_lit E3 t3 H3. destruct H1 as (w0 & -> & Hw0). destruct H3 as (w4 & -> & Hw4).
  assert (G : forall u v w, v ++ w <> [] -> match u ++ v ++ w with [] => True | c :: _ => is_version_char c = false end -> blank u -> (match v ++ w with [] => True | c :: _ => is_version_char c = true end) -> gap u).
  { intros u v0 w Hn Hu Hb Hvw. split; [exact Hb|]. intros ->. cbn [app] in Hu. destruct (v0 ++ w); congruence. }
  unfold alt in E2. match type of E2 with match ?p ?q with _ => _ end = _ => destruct (p q) as [h q'| | |] eqn:F end; try discriminate E2.
  - injection E2 as -> ->. next F F1. next F F2. next F F3. injection F as -> <- -> <- ->. apply version_sound in F1. destruct F1 as (w1 & -> & Hw1 & Hv & Hr). sound u_lit F2 t2 H2. destruct H2 as (w2 & -> & Hw2). sound u_int F3 w3 Hw3.
    exists (w0 ++ str "$MeshFormat" ++ w1 ++ v ++ w2 ++ str "0" ++ w3 ++ w4 ++ str "$EndMeshFormat"). split; [now rewrite <- !app_assoc|]. intros version -> ->. split; [|reflexivity].
    exists w0, w1, w2, (str "0"), w3, w4. split; [reflexivity|]. split; [exact Hw0|]. split; [exact Hw1|]. split; [|split; [exact Hw4|split; [reflexivity|exact Hw3]]].
    rewrite <- !app_assoc in Hr. eapply G; [|exact Hr|exact Hw2|reflexivity]. discriminate.
  - next E2 F1. next E2 F2. next E2 F3. next E2 F4. injection E2 as -> <- -> -> ->. apply version_sound in F1. destruct F1 as (w1 & -> & Hw1 & Hv & Hr). sound u_lit F2 t2 H2. destruct H2 as (w2 & -> & Hw2). sound u_int F3 w3 Hw3.
    change (word true false 4) with (lexeme (word false false 4)) in F4. apply (after_sound _ _ _ (word_sound false 4)) in F4. destruct F4 as (t4 & -> & H4).
    exists (w0 ++ str "$MeshFormat" ++ w1 ++ v ++ w2 ++ str "1" ++ (w3 ++ t4) ++ w4 ++ str "$EndMeshFormat"). split; [now rewrite <- !app_assoc|]. intros version -> ->. split; [|discriminate].
    exists w0, w1, w2, (str "1"), (w3 ++ t4), w4. split; [reflexivity|]. split; [exact Hw0|]. split; [exact Hw1|]. split; [rewrite <- !app_assoc in Hr; eapply G; [|exact Hr|exact Hw2|reflexivity]; discriminate|]. split; [exact Hw4|]. split; [reflexivity|].
    exists w3, t4. split; [reflexivity|]. split; [exact Hw3|]. right. split; [exact I|]. eexists. split; [exact H4|]. match goal with |- context [(?o =? 1)%N] => destruct (N.eqb_spec o 1) as [E|E] end; split; intros; try discriminate; try reflexivity; congruence.
Qed.

(** *** Files *)
Lemma phrase_ok : forall A (p : parser A) s a r, p s = Success a r -> phrase_parse p s = Ok (a, skip r).
Proof. intros A p s a r H. unfold phrase_parse. now rewrite H. Qed.
Lemma phrase_inv : forall A (p : parser A) s x, phrase_parse p s = Ok x -> exists r, p s = Success (fst x) r /\ snd x = skip r.
Proof. intros A p s x H. unfold phrase_parse in H. destruct (p s) as [a r| | |]; try discriminate H. injection H as <-. exists r. auto. Qed.
Lemma skip_nil : forall s, skip s = [] -> blank s.
Proof. intros s H. destruct (skip_spec s) as (w & E & Hw & _). rewrite H, app_nil_r in E. now rewrite E. Qed.
Lemma file_read : forall f s, contents written f s -> ReadGmshFile s = Ok f.
Proof.
  intros f s H. unfold ReadGmshFile. destruct f as [[m|m]|[m|m]]; cbn [contents] in H.
  - destruct H as (h & b & -> & Hh & Hb). destruct (header_read "2.2" None h b (or_introl eq_refl) Hh) as (one & E & Ho). rewrite (phrase_ok _ _ _ _ _ E). cbn [bind is_some].
    destruct (leads_skip _ b [] (text2_leads written m) Hb) as (b0 & Eb & Hb0). rewrite !app_nil_r in Eb. rewrite Eb.
    destruct (list_eq_dec ascii_dec (str "2.2") (str "4.1")) as [E'|_]; [discriminate E'|]. destruct (list_eq_dec ascii_dec (str "2.2") (str "2.2")) as [_|N']; [|now elim N'].
    unfold readGmshFileV2. cbn [verify bind lf_assert Z.eqb Pos.eqb]. destruct (list_eq_dec ascii_dec (str "2.2") (str "2.2")) as [_|N']; [|now elim N']. cbn [verify bind].
    destruct (file2_text_read m b0 Hb0) as (w & Ew & Hw). rewrite (phrase_ok _ _ _ _ _ Ew). cbn [bind snd fst]. rewrite (skip_all w Hw). reflexivity.
  - destruct H as (big & h & b & -> & Hh & Hb). destruct (header_read "2.2" (Some big) h b (or_introl eq_refl) Hh) as (one & E & Ho). rewrite (phrase_ok _ _ _ _ _ E). cbn [bind is_some].
    destruct (leads_skip _ b [] (binary2_leads written big m) Hb) as (b0 & Eb & Hb0). rewrite !app_nil_r in Eb. rewrite Eb.
    destruct (list_eq_dec ascii_dec (str "2.2") (str "4.1")) as [E'|_]; [discriminate E'|]. destruct (list_eq_dec ascii_dec (str "2.2") (str "2.2")) as [_|N']; [|now elim N'].
    unfold readGmshFileV2. cbn [verify bind lf_assert Z.eqb Pos.eqb]. destruct (list_eq_dec ascii_dec (str "2.2") (str "2.2")) as [_|N']; [|now elim N']. cbn [verify bind]. cbn [one_of] in Ho. rewrite <- Ho.
    destruct (file2_binary_read big m b0 Hb0) as (w & Ew & Hw). rewrite (phrase_ok _ _ _ _ _ Ew). cbn [bind snd fst]. rewrite (skip_all w Hw). reflexivity.
  - destruct H as (h & b & w & -> & Hw & Hh & Hb). destruct (header_read "4.1" None h (b ++ w) (or_intror eq_refl) Hh) as (one & E & Ho). rewrite (phrase_ok _ _ _ _ _ E). cbn [bind is_some].
    destruct (leads_skip _ b w (text4_leads written m) Hb) as (b0 & Eb & Hb0). rewrite Eb. destruct (list_eq_dec ascii_dec (str "4.1") (str "4.1")) as [_|N']; [|now elim N'].
    unfold ReadGmshFileV4. destruct (list_eq_dec ascii_dec (str "4.1") (str "4.1")) as [_|N']; [|now elim N']. cbn [verify bind Z.eqb Pos.eqb].
    destruct (text_read m b0 w Hb0 Hw) as (f0 & E0 & Ef). rewrite (phrase_ok _ _ _ _ _ E0). cbn [bind fst]. now rewrite Ef.
  - destruct H as (big & h & b & w & -> & Hw & Hh & Hb). destruct (header_read "4.1" (Some big) h (b ++ w) (or_intror eq_refl) Hh) as (one & E & Ho). rewrite (phrase_ok _ _ _ _ _ E). cbn [bind is_some].
    destruct (leads_skip _ b w (binary4_leads written big m) Hb) as (b0 & Eb & Hb0). rewrite Eb. destruct (list_eq_dec ascii_dec (str "4.1") (str "4.1")) as [_|N']; [|now elim N'].
    unfold ReadGmshFileV4. destruct (list_eq_dec ascii_dec (str "4.1") (str "4.1")) as [_|N']; [|now elim N']. cbn [verify bind Z.eqb Pos.eqb]. cbn [one_of] in Ho. rewrite <- Ho.
    destruct (binary_read big m b0 w Hb0 Hw) as (f0 & E0 & Ef). rewrite (phrase_ok _ _ _ _ _ E0). cbn [bind fst]. now rewrite Ef.
Qed.
Ltac ok H E := apply Base.bind_ok in H; destruct H as (? & E & H).
Lemma file_sound : forall f s, ReadGmshFile s = Ok f -> contents accepted f s.
Proof.
  intros f s H. unfold ReadGmshFile in H. ok H E. destruct x as [[[[v bin] n] one] rest]. apply phrase_inv in E. destruct E as (r & E & Er). cbn [fst snd] in *. subst rest.
  apply header_sound in E. destruct E as (h & -> & Hh). destruct (skip_spec r) as (w & Es & Hw & _). destruct (list_eq_dec ascii_dec v (str "4.1")) as [->|_].
  - ok H E. injection H as <-. unfold ReadGmshFileV4 in E. ok E V1. ok E V2. apply verify_ok, Z.eqb_eq in V2. subst n. destruct (Hh "4.1"%string eq_refl eq_refl) as [Hd H1]. destruct bin.
    + ok E P. injection E as <-. apply phrase_inv in P. destruct P as (r2 & P & Er). apply binary_sound in P. destruct P as (b & Eb & Hb). cbn [contents].
      eexists. exists h, (w ++ b), r2. split; [rewrite Es, Eb; now rewrite <- !app_assoc|]. split; [exact I|]. split; [exact Hd|]. apply leads_blank; [apply binary4_leads|exact Hw|exact Hb].
    + ok E P. injection E as <-. apply phrase_inv in P. destruct P as (r2 & P & Er). apply text_sound in P. destruct P as (b & Eb & Hb). cbn [contents].
      exists h, (w ++ b), r2. split; [rewrite Es, Eb; now rewrite <- !app_assoc|]. split; [exact I|]. split; [exact Hd|]. apply leads_blank; [apply text4_leads|exact Hw|exact Hb].
  - destruct (list_eq_dec ascii_dec v (str "2.2")) as [->|_]; [|discriminate H]. ok H E. injection H as <-. unfold readGmshFileV2 in E. ok E V1. ok E V2. apply lf_assert_ok, Z.eqb_eq in V2. subst n. destruct (Hh "2.2"%string eq_refl eq_refl) as [Hd H1]. destruct bin.
    + ok E P. ok E V. injection E as <-. apply phrase_inv in P. destruct P as (r2 & P & Er). apply verify_ok in V. rewrite Er in V. destruct (skip r2) as [|c0 q0] eqn:Ey; [|discriminate V].
      apply skip_nil in Ey. cbn [contents]. eexists. exists h, (w ++ skip r). split; [now rewrite <- Es|]. split; [exact Hd|]. apply leads_blank; [apply binary2_leads|exact Hw|]. exact (file2_binary_sound _ _ _ _ P Ey).
    + ok E P. ok E V. injection E as <-. apply phrase_inv in P. destruct P as (r2 & P & Er). apply verify_ok in V. rewrite Er in V. destruct (skip r2) as [|c0 q0] eqn:Ey; [|discriminate V].
      apply skip_nil in Ey. cbn [contents]. exists h, (w ++ skip r). split; [now rewrite <- Es|]. split; [exact Hd|]. apply leads_blank; [apply text2_leads|exact Hw|]. exact (file2_text_sound _ _ _ P Ey).
Qed.
