(** The quadrature rule cache. *)
From Coq Require Import Reals List Arith Lia.
Import ListNotations.
From Verif Require Import Base MeshModel MeshView DofModel FeModel QuadModel QuadRuleModel CacheSpec.

Section Cache.
Variables leg jac : nat -> res (list R * list R).
Variable hard : nat -> res quadrule.
Let make := make_QuadRule leg jac hard.
Let get := Get leg jac hard.
(** Entries are invalid or right. *)
Definition sound (c : cache) : Prop :=
  forall el d q, nth_error (c el) d = Some q -> NumPoints q = 0%nat \/ make el d = Ok q.
Lemma grow_nth : forall l n d q, nth_error (grow l n) d = Some q -> nth_error l d = Some q \/ q = invalid_rule.
Proof.
  intros l n d q H. unfold grow in H. destruct (Nat.lt_ge_cases d (length l)) as [Hd|Hd].
  - rewrite nth_error_app1 in H by exact Hd. left. exact H.
  - rewrite nth_error_app2 in H by exact Hd. right. apply nth_error_In, repeat_spec in H. exact H.
Qed.
Lemma grow_keeps : forall l n d q, nth_error l d = Some q -> nth_error (grow l n) d = Some q.
Proof. intros l n d q H. unfold grow. rewrite nth_error_app1; [exact H|]. apply nth_error_Some. congruence. Qed.
Definition resized (c : cache) (el : refel) (degree : nat) : list quadrule :=
  if (length (c el) <? degree + 1)%nat then grow (c el) (degree + 1) else c el.
Lemma resized_nth : forall c el degree d q, nth_error (resized c el degree) d = Some q -> nth_error (c el) d = Some q \/ q = invalid_rule.
Proof. intros c el degree d q H. unfold resized in H. destruct (_ <? _)%nat; [eapply grow_nth, H|left; exact H]. Qed.
Lemma resized_keeps : forall c el degree d q, nth_error (c el) d = Some q -> nth_error (resized c el degree) d = Some q.
Proof. intros c el degree d q H. unfold resized. destruct (_ <? _)%nat; [apply grow_keeps, H|exact H]. Qed.
Lemma resized_long : forall c el degree, (degree < length (resized c el degree))%nat.
Proof.
  intros c el degree. unfold resized. destruct (Nat.ltb_spec (length (c el)) (degree + 1)); [|lia].
  unfold grow. rewrite app_length, repeat_length. lia.
Qed.
Lemma refel_eqb_spec : forall a b, refel_eqb a b = true -> a = b.
Proof. destruct a, b; cbn; congruence. Qed.
Lemma refel_eqb_refl' : forall a, refel_eqb a a = true.
Proof. destruct a; reflexivity. Qed.
Lemma sound_set : forall c el l, sound c -> (forall d q, nth_error l d = Some q -> NumPoints q = 0%nat \/ make el d = Ok q) -> sound (set_cache c el l).
Proof.
  intros c el l S0 H el' d q E. unfold set_cache in E. destruct (refel_eqb el el') eqn:Ee; [apply refel_eqb_spec in Ee; subst; apply H, E|apply (S0 el' d q E)].
Qed.
(** One call. *)
Lemma get_spec : forall c el degree, sound c ->
  match make el degree with
  | Ok q => (degree <= qr_degree q)%nat -> exists c', get c el degree = Ok (c', q) /\ sound c' /\ nth_error (c' el) degree = Some q /\
       forall el' d p, nth_error (c el') d = Some p -> make el' d = Ok p -> nth_error (c' el') d = Some p
  | Throw => get c el degree = Throw
  | Assert => get c el degree = Assert
  end.
Proof.
  intros c el degree S0. unfold get, Get. fold (resized c el degree). pose proof (resized_long c el degree) as Hl.
  destruct (nth_error (resized c el degree) degree) as [p|] eqn:Ep; [|apply nth_error_None in Ep; lia].
  assert (Ee0 : entry (resized c el degree) degree = Ok p) by (unfold entry; rewrite Ep; reflexivity). rewrite !Ee0. cbn [bind]. cbv zeta.
  assert (Sp : NumPoints p = 0%nat \/ make el degree = Ok p).
  { destruct (resized_nth _ _ _ _ _ Ep) as [H| ->]; [apply (S0 _ _ _ H)|left; reflexivity]. }
  assert (Sr : forall d q, nth_error (resized c el degree) d = Some q -> NumPoints q = 0%nat \/ make el d = Ok q).
  { intros d q H. destruct (resized_nth _ _ _ _ _ H) as [H'| ->]; [apply (S0 _ _ _ H')|left; reflexivity]. }
  change (make_QuadRule leg jac hard) with make. destruct (Nat.eqb_spec (NumPoints p) 0) as [Hz|Hz].
  - destruct (make el degree) as [q| |] eqn:Em; cbn [bind]; try reflexivity.
    intros Hd. unfold entry. rewrite nth_error_upd_eq by exact Hl. cbn [bind].
    destruct (Nat.leb_spec degree (qr_degree q)); [|lia]. cbn [lf_assert bind]. eexists. split; [reflexivity|]. split; [|split].
    + apply sound_set; [exact S0|]. intros d q' H'. destruct (Nat.eq_dec degree d) as [<-|Hne].
      * rewrite nth_error_upd_eq in H' by exact Hl. injection H' as <-. right. exact Em.
      * rewrite nth_error_upd_neq in H' by exact Hne. apply Sr, H'.
    + unfold set_cache. rewrite refel_eqb_refl'. apply nth_error_upd_eq, Hl.
    + intros el' d p' H' M'. unfold set_cache. destruct (refel_eqb el el') eqn:Ee; [|exact H']. apply refel_eqb_spec in Ee. subst el'.
      destruct (Nat.eq_dec degree d) as [<-|Hne]; [rewrite nth_error_upd_eq by exact Hl; congruence|].
      rewrite nth_error_upd_neq by exact Hne. apply resized_keeps, H'.
  - destruct Sp as [Sp|Sp]; [contradiction|]. rewrite Sp. intros Hd. cbn [bind]. rewrite ?Ee0. cbn [bind].
    destruct (Nat.leb_spec degree (qr_degree p)); [|lia]. cbn [lf_assert bind]. eexists. split; [reflexivity|]. split; [|split].
    + apply sound_set; [exact S0|exact Sr].
    + unfold set_cache. rewrite refel_eqb_refl'. exact Ep.
    + intros el' d p' H' _. unfold set_cache. destruct (refel_eqb el el') eqn:Ee; [|exact H']. apply refel_eqb_spec in Ee. subst el'.
      apply resized_keeps, H'.
Qed.
Lemma get_ok : forall c c' el degree q, sound c -> get c el degree = Ok (c', q) ->
  make el degree = Ok q /\ sound c' /\ nth_error (c' el) degree = Some q /\
  forall el' d p, nth_error (c el') d = Some p -> make el' d = Ok p -> nth_error (c' el') d = Some p.
Proof.
  intros c c' el degree q S0 H. pose proof (get_spec c el degree S0) as G. destruct (make el degree) as [p| |] eqn:Em; try congruence.
  destruct (le_lt_dec degree (qr_degree p)) as [Hd|Hd].
  - destruct (G Hd) as (c1 & E & S1 & N1 & K1). assert (c1 = c' /\ p = q) by (split; congruence). destruct H0. subst. auto.
  - exfalso. unfold get, Get in H. fold (resized c el degree) in H. cbv zeta in H.
    apply bind_ok in H. destruct H as (x & Ex & H). apply bind_ok in H. destruct H as (v' & Ev & H).
    apply bind_ok in H. destruct H as (y & Ey & H). apply bind_ok in H. destruct H as (u & Eu & H). 
    apply lf_assert_ok in Eu. apply Nat.leb_le in Eu.
    unfold entry in Ex. destruct (nth_error (resized c el degree) degree) as [p'|] eqn:Ep; [|discriminate]. injection Ex as <-.
    change (make_QuadRule leg jac hard) with make in Ev. destruct (Nat.eqb_spec (NumPoints p') 0) as [Hz|Hz].
    + rewrite Em in Ev. cbn [bind] in Ev. injection Ev as <-. unfold entry in Ey. rewrite nth_error_upd_eq in Ey by apply resized_long.
      injection Ey as <-. lia.
    + injection Ev as <-. unfold entry in Ey. rewrite Ep in Ey. injection Ey as <-.
      destruct (resized_nth _ _ _ _ _ Ep) as [H'| ->]; [|cbn in Hz; lia]. destruct (S0 _ _ _ H') as [|M]; [contradiction|]. rewrite Em in M. injection M as <-. lia.
Qed.
Lemma calls_sound : forall c c', calls leg jac hard c c' -> sound c -> sound c' /\
  forall el d p, nth_error (c el) d = Some p -> make el d = Ok p -> nth_error (c' el) d = Some p.
Proof.
  intros c c' H S0. induction H as [c|c c' c'' el degree q H IH G|c c' el degree H IH F].
  - auto.
  - destruct (IH S0) as (S1 & K1). destruct (get_ok c' c'' el degree q S1 G) as (_ & S2 & _ & K2). split; [exact S2|]. intros; apply K2; auto.
  - destruct (IH S0) as (S1 & K1). split.
    + unfold after_failure. fold (resized c' el degree). apply sound_set; [exact S1|]. intros d q E. destruct (resized_nth _ _ _ _ _ E) as [E'| ->]; [apply (S1 _ _ _ E')|left; reflexivity].
    + intros el' d p E M. unfold after_failure. fold (resized c' el degree). unfold set_cache. destruct (refel_eqb el el') eqn:Ee; [|apply K1; assumption].
      apply refel_eqb_spec in Ee. subst el'. apply resized_keeps, K1; assumption.
Qed.
Lemma sound_empty : sound empty_cache.
Proof. intros el d q H. destruct d; discriminate H. Qed.
Lemma cache_transparent : forall c el degree, calls leg jac hard empty_cache c ->
  match make el degree with
  | Ok q => (degree <= qr_degree q)%nat -> exists c', get c el degree = Ok (c', q)
  | Throw => get c el degree = Throw
  | Assert => get c el degree = Assert
  end.
Proof.
  intros c el degree H. destruct (calls_sound _ _ H sound_empty) as (S1 & _). pose proof (get_spec c el degree S1) as G.
  destruct (make el degree) as [q| |]; auto. intros Hd. destruct (G Hd) as (c' & E & _). exists c'. exact E.
Qed.
Lemma cache_keeps : forall c c' c'' el degree q, calls leg jac hard empty_cache c -> get c el degree = Ok (c', q) ->
  calls leg jac hard c' c'' -> stored c'' el degree = Some q.
Proof.
  intros c c' c'' el degree q H G H'. destruct (calls_sound _ _ H sound_empty) as (S1 & _).
  destruct (get_ok c c' el degree q S1 G) as (M & S2 & N & _). destruct (calls_sound _ _ H' S2) as (_ & K). apply K; assumption.
Qed.
End Cache.
