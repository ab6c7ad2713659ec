(** Proofs for C25-C27: the closure of the marking. *)
From Coq Require Import List Arith Lia Bool ZArith.
Import ListNotations.
From Verif Require Import Base MeshModel MeshView RefPatModel RefPatSpec RefineModel RefineSpec.
Local Open Scope nat_scope.

Lemma rp_eqb_eq : forall p q, rp_eqb p q = true <-> p = q.
Proof. destruct p, q; simpl; split; congruence. Qed.
Lemma rp_eqb_refl : forall p, rp_eqb p p = true.
Proof. destruct p; reflexivity. Qed.

Lemma mapM_ok : forall A B (f : A -> res B) l ys, mapM f l = Ok ys ->
  Forall2 (fun x y => f x = Ok y) l ys.
Proof.
  induction l as [|x l IH]; intros ys H; simpl in H.
  - injection H as <-. constructor.
  - inv_bind. subst ys. constructor; auto.
Qed.
Lemma mapM_total : forall A B (f : A -> res B) (g : A -> B) l, (forall x, In x l -> f x = Ok (g x)) ->
  mapM f l = Ok (map g l).
Proof.
  induction l as [|x l IH]; intros H; simpl; auto. rewrite H by (left; auto). simpl. rewrite IH; auto.
  intros; apply H; right; auto.
Qed.
Lemma get_ok : forall A (l : list A) i x, nth_error l i = Some x -> get l i = Ok x.
Proof. intros. unfold get. rewrite H. auto. Qed.

(** The flag of an edge in a vector of edge infos. *)
Definition flag (es : list eci) (e : nat) : bool :=
  match nth_error es e with Some ci => rp_eqb (ec_pat ci) rp_split | None => false end.

Lemma edge_split_flags : forall es c, (forall e, In e (cv_edges c) -> e < length es) ->
  edge_split es c = Ok (map (flag es) (cv_edges c)).
Proof.
  intros es c H. unfold edge_split. apply mapM_total. intros e He. unfold get, flag.
  destruct (nth_error es e) as [ci|] eqn:E; auto. apply nth_error_None in E. apply H in He. lia.
Qed.

Definition cflag (es : list eci) (c : cellv) (j : nat) : bool := nth j (map (flag es) (cv_edges c)) false.

Record good_es (n : nat) (es : list eci) : Prop := {
  ge_len : length es = n;
  ge_pat : forall e ci, nth_error es e = Some ci ->
     (ec_pat ci = rp_split \/ ec_pat ci = rp_copy) /\ ec_edges ci = [] /\ ec_points ci = []
}.

Lemma flag_set_split : forall e es es', set_split e es = Ok es' -> forall x,
  flag es' x = if x =? e then true else flag es x.
Proof.
  unfold set_split, get. intros e es es' H x. destruct (nth_error es e) as [ci|] eqn:E; simpl in H; [|discriminate].
  injection H as <-. assert (e < length es) by (apply nth_error_Some; congruence).
  unfold flag. destruct (x =? e) eqn:X.
  - apply Nat.eqb_eq in X as ->. rewrite nth_error_upd_eq by auto. reflexivity.
  - apply Nat.eqb_neq in X. rewrite nth_error_upd_neq by auto. reflexivity.
Qed.
Lemma set_split_good : forall n e es es', good_es n es -> set_split e es = Ok es' -> good_es n es'.
Proof.
  unfold set_split, get. intros n e es es' [L P] H. destruct (nth_error es e) as [ci|] eqn:E; simpl in H; [|discriminate].
  injection H as <-. constructor.
  - rewrite upd_length. auto.
  - intros x ci' Hx. destruct (Nat.eq_dec x e) as [->|N].
    + rewrite nth_error_upd_eq in Hx by (apply nth_error_Some; congruence). injection Hx as <-. cbn.
      destruct (P _ _ E) as (_ & ? & ?). auto.
    + rewrite nth_error_upd_neq in Hx by auto. eauto.
Qed.
Lemma set_split_total : forall e es, e < length es -> exists es', set_split e es = Ok es'.
Proof.
  intros e es H. unfold set_split, get. destruct (nth_error es e) eqn:E; simpl; eauto. apply nth_error_None in E. lia.
Qed.

(** Shape of a cell. *)
Record good_cell (n : nat) (c : cellv) : Prop := {
  gc_len : (cv_type c = kTria /\ length (cv_edges c) = 3) \/ (cv_type c = kQuad /\ length (cv_edges c) = 4);
  gc_in : forall e, In e (cv_edges c) -> e < n;
  gc_dist : NoDup (cv_edges c) \/ True
}.

Definition has_ref (c : cellv) (re : option nat) : Prop :=
  cv_type c = kTria -> exists a, re = Some a /\ a < 3.

(** Compatibility of pattern and anchor with the flags. *)
Definition fits (c : cellv) (es : list eci) (ci : cci) : Prop :=
  implemented (cv_type c) (cc_pat ci) = true /\ cc_pat ci <> rp_nil /\
  good_anchor (cv_type c) (cc_pat ci) (cc_anchor ci) /\
  (forall j, j < length (cv_edges c) ->
    (In j (split_edges (cv_type c) (cc_pat ci) (anchor_nat (cc_anchor ci))) <-> cflag es c j = true)).
Definition blank (ci : cci) : Prop := cc_cells ci = [] /\ cc_edges ci = [] /\ cc_points ci = [].
Definition anchor_in_range (c : cellv) (ci : cci) : Prop :=
  match cc_anchor ci with Some a => a < num_edges (cv_type c) | None => True end.

Lemma map_flag_3 : forall es c, length (cv_edges c) = 3 ->
  map (flag es) (cv_edges c) = [cflag es c 0; cflag es c 1; cflag es c 2].
Proof.
  intros es c H. unfold cflag. destruct (cv_edges c) as [|x [|y [|z [|]]]]; try discriminate. reflexivity.
Qed.
Lemma map_flag_4 : forall es c, length (cv_edges c) = 4 ->
  map (flag es) (cv_edges c) = [cflag es c 0; cflag es c 1; cflag es c 2; cflag es c 3].
Proof.
  intros es c H. unfold cflag. destruct (cv_edges c) as [|x [|y [|z [|w [|]]]]]; try discriminate. reflexivity.
Qed.

(** Outcome of a visit. *)
Definition visited (n : nat) (c : cellv) (re : option nat) (es es' : list eci) (ci ci' : cci) (b : bool) : Prop :=
  blank ci' /\ anchor_in_range c ci' /\ good_es n es' /\
  if b then es' = es /\ fits c es ci' /\
            (cv_type c = kTria -> forall a j, re = Some a -> j < 3 -> cflag es c j = true -> cflag es c a = true)
  else exists a j, cv_type c = kTria /\ re = Some a /\ j < 3 /\ cflag es c j = true /\
       cflag es c a = false /\ (forall x, flag es' x = if x =? nth a (cv_edges c) 0 then true else flag es x).

Ltac lt3 a H := destruct a as [|[|[|a]]]; [| | |exfalso; lia].

Lemma fits_iff_3 : forall c es ci, cv_type c = kTria -> length (cv_edges c) = 3 ->
  implemented kTria (cc_pat ci) = true -> cc_pat ci <> rp_nil -> good_anchor kTria (cc_pat ci) (cc_anchor ci) ->
  (forall j, j < 3 -> existsb (Nat.eqb j) (split_edges kTria (cc_pat ci) (anchor_nat (cc_anchor ci))) = cflag es c j) ->
  fits c es ci.
Proof.
  intros c es ci T L I N G H. unfold fits. rewrite T, L. do 3 (split; auto). intros j Hj. rewrite <- H by auto.
  rewrite existsb_exists. split.
  - intros Hin. exists j. split; auto. apply Nat.eqb_refl.
  - intros (x & Hin & E). apply Nat.eqb_eq in E as ->. auto.
Qed.
Lemma fits_iff_4 : forall c es ci, cv_type c = kQuad -> length (cv_edges c) = 4 ->
  implemented kQuad (cc_pat ci) = true -> cc_pat ci <> rp_nil -> good_anchor kQuad (cc_pat ci) (cc_anchor ci) ->
  (forall j, j < 4 -> existsb (Nat.eqb j) (split_edges kQuad (cc_pat ci) (anchor_nat (cc_anchor ci))) = cflag es c j) ->
  fits c es ci.
Proof.
  intros c es ci T L I N G H. unfold fits. rewrite T, L. do 3 (split; auto). intros j Hj. rewrite <- H by auto.
  rewrite existsb_exists. split.
  - intros Hin. exists j. split; auto. apply Nat.eqb_refl.
  - intros (x & Hin & E). apply Nat.eqb_eq in E as ->. auto.
Qed.

Lemma visit_tria_ok : forall n c a es ci, good_es n es -> good_cell n c -> blank ci ->
  cv_type c = kTria -> a < 3 ->
  exists es' ci' b, visit_tria c (Some a) (map (flag es) (cv_edges c)) es ci = Ok (es', ci', b) /\
    visited n c (Some a) es es' ci ci' b.
Proof.
  intros n c a es ci GE GC B T Ha.
  destruct (gc_len _ _ GC) as [[_ L]|[T' _]]; [|congruence].
  assert (X : exists es1, set_split (nth a (cv_edges c) 0) es = Ok es1).
  { apply set_split_total. rewrite (ge_len _ _ GE). apply (gc_in _ _ GC). apply nth_In. lia. }
  destruct X as [es1 E1]. pose proof (flag_set_split _ _ _ E1) as F1. pose proof (set_split_good _ _ _ _ GE E1) as G1.
  assert (AR : forall p, anchor_in_range c (set_pat p (Some a) ci)) by (intros; unfold anchor_in_range; rewrite T; cbn; auto).
  assert (BL : forall p, blank (set_pat p (Some a) ci)) by (intros; exact B).
  rewrite map_flag_3 by auto. unfold visit_tria.
  assert (Ea : (a <? 3) = true) by (apply Nat.ltb_lt; auto). rewrite Ea. cbn [bind verify].
  rewrite E1. clear E1.
  assert (FIT : forall p, implemented kTria p = true -> p <> rp_nil ->
     (forall j, j < 3 -> existsb (Nat.eqb j) (split_edges kTria p a) = cflag es c j) ->
     fits c es (set_pat p (Some a) ci)).
  { intros p I N H. apply fits_iff_3; auto. }
  assert (C3 : forall (P : nat -> Prop), (forall j, j < 3 -> P j) <-> (P 0 /\ P 1 /\ P 2)).
  { intros P. split; [intros H; split; [|split]; apply H; lia|]. intros (?&?&?) j Hj. lt3 j Hj; auto. }
  destruct (cflag es c 0) eqn:K0; destruct (cflag es c 1) eqn:K1; destruct (cflag es c 2) eqn:K2;
    lt3 a Ha; cbn -[split_edges set_split]; do 3 eexists; (split; [reflexivity|]);
    (split; [auto|]; split; [auto|]; split; [assumption|]); cbv beta iota.
  all: try (split; [reflexivity|]; split;
        [apply FIT; [reflexivity|discriminate|]; apply C3; rewrite K0, K1, K2; vm_compute; auto
        |intros _ a' j E; injection E as <-; intros Hj; destruct j as [|[|[|j]]]; try congruence; lia]).
  all: eexists;
       ((exists 0; split; [assumption|]; split; [reflexivity|]; split; [lia|]; split; [assumption|]; split; assumption) ||
       (exists 1; split; [assumption|]; split; [reflexivity|]; split; [lia|]; split; [assumption|]; split; assumption) ||
       (exists 2; split; [assumption|]; split; [reflexivity|]; split; [lia|]; split; [assumption|]; split; assumption)).
Qed.

Lemma visit_quad_ok : forall n c es ci, good_es n es -> good_cell n c -> blank ci -> anchor_in_range c ci ->
  cv_type c = kQuad ->
  exists ci', visit_quad (map (flag es) (cv_edges c)) ci = Ok ci' /\ blank ci' /\ anchor_in_range c ci' /\ fits c es ci'.
Proof.
  intros n c es ci GE GC B AR T.
  destruct (gc_len _ _ GC) as [[T' _]|[_ L]]; [congruence|].
  rewrite map_flag_4 by auto.
  assert (C4 : forall (P : nat -> Prop), (forall j, j < 4 -> P j) <-> (P 0 /\ P 1 /\ P 2 /\ P 3)).
  { intros P. split; [intros H; split; [|split; [|split]]; apply H; lia|].
    intros (?&?&?&?) j Hj. destruct j as [|[|[|[|j]]]]; auto; lia. }
  assert (FIT : forall p a, implemented kQuad p = true -> p <> rp_nil -> good_anchor kQuad p a ->
     (forall j, j < 4 -> existsb (Nat.eqb j) (split_edges kQuad p (anchor_nat a)) = cflag es c j) ->
     fits c es (set_pat p a ci)).
  { intros p a I N H H4. apply fits_iff_4; auto. }
  unfold anchor_in_range in *. rewrite T in *.
  destruct (cflag es c 0) eqn:K0; destruct (cflag es c 1) eqn:K1; destruct (cflag es c 2) eqn:K2;
    destruct (cflag es c 3) eqn:K3; cbn -[split_edges]; eexists; (split; [reflexivity|]);
    (split; [exact B|]); (split; [cbn; auto; lia|]);
    apply FIT; try reflexivity; try discriminate;
    try (unfold good_anchor; destruct (cc_anchor ci); cbn; auto; lia); 
    try (cbn; lia); apply C4; rewrite K0, K1, K2, K3; vm_compute; auto.
Qed.

Lemma visit_ok : forall n c re es ci, good_es n es -> good_cell n c -> blank ci -> anchor_in_range c ci -> has_ref c re ->
  exists es' ci' b, visit c re es ci = Ok (es', ci', b) /\ visited n c re es es' ci ci' b.
Proof.
  intros n c re es ci GE GC B AR HR. unfold visit.
  rewrite edge_split_flags by (rewrite (ge_len _ _ GE); apply (gc_in _ _ GC)). cbn [bind].
  destruct (gc_len _ _ GC) as [[T L]|[T L]]; rewrite T.
  - destruct (HR T) as (a & -> & Ha). eapply visit_tria_ok; eauto.
  - destruct (visit_quad_ok n c es ci GE GC B AR T) as (ci' & E & B' & AR' & F). rewrite E. cbn [bind].
    do 3 eexists. split; [reflexivity|]. split; auto. split; auto. split; auto. split; auto. split; auto.
    intros T'; congruence.
Qed.

(** * A pass over all cells *)
(** [e] has to be split because of [S]. *)
Inductive forced (cs : list cellv) (re : list (option nat)) (S : nat -> Prop) : nat -> Prop :=
| F_base : forall e, S e -> forced cs re S e
| F_step : forall i c a e r, nth_error cs i = Some c -> cv_type c = kTria -> nth_error re i = Some (Some a) ->
    nth_error (cv_edges c) a = Some r -> In e (cv_edges c) -> forced cs re S e -> forced cs re S r.

Definition count_split (es : list eci) : nat := length (filter (fun ci => rp_eqb (ec_pat ci) rp_split) es).

Lemma count_split_le : forall es, count_split es <= length es.
Proof. intros. unfold count_split. induction es; simpl; auto. destruct (rp_eqb _ _); simpl; lia. Qed.

Lemma flag_nth : forall es e, flag es e = true -> e < length es.
Proof. unfold flag. intros es e H. apply nth_error_Some. destruct (nth_error es e); congruence. Qed.
Lemma count_flags : forall es, count_split es = length (filter (flag es) (seq 0 (length es))).
Proof.
  intros es. unfold count_split.
  assert (G : forall pre es, length (filter (fun ci => rp_eqb (ec_pat ci) rp_split) es) =
     length (filter (flag (pre ++ es)) (seq (length pre) (length es)))).
  { intros pre es0. revert pre. induction es0 as [|x es0 IH]; intros pre; auto.
    cbn [filter length seq]. unfold flag at 1. rewrite nth_error_app2, Nat.sub_diag by lia. cbn [nth_error].
    specialize (IH (pre ++ [x])). rewrite <- app_assoc in IH. cbn [app] in IH. rewrite app_length in IH.
    cbn [length] in IH. rewrite Nat.add_1_r in IH. destruct (rp_eqb (ec_pat x) rp_split); cbn [length]; rewrite IH; auto. }
  apply (G [] es).
Qed.
Lemma filter_le : forall A (p q : A -> bool) l, (forall x, p x = true -> q x = true) ->
  length (filter p l) <= length (filter q l).
Proof.
  induction l as [|x l IH]; simpl; intros H; auto. specialize (IH H). destruct (p x) eqn:E.
  - rewrite H by auto. simpl. lia.
  - destruct (q x); simpl; lia.
Qed.
Lemma filter_lt : forall A (p q : A -> bool) l y, (forall x, p x = true -> q x = true) ->
  In y l -> p y = false -> q y = true -> length (filter p l) < length (filter q l).
Proof.
  induction l as [|x l IH]; simpl; intros y H Hy Hp Hq; [tauto|]. destruct Hy as [->|Hy].
  - rewrite Hp, Hq. simpl. pose proof (filter_le _ p q l H). lia.
  - specialize (IH y H Hy Hp Hq). destruct (p x) eqn:E; [rewrite H by auto|destruct (q x)]; simpl; lia.
Qed.

Record passed (n : nat) (cs : list cellv) (re : list (option nat)) (es es' : list eci) (cis cis' : list cci) (b : bool) : Prop := {
  pd_len : length cis' = length cs;
  pd_good : good_es n es';
  pd_blank : forall i c ci, nth_error cs i = Some c -> nth_error cis' i = Some ci -> blank ci /\ anchor_in_range c ci;
  pd_mono : forall e, flag es e = true -> flag es' e = true;
  pd_forced : forall e, flag es' e = true -> forced cs re (fun x => flag es x = true) e;
  pd_done : b = true -> es' = es /\
     (forall i c ci, nth_error cs i = Some c -> nth_error cis' i = Some ci -> fits c es ci) /\
     (forall i c a, nth_error cs i = Some c -> nth_error re i = Some (Some a) -> cv_type c = kTria ->
        forall j, j < 3 -> cflag es c j = true -> cflag es c a = true);
  pd_more : b = false -> exists y, flag es y = false /\ flag es' y = true
}.

Lemma forced_mono : forall cs re (S S' : nat -> Prop) e, (forall x, S x -> forced cs re S' x) -> forced cs re S e -> forced cs re S' e.
Proof. intros cs re S S' e H F. induction F; auto. eapply F_step; eauto. Qed.
Lemma forced_cons : forall c cs a re S e, forced cs re S e -> forced (c :: cs) (a :: re) S e.
Proof. intros. induction H; [constructor; auto|]. eapply (F_step _ _ _ (Datatypes.S i)); eauto. Qed.

Lemma pass_ok : forall n cs re es cis, good_es n es -> Forall (good_cell n) cs ->
  length re = length cs -> length cis = length cs ->
  (forall i c a, nth_error cs i = Some c -> nth_error re i = Some a -> has_ref c a) ->
  (forall i c ci, nth_error cs i = Some c -> nth_error cis i = Some ci -> blank ci /\ anchor_in_range c ci) ->
  exists es' cis' b, pass cs re es cis = Ok (es', cis', b) /\ passed n cs re es es' cis cis' b.
Proof.
  intros n cs. induction cs as [|c cs IH]; intros re es cis GE GC Lr Lc HR HB.
  - exists es, [], true. simpl. split; auto. constructor; auto.
    + intros [|i]; discriminate.
    + intros; constructor; auto.
    + intros _. split; auto. split; intros [|i]; discriminate.
    + discriminate.
  - destruct re as [|a re]; [discriminate|]. destruct cis as [|ci cis]; [discriminate|].
    simpl in Lr, Lc. injection Lr as Lr. injection Lc as Lc. inversion GC as [|? ? GC1 GC2]; subst.
    destruct (HB 0 c ci eq_refl eq_refl) as [B1 AR1].
    destruct (visit_ok n c a es ci GE GC1 B1 AR1 (HR 0 c a eq_refl eq_refl)) as (es1 & ci1 & b1 & E1 & V1).
    destruct V1 as (Bk1 & AR1' & G1 & V1).
    destruct (IH re es1 cis G1 GC2 Lr Lc) as (es2 & cis2 & b2 & E2 & P2).
    { intros i; apply (HR (S i)). } { intros i; apply (HB (S i)). }
    exists es2, (ci1 :: cis2), (b1 && b2). split; [simpl; rewrite E1; cbn [bind]; rewrite E2; reflexivity|].
    assert (M1 : forall e, flag es e = true -> flag es1 e = true).
    { destruct b1; [destruct V1 as [-> _]; auto|]. destruct V1 as (a' & j & _ & _ & _ & _ & _ & F).
      intros e He. rewrite F. destruct (e =? _); auto. }
    assert (F1 : forall e, flag es1 e = true -> forced (c :: cs) (a :: re) (fun x => flag es x = true) e).
    { destruct b1.
      - destruct V1 as [-> _]. intros; constructor; auto.
      - destruct V1 as (a' & j & T & -> & Hj & Fj & _ & F). intros e He. rewrite F in He.
        destruct (gc_len _ _ GC1) as [[_ Le]|[Tq _]]; [|congruence].
        destruct (e =? nth a' (cv_edges c) 0) eqn:X; [|constructor; auto].
        apply Nat.eqb_eq in X. destruct (HR 0 c _ eq_refl eq_refl T) as (a2 & E & Ha). injection E as <-.
        eapply (F_step _ _ _ 0 c a' (nth j (cv_edges c) 0)); eauto.
        + rewrite X. apply nth_error_nth'. lia.
        + apply nth_In. lia.
        + constructor. unfold cflag in Fj. rewrite (nth_indep _ false (flag es 0)) in Fj by (rewrite map_length; lia).
          rewrite map_nth in Fj. auto. }
    destruct P2 as [PL PG PB PM PF PD PE].
    constructor; auto.
    + simpl. auto.
    + intros [|i] c' ci' H1 H2; simpl in H1, H2; [injection H1 as <-; injection H2 as <-; auto|eauto].
    + intros e He. apply PF in He. eapply forced_mono; [|apply forced_cons; exact He]. auto.
    + intros Eb. apply andb_true_iff in Eb as [-> ->]. destruct V1 as (-> & FT & AD). destruct PD as (-> & FT2 & AD2); auto.
      split; auto. split.
      * intros [|i] c' ci' H1 H2; simpl in H1, H2; [injection H1 as <-; injection H2 as <-; auto|eauto].
      * intros [|i] c' a' H1 H2 T j; simpl in H1, H2; [injection H1 as <-; injection H2 as ->; apply AD; auto|eauto].
    + intros Eb. apply andb_false_iff in Eb. destruct b1.
      * destruct V1 as (-> & _). destruct Eb as [|Eb]; [discriminate|]. auto.
      * destruct V1 as (a' & j & T & -> & Hj & Fj & Fa & F). exists (nth a' (cv_edges c) 0).
        destruct (gc_len _ _ GC1) as [[_ Le]|[Tq _]]; [|congruence].
        destruct (HR 0 c _ eq_refl eq_refl T) as (a2 & E & Ha). injection E as <-.
        split.
        { unfold cflag in Fa. rewrite (nth_indep _ false (flag es 0)) in Fa by (rewrite map_length; lia).
          rewrite map_nth in Fa. auto. }
        apply PM. rewrite F, Nat.eqb_refl. auto.
Qed.

Lemma pass_more : forall n cs re es es' cis cis', good_es n es -> passed n cs re es es' cis cis' false ->
  count_split es < count_split es'.
Proof.
  intros n cs re es es' cis cis' G P. destruct (pd_more _ _ _ _ _ _ _ _ P eq_refl) as (y & Y1 & Y2).
  rewrite !count_flags. rewrite (ge_len _ _ G), (ge_len _ _ (pd_good _ _ _ _ _ _ _ _ P)).
  eapply filter_lt with (y := y); auto.
  - apply (pd_mono _ _ _ _ _ _ _ _ P).
  - apply in_seq. apply flag_nth in Y2. rewrite (ge_len _ _ (pd_good _ _ _ _ _ _ _ _ P)) in Y2. lia.
Qed.

Lemma closure_ok : forall fuel n cs re es cis, good_es n es -> Forall (good_cell n) cs ->
  length re = length cs -> length cis = length cs ->
  (forall i c a, nth_error cs i = Some c -> nth_error re i = Some a -> has_ref c a) ->
  (forall i c ci, nth_error cs i = Some c -> nth_error cis i = Some ci -> blank ci /\ anchor_in_range c ci) ->
  n - count_split es < fuel ->
  exists es' cis', closure fuel cs re es cis = Some (Ok (es', cis')) /\
    length cis' = length cs /\ good_es n es' /\
    (forall e, flag es e = true -> flag es' e = true) /\
    (forall e, flag es' e = true -> forced cs re (fun x => flag es x = true) e) /\
    (forall i c ci, nth_error cs i = Some c -> nth_error cis' i = Some ci -> blank ci /\ fits c es' ci) /\
    (forall i c a, nth_error cs i = Some c -> nth_error re i = Some (Some a) -> cv_type c = kTria ->
        forall j, j < 3 -> cflag es' c j = true -> cflag es' c a = true).
Proof.
  induction fuel as [|fuel IH]; intros n cs re es cis GE GC Lr Lc HR HB Hf; [lia|].
  destruct (pass_ok n cs re es cis GE GC Lr Lc HR HB) as (es1 & cis1 & b & E & P).
  simpl. rewrite E. destruct b.
  - pose proof (pd_done _ _ _ _ _ _ _ _ P eq_refl) as (-> & F1 & F2).
    exists es, cis1. split; auto. split; [apply (pd_len _ _ _ _ _ _ _ _ P)|]. split; auto. split; auto.
    split; [intros; constructor; auto|]. split; auto.
    intros i c ci H1 H2. split; [eapply (pd_blank _ _ _ _ _ _ _ _ P); eauto|]. eauto.
  - pose proof (pass_more _ _ _ _ _ _ _ GE P) as Mo.
    pose proof (pd_good _ _ _ _ _ _ _ _ P) as G1.
    destruct (IH n cs re es1 cis1 G1 GC Lr) as (es2 & cis2 & E2 & L2 & G2 & M2 & F2 & B2 & A2); auto.
    { apply (pd_len _ _ _ _ _ _ _ _ P). }
    { intros. eapply (pd_blank _ _ _ _ _ _ _ _ P); eauto. }
    { pose proof (count_split_le es1). rewrite (ge_len _ _ G1) in H. lia. }
    exists es2, cis2. split; auto. split; auto. split; auto. split; [intros e He; apply M2, (pd_mono _ _ _ _ _ _ _ _ P); auto|].
    split; auto. intros e He. eapply forced_mono; [|apply F2; auto]. apply (pd_forced _ _ _ _ _ _ _ _ P).
Qed.
