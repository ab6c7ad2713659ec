(** The grammar of format 4.1, complete and sound, for any way to write numbers and keywords. *)
From Coq Require Import String Ascii List Arith NArith ZArith Bool Lia.
Import ListNotations.
From Verif Require Import Base MshModel MshSpec MshProofs MshProofs2.
Local Open Scope list_scope.
Local Open Scope nat_scope.

(** *** Tactics *)
Ltac crack :=
  repeat match goal with
  | H : bindf _ _ _ _ |- _ => destruct H as (? & ? & ? & -> & ? & ?)
  | H : retf _ _ _ |- _ => destruct H as [-> ->]
  | H : seqf _ _ (_, _) _ |- _ => destruct H as (? & ? & -> & ? & ?); cbn [fst snd] in *
  | H : seqf _ _ ?a _ |- _ => is_var a; destruct a
  | H : seqf _ _ (fst ?a) _ |- _ => is_var a; destruct a; cbn [fst snd] in *
  | H : between _ _ _ _ _ |- _ => destruct H as (? & ? & ? & -> & ? & ? & ?)
  end.
Ltac give_one := first [eassumption | (split; [|eassumption]; now rewrite ?Nat2N.id)].
Ltac give := cbv beta; lazymatch goal with
  | |- bindf _ _ _ (?s1 ++ ?s2) => first [exists tt, s1, s2 | eexists _, s1, s2]; split; [reflexivity|split; [give_one|give]]
  | |- retf _ _ [] => split; reflexivity
  end.
Ltac fwd := rewrite <- ?app_assoc; lazymatch goal with |- bindf _ _ _ ?s => rewrite <- (app_nil_r s) end; rewrite <- ?app_assoc; give.
Ltac take := lazymatch goal with
  | |- seqf _ _ (_, _) (?s1 ++ ?s2) => exists s1, s2; split; [reflexivity|split; [cbn [fst]; take | cbn [snd]; first [assumption | idtac]]]
  | |- _ => first [assumption | idtac] end.
Ltac bwd := rewrite ?app_nil_r, ?app_assoc; take.

Section Grammar4.
Variable D : Type.
Variables (int32 : parser Z) (size : parser N) (dbl : parser D).
Variables (open_ close_ : string -> parser unit) (zero sixteen : parser unit).
Variable st : style.
Variable x : lexis D.

(** Equivalence of the formats of the specification and those of the combinators *)
Definition countedb {A} (f : format A) : format (list A) := bindf (x_size x) (fun n => bindf (repf (N.to_nat n) f) (fun l => retf l)).
Lemma counted_iff : forall A (f : format A) l s, countedf (x_size x) f l s <-> countedb f l s.
Proof.
  intros A f l s. split.
  - intros (s1 & s2 & -> & H1 & H2). unfold countedb. fwd.
  - intro H. unfold countedb in H. crack. match goal with H : repf _ _ _ _ |- _ => destruct H as [Hl ?] end.
    rewrite app_nil_r. eexists _, _. split; [reflexivity|]. split; [|eassumption]. replace (N.of_nat (length x3)) with x0 by lia. assumption.
Qed.

Section Complete.
Variable ok : chars -> Prop.
Hypothesis Hint : reads ok ok int32 (x_int x).
Hypothesis Hsize : reads ok ok size (x_size x).
Hypothesis Hdbl : reads ok ok dbl (x_real x).
Hypothesis Hopen : forall n, reads okb ok (open_ (String "$" n)) (fun _ => x_open x (String "$" n)).
Hypothesis Hclose : forall n, reads ok okb (close_ (String "$" n)) (fun _ => x_close x (String "$" n)).
Hypothesis Hzero : reads ok ok zero (fun _ => x_zero x).
Hypothesis Hsixteen : forall s r, x_sixteen x s -> ok r -> ok (s ++ r) /\ zero (s ++ r) = Fail /\ sixteen (s ++ r) = Success tt r.

Ltac rbuild := lazymatch goal with
  | |- reads _ _ (and_then _ _) _ => eapply reads_bind; [rbuild | intro; rbuild]
  | |- reads _ _ (must _) _ => eapply reads_must; rbuild
  | |- reads _ _ (ret _) _ => eapply reads_ret
  | |- reads _ _ (repeat_ _ _) _ => eapply reads_repeat; rbuild
  | |- reads _ _ (open_ _) _ => apply Hopen
  | |- reads _ _ (close_ _) _ => apply Hclose
  | |- reads _ _ int32 _ => exact Hint
  | |- reads _ _ size _ => exact Hsize
  | |- reads _ _ dbl _ => exact Hdbl
  | |- _ => eassumption
  end.
Lemma r_counted : forall A (p : parser A) f, reads ok ok p f -> reads ok ok (counted size p) (countedf (x_size x) f).
Proof.
  intros A p f H. unfold counted. eapply reads_weaken; [rbuild|]. intros a s K. apply counted_iff in K. exact K.
Qed.
Lemma r_vec : reads ok ok (vec3_ D dbl) (vecf D x).
Proof. unfold vec3_, vecf. eapply reads_weaken; [rbuild|]. intros a s K. crack. fwd. Qed.
Lemma r_ints : reads ok ok (int_vec int32 size) (intsf D x).
Proof. apply r_counted. exact Hint. Qed.
Ltac rbs := lazymatch goal with
  | |- reads _ _ (and_then _ _) _ => eapply reads_bind; [rbs | intro; rbs]
  | |- reads _ _ (must _) _ => eapply reads_must; rbs
  | |- reads _ _ (repeat_ _ _) _ => eapply reads_repeat; rbs
  | |- reads _ _ (counted _ _) _ => apply r_counted; rbs
  | |- reads _ _ (vec3_ _ _) _ => exact r_vec
  | |- reads _ _ (int_vec _ _) _ => exact r_ints
  | |- _ => rbuild end.
Lemma r_point_entity : reads ok ok (point_entity_ D int32 size dbl) (point_entityf D x).
Proof. unfold point_entity_, point_entityf. eapply reads_weaken; [rbs|]. intros a s K. crack. fwd. Qed.
Lemma r_entity : reads ok ok (entity_ D int32 size dbl) (entityf D x).
Proof. unfold entity_, entityf. eapply reads_weaken; [rbs|]. intros a s K. crack. fwd. Qed.
Lemma r_partitioned_point : reads ok ok (partitioned_point_entity_ D int32 size dbl) (partitioned_pointf D x).
Proof. unfold partitioned_point_entity_, partitioned_pointf. eapply reads_weaken; [rbs|]. intros a s K. crack. fwd. Qed.
Lemma r_partitioned_entity : reads ok ok (partitioned_entity_ D int32 size dbl) (partitioned_entityf D x).
Proof. unfold partitioned_entity_, partitioned_entityf. eapply reads_weaken; [rbs|]. intros a s K. crack. fwd. Qed.
Lemma r_ghost_entities : reads ok ok (ghost_entities_ int32 size) (countedf (x_size x) (x_int x <*> x_int x)).
Proof. unfold ghost_entities_. apply r_counted. eapply reads_weaken; [rbs|]. intros a s K. crack. fwd. Qed.
Ltac rbt := lazymatch goal with
  | |- reads _ _ (and_then _ _) _ => eapply reads_bind; [rbt | intro; rbt]
  | |- reads _ _ (must _) _ => eapply reads_must; rbt
  | |- reads _ _ (repeat_ _ _) _ => eapply reads_repeat; rbt
  | |- reads _ _ (point_entity_ _ _ _ _) _ => exact r_point_entity
  | |- reads _ _ (entity_ _ _ _ _) _ => exact r_entity
  | |- reads _ _ (partitioned_point_entity_ _ _ _ _) _ => exact r_partitioned_point
  | |- reads _ _ (partitioned_entity_ _ _ _ _) _ => exact r_partitioned_entity
  | |- reads _ _ (ghost_entities_ _ _) _ => exact r_ghost_entities
  | |- _ => rbs end.
Lemma r_entities : reads okb okb (entities_ D int32 size dbl open_ close_) (entitiesf D x).
Proof.
  unfold entities_, entitiesf. eapply reads_weaken; [rbt|]. intros [[[p q] r] t] s K. crack.
  match goal with H : fourf _ _ _ _ _ _ |- _ => destruct H as (? & ? & ? & ? & ? & ? & ? & ? & -> & ? & ? & ? & ? & ? & ? & ? & ?) end. fwd.
Qed.
Lemma r_partitioned : reads okb okb (partitioned_entities_ D int32 size dbl open_ close_) (partitionedf D x).
Proof.
  unfold partitioned_entities_, partitionedf. eapply reads_weaken; [rbt|]. intros [[n g] [[[p q] r] t]] s K. crack.
  match goal with H : fourf _ _ _ _ _ _ |- _ => destruct H as (? & ? & ? & ? & ? & ? & ? & ? & -> & ? & ? & ? & ? & ? & ? & ? & ?) end. fwd.
Qed.
Lemma r_node_block : reads ok ok (node_block_ D int32 size dbl) (node_blockf D x).
Proof.
  unfold node_block_, node_blockf. eapply reads_weaken; [rbt|]. intros [[[d t] p] l] s (z & s1 & s2 & s3 & s4 & s5 & s6 & -> & H1 & H2 & H3 & Hp & H4 & H5 & H6).
  rewrite <- (app_nil_r s6). cbv beta.
  eexists _, s1, _. split; [reflexivity|]. split; [eassumption|]. eexists _, s2, _. split; [reflexivity|]. split; [eassumption|].
  eexists _, s3, _. split; [reflexivity|]. split; [eassumption|]. eexists _, s4, _. split; [reflexivity|]. split; [eassumption|].
  eexists _, s5, _. split; [reflexivity|]. split; [split; [|eassumption]; now rewrite map_length, Nat2N.id|].
  eexists _, s6, []. split; [reflexivity|]. split; [split; [|eassumption]; now rewrite map_length, Nat2N.id|].
  split; [|reflexivity]. f_equal.
  - f_equal. destruct (Z.eqb_spec z 0) as [E|E]; destruct p; cbn; try reflexivity; destruct Hp as [P1 P2]; [now elim (P1 eq_refl)|now rewrite P2].
  - clear. induction l as [|[a b] l IH]; [reflexivity|]. cbn. now rewrite <- IH.
Qed.
Lemma r_nodes : reads okb okb (nodes_ D int32 size dbl open_ close_) (nodesf D x).
Proof.
  unfold nodes_, nodesf. eapply reads_weaken.
  { eapply reads_bind; [rbs|intro]. eapply reads_bind; [rbs|intro]. eapply reads_bind; [rbs|intro]. eapply reads_bind; [rbs|intro]. eapply reads_bind; [rbs|intro].
    eapply reads_bind; [eapply reads_must, reads_repeat; exact r_node_block|intro]. rbs. }
  intros [[[n lo] hi] l] s K. crack.
  match goal with H : blocksf _ _ _ _ _ |- _ => destruct H as (? & ? & ? & ? & ? & -> & ? & ? & ? & ? & ?) end. fwd.
Qed.
Definition nodes_of_type (ty : Z) : parser (list N) := match num_nodes_of ty with Some n => repeat_ n size | None => fun _ => Exception end.
Definition typef (ty : Z) : format (list N) := fun l s => In (ty, length l) node_counts /\ listf (x_size x) l s.
Lemma r_type : forall ty, reads ok ok (nodes_of_type ty) (typef ty).
Proof.
  intros ty l s r [Hin Hl] Hr. unfold nodes_of_type. apply num_nodes_counts in Hin. rewrite Hin. apply (reads_repeat _ _ _ _ _ Hsize); [|exact Hr]. split; [reflexivity|exact Hl].
Qed.
Lemma listf_imp : forall A (f g : format A) l s, (forall a u, In a l -> f a u -> g a u) -> listf f l s -> listf g l s.
Proof.
  intros A f g l s H (ss & H1 & ->). exists ss. split; [|reflexivity]. revert H. induction H1 as [|a u l ss Hau Hl IH]; intro H; constructor.
  - apply H; [now left|exact Hau].
  - apply IH. intros b v Hb. apply H. now right.
Qed.
Lemma r_element_block : reads ok ok (element_block_ int32 size) (element_blockf D x).
Proof.
  unfold element_block_. eapply reads_weaken.
  { eapply reads_bind; [rbs|intro]. eapply reads_bind; [rbs|intro]. eapply reads_bind; [rbs|intro ty].
    eapply reads_bind; [|intro; rbs]. eapply reads_must, r_counted. eapply reads_bind; [rbs|intro]. eapply reads_bind; [|intro; rbs].
    eapply reads_must. exact (r_type ty). }
  intros [[[d t] ty] l] s [K Hall]. crack.
  lazymatch goal with |- bindf _ _ _ ?u => rewrite <- (app_nil_r u) end. rewrite <- ?app_assoc.
  eexists _, _, _. split; [reflexivity|]. split; [eassumption|]. eexists _, _, _. split; [reflexivity|]. split; [eassumption|].
  eexists _, _, _. split; [reflexivity|]. split; [eassumption|]. eexists l, _, []. split; [reflexivity|]. split; [|split; reflexivity].
  match goal with H : countedf _ _ _ _ |- _ => destruct H as (u1 & u2 & -> & Hs & Hl) end. exists u1, u2. split; [reflexivity|]. split; [exact Hs|].
  revert Hl. apply listf_imp. intros [e ns] u Hin Hu. crack. rewrite Forall_forall in Hall. specialize (Hall _ Hin). cbn [snd] in Hall.
  lazymatch goal with |- bindf _ _ _ ?u => rewrite <- (app_nil_r u) end. rewrite <- ?app_assoc.
  eexists _, _, _. split; [reflexivity|]. split; [eassumption|]. eexists _, _, []. split; [reflexivity|]. split; [split; [exact Hall|eassumption]|]. split; reflexivity.
Qed.
Lemma r_elements : reads okb okb (elements_ int32 size open_ close_) (elementsf D x).
Proof.
  unfold elements_, elementsf. eapply reads_weaken.
  { eapply reads_bind; [rbs|intro]. eapply reads_bind; [rbs|intro]. eapply reads_bind; [rbs|intro]. eapply reads_bind; [rbs|intro]. eapply reads_bind; [rbs|intro].
    eapply reads_bind; [eapply reads_must, reads_repeat; exact r_element_block|intro]. rbs. }
  intros [[[n lo] hi] l] s K. crack.
  match goal with H : blocksf _ _ _ _ _ |- _ => destruct H as (? & ? & ? & ? & ? & -> & ? & ? & ? & ? & ?) end. fwd.
Qed.
(** Affine transformations before they are transposed *)
Definition rawf : format (option (list D)) := fun a s => match a with
  | None => x_zero x s
  | Some l => exists s1 s2, s = s1 ++ s2 /\ x_sixteen x s1 /\ length l = 16 /\ listf (x_real x) l s2 end.
Lemma r_matrix : reads ok ok (matrix4d_ D dbl) (fun l s => length l = 16 /\ listf (x_real x) l s).
Proof.
  unfold matrix4d_. eapply reads_weaken.
  { eapply reads_bind; [rbs|intro]. eapply reads_bind; [eapply reads_must, reads_repeat, reads_must; exact Hdbl|intro]. rbs. }
  intros l s [Hl Hs]. destruct l as [|a l]; [discriminate Hl|]. apply listf_cons in Hs. destruct Hs as (s1 & s2 & -> & H1 & H2).
  rewrite <- (app_nil_r s2). eexists _, s1, _. split; [reflexivity|]. split; [eassumption|]. eexists _, s2, []. split; [reflexivity|]. split; [split; [|eassumption]; now injection Hl|].
  split; reflexivity.
Qed.
Lemma r_raw : reads ok ok (alt (read _ <- zero; ret None) (read _ <- sixteen; want y <- matrix4d_ D dbl; ret (Some y))) rawf.
Proof.
  intros [l|] s r H Hr; cbn [rawf] in H; unfold alt, and_then, ret.
  - destruct H as (s1 & s2 & -> & H1 & H2). rewrite <- app_assoc. destruct (r_matrix l s2 r H2 Hr) as [K1 K2]. destruct (Hsixteen s1 (s2 ++ r) H1 K1) as (K3 & K4 & K5).
    split; [exact K3|]. rewrite K4, K5. unfold must. rewrite K2. reflexivity.
  - destruct (Hzero tt s r H Hr) as [K1 K2]. split; [exact K1|]. rewrite K2. reflexivity.
Qed.
Definition rawlinkf : format (periodic_link D) := x_int x <*> x_int x <*> x_int x <*> rawf <*> countedf (x_size x) (x_size x <*> x_size x).
Lemma r_link : reads ok ok (periodic_link_ D int32 size dbl zero sixteen) rawlinkf.
Proof.
  unfold periodic_link_, rawlinkf. eapply reads_weaken.
  { eapply reads_bind; [rbs|intro]. eapply reads_bind; [rbs|intro]. eapply reads_bind; [rbs|intro]. eapply reads_bind; [eapply reads_must; exact r_raw|intro].
    eapply reads_bind; [|intro; rbs]. eapply reads_must, r_counted. eapply reads_weaken with (g := x_size x <*> x_size x); [rbs|]. intros b s K. crack. fwd. }
  intros a s K. crack. fwd.
Qed.
Lemma r_links : reads okb okb (periodic_links_ D int32 size dbl open_ close_ zero sixteen) (between (x_open x "$Periodic") (countedf (x_size x) rawlinkf) (x_close x "$EndPeriodic")).
Proof.
  unfold periodic_links_. eapply reads_weaken.
  { eapply reads_bind; [rbs|intro]. eapply reads_bind; [eapply reads_must, r_counted; exact r_link|intro]. rbs. }
  intros a s K. crack. fwd.
Qed.
Lemma r_ghosts : reads okb okb (ghost_elements_ int32 size open_ close_) (ghostsf D x).
Proof.
  unfold ghost_elements_, ghostsf. eapply reads_weaken.
  { eapply reads_bind; [rbs|intro]. eapply reads_bind; [|intro; rbs]. eapply reads_must, r_counted. eapply reads_weaken with (g := x_size x <*> x_int x <*> intsf D x).
    - unfold ghost_element_. rbs.
    - intros b s K. unfold intsf in K. crack. fwd. }
  intros a s K. crack. fwd.
Qed.
End Complete.

Section Sound.
Hypothesis Hint : sd int32 (x_int x).
Hypothesis Hsize : sd size (x_size x).
Hypothesis Hdbl : sd dbl (x_real x).
Hypothesis Hopen : forall n, sd (open_ (String "$" n)) (fun _ => x_open x (String "$" n)).
Hypothesis Hclose : forall n, sd (close_ (String "$" n)) (fun _ => x_close x (String "$" n)).
Hypothesis Hzero : sd zero (fun _ => x_zero x).
Hypothesis Hsixteen : sd sixteen (fun _ => x_sixteen x).

Lemma s_counted : forall A (p : parser A) f, sd p f -> sd (counted size p) (countedf (x_size x) f).
Proof.
  intros A p f H. unfold counted. eapply sd_weaken.
  { eapply sd_bind; [exact Hsize|intro]. eapply sd_bind; [eapply sd_must, sd_repeat; exact H|intro; apply sd_ret]. }
  intros a s K. apply counted_iff. exact K.
Qed.
Lemma s_vec : sd (vec3_ D dbl) (vecf D x).
Proof.
  unfold vec3_, vecf. eapply sd_weaken.
  { eapply sd_bind; [exact Hdbl|intro]. eapply sd_bind; [eapply sd_must; exact Hdbl|intro]. eapply sd_bind; [eapply sd_must; exact Hdbl|intro]. apply sd_ret. }
  intros a s K. crack. bwd.
Qed.
Lemma s_ints : sd (int_vec int32 size) (intsf D x).
Proof. apply s_counted. exact Hint. Qed.
Ltac sbuild := lazymatch goal with
  | |- sd (and_then _ _) _ => eapply sd_bind; [sbuild | intro; sbuild]
  | |- sd (must _) _ => eapply sd_must; sbuild
  | |- sd (ret _) _ => eapply sd_ret
  | |- sd (repeat_ _ _) _ => eapply sd_repeat; sbuild
  | |- sd (open_ _) _ => apply Hopen
  | |- sd (close_ _) _ => apply Hclose
  | |- sd int32 _ => exact Hint
  | |- sd size _ => exact Hsize
  | |- sd dbl _ => exact Hdbl
  | |- sd (counted _ _) _ => apply s_counted; sbuild
  | |- sd (vec3_ _ _) _ => exact s_vec
  | |- sd (int_vec _ _) _ => exact s_ints
  | |- _ => eassumption
  end.
Lemma s_point_entity : sd (point_entity_ D int32 size dbl) (point_entityf D x).
Proof. unfold point_entity_, point_entityf. eapply sd_weaken; [sbuild|]. intros a s K. crack. bwd. Qed.
Lemma s_entity : sd (entity_ D int32 size dbl) (entityf D x).
Proof. unfold entity_, entityf. eapply sd_weaken; [sbuild|]. intros a s K. crack. bwd. Qed.
Lemma s_partitioned_point : sd (partitioned_point_entity_ D int32 size dbl) (partitioned_pointf D x).
Proof. unfold partitioned_point_entity_, partitioned_pointf. eapply sd_weaken; [sbuild|]. intros a s K. crack. bwd. Qed.
Lemma s_partitioned_entity : sd (partitioned_entity_ D int32 size dbl) (partitioned_entityf D x).
Proof. unfold partitioned_entity_, partitioned_entityf. eapply sd_weaken; [sbuild|]. intros a s K. crack. bwd. Qed.
Lemma s_ghost_entities : sd (ghost_entities_ int32 size) (countedf (x_size x) (x_int x <*> x_int x)).
Proof. unfold ghost_entities_. apply s_counted. eapply sd_weaken; [sbuild|]. intros a s K. crack. bwd. Qed.
Ltac sbt := lazymatch goal with
  | |- sd (and_then _ _) _ => eapply sd_bind; [sbt | intro; sbt]
  | |- sd (must _) _ => eapply sd_must; sbt
  | |- sd (repeat_ _ _) _ => eapply sd_repeat; sbt
  | |- sd (point_entity_ _ _ _ _) _ => exact s_point_entity
  | |- sd (entity_ _ _ _ _) _ => exact s_entity
  | |- sd (partitioned_point_entity_ _ _ _ _) _ => exact s_partitioned_point
  | |- sd (partitioned_entity_ _ _ _ _) _ => exact s_partitioned_entity
  | |- sd (ghost_entities_ _ _) _ => exact s_ghost_entities
  | |- _ => sbuild end.
Ltac lens := repeat match goal with H : repf _ _ _ _ |- _ => destruct H as [? ?] end;
  repeat match goal with H : length ?l = N.to_nat ?n |- _ => is_var n; assert (n = N.of_nat (length l)) by lia; subst n; clear H end.
Lemma s_entities : sd (entities_ D int32 size dbl open_ close_) (entitiesf D x).
Proof.
  unfold entities_, entitiesf. eapply sd_weaken; [sbt|]. intros a s K. crack. lens. rewrite app_nil_r.
  eexists _, _, _. split; [|split; [eassumption|split; [|eassumption]]].
  2:{ eexists _, _, _, _, _, _, _, _. split; [reflexivity|]. repeat split; eassumption. }
  now rewrite <- ?app_assoc.
Qed.
Lemma s_partitioned : sd (partitioned_entities_ D int32 size dbl open_ close_) (partitionedf D x).
Proof.
  unfold partitioned_entities_, partitionedf. eapply sd_weaken; [sbt|]. intros a s K. crack. lens. rewrite app_nil_r.
  eexists _, _, _. split; [|split; [eassumption|split; [|eassumption]]].
  2:{ eexists _, _. split; [reflexivity|]. cbn [fst snd]. split.
      - eexists _, _. split; [reflexivity|]. cbn [fst snd]. split; eassumption.
      - eexists _, _, _, _, _, _, _, _. split; [reflexivity|]. repeat split; eassumption. }
  now rewrite <- ?app_assoc.
Qed.
Lemma s_node_block : sd (node_block_ D int32 size dbl) (node_blockf D x).
Proof.
  unfold node_block_, node_blockf. eapply sd_weaken; [sbt|]. intros a s K. crack.
  repeat match goal with H : repf _ _ _ _ |- _ => destruct H as [? ?] end. rewrite app_nil_r.
  match goal with E1 : length ?t = N.to_nat ?n, E2 : length ?c = N.to_nat ?n, Ht : listf (x_size x) ?t _, Hc : listf (vecf D x) ?c _ |- _ =>
    assert (F1 : map fst (combine t c) = t /\ map snd (combine t c) = c);
    [assert (E : length t = length c) by congruence; clear - E; revert c E; induction t as [|y t IH]; intros [|z c] E; try discriminate E; [split; reflexivity|];
     injection E as E; destruct (IH c E) as [I1 I2]; cbn; rewrite I1, I2; split; reflexivity|];
    assert (F2 : N.of_nat (length (combine t c)) = n) by (rewrite combine_length; lia);
    destruct F1 as [F1 F3] end.
  eexists _, _, _, _, _, _, _. split; [reflexivity|]. split; [eassumption|]. split; [eassumption|]. split; [eassumption|]. split.
  { match goal with |- negb (?z =? 0)%Z = true <-> _ => destruct (Z.eqb_spec z 0) as [E|E] end; cbn; split; congruence. }
  rewrite F2, F1, F3. split; [assumption|]. split; assumption.
Qed.
Lemma s_nodes : sd (nodes_ D int32 size dbl open_ close_) (nodesf D x).
Proof.
  unfold nodes_, nodesf. eapply sd_weaken.
  { eapply sd_bind; [sbuild|intro]. eapply sd_bind; [sbuild|intro]. eapply sd_bind; [sbuild|intro]. eapply sd_bind; [sbuild|intro]. eapply sd_bind; [sbuild|intro].
    eapply sd_bind; [eapply sd_must, sd_repeat; exact s_node_block|intro]. sbuild. }
  intros a s K. crack. lens. rewrite app_nil_r.
  eexists _, _, _. split; [|split; [eassumption|split; [|eassumption]]].
  2:{ eexists _, _, _, _, _. split; [reflexivity|]. repeat split; eassumption. }
  now rewrite <- ?app_assoc.
Qed.
Lemma s_type : forall ty, sd (nodes_of_type ty) (typef ty).
Proof.
  intros ty s l r H. unfold nodes_of_type in H. destruct (num_nodes_of ty) as [n|] eqn:E; [|discriminate H].
  apply (sd_repeat _ _ _ _ Hsize) in H. destruct H as (t & -> & <- & Hl). exists t. split; [reflexivity|]. split; [now apply num_nodes_counts|exact Hl].
Qed.
Lemma listf_forall : forall A (f g : format A) (P : A -> Prop) l s, (forall a u, f a u -> g a u /\ P a) -> listf f l s -> listf g l s /\ Forall P l.
Proof.
  intros A f g P l s H (ss & H1 & ->). assert (K : Forall2 g l ss /\ Forall P l).
  { induction H1 as [|a u l ss Hau Hl [IH1 IH2]]; [split; constructor|]. destruct (H a u Hau). split; constructor; assumption. }
  destruct K as [K1 K2]. split; [exists ss; auto|exact K2].
Qed.
Lemma s_element_block : sd (element_block_ int32 size) (element_blockf D x).
Proof.
  unfold element_block_. eapply sd_weaken.
  { eapply sd_bind; [sbuild|intro]. eapply sd_bind; [sbuild|intro]. eapply sd_bind; [sbuild|intro ty].
    eapply sd_bind; [|intro; sbuild]. eapply sd_must, s_counted. eapply sd_bind; [sbuild|intro]. eapply sd_bind; [|intro; sbuild].
    eapply sd_must. exact (s_type ty). }
  intros a s K. destruct K as (d & s1 & ? & -> & Hd & t & s2 & ? & -> & Ht & ty & s3 & ? & -> & Hty & l & s4 & ? & -> & Hl & [-> ->]).
  destruct Hl as (u1 & u2 & -> & Hs & Hl).
  eapply listf_forall with (g := x_size x <*> listf (x_size x)) (P := fun e => In (ty, length (snd e)) node_counts) in Hl.
  2:{ intros b u H. destruct H as (e & v1 & ? & -> & He & ns & v2 & ? & -> & [Hin Hls] & [-> ->]). rewrite app_nil_r.
      split; [exists v1, v2; split; [reflexivity|split; [exact He|exact Hls]]|exact Hin]. }
  destruct Hl as [Hl1 Hl2].
  split; [|exact Hl2]. rewrite app_nil_r, (app_assoc s1), (app_assoc (s1 ++ s2)). eexists _, _. split; [reflexivity|]. cbn [fst snd]. split.
  - eexists _, _. split; [reflexivity|]. cbn [fst snd]. split; [|exact Hty]. eexists _, _. split; [reflexivity|]. split; assumption.
  - exists u1, u2. auto.
Qed.
Lemma s_elements : sd (elements_ int32 size open_ close_) (elementsf D x).
Proof.
  unfold elements_, elementsf. eapply sd_weaken.
  { eapply sd_bind; [sbuild|intro]. eapply sd_bind; [sbuild|intro]. eapply sd_bind; [sbuild|intro]. eapply sd_bind; [sbuild|intro]. eapply sd_bind; [sbuild|intro].
    eapply sd_bind; [eapply sd_must, sd_repeat; exact s_element_block|intro]. sbuild. }
  intros a s K. crack. lens. rewrite app_nil_r.
  eexists _, _, _. split; [|split; [eassumption|split; [|eassumption]]].
  2:{ eexists _, _, _, _, _. split; [reflexivity|]. repeat split; eassumption. }
  now rewrite <- ?app_assoc.
Qed.
Lemma s_matrix : sd (matrix4d_ D dbl) (fun l s => length l = 16 /\ listf (x_real x) l s).
Proof.
  unfold matrix4d_. eapply sd_weaken.
  { eapply sd_bind; [sbuild|intro]. eapply sd_bind; [eapply sd_must, sd_repeat, sd_must; exact Hdbl|intro]. sbuild. }
  intros a s K. destruct K as (d & s1 & ? & -> & Hd & l & s2 & ? & -> & [Hl1 Hl2] & [-> ->]). rewrite app_nil_r. split; [cbn; congruence|].
  apply listf_cons. exists s1, s2. auto.
Qed.
Lemma s_raw : sd (alt (read _ <- zero; ret None) (read _ <- sixteen; want y <- matrix4d_ D dbl; ret (Some y))) rawf.
Proof.
  intros s a r H. unfold alt, and_then, ret in H. destruct (zero s) as [[] r0| | |] eqn:Ez; try discriminate H.
  - injection H as <- <-. exact (Hzero _ _ _ Ez).
  - destruct (sixteen s) as [[] r1| | |] eqn:E16; try discriminate H. unfold must in H. destruct (matrix4d_ D dbl r1) as [l r2| | |] eqn:Em; try discriminate H.
    injection H as <- <-. destruct (Hsixteen _ _ _ E16) as (t1 & -> & H1). destruct (s_matrix _ _ _ Em) as (t2 & -> & H2). exists (t1 ++ t2). split; [now rewrite app_assoc|].
    exists t1, t2. auto.
Qed.
Lemma s_link : sd (periodic_link_ D int32 size dbl zero sixteen) rawlinkf.
Proof.
  unfold periodic_link_, rawlinkf. eapply sd_weaken.
  { eapply sd_bind; [sbuild|intro]. eapply sd_bind; [sbuild|intro]. eapply sd_bind; [sbuild|intro]. eapply sd_bind; [eapply sd_must; exact s_raw|intro].
    eapply sd_bind; [|intro; sbuild]. eapply sd_must, s_counted. eapply sd_weaken with (g := x_size x <*> x_size x); [sbuild|]. intros b s K. crack. bwd. }
  intros a s K. crack. bwd.
Qed.
Lemma s_links : sd (periodic_links_ D int32 size dbl open_ close_ zero sixteen) (between (x_open x "$Periodic") (countedf (x_size x) rawlinkf) (x_close x "$EndPeriodic")).
Proof.
  unfold periodic_links_. eapply sd_weaken.
  { eapply sd_bind; [sbuild|intro]. eapply sd_bind; [eapply sd_must, s_counted; exact s_link|intro]. sbuild. }
  intros a s K. crack. rewrite app_nil_r. eexists _, _, _. split; [reflexivity|]. split; [eassumption|]. split; eassumption.
Qed.
Lemma s_ghosts : sd (ghost_elements_ int32 size open_ close_) (ghostsf D x).
Proof.
  unfold ghost_elements_, ghostsf. eapply sd_weaken.
  { eapply sd_bind; [sbuild|intro]. eapply sd_bind; [|intro; sbuild]. eapply sd_must, s_counted. eapply sd_weaken with (g := x_size x <*> x_int x <*> intsf D x).
    - unfold ghost_element_. sbuild.
    - intros b s K. unfold intsf. crack. bwd. }
  intros a s K. crack. rewrite app_nil_r. eexists _, _, _. split; [reflexivity|]. split; [eassumption|]. split; eassumption.
Qed.
End Sound.
End Grammar4.
