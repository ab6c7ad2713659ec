(** Proofs for C71: the loops that fill the arrays. *)
From Coq Require Import Reals String List Arith Bool Lia Lra.
Import ListNotations.
From Verif Require Import Base MeshModel MeshView DofModel DofSpec AssembleModel GeoModel GeoSpec FeModel FeSpec FeToolsModel TransferSpec VtkModel VtkSpec VtkProofs.

Lemma set_block_ok : forall A pos (cols dst : list A), pos + length cols <= length dst -> exists r, set_block pos cols dst = Ok r /\ length r = length dst /\
  (forall k, k < length cols -> nth_error r (pos + k) = nth_error cols k) /\
  (forall p, p < pos \/ pos + length cols <= p -> nth_error r p = nth_error dst p).
Proof.
  intros A pos cols dst H. unfold set_block. rewrite (proj2 (Nat.leb_le _ _) H). cbn [lf_assert bind]. eexists. split; [reflexivity|].
  assert (LF : length (firstn pos dst) = pos) by (rewrite firstn_length; lia).
  split; [rewrite !app_length, LF, skipn_length; lia|]. split.
  - intros k Hk. rewrite nth_error_app2 by lia. rewrite nth_error_app1 by lia. f_equal. lia.
  - intros p [Hp|Hp].
    + rewrite nth_error_app1 by lia. rewrite <- (firstn_skipn pos dst) at 2. rewrite nth_error_app1 by lia. reflexivity.
    + rewrite nth_error_app2 by lia. rewrite nth_error_app2 by lia. rewrite LF. rewrite <- (firstn_skipn (pos + length cols) dst) at 2.
      rewrite nth_error_app2 by (rewrite firstn_length; lia). f_equal. rewrite firstn_length. lia.
Qed.
Lemma node_loop_ok : forall A (val : ent -> res A) es data, (forall e, In e es -> exists v, val e = Ok v) -> (forall e, In e es -> ent_index e < length data) -> NoDup (map ent_index es) ->
  exists r, node_loop val es data = Ok r /\ length r = length data /\ (forall e, In e es -> exists v, val e = Ok v /\ nth_error r (ent_index e) = Some (Some v)) /\
    (forall p, ~ In p (map ent_index es) -> nth_error r p = nth_error data p).
Proof.
  induction es as [|e es IH]; intros data HV HI ND; cbn [node_loop].
  - exists data. split; auto. split; auto. split; [intros e []|auto].
  - destruct (HV e (or_introl eq_refl)) as (v & Ev). rewrite Ev. cbn [bind]. rewrite (proj2 (Nat.ltb_lt _ _) (HI e (or_introl eq_refl))). cbn [lf_assert bind].
    cbn [map] in ND. inversion ND as [|x l NI ND' Q1]; subst.
    destruct (IH (upd (ent_index e) (Some v) data)) as (r & Er & Lr & R1 & R2).
    { intros e' H. apply HV. right; exact H. } { intros e' H. rewrite upd_length. apply HI. right; exact H. } { exact ND'. }
    exists r. rewrite upd_length in Lr. split; [exact Er|]. split; [exact Lr|]. split.
    + intros e' [<-|H]; [|auto]. exists v. split; auto. rewrite R2 by exact NI. apply nth_error_upd_eq. apply HI. left; reflexivity.
    + intros p Hp. cbn [map In] in Hp. rewrite R2 by tauto. apply nth_error_upd_neq. tauto.
Qed.
Lemma traverse_ok : forall A B (f : A -> res B) l, (forall a, In a l -> exists b, f a = Ok b) -> exists r, traverse f l = Ok r /\ length r = length l /\
  forall k a, nth_error l k = Some a -> exists b, f a = Ok b /\ nth_error r k = Some b.
Proof.
  induction l as [|a l IH]; intros H; cbn [traverse].
  - exists []. split; auto. split; auto. intros [|k] a E; discriminate.
  - destruct (H a (or_introl eq_refl)) as (b & Eb). destruct IH as (r & Er & Lr & R); [intros; apply H; right; auto|]. rewrite Eb, Er. cbn [bind].
    exists (b :: r). split; auto. split; [cbn; lia|]. intros [|k] a' E; cbn in E |- *; [injection E as <-; eauto|eauto].
Qed.

Section Loops.
Variable m : mesh.
Variable n : nat.
Hypothesis N2 : 2 <= n.
Definition share (e : ent) : nat := NumAuxNodes (ent_type m e) n.
Definition total (es : list ent) : nat := list_sum (map share es).
Lemma total_app : forall a b, total (a ++ b) = total a + total b.
Proof. intros. unfold total. rewrite map_app, list_sum_app. reflexivity. Qed.
Definition skip (e : ent) : bool := refel_eqb (ent_type m e) kTria && (n <? 3).
Lemma skip_share : forall e, skip e = true -> share e = 0.
Proof.
  intros e H. unfold skip in H. apply andb_true_iff in H. destruct H as [H H3]. apply Nat.ltb_lt in H3. assert (n = 2) by lia.
  unfold share. destruct (ent_type m e); try discriminate. rewrite H0. reflexivity.
Qed.
Lemma aux_length : forall e, ent_type m e <> kPoint -> exists l, aux_nodes (ent_type m e) n = Ok l /\ length l = share e.
Proof.
  intros e H. unfold share. destruct (ent_type m e); [tauto| | |]; cbn [aux_nodes].
  - rewrite aux_segment by exact N2. eexists. split; [reflexivity|]. rewrite map_length, seq_length. reflexivity.
  - apply tria_length. lia.
  - eexists. split; [reflexivity|]. apply quad_length.
Qed.
(** What is stored for the entities [es] from position [io] on. *)
Definition stored {A} (val : ent -> list R -> res A) (es : list ent) (io : nat) (r : list (option A)) : Prop :=
  forall a e b k l x, es = a ++ e :: b -> aux_nodes (ent_type m e) n = Ok l -> nth_error l k = Some x ->
    exists v, val e x = Ok v /\ nth_error r (io + total a + k) = Some (Some v).

Lemma aux_loop_ok : forall geom d cast es io off points,
  (forall e, In e es -> ent_type m e <> kPoint /\ ent_index e < length off) -> NoDup (map ent_index es) ->
  (forall e l x, In e es -> aux_nodes (ent_type m e) n = Ok l -> In x l -> exists v, point3 geom d cast e x = Ok v) ->
  io + total es <= length points ->
  exists off' r, aux_loop m geom d cast n es io off points = Ok (io + total es, off', r) /\ length r = length points /\ length off' = length off /\
    stored (point3 geom d cast) es io r /\ (forall p, p < io \/ io + total es <= p -> nth_error r p = nth_error points p) /\
    (forall i, ~ In i (map ent_index es) -> nth_error off' i = nth_error off i) /\
    (forall a e b, es = a ++ e :: b -> skip e = false -> nth_error off' (ent_index e) = Some (io + total a)).
Proof.
  intros geom d cast. induction es as [|e es IH]; intros io off points HE ND HV HL; cbn [aux_loop].
  - exists off, points. unfold total. cbn. rewrite Nat.add_0_r. split; auto. split; auto. split; auto. split; [intros a e b k l x X; destruct a; discriminate|].
    split; auto. split; auto. intros a e b X; destruct a; discriminate.
  - cbn [map] in ND. inversion ND as [|x0 l0 NI ND' Q1]; subst. destruct (HE e (or_introl eq_refl)) as [NP IE].
    assert (TE : total (e :: es) = share e + total es) by reflexivity.
    fold (skip e). destruct (skip e) eqn:SK.
    + pose proof (skip_share e SK) as Z. assert (TZ : total (e :: es) = total es) by lia. rewrite TZ in *.
      destruct (IH io off points) as (off' & r & E & L1 & L2 & ST & OU & O1 & O2); auto.
      { intros; apply HE; right; auto. } { intros; eapply HV; eauto; right; auto. }
      exists off', r. split; auto. split; auto. split; auto. split; [|split; auto; split].
      * intros a e' b k l x X AL NX. destruct a as [|a0 a]; cbn in X; injection X as <- X.
        -- destruct (aux_length e NP) as (l' & A1 & A2). rewrite A1 in AL. injection AL as <-. apply nth_error_In in NX as NX'. assert (k < length l') by (apply nth_error_Some; congruence). lia.
        -- replace (total (e :: a)) with (total a) by (change (total (e :: a)) with (share e + total a); lia). eapply ST; eauto.
      * intros i H. cbn [map In] in H. apply O1. tauto.
      * intros a e' b X SK'. destruct a as [|a0 a]; cbn in X; injection X as <- X; [congruence|].
        replace (total (e :: a)) with (total a) by (change (total (e :: a)) with (share e + total a); lia). eapply O2; eauto.
    + destruct (aux_length e NP) as (l & A1 & A2). rewrite A1. cbn [bind].
      destruct (traverse_ok _ _ (point3 geom d cast e) l) as (vs & TV & LV & VV). { intros x Hx. eapply HV; eauto. left; reflexivity. }
      rewrite TV. cbn [bind]. rewrite LV, A2. fold (share e). rewrite Nat.eqb_refl. cbn [lf_assert bind].
      destruct (set_block_ok _ io (map Some vs) points) as (p1 & S1 & SL & SI & SO). { rewrite map_length, LV, A2. lia. }
      rewrite S1. cbn [bind]. rewrite (proj2 (Nat.ltb_lt _ _) IE). cbn [lf_assert bind]. rewrite map_length, LV, A2 in SI, SO.
      destruct (IH (io + share e) (upd (ent_index e) io off) p1) as (off' & r & E & L1 & L2 & ST & OU & O1 & O2); auto.
      { intros e' H. rewrite upd_length. apply HE; right; auto. } { intros; eapply HV; eauto; right; auto. } { rewrite SL. lia. }
      exists off', r. rewrite TE, Nat.add_assoc. split; auto. split; [lia|]. split; [rewrite L2; apply upd_length|]. split; [|split; [|split]].
      * intros a e' b k l' x X AL NX. destruct a as [|a0 a]; cbn in X; injection X as <- X.
        -- rewrite A1 in AL. injection AL as <-. destruct (VV _ _ NX) as (v & V1 & V2). exists v. split; auto. cbn [total list_sum map]. unfold total. cbn [map list_sum fold_right]. rewrite Nat.add_0_r.
           assert (k < length l) by (apply nth_error_Some; congruence). rewrite OU by lia. rewrite SI by lia. apply map_nth_error. exact V2.
        -- change (total (e :: a)) with (share e + total a). rewrite Nat.add_assoc. eapply ST; eauto.
      * intros p Hp. rewrite OU by lia. apply SO. lia.
      * intros i H. cbn [map In] in H. rewrite O1 by tauto. apply nth_error_upd_neq. tauto.
      * intros a e' b X SK'. destruct a as [|a0 a]; cbn in X; injection X as <- X.
        -- rewrite O1 by exact NI. rewrite nth_error_upd_eq by exact IE. f_equal. unfold total. cbn. lia.
        -- change (total (e :: a)) with (share e + total a). rewrite Nat.add_assoc. eapply O2; eauto.
Qed.
Lemma mf_loop_ok : forall A (mf : ent -> list R -> res A) es io off data,
  (forall e, In e es -> ent_type m e <> kPoint) ->
  (forall a e b, es = a ++ e :: b -> skip e = false -> nth_error off (ent_index e) = Some (io + total a)) ->
  (forall e l x, In e es -> aux_nodes (ent_type m e) n = Ok l -> In x l -> exists v, mf e x = Ok v) ->
  io + total es <= length data ->
  exists r, mf_loop m n off mf es data = Ok r /\ length r = length data /\
    stored mf es io r /\ (forall p, p < io \/ io + total es <= p -> nth_error r p = nth_error data p).
Proof.
  intros A mf. induction es as [|e es IH]; intros io off data HE HO HV HL; cbn [mf_loop].
  - exists data. split; auto. split; auto. split; [intros a e b k l x X; destruct a; discriminate|auto].
  - assert (NP := HE e (or_introl eq_refl)). assert (TE : total (e :: es) = share e + total es) by reflexivity.
    assert (SE : (n =? 1) || (n =? 2) && refel_eqb (ent_type m e) kTria = skip e).
    { unfold skip. rewrite (proj2 (Nat.eqb_neq n 1)) by lia. cbn [orb]. rewrite andb_comm. f_equal. destruct (n =? 2) eqn:E2.
      - apply Nat.eqb_eq in E2. rewrite E2. reflexivity.
      - apply Nat.eqb_neq in E2. symmetry. apply Nat.ltb_ge. lia. }
    rewrite SE. destruct (skip e) eqn:SK.
    + pose proof (skip_share e SK) as Z. assert (TZ : total (e :: es) = total es) by lia. rewrite TZ in *.
      destruct (IH io off data) as (r & E & L1 & ST & OU); auto.
      { intros; apply HE; right; auto. }
      { intros a e' b X SK'. rewrite (HO (e :: a) e' b) by (auto; cbn; f_equal; exact X). f_equal. change (total (e :: a)) with (share e + total a). lia. }
      { intros; eapply HV; eauto; right; auto. }
      exists r. split; auto. split; auto. split; auto.
      intros a e' b k l x X AL NX. destruct a as [|a0 a]; cbn in X; injection X as <- X.
      * destruct (aux_length e NP) as (l' & A1 & A2). rewrite A1 in AL. injection AL as <-. assert (k < length l') by (apply nth_error_Some; congruence). lia.
      * replace (total (e :: a)) with (total a) by (change (total (e :: a)) with (share e + total a); lia). eapply ST; eauto.
    + destruct (aux_length e NP) as (l & A1 & A2). rewrite A1. cbn [bind].
      destruct (traverse_ok _ _ (mf e) l) as (vs & TV & LV & VV). { intros x Hx. eapply HV; eauto. left; reflexivity. }
      rewrite TV. cbn [bind]. rewrite (HO [] e es eq_refl SK). change (total []) with 0. rewrite Nat.add_0_r.
      destruct (set_block_ok _ io (map Some vs) data) as (p1 & S1 & SL & SI & SO). { rewrite map_length, LV, A2. lia. }
      rewrite S1. cbn [bind]. rewrite map_length, LV, A2 in SI, SO.
      destruct (IH (io + share e) off p1) as (r & E & L1 & ST & OU); auto.
      { intros; apply HE; right; auto. }
      { intros a e' b X SK'. rewrite (HO (e :: a) e' b) by (auto; cbn; f_equal; exact X). f_equal. change (total (e :: a)) with (share e + total a). lia. }
      { intros; eapply HV; eauto; right; auto. } { rewrite SL. lia. }
      exists r. split; auto. split; [lia|]. split.
      * intros a e' b k l' x X AL NX. destruct a as [|a0 a]; cbn in X; injection X as <- X.
        -- rewrite A1 in AL. injection AL as <-. destruct (VV _ _ NX) as (v & V1 & V2). exists v. split; auto. change (total []) with 0. rewrite Nat.add_0_r.
           assert (k < length l) by (apply nth_error_Some; congruence). rewrite OU by lia. rewrite SI by lia. apply map_nth_error. exact V2.
        -- change (total (e :: a)) with (share e + total a). rewrite Nat.add_assoc. eapply ST; eauto.
      * intros p Hp. rewrite OU by lia. apply SO. lia.
Qed.
End Loops.
