(** Proofs for C78. *)
From Coq Require Import List Arith Lia Bool.
Import ListNotations.
From Verif Require Import Base MeshModel MeshView DofModel DofSpec TransferModel DataModel DataSpec.

Lemma handle_eq : forall e e' : handle, {e = e'} + {e <> e'}.
Proof. decide equality; [decide equality; apply Nat.eq_dec|apply Nat.eq_dec]. Qed.
Lemma contains_spec : forall m e, Contains m e = true <-> belongs m e.
Proof.
  intros m e. unfold Contains, belongs. rewrite andb_true_iff, Nat.eqb_eq, Nat.ltb_lt. destruct (h_ent e); cbn; reflexivity.
Qed.
Lemma ent_split : forall e e', ent_codim e = ent_codim e' -> ent_index e = ent_index e' -> e = e'.
Proof. intros [i|i|i] [j|j|j] H H'; cbn in *; congruence. Qed.
Lemma count_bound : forall m e, belongs m e -> ent_index (h_ent e) < mv_count (mr_mesh m) (ent_codim (h_ent e)).
Proof. intros m e (_ & V). destruct (h_ent e); exact V. Qed.

Section Data.
Variable A : Type.
Notation codim_ds := (codim_ds A).
Notation all_ds := (all_ds A).
Lemma codim_new : forall m codim (init : A), (codim <= 2 -> exists d, CodimMeshDataSet A m codim init = Ok d) /\ (2 < codim -> CodimMeshDataSet A m codim init = Throw).
Proof.
  intros m codim init. unfold CodimMeshDataSet, NumEntities. split; intros H.
  - replace (codim <=? 2) with true by (symmetry; apply Nat.leb_le; exact H). eexists. reflexivity.
  - replace (codim <=? 2) with false by (symmetry; apply Nat.leb_gt; exact H). reflexivity.
Qed.
Lemma codim_history : forall m codim (init : A) d0, CodimMeshDataSet A m codim init = Ok d0 -> forall h d, reached (cd_set A) d0 h d ->
  (forall e, cd_DefinedOn A d e = true <-> ent_codim (h_ent e) = codim /\ belongs m e) /\
  (forall e, cd_DefinedOn A d e = true -> exists x, cd_get A d e = Ok x /\ latest init e h x /\ forall y, exists d', cd_set A d e y = Ok d') /\
  (forall e, cd_DefinedOn A d e = false -> cd_get A d e = Assert /\ forall y, cd_set A d e y = Assert).
Proof.
  intros m codim init d0 E0 h d H.
  assert (I : cd_mesh A d = m /\ cd_codim A d = codim /\ length (cd_data A d) = mv_count (mr_mesh m) codim /\
    forall e, cd_DefinedOn A d e = true -> exists x, nth_error (cd_data A d) (ent_index (h_ent e)) = Some x /\ latest init e h x).
  { induction H as [|h d e x d' H (I1 & I2 & I3 & I4) E].
    - unfold CodimMeshDataSet, NumEntities in E0. destruct (codim <=? 2); [|discriminate]. cbn in E0. injection E0 as <-. cbn [cd_mesh cd_codim cd_data]. split; [reflexivity|]. split; [reflexivity|]. split; [apply repeat_length|].
      intros e De. unfold cd_DefinedOn in De. cbn [cd_mesh cd_codim] in De. apply andb_true_iff in De. destruct De as (Dc & Db). apply Nat.eqb_eq in Dc. apply contains_spec in Db. exists init. split; [|reflexivity].
      pose proof (count_bound m e Db) as Q. rewrite Dc in Q. clear -Q. revert Q. generalize (ent_index (h_ent e)), (mv_count (mr_mesh m) codim). intros i n. revert n. induction i; intros [|n] Q; cbn; try lia; [reflexivity|apply IHi; lia].
    - unfold cd_set in E. destruct (cd_DefinedOn A d e) eqn:De; [|discriminate]. cbn [lf_assert bind] in E. destruct (Nat.ltb_spec (ent_index (h_ent e)) (length (cd_data A d))) as [Lt|]; [|discriminate]. cbn in E. injection E as <-.
      cbn [cd_mesh cd_codim cd_data]. split; [exact I1|]. split; [exact I2|]. split; [rewrite upd_length; exact I3|]. intros e' De'. unfold cd_DefinedOn in De'. cbn [cd_mesh cd_codim] in De'. change (cd_DefinedOn A d e' = true) in De'.
      destruct (I4 e' De') as (y & Ey & Ly). destruct (handle_eq e' e) as [-> | N].
      + exists x. split; [apply nth_error_upd_eq; exact Lt|]. cbn. auto.
      + exists y. split; [|cbn; auto]. rewrite nth_error_upd_neq; [exact Ey|]. intros Ei. apply N.
        unfold cd_DefinedOn in De, De'. apply andb_true_iff in De, De'. destruct De as (Dc & Db), De' as (Dc' & Db'). apply Nat.eqb_eq in Dc, Dc'. apply contains_spec in Db, Db'.
        destruct Db as (B1 & _), Db' as (B1' & _). destruct e as [a b], e' as [a' b']. cbn in *. f_equal; [congruence|]. apply ent_split; congruence. }
  destruct I as (I1 & I2 & I3 & I4). split; [|split].
  - intros e. unfold cd_DefinedOn. rewrite andb_true_iff, Nat.eqb_eq, contains_spec, I1, I2. reflexivity.
  - intros e De. destruct (I4 e De) as (x & Ex & Lx). exists x. split; [unfold cd_get; rewrite De; cbn; rewrite Ex; reflexivity|]. split; [exact Lx|]. intros y. unfold cd_set. rewrite De. cbn [lf_assert bind].
    replace (ent_index (h_ent e) <? length (cd_data A d)) with true; [eexists; reflexivity|]. symmetry. apply Nat.ltb_lt. apply nth_error_Some. rewrite Ex. discriminate.
  - intros e De. unfold cd_get, cd_set. rewrite De. auto.
Qed.
Lemma all_new : forall m (init : A), exists d, AllCodimMeshDataSet A m init = Ok d.
Proof. intros. eexists. reflexivity. Qed.
Lemma all_history : forall m (init : A) d0, AllCodimMeshDataSet A m init = Ok d0 -> forall h d, reached (ad_set A) d0 h d ->
  (forall e, ad_DefinedOn A d e = true <-> belongs m e) /\
  (forall e, ad_DefinedOn A d e = true -> exists x, ad_get A d e = Ok x /\ latest init e h x /\ forall y, exists d', ad_set A d e y = Ok d') /\
  (forall e, ad_DefinedOn A d e = false -> ad_get A d e = Assert /\ forall y, ad_set A d e y = Assert).
Proof.
  intros m init d0 E0 h d H.
  assert (I : ad_mesh A d = m /\ forall e, belongs m e -> exists l x, nth_error (ad_data A d) (ent_codim (h_ent e)) = Some l /\ nth_error l (ent_index (h_ent e)) = Some x /\ latest init e h x).
  { induction H as [|h d e x d' H (I1 & I4) E].
    - unfold AllCodimMeshDataSet, NumEntities in E0. cbn [Nat.leb verify bind] in E0. injection E0 as <-. cbn [ad_mesh ad_data]. split; [reflexivity|]. intros e B. pose proof (count_bound m e B) as Q.
      exists (repeat init (mv_count (mr_mesh m) (ent_codim (h_ent e)))), init. split; [destruct (h_ent e); reflexivity|]. split; [|reflexivity].
      revert Q. generalize (ent_index (h_ent e)), (mv_count (mr_mesh m) (ent_codim (h_ent e))). clear. intros i n. revert n. induction i; intros [|n] Q; cbn; try lia; [reflexivity|apply IHi; lia].
    - unfold ad_set in E. destruct (ad_DefinedOn A d e) eqn:De; [|discriminate]. cbn [lf_assert bind] in E. destruct (nth_error (ad_data A d) (ent_codim (h_ent e))) as [l|] eqn:El; [|discriminate].
      destruct (Nat.ltb_spec (ent_index (h_ent e)) (length l)) as [Lt|]; [|discriminate]. cbn in E. injection E as <-. cbn [ad_mesh ad_data]. split; [exact I1|]. intros e' B'.
      unfold ad_DefinedOn in De. rewrite I1 in De. apply contains_spec in De. destruct (I4 e' B') as (l' & y & El' & Ey & Ly).
      assert (Lc : ent_codim (h_ent e) < length (ad_data A d)) by (apply nth_error_Some; rewrite El; discriminate).
      destruct (handle_eq e' e) as [-> | N].
      + exists (upd (ent_index (h_ent e)) x l), x. split; [apply nth_error_upd_eq; exact Lc|]. split; [apply nth_error_upd_eq; exact Lt|]. cbn. auto.
      + destruct (Nat.eq_dec (ent_codim (h_ent e)) (ent_codim (h_ent e'))) as [Ec|Nc].
        * rewrite <- Ec in El'. rewrite El in El'. injection El' as <-. exists (upd (ent_index (h_ent e)) x l), y. split; [rewrite <- Ec; apply nth_error_upd_eq; exact Lc|]. split; [|cbn; auto].
          rewrite nth_error_upd_neq; [exact Ey|]. intros Ei. apply N. destruct De as (B1 & _), B' as (B1' & _). destruct e as [a b], e' as [a' b']. cbn in *. f_equal; [congruence|]. apply ent_split; congruence.
        * exists l', y. split; [rewrite nth_error_upd_neq; assumption|]. split; [exact Ey|]. cbn. auto. }
  destruct I as (I1 & I4). assert (DD : forall e, ad_DefinedOn A d e = true <-> belongs m e) by (intros e; unfold ad_DefinedOn; rewrite contains_spec, I1; reflexivity).
  split; [exact DD|]. split.
  - intros e De. destruct (I4 e (proj1 (DD e) De)) as (l & x & El & Ex & Lx). exists x. split; [unfold ad_get; rewrite De; cbn [lf_assert bind]; rewrite El, Ex; reflexivity|]. split; [exact Lx|]. intros y. unfold ad_set. rewrite De. cbn [lf_assert bind]. rewrite El.
    replace (ent_index (h_ent e) <? length l) with true; [eexists; reflexivity|]. symmetry. apply Nat.ltb_lt. apply nth_error_Some. rewrite Ex. discriminate.
  - intros e De. unfold ad_get, ad_set. rewrite De. auto.
Qed.
End Data.
