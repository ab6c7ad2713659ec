(** Proofs for C57 and C58. *)
From Coq Require Import Reals List Arith Lia Lra Bool.
Import ListNotations.
From Verif Require Import Base Scalars MeshModel MeshView DofModel DofSpec RefPatModel GeoModel FeModel QuadModel AssembleModel
  FeSpec HierSpec FeToolsModel FeToolsSpec ElemProofs ElemProofs2.
Local Open Scope R_scope.

(** *** set_all *)
Lemma set_all_length : forall A idx (vals g g' : list A), set_all idx vals g = Ok g' -> length g' = length g.
Proof.
  induction idx as [|i idx IH]; cbn [set_all]; intros vals g g' H.
  - injection H as <-. reflexivity.
  - destruct vals as [|v vals]; [discriminate|]. inv_bind. apply IH in H. rewrite upd_length in H. exact H.
Qed.
Lemma set_all_nth : forall A idx (vals g g' : list A) k, set_all idx vals g = Ok g' ->
  (~ In k idx /\ nth_error g' k = nth_error g k) \/
  (exists j w, nth_error idx j = Some k /\ nth_error vals j = Some w /\ nth_error g' k = Some w /\
     forall j', (j < j')%nat -> nth_error idx j' <> Some k).
Proof.
  induction idx as [|i idx IH]; cbn [set_all]; intros vals g g' k H.
  - injection H as <-. left. split; [intros []|reflexivity].
  - destruct vals as [|v vals]; [discriminate|]. inv_bind. apply Nat.ltb_lt in E.
    destruct (IH _ _ _ k H) as [[N Q]|(j & w & A1 & A2 & A3 & A4)].
    + destruct (Nat.eq_dec i k) as [->|D].
      * right. exists 0%nat, v. split; [reflexivity|]. split; [reflexivity|]. split.
        { rewrite Q. apply nth_error_upd_eq. exact E. }
        intros [|j'] L; [lia|]. cbn. intros C. apply N. eapply nth_error_In. exact C.
      * left. split; [intros [C|C]; auto|]. rewrite Q. apply nth_error_upd_neq. exact D.
    + right. exists (S j), w. split; [exact A1|]. split; [exact A2|]. split; [exact A3|].
      intros [|j'] L; [lia|]. apply A4. lia.
Qed.
Lemma set_all_ok : forall A idx (vals g : list A), length idx = length vals -> (forall i, In i idx -> (i < length g)%nat) ->
  exists g', set_all idx vals g = Ok g'.
Proof.
  induction idx as [|i idx IH]; cbn [set_all]; intros vals g L B.
  - eauto.
  - destruct vals as [|v vals]; [discriminate|]. assert (O := B i (or_introl eq_refl)). apply Nat.ltb_lt in O. rewrite O. cbn [lf_assert bind].
    apply IH; [cbn in L; lia|]. intros i' Hi. rewrite upd_length. apply B. right. exact Hi.
Qed.
(** *** The loops *)
Section Run.
Context {A : Type} (V : fe_space) (u : meshfun) (sel : ent -> bool) (wrap : R -> A).
Inductive run : list ent -> list A -> list A -> Prop :=
| run_nil g : run [] g g
| run_skip e es g c : sel e = false -> run es g c -> run (e :: es) g c
| run_do e es g g' c l v : sel e = true -> has_dofs V e l -> local_coefficients V u e v -> length v = length l ->
    set_all l (map wrap v) g = Ok g' -> run es g' c -> run (e :: es) g c.
Lemma run_length : forall es g c, run es g c -> length c = length g.
Proof. induction 1; auto. rewrite IHrun. eapply set_all_length. eassumption. Qed.
Lemma run_spec : forall es g c, run es g c -> forall k,
  (untouched V sel es k /\ nth_error c k = nth_error g k) \/
  (exists w, prescribed_by V u sel es k w /\ nth_error c k = Some (wrap w)).
Proof.
  induction 1 as [g|e es g c F H IH|e es g g' c l v T D L N Q H IH]; intros k.
  - left. split; [intros e []|reflexivity].
  - destruct (IH k) as [[U E]|(w & (b & e' & a & l & v & j & -> & P) & E)].
    + left. split; [|exact E]. intros e' [<-|I] S; [congruence|]. exact (U _ I S).
    + right. exists w. split; [|exact E]. exists (e :: b), e', a, l, v, j. split; [reflexivity|exact P].
  - destruct (IH k) as [[U E]|(w & (b & e' & a & l' & v' & j & -> & P) & E)].
    + destruct (set_all_nth _ _ _ _ _ k Q) as [[O O2]|(j & w & A1 & A2 & A3 & A4)].
      * left. split; [|congruence]. intros e' [<-|I] S; [|exact (U _ I S)].
        intros (l' & D' & I). unfold has_dofs in *. rewrite D in D'. injection D' as <-. exact (O I).
      * right. rewrite nth_error_map in A2. destruct (nth_error v j) as [w'|] eqn:Ev; [|discriminate]. injection A2 as <-.
        exists w'. split; [|congruence]. exists [], e, es, l, v, j. split; [reflexivity|]. split; [exact T|]. split; [exact D|].
        split; [exact L|]. split; [exact N|]. split; [exact A1|]. split; [exact Ev|]. split; [exact A4|]. exact U.
    + right. exists w. split; [|exact E]. exists (e :: b), e', a, l', v', j. split; [reflexivity|exact P].
Qed.
End Run.
Lemma traverse_Forall2 : forall A B (f : A -> res B) l bs, traverse f l = Ok bs -> Forall2 (fun a b => f a = Ok b) l bs.
Proof.
  induction l as [|a l IH]; cbn [traverse]; intros bs H; [injection H as <-; constructor|].
  inv_bind. subst. constructor; auto.
Qed.
Lemma projection_run : forall V u sel es g c, consistent V es -> projection_loop V u sel es g = Ok c -> run V u sel (fun x => x) es g c.
Proof.
  intros V u sel. induction es as [|e es IH]; cbn [projection_loop]; intros g c K H.
  - injection H as <-. constructor.
  - assert (K' : consistent V es) by (intros e' l n I; apply K; right; exact I).
    destruct (sel e) eqn:S; [|apply run_skip; auto].
    apply bind_ok in H. destruct H as (v & E1 & H). apply bind_ok in H. destruct H as (n & E2 & H). apply bind_ok in H. destruct H as (_u & E3 & H).
    apply bind_ok in H. destruct H as (l & E4 & H). apply bind_ok in H. destruct H as (_u2 & E5 & H). apply bind_ok in H. destruct H as (g' & E6 & H).
    apply lf_assert_ok in E3. apply Nat.eqb_eq in E3.
    assert (N := K e l n (or_introl eq_refl) E4 E2). rewrite N, firstn_all in E6.
    apply (run_do V u sel (fun x => x) e es g g' c l v); auto; [|congruence|rewrite map_id; exact E6].
    unfold local_projection in E1. destruct (sp_layout V e) as [f|] eqn:F; [|discriminate]. inv_bind.
    exists f, r. split; [exact F|]. split; [apply traverse_Forall2; exact E|exact E1].
Qed.
Lemma essential_run : forall V u sel es g c, consistent V es -> essential_loop V sel u es g = Ok c -> run V u sel (pair true) es g c.
Proof.
  intros V u sel. induction es as [|e es IH]; cbn [essential_loop]; intros g c K H.
  - injection H as <-. constructor.
  - assert (K' : consistent V es) by (intros e' l n I; apply K; right; exact I).
    destruct (sel e) eqn:S; [|apply run_skip; auto].
    destruct (sp_layout V e) as [f|] eqn:F; [|discriminate].
    apply bind_ok in H. destruct H as (vals & E1 & H). apply bind_ok in H. destruct H as (_u & E2 & H). apply bind_ok in H. destruct H as (v & E3 & H).
    apply bind_ok in H. destruct H as (_u2 & E4 & H). apply bind_ok in H. destruct H as (n & E5 & H). apply bind_ok in H. destruct H as (_u3 & E6 & H).
    apply bind_ok in H. destruct H as (l & E7 & H). apply bind_ok in H. destruct H as (g' & E8 & H).
    apply lf_assert_ok in E6. apply Nat.eqb_eq in E6.
    assert (N := K e l n (or_introl eq_refl) E7 E5).
    apply (run_do V u sel (pair true) e es g g' c l v); auto; [|congruence].
    exists f, vals. split; [exact F|]. split; [apply traverse_Forall2; exact E1|exact E3].
Qed.
Lemma nth_error_repeat : forall A (a : A) n k, nth_error (repeat a n) k = if (k <? n)%nat then Some a else None.
Proof.
  induction n as [|n IH]; intros [|k]; cbn [repeat nth_error]; auto. rewrite IH. reflexivity.
Qed.
Theorem projection_sets : forall V u sel c, consistent V (entities (sp_mesh V) 0) -> NodalProjection V u sel = Ok c ->
  length c = NumDofs (sp_dofs V) /\
  forall k, (k < NumDofs (sp_dofs V))%nat ->
    (untouched V sel (entities (sp_mesh V) 0) k /\ nth k c 0 = 0) \/
    prescribed_by V u sel (entities (sp_mesh V) 0) k (nth k c 0).
Proof.
  intros V u sel c K H. apply projection_run in H; [|exact K]. split.
  { rewrite (run_length _ _ _ _ _ _ _ H). apply repeat_length. }
  intros k L. destruct (run_spec _ _ _ _ _ _ _ H k) as [[U E]|(w & P & E)].
  - left. split; [exact U|]. rewrite nth_error_repeat in E. apply Nat.ltb_lt in L. rewrite L in E. exact (nth_error_nth c k 0 E).
  - right. rewrite (nth_error_nth c k 0 E). exact P.
Qed.
Theorem essential_sets : forall V u sel fv, consistent V (entities (sp_mesh V) 1) -> InitEssentialConditionFromFunction V sel u = Ok fv ->
  length fv = NumDofs (sp_dofs V) /\
  forall k, (k < NumDofs (sp_dofs V))%nat ->
    (untouched V sel (entities (sp_mesh V) 1) k /\ nth_error fv k = Some (false, 0)) \/
    exists w, prescribed_by V u sel (entities (sp_mesh V) 1) k w /\ nth_error fv k = Some (true, w).
Proof.
  intros V u sel c K H. apply essential_run in H; [|exact K]. split.
  { rewrite (run_length _ _ _ _ _ _ _ H). apply repeat_length. }
  intros k L. destruct (run_spec _ _ _ _ _ _ _ H k) as [[U E]|(w & P & E)].
  - left. split; [exact U|]. rewrite nth_error_repeat in E. apply Nat.ltb_lt in L. rewrite L in E. exact E.
  - right. exists w. split; [exact P|exact E].
Qed.
Lemma prescribed_touches : forall V u sel es k w, prescribed_by V u sel es k w -> exists e, In e es /\ sel e = true /\ touches V e k.
Proof.
  intros V u sel es k w (b & e & a & l & c & j & -> & S & D & _ & _ & J & _). exists e. split; [apply in_elt|]. split; [exact S|].
  exists l. split; [exact D|]. eapply nth_error_In. exact J.
Qed.
Theorem essential_flags : forall V u sel fv, consistent V (entities (sp_mesh V) 1) -> InitEssentialConditionFromFunction V sel u = Ok fv ->
  forall k, (k < NumDofs (sp_dofs V))%nat ->
    (fst (nth k fv (false, 0)) = true <-> exists e, In e (entities (sp_mesh V) 1) /\ sel e = true /\ touches V e k).
Proof.
  intros V u sel fv K H k L. destruct (essential_sets V u sel fv K H) as [_ Q]. destruct (Q k L) as [[U E]|(w & P & E)].
  - rewrite (nth_error_nth fv k _ E). split; [discriminate|]. intros (e & I & S & T). destruct (U e I S T).
  - rewrite (nth_error_nth fv k _ E). split; [|reflexivity]. intros _. eapply prescribed_touches. exact P.
Qed.
(** *** Finite element functions *)
Section Fe.
Variables (V : fe_space) (coef : list R) (u : meshfun).
Hypothesis Hc : length coef = NumDofs (sp_dofs V).
Lemma entries_nth : forall l, (forall g, In g l -> (g < length coef)%nat) ->
  traverse (fun i => do g <- entry l i; entry coef g) (seq 0 (length l)) = Ok (map (fun g => nth g coef 0) l).
Proof.
  intros l B.
  assert (Q : forall l1 l2, l = l1 ++ l2 -> traverse (fun i => do g <- entry l i; entry coef g) (seq (length l1) (length l2)) = Ok (map (fun g => nth g coef 0) l2)).
  { intros l1 l2. revert l1. induction l2 as [|g l2 IH]; intros l1 E; [reflexivity|].
    cbn [length seq traverse map]. unfold entry at 1. rewrite E at 1. rewrite nth_error_app2 by lia. rewrite Nat.sub_diag. cbn [nth_error bind].
    assert (G : (g < length coef)%nat) by (apply B; rewrite E; apply in_elt).
    unfold entry at 1. destruct (nth_error coef g) as [x|] eqn:X; [|apply nth_error_None in X; lia]. cbn [bind].
    specialize (IH (l1 ++ [g])). rewrite app_length in IH. cbn [length] in IH. rewrite Nat.add_1_r in IH.
    rewrite IH by (rewrite <- app_assoc; exact E). cbn [bind]. rewrite (nth_error_nth coef g 0 X). reflexivity. }
  exact (Q [] l eq_refl).
Qed.
Lemma local_values : forall e, element_ok V e -> coincides V coef u e ->
  exists f l vals, sp_layout V e = Some f /\ has_dofs V e l /\ NumLocalDofs (sp_dofs V) e = Ok (length l) /\
    (forall g, In g l -> (g < NumDofs (sp_dofs V))%nat) /\ length l = fe_total f /\ (0 < length vals)%nat /\
    traverse (u e) (fe_nodes f) = Ok vals /\ fe_n2d f vals = Ok (map (fun g => nth g coef 0) l).
Proof.
  intros e (f & l & F & D & N & B & T & Nn & Ev & Du) Co.
  destruct (Du (map (fun g => nth g coef 0) l)) as (vals & Tr & Nd); [rewrite map_length; exact T|].
  exists f, l, vals. split; [exact F|]. split; [exact D|]. split; [exact N|]. split; [exact B|]. split; [exact T|].
  split. { rewrite (traverse_length _ _ _ _ _ Tr). destruct (fe_nodes f); [contradiction|cbn; lia]. }
  split; [|exact Nd]. rewrite <- Tr.
  assert (Q : forall p, In p (fe_nodes f) -> u e p = combination f (map (fun g => nth g coef 0) l) p).
  { intros p I. rewrite (Co f p F I). unfold fe_value, combination. rewrite F. destruct (Ev p I) as (v & -> & Lv). cbn [bind].
    unfold has_dofs in D. rewrite D. cbn [bind]. rewrite Lv, <- T, entries_nth by (intros g Hg; rewrite Hc; apply B; exact Hg). reflexivity. }
  clear -Q. induction (fe_nodes f) as [|p l' IH]; [reflexivity|]. cbn [traverse]. rewrite (Q p (or_introl eq_refl)), IH; [reflexivity|].
  intros p' I. apply Q. right. exact I.
Qed.
Definition agree {A} (wrap : R -> A) (sel : ent -> bool) (es : list ent) (g c : list A) : Prop :=
  length c = length g /\
  forall k, (k < length g)%nat -> (untouched V sel es k /\ nth_error c k = nth_error g k) \/
    ((exists e, In e es /\ sel e = true /\ touches V e k) /\ nth_error c k = Some (wrap (nth k coef 0))).
Lemma set_agree : forall A (wrap : R -> A) l g, (forall i, In i l -> (i < length g)%nat) ->
  exists g', set_all l (map wrap (map (fun i => nth i coef 0) l)) g = Ok g' /\ length g' = length g /\
    forall k, (~ In k l /\ nth_error g' k = nth_error g k) \/ (In k l /\ nth_error g' k = Some (wrap (nth k coef 0))).
Proof.
  intros A wrap l g B. destruct (set_all_ok A l (map wrap (map (fun i => nth i coef 0) l)) g) as [g' E]; [rewrite !map_length; reflexivity|exact B|].
  exists g'. split; [exact E|]. split; [eapply set_all_length; exact E|]. intros k.
  destruct (set_all_nth _ _ _ _ _ k E) as [O|(j & w & A1 & A2 & A3 & A4)]; [left; exact O|].
  right. split; [eapply nth_error_In; exact A1|]. rewrite A3, <- A2, map_map, nth_error_map, A1. reflexivity.
Qed.
Lemma agree_step : forall A (wrap : R -> A) sel e es l g g' c, has_dofs V e l -> sel e = true -> length g' = length g ->
  (forall k, (~ In k l /\ nth_error g' k = nth_error g k) \/ (In k l /\ nth_error g' k = Some (wrap (nth k coef 0)))) ->
  agree wrap sel es g' c -> agree wrap sel (e :: es) g c.
Proof.
  intros A wrap sel e es l g g' c D S L W [Lc Q]. split; [congruence|]. intros k Hk.
  destruct (Q k) as [[U E]|[(e' & I & S' & T) E]]; [lia| |].
  - destruct (W k) as [[N E']|[I E']].
    + left. split; [|congruence]. intros e' [<-|I] S'; [|exact (U _ I S')]. intros (l' & D' & I). unfold has_dofs in *. rewrite D in D'. injection D' as <-. exact (N I).
    + right. split; [|congruence]. exists e. split; [left; reflexivity|]. split; [exact S|]. exists l. split; [exact D|exact I].
  - right. split; [|exact E]. exists e'. split; [right; exact I|]. split; [exact S'|exact T].
Qed.
Lemma agree_skip : forall A (wrap : R -> A) sel e es g c, sel e = false -> agree wrap sel es g c -> agree wrap sel (e :: es) g c.
Proof.
  intros A wrap sel e es g c S [Lc Q]. split; [exact Lc|]. intros k Hk. destruct (Q k Hk) as [[U E]|[(e' & I & S' & T) E]].
  - left. split; [|exact E]. intros e' [<-|I] S'; [congruence|]. exact (U _ I S').
  - right. split; [|exact E]. exists e'. split; [right; exact I|]. split; [exact S'|exact T].
Qed.
Lemma projection_agree : forall sel es g, length g = NumDofs (sp_dofs V) ->
  (forall e, In e es -> sel e = true -> element_ok V e /\ coincides V coef u e) ->
  exists c, projection_loop V u sel es g = Ok c /\ agree (fun x => x) sel es g c.
Proof.
  intros sel. induction es as [|e es IH]; intros g L O.
  - exists g. split; [reflexivity|]. split; [reflexivity|]. intros k _. left. split; [intros e []|reflexivity].
  - cbn [projection_loop]. destruct (sel e) eqn:S.
    + destruct (O e (or_introl eq_refl) S) as [O1 O2]. destruct (local_values e O1 O2) as (f & l & vals & F & D & N & B & T & P & Tr & Nd).
      unfold local_projection. rewrite F, Tr. cbn [bind]. apply Nat.ltb_lt in P. rewrite P. cbn [lf_assert bind]. rewrite Nd. cbn [bind]. rewrite N. cbn [bind].
      rewrite map_length, Nat.eqb_refl. cbn [lf_assert bind]. unfold has_dofs in D. rewrite D. cbn [bind]. rewrite Nat.leb_refl, firstn_all. cbn [lf_assert bind].
      destruct (set_agree R (fun x => x) l g) as (g' & E & L' & W); [intros i I; rewrite L; apply B; exact I|]. rewrite map_id in E. rewrite E. cbn [bind].
      destruct (IH g') as (c & Ec & Ag); [congruence| |]. { intros e' I; apply O; right; exact I. }
      exists c. split; [exact Ec|]. eapply agree_step; eauto.
    + destruct (IH g L) as (c & Ec & Ag). { intros e' I; apply O; right; exact I. }
      exists c. split; [exact Ec|]. apply agree_skip; assumption.
Qed.
Lemma essential_agree : forall sel es g, length g = NumDofs (sp_dofs V) ->
  (forall e, In e es -> sel e = true -> element_ok V e /\ coincides V coef u e) ->
  exists c, essential_loop V sel u es g = Ok c /\ agree (pair true) sel es g c.
Proof.
  intros sel. induction es as [|e es IH]; intros g L O.
  - exists g. split; [reflexivity|]. split; [reflexivity|]. intros k _. left. split; [intros e []|reflexivity].
  - cbn [essential_loop]. destruct (sel e) eqn:S.
    + destruct (O e (or_introl eq_refl) S) as [O1 O2]. destruct (local_values e O1 O2) as (f & l & vals & F & D & N & B & T & P & Tr & Nd).
      rewrite F, Tr. cbn [bind]. apply Nat.ltb_lt in P. rewrite P. cbn [lf_assert bind]. rewrite Nd. cbn [bind]. rewrite map_length, T, Nat.eqb_refl. cbn [lf_assert bind].
      rewrite N, T. cbn [bind]. rewrite Nat.eqb_refl. cbn [lf_assert bind]. unfold has_dofs in D. rewrite D. cbn [bind].
      destruct (set_agree (bool * R) (pair true) l g) as (g' & E & L' & W); [intros i I; rewrite L; apply B; exact I|]. rewrite E. cbn [bind].
      destruct (IH g') as (c & Ec & Ag); [congruence| |]. { intros e' I; apply O; right; exact I. }
      exists c. split; [exact Ec|]. eapply agree_step; eauto.
    + destruct (IH g L) as (c & Ec & Ag). { intros e' I; apply O; right; exact I. }
      exists c. split; [exact Ec|]. apply agree_skip; assumption.
Qed.
Theorem projection_fe : forall sel,
  (forall e, In e (entities (sp_mesh V) 0) -> sel e = true -> element_ok V e /\ coincides V coef u e) ->
  exists c, NodalProjection V u sel = Ok c /\ length c = NumDofs (sp_dofs V) /\
    forall k, (k < NumDofs (sp_dofs V))%nat ->
      (untouched V sel (entities (sp_mesh V) 0) k /\ nth k c 0 = 0) \/
      ((exists e, In e (entities (sp_mesh V) 0) /\ sel e = true /\ touches V e k) /\ nth k c 0 = nth k coef 0).
Proof.
  intros sel O. destruct (projection_agree sel _ (repeat 0 (NumDofs (sp_dofs V))) (repeat_length _ _) O) as (c & E & L & Q).
  exists c. split; [exact E|]. rewrite repeat_length in L, Q. split; [exact L|]. intros k Hk. destruct (Q k Hk) as [[U G]|[T G]].
  - left. split; [exact U|]. rewrite nth_error_repeat in G. apply Nat.ltb_lt in Hk. rewrite Hk in G. exact (nth_error_nth c k 0 G).
  - right. split; [exact T|]. exact (nth_error_nth c k 0 G).
Qed.
Theorem projection_identity : forall sel,
  (forall e, In e (entities (sp_mesh V) 0) -> sel e = true -> element_ok V e /\ coincides V coef u e) ->
  (forall k, (k < NumDofs (sp_dofs V))%nat -> exists e, In e (entities (sp_mesh V) 0) /\ sel e = true /\ touches V e k) ->
  NodalProjection V u sel = Ok coef.
Proof.
  intros sel O T. destruct (projection_fe sel O) as (c & E & L & Q). rewrite E. f_equal. apply (nth_ext _ _ 0 0); [congruence|].
  intros k Hk. rewrite L in Hk. destruct (Q k Hk) as [[U _]|[_ G]]; [|exact G].
  destruct (T k Hk) as (e & I & S & To). destruct (U e I S To).
Qed.
Theorem essential_fe : forall sel,
  (forall e, In e (entities (sp_mesh V) 1) -> sel e = true -> element_ok V e /\ coincides V coef u e) ->
  exists fv, InitEssentialConditionFromFunction V sel u = Ok fv /\ length fv = NumDofs (sp_dofs V) /\
    forall k, (k < NumDofs (sp_dofs V))%nat ->
      (untouched V sel (entities (sp_mesh V) 1) k /\ nth_error fv k = Some (false, 0)) \/
      ((exists e, In e (entities (sp_mesh V) 1) /\ sel e = true /\ touches V e k) /\ nth_error fv k = Some (true, nth k coef 0)).
Proof.
  intros sel O. destruct (essential_agree sel _ (repeat (false, 0) (NumDofs (sp_dofs V))) (repeat_length _ _) O) as (c & E & L & Q).
  exists c. split; [exact E|]. rewrite repeat_length in L, Q. split; [exact L|]. intros k Hk. destruct (Q k Hk) as [[U G]|[T G]].
  - left. split; [exact U|]. rewrite nth_error_repeat in G. apply Nat.ltb_lt in Hk. rewrite Hk in G. exact G.
  - right. split; [exact T|exact G].
Qed.
End Fe.
