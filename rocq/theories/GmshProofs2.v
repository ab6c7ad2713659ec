(** Proofs for C67: insertion of groups of equal elements. *)
From Coq Require Import Reals String List Arith Bool ZArith Lia.
Import ListNotations.
From Verif Require Import Base MeshModel MeshSpec GeoModel GmshModel GmshSpec GmshProofs.
Local Open Scope list_scope.

(** Elements in a row that are equal, with their numbers. *)
Record grp := mkGrp { g_type : etype; g_nodes : list nat; g_ids : list nat }.
Definition add_group (t : etype) (ns : list nat) (j : nat) (l : list grp) : list grp :=
  match l with
  | g :: r => if etype_eqb t (g_type g) && same_nodes ns (g_nodes g) then mkGrp t ns (j :: g_ids g) :: r else mkGrp t ns [j] :: l
  | [] => [mkGrp t ns [j]]
  end.
Fixpoint push_all (c : nat) (js : list nat) (m : mi2gi) : res mi2gi :=
  match js with [] => Ok m | j :: r => do l <- push_last j (mi_get c m); push_all c r (mi_set c l m) end.
Definition insert_first (dw : nat) (coords : nat -> res vec) (index : nat -> res (option nat)) (t : etype) (el : refel) (ns : list nat) (j : nat) (b : build_state) (m : mi2gi)
  : res (build_state * mi2gi) :=
  match el with
  | kPoint => do n <- at_ ns 0; do mesh_index <- index n; Ok (b, insert_point_element mesh_index j m)
  | _ => do b' <- insert_element dw t el ns coords index b;
         Ok (b', mi_set (2 - dimension el) (mi_get (2 - dimension el) m ++ [[j]]) m)
  end.
Fixpoint insert_groups (dw : nat) (coords : nat -> res vec) (index : nat -> res (option nat)) (gs : list grp) (b : build_state) (m : mi2gi) : res (build_state * mi2gi) :=
  match gs with
  | [] => Ok (b, m)
  | g :: r =>
      do el <- RefElOf (g_type g);
      match g_ids g with
      | [] => Assert
      | j :: js =>
          do bm <- insert_first dw coords index (g_type g) el (g_nodes g) j b m;
          do m' <- push_all (2 - dimension el) js (snd bm);
          insert_groups dw coords index r (fst bm) m'
      end
  end.

(** *** The loops of both versions *)
Fixpoint groups2 (es : list element) (k : nat) : list grp :=
  match es with [] => [] | e :: r => add_group (el_type e) (el_nodes e) k (groups2 r (S k)) end.
Lemma bind_assoc : forall A B D (x : res A) (f : A -> res B) (g : B -> res D), bind (bind x f) g = bind x (fun a => bind (f a) g).
Proof. intros. destruct x; reflexivity. Qed.
Definition continue dw coords index (t : etype) (ns : list nat) (gs : list grp) (b : build_state) (m : mi2gi) : res (build_state * mi2gi) :=
  match gs with
  | g :: r => if etype_eqb t (g_type g) && same_nodes ns (g_nodes g)
              then do el <- RefElOf t; do m' <- push_all (2 - dimension el) (g_ids g) m; insert_groups dw coords index r b m'
              else insert_groups dw coords index gs b m
  | [] => insert_groups dw coords index [] b m
  end.
Lemma continue_same : forall dw coords index t ns j gs b m el, RefElOf t = Ok el ->
  continue dw coords index t ns (add_group t ns j gs) b m = do l <- push_last j (mi_get (2 - dimension el) m); continue dw coords index t ns gs b (mi_set (2 - dimension el) l m).
Proof.
  intros dw coords index t ns j gs b m el E. unfold add_group, continue.
  assert (T : etype_eqb t t && same_nodes ns ns = true) by (rewrite (proj2 (etype_eqb_spec t t)), (proj2 (same_nodes_spec ns ns)); auto).
  destruct gs as [|g r].
  - cbn [g_type g_nodes g_ids]. rewrite T, E. cbn [bind push_all]. destruct (push_last j _); reflexivity.
  - destruct (etype_eqb t (g_type g) && same_nodes ns (g_nodes g)) eqn:EG; cbn [g_type g_nodes g_ids]; rewrite T, E; cbn [bind push_all].
    + destruct (push_last j _); reflexivity.
    + destruct (push_last j _); reflexivity.
Qed.
Lemma insert_new : forall dw coords index t ns j gs b m el, RefElOf t = Ok el ->
  insert_groups dw coords index (add_group t ns j gs) b m = do bm <- insert_first dw coords index t el ns j b m; continue dw coords index t ns gs (fst bm) (snd bm).
Proof.
  intros dw coords index t ns j gs b m el E. unfold add_group, continue. destruct gs as [|g r].
  - cbn [insert_groups g_type g_nodes g_ids]. rewrite E. cbn [bind push_all]. destruct (insert_first _ _ _ _ _ _ _ _ _); reflexivity.
  - destruct (etype_eqb t (g_type g) && same_nodes ns (g_nodes g)) eqn:EG; cbn [insert_groups g_type g_nodes g_ids]; rewrite E; cbn [bind push_all].
    + destruct (insert_first _ _ _ _ _ _ _ _ _); reflexivity.
    + destruct (insert_first _ _ _ _ _ _ _ _ _); reflexivity.
Qed.
Lemma continue_other : forall dw coords index t ns t' ns' j gs b m, etype_eqb t t' && same_nodes ns ns' = false ->
  continue dw coords index t ns (add_group t' ns' j gs) b m = insert_groups dw coords index (add_group t' ns' j gs) b m.
Proof.
  intros dw coords index t ns t' ns' j gs b m E. unfold add_group. destruct gs as [|g r]; [cbn [continue g_type g_nodes]; rewrite E; reflexivity|].
  destruct (etype_eqb t' (g_type g) && same_nodes ns' (g_nodes g)); cbn [continue g_type g_nodes]; rewrite E; reflexivity.
Qed.
Lemma loop2 : forall dw coords index es k begin b m, (forall e, In e es -> (DimOf (el_type e) <= 2)%nat) ->
  insert_elements dw coords index es k begin b m =
  match begin with
  | Some be => continue dw coords index (el_type be) (el_nodes be) (groups2 es k) b m
  | None => insert_groups dw coords index (groups2 es k) b m
  end.
Proof.
  intros dw coords index es. induction es as [|e es IH]; intros k begin b m D; [destruct begin; reflexivity|].
  destruct (refel_exists _ (D e (or_introl eq_refl))) as (el & E).
  assert (DD : forall x, In x es -> (DimOf (el_type x) <= 2)%nat) by (intros; apply D; right; auto).
  cbn [insert_elements groups2]. rewrite E. cbn [bind].
  assert (NEW : match el with
     | kPoint => do n <- at_ (el_nodes e) 0; do mesh_index <- index n; insert_elements dw coords index es (S k) (Some e) b (insert_point_element mesh_index k m)
     | _ => do b' <- insert_element dw (el_type e) el (el_nodes e) coords index b;
            insert_elements dw coords index es (S k) (Some e) b' (mi_set (2 - dimension el) (mi_get (2 - dimension el) m ++ [[k]]) m)
     end = insert_groups dw coords index (add_group (el_type e) (el_nodes e) k (groups2 es (S k))) b m).
  { rewrite (insert_new _ _ _ _ _ _ _ _ _ _ E). unfold insert_first. destruct el.
    - destruct (at_ (el_nodes e) 0); cbn [bind]; auto. destruct (index a); cbn [bind fst snd]; auto. rewrite IH; auto.
    - destruct (insert_element _ _ _ _ _ _ _); cbn [bind fst snd]; auto. rewrite IH; auto.
    - destruct (insert_element _ _ _ _ _ _ _); cbn [bind fst snd]; auto. rewrite IH; auto.
    - destruct (insert_element _ _ _ _ _ _ _); cbn [bind fst snd]; auto. rewrite IH; auto. }
  destruct begin as [be|]; [|exact NEW].
  destruct (same_nodes (el_nodes be) (el_nodes e) && etype_eqb (el_type be) (el_type e)) eqn:S0.
  - apply andb_prop in S0 as [S1 S2]. apply same_nodes_spec in S1. apply etype_eqb_spec in S2.
    rewrite S1, S2, (continue_same _ _ _ _ _ _ _ _ _ _ E). destruct (push_last k _); cbn [bind]; auto. rewrite IH; auto. rewrite S1, S2. reflexivity.
  - rewrite continue_other by (rewrite andb_comm; exact S0). exact NEW.
Qed.
(** Version 4. *)
Fixpoint groups_block (t : etype) (ebi : nat) (es : list (list nat)) : list grp :=
  match es with [] => [] | ns :: r => add_group t ns ebi (groups_block t ebi r) end.
Fixpoint groups4 (bs : list block) (k : nat) : list grp :=
  match bs with [] => [] | eb :: r => groups_block (eb_type eb) k (eb_elements eb) ++ groups4 r (S k) end.
Lemma loop_block : forall dw coords index t el ebi es begin b m, RefElOf t = Ok el ->
  insert_block dw coords index t el ebi es begin b m =
  match begin with
  | Some bn => continue dw coords index t bn (groups_block t ebi es) b m
  | None => insert_groups dw coords index (groups_block t ebi es) b m
  end.
Proof.
  intros dw coords index t el ebi es. induction es as [|ns es IH]; intros begin b m E; [destruct begin; reflexivity|].
  cbn [insert_block groups_block].
  assert (NEW : match el with
     | kPoint => do n <- at_ ns 0; do mesh_index <- index n; insert_block dw coords index t el ebi es (Some ns) b (insert_point_element mesh_index ebi m)
     | _ => do b' <- insert_element dw t el ns coords index b;
            insert_block dw coords index t el ebi es (Some ns) b' (mi_set (2 - dimension el) (mi_get (2 - dimension el) m ++ [[ebi]]) m)
     end = insert_groups dw coords index (add_group t ns ebi (groups_block t ebi es)) b m).
  { rewrite (insert_new _ _ _ _ _ _ _ _ _ _ E). unfold insert_first. destruct el.
    - destruct (at_ ns 0); cbn [bind]; auto. destruct (index a); cbn [bind fst snd]; auto. rewrite IH; auto.
    - destruct (insert_element _ _ _ _ _ _ _); cbn [bind fst snd]; auto. rewrite IH; auto.
    - destruct (insert_element _ _ _ _ _ _ _); cbn [bind fst snd]; auto. rewrite IH; auto.
    - destruct (insert_element _ _ _ _ _ _ _); cbn [bind fst snd]; auto. rewrite IH; auto. }
  destruct begin as [bn|]; [|exact NEW].
  destruct (same_nodes bn ns) eqn:S0.
  - apply same_nodes_spec in S0. subst bn. rewrite (continue_same _ _ _ _ _ _ _ _ _ _ E). destruct (push_last ebi _); cbn [bind]; auto. rewrite IH; auto.
  - rewrite continue_other by (rewrite S0, andb_false_r; reflexivity). exact NEW.
Qed.
Lemma insert_groups_app : forall dw coords index a c b m,
  insert_groups dw coords index (a ++ c) b m = do q <- insert_groups dw coords index a b m; insert_groups dw coords index c (fst q) (snd q).
Proof.
  intros dw coords index a c. induction a as [|g a IH]; intros b m; [reflexivity|]. cbn [insert_groups app].
  destruct (RefElOf (g_type g)); cbn [bind]; auto. destruct (g_ids g); auto.
  destruct (insert_first _ _ _ _ _ _ _ _ _); cbn [bind]; auto. destruct (push_all _ _ _); cbn [bind]; auto.
Qed.
Lemma loop4 : forall dw coords index bs k b m, (forall eb, In eb bs -> (DimOf (eb_type eb) <= 2)%nat) ->
  insert_blocks dw coords index bs k b m = insert_groups dw coords index (groups4 bs k) b m.
Proof.
  intros dw coords index bs. induction bs as [|eb bs IH]; intros k b m D; [reflexivity|].
  destruct (refel_exists _ (D eb (or_introl eq_refl))) as (el & E). cbn [insert_blocks groups4]. rewrite E, insert_groups_app. cbn [bind].
  rewrite loop_block by exact E. destruct (insert_groups _ _ _ (groups_block _ _ _) _ _); cbn [bind]; auto. apply IH. intros. apply D. right. auto.
Qed.

(** *** Groups and items *)
Definition item_of (tags : nat -> list Z) (g : grp) : item := mkItem (g_type g) (g_nodes g) (map tags (g_ids g)).
Lemma add_group_item : forall tags t ns j l, map (item_of tags) (add_group t ns j l) = add_item t ns (tags j) (map (item_of tags) l).
Proof.
  intros tags t ns j [|g r]; [reflexivity|]. cbn [add_group add_item map item_of it_type it_nodes it_tags].
  destruct (etype_eqb t (g_type g) && same_nodes ns (g_nodes g)); reflexivity.
Qed.
Lemma items2_groups : forall es k tags, (forall p e, nth_error es p = Some e -> tags (k + p)%nat = [to_size (el_phys e)]) -> items2 es = map (item_of tags) (groups2 es k).
Proof.
  intros es. induction es as [|e es IH]; intros k tags H; [reflexivity|]. cbn [items2 groups2]. rewrite add_group_item, (IH (S k) tags).
  - f_equal. specialize (H 0%nat e eq_refl). rewrite Nat.add_0_r in H. auto.
  - intros p e' Hp. specialize (H (S p) e' Hp). rewrite Nat.add_succ_r in H. exact H.
Qed.
Lemma items4_groups : forall t ebi tags tg es, tags ebi = tg -> items4 t tg es = map (item_of tags) (groups_block t ebi es).
Proof. intros t ebi tags tg es <-. induction es as [|ns es IH]; [reflexivity|]. cbn [items4 groups_block]. rewrite add_group_item, IH. reflexivity. Qed.
Lemma blocks_groups : forall (tg : block -> list Z) bs k tags, (forall p b, nth_error bs p = Some b -> tags (k + p)%nat = tg b) ->
  concat (map (fun b => items4 (eb_type b) (tg b) (eb_elements b)) bs) = map (item_of tags) (groups4 bs k).
Proof.
  intros tg bs. induction bs as [|b bs IH]; intros k tags H; [reflexivity|]. cbn [map concat groups4]. rewrite map_app, (IH (S k) tags).
  - f_equal. apply items4_groups. specialize (H 0%nat b eq_refl). rewrite Nat.add_0_r in H. exact H.
  - intros p b' Hp. specialize (H (S p) b' Hp). rewrite Nat.add_succ_r in H. exact H.
Qed.
Definition nonempty (g : grp) : Prop := g_ids g <> [].
Lemma add_group_nonempty : forall t ns j l, Forall nonempty l -> Forall nonempty (add_group t ns j l).
Proof.
  intros t ns j [|g r] H; cbn [add_group]; [constructor; [discriminate|constructor]|].
  destruct (etype_eqb t (g_type g) && same_nodes ns (g_nodes g)); inversion H; subst; constructor; auto; discriminate.
Qed.
Lemma groups2_nonempty : forall es k, Forall nonempty (groups2 es k).
Proof. induction es; intros k; cbn [groups2]; [constructor|apply add_group_nonempty; auto]. Qed.
Lemma groups4_nonempty : forall bs k, Forall nonempty (groups4 bs k).
Proof.
  induction bs as [|b bs IH]; intros k; cbn [groups4]; [constructor|]. apply Forall_app. split; [|apply IH].
  induction (eb_elements b); cbn [groups_block]; [constructor|apply add_group_nonempty; auto].
Qed.
(** Ids are positions. *)
Lemma add_group_ids : forall t ns j l (P : nat -> Prop), P j -> Forall (fun g => Forall P (g_ids g)) l -> Forall (fun g => Forall P (g_ids g)) (add_group t ns j l).
Proof.
  intros t ns j [|g r] P Pj H; cbn [add_group]; [repeat constructor; auto|].
  destruct (etype_eqb t (g_type g) && same_nodes ns (g_nodes g)); inversion H; subst; repeat constructor; auto.
Qed.
Lemma groups2_ids : forall es k, Forall (fun g => Forall (fun j => k <= j < k + length es)%nat (g_ids g)) (groups2 es k).
Proof.
  induction es as [|e es IH]; intros k; cbn [groups2]; [constructor|]. apply add_group_ids; [cbn; lia|].
  specialize (IH (S k)). eapply Forall_impl; [|exact IH]. intros g Hg. eapply Forall_impl; [|exact Hg]. cbn. intros; lia.
Qed.
Lemma groups4_ids : forall bs k, Forall (fun g => Forall (fun j => k <= j < k + length bs)%nat (g_ids g)) (groups4 bs k).
Proof.
  induction bs as [|b bs IH]; intros k; cbn [groups4]; [constructor|]. apply Forall_app. split.
  - induction (eb_elements b); cbn [groups_block]; [constructor|]. apply add_group_ids; auto. cbn. lia.
  - specialize (IH (S k)). eapply Forall_impl; [|exact IH]. intros g Hg. eapply Forall_impl; [|exact Hg]. cbn. intros; lia.
Qed.
