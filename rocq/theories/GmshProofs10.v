(** Proofs for C69: names and numbers of physical entities. *)
From Coq Require Import Reals String List Arith Bool ZArith Lia Permutation Sorted Ascii.
Import ListNotations.
From Verif Require Import Base MeshModel MeshSpec GeoModel GmshModel GmshSpec GmshProofs.
Local Open Scope list_scope.

Section Multimap.
Context {K V : Type}.
Variable lt : K -> K -> bool.
Hypothesis LI : forall a, lt a a = false.
Hypothesis LT : forall a b c, lt a b = true -> lt b c = true -> lt a c = true.
Hypothesis LE : forall a b, lt a b = false -> lt b a = false -> a = b.
Definition ordered (m : list (K * V)) : Prop := StronglySorted (fun a b => lt (fst b) (fst a) = false) m.
Definition at_key (k : K) (e : K * V) : bool := negb (lt k (fst e)) && negb (lt (fst e) k).
Lemma at_key_eq : forall k e, at_key k e = true <-> fst e = k.
Proof.
  intros k e. unfold at_key. split.
  - intros H. apply andb_prop in H as [A B]. apply negb_true_iff in A, B. symmetry. apply LE; auto.
  - intros <-. rewrite LI. reflexivity.
Qed.
Lemma le_trans : forall a b c, lt b a = false -> lt c b = false -> lt c a = false.
Proof.
  intros a b c A B. destruct (lt c a) eqn:E; [|reflexivity]. destruct (lt a b) eqn:E1; [rewrite (LT c a b E E1) in B; discriminate|]. assert (a = b) by auto. subst. congruence.
Qed.
Lemma insert_in : forall k v (m : list (K * V)) x, In x (mm_insert lt k v m) <-> x = (k, v) \/ In x m.
Proof.
  intros k v m x. induction m as [|e m IH]; cbn [mm_insert]; [cbn; intuition auto|]. destruct (lt k (fst e)); cbn [In]; [intuition auto|]. rewrite IH. cbn [In]. tauto.
Qed.
Lemma insert_ordered : forall k v m, ordered m -> ordered (mm_insert lt k v m).
Proof.
  intros k v m. induction m as [|e m IH]; intros S0; cbn [mm_insert]; [repeat constructor|]. inversion S0 as [|? ? S1 S2]; subst. destruct (lt k (fst e)) eqn:E.
  - assert (A : lt (fst e) k = false) by (destruct (lt (fst e) k) eqn:Q; [pose proof (LT _ _ _ E Q) as X; rewrite LI in X; discriminate|reflexivity]). constructor; [exact S0|]. constructor; [exact A|].
    rewrite Forall_forall in *. intros x Hx. cbn [fst]. apply (le_trans k (fst e) (fst x)); [exact A|]. exact (S2 x Hx).
  - constructor; [apply IH; exact S1|]. rewrite Forall_forall in *. intros x Hx. apply insert_in in Hx as [->|Hx]; [exact E|auto].
Qed.
Lemma insert_filter : forall k v m q, ordered m -> filter (at_key q) (mm_insert lt k v m) = filter (at_key q) m ++ (if at_key q (k, v) then [(k, v)] else []).
Proof.
  intros k v m q. induction m as [|e m IH]; intros S0; cbn [mm_insert filter app]; [reflexivity|]. inversion S0 as [|? ? S1 S2]; subst. destruct (lt k (fst e)) eqn:E; cbn [filter].
  - destruct (at_key q (k, v)) eqn:A; [|rewrite app_nil_r; reflexivity]. apply at_key_eq in A. cbn [fst] in A. subst q.
    assert (N : forall x, In x (e :: m) -> at_key k x = false).
    { intros x Hx. unfold at_key. assert (lt k (fst x) = true) as ->; [|reflexivity]. destruct Hx as [<-|Hx]; [exact E|]. rewrite Forall_forall in S2. specialize (S2 x Hx).
      destruct (lt k (fst x)) eqn:Q; [reflexivity|]. rewrite (le_trans _ _ _ S2 Q) in E. discriminate. }
    rewrite (N e (or_introl eq_refl)). assert (filter (at_key k) m = []) as ->; [|reflexivity]. clear - N. induction m as [|x m IH]; [reflexivity|]. cbn [filter]. rewrite (N x) by (right; left; reflexivity). apply IH. intros y [<-|Hy]; apply N; [left|right; right]; auto.
  - rewrite (IH S1). destruct (at_key q e); reflexivity.
Qed.
Lemma bounds : forall k m, ordered m -> lower_bound lt k m = filter (at_key k) m ++ upper_bound lt k m.
Proof.
  intros k m. induction m as [|e m IH]; intros S0; [reflexivity|]. inversion S0 as [|? ? S1 S2]; subst. cbn [lower_bound upper_bound filter]. unfold at_key at 1. destruct (lt (fst e) k) eqn:A.
  - assert (lt k (fst e) = false) as ->; [|cbn [negb andb]; apply IH; exact S1]. destruct (lt k (fst e)) eqn:B; [|reflexivity]. rewrite <- (LI k). symmetry. eapply LT; eauto.
  - destruct (lt k (fst e)) eqn:B; cbn [negb andb].
    + assert (filter (at_key k) m = []) as ->; [|reflexivity].
      assert (N : forall x, In x m -> at_key k x = false).
      { intros x Hx. unfold at_key. assert (lt k (fst x) = true) as ->; [|reflexivity]. rewrite Forall_forall in S2. specialize (S2 x Hx).
        destruct (lt k (fst x)) eqn:Q; [reflexivity|]. rewrite (le_trans _ _ _ S2 Q) in B. discriminate. }
      clear - N. induction m as [|x m IH]; [reflexivity|]. cbn [filter]. rewrite (N x) by (left; reflexivity). apply IH. intros y Hy. apply N. right. auto.
    + cbn [app]. f_equal. rewrite <- (IH S1). assert (fst e = k) by auto. subst k. destruct m as [|x m]; [reflexivity|]. cbn [lower_bound]. rewrite Forall_forall in S2. rewrite (S2 x (or_introl eq_refl)). reflexivity.
Qed.
End Multimap.

Lemma same_iter_app : forall A (a b : list A), same_iter (a ++ b) b = match a with [] => true | _ => false end.
Proof. intros A a b. unfold same_iter. rewrite app_length. destruct a; cbn [length Nat.add]; [apply Nat.eqb_refl|]. apply Nat.eqb_neq. lia. Qed.
Lemma scan_found : forall K A codim (es r : list (K * (A * Z))) e, find (fun e => snd (snd e) =? codim)%Z es = Some e -> scan codim (es ++ r) r = Ok (fst (snd e)).
Proof.
  intros K A codim es r e. induction es as [|x es IH]; [discriminate|]. cbn [find app scan]. intros H. destruct (snd (snd x) =? codim)%Z; cbn [negb andb]; [injection H as <-; reflexivity|].
  change (x :: es ++ r) with ((x :: es) ++ r). rewrite same_iter_app. cbn [negb]. apply IH, H.
Qed.
Lemma look_up_found : forall K A lt (key : K) codim (m : list (K * (A * Z))) es, lower_bound lt key m = es ++ upper_bound lt key m ->
  look_up lt key codim m =
  if (codim =? no_codim)%Z then match es with [e] => Ok (fst (snd e)) | _ => Throw end
  else match find (fun e => snd (snd e) =? codim)%Z es with
       | Some e => Ok (fst (snd e))
       | None => match es with _ :: _ :: _ => look_up lt key codim m | _ => Throw end
       end.
Proof.
  intros K A lt key codim m es H.
  assert (G : match es with _ :: _ :: _ => find (fun e => snd (snd e) =? codim)%Z es <> None \/ codim = no_codim | _ => True end -> look_up lt key codim m = if (codim =? no_codim)%Z then match es with [e] => Ok (fst (snd e)) | _ => Throw end
     else match find (fun e => snd (snd e) =? codim)%Z es with Some e => Ok (fst (snd e)) | None => Throw end).
  { intros HM. unfold look_up. rewrite H, same_iter_app. destruct es as [|x [|y z]].
    - cbn [find]. destruct (codim =? no_codim)%Z; reflexivity.
    - cbn [app find]. unfold same_iter. rewrite Nat.eqb_refl. destruct (codim =? no_codim)%Z; cbn [orb]; [reflexivity|]. rewrite (Z.eqb_sym codim). destruct (snd (snd x) =? codim)%Z; reflexivity.
    - cbn [app]. change (y :: z ++ upper_bound lt key m) with ((y :: z) ++ upper_bound lt key m). rewrite same_iter_app. destruct (Z.eqb_spec codim no_codim) as [E|E]; [reflexivity|].
      cbn [find] in HM |- *. destruct (snd (snd x) =? codim)%Z; [reflexivity|]. destruct HM as [HM|HM]; [|contradiction].
      change (if (snd (snd y) =? codim)%Z then Some y else find (fun e => (snd (snd e) =? codim)%Z) z) with (find (fun e => (snd (snd e) =? codim)%Z) (y :: z)) in HM |- *.
      destruct (find (fun e => (snd (snd e) =? codim)%Z) (y :: z)) as [e|] eqn:EF; [|elim HM; reflexivity]. apply scan_found. exact EF. }
  destruct es as [|x [|y z]]; [apply G; exact I|rewrite (G I); destruct (codim =? no_codim)%Z; [reflexivity|]; destruct (find _ _); reflexivity|].
  destruct (find (fun e => (snd (snd e) =? codim)%Z) (x :: y :: z)) as [e|] eqn:EF; [apply G; left; discriminate|]. destruct (Z.eqb_spec codim no_codim) as [E|E]; [rewrite (G (or_intror E)); reflexivity|reflexivity].
Qed.

(** *** The two maps *)
Lemma str_irrefl : forall a, str_ltb a a = false.
Proof.
  intros a. unfold str_ltb. assert (String.compare a a = Eq) as ->; [|reflexivity]. induction a as [|c a IH]; [reflexivity|]. cbn. unfold Ascii.compare. rewrite N.compare_refl. exact IH.
Qed.
Lemma str_trans : forall a b c, str_ltb a b = true -> str_ltb b c = true -> str_ltb a c = true.
Proof.
  unfold str_ltb. intros a. induction a as [|x a IH]; intros [|y b] [|z c]; cbn [String.compare]; try discriminate; auto.
  unfold Ascii.compare. intros H1 H2. destruct (N.compare_spec (N_of_ascii x) (N_of_ascii y)) as [E1|E1|E1]; destruct (N.compare_spec (N_of_ascii y) (N_of_ascii z)) as [E2|E2|E2]; try discriminate;
  destruct (N.compare_spec (N_of_ascii x) (N_of_ascii z)) as [E3|E3|E3]; try lia; auto. eapply IH; eauto.
Qed.
Lemma str_total : forall a b, str_ltb a b = false -> str_ltb b a = false -> a = b.
Proof.
  unfold str_ltb. intros a b H1 H2. rewrite String.compare_antisym in H1. destruct (String.compare b a) eqn:E; cbn in *; try discriminate. symmetry. apply String.compare_eq_iff. exact E.
Qed.
Lemma z_irrefl : forall a, Z.ltb a a = false. Proof. intros. apply Z.ltb_irrefl. Qed.
Lemma z_trans : forall a b c, Z.ltb a b = true -> Z.ltb b c = true -> Z.ltb a c = true. Proof. intros a b c. rewrite !Z.ltb_lt. lia. Qed.
Lemma z_total : forall a b, Z.ltb a b = false -> Z.ltb b a = false -> a = b. Proof. intros a b. rewrite !Z.ltb_ge. lia. Qed.

Definition by_name (e : entry) : string * (Z * Z) := (name_of e, (nr_of e, codim_of e)).
Definition by_nr (e : entry) : Z * (string * Z) := (nr_of e, (name_of e, codim_of e)).
Definition insert_both (m : list (string * (Z * Z)) * list (Z * (string * Z))) (e : entry) :=
  (mm_insert str_ltb (name_of e) (nr_of e, codim_of e) (fst m), mm_insert Z.ltb (nr_of e) (name_of e, codim_of e) (snd m)).
Lemma add_names_fold : forall es : list entry, add_names es = fold_left insert_both es ([], []).
Proof.
  intros es. unfold add_names. assert (G : forall l m, fold_left (fun m p => let '(d, nr, name) := p in
     (mm_insert str_ltb name (to_size nr, to_size (2 - Z.of_nat d)) (fst m), mm_insert Z.ltb (to_size nr) (name, to_size (2 - Z.of_nat d)) (snd m))) l m = fold_left insert_both l m).
  { induction l as [|[[d nr] name] l IH]; intros m; [reflexivity|]. cbn [fold_left]. rewrite IH. reflexivity. }
  apply G.
Qed.
Lemma add_names_spec : forall es : list entry, let m := add_names es in ordered str_ltb (fst m) /\ ordered Z.ltb (snd m) /\
  (forall name, filter (at_key str_ltb name) (fst m) = map by_name (named es name)) /\ (forall nr, filter (at_key Z.ltb nr) (snd m) = map by_nr (numbered es nr)) /\
  Permutation (snd m) (map by_nr es).
Proof.
  intros es. rewrite add_names_fold. cbn zeta. induction es as [|e es IH] using rev_ind; [cbn; repeat split; constructor|].
  rewrite fold_left_app. cbn [fold_left]. remember (fold_left insert_both es ([], [])) as mm eqn:EMM. clear EMM. destruct mm as [m1 m2]. destruct IH as (I1 & I2 & I3 & I4 & I5). unfold insert_both. cbn [fst snd] in *.
  split; [apply (insert_ordered _ str_irrefl str_trans str_total); auto|]. split; [apply (insert_ordered _ z_irrefl z_trans z_total); auto|]. split; [|split].
  - intros name. rewrite (insert_filter _ str_irrefl str_trans str_total) by auto. rewrite I3. unfold named. rewrite filter_app, map_app. f_equal. cbn [filter].
    destruct (at_key str_ltb name (name_of e, (nr_of e, codim_of e))) eqn:A; destruct (String.eqb_spec (name_of e) name) as [E|E]; auto.
    + apply (at_key_eq _ str_irrefl str_total) in A. contradiction.
    + assert (at_key str_ltb name (name_of e, (nr_of e, codim_of e)) = true) by (apply (at_key_eq _ str_irrefl str_total); exact E). congruence.
  - intros nr. rewrite (insert_filter _ z_irrefl z_trans z_total) by auto. rewrite I4. unfold numbered. rewrite filter_app, map_app. f_equal. cbn [filter].
    destruct (at_key Z.ltb nr (nr_of e, (name_of e, codim_of e))) eqn:A; destruct (Z.eqb_spec (nr_of e) nr) as [E|E]; auto.
    + apply (at_key_eq _ z_irrefl z_total) in A. contradiction.
    + assert (at_key Z.ltb nr (nr_of e, (name_of e, codim_of e)) = true) by (apply (at_key_eq _ z_irrefl z_total); exact E). congruence.
  - rewrite map_app. cbn [map]. assert (P : forall m, Permutation (mm_insert Z.ltb (nr_of e) (name_of e, codim_of e) m) (by_nr e :: m)).
    { induction m as [|x m IHm]; cbn [mm_insert]; [reflexivity|]. destruct (nr_of e <? fst x)%Z; [reflexivity|]. rewrite IHm. apply perm_swap. }
    rewrite P, I5. apply Permutation_cons_append.
Qed.
Lemma read_names : forall dw f file r, read dw f file = Ok r -> rd_name2nr r = fst (add_names (names_of file)) /\ rd_nr2name r = snd (add_names (names_of file)).
Proof.
  intros dw f [file|file] r H; cbn [read names_of] in *.
  - unfold read2 in H. apply bind_ok in H as (? & _ & H). apply bind_ok in H as (? & _ & H). apply bind_ok in H as (? & _ & H). apply bind_ok in H as (((? & ?) & ?) & _ & H). apply bind_ok in H as ((? & ?) & _ & H).
    apply bind_ok in H as (? & _ & H). apply bind_ok in H as (? & _ & H). injection H as <-. split; reflexivity.
  - unfold read4 in H. apply bind_ok in H as (? & _ & H). apply bind_ok in H as (? & _ & H). apply bind_ok in H as (? & _ & H). apply bind_ok in H as (? & _ & H). apply bind_ok in H as (((? & ?) & ?) & _ & H). apply bind_ok in H as ((? & ?) & _ & H).
    apply bind_ok in H as (? & _ & H). apply bind_ok in H as (? & _ & H). apply bind_ok in H as (? & _ & H). apply bind_ok in H as (? & _ & H). apply bind_ok in H as (? & _ & H). injection H as <-. split; reflexivity.
Qed.
Lemma find_map : forall A B (f : A -> B) p l, find p (map f l) = match find (fun a => p (f a)) l with Some a => Some (f a) | None => None end.
Proof. intros A B f p l. induction l as [|a l IH]; [reflexivity|]. cbn [map find]. destruct (p (f a)); [reflexivity|exact IH]. Qed.
Lemma find_missed : forall es codim, codim <> no_codim -> (2 <= length es)%nat -> ~ missed es codim -> find (fun e => codim_of e =? codim)%Z es <> None.
Proof.
  intros es codim NC L M E. apply M. split; [exact L|]. split; [exact NC|]. intros e He Q. pose proof (find_none _ _ E e He) as F. cbn beta in F. rewrite Q, Z.eqb_refl in F. discriminate.
Qed.
Theorem name_lookup : forall dw f file r name codim, read dw f file = Ok r -> name <> ""%string -> ~ missed (named (names_of file) name) codim ->
  PhysicalEntityName2Nr r name codim = found nr_of (named (names_of file) name) codim.
Proof.
  intros dw f file r name codim H NE NM. destruct (read_names _ _ _ _ H) as [E _]. unfold PhysicalEntityName2Nr. destruct (String.eqb_spec name ""); [contradiction|]. cbn [negb lf_assert bind]. rewrite E.
  destruct (add_names_spec (names_of file)) as (O & _ & F & _). pose proof (bounds _ str_irrefl str_trans str_total name _ O) as B. rewrite F in B.
  rewrite (look_up_found _ _ _ _ _ _ _ B). unfold found. destruct (Z.eqb_spec codim no_codim) as [EC|EC]; [destruct (named (names_of file) name) as [|? [|? ?]]; reflexivity|].
  rewrite find_map. cbn [by_name snd fst]. destruct (find _ (named (names_of file) name)) as [x|] eqn:EF; [reflexivity|].
  destruct (named (names_of file) name) as [|x [|y z]] eqn:EN; [reflexivity|reflexivity|]. elim (find_missed (x :: y :: z) codim EC); auto. cbn. lia.
Qed.
Theorem nr_lookup : forall dw f file r nr codim, read dw f file = Ok r -> ~ missed (numbered (names_of file) nr) codim ->
  PhysicalEntityNr2Name r nr codim = found name_of (numbered (names_of file) nr) codim.
Proof.
  intros dw f file r nr codim H NM. destruct (read_names _ _ _ _ H) as [_ E]. unfold PhysicalEntityNr2Name. rewrite E.
  destruct (add_names_spec (names_of file)) as (_ & O & _ & F & _). pose proof (bounds _ z_irrefl z_trans z_total nr _ O) as B. rewrite F in B.
  rewrite (look_up_found _ _ _ _ _ _ _ B). unfold found. destruct (Z.eqb_spec codim no_codim) as [EC|EC]; [destruct (numbered (names_of file) nr) as [|? [|? ?]]; reflexivity|].
  rewrite find_map. cbn [by_nr snd fst]. destruct (find _ (numbered (names_of file) nr)) as [x|] eqn:EF; [reflexivity|].
  destruct (numbered (names_of file) nr) as [|x [|y z]] eqn:EN; [reflexivity|reflexivity|]. elim (find_missed (x :: y :: z) codim EC); auto. cbn. lia.
Qed.
(** The two functions are inverse to each other. *)
Lemma codim_valid : forall e, (fst (fst e) <= 2)%nat -> codim_of e <> no_codim.
Proof. intros e H. unfold codim_of, no_codim, to_size. destruct (fst (fst e)) as [|[|[|n]]]; [| | |lia]; vm_compute; discriminate. Qed.
Lemma unique_find : forall (l : list entry) p e, In e l -> p e = true -> (forall x, In x l -> p x = true -> x = e) -> find p l = Some e.
Proof.
  intros l p e H Hp U. destruct (find p l) as [x|] eqn:F; [apply find_some in F as [F1 F2]; rewrite (U x F1 F2); reflexivity|]. pose proof (find_none _ _ F e H). congruence.
Qed.
Theorem inverse : forall dw f file r e, read dw f file = Ok r -> In e (names_of file) -> name_of e <> ""%string -> (fst (fst e) <= 2)%nat ->
  (forall x, In x (names_of file) -> codim_of x = codim_of e -> name_of x = name_of e \/ nr_of x = nr_of e -> x = e) ->
  PhysicalEntityName2Nr r (name_of e) (codim_of e) = Ok (nr_of e) /\ PhysicalEntityNr2Name r (nr_of e) (codim_of e) = Ok (name_of e).
Proof.
  intros dw f file r e H He NE D U. pose proof (codim_valid e D) as NC.
  assert (I1 : In e (named (names_of file) (name_of e))) by (apply filter_In; split; [auto|apply String.eqb_refl]).
  assert (I2 : In e (numbered (names_of file) (nr_of e))) by (apply filter_In; split; [auto|apply Z.eqb_refl]).
  split.
  - rewrite (name_lookup _ _ _ _ _ _ H NE) by (intros (_ & _ & M); exact (M e I1 eq_refl)). unfold found. destruct (Z.eqb_spec (codim_of e) no_codim); [contradiction|].
    rewrite (unique_find _ _ e I1); [reflexivity|apply Z.eqb_refl|]. intros x Hx Q. apply filter_In in Hx as [X1 X2]. apply String.eqb_eq in X2. apply Z.eqb_eq in Q. apply U; auto.
  - rewrite (nr_lookup _ _ _ _ _ _ H) by (intros (_ & _ & M); exact (M e I2 eq_refl)). unfold found. destruct (Z.eqb_spec (codim_of e) no_codim); [contradiction|].
    rewrite (unique_find _ _ e I2); [reflexivity|apply Z.eqb_refl|]. intros x Hx Q. apply filter_In in Hx as [X1 X2]. apply Z.eqb_eq in X2, Q. apply U; auto.
Qed.
(** *** The list of physical entities *)
Theorem entities_listed : forall dw f file r codim, read dw f file = Ok r ->
  Permutation (PhysicalEntities r codim) (map (fun e => (nr_of e, name_of e)) (filter (fun e => codim_of e =? codim)%Z (names_of file))) /\
  StronglySorted (fun a b => fst a <= fst b)%Z (PhysicalEntities r codim).
Proof.
  intros dw f file r codim H. destruct (read_names _ _ _ _ H) as [_ E]. destruct (add_names_spec (names_of file)) as (_ & O & _ & _ & P). unfold PhysicalEntities. rewrite E. split.
  - assert (PF : forall (p : Z * (string * Z) -> bool) a b, Permutation a b -> Permutation (filter p a) (filter p b)).
    { intros p a b Q. induction Q; cbn [filter]; auto; [destruct (p x); auto|destruct (p x), (p y); auto; apply perm_swap|etransitivity; eauto]. }
    rewrite (PF _ _ _ P). clear. induction (names_of file) as [|e es IH]; [reflexivity|]. cbn [map filter by_nr snd]. destruct (codim_of e =? codim)%Z; cbn [map fst snd]; auto.
  - generalize dependent (snd (add_names (names_of file))). clear. intros m _ O _. induction O as [|x m S1 IH S2]; cbn [filter map]; [constructor|]. destruct (snd (snd x) =? codim)%Z; [|exact IH].
    cbn [map]. constructor; [exact IH|]. rewrite Forall_forall in *. intros y Hy. apply in_map_iff in Hy as (z & <- & Hz). apply filter_In in Hz as [Hz _]. specialize (S2 z Hz). cbn [fst]. apply Z.ltb_ge in S2. lia.
Qed.
Theorem is_physical : forall r codim i nr l, PhysicalEntityNr r codim i = Ok l -> exists b, IsPhysicalEntity r codim i nr = Ok b /\ (b = true <-> In nr l).
Proof.
  intros r codim i nr l H. unfold IsPhysicalEntity. rewrite H. cbn [bind]. eexists. split; [reflexivity|]. rewrite existsb_exists. split; [intros (x & Hx & E); apply Z.eqb_eq in E; subst; auto|intros Hx; exists nr; rewrite Z.eqb_refl; auto].
Qed.
