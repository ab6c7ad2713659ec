(** Proofs for C67: outcome of reading a file. *)
From Coq Require Import Reals String List Arith Bool ZArith Lia.
Import ListNotations.
From Verif Require Import Base MeshModel MeshSpec MeshProofs5 GeoModel GmshModel GmshSpec GmshProofs GmshProofs2 GmshProofs3 GmshProofs4 GmshProofs5 GmshProofs6 GmshProofs7 GmshProofs8.
Local Open Scope list_scope.

(** *** Elements and items *)
Lemma add_item_in : forall t ns tags l i, In i (add_item t ns tags l) -> (it_type i = t /\ it_nodes i = ns) \/ In i l.
Proof.
  intros t ns tags [|x r] i; cbn [add_item]; [intros [<-|[]]; auto|]. destruct (etype_eqb t (it_type x) && same_nodes ns (it_nodes x)); cbn [In]; intros [<-|H]; auto.
Qed.
Lemma add_item_new : forall t ns tags l, exists i, In i (add_item t ns tags l) /\ it_type i = t /\ it_nodes i = ns.
Proof.
  intros t ns tags [|x r]; cbn [add_item]; [eexists; split; [left; reflexivity|auto]|]. destruct (etype_eqb t (it_type x) && same_nodes ns (it_nodes x)); eexists; split; try (left; reflexivity); auto.
Qed.
Lemma add_item_old : forall t ns tags l i, In i l -> exists i', In i' (add_item t ns tags l) /\ it_type i' = it_type i /\ it_nodes i' = it_nodes i.
Proof.
  intros t ns tags [|x r] i Hi; [destruct Hi|]. cbn [add_item]. destruct (etype_eqb t (it_type x) && same_nodes ns (it_nodes x)) eqn:E.
  - destruct Hi as [<-|Hi]; [|exists i; split; [right; auto|auto]]. apply andb_prop in E as [E1 E2]. apply etype_eqb_spec in E1. apply same_nodes_spec in E2. eexists. split; [left; reflexivity|auto].
  - exists i. split; [right; exact Hi|auto].
Qed.
Lemma element_item : forall es e, In e es -> exists i, In i (items2 es) /\ it_type i = el_type e /\ it_nodes i = el_nodes e.
Proof.
  induction es as [|x es IH]; intros e He; [destruct He|]; destruct He as [<-|H]; cbn [items2]; [apply add_item_new|]. destruct (IH e H) as (i & I1 & I2 & I3). destruct (add_item_old (el_type x) (el_nodes x) [to_size (el_phys x)] _ i I1) as (i' & J1 & J2 & J3).
  exists i'. split; [auto|]. split; congruence.
Qed.
Lemma item_element : forall es i, In i (items2 es) -> exists e, In e es /\ it_type i = el_type e /\ it_nodes i = el_nodes e.
Proof.
  induction es as [|x es IH]; intros i H; [destruct H|]. cbn [items2] in H. apply add_item_in in H as [[A B]|H]; [exists x; split; [left; auto|auto]|]. destruct (IH i H) as (e & E1 & E2 & E3). exists e. split; [right; auto|auto].
Qed.
Lemma block_item : forall t tags es ns, In ns es -> exists i, In i (items4 t tags es) /\ it_type i = t /\ it_nodes i = ns.
Proof.
  intros t tags. induction es as [|x es IH]; intros ns He; [destruct He|]; destruct He as [<-|H]; cbn [items4]; [apply add_item_new|]. destruct (IH ns H) as (i & I1 & I2 & I3). destruct (add_item_old t x tags _ i I1) as (i' & J1 & J2 & J3).
  exists i'. split; [auto|]. split; congruence.
Qed.
Lemma item_block : forall t tags es i, In i (items4 t tags es) -> it_type i = t /\ In (it_nodes i) es.
Proof.
  intros t tags. induction es as [|x es IH]; intros i H; [destruct H|]. cbn [items4] in H. apply add_item_in in H as [[A B]|H]; [split; [auto|left; auto]|]. destruct (IH i H). split; [auto|right; auto].
Qed.
Lemma block4_item : forall file b ns, In b (f4_blocks file) -> In ns (eb_elements b) -> exists i, In i (co_items (content4 file)) /\ it_type i = eb_type b /\ it_nodes i = ns.
Proof.
  intros file b ns Hb Hn. destruct (block_item (eb_type b) (block_tags file b) _ _ Hn) as (i & I1 & I2). exists i. split; [|exact I2]. cbn [content4 co_items]. apply in_concat.
  eexists. split; [apply in_map, Hb|exact I1].
Qed.
Lemma item_block4 : forall file i, In i (co_items (content4 file)) -> exists b, In b (f4_blocks file) /\ it_type i = eb_type b /\ In (it_nodes i) (eb_elements b).
Proof.
  intros file i H. cbn [content4 co_items] in H. apply in_concat in H as (l & H1 & H2). apply in_map_iff in H1 as (b & <- & Hb). apply item_block in H2. exists b. split; [auto|exact H2].
Qed.
Lemma corner_in : forall n t ns, is_corner_of n t ns = true <-> In n (corners t ns).
Proof. intros n t ns. unfold is_corner_of. rewrite existsb_exists. split; [intros (x & H & E); apply Nat.eqb_eq in E; subst; auto|intros H; exists n; rewrite Nat.eqb_refl; auto]. Qed.
Lemma main_corner2 : forall dw file, valid_content dw (content2 file) -> forall n, co_main (content2 file) n = true ->
  exists i, In i (co_items (content2 file)) /\ (DimOf (it_type i) = 1 \/ DimOf (it_type i) = 2)%nat /\ In n (corners (it_type i) (it_nodes i)).
Proof.
  intros dw file V n H. cbn [content2 co_main] in H. apply existsb_exists in H as (e & He & H). apply andb_prop in H as [H1 H2]. destruct (element_item _ _ He) as (i & I1 & I2 & I3).
  exists i. split; [exact I1|]. apply corner_in in H2. rewrite I2, I3. split; [|exact H2]. destruct (corner_count _ (vc_type _ _ V i I1)) as (_ & D & P & _). rewrite I2 in *.
  destruct (DimOf (el_type e)) as [|[|[|d]]] eqn:ED; auto; [|lia]. rewrite (P eq_refl) in H1. discriminate.
Qed.
Lemma main_corner4 : forall dw file, valid_content dw (content4 file) -> forall n, co_main (content4 file) n = true ->
  exists i, In i (co_items (content4 file)) /\ (DimOf (it_type i) = 1 \/ DimOf (it_type i) = 2)%nat /\ In n (corners (it_type i) (it_nodes i)).
Proof.
  intros dw file V n H. cbn [content4 co_main] in H. apply existsb_exists in H as (b & Hb & H). apply andb_prop in H as [H1 H2]. apply existsb_exists in H2 as (ns & Hn & H2). destruct (block4_item _ _ _ Hb Hn) as (i & I1 & I2 & I3).
  exists i. split; [exact I1|]. apply corner_in in H2. rewrite I2, I3. split; [|exact H2]. right. apply Nat.eqb_eq, H1.
Qed.
Lemma physical_ok : forall M m tags, (forall c js j, (c <= 2)%nat -> In js (mi_get c m) -> In j js -> exists l, tags c j = Ok l) -> exists ph, physical_of M m tags = Ok ph.
Proof.
  intros M m tags H. unfold physical_of. apply collect_exists. intros c Hc. apply in_seq in Hc. apply collect_exists. intros i Hi.
  destruct ((c =? 2)%nat && (length (mi_2 m) <=? i)%nat); [eauto|]. destruct (Nat.ltb_spec i (length (mi_get c m))); [|eauto].
  destruct (collect_exists _ (tags c) (nth i (mi_get c m) [])) as (l & ->); [|cbn [bind]; eauto]. intros j Hj. apply (H c (nth i (mi_get c m) []) j); [lia|apply nth_In; auto|exact Hj].
Qed.
(** All ids come from groups. *)
Lemma mi_ids : forall dw C coords index gs b m b' m', tables C coords index -> insert_groups dw coords index gs b m = Ok (b', m') -> m = mkMi [] [] [] ->
  forall c js j, (c <= 2)%nat -> In js (mi_get c m') -> In j js -> exists g, In g gs /\ DimOf (g_type g) = (2 - c)%nat /\ In j (g_ids g).
Proof.
  intros dw C coords index gs b m b' m' TB H -> c js j Hc Hjs Hj.
  destruct (groups_effect dw C coords index (tb_coords _ _ _ TB) (tb_index _ _ _ TB) _ _ _ _ _ H) as (_ & _ & _ & _ & I0 & I1 & I2). cbn [mi_0 mi_1 mi_2 app] in *.
  assert (Q : forall d l, l = map g_ids (filter (dim_is d) gs) -> In js l -> exists g, In g gs /\ DimOf (g_type g) = d /\ In j (g_ids g)).
  { intros d l -> HI. apply in_map_iff in HI as (g & <- & HI). apply filter_In in HI as [HI HD]. apply Nat.eqb_eq in HD. eauto. }
  destruct c as [|[|[|c]]]; cbn [mi_get Nat.sub] in *; [eapply Q; eauto|eapply Q; eauto| |lia].
  assert (P : forall l q r, point_lists index l q = Ok r -> forall js, In js r -> forall j, In j js -> (exists g, In g l /\ In j (g_ids g)) \/ exists js', In js' q /\ In j js').
  { clear. induction l as [|g l IH]; intros q r H js Hjs j Hj; cbn [point_lists] in H; [injection H as <-; right; eauto|].
    destruct (g_ids g) as [|j0 r0] eqn:EJ; [discriminate|]. apply bind_ok in H as (n & _ & H). apply bind_ok in H as (i & _ & H). apply bind_ok in H as (m & E & H).
    destruct (IH _ _ H _ Hjs _ Hj) as [(g' & G1 & G2)|(js' & J1 & J2)]; [left; exists g'; split; [right; auto|auto]|].
    assert (A : forall l0 m0 m1, push_all 2 l0 m0 = Ok m1 -> forall a, In a (mi_2 m1) -> forall x, In x a -> In x l0 \/ exists a', In a' (mi_2 m0) /\ In x a').
    { clear. induction l0 as [|j l0 IH]; intros m0 m1 H a Ha x Hx; cbn [push_all] in H; [injection H as <-; right; eauto|]. apply bind_ok in H as (l & E & H). cbn [mi_get] in E.
      destruct (IH _ _ H a Ha x Hx) as [Q|(a' & A1 & A2)]; [left; right; auto|]. cbn [mi_set mi_2] in A1. unfold push_last in E. destruct (mi_2 m0) as [|y ys] eqn:EM; [discriminate|]. rewrite <- EM in *. injection E as <-.
      apply in_app_iff in A1 as [A1|[<-|[]]].
      - right. exists a'. split; [|auto]. rewrite (app_removelast_last []) by congruence. apply in_app_iff. left. exact A1.
      - apply in_app_iff in A2 as [A2|[<-|[]]]; [|left; left; auto]. right. exists (last (mi_2 m0) []). split; [|auto]. assert (NN : mi_2 m0 <> []) by congruence. pose proof (app_removelast_last [] NN) as Q. remember (last (mi_2 m0) []) as z eqn:EZ. rewrite Q. apply in_app_iff. right. left. reflexivity. }
    destruct (A _ _ _ E js' J1 j J2) as [Q|(a' & A1 & A2)]; [left; exists g; rewrite EJ; split; [left; auto|right; auto]|].
    destruct i as [v|]; cbn [insert_point_element mi_set mi_2] in A1; [|right; eauto]. rewrite grow_nth in A1.
    apply In_nth_error in A1 as (w & A1). rewrite nth_error_upd in A1 by apply grow_lt. destruct (Nat.eqb_spec v w) as [->|N].
    - injection A1 as <-. apply in_app_iff in A2 as [A2|[<-|[]]]; [|left; exists g; rewrite EJ; split; left; reflexivity]. right. exists (nth w q []). split; [|auto].
      destruct (Nat.lt_ge_cases w (length q)); [apply nth_In; auto|rewrite nth_overflow in A2 by auto; destruct A2].
    - destruct (Nat.lt_ge_cases w (length q)); [rewrite grow_nth_error in A1 by auto; right; exists a'; split; [eapply nth_error_In; eauto|auto]|].
      destruct (grow_new _ v [] q w H0); [congruence|]. assert (a' = []) by congruence. subst. destruct A2. }
  destruct (P _ _ _ I2 _ Hjs _ Hj) as [(g & G1 & G2)|(js' & [] & _)]. apply filter_In in G1 as [G1 G3]. apply Nat.eqb_eq in G3. exists g. auto.
Qed.

Lemma dim_ok : forall dw, dw = 2%nat \/ dw = 3%nat -> verify ((2 <=? dw)%nat && (dw <=? 3)%nat) = Ok tt.
Proof. intros dw [-> | ->]; reflexivity. Qed.
Section Outcome.
Variables (dw : nat) (check : bool).
Definition outcome_spec (C : content) (x : res reader) : Prop :=
  ((exists r, x = Ok r) <-> consistent_content C /\ (check = true -> edges_on_cells C)) /\
  (x = Throw <-> consistent_content C /\ check = true /\ ~ edges_on_cells C).
Lemma outcome_of_build : forall C x h rets f, valid_content dw C ->
  (forall n, co_main C n = true -> exists i, In i (co_items C) /\ (DimOf (it_type i) = 1 \/ DimOf (it_type i) = 2)%nat /\ In n (corners (it_type i) (it_nodes i))) ->
  run h (new_factory check) = Ok (rets, f) -> history_of C h ->
  (forall M, fst (build f) = Ok M -> exists r, x = Ok r) -> (fst (build f) = Throw -> x = Throw) -> (fst (build f) = Assert -> x = Assert) -> outcome_spec C x.
Proof.
  intros C x h rets f V MC R HH HO HT HA. destruct (build_outcome check h) as (_ & _ & O). destruct (O rets f R) as [O1 O2].
  pose proof (consistent_iff dw C V h HH) as CI. pose proof (complete_iff dw C V MC h HH) as CC. rewrite CI, CC in *. unfold outcome_spec. rewrite <- O1, <- O2.
  destruct (fst (build f)) as [M| |] eqn:EB.
  - destruct (HO M eq_refl) as (r & ->). split; split; intros; eauto; discriminate.
  - rewrite HT by reflexivity. split; split; intros Q; auto; destruct Q; discriminate.
  - rewrite HA by reflexivity. split; split; intros Q; try discriminate; destruct Q; discriminate.
Qed.
Theorem outcome2 : forall file, valid_content dw (content2 file) -> outcome_spec (content2 file) (read2 dw (new_factory check) file).
Proof.
  intros file V. unfold read2. rewrite (dim_ok dw (vc_dim _ _ V)). cbn [bind].
  assert (EV : forall e, In e (f2_elements file) -> (DimOf (el_type e) <= 2)%nat /\ (num_corners (el_type e) <= length (el_nodes e))%nat).
  { intros e He. destruct (element_item _ _ He) as (i & I1 & I2 & I3). destruct (corner_count _ (vc_type _ _ V i I1)) as (A & B & _). destruct (vc_nodes _ _ V i I1) as [L _]. rewrite I2, I3 in *. split; [auto|lia]. }
  destruct (scan_elements_ok (f2_elements file) (repeat false (length (f2_nodes file))) 0 EV) as (main & k0 & S0). rewrite S0. cbn [bind fst snd].
  destruct (scan_elements_nth _ _ _ _ _ S0) as (_ & S2 & S3 & S4 & S5).
  assert (K0 : (0 <? k0)%nat = true).
  { apply Nat.ltb_lt. rewrite S5. cbn [Nat.add]. pose proof (vc_cells _ _ V) as NC. destruct (items_of 2 (content2 file)) as [|i r] eqn:E; [elim NC; reflexivity|].
    assert (In i (items_of 2 (content2 file))) as Hi by (rewrite E; left; reflexivity). apply filter_In in Hi as [Hi D]. destruct (item_element _ _ Hi) as (e & E1 & E2 & _). rewrite E2 in D.
    assert (In e (filter (fun e => DimOf (el_type e) =? 2)%nat (f2_elements file))) as HF by (apply filter_In; auto). destruct (filter _ _); [destruct HF|cbn; lia]. }
  rewrite K0. cbn [lf_assert bind].
  destruct (insert_nodes_ok dw main (f2_nodes file) 0 (repeat None (length main)) (repeat None (length main)) (mkBuild (new_factory check) [] [] [])) as (((gi2mi, gi2i), b) & I0).
  { intros D n c Hn M. apply (vc_planar _ _ V D n c Hn). rewrite S4, nth_repeat_false in M. exact M. }
  rewrite I0. cbn [bind]. destruct (tables2 _ _ _ _ _ _ _ _ (vc_unique _ _ V) S0 I0) as (-> & TB). fold (coords2 file gi2i). rewrite loop2 by exact S2.
  destruct (insertion_ok dw (content2 file) V check _ _ _ _ TB (items_2 file) (groups2_nonempty _ _)) as (b' & m & h & rets & E1 & E2 & E3). rewrite E1. cbn [bind].
  apply (outcome_of_build _ _ h rets (b_fac b') V (main_corner2 dw file V) E2 E3).
  - intros M ->. cbn [bind]. edestruct (physical_ok M m) as (ph & ->); [|cbn [bind]; eauto].
    intros c js j Hc Hjs Hj. destruct (mi_ids _ _ _ _ _ _ _ _ _ TB E1 eq_refl c js j Hc Hjs Hj) as (g & G1 & _ & G3).
    pose proof (groups2_ids (f2_elements file) 0) as GI. rewrite Forall_forall in GI. specialize (GI g G1). rewrite Forall_forall in GI. specialize (GI j G3). cbn beta.
    destruct (nth_error (f2_elements file) j) as [e|] eqn:EN; [unfold at_; rewrite EN; cbn [bind]; eauto|]. apply nth_error_None in EN. lia.
  - intros ->. reflexivity.
  - intros ->. reflexivity.
Qed.
Lemma scan_block_ok : forall low t es main, (forall ns, In ns es -> (num_nodes t <= length ns)%nat /\ forall n, In n (firstn (num_nodes t) ns) -> low <= n) -> exists main', scan_block low t es main = Ok main'.
Proof.
  intros low t. induction es as [|ns es IH]; intros main H; cbn [scan_block]; [eauto|]. destruct (H ns (or_introl eq_refl)) as [A B]. destruct (mark_main_ok low t ns main A B) as (m & ->). cbn [bind]. apply IH. intros; apply H; right; auto.
Qed.
Lemma scan_blocks_ok : forall low bs main k, (forall b, In b bs -> eb_dim b = DimOf (eb_type b) /\ (eb_dim b <= 2)%nat) ->
  (forall b ns, In b bs -> In ns (eb_elements b) -> (num_corners (eb_type b) <= length ns)%nat /\ forall n, In n (corners (eb_type b) ns) -> low <= n) ->
  exists main' k', scan_blocks low bs main k = Ok (main', k') /\ (k <= k')%nat /\ ((exists b, In b bs /\ DimOf (eb_type b) = 2%nat /\ eb_elements b <> []) -> (k < k')%nat).
Proof.
  intros low. induction bs as [|b bs IH]; intros main k H1 H2; cbn [scan_blocks]; [exists main, k; split; [reflexivity|]; split; [auto|intros (? & [] & _)]|].
  destruct (H1 b (or_introl eq_refl)) as [D1 D2]. rewrite (proj2 (Nat.leb_le _ _) D2), (proj2 (Nat.eqb_eq _ _) D1). cbn [lf_assert bind].
  assert (H1' : forall x, In x bs -> eb_dim x = DimOf (eb_type x) /\ (eb_dim x <= 2)%nat) by (intros; apply H1; right; auto).
  assert (H2' : forall x ns, In x bs -> In ns (eb_elements x) -> (num_corners (eb_type x) <= length ns)%nat /\ forall n, In n (corners (eb_type x) ns) -> low <= n) by (intros; apply H2; auto; right; auto).
  destruct (Nat.eqb_spec (eb_dim b) 2) as [E|E].
  - destruct (refel_exists (eb_type b)) as (t & ET); [lia|]. rewrite ET. cbn [bind]. destruct (refel_of _ _ ET) as (_ & NC & _).
    destruct (scan_block_ok low t (eb_elements b) main) as (m & ->); [intros ns Hn; rewrite NC; apply (H2 b ns (or_introl eq_refl) Hn)|]. cbn [bind].
    destruct (IH m (k + length (eb_elements b))%nat H1' H2') as (main' & k' & -> & L1 & L2). exists main', k'. split; [reflexivity|]. split; [lia|].
    intros (x & [<-|Hx] & Q1 & Q2); [destruct (eb_elements b); [elim Q2; reflexivity|cbn in *; lia]|]. assert (k + length (eb_elements b) < k')%nat by (apply L2; eauto). lia.
  - cbn [bind]. destruct (IH main k H1' H2') as (main' & k' & -> & L1 & L2). exists main', k'. split; [reflexivity|]. split; [lia|]. intros (x & [<-|Hx] & Q1 & Q2); [lia|]. apply L2. eauto.
Qed.
Lemma make_map_ok : forall es, (forall e, In e es -> (0 <= fst e)%Z) -> exists f, make_map es = Ok f /\ forall t, (0 <= t)%Z -> (t = 0%Z \/ exists e, In e es /\ (t <= fst e)%Z) -> exists l, f t = Ok l.
Proof.
  intros es H. unfold make_map. rewrite (proj2 (forallb_forall _ _)) by (intros x Hx; apply Z.leb_le, H, Hx). cbn [lf_assert bind]. eexists. split; [reflexivity|]. intros t H0 HE. cbn beta.
  assert (MX : forall l a, (a <= fold_left (fun a (e : Z * list Z) => Z.max a (fst e)) l a)%Z /\ forall e, In e l -> (fst e <= fold_left (fun a (e : Z * list Z) => Z.max a (fst e)) l a)%Z).
  { induction l as [|x l IH]; intros a; cbn [fold_left]; [split; [lia|intros ? []]|]. destruct (IH (Z.max a (fst x))) as [A B]. split; [lia|]. intros e [<-|He]; [lia|auto]. }
  assert (TM : (t <= max_tag es)%Z). { unfold max_tag. destruct (MX es 0%Z) as [A B]. destruct HE as [->|(e & He & Hl)]; [exact A|specialize (B e He); lia]. }
  rewrite (proj2 (Z.leb_le _ _) H0), (proj2 (Z.leb_le _ _) TM). cbn [andb]. eauto.
Qed.
Theorem outcome4 : forall file, valid_content dw (content4 file) -> valid_file4 file -> outcome_spec (content4 file) (read4 dw (new_factory check) file).
Proof.
  intros file V VF. unfold read4. rewrite (dim_ok dw (vc_dim _ _ V)). cbn [bind].
  assert (IV : exists i, In i (co_items (content4 file)) /\ DimOf (it_type i) = 2%nat).
  { pose proof (vc_cells _ _ V) as NC. destruct (items_of 2 (content4 file)) as [|i r] eqn:E; [elim NC; reflexivity|].
    assert (In i (items_of 2 (content4 file))) as Hi by (rewrite E; left; reflexivity). apply filter_In in Hi as [Hi D]. exists i. split; [auto|apply Nat.eqb_eq, D]. }
  assert (BV : forall b ns, In b (f4_blocks file) -> In ns (eb_elements b) -> (num_corners (eb_type b) <= length ns)%nat /\ forall n, In n (corners (eb_type b) ns) -> (f4_min file <= n <= f4_max file)%nat).
  { intros b ns Hb Hn. destruct (block4_item _ _ _ Hb Hn) as (i & I1 & I2 & I3). destruct (corner_count _ (vc_type _ _ V i I1)) as (A & _). destruct (vc_nodes _ _ V i I1) as [L IN]. rewrite I2, I3 in *. split; [lia|].
    intros n Hc. apply (vf_range _ VF). apply IN. exact (in_first _ _ _ _ Hc). }
  destruct IV as (i & I1 & I2). destruct (item_block4 _ _ I1) as (b0 & B1 & B2 & B3).
  assert (MM : (f4_min file <= f4_max file)%nat).
  { destruct (BV b0 _ B1 B3) as [L R]. destruct (corner_count _ (vc_type _ _ V i I1)) as (A & _ & _ & _ & D). specialize (D I2). rewrite B2 in *. unfold corners in R. destruct (it_nodes i) as [|n r]; [cbn in L; lia|].
    destruct (num_corners (eb_type b0)); [lia|]. specialize (R n (or_introl eq_refl)). lia. }
  rewrite (proj2 (Nat.leb_le _ _)) by lia. cbn [lf_assert bind].
  destruct (scan_blocks_ok (f4_min file) (f4_blocks file) (repeat false (f4_max file + 1 - f4_min file)) 0) as (main & k0 & S0 & _ & K0).
  { intros b Hb. exact (vf_dim _ VF b Hb). } { intros b ns Hb Hn. destruct (BV b ns Hb Hn) as [A B]. split; [auto|]. intros n H. apply B in H. lia. }
  rewrite S0. cbn [bind fst snd]. rewrite (proj2 (Nat.ltb_lt _ _)). 2: { apply K0. exists b0. split; [auto|]. split; [congruence|]. intros E. rewrite E in B3. destruct B3. }
  cbn [lf_assert bind]. destruct (scan_blocks_nth _ _ _ _ _ _ S0) as (SL & S2 & S3 & S4). rewrite repeat_length in SL.
  destruct (insert_nodes4_ok dw (f4_min file) main (concat (f4_nodes file)) (repeat None (length main)) (repeat None (length main)) (mkBuild (new_factory check) [] [] [])) as (((gi2mi, gi2i), b) & I0).
  { intros n Hn. apply (vf_range _ VF) in Hn. rewrite repeat_length. lia. }
  { intros D n c Hn M. apply (vc_planar _ _ V D n c Hn). rewrite S4, nth_repeat_false in M. cbn [orb] in M. cbn [content4 co_main]. fold (main4 (f4_blocks file)).
    assert (RN : (f4_min file <= n)%nat) by (apply (vf_range _ VF), in_map_iff; exists (n, c); auto). replace (n - f4_min file + f4_min file)%nat with n in M by lia. exact M. }
  rewrite I0. cbn [bind]. destruct (tables4 _ _ _ _ _ _ _ _ (vc_unique _ _ V) S0 I0) as (-> & TB). fold (coords4 (f4_min file) gi2i). fold (index4 (f4_min file) gi2mi). rewrite loop4 by (intros; apply S2; auto).
  destruct (insertion_ok dw (content4 file) V check _ _ _ _ TB (items_4 file) (groups4_nonempty _ _)) as (b' & m & h & rets & E1 & E2 & E3). rewrite E1. cbn [bind].
  apply (outcome_of_build _ _ h rets (b_fac b') V (main_corner4 dw file V) E2 E3).
  - intros M ->. cbn [bind]. set (ents := if (f4_num_partitions file =? 0)%nat then f4_entities file else f4_partitioned file).
    assert (EL : forall d, ents d = listed file d) by (intros d; unfold ents, listed; destruct (f4_num_partitions file =? 0)%nat; reflexivity). rewrite !EL.
    destruct (make_map_ok (listed file 0)) as (f0 & -> & F0); [intros; apply (vf_tags _ VF 0); auto|]. destruct (make_map_ok (listed file 1)) as (f1 & -> & F1); [intros; apply (vf_tags _ VF 1); auto|].
    destruct (make_map_ok (listed file 2)) as (f2 & -> & F2); [intros; apply (vf_tags _ VF 2); auto|]. cbn [bind].
    edestruct (physical_ok M m) as (ph & ->); [|cbn [bind]; eauto].
    intros c js j Hc Hjs Hj. destruct (mi_ids _ _ _ _ _ _ _ _ _ TB E1 eq_refl c js j Hc Hjs Hj) as (g & G1 & G2 & G3). destruct (groups4_type _ _ _ _ G1 G3) as (eb & T1 & _ & T2). rewrite Nat.sub_0_r in T1. cbn beta.
    unfold at_. rewrite T1. cbn [bind]. destruct (vf_entity _ VF eb (nth_error_In _ _ T1)) as [N0 NX]. destruct (vf_dim _ VF eb (nth_error_In _ _ T1)) as [D1 _]. rewrite D1, T2, G2 in NX.
    destruct c as [|[|[|c]]]; [| | |lia]; cbn [Nat.sub] in NX.
    + destruct (F2 _ N0 NX) as (l & ->). cbn [bind]. eauto.
    + destruct (F1 _ N0 NX) as (l & ->). cbn [bind]. eauto.
    + destruct (F0 _ N0 NX) as (l & ->). cbn [bind]. eauto.
  - intros ->. reflexivity.
  - intros ->. reflexivity.
Qed.
End Outcome.
