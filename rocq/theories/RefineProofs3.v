(** Proofs for C28-C32, part 1: lists made of blocks, the tables of children,
    meshes given by their edges and cells. *)
From Coq Require Import List Arith Lia Bool ZArith Permutation.
Import ListNotations.
From Verif Require Import Base MeshModel MeshSpec MeshProofs4 MeshView MeshViewProofs RefPatModel RefPatSpec RefPatProofs2 RefineModel RefineSpec RefineProofs RefineProofs2.
Local Open Scope nat_scope.

(** * Blocks *)
Fixpoint off (f : nat -> nat) (n : nat) : nat := match n with 0 => 0 | S k => off f k + f k end.

Lemma seq_S' : forall n, seq 0 (S n) = seq 0 n ++ [n].
Proof. intros. rewrite seq_S. reflexivity. Qed.

Lemma off_mono : forall f a b, a <= b -> off f a <= off f b.
Proof. induction 1; simpl; lia. Qed.
Lemma off_lt : forall f c n k, c < n -> k < f c -> off f c + k < off f n.
Proof. intros f c n k H K. pose proof (off_mono f (S c) n H). simpl in H0. lia. Qed.
Lemma off_ext : forall f g n, (forall i, i < n -> f i = g i) -> off f n = off g n.
Proof. induction n; simpl; intros H; auto. rewrite IHn, H; auto. Qed.
Lemma off_locate : forall f n i, i < off f n -> exists c k, c < n /\ k < f c /\ i = off f c + k.
Proof.
  induction n; simpl; intros i H; [lia|]. destruct (Nat.lt_ge_cases i (off f n)) as [L|L].
  - destruct (IHn i L) as (c & k & ? & ? & ?). exists c, k. auto.
  - exists n, (i - off f n). lia.
Qed.
Lemma off_inj : forall f c k c' k', k < f c -> k' < f c' -> off f c + k = off f c' + k' -> c = c' /\ k = k'.
Proof.
  intros f c k c' k' K K' E. destruct (Nat.lt_trichotomy c c') as [H|[H|H]].
  - pose proof (off_lt f c c' k H K). lia.
  - subst. split; auto. lia.
  - pose proof (off_lt f c' c k' H K'). lia.
Qed.

Section Blocks.
Variables (A : Type) (f : nat -> list A).
Definition bl (k : nat) : nat := length (f k).
Lemma flat_length : forall n, length (flat_map f (seq 0 n)) = off bl n.
Proof.
  induction n; [reflexivity|]. rewrite seq_S', flat_map_app, app_length, IHn. simpl. rewrite app_nil_r. auto.
Qed.
Lemma flat_nth : forall n c k, c < n -> k < bl c -> nth_error (flat_map f (seq 0 n)) (off bl c + k) = nth_error (f c) k.
Proof.
  induction n; intros c k H K; [lia|]. rewrite seq_S', flat_map_app. simpl. rewrite app_nil_r.
  destruct (Nat.eq_dec c n) as [->|N].
  - rewrite nth_error_app2 by (rewrite flat_length; lia). rewrite flat_length. f_equal. lia.
  - rewrite nth_error_app1; [apply IHn; auto; lia|]. rewrite flat_length. apply off_lt; auto; lia.
Qed.
Lemma flat_nth_inv : forall n i x, nth_error (flat_map f (seq 0 n)) i = Some x ->
  exists c k, c < n /\ nth_error (f c) k = Some x /\ k < bl c /\ i = off bl c + k.
Proof.
  intros n i x H. assert (L : i < off bl n) by (rewrite <- flat_length; apply nth_error_Some; congruence).
  destruct (off_locate _ _ _ L) as (c & k & C & K & ->). rewrite flat_nth in H by auto. eauto 8.
Qed.
Lemma flat_nth_some : forall n c k x, c < n -> nth_error (f c) k = Some x ->
  nth_error (flat_map f (seq 0 n)) (off bl c + k) = Some x.
Proof. intros. rewrite flat_nth; auto. apply nth_error_Some. congruence. Qed.
End Blocks.
Arguments bl {A} f k.

(** * Tables *)
Definition ln_eqb (a b : lnode) : bool :=
  match a, b with V i, V j | M i, M j => i =? j | RefineModel.C, RefineModel.C => true | _, _ => false end.
Lemma ln_eqb_ok : forall a b, ln_eqb a b = true <-> a = b.
Proof.
  destruct a, b; simpl; split; intros H; try discriminate; auto; try (apply Nat.eqb_eq in H; congruence);
  injection H as ->; apply Nat.eqb_refl.
Qed.
Definition ln_mem (a : lnode) (l : list lnode) : bool := existsb (ln_eqb a) l.
Lemma ln_mem_in : forall a l, ln_mem a l = true <-> In a l.
Proof.
  intros. unfold ln_mem. rewrite existsb_exists. split.
  - intros (x & H & E). apply ln_eqb_ok in E as ->. auto.
  - intros H. exists a. split; auto. apply ln_eqb_ok; auto.
Qed.
Fixpoint ln_nodup (l : list lnode) : bool := match l with [] => true | a :: r => negb (ln_mem a r) && ln_nodup r end.
Lemma ln_nodup_ok : forall l, ln_nodup l = true -> NoDup l.
Proof.
  induction l; simpl; intros H; constructor; apply andb_true_iff in H as [H1 H2]; auto.
  intros X. apply ln_mem_in in X. rewrite X in H1. discriminate.
Qed.
Definition all_pairs {A} (R : A -> A -> bool) (l : list A) : bool :=
  forallb (fun i => forallb (fun j => (i =? j) ||
    match nth_error l i, nth_error l j with Some x, Some y => R x y | _, _ => true end) (seq 0 (length l))) (seq 0 (length l)).
Lemma all_pairs_ok : forall A (R : A -> A -> bool) l, all_pairs R l = true ->
  forall i j x y, nth_error l i = Some x -> nth_error l j = Some y -> i <> j -> R x y = true.
Proof.
  intros A R l H i j x y Hi Hj N. unfold all_pairs in H. rewrite forallb_forall in H.
  assert (Li : i < length l) by (apply nth_error_Some; congruence).
  assert (Lj : j < length l) by (apply nth_error_Some; congruence).
  specialize (H i). rewrite in_seq, forallb_forall in H. specialize (H ltac:(lia) j). rewrite in_seq in H.
  specialize (H ltac:(lia)). rewrite Hi, Hj in H. apply orb_true_iff in H as [H|H]; auto.
  apply Nat.eqb_eq in H. lia.
Qed.

(** The traces of the children of a cell on its edge [j], in terms of local nodes. *)
Definition ltrace (n : nat) (split : list nat) (j : nat) : list (lnode * lnode) :=
  if existsb (Nat.eqb j) split then [(V j, M j); (M j, V (S j mod n))] else [(V j, V (S j mod n))].

Definition lvalid (n : nat) (split : list nat) (centre : bool) (x : lnode) : bool :=
  match x with V k => k <? n | M k => (k <? n) && existsb (Nat.eqb k) split | RefineModel.C => centre end.
Definition int_shape (n : nat) (e : lnode * lnode) : bool :=
  match e with
  | (M j, V k) | (V k, M j) => negb (k =? j) && negb (k =? S j mod n)
  | (M j, M k) => negb (j =? k)
  | (RefineModel.C, V _) | (V _, RefineModel.C) | (RefineModel.C, M _) | (M _, RefineModel.C) => true
  | _ => false
  end.
Definition has_c (e : lnode * lnode) : bool := ln_eqb (fst e) RefineModel.C || ln_eqb (snd e) RefineModel.C.
Definition table_check (t : refel) (p : refpat) (a : option nat) : bool :=
  let n := num_edges t in let sp := split_edges t p (anchor_nat a) in
  match children_of t p a with
  | Ok lc =>
      let cs := lc_cells lc in let es := lc_edges lc in
      forallb (fun c => ((length c =? 3) || (length c =? 4)) && ln_nodup c &&
         forallb (lvalid n sp (lc_centre lc)) c &&
         forallb (fun j => negb (ln_mem (V j) c && ln_mem (V (S j mod n)) c && ln_mem (M j) c)) (seq 0 n)) cs &&
      all_pairs (fun c d => length (filter (fun x => ln_mem x d) c) <? 3) cs &&
      forallb (fun e => int_shape n e && lvalid n sp (lc_centre lc) (fst e) && lvalid n sp (lc_centre lc) (snd e)) es &&
      all_pairs (fun e d => negb (seg_eqb _ ln_eqb e d)) es &&
      segs_check _ ln_eqb (flat_map sides cs) (flat_map (ltrace n sp) (seq 0 n) ++ es ++ es) &&
      implb (lc_centre lc) (existsb has_c es)
  | _ => false
  end.
Lemma tables_checked : forall t p a, (t = kTria \/ t = kQuad) -> p <> rp_nil -> implemented t p = true ->
  good_anchor t p a -> table_check t p a = true.
Proof.
  intros t p a [->| ->] Hp Hi Ha;
  destruct p; try contradiction; try discriminate; destruct a as [k|]; cbn in Ha; try discriminate;
  try (destruct k as [|[|[|[|k]]]]; [| | | |lia]); try lia; vm_compute; reflexivity.
Qed.

Record table_ok (n : nat) (sp : list nat) (lc : local_children) : Prop := {
  ta_len : forall c, In c (lc_cells lc) -> length c = 3 \/ length c = 4;
  ta_nodup : forall c, In c (lc_cells lc) -> NoDup c;
  ta_valid : forall c x, In c (lc_cells lc) -> In x c -> lvalid n sp (lc_centre lc) x = true;
  ta_side : forall c j, In c (lc_cells lc) -> j < n -> In (V j) c -> In (V (S j mod n)) c -> In (M j) c -> False;
  ta_cells : forall i j c d, nth_error (lc_cells lc) i = Some c -> nth_error (lc_cells lc) j = Some d -> i <> j ->
     length (filter (fun x => ln_mem x d) c) < 3;
  ta_shape : forall e, In e (lc_edges lc) -> int_shape n e = true;
  ta_evalid : forall e, In e (lc_edges lc) -> lvalid n sp (lc_centre lc) (fst e) = true /\ lvalid n sp (lc_centre lc) (snd e) = true;
  ta_edges : forall i j e d, nth_error (lc_edges lc) i = Some e -> nth_error (lc_edges lc) j = Some d -> same_seg e d -> i = j;
  ta_segs : same_segs (flat_map sides (lc_cells lc)) (flat_map (ltrace n sp) (seq 0 n) ++ lc_edges lc ++ lc_edges lc);
  ta_centre : lc_centre lc = true -> exists e, In e (lc_edges lc) /\ (fst e = RefineModel.C \/ snd e = RefineModel.C)
}.
Lemma seg_eqb_refl : forall e d, same_seg e d -> seg_eqb _ ln_eqb e d = true.
Proof.
  intros [a b] [c d] [E|E]; injection E as -> ->; unfold seg_eqb; cbn [fst snd]; apply orb_true_iff; [left|right];
  apply andb_true_iff; split; apply ln_eqb_ok; auto.
Qed.
Theorem tables_ok : forall t p a, (t = kTria \/ t = kQuad) -> p <> rp_nil -> implemented t p = true ->
  good_anchor t p a -> exists lc, children_of t p a = Ok lc /\ table_ok (num_edges t) (split_edges t p (anchor_nat a)) lc.
Proof.
  intros t p a Ht Hp Hi Ha. pose proof (tables_checked t p a Ht Hp Hi Ha) as H. unfold table_check in H.
  destruct (children_of t p a) as [lc| |]; try discriminate. exists lc. split; auto.
  set (n := num_edges t) in *. set (sp := split_edges t p (anchor_nat a)) in *.
  repeat rewrite andb_true_iff in H. destruct H as (((((H1 & H2) & H3) & H4) & H5) & H6).
  rewrite forallb_forall in H1, H3.
  assert (G : forall c, In c (lc_cells lc) -> (length c = 3 \/ length c = 4) /\ NoDup c /\
     (forall x, In x c -> lvalid n sp (lc_centre lc) x = true) /\
     (forall j, j < n -> In (V j) c -> In (V (S j mod n)) c -> In (M j) c -> False)).
  { intros c Hc. specialize (H1 c Hc). repeat rewrite andb_true_iff in H1. destruct H1 as (((A1 & A2) & A3) & A4).
    split; [|split; [apply ln_nodup_ok; auto|split]].
    - apply orb_true_iff in A1 as [A1|A1]; apply Nat.eqb_eq in A1; auto.
    - rewrite forallb_forall in A3. auto.
    - intros j Hj B1 B2 B3. rewrite forallb_forall in A4. specialize (A4 j). rewrite in_seq in A4. specialize (A4 ltac:(lia)).
      apply ln_mem_in in B1, B2, B3. rewrite B1, B2, B3 in A4. discriminate. }
  constructor.
  - intros c Hc. apply G; auto.
  - intros c Hc. apply G; auto.
  - intros c x Hc. apply G; auto.
  - intros c j Hc. apply G; auto.
  - intros i j c d Hi' Hj N. pose proof (all_pairs_ok _ _ _ H2 i j c d Hi' Hj N) as X. apply Nat.ltb_lt in X. auto.
  - intros e He. specialize (H3 e He). repeat rewrite andb_true_iff in H3. tauto.
  - intros e He. specialize (H3 e He). repeat rewrite andb_true_iff in H3. tauto.
  - intros i j e d Hi' Hj S. destruct (Nat.eq_dec i j) as [|N]; auto. exfalso.
    pose proof (all_pairs_ok _ _ _ H4 i j e d Hi' Hj N) as X. cbv beta in X. rewrite (seg_eqb_refl _ _ S) in X. discriminate.
  - apply (segs_check_ok _ ln_eqb); auto. intros x y. apply ln_eqb_ok.
  - intros Hc. rewrite Hc in H6. simpl in H6. apply existsb_exists in H6 as (e & He & X). exists e. split; auto.
    apply orb_true_iff in X as [X|X]; apply ln_eqb_ok in X; auto.
Qed.

(** * Meshes given by edges and cells *)
Definition pair_eqb (p q : nat * nat) : bool :=
  ((fst p =? fst q) && (snd p =? snd q)) || ((fst p =? snd q) && (snd p =? fst q)).
Lemma pair_eqb_ok : forall p q, pair_eqb p q = true <-> same_pair p q.
Proof.
  intros. unfold pair_eqb, same_pair. rewrite orb_true_iff, !andb_true_iff, !Nat.eqb_eq. tauto.
Qed.
Lemma same_pair_sym : forall p q, same_pair p q -> same_pair q p.
Proof. unfold same_pair. intros. intuition auto. Qed.
Lemma same_pair_trans : forall p q r, same_pair p q -> same_pair q r -> same_pair p r.
Proof. unfold same_pair. intros. intuition congruence. Qed.
Fixpoint find_edge (es : list (nat * nat)) (p : nat * nat) : nat :=
  match es with [] => 0 | e :: r => if pair_eqb e p then 0 else S (find_edge r p) end.
Lemma find_edge_ok : forall es p, (exists e, In e es /\ same_pair e p) ->
  exists q, nth_error es (find_edge es p) = Some q /\ same_pair q p.
Proof.
  induction es as [|e es IH]; intros p (x & Hx & S); [destruct Hx|]. simpl. destruct (pair_eqb e p) eqn:E.
  - exists e. split; auto. apply pair_eqb_ok; auto.
  - destruct Hx as [->|Hx]; [apply pair_eqb_ok in S; congruence|]. apply IH. eauto.
Qed.
Definition msides (ns : list nat) : list (nat * nat) := map (MeshSpec.side ns) (seq 0 (length ns)).
Definition cell_of (es : list (nat * nat)) (ns : list nat) : cellv :=
  mkCellv ns (map (find_edge es) (msides ns))
             (map (fun s => fst (nth (find_edge es s) es (0, 0)) =? fst s) (msides ns)).
Definition mesh_of (n : nat) (es : list (nat * nat)) (cs : list (list nat)) : mesh :=
  mkMeshV n es (map (cell_of es) cs).

Section MeshOf.
Variables (n : nat) (es : list (nat * nat)) (cs : list (list nat)).
Hypothesis Eok : forall i a b, nth_error es i = Some (a, b) -> a <> b /\ a < n /\ b < n.
Hypothesis Euniq : forall i j p q, nth_error es i = Some p -> nth_error es j = Some q -> same_pair p q -> i = j.
Hypothesis Clen : forall c, In c cs -> length c = 3 \/ length c = 4.
Hypothesis Cnodes : forall c v, In c cs -> In v c -> v < n.
Hypothesis Csides : forall c s, In c cs -> In s (msides c) -> exists e, In e es /\ same_pair e s.

Lemma mesh_of_wf : wf_mesh (mesh_of n es cs).
Proof.
  constructor.
  - cbn. rewrite Forall_forall. intros c Hc. apply in_map_iff in Hc as (ns & <- & Hn).
    constructor; cbn.
    + auto.
    + unfold msides. rewrite !map_length, seq_length. auto.
    + unfold msides. rewrite !map_length, seq_length. auto.
    + rewrite Forall_forall. eauto.
    + intros j Hj. unfold local_edge_ok. cbn.
      assert (Hs : nth_error (msides ns) j = Some (MeshSpec.side ns j)).
      { unfold msides. rewrite nth_error_map. rewrite (nth_error_nth' _ 0) by (rewrite seq_length; auto).
        rewrite seq_nth by auto. reflexivity. }
      destruct (find_edge_ok es (MeshSpec.side ns j)) as ([p q] & Hq & S).
      { apply (Csides ns); auto. eapply nth_error_In; eauto. }
      exists (find_edge es (MeshSpec.side ns j)), (p =? fst (MeshSpec.side ns j)), p, q.
      split; [rewrite nth_error_map, Hs; auto|]. split.
      { rewrite nth_error_map, Hs. cbn. rewrite (nth_error_nth _ _ _ Hq). reflexivity. }
      split; auto. unfold same_pair, MeshSpec.side, next_corner in *. cbn [fst snd] in *.
      destruct (Nat.eqb_spec p (nth j ns 0)) as [E|E]; destruct (Eok _ _ _ Hq); intuition congruence.
  - cbn. auto.
  - cbn. intros i j a b c d Hi Hj H. apply (Euniq i j _ _ Hi Hj). unfold same_pair. cbn. tauto.
Qed.

Lemma mesh_of_complete : (forall e, In e es -> exists c s, In c cs /\ In s (msides c) /\ same_pair e s) ->
  (forall v, v < n -> exists a b, In (a, b) es /\ (v = a \/ v = b)) -> complete_mesh (mesh_of n es cs).
Proof.
  intros H1 H2. split; [|exact H2]. cbn. intros i Hi. destruct (nth_error es i) as [p|] eqn:E.
  2:{ apply nth_error_None in E; lia. }
  destruct (H1 p (nth_error_In _ _ E)) as (c & s & Hc & Hs & S).
  exists (cell_of es c). split; [apply in_map; auto|]. cbn. apply in_map_iff. exists s. split; auto.
  destruct (find_edge_ok es s) as (q & Hq & Sq); [eauto|]. eapply Euniq; eauto.
  eapply same_pair_trans; eauto. apply same_pair_sym; auto.
Qed.

(** Number of cells at an edge. *)
Lemma mesh_of_count : forall i p, nth_error es i = Some p ->
  count_occ Nat.eq_dec (flat_map cv_edges (mv_cells (mesh_of n es cs))) i =
  length (filter (pair_eqb p) (flat_map msides cs)).
Proof.
  intros i p Hp. cbn. clear Cnodes Clen Eok. induction cs as [|c r IH]; auto.
  cbn [map flat_map]. rewrite count_occ_app, filter_app, app_length, IH by (intros; apply (Csides c0); auto; right; auto).
  f_equal. cbn. assert (Q : forall s, In s (msides c) -> exists e, In e es /\ same_pair e s) by (intros; apply (Csides c); auto; left; auto).
  clear IH Csides. induction (msides c) as [|s l IH]; auto. cbn.
  rewrite IH by (intros; apply Q; right; auto).
  destruct (find_edge_ok es s) as (q & Hq & Sq); [apply Q; left; auto|].
  destruct (Nat.eq_dec (find_edge es s) i) as [E|E].
  - assert (q = p) by congruence. subst q. apply pair_eqb_ok in Sq. rewrite Sq. reflexivity.
  - destruct (pair_eqb p s) eqn:B; auto. exfalso. apply E. apply pair_eqb_ok in B.
    eapply Euniq; eauto. eapply same_pair_trans; eauto. apply same_pair_sym; auto.
Qed.

Lemma mesh_of_built : forall check, (check = true -> complete_mesh (mesh_of n es cs)) ->
  exists M, mesh_ctor check n (map (fun e => (e, true)) es) (map (fun c => (c, true)) cs) = Ok M /\ view M = mesh_of n es cs.
Proof.
  intros check Hc. destruct (realizable _ mesh_of_wf check Hc) as (M & (rets & f & R & B) & E).
  exists M. split; auto.
  destruct (run_spec (history_of (mesh_of n es cs)) (new_factory check)) as [RS _].
  destruct (RS (hist_legal _ mesh_of_wf)) as (rets' & R' & _).
  rewrite R' in R. injection R as <- <-. unfold build in B.
  cbn [fst f_check f_nodes f_edges f_cells new_factory app plus] in B.
  rewrite (hist_points _ mesh_of_wf), (hist_segments _ mesh_of_wf), (hist_cells _ mesh_of_wf) in B.
  cbn [mesh_of mv_nodes mv_edges mv_cells] in B. rewrite !map_map in B. cbn [cv_nodes cell_of] in B. rewrite <- B. f_equal.
  apply map_ext. intros [a b]. reflexivity.
Qed.
End MeshOf.
