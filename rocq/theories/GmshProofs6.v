(** Proofs for C67 and C68: version 2. *)
From Coq Require Import Reals String List Arith Bool ZArith Lia.
Import ListNotations.
From Verif Require Import Base MeshModel MeshSpec GeoModel GmshModel GmshSpec GmshProofs GmshProofs2 GmshProofs3 GmshProofs4 GmshProofs5.
Local Open Scope list_scope.

(** What both versions have in common after the nodes have been inserted. *)
Record tables (C : content) (coords : nat -> res vec) (index : nat -> res (option nat)) : Prop := {
  tb_coords : forall n c, coords n = Ok c -> In (n, c) (co_nodes C);
  tb_index : forall n v, index n = Ok (Some v) -> exists c, nth_error (main_nodes C) v = Some (n, c);
  tb_coords' : forall n c, In (n, c) (co_nodes C) -> coords n = Ok c;
  tb_index' : forall n c v, nth_error (main_nodes C) v = Some (n, c) -> index n = Ok (Some v)
}.
Record finished (check : bool) (dw : nat) (C : content) (coords : nat -> res vec) (index : nat -> res (option nat)) (gs : list grp) (tg : nat -> list Z)
  (tags : nat -> nat -> res (list Z)) (r : reader) : Prop := {
  fi_tables : tables C coords index;
  fi_items : co_items C = map (item_of tg) gs;
  fi_tags : forall g j l, In g gs -> In j (g_ids g) -> tags (2 - DimOf (g_type g)) j = Ok l -> l = tg j;
  fi_steps : exists b' m M ph, insert_groups dw coords index gs (start check C) (mkMi [] [] []) = Ok (b', m) /\ fst (build (b_fac b')) = Ok M /\
     physical_of M m tags = Ok ph /\ r = mkReader M (b_points b') (b_edges b') (b_cells b') ph (rd_name2nr r) (rd_nr2name r)
}.
Theorem finished_imported : forall check dw C coords index gs tg tags r, finished check dw C coords index gs tg tags r -> imported check dw C r.
Proof.
  intros check dw C coords index gs tg tags r [[T1 T2 _ _] FI FT (b' & m & M & ph & E1 & E2 & E3 & ->)].
  exact (import_common check dw C coords index gs tg tags T1 T2 FI FT b' m M ph _ _ E1 E2 E3).
Qed.
Theorem finished_points : forall check dw C coords index gs tg tags r, finished check dw C coords index gs tg tags r -> repeated_points_last C ->
  forall v n c, nth_error (main_nodes C) v = Some (n, c) -> PhysicalEntityNr r 2 v = Ok (point_tags C n).
Proof.
  intros check dw C coords index gs tg tags r [[T1 T2 _ T3] FI FT (b' & m & M & ph & E1 & E2 & E3 & ->)] RP.
  exact (points_common check dw C coords index gs tg tags T1 T2 T3 FI FT b' m M ph _ _ E1 E2 E3 RP).
Qed.

Lemma nth_repeat_false : forall k n, nth k (repeat false n) false = false.
Proof. intros. apply nth_repeat. Qed.
Lemma filter_same : forall A (p q : A -> bool) l, (forall a, p a = q a) -> filter p l = filter q l.
Proof. intros A p q l H. induction l as [|a l IH]; [reflexivity|]. cbn [filter]. rewrite H, IH. reflexivity. Qed.
Lemma nodup_at : forall A (l : list (nat * A)) n a b, NoDup (map fst l) -> In (n, a) l -> In (n, b) l -> a = b.
Proof.
  intros A l n a b ND. induction l as [|[k x] l IH]; [intros []|]. cbn [map] in ND. apply NoDup_cons_iff in ND as [N ND]. intros [H|H] [H'|H'].
  - congruence.
  - injection H as -> ->. elim N. change (fst (n, b)) with n || idtac. apply in_map_iff. exists (n, b). auto.
  - injection H' as -> ->. elim N. apply in_map_iff. exists (n, a). auto.
  - auto.
Qed.
Lemma nodup_nth : forall A (l : list (nat * A)) v w n a b, NoDup (map fst l) -> nth_error l v = Some (n, a) -> nth_error l w = Some (n, b) -> v = w.
Proof.
  intros A l v w n a b ND H1 H2. apply (proj1 (NoDup_nth_error (map fst l)) ND).
  - apply nth_error_Some. rewrite nth_error_map, H1. discriminate.
  - rewrite !nth_error_map, H1, H2. reflexivity.
Qed.
Lemma nodup_filter : forall A (p : nat * A -> bool) l, NoDup (map fst l) -> NoDup (map fst (filter p l)).
Proof.
  intros A p l. induction l as [|x l IH]; intros ND; [constructor|]. cbn [map filter] in *. apply NoDup_cons_iff in ND as [N ND]. destruct (p x); [|auto].
  cbn [map]. constructor; auto. intros X. apply N. apply in_map_iff in X as (y & E & Hy). apply filter_In in Hy as [Hy _]. rewrite <- E. apply in_map. exact Hy.
Qed.
Lemma nth_error_repeat_none : forall A n k (x : A), nth_error (repeat (@None A) n) k = Some (Some x) -> False.
Proof. intros A n k x H. assert (In (Some x) (repeat (@None A) n)) by (eapply nth_error_In; eauto). apply repeat_spec in H0. discriminate. Qed.

Definition coords2 (file : file2) (gi2i : list (option nat)) (n : nat) : res vec :=
  do i <- at_ gi2i n; match i with Some k => do nd <- at_ (f2_nodes file) k; Ok (snd nd) | None => Assert end.
Lemma tables2 : forall dw check file main k0 gi2mi gi2i b, NoDup (map fst (f2_nodes file)) ->
  scan_elements (f2_elements file) (repeat false (length (f2_nodes file))) 0 = Ok (main, k0) ->
  insert_nodes dw main (f2_nodes file) 0 (repeat None (length main)) (repeat None (length main)) (mkBuild (new_factory check) [] [] []) = Ok (gi2mi, gi2i, b) ->
  b = start check (content2 file) /\ tables (content2 file) (coords2 file gi2i) (at_ gi2mi).
Proof.
  intros dw check file main k0 gi2mi gi2i b ND S0 I0. destruct (scan_elements_nth _ _ _ _ _ S0) as (_ & _ & S3 & S4 & _).
  destruct (insert_nodes_spec _ _ _ _ _ _ _ _ _ _ I0 ND (repeat_length _ _)) as (B1 & B2 & B3 & B4 & B5 & B6). cbn [b_fac b_points b_edges b_cells new_factory f_nodes app] in *.
  assert (MM : filter (is_main main) (f2_nodes file) = main_nodes (content2 file)).
  { unfold main_nodes, is_main. cbn [content2 co_nodes co_main]. apply filter_same. intros nd. rewrite S4, nth_repeat_false. reflexivity. }
  rewrite MM in *. split; [exact B1|]. constructor.
  - intros n c H. unfold coords2 in H. apply bind_ok in H as (i & E1 & E2). apply at_ok in E1. destruct i as [k|]; [|discriminate]. apply bind_ok in E2 as (nd & E2 & E3). apply at_ok in E2. injection E3 as <-.
    destruct (in_dec Nat.eq_dec n (map fst (f2_nodes file))) as [IN|NI].
    + apply in_map_iff in IN as ((n', c') & <- & IN). apply In_nth_error in IN as (p & IN). cbn [fst] in *. pose proof (B5 _ _ _ IN) as E. rewrite E1 in E. injection E as ->. cbn [Nat.add] in E2.
      assert (nd = (n', c')) by congruence. subst nd. apply nth_error_In in IN. exact IN.
    + apply (B6 n k NI) in E1. elim (nth_error_repeat_none _ _ _ _ E1).
  - intros n v H. apply at_ok in H. destruct (in_dec Nat.eq_dec n (map fst (main_nodes (content2 file)))) as [IN|NI].
    + apply in_map_iff in IN as ((n', c') & <- & IN). apply In_nth_error in IN as (p & IN). cbn [fst] in *. pose proof (B3 _ _ _ IN) as E. rewrite H in E. injection E as ->. eauto.
    + rewrite (B4 n NI) in H. elim (nth_error_repeat_none _ _ _ _ H).
  - intros n c H. apply In_nth_error in H as (p & H). pose proof (B5 _ _ _ H) as E. cbn [Nat.add] in E. unfold coords2, at_. rewrite E. cbn [bind]. cbn [content2 co_nodes] in H. rewrite H. reflexivity.
  - intros n c v H. apply at_ok. exact (B3 _ _ _ H).
Qed.
Definition tag2 (file : file2) (j : nat) : list Z := match nth_error (f2_elements file) j with Some e => [to_size (el_phys e)] | None => [] end.
Lemma items_2 : forall file, co_items (content2 file) = map (item_of (tag2 file)) (groups2 (f2_elements file) 0).
Proof. intros file. apply items2_groups. intros p e H. unfold tag2. cbn [Nat.add]. rewrite H. reflexivity. Qed.
Theorem finished2 : forall check dw file r, read2 dw (new_factory check) file = Ok r -> NoDup (map fst (f2_nodes file)) ->
  exists coords index gs tg tags, finished check dw (content2 file) coords index gs tg tags r.
Proof.
  intros check dw file r H ND. unfold read2 in H. apply bind_ok in H as (u & _ & H). apply bind_ok in H as ((main, k0) & S0 & H). cbn [fst snd] in H.
  apply bind_ok in H as (u' & _ & H). apply bind_ok in H as (((gi2mi, gi2i), b) & I0 & H). apply bind_ok in H as ((b', m) & L0 & H).
  apply bind_ok in H as (M & BM & H). apply bind_ok in H as (ph & PH & H). injection H as <-.
  destruct (scan_elements_nth _ _ _ _ _ S0) as (_ & S2 & _). destruct (tables2 _ _ _ _ _ _ _ _ ND S0 I0) as (-> & TB).
  fold (coords2 file gi2i) in L0. rewrite loop2 in L0 by exact S2.
  exists (coords2 file gi2i), (at_ gi2mi), (groups2 (f2_elements file) 0), (tag2 file). eexists. split; [exact TB|apply items_2| |].
  2: { exists b', m, M, ph. split; [exact L0|]. split; [exact BM|]. split; [exact PH|]. reflexivity. }
  intros g j l _ _ T. cbn beta in T. apply bind_ok in T as (e & T1 & T2). apply at_ok in T1. injection T2 as <-. unfold tag2. rewrite T1. reflexivity.
Qed.
