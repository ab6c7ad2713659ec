(** Distribution of the dofs of product handlers; they serve the assembler. *)
From Coq Require Import List Arith Bool Lia.
Import ListNotations.
From Verif Require Import Base Scalars MeshModel MeshView DofModel DofSpec DofProofs4 FeModel AssembleModel AssembleSpec AssembleProofs2 DpgModel DpgSpec DpgProofs.
Local Open Scope nat_scope.

Lemma stack_in : forall ds ls o x, In x (stack o ds ls) <->
  exists c d l g, nth_error ds c = Some d /\ nth_error ls c = Some l /\ In g l /\ x = o + total (firstn c ds) + g.
Proof.
  induction ds as [|d0 ds IH]; intros ls o x; cbn [stack].
  - split; [intros []|]. intros ([|c] & d & l & g & H & _); discriminate.
  - destruct ls as [|l0 ls].
    + split; [intros []|]. intros ([|c] & d & l & g & _ & H & _); discriminate.
    + rewrite in_app_iff, IH, in_map_iff. split.
      * intros [(g & <- & Hg)|(c & d & l & g & H1 & H2 & H3 & ->)].
        -- exists 0, d0, l0, g. split; [reflexivity|]. split; [reflexivity|]. split; [auto|unfold total; simpl; lia].
        -- exists (S c), d, l, g. split; auto. split; auto. split; auto. cbn [firstn]. rewrite total_cons. lia.
      * intros ([|c] & d & l & g & H1 & H2 & H3 & ->); cbn [nth_error firstn] in *.
        -- left. injection H2 as ->. exists g. split; [unfold total; simpl; lia|auto].
        -- right. exists c, d, l, g. split; auto. split; auto. split; auto. rewrite total_cons. lia.
Qed.
Lemma stack_nodup : forall ds ls o, Forall2 (fun d l => NoDup l /\ forall g, In g l -> g < NumDofs d) ds ls -> NoDup (stack o ds ls).
Proof.
  intros ds ls o H. revert o. induction H as [|d l ds ls [N B] H IH]; intros o; cbn [stack]; [constructor|].
  assert (D : forall x, In x (map (Nat.add o) l) -> ~ In x (stack (o + NumDofs d) ds ls)).
  { intros x H1 H2. apply in_map_iff in H1 as (g & <- & Hg). apply B in Hg. apply stack_in in H2 as (? & ? & ? & ? & _ & _ & _ & E). lia. }
  assert (N1 : NoDup (map (Nat.add o) l)).
  { clear - N. induction N as [|x l H N IH]; cbn; constructor; auto. intros C. apply in_map_iff in C as (y & E & Hy).
    replace y with x in Hy by lia. auto. }
  revert N1 D. generalize (map (Nat.add o) l). intros a. induction a as [|x a IHa]; intros N1 D; cbn; [apply IH|].
  inversion N1; subst. constructor; [|apply IHa; auto; intros; apply D; cbn; auto].
  rewrite in_app_iff. intros [|C]; auto. apply (D x); cbn; auto.
Qed.
Lemma find_component : forall ds x, x < total ds -> exists c d g, nth_error ds c = Some d /\ g < NumDofs d /\ x = total (firstn c ds) + g.
Proof.
  induction ds as [|d ds IH]; intros x H; [unfold total in H; simpl in H; lia|].
  rewrite total_cons in H. destruct (lt_dec x (NumDofs d)) as [L|L].
  - exists 0, d, x. split; [reflexivity|]. split; auto.
  - destruct (IH (x - NumDofs d) ltac:(lia)) as (c & d' & g & H1 & H2 & H3). exists (S c), d', g. split; auto. split; auto.
    cbn [firstn]. rewrite total_cons. lia.
Qed.
Lemma stack_bound : forall ds ls o x, Forall2 (fun d l => forall g, In g l -> g < NumDofs d) ds ls -> In x (stack o ds ls) -> x < o + total ds.
Proof.
  intros ds ls o x H. revert o. induction H as [|d l ds ls B H IH]; intros o; cbn [stack]; [intros []|].
  rewrite in_app_iff, total_cons. intros [C|C].
  - apply in_map_iff in C as (g & <- & Hg). apply B in Hg. lia.
  - apply IH in C. lia.
Qed.

Lemma list_sum_cons : forall x l, list_sum (x :: l) = x + list_sum l.
Proof. reflexivity. Qed.
Lemma list_sum_swap : forall A B (f : A -> B -> nat) la lb,
  list_sum (map (fun a => list_sum (map (f a) lb)) la) = list_sum (map (fun b => list_sum (map (fun a => f a b) la)) lb).
Proof.
  assert (ADD : forall B (f g : B -> nat) lb, list_sum (map (fun b => f b + g b) lb) = list_sum (map f lb) + list_sum (map g lb)).
  { intros B f g. induction lb as [|b lb IH]; auto. cbn [map]. rewrite !list_sum_cons, IH. lia. }
  induction la as [|a la IH]; intros lb; cbn [map].
  - induction lb as [|b lb IHb]; auto.
  - rewrite list_sum_cons, IH, <- ADD. f_equal.
Qed.

Section Product.
Variables (m : mesh) (dms : list dof_map) (p : pdofh).
Hypothesis W : wf_mesh m.
Hypothesis HP : product m dms = Ok p.
Let ds := map (fun dm => u_handler (uniform m dm true)) dms.

Lemma comp_handler : forall c d, nth_error ds c = Some d -> exists dm, nth_error dms c = Some dm /\ d = u_handler (uniform m dm true).
Proof.
  intros c d H. unfold ds in H. rewrite nth_error_map in H. destruct (nth_error dms c) as [dm|]; [|discriminate].
  injection H as <-. eauto.
Qed.

Theorem product_distributes : distributes m (fun e => list_sum (map (fun dm => prescribed dm m e) dms)) (p_handler p).
Proof.
  pose proof (product_stacked m dms p W HP) as S. fold ds in S.
  constructor.
  - rewrite (sk_total _ _ _ S), <- list_sum_swap. unfold ds, total. rewrite map_map. f_equal. apply map_ext. intros dm.
    apply (pa_total _ _ _ (uniform_partitions m dm true W)).
  - intros e V. destruct (all_own m dms e W V) as [is Hi]. fold ds in Hi.
    destruct (sk_interior _ _ _ S e is V Hi) as [H1 H2].
    assert (OWN : Forall2 (fun d l => NoDup l /\ (forall x, In x l <-> x < NumDofs d /\ Entity d x = Ok e)) ds is).
    { assert (G : forall d l, In d ds -> InteriorGlobalDofIndices d e = Ok l ->
        NoDup l /\ (forall x, In x l <-> x < NumDofs d /\ Entity d x = Ok e)).
      { intros d l Hd Hl. unfold ds in Hd. apply in_map_iff in Hd as (dm & <- & _).
        destruct (pa_own _ _ _ (uniform_partitions m dm true W) e V) as (l' & O & _ & N & _ & I).
        unfold own in O. rewrite O in Hl. injection Hl as <-. auto. }
      clear - Hi G. induction Hi; constructor; auto; [apply G; cbn; auto|]. apply IHHi. intros; apply G; cbn; auto. }
    exists (stack 0 ds is). split; [exact H1|].
    assert (LEN : length (concat is) = list_sum (map (fun dm => prescribed dm m e) dms)).
    { clear - Hi W V. unfold ds in Hi. revert is Hi. induction dms as [|dm r IH]; intros is Hi; inversion Hi as [|? l ? is' E Hi']; subst; cbn; auto.
      rewrite app_length, (IH is' Hi').
      destruct (pa_own _ _ _ (uniform_partitions m dm true W) e V) as (l' & O & L & _). unfold own in O. rewrite O in E. injection E as <-. now rewrite L. }
    split; [rewrite stack_length by (eapply F2_len; eauto); auto|].
    split.
    { apply stack_nodup. clear - OWN. induction OWN as [|d l a b [N I] O IH]; constructor; auto. split; auto. intros g Hg. now apply I in Hg. }
    split; [rewrite H2; f_equal; auto|].
    intros x. rewrite stack_in. split.
    + intros (c & d & l & g & E1 & E2 & E3 & ->). destruct (F2_nth _ _ _ _ _ c d OWN E1) as (l' & E2' & N & I).
      assert (l' = l) by congruence. subst l'. apply I in E3 as [E3 E4]. rewrite Nat.add_0_l. split.
      * rewrite (sk_total _ _ _ S). assert (total (firstn c ds) + g < total ds); auto.
        clear - E1 E3. revert c E1. induction ds as [|d0 l IH]; intros [|c] E1; try discriminate; cbn [nth_error firstn] in *; rewrite ?total_cons.
        -- injection E1 as ->. unfold total. simpl. lia.
        -- specialize (IH c E1). lia.
      * rewrite (sk_entity _ _ _ S c d g E1 E3). exact E4.
    + intros [L E]. rewrite (sk_total _ _ _ S) in L. destruct (find_component ds x L) as (c & d & g & E1 & E2 & ->).
      rewrite (sk_entity _ _ _ S c d g E1 E2) in E. destruct (F2_nth _ _ _ _ _ c d OWN E1) as (l' & E2' & N & I).
      exists c, d, l', g. split; auto. split; auto. split; [apply I; auto|]. lia.
  - intros x L. rewrite (sk_total _ _ _ S) in L. destruct (find_component ds x L) as (c & d & g & E1 & E2 & ->).
    rewrite (sk_entity _ _ _ S c d g E1 E2). destruct (comp_handler c d E1) as (dm & _ & ->).
    exact (pa_entity _ _ _ (uniform_partitions m dm true W) g E2).
Qed.

Lemma global_bound : forall e ls, valid m e -> Forall2 (fun d l => GlobalDofIndices d e = Ok l) ds ls ->
  Forall2 (fun d l => forall g, In g l -> g < NumDofs d) ds ls.
Proof.
  intros e ls V H.
  assert (G : forall d l, In d ds -> GlobalDofIndices d e = Ok l -> forall g, In g l -> g < NumDofs d).
  { intros d l Hd Hl g Hg. unfold ds in Hd. apply in_map_iff in Hd as (dm & <- & _).
    assert (He : exists codim, In e (entities m codim)).
    { exists (codim_of (ent_type m e)). eapply nth_error_In. apply valid_in. auto. }
    destruct He as [codim He].
    destruct (uniform_serves m dm true codim W e He) as (S1 & _ & S3). rewrite S1 in Hl. injection Hl as <-.
    rewrite Forall_forall in S3. auto. }
  clear - H G. induction H as [|d l a b E H IH]; constructor; [apply G; cbn; auto|]. apply IH. intros; eapply G; eauto; cbn; auto.
Qed.

Theorem product_cell_nodup : forall i c l, nth_error (mv_cells m) i = Some c -> NoDup (cv_nodes c) -> NoDup (cv_edges c) ->
  GlobalDofIndices (p_handler p) (ECell i) = Ok l -> NoDup l.
Proof.
  intros i c l Hc N1 N2 H.
  assert (V : valid m (ECell i)) by (cbn; apply nth_error_Some; congruence).
  destruct (all_global m dms (ECell i) W V) as [ls Hl]. fold ds in Hl.
  pose proof (product_stacked m dms p W HP) as S. fold ds in S.
  destruct (sk_global _ _ _ S _ ls V Hl) as [H1 _]. rewrite H1 in H. injection H as <-.
  apply stack_nodup. pose proof (global_bound _ ls V Hl) as B.
  assert (G : forall d l, In d ds -> GlobalDofIndices d (ECell i) = Ok l -> NoDup l).
  { intros d l Hd E. unfold ds in Hd. apply in_map_iff in Hd as (dm & <- & _). eapply uniform_cell_nodup; eauto. }
  clear - Hl B G. induction Hl as [|d l a b E H IH]; inversion B; subst; constructor.
  - split; auto. eapply G; eauto. cbn; auto.
  - apply IH; auto. intros; eapply G; eauto; cbn; auto.
Qed.

Theorem product_serves : forall codim, serves (p_handler p) (entities m codim) (dofs_of (p_handler p)).
Proof.
  intros codim e He. apply entities_valid in He.
  destruct (all_global m dms e W He) as [ls Hl]. fold ds in Hl.
  pose proof (product_stacked m dms p W HP) as S. fold ds in S.
  destruct (sk_global _ _ _ S _ ls He Hl) as [H1 H2].
  unfold dofs_of. rewrite H1, H2. split; auto. split; [f_equal; symmetry; apply stack_length; eapply F2_len; eauto|].
  apply Forall_forall. intros x Hx. rewrite (sk_total _ _ _ S). apply (stack_bound ds ls 0); auto. apply (global_bound e); auto.
Qed.
End Product.
