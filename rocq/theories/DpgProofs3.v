(** Element matrices and vectors of product spaces are sums of blocks. *)
From Coq Require Import List Arith Bool Lia Ring.
Import ListNotations.
From Verif Require Import Base Scalars MeshModel MeshView DofModel DofSpec DofProofs4 FeModel AssembleModel AssembleSpec AssembleProofs AssembleProofs2 DpgModel DpgSpec DpgProofs DpgProofs2.
Local Open Scope nat_scope.

Section Algebra.
Variable K : cring.
Add Ring Kring_dpg3 : (kth K).
Open Scope K_scope.
Notation block := (block K).
Notation segment := (segment K).

Lemma sumn_range : forall n r k (f : nat -> K), (r + k <= n)%nat ->
  sumn n (fun a => if ((r <=? a) && (a <? r + k))%nat then f (a - r)%nat else 0) = sumn k f.
Proof.
  intros n r k f H. replace n with (r + (k + (n - r - k)))%nat by lia. unfold sumn.
  rewrite !seq_app, !map_app, !suml_app.
  rewrite (suml_zero K (map _ (seq 0 r))).
  2:{ intros x Hx. apply in_map_iff in Hx as (a & <- & Ha). apply in_seq in Ha.
      replace (r <=? a)%nat with false by (symmetry; apply Nat.leb_gt; lia). reflexivity. }
  rewrite (suml_zero K (map _ (seq (0 + r + k) _))).
  2:{ intros x Hx. apply in_map_iff in Hx as (a & <- & Ha). apply in_seq in Ha.
      replace (a <? r + k)%nat with false by (symmetry; apply Nat.ltb_ge; lia). rewrite andb_false_r. reflexivity. }
  transitivity (suml (map (fun a => if ((r <=? a) && (a <? r + k))%nat then f (a - r)%nat else 0) (seq r k))); [rewrite Nat.add_0_l; ring|].
  replace (seq r k) with (map (Nat.add r) (seq 0 k)).
  - rewrite map_map. apply suml_map_ext. intros a Ha. apply in_seq in Ha.
    replace (r <=? r + a)%nat with true by (symmetry; apply Nat.leb_le; lia).
    replace (r + a <? r + k)%nat with true by (symmetry; apply Nat.ltb_lt; lia). cbn [andb]. f_equal. lia.
  - clear. revert r. induction k as [|k IH]; intros r; cbn [seq map]; [reflexivity|]. f_equal; [lia|].
    rewrite <- (IH (S r)), <- seq_shift, map_map. apply map_ext. intros. lia.
Qed.

Lemma block_entry_form : forall n k (b : block) v u, (b_row0 b + b_rows b <= n)%nat -> (b_col0 b + b_cols b <= k)%nat ->
  form K n k (b_entry K b) v u = b_form K b v u.
Proof.
  intros n k b v u Hn Hk. unfold form, b_form.
  transitivity (sumn n (fun i => if ((b_row0 b <=? i) && (i <? b_row0 b + b_rows b))%nat then
    (fun a => part v (b_row0 b) a * mv K (b_cols b) (b_coef b) (part u (b_col0 b)) a) (i - b_row0 b)%nat else 0)).
  - apply sumn_ext. intros i Hi. unfold mv, b_entry.
    destruct ((b_row0 b <=? i) && (i <? b_row0 b + b_rows b))%nat eqn:E; cbn [andb].
    + apply andb_true_iff in E as [E1 E2]. apply Nat.leb_le in E1. unfold part at 1. replace (b_row0 b + (i - b_row0 b))%nat with i by lia.
      f_equal. rewrite <- (sumn_range k (b_col0 b) (b_cols b)) by auto. apply sumn_ext. intros j Hj.
      destruct ((b_col0 b <=? j) && (j <? b_col0 b + b_cols b))%nat eqn:F.
      * apply andb_true_iff in F as [F1 F2]. apply Nat.leb_le in F1 as F3. unfold part. replace (b_col0 b + (j - b_col0 b))%nat with j by lia. reflexivity.
      * ring.
    + rewrite sumn_zero; [ring|]. intros j Hj. ring.
  - exact (sumn_range n (b_row0 b) (b_rows b) (fun a => part v (b_row0 b) a * mv K (b_cols b) (b_coef b) (part u (b_col0 b)) a) Hn).
Qed.
Lemma form_suml : forall n k (bs : list block) v u,
  form K n k (fun i j => suml (map (fun b => b_entry K b i j) bs)) v u = suml (map (fun b => form K n k (b_entry K b) v u) bs).
Proof.
  intros n k bs v u. induction bs as [|b bs IH]; cbn [map suml].
  - apply form_zero.
  - rewrite form_add, IH. reflexivity.
Qed.
Definition inside (n k : nat) (b : block) : Prop := (b_row0 b + b_rows b <= n /\ b_col0 b + b_cols b <= k)%nat.
Lemma entries_blocks : forall n k D bs, Forall (inside n k) bs ->
  (forall i j, i < n -> j < k -> D i j = suml (map (fun b => b_entry K b i j) bs))%nat -> sum_of_blocks K n k D bs.
Proof.
  intros n k D bs F H. split; auto. intros v u. rewrite (form_ext K n k D _ v u H), form_suml.
  apply suml_map_ext. intros b Hb. rewrite Forall_forall in F. destruct (F b Hb). apply block_entry_form; auto.
Qed.
Definition unit_at (i a : nat) : K := if a =? i then 1 else 0.
Lemma form_unit : forall n k D i j, (i < n)%nat -> (j < k)%nat -> form K n k D (unit_at i) (unit_at j) = D i j.
Proof.
  intros n k D i j Hi Hj. unfold form. rewrite (sumn_single K n i) by (auto; intros a Ha N; unfold unit_at; apply Nat.eqb_neq in N; rewrite N; ring).
  unfold mv. rewrite (sumn_single K k j) by (auto; intros a Ha N; unfold unit_at; apply Nat.eqb_neq in N; rewrite N; ring).
  unfold unit_at. rewrite !Nat.eqb_refl. ring.
Qed.
Lemma form_blocks : forall n k D bs, Forall (inside n k) bs ->
  (forall v u, form K n k D v u = suml (map (fun b => b_form K b v u) bs)) -> sum_of_blocks K n k D bs.
Proof.
  intros n k D bs F H. split; auto. intros i j Hi Hj. rewrite <- (form_unit n k D i j Hi Hj), H.
  apply suml_map_ext. intros b Hb. rewrite Forall_forall in F. destruct (F b Hb).
  rewrite <- (block_entry_form n k) by auto. apply form_unit; auto.
Qed.

(** Vectors. *)
Lemma segment_entry_form : forall n (b : segment) v, (g_at b + g_size b <= n)%nat ->
  linear K n (g_entry K b) v = g_form K b v.
Proof.
  intros n b v Hn. unfold g_form, linear. rewrite <- (sumn_range n (g_at b) (g_size b)) by auto. apply sumn_ext. intros i Hi. unfold g_entry.
  destruct ((g_at b <=? i) && (i <? g_at b + g_size b))%nat eqn:E; [|ring].
  apply andb_true_iff in E as [E1 E2]. apply Nat.leb_le in E1. unfold part. f_equal. f_equal. lia.
Qed.
Definition ginside (n : nat) (b : segment) : Prop := (g_at b + g_size b <= n)%nat.
Lemma linear_suml : forall n (bs : list segment) v,
  linear K n (fun i => suml (map (fun b => g_entry K b i) bs)) v = suml (map (fun b => linear K n (g_entry K b) v) bs).
Proof.
  intros n bs v. unfold linear. rewrite <- sumn_suml_swap. apply sumn_ext. intros i Hi. rewrite suml_map_mulr. reflexivity.
Qed.
Lemma linear_ext : forall n l l' (v : nat -> K), (forall i, i < n -> l i = l' i)%nat -> linear K n l v = linear K n l' v.
Proof. intros. apply sumn_ext. intros. now rewrite H. Qed.
Lemma entries_segments : forall n l bs, Forall (ginside n) bs ->
  (forall i, i < n -> l i = suml (map (fun b => g_entry K b i) bs))%nat -> sum_of_segments K n l bs.
Proof.
  intros n l bs F H. split; auto. intros v. rewrite (linear_ext n l _ v H), linear_suml.
  apply suml_map_ext. intros b Hb. rewrite Forall_forall in F. apply segment_entry_form. apply F; auto.
Qed.
Lemma linear_unit : forall n l i, (i < n)%nat -> linear K n l (unit_at i) = l i.
Proof.
  intros n l i Hi. unfold linear. rewrite (sumn_single K n i) by (auto; intros a Ha N; unfold unit_at; apply Nat.eqb_neq in N; rewrite N; ring).
  unfold unit_at. rewrite Nat.eqb_refl. ring.
Qed.
Lemma form_segments : forall n l bs, Forall (ginside n) bs ->
  (forall v, linear K n l v = suml (map (fun b => g_form K b v) bs)) -> sum_of_segments K n l bs.
Proof.
  intros n l bs F H. split; auto. intros i Hi. rewrite <- (linear_unit n l i Hi), H.
  apply suml_map_ext. intros b Hb. rewrite Forall_forall in F. rewrite <- (segment_entry_form n) by (apply F; auto). apply linear_unit; auto.
Qed.

(** The loops. *)
Lemma mat_loop : forall trial test cell subs bs M,
  Forall2 (local_block K trial test cell) (filter (fun s => sm_active s cell) subs) bs -> Forall (inside (d_rows K M) (d_cols K M)) bs ->
  exists M', product_mat_loop K trial test subs cell M = Ok M' /\ d_rows K M' = d_rows K M /\ d_cols K M' = d_cols K M /\
    forall i j, d_coef K M' i j = d_coef K M i j + suml (map (fun b => b_entry K b i j) bs).
Proof.
  intros trial test cell. induction subs as [|s subs IH]; intros bs M H F; cbn [filter] in H; cbn [product_mat_loop].
  - inversion H; subst. exists M. split; auto. split; auto. split; auto. intros. cbn. ring.
  - destruct (sm_active s cell) eqn:A; [|apply IH; auto].
    inversion H as [|? b ? bs' (N & E1 & E2 & E3 & E4 & _ & _ & E5 & E6) H']; subst. inversion F as [|? ? [I1 I2] F']; subst.
    rewrite E1. cbn [bind]. rewrite E5. cbn [bind]. rewrite E6. cbn [bind]. unfold add_block.
    rewrite E3 in I1. rewrite E4 in I2. apply Nat.leb_le in I1, I2. rewrite I1, I2. cbn [andb lf_assert bind].
    match goal with |- context [product_mat_loop K trial test subs cell ?M1] => set (M1' := M1) end.
    destruct (IH bs' M1' H' F') as (M' & R1 & R2 & R3 & R4).
    exists M'. split; [exact R1|]. split; [exact R2|]. split; [exact R3|]. intros i j. rewrite R4. cbn [map suml]. unfold M1', b_entry. cbn [d_coef].
    rewrite E2, E3, E4.
    destruct ((b_row0 b <=? i) && (i <? b_row0 b + d_rows K N) && (b_col0 b <=? j) && (j <? b_col0 b + d_cols K N))%nat; ring.
Qed.
Lemma vec_loop : forall test cell subs bs v,
  Forall2 (local_segment K test cell) (filter (fun s => sv_active s cell) subs) bs -> Forall (ginside (length v)) bs ->
  exists v', product_vec_loop K test subs cell v = Ok v' /\ length v' = length v /\
    forall i, (i < length v)%nat -> comp K v' i = comp K v i + suml (map (fun b => g_entry K b i) bs).
Proof.
  intros test cell. induction subs as [|s subs IH]; intros bs v H F; cbn [filter] in H; cbn [product_vec_loop].
  - inversion H; subst. exists v. split; auto. split; auto. intros. cbn. ring.
  - destruct (sv_active s cell) eqn:A; [|apply IH; auto].
    inversion H as [|? b ? bs' (w & E1 & E2 & E3 & _ & E5) H']; subst. inversion F as [|? ? I1 F']; subst.
    rewrite E1. cbn [bind]. rewrite E5. cbn [bind]. unfold add_segment. unfold ginside in I1.
    rewrite E3 in I1. apply Nat.leb_le in I1. rewrite I1. cbn [lf_assert bind].
    match goal with |- context [product_vec_loop K test subs cell ?M1] => set (v1 := M1) end.
    assert (L1 : length v1 = length v) by (unfold v1; rewrite map_length, seq_length; auto).
    destruct (IH bs' v1 H') as (v' & R1 & R2 & R3); [rewrite L1; auto|].
    exists v'. split; [exact R1|]. split; [congruence|]. intros i Hi. rewrite R3 by lia. cbn [map suml].
    assert (E : comp K v1 i = comp K v i + g_entry K b i).
    { unfold comp, v1. rewrite (nth_indep _ _ (let a := 0%nat in if ((g_at b <=? a) && (a <? g_at b + length w))%nat then nth a v 0 + nth (a - g_at b) w 0 else nth a v 0)) by (rewrite map_length, seq_length; auto).
      cbv zeta. rewrite (map_nth (fun a => if ((g_at b <=? a) && (a <? g_at b + length w))%nat then nth a v 0 + nth (a - g_at b) w 0 else nth a v 0)).
      rewrite seq_nth by auto. rewrite Nat.add_0_l. unfold g_entry. rewrite E2, E3. unfold comp.
      destruct ((g_at b <=? i) && (i <? g_at b + length w))%nat; ring. }
    rewrite E. ring.
Qed.
End Algebra.

(** Position of a component among the local dofs. *)
Lemma start_inside : forall m dms p e c n k r, wf_mesh m -> product m dms = Ok p -> valid m e ->
  p_NumLocal p e = Ok n -> p_NumLocalC p e c = Ok k -> p_LocalStartIndex p e c = Ok r -> r + k <= n.
Proof.
  intros m dms p e c n k r W HP V Hn Hk Hr. pose proof (product_stacked m dms p W HP) as S.
  destruct (product_inv m dms p W HP) as (_ & _ & EC & _).
  set (ds := map (fun dm => u_handler (uniform m dm true)) dms) in *.
  destruct (all_global m dms e W V) as [ls Hl]. fold ds in Hl. pose proof (F2_len _ _ _ _ _ Hl) as LL.
  assert (Hc : c < length ds).
  { unfold p_NumLocalC, elem_at in Hk. destruct (nth_error (p_comps p) c) eqn:E; [|discriminate].
    assert (c < length (p_comps p)) by (apply nth_error_Some; congruence). rewrite EC, map_length in H. unfold ds. rewrite map_length. auto. }
  destruct (nth_error ds c) as [d|] eqn:Ed; [|apply nth_error_None in Ed; lia].
  rewrite (sk_start _ _ _ S e ls c V Hl) in Hr by lia. injection Hr as <-.
  destruct (sk_global _ _ _ S e ls V Hl) as [_ G]. cbn [p_handler NumLocalDofs] in G. rewrite G in Hn. injection Hn as <-.
  destruct (sk_component_handler _ _ _ S c d Ed) as (_ & _ & Q). destruct (Q e) as [Q1 _]. rewrite Q1 in Hk. clear Q Q1.
  destruct (F2_nth _ _ _ _ _ c d Hl Ed) as (l & El & Gl).
  destruct (comp_handler m dms c d Ed) as (dm & _ & ->). destruct (uniform_global m dm e W V) as (l' & U1 & U2).
  rewrite U2 in Hk. injection Hk as <-. assert (l' = l) by congruence. subst l'. clear - El.
  revert c El. induction ls as [|a ls IH]; intros [|c] El; try discriminate; cbn [firstn concat nth_error] in *.
  - injection El as ->. rewrite app_length. cbn. lia.
  - rewrite !app_length. specialize (IH c El). lia.
Qed.

Theorem product_matrix_local : forall (K : cring) m dmu dmv trial test subs cell bs, wf_mesh m ->
  product m dmu = Ok trial -> product m dmv = Ok test -> valid m cell ->
  Forall2 (local_block K trial test cell) (filter (fun s => sm_active s cell) subs) bs ->
  exists M, ProductMatEval K trial test subs cell = Ok M /\
    p_NumLocal test cell = Ok (d_rows K M) /\ p_NumLocal trial cell = Ok (d_cols K M) /\
    sum_of_blocks K (d_rows K M) (d_cols K M) (d_coef K M) bs.
Proof.
  intros K m dmu dmv trial test subs cell bs W Hu Hv V H.
  destruct (all_global m dmu cell W V) as [lu Hlu]. destruct (sk_global _ _ _ (product_stacked m dmu trial W Hu) cell lu V Hlu) as [_ Gu].
  destruct (all_global m dmv cell W V) as [lv Hlv]. destruct (sk_global _ _ _ (product_stacked m dmv test W Hv) cell lv V Hlv) as [_ Gv].
  cbn [p_handler NumLocalDofs] in Gu, Gv. unfold ProductMatEval. rewrite Gu, Gv. cbn [bind].
  set (nu := length (concat lu)) in *. set (nv := length (concat lv)) in *.
  assert (F : Forall (inside K nv nu) bs).
  { clear - H W Hu Hv V Gu Gv. induction H as [|s b ss bs (N & _ & _ & E3 & E4 & E5 & E6 & E7 & E8) H IH]; constructor; auto. split.
    - eapply start_inside; [exact W|exact Hv|exact V|exact Gv|exact E5|exact E7].
    - eapply start_inside; [exact W|exact Hu|exact V|exact Gu|exact E6|exact E8]. }
  destruct (mat_loop K trial test cell subs bs (mkDense K nv nu (fun _ _ => k0)) H F) as (M & R1 & R2 & R3 & R4).
  cbn [d_rows d_cols d_coef] in *. exists M. split; auto. rewrite R2, R3. split; auto. split; auto.
  apply entries_blocks; auto. intros i j _ _. rewrite R4. destruct K as [? ? ? ? ? ? ? th]. cbn in *. apply (Radd_0_l th).
Qed.
Theorem product_vector_local : forall (K : cring) m dmv test subs cell bs, wf_mesh m ->
  product m dmv = Ok test -> valid m cell ->
  Forall2 (local_segment K test cell) (filter (fun s => sv_active s cell) subs) bs ->
  exists w, ProductVecEval K test subs cell = Ok w /\ p_NumLocal test cell = Ok (length w) /\
    sum_of_segments K (length w) (comp K w) bs.
Proof.
  intros K m dmv test subs cell bs W Hv V H.
  destruct (all_global m dmv cell W V) as [lv Hlv]. destruct (sk_global _ _ _ (product_stacked m dmv test W Hv) cell lv V Hlv) as [_ Gv].
  cbn [p_handler NumLocalDofs] in Gv. unfold ProductVecEval. rewrite Gv. cbn [bind].
  set (nv := length (concat lv)) in *.
  assert (F : Forall (ginside K nv) bs).
  { clear - H W Hv V Gv. induction H as [|s b ss bs (N & _ & _ & E3 & E5 & E7) H IH]; constructor; auto.
    eapply start_inside; [exact W|exact Hv|exact V|exact Gv|exact E5|exact E7]. }
  destruct (vec_loop K test cell subs bs (repeat k0 nv) H) as (w & R1 & R2 & R3); [rewrite repeat_length; auto|].
  rewrite repeat_length in *. exists w. split; auto. rewrite R2. split; auto.
  apply entries_segments; auto. intros i Hi. rewrite R3 by auto. unfold comp at 1. rewrite nth_repeat. destruct K as [? ? ? ? ? ? ? th]. cbn in *. apply (Radd_0_l th).
Qed.
