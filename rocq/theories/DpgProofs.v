(** Product dof handlers. *)
From Coq Require Import List Arith Bool Lia.
Import ListNotations.
From Verif Require Import Base Scalars MeshModel MeshView DofModel DofSpec DofProofs4 FeModel AssembleModel AssembleSpec AssembleProofs2 HierProofs DpgModel DpgSpec.
Local Open Scope nat_scope.

Lemma push_all : forall o (g a : list nat), fold_left (fun a x => a ++ [x + o]) g a = a ++ map (Nat.add o) g.
Proof.
  intros o. induction g as [|x g IH]; intros a; simpl; [now rewrite app_nil_r|].
  rewrite IH, <- app_assoc. simpl. now rewrite (Nat.add_comm x o).
Qed.
Lemma total_app : forall a b, total (a ++ b) = total a + total b.
Proof. intros. unfold total. rewrite map_app, list_sum_app. auto. Qed.
Lemma total_cons : forall d ds, total (d :: ds) = NumDofs d + total ds.
Proof. reflexivity. Qed.

Lemma make_comps : forall m dms o, fst (p_make m dms o) = map (fun dm => uniform m dm true) dms.
Proof.
  intros m. induction dms as [|dm r IH]; intros o; cbn [p_make map]; [reflexivity|].
  specialize (IH (o + NumDofs (u_handler (uniform m dm true)))).
  destruct (p_make m r _) as [us os]. cbn [fst] in *. now rewrite IH.
Qed.
Lemma make_offs : forall m dms o c, c <= length dms ->
  nth_error (snd (p_make m dms o)) c = Some (o + total (firstn c (map (fun dm => u_handler (uniform m dm true)) dms))).
Proof.
  intros m. induction dms as [|dm r IH]; intros o c H; cbn [p_make map].
  - cbn [length] in H. replace c with 0 by lia. cbn. f_equal. unfold total. simpl. lia.
  - specialize (IH (o + NumDofs (u_handler (uniform m dm true)))).
    destruct (p_make m r _) as [us os]. cbn [snd] in *. destruct c as [|c].
    + cbn. f_equal. unfold total. simpl. lia.
    + cbn [nth_error firstn]. cbn [length] in H. rewrite IH by lia. rewrite total_cons. f_equal. lia.
Qed.
Lemma make_offs_length : forall m dms o, length (snd (p_make m dms o)) = S (length dms).
Proof.
  intros m. induction dms as [|dm r IH]; intros o; cbn [p_make]; [reflexivity|].
  specialize (IH (o + NumDofs (u_handler (uniform m dm true)))).
  destruct (p_make m r _) as [us os]. cbn [snd] in *. simpl. lia.
Qed.

Lemma entity_stack : forall m e dms o st ls is,
  Forall2 (fun d l => GlobalDofIndices d e = Ok l) (map (fun dm => u_handler (uniform m dm true)) dms) ls ->
  Forall2 (fun d l => InteriorGlobalDofIndices d e = Ok l) (map (fun dm => u_handler (uniform m dm true)) dms) is ->
  p_entity e (fst (p_make m dms o)) (snd (p_make m dms o)) st =
    Ok (fst st ++ stack o (map (fun dm => u_handler (uniform m dm true)) dms) ls,
        snd st ++ stack o (map (fun dm => u_handler (uniform m dm true)) dms) is).
Proof.
  intros m e. induction dms as [|dm r IH]; intros o st ls is Hl Hi; cbn [p_make map] in *.
  - inversion Hl; inversion Hi; subst. cbn. rewrite !app_nil_r. now destruct st.
  - inversion Hl as [|? l ? ls' E1 Hl']; subst. inversion Hi as [|? i ? is' E2 Hi']; subst.
    specialize (IH (o + NumDofs (u_handler (uniform m dm true)))).
    destruct (p_make m r _) as [us os]. cbn [fst snd p_entity] in *.
    rewrite E1. cbn [bind]. rewrite E2. cbn [bind]. rewrite !push_all.
    rewrite (IH _ ls' is' Hl' Hi'). cbn [fst snd stack]. now rewrite !app_assoc.
Qed.

Lemma valid_in : forall m e, valid m e -> nth_error (entities m (codim_of (ent_type m e))) (ent_index e) = Some e.
Proof.
  intros m e V. unfold entities.
  assert (E : ent_index e < mv_count m (codim_of (ent_type m e)) /\
    (match codim_of (ent_type m e) with 0 => ECell | 1%nat => EEdge | _ => ENode end) (ent_index e) = e).
  { destruct e as [i|i|i]; cbn in *; auto. destruct (cv_type (cell_at m i)) eqn:E; cbn; auto.
    all: exfalso; revert E; unfold cv_type, cell_type; destruct (length (cv_nodes (cell_at m i)) =? 4); intros E; discriminate E. }
  destruct E as [E1 E2]. rewrite nth_error_map.
  rewrite (nth_error_nth' _ 0) by (rewrite seq_length; auto). rewrite seq_nth by auto. cbn [option_map]. now rewrite Nat.add_0_l, E2.
Qed.

Lemma uniform_global : forall m dm e, wf_mesh m -> valid m e ->
  exists l, GlobalDofIndices (u_handler (uniform m dm true)) e = Ok l /\ NumLocalDofs (u_handler (uniform m dm true)) e = Ok (length l).
Proof. intros m dm e W V. exact (ca_count _ _ _ (uniform_canonical m dm true W) e V). Qed.
Lemma uniform_own : forall m dm e, wf_mesh m -> valid m e ->
  exists l, InteriorGlobalDofIndices (u_handler (uniform m dm true)) e = Ok l /\ NumInteriorDofs (u_handler (uniform m dm true)) e = Ok (length l).
Proof.
  intros m dm e W V. destruct (pa_own _ _ _ (uniform_partitions m dm true W) e V) as (l & H1 & H2 & _ & H3 & _).
  exists l. split; auto. now rewrite H2.
Qed.
Lemma all_global : forall m dms e, wf_mesh m -> valid m e -> exists ls,
  Forall2 (fun d l => GlobalDofIndices d e = Ok l) (map (fun dm => u_handler (uniform m dm true)) dms) ls.
Proof.
  intros m dms e W V. induction dms as [|dm r [ls IH]]; [exists []; constructor|].
  destruct (uniform_global m dm e W V) as (l & H & _). exists (l :: ls). constructor; auto.
Qed.
Lemma all_own : forall m dms e, wf_mesh m -> valid m e -> exists ls,
  Forall2 (fun d l => InteriorGlobalDofIndices d e = Ok l) (map (fun dm => u_handler (uniform m dm true)) dms) ls.
Proof.
  intros m dms e W V. induction dms as [|dm r [ls IH]]; [exists []; constructor|].
  destruct (uniform_own m dm e W V) as (l & H & _). exists (l :: ls). constructor; auto.
Qed.
Lemma F2_det : forall (f : dofh -> res (list nat)) ds ls ls', Forall2 (fun d l => f d = Ok l) ds ls ->
  Forall2 (fun d l => f d = Ok l) ds ls' -> ls = ls'.
Proof.
  intros f ds ls ls' H. revert ls'. induction H; intros ls' H'; inversion H'; subst; auto. f_equal; [congruence|auto].
Qed.

(** What the constructor yields. *)
Lemma product_inv : forall m dms p, wf_mesh m -> product m dms = Ok p ->
  dms <> [] /\ p_mesh p = m /\ p_comps p = map (fun dm => uniform m dm true) dms /\ p_offs p = snd (p_make m dms 0) /\
  forall e, valid m e -> forall ls is,
    Forall2 (fun d l => GlobalDofIndices d e = Ok l) (map (fun dm => u_handler (uniform m dm true)) dms) ls ->
    Forall2 (fun d l => InteriorGlobalDofIndices d e = Ok l) (map (fun dm => u_handler (uniform m dm true)) dms) is ->
    p_Global p e = Ok (stack 0 (map (fun dm => u_handler (uniform m dm true)) dms) ls) /\
    p_Interior p e = Ok (stack 0 (map (fun dm => u_handler (uniform m dm true)) dms) is).
Proof.
  intros m dms p W H. unfold product in H. inv_bind.
  pose proof (make_comps m dms 0) as C. pose proof (entity_stack m) as ES.
  specialize (fun e => ES e dms 0 ([], [])).
  destruct (p_make m dms 0) as [us os] eqn:EM. cbn [fst snd] in *. inv_bind. subst p.
  split; [destruct dms; [discriminate|discriminate]|]. split; [reflexivity|]. split; [exact C|]. split; [reflexivity|].
  intros e V ls is Hl Hi. specialize (ES e ls is Hl Hi). pose proof (valid_in m e V) as N.
  assert (exists codim a, codim_of (ent_type m e) = codim /\ traverse (fun e => p_entity e us os ([], [])) (entities m codim) = Ok a /\
    (match codim with 0 => r0 | 1 => r1 | _ => r2 end) = a) as (codim & a & E4 & E5 & E6).
  { unfold p_codim in *. destruct (codim_of (ent_type m e)) as [|[|[|k]]] eqn:EE.
    - exists 0, r0. auto.
    - exists 1, r1. auto.
    - exists 2, r2. auto.
    - destruct (ent_type m e); discriminate. }
  unfold p_Global, p_Interior, p_codim_of, elem_at. cbn [p_mesh p_dofs p_int]. rewrite E4 in *. rewrite E6.
  rewrite !nth_error_map.
  assert (NE : nth_error a (ent_index e) = Some (stack 0 (map (fun dm => u_handler (uniform m dm true)) dms) ls,
     stack 0 (map (fun dm => u_handler (uniform m dm true)) dms) is)).
  { clear - N E5 ES. revert a N E5. generalize (ent_index e) as i. generalize (entities m codim) as es.
    induction es as [|e0 es IH]; intros i a N E5; [destruct i; discriminate|].
    cbn [traverse] in E5. inv_bind. subst a. destruct i as [|i]; cbn [nth_error] in *.
    - injection N as ->. rewrite ES in E. cbn [fst snd app] in E. congruence.
    - now apply (IH i). }
  now rewrite NE.
Qed.
Lemma traverse_ok : forall A B (f : A -> res B) l, (forall a, In a l -> exists b, f a = Ok b) -> exists bs, traverse f l = Ok bs.
Proof. exact HierProofs.traverse_all. Qed.
Lemma product_ok : forall m dms, wf_mesh m -> dms <> [] -> exists p, product m dms = Ok p.
Proof.
  intros m dms W NE. unfold product.
  assert (EL : negb (length dms =? 0) = true) by (destruct dms; [congruence|reflexivity]).
  rewrite EL. cbn [lf_assert bind].
  pose proof (entity_stack m) as ES. specialize (fun e => ES e dms 0 ([], [])).
  destruct (p_make m dms 0) as [us os] eqn:EM. cbn [fst snd] in *.
  assert (T : forall codim, exists a, p_codim m us os codim = Ok a).
  { intros codim. apply traverse_ok. intros e He. apply entities_valid in He.
    destruct (all_global m dms e W He) as [ls Hl]. destruct (all_own m dms e W He) as [is Hi].
    eexists. apply (ES e ls is Hl Hi). }
  destruct (T 0) as [a0 ->]. destruct (T 1) as [a1 ->]. destruct (T 2) as [a2 ->]. cbn [bind]. eauto.
Qed.
Lemma product_empty : forall m, product m [] = Assert.
Proof. reflexivity. Qed.

Lemma stack_length : forall o ds ls, length ds = length ls -> length (stack o ds ls) = length (concat ls).
Proof.
  intros o ds. revert o. induction ds as [|d ds IH]; intros o [|l ls] H; cbn [length] in H; try discriminate; cbn [stack concat]; auto.
  rewrite !app_length, map_length, IH by lia. auto.
Qed.
Lemma F2_len : forall A B (P : A -> B -> Prop) a b, Forall2 P a b -> length a = length b.
Proof. induction 1; simpl; auto. Qed.
Lemma F2_nth : forall A B (P : A -> B -> Prop) a b i x, Forall2 P a b -> nth_error a i = Some x ->
  exists y, nth_error b i = Some y /\ P x y.
Proof. intros A B P a b i x H. revert i. induction H; intros [|i] E; try discriminate; cbn in *; [injection E as ->; eauto|auto]. Qed.

Lemma firstn_plus : forall A (l : list A) a k, firstn (a + k) l = firstn a l ++ firstn k (skipn a l).
Proof.
  induction l as [|x l IH]; intros [|a] k; cbn; auto; [now rewrite firstn_nil|]. f_equal. apply IH.
Qed.
Theorem product_stacked : forall m dms p, wf_mesh m -> product m dms = Ok p ->
  stacked m (map (fun dm => u_handler (uniform m dm true)) dms) p.
Proof.
  intros m dms p W H. destruct (product_inv m dms p W H) as (NE & EM & EC & EO & EG).
  set (ds := map (fun dm => u_handler (uniform m dm true)) dms) in *.
  assert (LD : length ds = length dms) by apply map_length.
  assert (OFF : forall c, c <= length ds -> nth_error (p_offs p) c = Some (total (firstn c ds))).
  { intros c Hc. rewrite EO, make_offs by lia. reflexivity. }
  assert (COMP : forall c d, nth_error ds c = Some d -> exists u, nth_error (p_comps p) c = Some u /\ u_handler u = d).
  { intros c d Hd. rewrite EC. unfold ds in Hd. rewrite nth_error_map in *.
    destruct (nth_error dms c) as [dm|]; [|discriminate]. cbn in *. injection Hd as <-. eauto. }
  assert (NT : p_NumDofs p = total ds).
  { unfold p_NumDofs. rewrite (nth_error_nth _ _ _ (OFF (length (p_comps p)) ltac:(rewrite EC, map_length; lia))).
    rewrite EC, map_length, <- LD. now rewrite firstn_all. }
  assert (CO : forall c d x, nth_error ds c = Some d -> x < NumDofs d -> p_Component p (total (firstn c ds) + x) = Ok c).
  { intros c d x Hd Hx. unfold p_Component. rewrite NT.
    assert (Hc : c < length ds) by (apply nth_error_Some; congruence).
    assert (TS : total (firstn (S c) ds) = total (firstn c ds) + NumDofs d).
    { clear - Hd. revert c Hd. induction ds as [|d0 ds IH]; intros [|c] Hd; try discriminate; cbn [firstn nth_error] in *.
      - injection Hd as ->. rewrite total_cons. unfold total. simpl. lia.
      - rewrite !total_cons. rewrite <- Nat.add_assoc, <- IH; auto. }
    assert (TLE : forall a b, a <= b -> total (firstn a ds) <= total (firstn b ds)).
    { intros a b Hab. replace (firstn b ds) with (firstn a ds ++ firstn (b - a) (skipn a ds)).
      - rewrite total_app. lia.
      - replace b with (a + (b - a)) at 2 by lia. symmetry. apply firstn_plus. }
    assert (LT : total (firstn c ds) + x < total ds).
    { pose proof (TLE (S c) (length ds) ltac:(lia)) as T. rewrite firstn_all in T. lia. }
    apply Nat.ltb_lt in LT. rewrite LT. cbn [lf_assert bind].
    rewrite EC, map_length, <- LD.
    assert (G : forall n k, k + n = length ds -> k <= c -> p_comp_loop p (total (firstn c ds) + x) k n = Ok c).
    { induction n as [|n IH]; intros k Hk Hkc; [lia|]. cbn [p_comp_loop]. unfold elem_at.
      replace (k + 1) with (S k) by lia. rewrite OFF by lia. cbn [bind].
      destruct (total (firstn c ds) + x <? total (firstn (S k) ds)) eqn:E.
      - apply Nat.ltb_lt in E. f_equal. destruct (Nat.eq_dec k c) as [->|N]; auto.
        pose proof (TLE (S k) c ltac:(lia)). lia.
      - apply Nat.ltb_ge in E. apply IH; [lia|]. destruct (Nat.eq_dec k c) as [->|N]; [|lia]. lia. }
    apply G; lia. }
  assert (NL : forall e c l, valid m e -> nth_error (map (fun d => GlobalDofIndices d e) ds) c = Some (Ok l) ->
     p_NumLocalC p e c = Ok (length l)).
  { intros e c l V Hl. rewrite nth_error_map in Hl. destruct (nth_error ds c) as [d|] eqn:Ed; [|discriminate]. cbn in Hl.
    destruct (COMP c d Ed) as (u & Eu & Hu). unfold p_NumLocalC, elem_at. rewrite Eu. cbn [bind]. rewrite Hu.
    unfold ds in Ed. rewrite nth_error_map in Ed. destruct (nth_error dms c) as [dm|]; [|discriminate]. cbn in Ed. injection Ed as <-.
    destruct (uniform_global m dm e W V) as (l' & H1 & H2). rewrite H2. congruence. }
  constructor.
  - intros c d Hd. destruct (COMP c d Hd) as (u & Eu & Hu).
    unfold p_ComponentDofHandler, p_NumDofsC, p_NumLocalC, p_NumInteriorC, elem_at. rewrite Eu. cbn [bind]. rewrite Hu. auto.
  - exact NT.
  - intros c Hc. unfold p_Offset, elem_at. now rewrite OFF.
  - exact CO.
  - intros x Hx. cbn [p_handler Entity]. unfold p_Entity, p_Component. rewrite NT. apply Nat.ltb_ge in Hx. rewrite Hx. auto.
  - intros c d x Hd Hx. cbn [p_handler Entity]. unfold p_Entity. rewrite (CO c d x Hd Hx). cbn [bind].
    assert (Hc : c < length ds) by (apply nth_error_Some; congruence).
    unfold p_Offset, elem_at. rewrite OFF by lia. cbn [bind].
    destruct (COMP c d Hd) as (u & Eu & Hu). rewrite Eu. cbn [bind]. rewrite Hu. f_equal. lia.
  - intros e ls V Hl. destruct (all_own m dms e W V) as [is Hi]. destruct (EG e V ls is Hl Hi) as [G1 _].
    cbn [p_handler GlobalDofIndices NumLocalDofs]. unfold p_NumLocal. rewrite G1. cbn [bind]. split; auto. f_equal. apply stack_length. eapply F2_len; eauto.
  - intros e ls V Hi. destruct (all_global m dms e W V) as [gs Hl]. destruct (EG e V gs ls Hl Hi) as [_ G1].
    cbn [p_handler InteriorGlobalDofIndices NumInteriorDofs]. unfold p_NumInterior. rewrite G1. cbn [bind]. split; auto. f_equal. apply stack_length. eapply F2_len; eauto.
  - intros e ls c V Hl Hc. unfold p_LocalStartIndex.
    assert (G : forall n k acc, k + n <= length ds -> p_start_loop p e k n acc = Ok (acc + length (concat (firstn n (skipn k ls))))).
    { induction n as [|n IH]; intros k acc Hk; cbn [p_start_loop].
      - simpl. f_equal. lia.
      - destruct (nth_error ds k) as [d|] eqn:Ed; [|apply nth_error_None in Ed; lia].
        destruct (F2_nth _ _ _ _ _ k d Hl Ed) as (l & El & Gl).
        rewrite (NL e k l V) by (rewrite nth_error_map, Ed; cbn; now rewrite Gl). cbn [bind].
        rewrite IH by lia. f_equal.
        assert (SK : skipn k ls = l :: skipn (S k) ls).
        { clear - El. revert k El. induction ls as [|a ls IH]; intros [|k] El; try discriminate; cbn in *; [congruence|auto]. }
        rewrite SK. cbn [firstn concat]. rewrite app_length. lia. }
    rewrite G by lia. reflexivity.
Qed.
