(** Proofs for C28-C32, part 2: the calls PerformRefinement makes to the mesh
    factory, in closed form. *)
From Coq Require Import List Arith Lia Bool ZArith Permutation.
Import ListNotations.
From Verif Require Import Base MeshModel MeshView RefPatModel RefPatSpec RefPatProofs RefPatProofs2 RefineModel RefineSpec RefineProofs RefineProofs2 RefineProofs3.
Local Open Scope nat_scope.

(** Nodes of the fine mesh: child of a node, of an edge, of a cell. *)
Inductive gnode := GV (v : nat) | GM (e : nat) | GC (c : nat).

Definition b2n (b : bool) : nat := if b then 1 else 0.

Lemma skipn_cons : forall A (d : A) i l, i < length l -> skipn i l = nth i l d :: skipn (S i) l.
Proof. induction i; destruct l; simpl; intros; try lia; auto. rewrite <- IHi by lia. reflexivity. Qed.

Lemma add_seg : forall a b f, a < f_nodes f -> b < f_nodes f ->
  add_entity kSegment [a; b] true f =
  Ok (length (f_edges f), mkFactory (f_check f) (f_nodes f) (f_edges f ++ [((a, b), true)]) (f_cells f)).
Proof.
  intros a b f Ha Hb. unfold add_entity. cbn [forallb].
  apply Nat.ltb_lt in Ha, Hb. rewrite Ha, Hb. reflexivity.
Qed.
Lemma add_edges_ok : forall l f, (forall e, In e l -> fst e < f_nodes f /\ snd e < f_nodes f) ->
  add_edges l f = Ok (seq (length (f_edges f)) (length l),
    mkFactory (f_check f) (f_nodes f) (f_edges f ++ map (fun e => (e, true)) l) (f_cells f)).
Proof.
  induction l as [|[a b] l IH]; intros f H.
  - cbn. rewrite app_nil_r. destruct f; reflexivity.
  - cbn [add_edges]. destruct (H (a, b)) as [Ha Hb]; [left; auto|]. rewrite add_seg by auto. cbn [bind fst snd].
    rewrite IH by (cbn; intros; apply H; right; auto). cbn [bind fst snd f_check f_nodes f_edges f_cells length seq map].
    rewrite app_length. cbn [length]. rewrite Nat.add_1_r. rewrite <- app_assoc. reflexivity.
Qed.
Lemma add_cells_ok : forall l f, (forall c, In c l -> (length c = 3 \/ length c = 4) /\ forall v, In v c -> v < f_nodes f) ->
  add_cells l f = Ok (seq (length (f_cells f)) (length l),
    mkFactory (f_check f) (f_nodes f) (f_edges f) (f_cells f ++ map (fun c => (c, true)) l)).
Proof.
  induction l as [|c l IH]; intros f H.
  - cbn. rewrite app_nil_r. destruct f; reflexivity.
  - cbn [add_cells]. destruct (H c) as [Hl Hn]; [left; auto|].
    assert (E : (if length c =? 3 then add_entity kTria c true f else if length c =? 4 then add_entity kQuad c true f else Throw) =
       Ok (length (f_cells f), mkFactory (f_check f) (f_nodes f) (f_edges f) (f_cells f ++ [(c, true)]))).
    { assert (B : forallb (fun n => n <? f_nodes f) c = true).
      { apply forallb_forall. intros x Hx. apply Nat.ltb_lt. auto. }
      destruct Hl as [Hl|Hl]; rewrite Hl; unfold add_entity; rewrite B, Hl; reflexivity. }
    rewrite E. cbn [bind fst snd].
    rewrite IH by (cbn; intros; apply H; right; auto). cbn [bind fst snd f_check f_nodes f_edges f_cells length seq map].
    rewrite app_length. cbn [length]. rewrite Nat.add_1_r. rewrite <- app_assoc. reflexivity.
Qed.

Section Fine.
Variables (m : mesh) (es : list eci) (cis : list cci).
Let N := mv_nodes m.
Let E := length (mv_edges m).
Let F := length (mv_cells m).

Definition sp (e : nat) : bool := flag es e.
Definition edge_at (e : nat) : nat * nat := nth e (mv_edges m) (0, 0).
Definition eci_at (e : nat) : eci := nth e es fresh_eci.
Definition cell_at (c : nat) : cellv := nth c (mv_cells m) (mkCellv [] [] []).
Definition cci_at (c : nat) : cci := nth c cis fresh_cci.
Definition ty (c : nat) : refel := cv_type (cell_at c).
Definition lcs (c : nat) : local_children :=
  match children_of (ty c) (cc_pat (cci_at c)) (cc_anchor (cci_at c)) with Ok l => l | _ => mkLocal false [] [] end.
Definition spl (c : nat) : list nat := split_edges (ty c) (cc_pat (cci_at c)) (anchor_nat (cc_anchor (cci_at c))).

(** Numbers of the nodes. *)
Definition num (g : gnode) : nat :=
  match g with
  | GV v => v
  | GM e => mv_nodes m + off (fun e => b2n (sp e)) e
  | GC c => mv_nodes m + off (fun e => b2n (sp e)) (length (mv_edges m)) + off (fun c => b2n (lc_centre (lcs c))) c
  end.
Definition nump (p : gnode * gnode) : nat * nat := (num (fst p), num (snd p)).
Definition gedge (e : nat) : list (gnode * gnode) :=
  let a := GV (fst (edge_at e)) in let b := GV (snd (edge_at e)) in
  if sp e then [(a, GM e); (GM e, b)] else [(a, b)].
Definition gres (c : nat) (n : lnode) : gnode :=
  match n with V k => GV (nth k (cv_nodes (cell_at c)) 0) | M k => GM (nth k (cv_edges (cell_at c)) 0) | RefineModel.C => GC c end.
Definition gresp (c : nat) (e : lnode * lnode) : gnode * gnode := (gres c (fst e), gres c (snd e)).
Definition gint (c : nat) : list (gnode * gnode) := map (gresp c) (lc_edges (lcs c)).
Definition gcells (c : nat) : list (list gnode) := map (map (gres c)) (lc_cells (lcs c)).

(** Child information. *)
Definition fpci (v : nat) : pci := mkPci rp_copy (Some v).
Definition feci (e : nat) : eci :=
  mkEci (ec_pat (eci_at e)) (seq (off (bl gedge) e) (bl gedge e)) (if sp e then [num (GM e)] else []).
Definition fcci (c : nat) : cci :=
  mkCci (cc_pat (cci_at c)) (cc_anchor (cci_at c)) (seq (off (bl gcells) c) (bl gcells c))
        (seq (off (bl gedge) (length (mv_edges m)) + off (bl gint) c) (bl gint c))
        (if lc_centre (lcs c) then [num (GC c)] else []).

Definition fps : list pci := map fpci (seq 0 (mv_nodes m)).
Definition fes : list eci := map feci (seq 0 (length (mv_edges m))).
Definition fcs : list cci := map fcci (seq 0 (length (mv_cells m))).
Definition fnodes : nat := num (GC (length (mv_cells m))).
Definition fine_gedges : list (gnode * gnode) :=
  flat_map gedge (seq 0 (length (mv_edges m))) ++ flat_map gint (seq 0 (length (mv_cells m))).
Definition fine_gcells : list (list gnode) := flat_map gcells (seq 0 (length (mv_cells m))).
Definition fine_mesh : mesh := mesh_of fnodes (map nump fine_gedges) (map (map num) fine_gcells).

Hypothesis W : wf_mesh m.
Hypothesis Hes : length es = E.
Hypothesis Hpat : forall e ci, nth_error es e = Some ci ->
     (ec_pat ci = rp_split \/ ec_pat ci = rp_copy) /\ ec_edges ci = [] /\ ec_points ci = [].
Hypothesis Hcis : length cis = F.
Hypothesis Hcc : forall i, i < F ->
  implemented (ty i) (cc_pat (cci_at i)) = true /\ cc_pat (cci_at i) <> rp_nil /\
  good_anchor (ty i) (cc_pat (cci_at i)) (cc_anchor (cci_at i)) /\
  (forall j, j < length (cv_edges (cell_at i)) -> In j (spl i) <-> sp (nth j (cv_edges (cell_at i)) 0) = true) /\
  cc_cells (cci_at i) = [] /\ cc_edges (cci_at i) = [] /\ cc_points (cci_at i) = [].

(** ** The coarse mesh *)
Lemma wcell : forall c, c < F -> wf_cell m (cell_at c).
Proof.
  intros c Hc. pose proof (wm_cells _ W) as H. rewrite Forall_forall in H. apply H. apply nth_In. auto.
Qed.
Lemma wedge : forall e, e < E -> fst (edge_at e) <> snd (edge_at e) /\ fst (edge_at e) < N /\ snd (edge_at e) < N.
Proof.
  intros e He. destruct (edge_at e) as [a b] eqn:X. apply (wm_edges _ W e a b). rewrite <- X. apply nth_error_nth'. auto.
Qed.
Lemma shape : forall c, c < F -> (ty c = kTria \/ ty c = kQuad) /\
  length (cv_nodes (cell_at c)) = num_edges (ty c) /\ length (cv_edges (cell_at c)) = num_edges (ty c) /\ num_nodes (ty c) = num_edges (ty c) /\
  (num_edges (ty c) = 3 \/ num_edges (ty c) = 4).
Proof.
  intros c Hc. unfold ty. destruct (wf_cell_type _ _ (wcell c Hc)) as [(T & A & B)|(T & A & B)]; rewrite T, A, B; cbn; auto 8.
Qed.
Lemma node_lt : forall c k, c < F -> k < num_edges (ty c) -> nth k (cv_nodes (cell_at c)) 0 < N.
Proof.
  intros c k Hc Hk. pose proof (wc_nodes _ _ (wcell c Hc)) as H. rewrite Forall_forall in H. apply H.
  apply nth_In. destruct (shape c Hc) as (_ & -> & _). auto.
Qed.
Lemma edge_lt : forall c k, c < F -> k < num_edges (ty c) -> nth k (cv_edges (cell_at c)) 0 < E.
Proof.
  intros c k Hc Hk. eapply wf_cell_edge_lt; [apply wcell; eauto|]. apply nth_In. destruct (shape c Hc) as (_ & _ & -> & _). auto.
Qed.
Lemma tables : forall c, c < F ->
  children_of (ty c) (cc_pat (cci_at c)) (cc_anchor (cci_at c)) = Ok (lcs c) /\ table_ok (num_edges (ty c)) (spl c) (lcs c).
Proof.
  intros c Hc. destruct (Hcc c Hc) as (I & NN & G & _). destruct (shape c Hc) as (T & _).
  destruct (tables_ok _ _ _ T NN I G) as (lc & E1 & E2). unfold lcs. rewrite E1. auto.
Qed.
Lemma split_sp : forall c k, c < F -> k < num_edges (ty c) ->
  existsb (Nat.eqb k) (spl c) = sp (nth k (cv_edges (cell_at c)) 0).
Proof.
  intros c k Hc Hk. destruct (Hcc c Hc) as (_ & _ & _ & S & _). destruct (shape c Hc) as (_ & _ & L & _).
  rewrite <- L in Hk. specialize (S k Hk).
  destruct (existsb (Nat.eqb k) (spl c)) eqn:X.
  - symmetry. apply S. apply existsb_exists in X as (x & Hx & Ex). apply Nat.eqb_eq in Ex as ->. auto.
  - destruct (sp (nth k (cv_edges (cell_at c)) 0)) eqn:Y; auto. apply proj2 in S. specialize (S eq_refl).
    assert (existsb (Nat.eqb k) (spl c) = true); [|congruence]. apply existsb_exists. exists k. split; auto. apply Nat.eqb_refl.
Qed.

(** ** Valid nodes *)
Definition gvalid (g : gnode) : Prop :=
  match g with
  | GV v => v < mv_nodes m
  | GM e => e < length (mv_edges m) /\ sp e = true
  | GC c => c < length (mv_cells m) /\ lc_centre (lcs c) = true
  end.
Lemma gres_valid : forall c n, c < F -> lvalid (num_edges (ty c)) (spl c) (lc_centre (lcs c)) n = true -> gvalid (gres c n).
Proof.
  intros c n Hc H. destruct n as [k|k|]; cbn in *.
  - apply Nat.ltb_lt in H. apply node_lt; auto.
  - apply andb_true_iff in H as [H1 H2]. apply Nat.ltb_lt in H1. split; [apply edge_lt; auto|].
    rewrite <- split_sp; auto.
  - auto.
Qed.
Lemma sp1 : forall e e', e < e' -> sp e = true -> off (fun e => b2n (sp e)) e < off (fun e => b2n (sp e)) e'.
Proof.
  intros e e' H S. pose proof (off_lt (fun e => b2n (sp e)) e e' 0 H). cbv beta in H0. rewrite S in H0. cbn in H0. lia.
Qed.
Lemma ce1 : forall e e', e < e' -> lc_centre (lcs e) = true ->
  off (fun e => b2n (lc_centre (lcs e))) e < off (fun e => b2n (lc_centre (lcs e))) e'.
Proof.
  intros e e' H S. pose proof (off_lt (fun e => b2n (lc_centre (lcs e))) e e' 0 H). cbv beta in H0. rewrite S in H0. cbn in H0. lia.
Qed.
Lemma num_inj : forall g h, gvalid g -> gvalid h -> num g = num h -> g = h.
Proof.
  intros g h Hg Hh H. destruct g as [v|e|c], h as [v'|e'|c']; cbn in *.
  - congruence.
  - lia.
  - lia.
  - lia.
  - f_equal. destruct Hg as [_ G], Hh as [_ G']. destruct (Nat.lt_trichotomy e e') as [L|[L|L]]; auto.
    + pose proof (sp1 e e' L G). lia.
    + pose proof (sp1 e' e L G'). lia.
  - destruct Hg as [G1 G2]. pose proof (sp1 e _ G1 G2). lia.
  - lia.
  - destruct Hh as [G1 G2]. pose proof (sp1 e' _ G1 G2). lia.
  - f_equal. destruct Hg as [_ G], Hh as [_ G']. destruct (Nat.lt_trichotomy c c') as [L|[L|L]]; auto.
    + pose proof (ce1 c c' L G). lia.
    + pose proof (ce1 c' c L G'). lia.
Qed.
Lemma num_lt : forall g, gvalid g -> num g < fnodes.
Proof.
  unfold fnodes. intros [v|e|c]; cbn; intros H.
  - lia.
  - destruct H as [H1 H2]. pose proof (sp1 e _ H1 H2). lia.
  - destruct H as [H1 H2]. pose proof (ce1 c _ H1 H2). lia.
Qed.
Lemma num_onto : forall v, v < fnodes -> exists g, gvalid g /\ num g = v.
Proof.
  unfold fnodes. cbn. intros v Hv. destruct (Nat.lt_ge_cases v (mv_nodes m)) as [L|L]; [exists (GV v); auto|].
  destruct (Nat.lt_ge_cases v (mv_nodes m + off (fun e => b2n (sp e)) (length (mv_edges m)))) as [L1|L1].
  - destruct (off_locate (fun e => b2n (sp e)) (length (mv_edges m)) (v - mv_nodes m)) as (c & k & C & K & X); [lia|].
    exists (GM c). cbv beta in K. destruct (sp c) eqn:S; cbn in K; [|lia]. cbn. split; auto. lia.
  - destruct (off_locate (fun e => b2n (lc_centre (lcs e))) (length (mv_cells m))
      (v - mv_nodes m - off (fun e => b2n (sp e)) (length (mv_edges m)))) as (c & k & C & K & X); [lia|].
    exists (GC c). cbv beta in K. destruct (lc_centre (lcs c)) eqn:S; cbn in K; [|lia]. cbn. split; auto. lia.
Qed.

(** ** Nodes *)
Lemma copy_nodes_ok : forall k f, copy_nodes (repeat (mkPci rp_copy None) k) f =
  Ok (map (fun i => fpci (f_nodes f + i)) (seq 0 k), mkFactory (f_check f) (f_nodes f + k) (f_edges f) (f_cells f)).
Proof.
  induction k; intros f; cbn [repeat copy_nodes].
  - rewrite Nat.add_0_r. destruct f; reflexivity.
  - cbn [rp_eqb pc_pat]. unfold add_point. cbn [lf_assert bind fst snd]. rewrite IHk. cbn [bind fst snd f_nodes f_check f_edges f_cells].
    f_equal. f_equal.
    + cbn [seq map]. rewrite Nat.add_0_r. f_equal. rewrite <- seq_shift, map_map. apply map_ext. intros i.
      f_equal. lia.
    + f_equal. lia.
Qed.
Lemma get_map_seq : forall A (f : nat -> A) n i, i < n -> get (map f (seq 0 n)) i = Ok (f i).
Proof.
  intros A f n i H. apply get_ok. rewrite nth_error_map, (nth_error_nth' _ 0) by (rewrite seq_length; auto).
  rewrite seq_nth by auto. reflexivity.
Qed.
Lemma node_child_ok : forall v, v < N -> node_child fps v = Ok v.
Proof. intros v Hv. unfold node_child, fps. rewrite get_map_seq by auto. reflexivity. Qed.

(** ** Edges *)
Lemma sp_pat : forall e, e < E -> ec_pat (eci_at e) = if sp e then rp_split else rp_copy.
Proof.
  intros e He. unfold sp, flag. assert (H : nth_error es e = Some (eci_at e)) by (apply nth_error_nth'; lia). rewrite H.
  destruct (Hpat e _ H) as ([-> | ->] & _); reflexivity.
Qed.
Lemma eci_blank : forall e, e < E -> ec_edges (eci_at e) = [] /\ ec_points (eci_at e) = [].
Proof. intros e He. apply (Hpat e). apply nth_error_nth'. lia. Qed.

Definition nedge (p : gnode * gnode) : (nat * nat) * bool := (nump p, true).
Lemma refine_edge_ok : forall e f, e < E -> f_nodes f = num (GM e) -> length (f_edges f) = off (bl gedge) e ->
  refine_edge fps (edge_at e) (eci_at e) f =
  Ok (feci e, mkFactory (f_check f) (num (GM (S e))) (f_edges f ++ map nedge (gedge e)) (f_cells f)).
Proof.
  intros e f He Hn Hl. destruct (wedge e He) as (_ & A & B). destruct (eci_blank e He) as [X Y].
  unfold refine_edge. rewrite !node_child_ok by auto. cbn [bind]. pose proof (sp_pat e He) as SP. rewrite X, Y.
  assert (N <= f_nodes f) by (rewrite Hn; cbn; unfold N; lia).
  unfold feci, bl. unfold gedge. rewrite SP.
  destruct (sp e) eqn:S.
  - unfold add_point. cbn [lf_assert bind fst snd].
    rewrite add_seg by (cbn; lia). cbn [bind fst snd]. rewrite add_seg by (cbn; lia). cbn [bind fst snd f_check f_nodes f_edges f_cells app].
    rewrite app_length. cbn [length]. rewrite Hl. f_equal. f_equal.
    + rewrite Hn, Nat.add_1_r. reflexivity.
    + cbn [map]. rewrite <- app_assoc. cbn [app]. unfold nedge, nump. cbn [fst snd]. rewrite Hn. cbn [num]. f_equal.
      cbn [off]. rewrite S. cbn. lia.
  - rewrite add_seg by lia. cbn [bind fst snd app length seq map]. rewrite Hl. f_equal. f_equal.
    unfold nedge, nump. cbn [fst snd num]. f_equal. rewrite Hn. cbn [num off]. rewrite S. cbn. lia.
Qed.
Lemma refine_edges_ok : forall r i f, i + r = E -> f_nodes f = num (GM i) -> length (f_edges f) = off (bl gedge) i ->
  refine_edges fps (skipn i (mv_edges m)) (skipn i es) f =
  Ok (map feci (seq i r), mkFactory (f_check f) (num (GM E)) (f_edges f ++ map nedge (flat_map gedge (seq i r))) (f_cells f)).
Proof.
  induction r; intros i f Hi Hn Hl.
  - rewrite skipn_all2 by (unfold E in *; lia). cbn [refine_edges seq map flat_map]. rewrite app_nil_r. replace E with i by lia. rewrite <- Hn. destruct f; reflexivity.
  - rewrite (skipn_cons _ (0, 0)) by (unfold E in *; lia). rewrite (skipn_cons _ fresh_eci) by lia. cbn [refine_edges].
    fold (edge_at i). fold (eci_at i). rewrite refine_edge_ok by (auto; lia). cbn [bind fst snd].
    rewrite IHr; cbn [f_nodes f_edges f_check f_cells].
    + cbn [bind fst snd seq map flat_map]. rewrite map_app, app_assoc. reflexivity.
    + lia.
    + reflexivity.
    + rewrite app_length, map_length, Hl. reflexivity.
Qed.

(** ** Cells *)
Lemma mapM_map : forall A B C (g : A -> B) (f : B -> res C) l, mapM f (map g l) = mapM (fun x => f (g x)) l.
Proof. induction l; cbn; auto. rewrite IHl. reflexivity. Qed.
Lemma vertex_idx_ok : forall c, c < F -> vertex_child_idx fps (cell_at c) = Ok (map Some (cv_nodes (cell_at c))).
Proof.
  intros c Hc. unfold vertex_child_idx. apply mapM_total. intros v Hv.
  pose proof (wc_nodes _ _ (wcell c Hc)) as H. rewrite Forall_forall in H. unfold fps. rewrite get_map_seq by auto. reflexivity.
Qed.
Lemma midpoint_idx_ok : forall c, c < F ->
  edge_midpoint_idx fes (cell_at c) = Ok (map (fun e => if sp e then Some (num (GM e)) else None) (cv_edges (cell_at c))).
Proof.
  intros c Hc. unfold edge_midpoint_idx. apply mapM_total. intros e He.
  assert (L : e < E) by (eapply wf_cell_edge_lt; [apply wcell|]; eauto).
  unfold fes. rewrite get_map_seq by auto. cbn [bind feci ec_points ec_pat]. rewrite sp_pat by auto. destruct (sp e); reflexivity.
Qed.
Lemma resolve_ok : forall c n ctr, c < F -> lvalid (num_edges (ty c)) (spl c) (lc_centre (lcs c)) n = true ->
  (lc_centre (lcs c) = true -> ctr = Some (num (GC c))) ->
  resolve (map Some (cv_nodes (cell_at c))) (map (fun e => if sp e then Some (num (GM e)) else None) (cv_edges (cell_at c))) ctr n
  = Ok (num (gres c n)).
Proof.
  intros c n ctr Hc Hv Hctr. destruct (shape c Hc) as (_ & L1 & L2 & _).
  unfold resolve. destruct n as [k|k|]; cbn [lvalid] in Hv; cbn [gres].
  - apply Nat.ltb_lt in Hv. rewrite (nth_indep _ None (Some 0)) by (rewrite map_length; lia). rewrite map_nth. reflexivity.
  - apply andb_true_iff in Hv as [H1 H2]. apply Nat.ltb_lt in H1. rewrite split_sp in H2 by auto.
    erewrite nth_error_nth; [|erewrite nth_error_map, (nth_error_nth' _ 0) by lia; reflexivity]. cbv beta. rewrite H2. reflexivity.
  - rewrite Hctr by auto. reflexivity.
Qed.
Definition ncell (c : list gnode) : list nat * bool := (map num c, true).
Lemma gcell_in : forall c x g, c < F -> In x (gcells c) -> In g x -> gvalid g /\ num g < num (GC (S c)).
Proof.
  intros c x g Hc Hx Hg. destruct (tables c Hc) as (_ & T). unfold gcells in Hx. apply in_map_iff in Hx as (y & <- & Hy).
  apply in_map_iff in Hg as (n & <- & Hn). pose proof (ta_valid _ _ _ T y n Hy Hn) as V.
  pose proof (gres_valid c n Hc V) as G. split; auto.
  destruct n as [k|k|]; cbn [gres] in *.
  - cbn in *. lia.
  - destruct G as [G1 G2]. pose proof (sp1 _ _ G1 G2). cbn in *. lia.
  - destruct G as [G1 G2]. cbn in *. rewrite G2. cbn. lia.
Qed.
Lemma gint_in : forall c e, c < F -> In e (gint c) -> (gvalid (fst e) /\ num (fst e) < num (GC (S c))) /\ (gvalid (snd e) /\ num (snd e) < num (GC (S c))).
Proof.
  intros c e Hc He. destruct (tables c Hc) as (_ & T). unfold gint in He. apply in_map_iff in He as (y & <- & Hy).
  destruct (ta_evalid _ _ _ T y Hy) as [V1 V2]. unfold gresp. cbn [fst snd].
  assert (Q : forall n, lvalid (num_edges (ty c)) (spl c) (lc_centre (lcs c)) n = true -> gvalid (gres c n) /\ num (gres c n) < num (GC (S c))).
  { intros n V. pose proof (gres_valid c n Hc V) as G. split; auto.
    destruct n as [k|k|]; cbn [gres] in *.
    - cbn in *. lia.
    - destruct G as [G1 G2]. pose proof (sp1 _ _ G1 G2). cbn in *. lia.
    - destruct G as [G1 G2]. cbn in *. rewrite G2. cbn. lia. }
  auto.
Qed.

Lemma refine_cell_ok : forall c f, c < F -> f_nodes f = num (GC c) ->
  length (f_edges f) = off (bl gedge) E + off (bl gint) c -> length (f_cells f) = off (bl gcells) c ->
  refine_cell fps fes (cell_at c) (cci_at c) f =
  Ok (fcci c, mkFactory (f_check f) (num (GC (S c))) (f_edges f ++ map nedge (gint c)) (f_cells f ++ map ncell (gcells c))).
Proof.
  intros c f Hc Hn Hle Hlc. destruct (Hcc c Hc) as (I & NN & G & _ & B1 & B2 & B3).
  destruct (shape c Hc) as (T & L1 & L2 & L3 & _). destruct (tables c Hc) as (CO & TO).
  unfold refine_cell. fold (ty c).
  set (P := mkPattern (ty c) (cc_pat (cci_at c)) (cc_anchor (cci_at c)) 6).
  assert (HP : new_pattern (ty c) (cc_pat (cci_at c)) (cc_anchor (cci_at c)) = Ok P).
  { unfold P, new_pattern. clear - G. revert G. destruct (cc_anchor (cci_at c)) as [k|]; [|reflexivity].
    cbn [good_anchor]. intros G. apply Nat.ltb_lt in G. rewrite G. reflexivity. }
  rewrite HP. cbn [bind]. rewrite L1, L2, L3, !Nat.eqb_refl. cbn [andb verify bind].
  rewrite vertex_idx_ok, midpoint_idx_ok by auto. cbn [bind]. rewrite CO. cbn [bind].
  destruct (topology_matches P (lcs c) CO) as (CP0 & CP1 & CP2).
  destruct (children_outcome P 0 ltac:(lia) I) as [(n0 & E0) _].
  destruct (children_outcome P 1) as [(n1 & E1) _]; [destruct T as [X|X]; cbn; rewrite X; cbn; lia|exact I|].
  pose proof (children_count P 0 n0 _ I E0 CP0) as C0. pose proof (children_count P 1 n1 _ I E1 CP1) as C1.
  rewrite map_length in C0, C1.
  set (ctr := if lc_centre (lcs c) then Some (num (GC c)) else None).
  set (f1 := mkFactory (f_check f) (num (GC (S c))) (f_edges f) (f_cells f)).
  assert (HC : (if lc_centre (lcs c)
      then do pg <- ChildPolygons P 2; do _ <- verify (length pg =? 1); do x <- add_point true f; Ok (Some (fst x), snd x)
      else Ok (None, f)) = Ok (ctr, f1)).
  { rewrite CP2. unfold ctr, f1. cbn [num off]. destruct (lc_centre (lcs c)); cbn.
    - rewrite Hn. cbn. f_equal. f_equal. f_equal. lia.
    - f_equal. f_equal. cbn in Hn. rewrite Nat.add_0_r. rewrite <- Hn. destruct f; reflexivity. }
  rewrite HC. cbn [bind].
  assert (HR : forall n, lvalid (num_edges (ty c)) (spl c) (lc_centre (lcs c)) n = true ->
     resolve (map Some (cv_nodes (cell_at c))) (map (fun e => if sp e then Some (num (GM e)) else None) (cv_edges (cell_at c))) ctr n = Ok (num (gres c n))).
  { intros n V. apply resolve_ok; auto. intros Z. unfold ctr. rewrite Z. reflexivity. }
  rewrite (mapM_total _ _ _ (map (fun n => num (gres c n)))).
  2:{ intros x Hx. apply mapM_total. intros n Hn'. apply HR. eapply (ta_valid _ _ _ TO); eauto. }
  cbn [bind].
  rewrite (mapM_total _ _ _ (fun e => (num (gres c (fst e)), num (gres c (snd e))))).
  2:{ intros e He. destruct (ta_evalid _ _ _ TO e He) as [V1 V2]. rewrite !HR by auto. reflexivity. }
  cbn [bind]. rewrite CP1, E1. cbn [bind]. rewrite !map_length, C1, Nat.eqb_refl. cbn [verify bind].
  rewrite Nat.leb_refl. cbn [lf_assert bind].
  rewrite add_edges_ok.
  2:{ cbn. intros e He. apply in_map_iff in He as (y & <- & Hy). cbn [fst snd].
      destruct (gint_in c (gresp c y) Hc (in_map _ _ _ Hy)) as [[_ Q1] [_ Q2]]. cbn in Q1, Q2. auto. }
  cbn [bind fst snd f_check f_nodes f_edges f_cells f1]. rewrite CP0. cbn [bind]. rewrite E0. cbn [bind]. rewrite !map_length, C0, Nat.eqb_refl. cbn [verify bind].
  rewrite Nat.leb_refl. cbn [lf_assert bind].
  rewrite add_cells_ok.
  2:{ intros x Hx. apply in_map_iff in Hx as (y & <- & Hy). rewrite map_length. split; [eapply (ta_len _ _ _ TO); eauto|].
      intros v Hv. apply in_map_iff in Hv as (n & <- & Hn').
      destruct (gcell_in c (map (gres c) y) (gres c n) Hc) as [_ Q]; auto; [apply in_map; auto|apply in_map; auto]. }
  cbn [bind fst snd f_check f_nodes f_edges f_cells]. rewrite B1, B2, B3. cbn [app].
  assert (BG : bl gcells c = length (lc_cells (lcs c))) by apply map_length.
  assert (BI : bl gint c = length (lc_edges (lcs c))) by apply map_length.
  unfold fcci. rewrite BG, BI, Hle, Hlc, !map_length. f_equal. f_equal.
  - f_equal. unfold ctr. destruct (lc_centre (lcs c)); reflexivity.
  - f_equal; f_equal; unfold gint, gcells; rewrite !map_map; apply map_ext; intros; unfold nedge, nump, gresp, ncell; auto.
    rewrite map_map. reflexivity.
Qed.
Lemma refine_cells_ok : forall r i f, i + r = F -> f_nodes f = num (GC i) ->
  length (f_edges f) = off (bl gedge) E + off (bl gint) i -> length (f_cells f) = off (bl gcells) i ->
  refine_cells fps fes (skipn i (mv_cells m)) (skipn i cis) f =
  Ok (map fcci (seq i r), mkFactory (f_check f) fnodes (f_edges f ++ map nedge (flat_map gint (seq i r)))
        (f_cells f ++ map ncell (flat_map gcells (seq i r)))).
Proof.
  induction r; intros i f Hi Hn Hl Hl'.
  - rewrite skipn_all2 by (unfold F in *; lia). cbn [refine_cells seq map flat_map]. rewrite !app_nil_r. unfold fnodes.
    replace (length (mv_cells m)) with i by (unfold F in *; lia). rewrite <- Hn. destruct f; reflexivity.
  - rewrite (skipn_cons _ (mkCellv [] [] [])) by (unfold F in *; lia). rewrite (skipn_cons _ fresh_cci) by lia. cbn [refine_cells].
    fold (cell_at i). fold (cci_at i). rewrite refine_cell_ok by (auto; lia). cbn [bind fst snd].
    rewrite IHr; cbn [f_nodes f_edges f_check f_cells].
    + cbn [bind fst snd seq map flat_map]. rewrite !map_app, !app_assoc. reflexivity.
    + lia.
    + reflexivity.
    + rewrite app_length, map_length, Hl. cbn [off]. change (length (gint i)) with (bl gint i). lia.
    + rewrite app_length, map_length, Hl'. reflexivity.
Qed.
Lemma calls_ok : forall check,
  exists f1 f2, copy_nodes (repeat (mkPci rp_copy None) N) (new_factory check) = Ok (fps, f1) /\
   refine_edges fps (mv_edges m) es f1 = Ok (fes, f2) /\
   refine_cells fps fes (mv_cells m) cis f2 =
     Ok (fcs, mkFactory check fnodes (map (fun e => (e, true)) (map nump fine_gedges))
                       (map (fun c => (c, true)) (map (map num) fine_gcells))).
Proof.
  intros check. do 2 eexists. split; [rewrite copy_nodes_ok; reflexivity|]. split.
  - apply (refine_edges_ok E 0); try reflexivity; cbn; unfold N; lia.
  - pose proof (refine_cells_ok F 0 (mkFactory check (num (GM E)) (map nedge (flat_map gedge (seq 0 E))) [])) as X.
    cbn [skipn f_check f_edges f_nodes f_cells new_factory app] in X |- *. rewrite X.
    + f_equal. f_equal. unfold fine_gedges, fine_gcells. rewrite <- map_app, !map_map. reflexivity.
    + reflexivity.
    + cbn. unfold E. lia.
    + rewrite map_length, flat_length. cbn. lia.
    + reflexivity.
Qed.

(** ** The fine mesh *)
Hypothesis Simple : simple_mesh m.

Lemma nodes_nodup : forall c, c < F -> NoDup (cv_nodes (cell_at c)).
Proof. intros c Hc. apply Simple. apply nth_In. auto. Qed.
Lemma nodes_inj : forall c j k, c < F -> j < num_edges (ty c) -> k < num_edges (ty c) ->
  nth j (cv_nodes (cell_at c)) 0 = nth k (cv_nodes (cell_at c)) 0 -> j = k.
Proof.
  intros c j k Hc Hj Hk H. destruct (shape c Hc) as (_ & L & _). pose proof (nodes_nodup c Hc) as ND.
  apply (proj1 (NoDup_nth _ 0) ND); lia || auto.
Qed.
Lemma three : forall c c' x y z, c < F -> c' < F -> c <> c' ->
  In x (cv_nodes (cell_at c)) -> In y (cv_nodes (cell_at c)) -> In z (cv_nodes (cell_at c)) ->
  In x (cv_nodes (cell_at c')) -> In y (cv_nodes (cell_at c')) -> In z (cv_nodes (cell_at c')) ->
  x <> y -> y <> z -> x <> z -> False.
Proof.
  intros c c' x y z Hc Hc' NE X Y Z X' Y' Z' N1 N2 N3. apply NE.
  apply (proj2 Simple c c' (cell_at c) (cell_at c') x y z); auto; apply nth_error_nth'; auto.
Qed.
Lemma nxt_lt : forall c k, c < F -> S k mod num_edges (ty c) < num_edges (ty c).
Proof. intros c k Hc. apply Nat.mod_upper_bound. destruct (shape c Hc) as (_ & _ & _ & _ & [-> | ->]); lia. Qed.
Lemma local_edge : forall c k, c < F -> k < num_edges (ty c) ->
  let e := nth k (cv_edges (cell_at c)) 0 in
  let a := nth k (cv_nodes (cell_at c)) 0 in let b := nth (S k mod num_edges (ty c)) (cv_nodes (cell_at c)) 0 in
  edge_at e = (a, b) \/ edge_at e = (b, a).
Proof.
  intros c k Hc Hk e a b. destruct (shape c Hc) as (_ & L & _).
  destruct (wc_local _ _ (wcell c Hc) k) as (e' & o & p0 & p1 & H1 & H2 & H3 & H4); [lia|].
  assert (e = e') by (unfold e; apply nth_error_nth; auto). subst e'.
  unfold edge_at. rewrite (nth_error_nth _ _ _ H3). unfold next_corner in H4. rewrite L in H4. fold a b in H4.
  destruct o, H4; subst; auto.
Qed.
Lemma edge_ends_in : forall c e, c < F -> In e (cv_edges (cell_at c)) ->
  In (fst (edge_at e)) (cv_nodes (cell_at c)) /\ In (snd (edge_at e)) (cv_nodes (cell_at c)).
Proof.
  intros c e Hc He. destruct (shape c Hc) as (_ & L & L' & _). apply (In_nth _ _ 0) in He as (k & Hk & <-).
  rewrite L' in Hk. pose proof (nxt_lt c k Hc).
  destruct (local_edge c k Hc Hk) as [-> | ->]; cbn; split; apply nth_In; lia.
Qed.
Lemma opposite : forall c j k, c < F -> j < num_edges (ty c) -> k < num_edges (ty c) -> k <> j -> k <> S j mod num_edges (ty c) ->
  let e := nth j (cv_edges (cell_at c)) 0 in let v := nth k (cv_nodes (cell_at c)) 0 in
  v <> fst (edge_at e) /\ v <> snd (edge_at e).
Proof.
  intros c j k Hc Hj Hk N1 N2 e v. pose proof (nxt_lt c j Hc) as Q.
  assert (v <> nth j (cv_nodes (cell_at c)) 0) by (intros X; apply N1; eapply nodes_inj; eauto).
  assert (v <> nth (S j mod num_edges (ty c)) (cv_nodes (cell_at c)) 0) by (intros X; apply N2; eapply nodes_inj; eauto).
  destruct (local_edge c j Hc Hj) as [X|X]; fold e in X; rewrite X; cbn; auto.
Qed.
Lemma edge_uniq : forall e e', e < E -> e' < E ->
  (fst (edge_at e) = fst (edge_at e') /\ snd (edge_at e) = snd (edge_at e')) \/
  (fst (edge_at e) = snd (edge_at e') /\ snd (edge_at e) = fst (edge_at e')) -> e = e'.
Proof.
  intros e e' He He' H. apply (wm_unique _ W e e' (fst (edge_at e)) (snd (edge_at e)) (fst (edge_at e')) (snd (edge_at e'))); auto.
  - rewrite <- surjective_pairing. apply nth_error_nth'; auto.
  - rewrite <- surjective_pairing. apply nth_error_nth'; auto.
Qed.
Lemma edges_inj : forall c j k, c < F -> j < num_edges (ty c) -> k < num_edges (ty c) ->
  nth j (cv_edges (cell_at c)) 0 = nth k (cv_edges (cell_at c)) 0 -> j = k.
Proof.
  intros c j k Hc Hj Hk H. pose proof (local_edge c j Hc Hj) as X. pose proof (local_edge c k Hc Hk) as Y. cbv zeta in X, Y.
  rewrite H in X. pose proof (nxt_lt c j Hc) as Q1. pose proof (nxt_lt c k Hc) as Q2.
  assert (Z : j = k \/ (j = S k mod num_edges (ty c) /\ k = S j mod num_edges (ty c))).
  { destruct X as [X|X], Y as [Y|Y]; rewrite X in Y; injection Y as Y1 Y2.
    - left. eapply nodes_inj; eauto.
    - right. split; eapply nodes_inj; eauto.
    - right. split; eapply nodes_inj; eauto.
    - left. eapply nodes_inj; eauto. }
  destruct Z as [Z|[Z1 Z2]]; auto. destruct (shape c Hc) as (_ & _ & _ & _ & [R|R]); rewrite R in *;
  destruct j as [|[|[|[|j]]]], k as [|[|[|[|k]]]]; cbn in Z1, Z2; lia.
Qed.
Lemma gres_inj : forall c x y, c < F ->
  lvalid (num_edges (ty c)) (spl c) (lc_centre (lcs c)) x = true -> lvalid (num_edges (ty c)) (spl c) (lc_centre (lcs c)) y = true ->
  gres c x = gres c y -> x = y.
Proof.
  intros c x y Hc Vx Vy H. destruct x as [k|k|], y as [l|l|]; cbn in *; try discriminate; auto; injection H as H; f_equal.
  - apply Nat.ltb_lt in Vx, Vy. eapply nodes_inj; eauto.
  - apply andb_true_iff in Vx as [Vx _], Vy as [Vy _]. apply Nat.ltb_lt in Vx, Vy. eapply edges_inj; eauto.
Qed.

(** Two cells with a common edge have no other common corner, and no other common edge. *)
Lemma common_edge_corner : forall c c' e v, c < F -> c' < F -> c <> c' ->
  In e (cv_edges (cell_at c)) -> In e (cv_edges (cell_at c')) ->
  In v (cv_nodes (cell_at c)) -> In v (cv_nodes (cell_at c')) -> v = fst (edge_at e) \/ v = snd (edge_at e).
Proof.
  intros c c' e v Hc Hc' NE I1 I2 J1 J2. destruct (edge_ends_in c e Hc I1) as [A1 A2]. destruct (edge_ends_in c' e Hc' I2) as [B1 B2].
  assert (He : e < E) by (eapply wf_cell_edge_lt; [apply (wcell c)|]; auto).
  destruct (wedge e He) as [D _].
  destruct (Nat.eq_dec v (fst (edge_at e))) as [|X]; auto. destruct (Nat.eq_dec v (snd (edge_at e))) as [|Y]; auto.
  exfalso. apply (three c c' (fst (edge_at e)) (snd (edge_at e)) v); auto.
Qed.
Lemma common_edges : forall c c' e e', c < F -> c' < F -> c <> c' ->
  In e (cv_edges (cell_at c)) -> In e (cv_edges (cell_at c')) ->
  In e' (cv_edges (cell_at c)) -> In e' (cv_edges (cell_at c')) -> e = e'.
Proof.
  intros c c' e e' Hc Hc' NE I1 I2 J1 J2. destruct (edge_ends_in c e' Hc J1) as [A1 A2]. destruct (edge_ends_in c' e' Hc' J2) as [B1 B2].
  assert (He : e < E) by (eapply wf_cell_edge_lt; [apply (wcell c)|]; auto).
  assert (He' : e' < E) by (eapply wf_cell_edge_lt; [apply (wcell c)|]; auto).
  destruct (wedge e' He') as [D _].
  pose proof (common_edge_corner c c' e _ Hc Hc' NE I1 I2 A1 B1) as X.
  pose proof (common_edge_corner c c' e _ Hc Hc' NE I1 I2 A2 B2) as Y.
  apply edge_uniq; auto. intuition congruence.
Qed.

(** Fine edges are pairwise different. *)
Lemma gedge_uniq : forall e e' k k' x y, e < E -> e' < E -> nth_error (gedge e) k = Some x -> nth_error (gedge e') k' = Some y ->
  same_seg x y -> e = e' /\ k = k'.
Proof.
  intros e e' k k' x y He He' Hx Hy S. destruct (wedge e He) as [D _]. destruct (wedge e' He') as [D' _].
  unfold gedge in *. destruct (sp e), (sp e');
  destruct k as [|[|[|k]]]; cbn in Hx; try discriminate; injection Hx as <-;
  destruct k' as [|[|[|k']]]; cbn in Hy; try discriminate; injection Hy as <-;
  destruct S as [S|S]; cbn in S; try discriminate; injection S as S1 S2; subst; try (split; congruence); try (exfalso; congruence).
  - split; auto. apply edge_uniq; auto.
  - split; auto. apply edge_uniq; auto.
Qed.
Lemma lint : forall c x, In x (gint c) -> exists l, In l (lc_edges (lcs c)) /\ x = gresp c l.
Proof. intros c x H. apply in_map_iff in H as (l & <- & H). eauto. Qed.
Lemma lvalid_V : forall c k, lvalid (num_edges (ty c)) (spl c) (lc_centre (lcs c)) (V k) = true -> k < num_edges (ty c).
Proof. intros c k H. apply Nat.ltb_lt in H. auto. Qed.
Lemma lvalid_M : forall c k, lvalid (num_edges (ty c)) (spl c) (lc_centre (lcs c)) (M k) = true -> k < num_edges (ty c).
Proof. intros c k H. cbn in H. apply andb_true_iff in H as [H _]. apply Nat.ltb_lt in H. auto. Qed.
Lemma in_edges : forall c k, c < F -> k < num_edges (ty c) -> In (nth k (cv_edges (cell_at c)) 0) (cv_edges (cell_at c)).
Proof. intros c k Hc Hk. apply nth_In. destruct (shape c Hc) as (_ & _ & -> & _). auto. Qed.
Lemma in_nodes : forall c k, c < F -> k < num_edges (ty c) -> In (nth k (cv_nodes (cell_at c)) 0) (cv_nodes (cell_at c)).
Proof. intros c k Hc Hk. apply nth_In. destruct (shape c Hc) as (_ & -> & _). auto. Qed.

Lemma gedge_gint : forall e c x y, e < E -> c < F -> In x (gedge e) -> In y (gint c) -> ~ same_seg x y.
Proof.
  intros e c x y He Hc Hx Hy Sg. apply lint in Hy as (l & Hl & ->). destruct (tables c Hc) as (_ & T).
  pose proof (ta_shape _ _ _ T l Hl) as Sh. destruct (ta_evalid _ _ _ T l Hl) as [V1 V2].
  assert (Q : forall j k, j < num_edges (ty c) -> k < num_edges (ty c) -> negb (k =? j) && negb (k =? S j mod num_edges (ty c)) = true ->
     nth j (cv_edges (cell_at c)) 0 = e ->
     (nth k (cv_nodes (cell_at c)) 0 = fst (edge_at e) \/ nth k (cv_nodes (cell_at c)) 0 = snd (edge_at e)) -> False).
  { intros j k Hj Hk B X Y. apply andb_true_iff in B as [B1 B2]. apply negb_true_iff in B1, B2. apply Nat.eqb_neq in B1, B2.
    destruct (opposite c j k Hc Hj Hk B1 B2) as [O1 O2]. rewrite X in O1, O2. destruct Y; congruence. }
  unfold gedge in Hx. unfold gresp in Sg. destruct l as [l1 l2]. cbn [fst snd] in *.
  destruct (sp e); [destruct Hx as [<-|[<-|[]]]|destruct Hx as [<-|[]]];
  destruct l1 as [k|k|], l2 as [l|l|]; cbn in Sh; try discriminate;
  destruct Sg as [Sg|Sg]; cbn in Sg; try discriminate; injection Sg as S1 S2;
  try (apply (Q l k); [eauto using lvalid_V, lvalid_M|eauto using lvalid_V, lvalid_M|exact Sh|congruence|first [left; congruence|right; congruence]]);
  try (apply (Q k l); [eauto using lvalid_V, lvalid_M|eauto using lvalid_V, lvalid_M|exact Sh|congruence|first [left; congruence|right; congruence]]).
Qed.
Lemma gint_uniq : forall c c' k k' x y, c < F -> c' < F -> nth_error (gint c) k = Some x -> nth_error (gint c') k' = Some y ->
  same_seg x y -> c = c' /\ k = k'.
Proof.
  intros c c' k k' x y Hc Hc' Hx Hy Sg. unfold gint in *. rewrite nth_error_map in Hx, Hy.
  destruct (nth_error (lc_edges (lcs c)) k) as [l|] eqn:El; [|discriminate].
  destruct (nth_error (lc_edges (lcs c')) k') as [l'|] eqn:El'; [|discriminate].
  cbn in Hx, Hy. injection Hx as <-. injection Hy as <-.
  destruct (tables c Hc) as (_ & T). destruct (tables c' Hc') as (_ & T').
  pose proof (nth_error_In _ _ El) as Hl. pose proof (nth_error_In _ _ El') as Hl'.
  pose proof (ta_shape _ _ _ T l Hl) as Sh. destruct (ta_evalid _ _ _ T l Hl) as [V1 V2].
  pose proof (ta_shape _ _ _ T' l' Hl') as Sh'. destruct (ta_evalid _ _ _ T' l' Hl') as [V1' V2'].
  assert (CC : c = c').
  { destruct (Nat.eq_dec c c') as [|NE]; auto. exfalso.
    assert (Q : forall j k j' k', j < num_edges (ty c) -> k < num_edges (ty c) -> j' < num_edges (ty c') -> k' < num_edges (ty c') ->
       negb (k =? j) && negb (k =? S j mod num_edges (ty c)) = true ->
       nth j (cv_edges (cell_at c)) 0 = nth j' (cv_edges (cell_at c')) 0 ->
       nth k (cv_nodes (cell_at c)) 0 = nth k' (cv_nodes (cell_at c')) 0 -> False).
    { intros j i j' i' Hj Hi Hj' Hi' B X Y. apply andb_true_iff in B as [B1 B2]. apply negb_true_iff in B1, B2. apply Nat.eqb_neq in B1, B2.
      destruct (opposite c j i Hc Hj Hi B1 B2) as [O1 O2].
      destruct (common_edge_corner c c' (nth j (cv_edges (cell_at c)) 0) (nth i (cv_nodes (cell_at c)) 0) Hc Hc' NE) as [Z|Z];
      [auto using in_edges|rewrite X; auto using in_edges|auto using in_nodes|rewrite Y; auto using in_nodes|auto|auto]. }
    assert (Q2 : forall j k j' k', j < num_edges (ty c) -> k < num_edges (ty c) -> j' < num_edges (ty c') -> k' < num_edges (ty c') ->
       negb (j =? k) = true ->
       nth j (cv_edges (cell_at c)) 0 = nth j' (cv_edges (cell_at c')) 0 ->
       nth k (cv_edges (cell_at c)) 0 = nth k' (cv_edges (cell_at c')) 0 -> False).
    { intros j i j' i' Hj Hi Hj' Hi' B X Y. apply negb_true_iff in B. apply Nat.eqb_neq in B. apply B.
      apply (edges_inj c); auto. apply (common_edges c c'); auto using in_edges; [rewrite X|rewrite Y]; auto using in_edges. }
    unfold gresp in Sg. destruct l as [l1 l2], l' as [l1' l2']. cbn [fst snd] in *.
    destruct l1 as [a|a|], l2 as [b|b|]; cbn in Sh; try discriminate;
    destruct l1' as [a'|a'|], l2' as [b'|b'|]; cbn in Sh'; try discriminate;
    destruct Sg as [Sg|Sg]; cbn in Sg; try discriminate; injection Sg as S1 S2;
    try congruence;
    first [ eapply (Q a b a' b'); eauto using lvalid_V, lvalid_M; fail
          | eapply (Q a b b' a'); eauto using lvalid_V, lvalid_M; fail
          | eapply (Q b a a' b'); eauto using lvalid_V, lvalid_M; fail
          | eapply (Q b a b' a'); eauto using lvalid_V, lvalid_M; fail
          | eapply (Q2 a b a' b'); eauto using lvalid_V, lvalid_M; fail
          | eapply (Q2 a b b' a'); eauto using lvalid_V, lvalid_M; fail ]. }
  subst c'. split; auto. apply (ta_edges _ _ _ T k k' l l'); auto.
  destruct l as [l1 l2], l' as [l1' l2']. unfold gresp in Sg. cbn [fst snd] in *.
  destruct Sg as [Sg|Sg]; cbn in Sg; injection Sg as S1 S2; [left|right]; cbn; f_equal; eapply gres_inj; eauto.
Qed.
Lemma fine_gedges_valid : forall x, In x fine_gedges -> gvalid (fst x) /\ gvalid (snd x) /\ fst x <> snd x.
Proof.
  intros x Hx. unfold fine_gedges in Hx. apply in_app_iff in Hx as [Hx|Hx]; apply in_flat_map in Hx as (i & Hi & Hx); apply in_seq in Hi.
  - destruct (wedge i) as (D & A & B); [unfold E; lia|]. unfold gedge in Hx. destruct (sp i) eqn:S; cbn in Hx.
    + destruct Hx as [<-|[<-|[]]]; cbn; repeat split; auto; try discriminate; lia.
    + destruct Hx as [<-|[]]; cbn; repeat split; auto; congruence.
  - assert (Hc : i < F) by (unfold F; lia). destruct (gint_in i x Hc Hx) as [[A _] [B _]]. split; auto. split; auto.
    apply lint in Hx as (l & Hl & ->). destruct (tables i Hc) as (_ & T). destruct (ta_evalid _ _ _ T l Hl) as [V1 V2].
    pose proof (ta_shape _ _ _ T l Hl) as Sh. unfold gresp. cbn. intros X. apply gres_inj in X; auto. destruct l as [l1 l2]. cbn in X. subst l2.
    destruct l1; cbn in Sh; try discriminate. rewrite Nat.eqb_refl in Sh. discriminate.
Qed.
(** Where fine edges are in the list. *)
Lemma fine_gedge_cases : forall i x, nth_error fine_gedges i = Some x ->
  (exists e k, e < E /\ nth_error (gedge e) k = Some x /\ i = off (bl gedge) e + k) \/
  (exists c k, c < F /\ nth_error (gint c) k = Some x /\ i = off (bl gedge) E + off (bl gint) c + k).
Proof.
  intros i x H. unfold fine_gedges in H. destruct (Nat.lt_ge_cases i (off (bl gedge) E)) as [L|L].
  - rewrite nth_error_app1 in H by (rewrite flat_length; auto). apply flat_nth_inv in H as (e & k & A & B & _ & D). left. eauto.
  - rewrite nth_error_app2, flat_length in H by (rewrite flat_length; auto).
    apply flat_nth_inv in H as (e & k & A & B & _ & D). right. exists e, k. split; auto. split; auto. unfold E in *. lia.
Qed.
Lemma fine_gedge_edge : forall e k x, e < E -> nth_error (gedge e) k = Some x -> nth_error fine_gedges (off (bl gedge) e + k) = Some x.
Proof.
  intros e k x He H. unfold fine_gedges. assert (k < bl gedge e) by (apply nth_error_Some; congruence).
  rewrite nth_error_app1 by (rewrite flat_length; apply off_lt; auto). apply flat_nth_some; auto.
Qed.
Lemma fine_gedge_cell : forall c k x, c < F -> nth_error (gint c) k = Some x ->
  nth_error fine_gedges (off (bl gedge) E + off (bl gint) c + k) = Some x.
Proof.
  intros c k x Hc H. unfold fine_gedges. rewrite nth_error_app2; rewrite flat_length; [|unfold E; lia].
  replace (off (bl gedge) E + off (bl gint) c + k - off (bl gedge) (length (mv_edges m))) with (off (bl gint) c + k) by (unfold E; lia).
  apply flat_nth_some; auto.
Qed.
Lemma fine_gedges_uniq : forall i j x y, nth_error fine_gedges i = Some x -> nth_error fine_gedges j = Some y -> same_seg x y -> i = j.
Proof.
  intros i j x y Hi Hj S. apply fine_gedge_cases in Hi, Hj.
  destruct Hi as [(e & k & A & B & ->)|(e & k & A & B & ->)], Hj as [(e' & k' & A' & B' & ->)|(e' & k' & A' & B' & ->)].
  - destruct (gedge_uniq e e' k k' x y A A' B B' S) as [-> ->]. auto.
  - exfalso. apply (gedge_gint e e' x y); auto; eapply nth_error_In; eauto.
  - exfalso. apply (gedge_gint e' e y x); auto; try (eapply nth_error_In; eauto).
    destruct S as [S|S]; [left; auto|right]. rewrite S. cbn. destruct y; auto.
  - destruct (gint_uniq e e' k k' x y A A' B B' S) as [-> ->]. auto.
Qed.
Lemma nump_seg : forall x y, gvalid (fst x) -> gvalid (snd x) -> gvalid (fst y) -> gvalid (snd y) ->
  MeshSpec.same_pair (nump x) (nump y) -> same_seg x y.
Proof.
  intros [a b] [c d] A B C' D H. unfold MeshSpec.same_pair, nump in H. cbn in *. destruct H as [[H1 H2]|[H1 H2]]; apply num_inj in H1, H2; auto; subst; [left|right]; auto.
Qed.
Lemma seg_nump : forall x y, same_seg x y -> MeshSpec.same_pair (nump x) (nump y).
Proof. intros [a b] [c d] [H|H]; injection H as -> ->; unfold MeshSpec.same_pair; cbn; auto. Qed.

(** Sides of fine cells. *)
Lemma msides_map : forall (f : gnode -> nat) l, length l = 3 \/ length l = 4 ->
  msides (map f l) = map (fun s => (f (fst s), f (snd s))) (sides l).
Proof.
  intros f l H. destruct l as [|a [|b [|c [|d [|? ?]]]]]; cbn in H; try lia; reflexivity.
Qed.
Definition gtrace (c j : nat) : list (gnode * gnode) := map (gresp c) (ltrace (num_edges (ty c)) (spl c) j).
Lemma gsides_segs : forall c, c < F -> same_segs (flat_map sides (gcells c))
  (flat_map (gtrace c) (seq 0 (num_edges (ty c))) ++ gint c ++ gint c).
Proof.
  intros c Hc. destruct (tables c Hc) as (_ & T). pose proof (ta_segs _ _ _ T) as S.
  apply (same_segs_map _ _ (gres c)) in S. rewrite !map_app in S.
  assert (X : flat_map sides (gcells c) = map (fun s => (gres c (fst s), gres c (snd s))) (flat_map sides (lc_cells (lcs c)))).
  { unfold gcells. rewrite !flat_map_concat_map, concat_map, !map_map. f_equal. apply map_ext. intros. apply sides_map. }
  assert (Y : flat_map (gtrace c) (seq 0 (num_edges (ty c))) =
    map (fun s => (gres c (fst s), gres c (snd s))) (flat_map (ltrace (num_edges (ty c)) (spl c)) (seq 0 (num_edges (ty c))))).
  { unfold gtrace. rewrite !flat_map_concat_map, concat_map, !map_map. f_equal. }
  rewrite X, Y. exact S.
Qed.
Lemma gtrace_gedge : forall c j, c < F -> j < num_edges (ty c) -> same_segs (gtrace c j) (gedge (nth j (cv_edges (cell_at c)) 0)).
Proof.
  intros c j Hc Hj. unfold gtrace, ltrace, gedge. rewrite split_sp by auto. 
  destruct (local_edge c j Hc Hj) as [X|X]; rewrite X; destruct (sp (nth j (cv_edges (cell_at c)) 0)); cbn [map gresp gres fst snd].
  - eexists. split; [apply Permutation_refl|]. repeat constructor.
  - eexists. split; [apply Permutation_refl|]. repeat constructor.
  - eexists. split; [apply perm_swap|]. repeat constructor; right; reflexivity.
  - eexists. split; [apply Permutation_refl|]. repeat constructor; right; reflexivity.
Qed.

(** Counting segments. *)
Lemma same_segs_in : forall A (l l' : list (A * A)) x, same_segs l l' -> In x l -> exists y, In y l' /\ same_seg x y.
Proof.
  intros A l l' x (l2 & P & F2) H. apply (Permutation_in _ P) in H. clear P. induction F2; [destruct H|].
  destruct H as [->|H]; [exists y; split; auto; left; auto|]. destruct (IHF2 H) as (z & Z1 & Z2). exists z. split; auto. right; auto.
Qed.
Lemma same_segs_in' : forall A (l l' : list (A * A)) y, same_segs l l' -> In y l' -> exists x, In x l /\ same_seg x y.
Proof.
  intros A l l' y (l2 & P & F2) H. assert (G : exists x, In x l2 /\ same_seg x y).
  { clear P. induction F2; [destruct H|]. destruct H as [->|H]; [exists x; split; auto; left; auto|].
    destruct (IHF2 H) as (z & Z1 & Z2). exists z. split; auto. right; auto. }
  destruct G as (x & G1 & G2). exists x. split; auto. apply (Permutation_in _ (Permutation_sym P)). auto.
Qed.
Lemma same_segs_count : forall A (p : A * A -> bool) l l', same_segs l l' -> (forall x y, same_seg x y -> p x = p y) ->
  length (filter p l) = length (filter p l').
Proof.
  intros A p l l' (l2 & P & F2) R. transitivity (length (filter p l2)).
  - clear F2. induction P; cbn; auto.
    + destruct (p x); cbn; auto.
    + destruct (p x), (p y); cbn; auto.
    + congruence.
  - clear P. induction F2; cbn; auto. rewrite (R x y H). destruct (p y); cbn; auto.
Qed.

Lemma gcells_shape : forall x, In x fine_gcells -> (length x = 3 \/ length x = 4) /\ NoDup x /\ (forall g, In g x -> gvalid g) /\
  exists c, c < F /\ In x (gcells c).
Proof.
  intros x Hx. unfold fine_gcells in Hx. apply in_flat_map in Hx as (c & Hc & Hx). apply in_seq in Hc.
  assert (Hc' : c < F) by (unfold F; lia). destruct (tables c Hc') as (_ & T). pose proof Hx as Hx'. unfold gcells in Hx. apply in_map_iff in Hx as (y & <- & Hy).
  rewrite map_length. split; [eapply ta_len; eauto|]. split.
  - pose proof (ta_nodup _ _ _ T y Hy) as ND. pose proof (fun x => ta_valid _ _ _ T y x Hy) as VA. clear Hx' Hy.
    induction y as [|a y IH]; cbn; constructor.
    + intros X. apply in_map_iff in X as (b & X & Hb). apply gres_inj in X; auto; [|apply VA; right; auto|apply VA; left; auto].
      subst b. inversion ND; auto.
    + apply IH; [inversion ND; auto|]. intros. apply VA. right; auto.
  - split; eauto. intros g Hg. eapply gcell_in; eauto.
Qed.
Lemma fine_side_edge : forall x s, In x fine_gcells -> In s (sides x) -> exists e, In e fine_gedges /\ same_seg s e.
Proof.
  intros x s Hx Hs. destruct (gcells_shape x Hx) as (_ & _ & _ & c & Hc & Hin).
  assert (H : In s (flat_map sides (gcells c))) by (apply in_flat_map; eauto).
  destruct (same_segs_in _ _ _ _ (gsides_segs c Hc) H) as (y & Hy & S).
  rewrite !in_app_iff in Hy. unfold fine_gedges. destruct Hy as [Hy|Hy].
  - apply in_flat_map in Hy as (j & Hj & Hy). apply in_seq in Hj.
    destruct (same_segs_in _ _ _ _ (gtrace_gedge c j Hc ltac:(lia)) Hy) as (z & Hz & S').
    exists z. split.
    + apply in_app_iff. left. apply in_flat_map. exists (nth j (cv_edges (cell_at c)) 0). split; auto. apply in_seq.
      pose proof (edge_lt c j Hc). unfold E in *. lia.
    + destruct s, y, z. destruct S as [S|S], S' as [S'|S']; cbn in *; injection S as -> ->; injection S' as -> ->; [left|right|right|left]; auto.
  - exists y. split; [|exact S]. apply in_app_iff. right. apply in_flat_map. exists c. split; [apply in_seq; unfold F in *; lia|tauto].
Qed.
Lemma sides_in : forall A (x : list A) s, In s (sides x) -> In (fst s) x /\ In (snd s) x.
Proof.
  intros A [|a x] s H; [destruct H|]. destruct s as [p q]. unfold sides in H. pose proof (in_combine_l _ _ _ _ H). pose proof (in_combine_r _ _ _ _ H).
  cbn [fst snd]. split; auto. apply in_app_iff in H1 as [H1|H1]; [right; auto|left]. destruct H1 as [H1|[]]; auto.
Qed.

Lemma fE_ok : forall i a b, nth_error (map nump fine_gedges) i = Some (a, b) -> a <> b /\ a < fnodes /\ b < fnodes.
Proof.
  intros i a b H. rewrite nth_error_map in H. destruct (nth_error fine_gedges i) as [x|] eqn:X; [|discriminate].
  apply nth_error_In in X. destruct (fine_gedges_valid x X) as (A & B & D). cbn in H. injection H as <- <-.
  split; [|split; apply num_lt; auto]. intros Q. apply D. apply num_inj; auto.
Qed.
Lemma fE_uniq : forall i j p q, nth_error (map nump fine_gedges) i = Some p -> nth_error (map nump fine_gedges) j = Some q ->
  MeshSpec.same_pair p q -> i = j.
Proof.
  intros i j p q Hi Hj S. rewrite nth_error_map in Hi, Hj.
  destruct (nth_error fine_gedges i) as [x|] eqn:X; [|discriminate]. destruct (nth_error fine_gedges j) as [y|] eqn:Y; [|discriminate].
  injection Hi as <-. injection Hj as <-. apply (fine_gedges_uniq i j x y); auto.
  apply nth_error_In in X, Y. destruct (fine_gedges_valid x X) as (A & B & _). destruct (fine_gedges_valid y Y) as (A' & B' & _).
  apply nump_seg; auto.
Qed.
Lemma fC_len : forall c, In c (map (map num) fine_gcells) -> length c = 3 \/ length c = 4.
Proof. intros c H. apply in_map_iff in H as (x & <- & Hx). rewrite map_length. apply gcells_shape; auto. Qed.
Lemma fC_nodes : forall c v, In c (map (map num) fine_gcells) -> In v c -> v < fnodes.
Proof.
  intros c v H Hv. apply in_map_iff in H as (x & <- & Hx). apply in_map_iff in Hv as (g & <- & Hg). apply num_lt.
  destruct (gcells_shape x Hx) as (_ & _ & G & _). auto.
Qed.
Lemma fC_sides : forall c s, In c (map (map num) fine_gcells) -> In s (msides c) ->
  exists e, In e (map nump fine_gedges) /\ MeshSpec.same_pair e s.
Proof.
  intros c s H Hs. apply in_map_iff in H as (x & <- & Hx). rewrite msides_map in Hs by (apply gcells_shape; auto).
  apply in_map_iff in Hs as (y & <- & Hy). destruct (fine_side_edge x y Hx Hy) as (e & He & S).
  exists (nump e). split; [apply in_map; auto|]. apply same_pair_sym. apply (seg_nump y e S).
Qed.
Theorem fine_wf : wf_mesh fine_mesh.
Proof. apply mesh_of_wf; [exact fE_ok|exact fE_uniq|exact fC_len|exact fC_nodes|exact fC_sides]. Qed.

Lemma seg_in_cell : forall c y, c < F -> In y (flat_map (gtrace c) (seq 0 (num_edges (ty c))) ++ gint c ++ gint c) ->
  exists x s, In x fine_gcells /\ In s (sides x) /\ same_seg s y.
Proof.
  intros c y Hc Hy. destruct (same_segs_in' _ _ _ _ (gsides_segs c Hc) Hy) as (s & Hs & S).
  apply in_flat_map in Hs as (x & Hx & Hs). exists x, s. split; auto. unfold fine_gcells. apply in_flat_map. exists c. split; auto. apply in_seq. unfold F in *. lia.
Qed.
Theorem fine_complete : complete_mesh m -> complete_mesh fine_mesh.
Proof.
  intros [C1 C2]. apply mesh_of_complete; [exact fE_uniq|exact fC_sides| |].
  - intros e He. apply in_map_iff in He as (x & <- & Hx).
    assert (G : exists z s, In z fine_gcells /\ In s (sides z) /\ same_seg s x).
    { pose proof Hx as Hx'. unfold fine_gedges in Hx. apply in_app_iff in Hx as [Hx|Hx]; apply in_flat_map in Hx as (i & Hi & Hx); apply in_seq in Hi.
      - destruct (C1 i) as (cv & Hcv & Hin); [lia|]. apply (In_nth _ _ (mkCellv [] [] [])) in Hcv as (c & Hc & Ec). fold (cell_at c) in Ec.
        apply (In_nth _ _ 0) in Hin as (j & Hj & Ej). rewrite <- Ec in Hj, Ej. destruct (shape c Hc) as (_ & _ & L & _). rewrite L in Hj.
        pose proof (gtrace_gedge c j Hc Hj) as S. rewrite Ej in S.
        destruct (same_segs_in' _ _ _ _ S Hx) as (y & Hy & Sy).
        destruct (seg_in_cell c y Hc) as (z & s & Hz & Hs & Ss).
        { apply in_app_iff. left. apply in_flat_map. exists j. split; auto. apply in_seq. lia. }
        exists z, s. split; auto. split; auto.
        destruct s, y, x. destruct Ss as [S1|S1], Sy as [S2|S2]; cbn in *; injection S1 as -> ->; injection S2 as -> ->; [left|right|right|left]; auto.
      - apply (seg_in_cell i x); [unfold F; lia|]. rewrite !in_app_iff. auto. }
    destruct G as (z & s & Hz & Hs & S). exists (map num z), (nump s). split; [apply in_map; auto|]. split.
    + rewrite msides_map by (apply gcells_shape; auto). apply (in_map nump) in Hs. exact Hs.
    + apply same_pair_sym. apply seg_nump. auto.
  - intros v Hv. destruct (num_onto v Hv) as (g & Hg & <-).
    assert (G : exists x, In x fine_gedges /\ (g = fst x \/ g = snd x)).
    { unfold fine_gedges. destruct g as [u|e|c]; cbn in Hg.
      - destruct (C2 u Hg) as (a & b & Hin & Hab). apply (In_nth _ _ (0, 0)) in Hin as (e & He & Ee). fold (edge_at e) in Ee.
        assert (Q : forall x, In x (gedge e) -> In x (flat_map gedge (seq 0 (length (mv_edges m))) ++ flat_map gint (seq 0 (length (mv_cells m))))).
        { intros x Hx. apply in_app_iff. left. apply in_flat_map. exists e. split; auto. apply in_seq. lia. }
        assert (Q' : exists x, In x (gedge e) /\ (GV u = fst x \/ GV u = snd x)).
        { unfold gedge. rewrite Ee. cbn [fst snd]. destruct (sp e), Hab as [-> | ->].
          - eexists; split; [left; eauto|cbn; auto].
          - eexists; split; [right; left; eauto|cbn; auto].
          - eexists; split; [left; eauto|cbn; auto].
          - eexists; split; [left; eauto|cbn; auto]. }
        destruct Q' as (x & Q1 & Q2). exists x. auto.
      - destruct Hg as [He S]. exists (GV (fst (edge_at e)), GM e). split; [|cbn; auto]. apply in_app_iff. left. apply in_flat_map. exists e.
        split; [apply in_seq; lia|]. unfold gedge. rewrite S. left; auto.
      - destruct Hg as [Hc S]. destruct (tables c Hc) as (_ & T). destruct (ta_centre _ _ _ T S) as (l & Hl & X).
        exists (gresp c l). split.
        + apply in_app_iff. right. apply in_flat_map. exists c. split; [apply in_seq; lia|]. apply in_map. auto.
        + unfold gresp. cbn. destruct X as [-> | ->]; auto. }
    destruct G as (x & Hx & X). exists (num (fst x)), (num (snd x)). split.
    + apply (in_map nump) in Hx. exact Hx.
    + destruct X as [-> | ->]; auto.
Qed.
Lemma fine_cell_inv : forall i c, nth_error (mv_cells fine_mesh) i = Some c -> exists x, nth_error fine_gcells i = Some x /\ cv_nodes c = map num x.
Proof.
  intros i c H. cbn in H. rewrite !nth_error_map in H. destruct (nth_error fine_gcells i) as [x|]; [|discriminate]. cbn in H. injection H as <-. eauto.
Qed.
(** Three nodes common to children of different cells. *)
Lemma no_three : forall c c' x y p q r, c < F -> c' < F -> c <> c' -> In x (gcells c) -> In y (gcells c') ->
  In p x -> In q x -> In r x -> In p y -> In q y -> In r y -> p <> q -> q <> r -> p <> r -> False.
Proof.
  intros c c' x y p q r Hc Hc' NE Hx Hy P Q R P' Q' R' N1 N2 N3.
  destruct (tables c Hc) as (_ & T). destruct (tables c' Hc') as (_ & T').
  unfold gcells in Hx, Hy. apply in_map_iff in Hx as (x0 & <- & Hx). apply in_map_iff in Hy as (y0 & <- & Hy).
  assert (K : forall g, In g (map (gres c) x0) -> In g (map (gres c') y0) ->
    (exists k, In (V k) x0 /\ k < num_edges (ty c) /\ g = GV (nth k (cv_nodes (cell_at c)) 0) /\ In (nth k (cv_nodes (cell_at c)) 0) (cv_nodes (cell_at c'))) \/
    (exists k, In (M k) x0 /\ k < num_edges (ty c) /\ g = GM (nth k (cv_edges (cell_at c)) 0) /\ In (nth k (cv_edges (cell_at c)) 0) (cv_edges (cell_at c')))).
  { intros g G1 G2. apply in_map_iff in G1 as (l & E1 & L1). apply in_map_iff in G2 as (l' & E2 & L2).
    pose proof (ta_valid _ _ _ T x0 l Hx L1) as V1. pose proof (ta_valid _ _ _ T' y0 l' Hy L2) as V2. subst g.
    destruct l as [k|k|], l' as [k'|k'|]; cbn [gres] in E2; try discriminate.
    - left. exists k. apply lvalid_V in V1, V2. injection E2 as E2. split; auto. split; auto. split; auto. rewrite <- E2. auto using in_nodes.
    - right. exists k. apply lvalid_M in V1, V2. injection E2 as E2. split; auto. split; auto. split; auto. rewrite <- E2. auto using in_edges.
    - injection E2 as E2. congruence. }
  assert (Z : forall u v w, In (V u) x0 -> In (V v) x0 -> In (M w) x0 -> u < num_edges (ty c) -> v < num_edges (ty c) -> w < num_edges (ty c) ->
       In (nth u (cv_nodes (cell_at c)) 0) (cv_nodes (cell_at c')) -> In (nth v (cv_nodes (cell_at c)) 0) (cv_nodes (cell_at c')) ->
       In (nth w (cv_edges (cell_at c)) 0) (cv_edges (cell_at c')) -> u <> v -> False).
  { intros u v w Iu Iv Iw Hu Hv Hw Ju Jv Jw NV.
    assert (X : forall k, k < num_edges (ty c) -> In (nth k (cv_nodes (cell_at c)) 0) (cv_nodes (cell_at c')) -> k = w \/ k = S w mod num_edges (ty c)).
    { intros k Hk Jk. destruct (Nat.eq_dec k w) as [|N4]; auto. destruct (Nat.eq_dec k (S w mod num_edges (ty c))) as [|N5]; auto. exfalso.
      destruct (opposite c w k Hc Hw Hk N4 N5) as [O1 O2].
      destruct (common_edge_corner c c' (nth w (cv_edges (cell_at c)) 0) (nth k (cv_nodes (cell_at c)) 0)); auto using in_edges, in_nodes. }
    apply (ta_side _ _ _ T x0 w Hx Hw); destruct (X u Hu Ju) as [-> | ->], (X v Hv Jv) as [-> | ->]; auto; congruence. }
  destruct (K p P P') as [(kp & Ap & Bp & Cp & Dp)|(kp & Ap & Bp & Cp & Dp)],
           (K q Q Q') as [(kq & Aq & Bq & Cq & Dq)|(kq & Aq & Bq & Cq & Dq)],
           (K r R R') as [(kr & Ar & Br & Cr & Dr)|(kr & Ar & Br & Cr & Dr)].
  all: try (match goal with H1 : ?a = GM ?e1, H2 : ?b = GM ?e2, N : ?a <> ?b |- _ =>
     apply N; rewrite H1, H2; f_equal; apply (common_edges c c'); auto using in_edges end).
  - apply (three c c' (nth kp (cv_nodes (cell_at c)) 0) (nth kq (cv_nodes (cell_at c)) 0) (nth kr (cv_nodes (cell_at c)) 0)); auto using in_nodes; congruence.
  - apply (Z kp kq kr); auto. congruence.
  - apply (Z kp kr kq); auto. congruence.
  - apply (Z kq kr kp); auto. congruence.
Qed.

Lemma fine_gcell_cases : forall i x, nth_error fine_gcells i = Some x ->
  exists c k, c < F /\ nth_error (gcells c) k = Some x /\ i = off (bl gcells) c + k.
Proof. intros i x H. unfold fine_gcells in H. apply flat_nth_inv in H as (c & k & A & B & _ & D). eauto. Qed.
Lemma fine_gcell_at : forall c k x, c < F -> nth_error (gcells c) k = Some x -> nth_error fine_gcells (off (bl gcells) c + k) = Some x.
Proof. intros c k x Hc H. unfold fine_gcells. apply flat_nth_some; auto. Qed.
Lemma three_le : forall A (l : list A) p q r, In p l -> In q l -> In r l -> p <> q -> q <> r -> p <> r -> 3 <= length l.
Proof.
  intros A l p q r P Q R N1 N2 N3. change 3 with (length [p; q; r]). apply NoDup_incl_length.
  - repeat constructor; cbn; intuition congruence.
  - intros x [<-|[<-|[<-|[]]]]; auto.
Qed.
Lemma in_num : forall x v, (forall g, In g x -> gvalid g) -> In v (map num x) -> exists g, In g x /\ gvalid g /\ num g = v.
Proof. intros x v H I. apply in_map_iff in I as (g & E' & G). eauto. Qed.
Theorem fine_simple : simple_mesh fine_mesh.
Proof.
  split.
  - intros c Hc. apply In_nth_error in Hc as (i & Hi). destruct (fine_cell_inv i c Hi) as (x & Hx & ->).
    apply nth_error_In in Hx. destruct (gcells_shape x Hx) as (_ & ND & G & _). clear Hx.
    induction x as [|a x IH]; cbn; constructor.
    + intros X. apply in_map_iff in X as (b & X & Hb). apply num_inj in X; [|apply G; right; auto|apply G; left; auto]. subst. inversion ND; auto.
    + apply IH; [inversion ND; auto|]. intros. apply G. right; auto.
  - intros i j c d p q r Hi Hj P Q R P' Q' R' N1 N2 N3.
    destruct (fine_cell_inv i c Hi) as (x & Hx & Ex). destruct (fine_cell_inv j d Hj) as (y & Hy & Ey). rewrite Ex in P, Q, R. rewrite Ey in P', Q', R'.
    pose proof (gcells_shape x (nth_error_In _ _ Hx)) as (_ & _ & Gx & _). pose proof (gcells_shape y (nth_error_In _ _ Hy)) as (_ & _ & Gy & _).
    destruct (in_num x p Gx P) as (gp & P1 & P2 & P3). destruct (in_num x q Gx Q) as (gq & Q1 & Q2 & Q3). destruct (in_num x r Gx R) as (gr & R1 & R2 & R3).
    assert (K : forall g v, gvalid g -> num g = v -> In v (map num y) -> In g y).
    { intros g v Hg <- Hv. apply in_map_iff in Hv as (g' & E' & G'). apply num_inj in E'; auto. subst; auto. }
    pose proof (K gp p P2 P3 P') as P4. pose proof (K gq q Q2 Q3 Q') as Q4. pose proof (K gr r R2 R3 R') as R4.
    assert (M1 : gp <> gq) by congruence. assert (M2 : gq <> gr) by congruence. assert (M3 : gp <> gr) by congruence.
    destruct (fine_gcell_cases i x Hx) as (c1 & k1 & A1 & B1 & ->). destruct (fine_gcell_cases j y Hy) as (c2 & k2 & A2 & B2 & ->).
    destruct (Nat.eq_dec c1 c2) as [<-|NE].
    2:{ exfalso. apply (no_three c1 c2 x y gp gq gr); auto; eapply nth_error_In; eauto. }
    destruct (Nat.eq_dec k1 k2) as [<-|NE]; auto. exfalso.
    unfold gcells in B1, B2. rewrite nth_error_map in B1, B2. destruct (tables c1 A1) as (_ & T).
    destruct (nth_error (lc_cells (lcs c1)) k1) as [x0|] eqn:X0; [|discriminate]. destruct (nth_error (lc_cells (lcs c1)) k2) as [y0|] eqn:Y0; [|discriminate].
    injection B1 as <-. injection B2 as <-.
    pose proof (ta_cells _ _ _ T k1 k2 x0 y0 X0 Y0 NE) as L.
    assert (KK : forall g, In g (map (gres c1) x0) -> In g (map (gres c1) y0) -> exists l, g = gres c1 l /\ In l (filter (fun z => ln_mem z y0) x0)).
    { intros g G1 G2. apply in_map_iff in G1 as (l & E1 & L1). apply in_map_iff in G2 as (l' & E2 & L2). exists l. split; auto.
      apply filter_In. split; auto. apply ln_mem_in. replace l with l'; auto. apply (gres_inj c1); try congruence.
      - apply (ta_valid _ _ _ T y0); auto. eapply nth_error_In; eauto.
      - apply (ta_valid _ _ _ T x0); auto. eapply nth_error_In; eauto. }
    destruct (KK gp P1 P4) as (lp & -> & Lp). destruct (KK gq Q1 Q4) as (lq & -> & Lq). destruct (KK gr R1 R4) as (lr & -> & Lr).
    pose proof (three_le _ _ _ _ _ Lp Lq Lr ltac:(congruence) ltac:(congruence) ltac:(congruence)). lia.
Qed.
Theorem fine_built : forall check, (check = true -> complete_mesh m) ->
  exists M, mesh_ctor check fnodes (map (fun e => (e, true)) (map nump fine_gedges)) (map (fun c => (c, true)) (map (map num) fine_gcells)) = Ok M
    /\ view M = fine_mesh.
Proof.
  intros check Hc. apply mesh_of_built; [exact fE_ok|exact fE_uniq|exact fC_len|exact fC_nodes|exact fC_sides|].
  intros C. apply fine_complete. auto.
Qed.

(** Adjacent cells of fine edges. *)
Lemma fine_count : forall i x, nth_error fine_gedges i = Some x ->
  count_occ Nat.eq_dec (flat_map cv_edges (mv_cells fine_mesh)) i =
  length (filter (fun y => pair_eqb (nump x) (nump y)) (flat_map sides fine_gcells)).
Proof.
  intros i x H. unfold fine_mesh. rewrite (mesh_of_count fnodes _ _ fE_uniq fC_sides i (nump x)) by (rewrite nth_error_map, H; reflexivity).
  assert (G : forall l, (forall x, In x l -> In x fine_gcells) -> flat_map msides (map (map num) l) = map nump (flat_map sides l)).
  { induction l as [|y l IH]; intros Q; auto. cbn. rewrite map_app, IH by (intros; apply Q; right; auto).
    f_equal. apply msides_map. apply gcells_shape. apply Q. left; auto. }
  rewrite G by auto. generalize (flat_map sides fine_gcells). intros l. induction l as [|y l IH]; auto. cbn.
  destruct (pair_eqb (nump x) (nump y)); cbn; rewrite IH; auto.
Qed.
Lemma filter_none : forall A (p : A -> bool) l, (forall x, In x l -> p x = false) -> filter p l = [].
Proof. induction l as [|a l IH]; intros H; auto. cbn. rewrite H by (left; auto). apply IH. intros. apply H. right; auto. Qed.
Lemma filter_one : forall A (p : A -> bool) l k x, nth_error l k = Some x -> p x = true ->
  (forall j y, nth_error l j = Some y -> p y = true -> j = k) -> length (filter p l) = 1.
Proof.
  induction l as [|a l IH]; intros k x H P U; [destruct k; discriminate|]. destruct k; cbn in H.
  - injection H as ->. cbn. rewrite P. cbn. f_equal. rewrite filter_none; auto. intros y Hy. destruct (p y) eqn:Q; auto.
    apply In_nth_error in Hy as (j & Hj). specialize (U (S j) y Hj Q). lia.
  - cbn. destruct (p a) eqn:Q; [specialize (U 0 a eq_refl Q); lia|]. apply (IH k x); auto.
    intros j y Hj Py. specialize (U (S j) y Hj Py). lia.
Qed.
Section Count.
Variable x : gnode * gnode.
Hypothesis Vx : gvalid (fst x) /\ gvalid (snd x).
Let p (y : gnode * gnode) : bool := pair_eqb (nump x) (nump y).
Lemma p_seg : forall y, In y fine_gedges -> p y = true -> same_seg x y.
Proof. intros y Hy H. apply pair_eqb_ok in H. destruct (fine_gedges_valid y Hy) as (A & B & _). apply nump_seg; tauto. Qed.
Lemma p_resp : forall y z, same_seg y z -> p y = p z.
Proof.
  intros y z H. apply seg_nump in H. unfold p. destruct (pair_eqb (nump x) (nump y)) eqn:A, (pair_eqb (nump x) (nump z)) eqn:B; auto.
  - apply pair_eqb_ok in A. assert (pair_eqb (nump x) (nump z) = true) by (apply pair_eqb_ok; eapply same_pair_trans; eauto). congruence.
  - apply pair_eqb_ok in B. assert (pair_eqb (nump x) (nump y) = true) by (apply pair_eqb_ok; eapply same_pair_trans; eauto using same_pair_sym). congruence.
Qed.
Lemma count_cell : forall c, c < F -> length (filter p (flat_map sides (gcells c))) =
  list_sum (map (fun e => length (filter p (gedge e))) (cv_edges (cell_at c))) + 2 * length (filter p (gint c)).
Proof.
  intros c Hc. rewrite (same_segs_count _ p _ _ (gsides_segs c Hc) p_resp). rewrite !filter_app, !app_length.
  replace (cv_edges (cell_at c)) with (map (fun j => nth j (cv_edges (cell_at c)) 0) (seq 0 (num_edges (ty c)))).
  2:{ destruct (shape c Hc) as (_ & _ & <- & _). clear. induction (cv_edges (cell_at c)) as [|a l IH]; auto. cbn. f_equal.
      rewrite <- seq_shift, map_map. exact IH. }
  rewrite map_map.
  assert (G : forall l, (forall j, In j l -> j < num_edges (ty c)) -> length (filter p (flat_map (gtrace c) l)) =
    list_sum (map (fun j => length (filter p (gedge (nth j (cv_edges (cell_at c)) 0)))) l)).
  { induction l as [|j l IH]; intros Q; auto. cbn. rewrite filter_app, app_length, IH by (intros; apply Q; right; auto). f_equal.
    apply same_segs_count; [apply gtrace_gedge; auto; apply Q; left; auto|exact p_resp]. }
  rewrite G by (intros j Hj; apply in_seq in Hj; lia). lia.
Qed.
Lemma count_all : length (filter p (flat_map sides fine_gcells)) =
  list_sum (map (fun c => list_sum (map (fun e => length (filter p (gedge e))) (cv_edges (cell_at c))) + 2 * length (filter p (gint c))) (seq 0 F)).
Proof.
  unfold fine_gcells. fold F. assert (G : forall l, (forall c, In c l -> c < F) -> length (filter p (flat_map sides (flat_map gcells l))) =
    list_sum (map (fun c => list_sum (map (fun e => length (filter p (gedge e))) (cv_edges (cell_at c))) + 2 * length (filter p (gint c))) l)).
  { induction l as [|c l IH]; intros Q; auto. cbn [flat_map map list_sum fold_right]. rewrite flat_map_app, filter_app, app_length.
    rewrite count_cell by (apply Q; left; auto). rewrite IH by (intros; apply Q; right; auto). reflexivity. }
  apply G. intros c Hc. apply in_seq in Hc. lia.
Qed.
End Count.
Lemma count_sum : forall (l : list nat) e, list_sum (map (fun e' => if Nat.eq_dec e' e then 1 else 0) l) = count_occ Nat.eq_dec l e.
Proof. induction l as [|a l IH]; intros e; auto. cbn. destruct (Nat.eq_dec a e); cbn; rewrite <- IH; reflexivity. Qed.
Lemma cells_map : mv_cells m = map cell_at (seq 0 F).
Proof.
  unfold cell_at, F. clear. induction (mv_cells m) as [|a l IH]; auto. cbn. f_equal. rewrite <- seq_shift, map_map. exact IH.
Qed.
(** A child of an edge has as many adjacent cells as the edge. *)
Theorem count_edge_child : forall e k x, e < E -> nth_error (gedge e) k = Some x ->
  count_occ Nat.eq_dec (flat_map cv_edges (mv_cells fine_mesh)) (off (bl gedge) e + k) =
  count_occ Nat.eq_dec (flat_map cv_edges (mv_cells m)) e.
Proof.
  intros e k x He Hx. pose proof (fine_gedge_edge e k x He Hx) as Hf. pose proof (fine_gedges_valid x (nth_error_In _ _ Hf)) as (V1 & V2 & _).
  rewrite (fine_count _ x Hf), count_all. rewrite cells_map.
  assert (G : forall l, (forall c, In c l -> c < F) ->
    list_sum (map (fun c => list_sum (map (fun e => length (filter (fun y => pair_eqb (nump x) (nump y)) (gedge e))) (cv_edges (cell_at c))) +
       2 * length (filter (fun y => pair_eqb (nump x) (nump y)) (gint c))) l) = count_occ Nat.eq_dec (flat_map cv_edges (map cell_at l)) e).
  { induction l as [|c l IH]; intros Q; auto. cbn [flat_map map list_sum fold_right]. rewrite count_occ_app. fold (list_sum).
    assert (Hc : c < F) by (apply Q; left; auto). f_equal; [|apply IH; intros; apply Q; right; auto].
    rewrite filter_none with (l := gint c).
    - cbn [length]. rewrite Nat.mul_0_r, Nat.add_0_r, <- count_sum. f_equal. apply map_ext_in. intros e' He'.
      assert (He2 : e' < E) by (eapply wf_cell_edge_lt; [apply (wcell c Hc)|auto]).
      destruct (Nat.eq_dec e' e) as [->|NE].
      + apply filter_one with (k := k) (x := x); auto.
        * apply pair_eqb_ok. left; auto.
        * intros j y Hj P. eapply p_seg in P; auto; [|eapply nth_error_In; apply fine_gedge_edge; eauto].
          destruct (gedge_uniq e e k j x y) as [_ ->]; auto.
      + rewrite filter_none; auto. intros y Hy. destruct (pair_eqb (nump x) (nump y)) eqn:P; auto. exfalso.
        apply In_nth_error in Hy as (j & Hj). eapply p_seg in P; auto; [|eapply nth_error_In; apply fine_gedge_edge; eauto].
        destruct (gedge_uniq e e' k j x y) as [X _]; auto.
    - intros y Hy. destruct (pair_eqb (nump x) (nump y)) eqn:P; auto. exfalso.
      pose proof Hy as Hy'. apply In_nth_error in Hy' as (j & Hj). eapply p_seg in P; auto; [|eapply nth_error_In; apply fine_gedge_cell; eauto].
      apply (gedge_gint e c x y); auto. eapply nth_error_In; eauto. }
  apply G. intros c Hc. apply in_seq in Hc. lia.
Qed.
Lemma sum_one : forall n c, list_sum (map (fun c' => if Nat.eq_dec c' c then 2 else 0) (seq 0 n)) = if c <? n then 2 else 0.
Proof.
  induction n as [|n IH]; intros c; auto. rewrite seq_S, map_app, list_sum_app, IH. cbn [plus map list_sum fold_right].
  destruct (Nat.eq_dec n c) as [->|NE].
  - rewrite Nat.ltb_irrefl. destruct (Nat.ltb_spec c (S c)); lia.
  - destruct (Nat.ltb_spec c n), (Nat.ltb_spec c (S n)); lia.
Qed.
(** An edge in the interior of a refined cell has two. *)
Theorem count_cell_child : forall c k x, c < F -> nth_error (gint c) k = Some x ->
  count_occ Nat.eq_dec (flat_map cv_edges (mv_cells fine_mesh)) (off (bl gedge) E + off (bl gint) c + k) = 2.
Proof.
  intros c k x Hc Hx. pose proof (fine_gedge_cell c k x Hc Hx) as Hf. pose proof (fine_gedges_valid x (nth_error_In _ _ Hf)) as (V1 & V2 & _).
  rewrite (fine_count _ x Hf), count_all.
  transitivity (list_sum (map (fun c' => if Nat.eq_dec c' c then 2 else 0) (seq 0 F))).
  2:{ rewrite sum_one. destruct (Nat.ltb_spec c F); auto; lia. }
  f_equal. apply map_ext_in. intros c' Hc'. apply in_seq in Hc'. assert (Hc2 : c' < F) by lia.
  replace (list_sum (map (fun e => length (filter (fun y => pair_eqb (nump x) (nump y)) (gedge e))) (cv_edges (cell_at c')))) with 0.
  - destruct (Nat.eq_dec c' c) as [->|NE].
    + rewrite (filter_one _ _ (gint c) k x); auto.
      * apply pair_eqb_ok. left; auto.
      * intros j y Hj P. eapply p_seg in P; auto; [|eapply nth_error_In; apply fine_gedge_cell; eauto].
        destruct (gint_uniq c c k j x y) as [_ ->]; auto.
    + rewrite filter_none; auto. intros y Hy. destruct (pair_eqb (nump x) (nump y)) eqn:P; auto. exfalso.
      apply In_nth_error in Hy as (j & Hj). eapply p_seg in P; auto; [|eapply nth_error_In; apply fine_gedge_cell; eauto].
      destruct (gint_uniq c c' k j x y) as [X _]; auto.
  - assert (G : forall l, (forall e, In e l -> e < E) -> 0 = list_sum (map (fun e => length (filter (fun y => pair_eqb (nump x) (nump y)) (gedge e))) l)).
    { induction l as [|e l IH]; intros Q; auto. cbn [map list_sum fold_right]. rewrite filter_none; [apply IH; intros; apply Q; right; auto|].
      assert (He : e < E) by (apply Q; left; auto).
      intros y Hy. destruct (pair_eqb (nump x) (nump y)) eqn:P; auto. exfalso.
      pose proof Hy as Hy'. apply In_nth_error in Hy' as (j & Hj). eapply p_seg in P; auto; [|eapply nth_error_In; apply fine_gedge_edge; eauto].
      apply (gedge_gint e c y x); auto; [eapply nth_error_In; eauto|]. destruct P as [P|P]; [left; auto|right]. rewrite P. cbn. destruct y; auto. }
    apply G. intros e He. eapply wf_cell_edge_lt; [apply (wcell c' Hc2)|auto].
Qed.

(** ** Parents *)
Definition pk (cd i n : nat) : list parent := map (fun k => mkPar (Some (cd, i)) (Some i) (Some k)) (seq 0 n).
Lemma set_parents_ok : forall cd idx n k s P r, length P = s -> n <= r ->
  set_parents cd idx (seq s n) k (P ++ repeat no_parent r) =
  Ok (P ++ map (fun k => mkPar (Some (cd, idx)) (Some idx) (Some k)) (seq k n) ++ repeat no_parent (r - n)).
Proof.
  induction n as [|n IH]; intros k s P r HP Hr; cbn [seq set_parents map app].
  - rewrite Nat.sub_0_r. reflexivity.
  - rewrite app_length, repeat_length, (proj2 (Nat.ltb_lt _ _)) by lia. cbn [verify bind].
    destruct r as [|r]; [lia|].
    replace (upd s (mkPar (Some (cd, idx)) (Some idx) (Some k)) (P ++ repeat no_parent (S r)))
       with ((P ++ [mkPar (Some (cd, idx)) (Some idx) (Some k)]) ++ repeat no_parent r).
    + rewrite IH; [|rewrite app_length; cbn; lia|lia]. rewrite <- app_assoc. reflexivity.
    + subst s. clear. induction P as [|a P IH]; cbn; [reflexivity|]. f_equal. exact IH.
Qed.
Definition pseg (b : bool) (s : nat) : list nat := if b then [s] else [].
Lemma pseg_seq : forall b s, pseg b s = seq s (b2n b).
Proof. intros [|] s; reflexivity. Qed.
Lemma point_parents_ok : forall n i P r, length P = i -> n <= r ->
  point_parents (map fpci (seq i n)) i (P ++ repeat no_parent r) = Ok (P ++ flat_map (fun v => pk 2 v 1) (seq i n) ++ repeat no_parent (r - n)).
Proof.
  induction n as [|n IH]; intros i P r HP Hr; cbn [seq map point_parents flat_map app]; [rewrite Nat.sub_0_r; reflexivity|].
  cbn [fpci pc_child]. change [i] with (seq i 1). rewrite set_parents_ok by lia. cbn [bind]. rewrite app_assoc, IH.
  - rewrite <- !app_assoc. replace (r - 1 - n) with (r - S n) by lia. reflexivity.
  - rewrite app_length, map_length, seq_length. lia.
  - lia.
Qed.
Lemma off_S : forall f n, off f (S n) = off f n + f n.
Proof. reflexivity. Qed.
Lemma sub_step : forall r o x y, o + x <= y -> r - x - (y - (o + x)) = r - (y - o).
Proof. intros. lia. Qed.
Lemma pk_length : forall cd i n, length (pk cd i n) = n.
Proof. intros. unfold pk. rewrite map_length, seq_length. reflexivity. Qed.
Lemma edge_parents_ok : forall n i P r Q s, length P = num (GM i) -> off (fun e => b2n (sp e)) (i + n) - off (fun e => b2n (sp e)) i <= r ->
  length Q = off (bl gedge) i -> off (bl gedge) (i + n) - off (bl gedge) i <= s ->
  edge_parents (map feci (seq i n)) i (P ++ repeat no_parent r) (Q ++ repeat no_parent s) =
  Ok (P ++ flat_map (fun e => pk 1 e (b2n (sp e))) (seq i n) ++ repeat no_parent (r - (off (fun e => b2n (sp e)) (i + n) - off (fun e => b2n (sp e)) i)),
      Q ++ flat_map (fun e => pk 1 e (bl gedge e)) (seq i n) ++ repeat no_parent (s - (off (bl gedge) (i + n) - off (bl gedge) i))).
Proof.
  induction n as [|n IH]; intros i P r Q s HP Hr HQ Hs; cbn [seq map edge_parents flat_map app].
  - rewrite Nat.add_0_r, !Nat.sub_diag, !Nat.sub_0_r. reflexivity.
  - replace (i + S n) with (S i + n) in * by lia.
    pose proof (off_mono (bl gedge) (S i) (S i + n) ltac:(lia)) as M1. pose proof (off_mono (fun e => b2n (sp e)) (S i) (S i + n) ltac:(lia)) as M2.
    rewrite off_S in M1, M2.
    cbn [feci ec_edges ec_points]. rewrite set_parents_ok by lia. cbn [bind]. fold (pseg (sp i) (num (GM i))). rewrite pseg_seq, set_parents_ok by (auto; lia).
    cbn [bind]. rewrite !app_assoc. rewrite IH.
    + rewrite <- !app_assoc. rewrite (off_S (bl gedge) i), (off_S (fun e => b2n (sp e)) i).
      rewrite (sub_step r (off (fun e => b2n (sp e)) i)), (sub_step s (off (bl gedge) i)) by lia. reflexivity.
    + rewrite app_length, map_length, seq_length, HP. cbn. lia.
    + rewrite off_S. lia.
    + rewrite app_length, map_length, seq_length, HQ, off_S. lia.
    + rewrite off_S. lia.
Qed.
Lemma cell_parents_ok : forall n i P r Q s O t, length P = num (GC i) -> off (fun c => b2n (lc_centre (lcs c))) (i + n) - off (fun c => b2n (lc_centre (lcs c))) i <= r ->
  length Q = off (bl gedge) E + off (bl gint) i -> off (bl gint) (i + n) - off (bl gint) i <= s ->
  length O = off (bl gcells) i -> off (bl gcells) (i + n) - off (bl gcells) i <= t ->
  cell_parents (map fcci (seq i n)) i (P ++ repeat no_parent r) (Q ++ repeat no_parent s) (O ++ repeat no_parent t) =
  Ok (P ++ flat_map (fun c => pk 0 c (b2n (lc_centre (lcs c)))) (seq i n) ++ repeat no_parent (r - (off (fun c => b2n (lc_centre (lcs c))) (i + n) - off (fun c => b2n (lc_centre (lcs c))) i)),
      Q ++ flat_map (fun c => pk 0 c (bl gint c)) (seq i n) ++ repeat no_parent (s - (off (bl gint) (i + n) - off (bl gint) i)),
      O ++ flat_map (fun c => pk 0 c (bl gcells c)) (seq i n) ++ repeat no_parent (t - (off (bl gcells) (i + n) - off (bl gcells) i))).
Proof.
  induction n as [|n IH]; intros i P r Q s O t HP Hr HQ Hs HO Ht; cbn [seq map cell_parents flat_map app].
  - rewrite Nat.add_0_r, !Nat.sub_diag, !Nat.sub_0_r. reflexivity.
  - replace (i + S n) with (S i + n) in * by lia.
    pose proof (off_mono (bl gint) (S i) (S i + n) ltac:(lia)) as M1. pose proof (off_mono (fun c => b2n (lc_centre (lcs c))) (S i) (S i + n) ltac:(lia)) as M2.
    pose proof (off_mono (bl gcells) (S i) (S i + n) ltac:(lia)) as M3.
    rewrite off_S in M1, M2, M3.
    cbn [fcci cc_edges cc_points cc_cells]. rewrite set_parents_ok by lia. cbn [bind]. rewrite set_parents_ok by (unfold E in *; lia). cbn [bind].
    fold (pseg (lc_centre (lcs i)) (num (GC i))). rewrite pseg_seq, set_parents_ok by (auto; lia).
    cbn [bind]. rewrite !app_assoc. rewrite IH.
    + rewrite <- !app_assoc. rewrite (off_S (bl gint) i), (off_S (fun c => b2n (lc_centre (lcs c))) i), (off_S (bl gcells) i).
      rewrite (sub_step r (off (fun c => b2n (lc_centre (lcs c))) i)), (sub_step s (off (bl gint) i)), (sub_step t (off (bl gcells) i)) by lia. reflexivity.
    + rewrite app_length, map_length, seq_length, HP. cbn. lia.
    + rewrite off_S. lia.
    + rewrite app_length, map_length, seq_length, HQ, off_S. lia.
    + rewrite off_S. lia.
    + rewrite app_length, map_length, seq_length, HO, off_S. lia.
    + rewrite off_S. lia.
Qed.
Definition ppar : list parent := flat_map (fun v => pk 2 v 1) (seq 0 (mv_nodes m)) ++ flat_map (fun e => pk 1 e (b2n (sp e))) (seq 0 (length (mv_edges m)))
  ++ flat_map (fun c => pk 0 c (b2n (lc_centre (lcs c)))) (seq 0 (length (mv_cells m))).
Definition epar : list parent := flat_map (fun e => pk 1 e (bl gedge e)) (seq 0 (length (mv_edges m))) ++ flat_map (fun c => pk 0 c (bl gint c)) (seq 0 (length (mv_cells m))).
Definition cpar : list parent := flat_map (fun c => pk 0 c (bl gcells c)) (seq 0 (length (mv_cells m))).

Lemma pk_flat_length : forall cd f n, length (flat_map (fun c => pk cd c (f c)) (seq 0 n)) = off f n.
Proof. intros. rewrite flat_length. apply off_ext. intros. unfold bl. apply pk_length. Qed.
Lemma pk_nth : forall cd f n j pa, nth_error (flat_map (fun c => pk cd c (f c)) (seq 0 n)) j = Some pa <->
  exists c k, c < n /\ k < f c /\ j = off f c + k /\ pa = mkPar (Some (cd, c)) (Some c) (Some k).
Proof.
  intros. assert (B : forall c, bl (fun c => pk cd c (f c)) c = f c) by (intros; apply pk_length).
  assert (O : forall c, off (bl (fun c => pk cd c (f c))) c = off f c) by (intros; apply off_ext; auto).
  assert (X : forall c k, k < f c -> nth_error (pk cd c (f c)) k = Some (mkPar (Some (cd, c)) (Some c) (Some k))).
  { intros c k Hk. unfold pk. rewrite nth_error_map, nth_error_nth' with (d := 0) by (rewrite seq_length; auto).
    rewrite seq_nth by auto. reflexivity. }
  split.
  - intros H. apply flat_nth_inv in H as (c & k & Hc & Hk & L & ->). exists c, k. rewrite O. rewrite B in L. split; auto. split; auto. split; auto.
    rewrite X in Hk by auto. congruence.
  - intros (c & k & Hc & Hk & -> & ->). rewrite <- O. rewrite flat_nth; auto. rewrite B. auto.
Qed.
Lemma fnodes_eq : fnodes = N + off (fun e => b2n (sp e)) E + off (fun c => b2n (lc_centre (lcs c))) F.
Proof. reflexivity. Qed.
Lemma fine_nedges : length fine_gedges = off (bl gedge) E + off (bl gint) F.
Proof. unfold fine_gedges. rewrite app_length, !flat_length. reflexivity. Qed.
Lemma fine_ncells : length fine_gcells = off (bl gcells) F.
Proof. unfold fine_gcells. rewrite flat_length. reflexivity. Qed.
Lemma parents_ok : exists pp1 pp2 ep2,
  point_parents fps 0 (repeat no_parent (mv_nodes fine_mesh)) = Ok pp1 /\
  edge_parents fes 0 pp1 (repeat no_parent (length (mv_edges fine_mesh))) = Ok (pp2, ep2) /\
  cell_parents fcs 0 pp2 ep2 (repeat no_parent (length (mv_cells fine_mesh))) = Ok (ppar, epar, cpar).
Proof.
  cbn [fine_mesh mesh_of mv_nodes mv_edges mv_cells]. rewrite !map_length, fine_nedges, fine_ncells, fnodes_eq.
  do 3 eexists. split; [|split].
  - unfold fps. fold N. apply (point_parents_ok N 0 [] _ eq_refl). lia.
  - cbn [app]. unfold fes. fold E. apply (edge_parents_ok E 0 _ _ []); auto.
    + rewrite pk_flat_length. cbn [num off]. rewrite Nat.add_0_r. fold N. clear. induction N as [|n IH]; auto. cbn [off]. lia.
    + cbn [plus off]. lia.
    + cbn [plus off]. lia.
  - cbn [app plus off]. unfold fcs. fold F.
    rewrite (app_assoc (flat_map (fun v => pk 2 v 1) (seq 0 N))). 
    pose proof (cell_parents_ok F 0 (flat_map (fun v => pk 2 v 1) (seq 0 N) ++ flat_map (fun e => pk 1 e (b2n (sp e))) (seq 0 E))
      (N + off (fun e => b2n (sp e)) E + off (fun c => b2n (lc_centre (lcs c))) F - N - (off (fun e => b2n (sp e)) E - 0))
      (flat_map (fun e => pk 1 e (bl gedge e)) (seq 0 E)) (off (bl gedge) E + off (bl gint) F - (off (bl gedge) E - 0)) [] (off (bl gcells) F)) as X.
    cbn [plus off app] in X. rewrite X; clear X.
    + f_equal. unfold ppar, epar, cpar. fold N E F. rewrite !Nat.sub_0_r, <- !app_assoc.
      assert (Z : forall a b, a = b -> repeat no_parent (a - b) = []) by (intros a b ->; rewrite Nat.sub_diag; reflexivity).
      rewrite !Z by lia. rewrite !app_nil_r. reflexivity.
    + rewrite app_length, !pk_flat_length. cbn [num off]. rewrite Nat.add_0_r. fold N E. f_equal. clear. induction N as [|n IH]; auto. cbn [off]. lia.
    + lia.
    + rewrite pk_flat_length. lia.
    + lia.
    + reflexivity.
    + lia.
Qed.

(** ** Refinement edges of the fine mesh *)
Lemma inherit_ok : forall p a lc k r lg, implemented kTria p = true -> p <> rp_nil -> good_anchor kTria p a ->
  children_of kTria p a = Ok lc -> k < length (lc_cells lc) -> r < 3 -> lg < 3 ->
  exists b, inherit_refedge p (Some r) k lg = Ok (Some b) /\ b < 3.
Proof.
  intros p a lc k r lg I NN G CO Hk Hr Hl.
  destruct p; try discriminate; try congruence; cbn in CO;
  try (destruct a as [a|]; [cbn in CO|discriminate]); injection CO as <-; cbn in Hk; cbn [inherit_refedge];
  try (eexists; split; [reflexivity|lia]);
  destruct k as [|[|[|[|k]]]]; try lia; cbn; try (eexists; split; [reflexivity|lia]);
  destruct r as [|[|[|r]]]; try lia; cbn; eexists; (split; [reflexivity|lia]).
Qed.
Lemma refedges_ok : forall longest re, refedge_ok m re -> (forall i, longest i < 3) ->
  exists l, fine_refedges longest m re fcs cpar 0 (mv_cells fine_mesh) = Ok l /\ refedge_ok fine_mesh l.
Proof.
  intros longest re [HR1 HR2] HL.
  assert (K : forall i c, nth_error (mv_cells fine_mesh) i = Some c ->
     exists x, fine_refedge longest m re fcs cpar i c = Ok x /\ (cv_type c = kTria -> exists b, x = Some b /\ b < 3)).
  { intros i c Hi. unfold fine_refedge. destruct (cv_type c) eqn:T; try (eexists; split; [reflexivity|discriminate]).
    destruct (fine_cell_inv i c Hi) as (x & Hx & Ex). destruct (fine_gcell_cases i x Hx) as (p & k & Hp & Hk & Ei).
    assert (Lk : k < bl gcells p) by (apply nth_error_Some; congruence).
    assert (PA : nth_error cpar i = Some (mkPar (Some (0, p)) (Some p) (Some k))).
    { apply pk_nth. exists p, k. auto. }
    unfold RefineModel.get. rewrite PA. cbn [bind pa_ptr pa_num]. rewrite (nth_error_nth' (mv_cells m) (mkCellv [] [] [])) by auto. fold (cell_at p). cbn [bind].
    change (cv_type (cell_at p)) with (ty p). destruct (ty p) eqn:TP; try (eexists; split; [reflexivity|intros _; eexists; split; [reflexivity|auto]]).
    assert (FC : nth_error fcs p = Some (fcci p)).
    { unfold fcs. rewrite nth_error_map, nth_error_nth' with (d := 0) by (rewrite seq_length; auto). rewrite seq_nth by auto. reflexivity. }
    rewrite FC. cbn [bind fcci cc_cells cc_pat]. rewrite nth_error_nth' with (d := 0) by (rewrite seq_length; auto).
    rewrite seq_nth by auto. cbn [bind]. rewrite Ei, Nat.eqb_refl. cbn [verify bind].
    destruct (HR2 p (cell_at p)) as (r & R1 & R2); [apply nth_error_nth'; auto|exact TP|]. rewrite R1. cbn [bind].
    destruct (Hcc p Hp) as (I & NN & G & _). destruct (tables p Hp) as (CO & _). rewrite TP in I, G, CO.
    destruct (inherit_ok _ _ _ k r (longest (off (bl gcells) p + k)) I NN G CO) as (b & B1 & B2); auto.
    - unfold bl, gcells in Lk. rewrite map_length in Lk. auto.
    - rewrite B1. eauto. }
  assert (G : forall cs i, (forall k c, nth_error cs k = Some c -> exists x, fine_refedge longest m re fcs cpar (i + k) c = Ok x /\
      (cv_type c = kTria -> exists b, x = Some b /\ b < 3)) ->
    exists l, fine_refedges longest m re fcs cpar i cs = Ok l /\ length l = length cs /\
      forall k c, nth_error cs k = Some c -> cv_type c = kTria -> exists b, nth_error l k = Some (Some b) /\ b < 3).
  { induction cs as [|c cs IH]; intros i Q; cbn [fine_refedges].
    - exists []. split; auto. split; auto. intros [|k] c H; discriminate.
    - destruct (Q 0 c eq_refl) as (x & X1 & X2). rewrite Nat.add_0_r in X1. rewrite X1. cbn [bind].
      destruct (IH (S i)) as (l & L1 & L2 & L3).
      { intros k d Hd. replace (S i + k) with (i + S k) by lia. apply (Q (S k)). auto. }
      rewrite L1. cbn [bind]. exists (x :: l). split; auto. split; [cbn; lia|]. intros [|k] d Hd T; cbn in Hd |- *.
      + injection Hd as <-. destruct (X2 T) as (b & -> & B). eauto.
      + eauto. }
  destruct (G (mv_cells fine_mesh) 0) as (l & L1 & L2 & L3); [exact K|]. exists l. split; auto. split; auto.
Qed.

Theorem perform_ok : forall longest L check, l_mesh L = m -> l_points L = repeat (mkPci rp_copy None) N -> l_edges L = es -> l_cells L = cis ->
  refedge_ok m (l_refedge L) -> (forall i, longest i < 3) -> (check = true -> complete_mesh m) ->
  exists re, PerformRefinement longest L (new_factory check) =
    Ok (mkLevel m fps fes fcs (l_ppar L) (l_epar L) (l_cpar L) (l_refedge L) (l_marked L),
        new_level fine_mesh ppar epar cpar re, new_factory check) /\ refedge_ok fine_mesh re.
Proof.
  intros longest L check HM HP HE HC HR HL CH.
  destruct (refedges_ok longest (l_refedge L) HR HL) as (re & R1 & R2). exists re. split; auto.
  unfold PerformRefinement. rewrite HM, HP, HE, HC. destruct (calls_ok check) as (f1 & f2 & C1 & C2 & C3). 
  rewrite C1. cbn [bind]. rewrite C2. cbn [bind]. rewrite Hcis. fold F. rewrite Nat.eqb_refl. cbn [verify bind]. rewrite C3. cbn [bind].
  unfold build. cbn [fst snd f_check f_nodes f_edges f_cells].
  destruct (fine_built check CH) as (fm & B1 & B2). rewrite B1. cbn [bind]. cbv zeta. rewrite B2.
  destruct parents_ok as (pp1 & pp2 & ep2 & P1 & P2 & P3). rewrite P1. cbn [bind]. rewrite P2. cbn [bind]. rewrite P3. cbn [bind].
  rewrite R1. cbn [bind]. reflexivity.
Qed.
End Fine.
