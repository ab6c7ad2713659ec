(** Proofs for C24-C27, at the level of the hierarchy. *)
From Coq Require Import List Arith Lia Bool ZArith Reals Lra.
Import ListNotations.
From Verif Require Import Base MeshModel MeshView RefPatModel RefPatSpec RefineModel RefineSpec RefineProofs.
Local Open Scope nat_scope.

Lemma wf_cell_type : forall m c, wf_cell m c ->
  (cv_type c = kTria /\ length (cv_nodes c) = 3 /\ length (cv_edges c) = 3) \/
  (cv_type c = kQuad /\ length (cv_nodes c) = 4 /\ length (cv_edges c) = 4).
Proof.
  intros m c W. pose proof (wc_edges _ _ W). destruct (wc_shape _ _ W) as [E|E]; rewrite E in H;
  unfold cv_type, cell_type; rewrite E; simpl; auto.
Qed.
Lemma wf_cell_edge_lt : forall m c e, wf_cell m c -> In e (cv_edges c) -> e < length (mv_edges m).
Proof.
  intros m c e W He. apply In_nth_error in He as [j Hj].
  assert (j < length (cv_nodes c)). { rewrite <- (wc_edges _ _ W). apply nth_error_Some. congruence. }
  destruct (wc_local _ _ W j H) as (e' & o & p0 & p1 & E1 & _ & E2 & _).
  rewrite Hj in E1. injection E1 as <-. apply nth_error_Some. congruence.
Qed.
Lemma wf_good_cells : forall m, wf_mesh m -> Forall (good_cell (length (mv_edges m))) (mv_cells m).
Proof.
  intros m W. pose proof (wm_cells _ W) as F. rewrite Forall_forall in *. intros c Hc. specialize (F c Hc).
  constructor; auto.
  - destruct (wf_cell_type _ _ F) as [(?&?&?)|(?&?&?)]; auto.
  - intros e. apply wf_cell_edge_lt; auto.
Qed.

Lemma init_edges_ok : forall marked n, length marked = n ->
  exists es, init_edges marked (repeat fresh_eci n) = Ok es /\ good_es n es /\
    forall e, flag es e = true <-> nth_error marked e = Some true.
Proof.
  induction marked as [|b bs IH]; intros n Hn; simpl in Hn; subst n; simpl.
  - exists []. split; auto. split; [constructor; auto; intros [|]; discriminate|].
    intros [|e]; unfold flag; simpl; split; discriminate.
  - destruct (IH (length bs) eq_refl) as (es & E & G & F). rewrite E. cbn [bind].
    eexists. split; [reflexivity|]. split.
    + constructor; simpl; [rewrite (ge_len _ _ G); auto|].
      intros [|e] ci H; simpl in H; [injection H as <-; simpl; destruct b; auto|]. eapply (ge_pat _ _ G); eauto.
    + intros [|e]; [|apply F]. unfold flag; simpl. destruct b; simpl; split; auto; discriminate.
Qed.

Lemma closure_mono : forall fuel fuel' cs re es cis r, fuel <= fuel' ->
  closure fuel cs re es cis = Some r -> closure fuel' cs re es cis = Some r.
Proof.
  induction fuel as [|fuel IH]; intros fuel' cs re es cis r H E; [discriminate|].
  destruct fuel' as [|fuel']; [lia|]. simpl in *. destruct (pass cs re es cis) as [[[es' cis'] [|]]| |]; auto.
  apply IH; auto. lia.
Qed.

Lemma flag_is_split : forall L e, flag (l_edges L) e = true <-> is_split L e.
Proof.
  intros L e. unfold flag, is_split. destruct (nth_error (l_edges L) e) as [ci|]; split.
  - intros H. apply rp_eqb_eq in H. eauto.
  - intros (ci' & E & H). injection E as <-. apply rp_eqb_eq; auto.
  - discriminate.
  - intros (ci' & E & H). discriminate.
Qed.
Lemma cflag_nth : forall es c j e, nth_error (cv_edges c) j = Some e -> cflag es c j = flag es e.
Proof.
  intros es c j e H. unfold cflag. erewrite nth_error_nth; [reflexivity|]. rewrite nth_error_map, H. reflexivity.
Qed.

Theorem marking_closure : forall L, wf_mesh (l_mesh L) -> unrefined L ->
  exists L', (forall fuel, S (length (mv_edges (l_mesh L))) <= fuel -> mark_closure fuel L = Some (Ok L')) /\
    compatible L' /\ l_mesh L' = l_mesh L /\ l_refedge L' = l_refedge L /\ l_marked L' = l_marked L /\
    l_ppar L' = l_ppar L /\ l_epar L' = l_epar L /\ l_cpar L' = l_cpar L /\
    (forall e, is_marked L e -> is_split L' e) /\ admissible L (is_split L') /\
    (forall (S : nat -> Prop) e, (forall x, is_marked L x -> S x) -> admissible L S -> is_split L' e -> S e).
Proof.
  intros L W (Up & Ue & Uc & Um & Ur & Ua). set (m := l_mesh L) in *. set (n := length (mv_edges m)) in *.
  destruct (init_edges_ok (l_marked L) n Um) as (es & E & G & F).
  pose proof (wf_good_cells m W) as GC.
  assert (HR : forall i c a, nth_error (mv_cells m) i = Some c -> nth_error (l_refedge L) i = Some a -> has_ref c a).
  { intros i c a H1 H2 T. destruct (Ua i c H1 T) as (a' & H3 & H4). exists a'. split; auto. congruence. }
  assert (HB : forall i c ci, nth_error (mv_cells m) i = Some c -> nth_error (l_cells L) i = Some ci ->
     blank ci /\ anchor_in_range c ci).
  { intros i c ci _ H. rewrite Uc in H. apply nth_error_In, repeat_spec in H as ->. repeat split. }
  assert (Lc : length (l_cells L) = length (mv_cells m)) by (rewrite Uc; apply repeat_length).
  destruct (closure_ok (S n) n (mv_cells m) (l_refedge L) es (l_cells L) G GC Ur Lc HR HB) as
    (es' & cis' & EC & LC & G' & Mo & Fo & Fi & Ad); [lia|].
  set (L' := mkLevel m (copy_all (l_points L)) es' cis' (l_ppar L) (l_epar L) (l_cpar L) (l_refedge L) (l_marked L)).
  exists L'. split; [|split; [|do 6 (split; [reflexivity|]); split; [|split]]].
  - intros fuel Hf. unfold mark_closure, check_sizes. fold m. rewrite Up, Uc, Ue. rewrite !repeat_length. fold n.
    rewrite !Nat.eqb_refl. cbn [verify bind]. rewrite E. rewrite <- Uc.
    rewrite (closure_mono _ _ _ _ _ _ _ Hf EC). unfold L'. rewrite Up. reflexivity.
  - constructor.
    + cbn. rewrite Up. unfold copy_all. fold m. generalize (mv_nodes m) as k. induction k; simpl; auto. f_equal; auto.
    + cbn. apply (ge_len _ _ G').
    + cbn. apply (ge_pat _ _ G').
    + cbn. auto.
    + cbn. intros i c ci H1 H2. destruct (Fi i c ci H1 H2) as ((B1 & B2 & B3) & F1 & F2 & F3 & F4).
      split; auto. constructor; auto. intros j e Hj. rewrite <- flag_is_split. cbn [L' l_edges].
      rewrite <- (cflag_nth es' c j e Hj). apply F4. apply nth_error_Some. congruence.
  - intros e He. apply flag_is_split. cbn. apply Mo. apply F. auto.
  - intros i c a e r H1 T H2 H3 H4 H5. apply flag_is_split in H5. cbn in H5. apply flag_is_split. cbn.
    apply In_nth_error in H4 as [j Hj]. rewrite <- (cflag_nth es' c a r H3).
    apply (Ad i c a H1 H2 T j).
    + rewrite Forall_forall in GC. destruct (gc_len _ _ (GC c (nth_error_In _ _ H1))) as [[_ X]|[X _]]; [|congruence].
      rewrite <- X. apply nth_error_Some. congruence.
    + rewrite (cflag_nth es' c j e Hj). auto.
  - intros S e HM HA He. apply flag_is_split in He. cbn in He. apply Fo in He.
    induction He as [x Hx|i c a e r H1 T H2 H3 H4 H5 IH]; [apply HM, F; auto|].
    apply (HA i c a e r); auto.
Qed.

(** * Uniform refinement *)
Theorem uniform_flags : forall p L, wf_mesh (l_mesh L) -> unrefined L -> (p = rp_regular \/ p = rp_barycentric) ->
  exists L', flag_uniform p L = Ok L' /\ compatible L' /\ l_mesh L' = l_mesh L /\ l_refedge L' = l_refedge L /\
    l_ppar L' = l_ppar L /\ l_epar L' = l_epar L /\ l_cpar L' = l_cpar L /\
    (forall e, e < length (mv_edges (l_mesh L)) -> is_split L' e) /\
    (forall i ci, nth_error (l_cells L') i = Some ci -> cc_pat ci = p).
Proof.
  intros p L W (Up & Ue & Uc & Um & Ur & Ua) Hp. unfold flag_uniform, check_sizes.
  assert (Ep : rp_eqb p rp_regular || rp_eqb p rp_barycentric = true) by (destruct Hp as [-> | ->]; reflexivity).
  rewrite Ep, Up, Ue, Uc, !repeat_length, !Nat.eqb_refl. cbn [verify bind].
  eexists. split; [reflexivity|].
  assert (RM : forall A B (f : A -> B) x n, map f (repeat x n) = repeat (f x) n).
  { intros A B f x. induction n; simpl; auto. f_equal; auto. }
  assert (SP : forall L', l_edges L' = map (fun e => mkEci rp_split (ec_edges e) (ec_points e)) (repeat fresh_eci (length (mv_edges (l_mesh L)))) ->
     forall e, e < length (mv_edges (l_mesh L)) -> is_split L' e).
  { intros L' H e He. exists (mkEci rp_split [] []). rewrite H, RM. split; auto.
    rewrite (nth_error_nth' _ (mkEci rp_split [] [])) by (rewrite repeat_length; auto). f_equal.
    apply (repeat_spec (length (mv_edges (l_mesh L))) (mkEci rp_split [] [])). apply nth_In. rewrite repeat_length; auto. }
  split; [|do 5 (split; [reflexivity|]); split].
  - constructor; cbn.
    + unfold copy_all. rewrite RM. reflexivity.
    + rewrite map_length, repeat_length. auto.
    + intros e ci H. rewrite RM in H. apply nth_error_In, repeat_spec in H as ->. cbn. auto.
    + rewrite map_length, repeat_length. auto.
    + intros i c ci H1 H2. rewrite RM in H2. apply nth_error_In, repeat_spec in H2 as ->. cbn. split; auto.
      pose proof (wm_cells _ W) as F. rewrite Forall_forall in F. apply nth_error_In in H1. specialize (F c H1).
      assert (T : cv_type c = kTria /\ length (cv_edges c) = 3 \/ cv_type c = kQuad /\ length (cv_edges c) = 4).
      { destruct (wf_cell_type _ _ F) as [(?&?&?)|(?&?&?)]; auto. }
      constructor; cbn.
      * destruct T as [[-> _]|[-> _]], Hp as [-> | ->]; reflexivity.
      * destruct Hp as [-> | ->]; discriminate.
      * destruct T as [[-> _]|[-> _]], Hp as [-> | ->]; reflexivity.
      * intros j e Hj. split; intros _.
        -- apply SP; [reflexivity|]. eapply wf_cell_edge_lt; eauto. eapply nth_error_In; eauto.
        -- assert (Hl : j < length (cv_edges c)) by (apply nth_error_Some; congruence).
           destruct T as [[-> E]|[-> E]], Hp as [-> | ->]; cbn; lia.
  - intros e He. apply SP; auto.
  - intros i ci H. cbn in H. rewrite RM in H. apply nth_error_In, repeat_spec in H as ->. reflexivity.
Qed.

(** * C24 *)
(** Position of a node of the fine mesh on the lattice. *)
Section Place.
Variables half third one : Z.
Definition place (t : refel) (n : lnode) : lpoint :=
  match t, n with
  | kTria, V k => t_node one k
  | kTria, M k => t_mid half k
  | kTria, C => [third; third]
  | _, V k => q_node one k
  | _, M k => q_mid half one k
  | _, C => [half; half]
  end.
End Place.

Theorem topology_matches : forall P lc,
  children_of (p_el P) (p_pat P) (p_anchor P) = Ok lc ->
  let pl := place (p_lc P / 2)%Z (p_lc P / 3)%Z (p_lc P) (p_el P) in
  ChildPolygons P 0 = Ok (map (map pl) (lc_cells lc)) /\
  ChildPolygons P 1 = Ok (map (fun e => [pl (fst e); pl (snd e)]) (lc_edges lc)) /\
  ChildPolygons P 2 = Ok (if lc_centre lc then [[pl C]] else []).
Proof.
  intros [t p a l] lc H pl. cbn [p_el p_pat p_anchor p_lc] in *. unfold ChildPolygons. cbn [p_el p_pat p_anchor p_lc].
  destruct t; try discriminate; destruct p; try discriminate; cbn in H;
  try (destruct a as [a|]; [|discriminate]; cbn in H); injection H as <-; split; try reflexivity; split; reflexivity.
Qed.
Theorem topology_accepts : forall P, (p_el P = kTria \/ p_el P = kQuad) -> p_pat P <> rp_nil ->
  (exists lc, children_of (p_el P) (p_pat P) (p_anchor P) = Ok lc) <-> (exists l, ChildPolygons P 0 = Ok l).
Proof.
  intros [t p a l] Ht Hp. cbn [p_el p_pat p_anchor p_lc] in *. unfold ChildPolygons. cbn [p_el p_pat p_anchor p_lc].
  destruct Ht as [-> | ->]; destruct p; try congruence; cbn;
  try (split; intros [x H]; try discriminate; eauto; fail);
  destruct a as [a|]; cbn; split; intros [x H]; try discriminate; eauto.
Qed.

Definition valid_lnode (t : refel) (n : lnode) : Prop :=
  match n with V k | M k => k < num_edges t | C => True end.
Lemma tables_valid : forall t p a lc, children_of t p a = Ok lc ->
  (forall c n, In c (lc_cells lc) -> In n c -> valid_lnode t n) /\
  (forall e, In e (lc_edges lc) -> valid_lnode t (fst e) /\ valid_lnode t (snd e)).
Proof.
  intros t p a lc H.
  assert (G : Forall (Forall (valid_lnode t)) (lc_cells lc) /\ 
              Forall (fun e => valid_lnode t (fst e) /\ valid_lnode t (snd e)) (lc_edges lc)).
  { assert (M3 : forall k, k mod 3 < 3) by (intros; apply Nat.mod_upper_bound; lia).
    assert (M4 : forall k, k mod 4 < 4) by (intros; apply Nat.mod_upper_bound; lia).
    destruct t; try discriminate; destruct p; try discriminate;
    cbn [children_of tria_children quad_children anchored] in H;
    try (destruct a as [a|]; [|discriminate]; cbn [anchored] in H); injection H as <-; cbn [lc_cells lc_edges];
    (split; repeat (apply Forall_cons || apply Forall_nil));
    cbn [valid_lnode num_edges fst snd]; try split; auto; try (apply M3); try (apply M4).
    all: match goal with |- (match snd ?x with _ => _ end) < _ => destruct (snd x) as [|[|[|]]]; lia | _ => lia end. }
  destruct G as [G1 G2]. rewrite Forall_forall in G1, G2. split; auto.
  intros c n Hc Hn. specialize (G1 c Hc). rewrite Forall_forall in G1. auto.
Qed.

Lemma place_loc : forall t k n, (t = kTria \/ t = kQuad) -> (k > 0)%Z -> valid_lnode t n ->
  to_ref (6 * k) (place ((6 * k) / 2)%Z ((6 * k) / 3)%Z (6 * k)%Z t n) = loc t n.
Proof.
  intros t k n Ht Hk Hv.
  assert (E2 : ((6 * k) / 2 = 3 * k)%Z) by (rewrite (Z.mul_comm 6), (Z.mul_comm 3); change 6%Z with (3 * 2)%Z; rewrite Z.mul_assoc; apply Z.div_mul; lia).
  assert (E3 : ((6 * k) / 3 = 2 * k)%Z) by (rewrite (Z.mul_comm 6), (Z.mul_comm 2); change 6%Z with (2 * 3)%Z; rewrite Z.mul_assoc; apply Z.div_mul; lia).
  rewrite E2, E3. assert (Hr : (IZR k > 0)%R) by (apply (IZR_lt 0); lia).
  assert (X1 : (IZR (3 * k) = 3 * IZR k)%R) by apply mult_IZR.
  assert (X2 : (IZR (2 * k) = 2 * IZR k)%R) by apply mult_IZR.
  assert (X3 : (IZR (6 * k) = 6 * IZR k)%R) by apply mult_IZR.
  revert X1 X2 X3. generalize (3 * k)%Z (2 * k)%Z (6 * k)%Z. intros h t3 o X1 X2 X3.
  destruct Ht as [-> | ->]; destruct n as [j|j|]; cbn in Hv;
  try (destruct j as [|[|[|[|j]]]]; try lia);
  cbv [to_ref place loc t_node t_mid q_node q_mid midpoint ref_corners nth length fst snd Nat.modulo Nat.divmod Nat.sub];
  rewrite ?X1, ?X2, ?X3; f_equal; field; lra.
Qed.

Theorem topology_located : forall P lc k, (k > 0)%Z -> p_lc P = (6 * k)%Z -> (p_el P = kTria \/ p_el P = kQuad) ->
  children_of (p_el P) (p_pat P) (p_anchor P) = Ok lc ->
  exists cs es ps, ChildPolygons P 0 = Ok cs /\ ChildPolygons P 1 = Ok es /\ ChildPolygons P 2 = Ok ps /\
    map (map (to_ref (p_lc P))) cs = map (map (loc (p_el P))) (lc_cells lc) /\
    map (map (to_ref (p_lc P))) es = map (fun e => [loc (p_el P) (fst e); loc (p_el P) (snd e)]) (lc_edges lc) /\
    map (map (to_ref (p_lc P))) ps = (if lc_centre lc then [[loc (p_el P) C]] else []).
Proof.
  intros P lc k Hk Hl Ht H. destruct (topology_matches P lc H) as (T0 & T1 & T2).
  destruct (tables_valid _ _ _ _ H) as [V1 V2].
  do 3 eexists. split; [exact T0|]. split; [exact T1|]. split; [exact T2|]. rewrite Hl.
  split; [|split].
  - rewrite map_map. apply map_ext_in. intros c Hc. rewrite map_map. apply map_ext_in. intros n Hn.
    apply place_loc; eauto.
  - rewrite map_map. apply map_ext_in. intros e He. cbn [map]. destruct (V2 e He). rewrite !place_loc; auto.
  - destruct (lc_centre lc); auto. cbn [map]. rewrite place_loc; cbn; auto.
Qed.

(** * Consequences used in PropRefine *)
Lemma compatible_neighbours : forall L i1 i2 c1 c2 d1 d2 j1 j2 e, compatible L ->
  nth_error (mv_cells (l_mesh L)) i1 = Some c1 -> nth_error (l_cells L) i1 = Some d1 ->
  nth_error (mv_cells (l_mesh L)) i2 = Some c2 -> nth_error (l_cells L) i2 = Some d2 ->
  nth_error (cv_edges c1) j1 = Some e -> nth_error (cv_edges c2) j2 = Some e ->
  (In j1 (split_edges (cv_type c1) (cc_pat d1) (anchor_nat (cc_anchor d1))) <->
   In j2 (split_edges (cv_type c2) (cc_pat d2) (anchor_nat (cc_anchor d2)))).
Proof.
  intros L i1 i2 c1 c2 d1 d2 j1 j2 e Co C1 D1 C2 D2 E1 E2.
  destruct (co_cells _ Co _ _ _ C1 D1) as (K1 & _). destruct (co_cells _ Co _ _ _ C2 D2) as (K2 & _).
  rewrite (cm_edges _ _ _ K1 j1 e E1). rewrite (cm_edges _ _ _ K2 j2 e E2). tauto.
Qed.

Lemma nothing_marked : forall L L', wf_mesh (l_mesh L) -> unrefined L ->
  mark_closure (S (length (mv_edges (l_mesh L)))) L = Some (Ok L') ->
  (forall e, ~ is_marked L e) -> forall e, ~ is_split L' e.
Proof.
  intros L L' W U E N e He. destruct (marking_closure L W U) as (L'' & F & _ & _ & _ & _ & _ & _ & _ & _ & _ & Le).
  rewrite (F _ (Nat.le_refl _)) in E. injection E as ->. apply (Le (fun _ => False) e); auto.
  unfold admissible. tauto.
Qed.

Lemma base_unrefined : forall longest m, (forall i, longest i < 3) -> unrefined (base_level longest m).
Proof.
  intros longest m H. unfold unrefined, base_level, new_level; cbn.
  do 3 (split; [reflexivity|]). rewrite repeat_length. split; auto. split; [rewrite map_length, seq_length; auto|].
  intros i c Hc T. exists (longest i). split; auto. rewrite nth_error_map.
  assert (Hi : i < length (mv_cells m)) by (apply nth_error_Some; congruence).
  rewrite (nth_error_nth' _ 0) by (rewrite seq_length; auto). rewrite seq_nth by auto. cbn [option_map plus].
  rewrite (nth_error_nth _ _ _ Hc), T. reflexivity.
Qed.

Section Longest.
Variable len : list R.
Let ltb (a b : R) : bool := if Rlt_dec a b then true else false.
Lemma longest_loop_spec : forall l k best mx,
  (k <= length len)%nat -> l = skipn k len -> 
  ((best < k)%nat /\ nth best len 0%R = mx \/ k = 0%nat /\ mx = 0%R /\ best = 0%nat) ->
  (forall i, (i < k)%nat -> (nth i len 0 <= mx)%R) ->
  (forall i, (i < best)%nat -> (nth i len 0 < mx)%R) ->
  len <> [] -> (forall x, In x len -> (0 < x)%R) ->
  let r := longest_loop ltb l k best mx in
  (r < length len)%nat /\ (forall i, (i < length len)%nat -> (nth i len 0 <= nth r len 0)%R) /\
  (forall i, (i < r)%nat -> (nth i len 0 < nth r len 0)%R).
Proof.
  induction l as [|x l IH]; intros k best mx Hk Hl Hb Hm Hs Hne Hp; cbn [longest_loop].
  - assert (k = length len).
    { assert (length (skipn k len) = 0) by (rewrite <- Hl; auto). rewrite skipn_length in H. lia. }
    subst k. destruct Hb as [[B1 B2]|[B1 _]].
    + rewrite <- B2 in Hm, Hs. auto.
    + destruct len; [congruence|discriminate].
  - assert (Hlt : (k < length len)%nat).
    { assert (S (length l) = length (skipn k len)) by (rewrite <- Hl; auto). rewrite skipn_length in H. lia. }
    assert (Hx : nth k len 0%R = x).
    { rewrite <- (firstn_skipn k len), <- Hl. rewrite app_nth2; rewrite firstn_length_le by lia; [|lia].
      rewrite Nat.sub_diag. reflexivity. }
    assert (Hl' : l = skipn (S k) len).
    { rewrite <- (firstn_skipn k len), <- Hl. rewrite skipn_app. rewrite firstn_length_le by lia.
      rewrite skipn_all2 by (rewrite firstn_length_le; lia). replace (S k - k)%nat with 1%nat by lia. reflexivity. }
    assert (Hx0 : (0 < x)%R). { apply Hp. rewrite <- Hx. apply nth_In. auto. }
    unfold ltb in *. cbv zeta. destruct (Rlt_dec mx x) as [Q|Q].
    + apply IH; auto.
      * intros i Hi. destruct (Nat.eq_dec i k) as [->|]; [rewrite Hx; lra|].
        specialize (Hm i ltac:(lia)). lra.
      * intros i Hi. specialize (Hm i Hi). lra.
    + destruct Hb as [[B1 B2]|(B1 & B2 & B3)]; [|lra].
      apply IH; auto. intros i Hi. destruct (Nat.eq_dec i k) as [->|]; [rewrite Hx; lra|]. apply Hm; lia.
Qed.
Theorem longest_edge_spec : len <> [] -> (forall x, In x len -> (0 < x)%R) ->
  let r := LongestEdge ltb 0%R len in
  (r < length len)%nat /\ (forall i, (i < length len)%nat -> (nth i len 0 <= nth r len 0)%R) /\
  (forall i, (i < r)%nat -> (nth i len 0 < nth r len 0)%R).
Proof.
  intros Hne Hp. apply longest_loop_spec; auto; try lia. 
  all: intros i Hi; lia.
Qed.
End Longest.
