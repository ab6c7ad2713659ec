(** Continuity of finite element functions from traces of shape functions and the
    order of the dofs. *)
From Coq Require Import Reals List Arith Lia Lra Bool.
Import ListNotations.
From Verif Require Import Base MeshModel MeshView DofModel DofSpec RefPatModel GeoModel GeoSpec FeModel FeSpec.
Local Open Scope R_scope.

(** *** Dot products *)
Lemma rsum_app : forall a b, rsum (a ++ b) = rsum a + rsum b.
Proof.
  induction a as [|x a IH]; intros b; cbn [app]; unfold rsum; cbn [fold_right]; fold (rsum b); [ring|].
  fold (rsum (a ++ b)). rewrite IH. fold (rsum a). ring.
Qed.
Lemma dot_nil_r : forall a, dot a [] = 0.
Proof. destruct a; reflexivity. Qed.
Lemma dot_cons : forall a l b m, dot (a :: l) (b :: m) = a * b + dot l m.
Proof. reflexivity. Qed.
Lemma dot_app : forall a b c d, length a = length c -> dot (a ++ b) (c ++ d) = dot a c + dot b d.
Proof.
  induction a as [|x a IH]; intros b [|y c] d L; try discriminate L; cbn [app].
  - unfold dot at 2. cbn. ring.
  - rewrite !dot_cons, IH by (cbn in L; lia). ring.
Qed.
Lemma dot_zeros : forall n a, dot a (repeat 0 n) = 0.
Proof.
  induction n as [|n IH]; intros [|x a]; try reflexivity. cbn [repeat]. rewrite dot_cons, IH. ring.
Qed.
Lemma dot_rev : forall a b, length a = length b -> dot (rev a) (rev b) = dot a b.
Proof.
  induction a as [|x a IH]; intros [|y b] L; try discriminate L; cbn [rev]; [reflexivity|].
  rewrite dot_app by (rewrite !rev_length; cbn in L; lia). rewrite IH by (cbn in L; lia).
  rewrite !dot_cons. change (dot [] []) with 0. ring.
Qed.
Lemma dot_firstn : forall b a, dot (firstn (length b) a) b = dot a b.
Proof.
  induction b as [|y b IH]; intros [|x a]; cbn [length firstn]; try reflexivity. rewrite !dot_cons, IH. reflexivity.
Qed.
(** Only block [j] of the second vector is not zero. *)
Lemma dot_block : forall (us : list (list R)) (ms : list nat) j a l,
  length us = length ms -> (forall i, (i < length ms)%nat -> length (nth i us []) = nth i ms 0%nat) ->
  (a <= j)%nat -> length l = nth (j - a) ms 0%nat -> (j - a < length ms)%nat ->
  dot (concat us) (concat (map (fun i => if Nat.eqb i j then l else repeat 0 (nth (i - a) ms 0%nat)) (seq a (length ms))))
  = dot (nth (j - a) us []) l.
Proof.
  induction us as [|u us IH]; intros [|m ms] j a l L H Ha Hl Hj; try discriminate L; cbn in Hj; [lia|].
  cbn [length seq map concat].
  assert (Hu : length u = m) by (apply (H 0%nat); cbn; lia).
  assert (Hus : forall i, (i < length ms)%nat -> length (nth i us []) = nth i ms 0%nat).
  { intros i Hi. apply (H (S i)). cbn. lia. }
  assert (E : forall b, map (fun i => if Nat.eqb i j then l else repeat 0 (nth (i - a) (m :: ms) 0%nat)) (seq (S b) (length ms))
     = map (fun i => if Nat.eqb i j then l else repeat 0 (nth (i - a) (m :: ms) 0%nat)) (seq (S b) (length ms))) by reflexivity.
  assert (E' : map (fun i => if Nat.eqb i j then l else repeat 0 (nth (i - a) (m :: ms) 0%nat)) (seq (S a) (length ms))
     = map (fun i => if Nat.eqb i j then l else repeat 0 (nth (i - S a) ms 0%nat)) (seq (S a) (length ms))).
  { apply map_ext_in. intros i Hi. apply in_seq in Hi. destruct (Nat.eqb i j); auto.
    replace (i - a)%nat with (S (i - S a)) by lia. reflexivity. }
  rewrite E'. clear E E'. destruct (Nat.eqb_spec a j) as [->|Ne].
  - rewrite Nat.sub_diag in *. cbn [nth] in *. rewrite dot_app by congruence.
    replace (dot (concat us) _) with 0; [ring|]. symmetry.
    clear - Hus L Hu. cbn in L. assert (L' : length us = length ms) by lia. clear L.
    revert us ms L' Hus.
    assert (G : forall us ms b, length us = length ms ->
      (forall i, (i < length ms)%nat -> length (nth i us []) = nth i ms 0%nat) -> (j < b)%nat ->
      dot (concat us) (concat (map (fun i => if Nat.eqb i j then l else repeat 0 (nth (i - b) ms 0%nat)) (seq b (length ms)))) = 0).
    { induction us as [|v us IH]; intros [|m' ms] b L' H Hb; try discriminate L'; [reflexivity|].
      cbn [length seq map concat]. destruct (Nat.eqb_spec b j); [lia|]. rewrite Nat.sub_diag. cbn [nth].
      rewrite dot_app by (rewrite repeat_length; apply (H 0%nat); cbn; lia). rewrite dot_zeros.
      rewrite (map_ext_in _ (fun i => if Nat.eqb i j then l else repeat 0 (nth (i - S b) ms 0%nat))).
      - rewrite IH; [ring|cbn in L'; lia| |lia]. intros i Hi. apply (H (S i)). cbn. lia.
      - intros i Hi. apply in_seq in Hi. destruct (Nat.eqb i j); auto.
        replace (i - b)%nat with (S (i - S b)) by lia. reflexivity. }
    intros us ms L' Hus. apply G; auto.
  - rewrite Nat.sub_diag. cbn [nth]. rewrite dot_app by (rewrite repeat_length; auto). rewrite dot_zeros.
    replace (j - a)%nat with (S (j - S a)) in * by lia. cbn [nth] in *.
    rewrite IH; auto; try lia; try ring.
Qed.

(** *** Values of finite element functions *)
Lemma traverse_entries : forall gd u n, (n <= length gd)%nat -> (forall g, In g gd -> (g < length u)%nat) ->
  traverse (fun i => do g <- entry gd i; entry u g) (seq 0 n) = Ok (map (fun g => nth g u 0) (firstn n gd)).
Proof.
  intros gd u n. assert (G : forall n a, (a + n <= length gd)%nat -> (forall g, In g gd -> (g < length u)%nat) ->
    traverse (fun i => do g <- entry gd i; entry u g) (seq a n) = Ok (map (fun g => nth g u 0) (firstn n (skipn a gd)))).
  { clear n. induction n as [|n IH]; intros a L H; cbn [seq traverse firstn map]; [reflexivity|].
    unfold entry at 1. destruct (nth_error gd a) as [g|] eqn:E.
    2: { apply nth_error_None in E. lia. }
    cbn [bind]. assert (Hg : (g < length u)%nat) by (apply H; eapply nth_error_In; eauto).
    unfold entry. rewrite (nth_error_nth' u 0 Hg). cbn [bind]. fold (@entry R). fold (@entry nat).
    rewrite IH by (auto; lia). cbn [bind].
    assert (Sk : skipn a gd = g :: skipn (S a) gd).
    { clear - E. revert gd E. induction a as [|a IH]; intros [|x gd] E; cbn in *; try discriminate; [congruence|]. apply IH, E. }
    rewrite Sk. cbn [map]. reflexivity. }
  intros L H. apply (G n 0%nat L H).
Qed.
Lemma fe_value_ok : forall V u e f x sf gd, sp_layout V e = Some f -> fe_eval f x = Ok sf ->
  GlobalDofIndices (sp_dofs V) e = Ok gd -> (length sf <= length gd)%nat -> (forall g, In g gd -> (g < length u)%nat) ->
  fe_value V u e x = Ok (dot (map (fun g => nth g u 0) gd) sf).
Proof.
  intros V u e f x sf gd Lo Ev Gd Le In. unfold fe_value. rewrite Lo, Ev, Gd. cbn [bind].
  rewrite (traverse_entries gd u _ Le In). cbn [bind]. f_equal. rewrite <- firstn_map. apply dot_firstn.
Qed.

(** *** Traces *)
Definition node_block (n j : nat) (o : bool) (a b : R) : list R :=
  map (fun i => if Nat.eqb i j then (if o then a else b)
                else if Nat.eqb i ((j + 1) mod n) then (if o then b else a) else 0) (seq 0 n).
Definition edge_blocks (ms : list nat) (j : nat) (l : list R) : list R :=
  concat (map (fun i => if Nat.eqb i j then l else repeat 0 (nth i ms 0%nat)) (seq 0 (length ms))).
(** On edge [j] the shape functions of [f] are those of the segment element [fs],
    for the parameter running along the edge's own direction; edge functions in
    reverse order if the edge is run through backwards. *)
Definition trace_ok (f fs : srfe) (ms : list nat) (r j : nat) (o : bool) : Prop :=
  forall t, exists a b l, fe_eval fs [t] = Ok (a :: b :: l) /\ length l = nth j ms 0%nat /\
    fe_eval f (edge_point (fe_el f) j o t) =
      Ok (node_block (num_nodes (fe_el f)) j o a b ++ edge_blocks ms j (if o then l else rev l) ++ repeat 0 r).

Record conforming (V : fe_space) : Prop := {
  cf_mesh : wf_mesh (sp_mesh V);
  cf_dofs : canonical (sp_mesh V) true (sp_dofs V);
  cf_range : forall e l, valid (sp_mesh V) e -> GlobalDofIndices (sp_dofs V) e = Ok l ->
     forall g, In g l -> (g < NumDofs (sp_dofs V))%nat;
  cf_node : forall n, valid (sp_mesh V) (ENode n) ->
     (exists x, own (sp_dofs V) (ENode n) [x]) /\
     exists f, sp_layout V (ENode n) = Some f /\ fe_eval f [] = Ok [1];
  cf_edge : forall e, valid (sp_mesh V) (EEdge e) ->
     exists f l, sp_layout V (EEdge e) = Some f /\ own (sp_dofs V) (EEdge e) l /\
       (forall t, exists v, fe_eval f [t] = Ok v /\ length v = 2 + length l)%nat /\
       fe_eval f [0] = Ok (1 :: 0 :: repeat 0 (length l)) /\
       fe_eval f [1] = Ok (0 :: 1 :: repeat 0 (length l));
  cf_cell : forall i c, nth_error (mv_cells (sp_mesh V)) i = Some c ->
     exists f l ms, sp_layout V (ECell i) = Some f /\ fe_el f = cv_type c /\
       own (sp_dofs V) (ECell i) l /\ length ms = length (cv_edges c) /\
       forall j e o, nth_error (cv_edges c) j = Some e -> nth_error (cv_ori c) j = Some o ->
         exists fs y, sp_layout V (EEdge e) = Some fs /\ own (sp_dofs V) (EEdge e) y /\ length y = nth j ms 0%nat /\
           trace_ok f fs ms (length l) j o
}.

Lemma own_fun : forall d e l l', own d e l -> own d e l' -> l = l'.
Proof. unfold own. congruence. Qed.
Lemma Forall2_nth : forall {A B} (P : A -> B -> Prop) (a : list A) (b : list B), Forall2 P a b ->
  forall i x, nth_error a i = Some x -> exists y, nth_error b i = Some y /\ P x y.
Proof.
  intros A B P a b H. induction H as [|x y a b Hxy H IH]; intros i z Hi; destruct i; cbn in Hi; try discriminate.
  - injection Hi as <-. exists y. auto.
  - apply IH, Hi.
Qed.
Lemma Forall2_len : forall {A B} (P : A -> B -> Prop) (a : list A) (b : list B), Forall2 P a b -> length a = length b.
Proof. intros A B P a b H. induction H; cbn; congruence. Qed.
Lemma dot_node_block : forall (xs : list R) n j o a b, length xs = n -> (3 <= n <= 4)%nat -> (j < n)%nat ->
  dot xs (node_block n j o a b) =
    (if o then nth j xs 0 else nth ((j + 1) mod n) xs 0) * a + (if o then nth ((j + 1) mod n) xs 0 else nth j xs 0) * b.
Proof.
  intros xs n j o a b L N J. destruct xs as [|x0 [|x1 [|x2 xs]]]; cbn in L; try lia.
  destruct xs as [|x3 xs].
  - cbn in L. subst n. destruct j as [|[|[|j]]]; try lia; destruct o;
      cbv [node_block seq map Nat.eqb Nat.add Nat.modulo Nat.divmod Nat.sub snd dot combine rsum fold_right fst nth]; ring.
  - destruct xs; cbn in L; [|lia]. subst n. destruct j as [|[|[|[|j]]]]; try lia; destruct o;
      cbv [node_block seq map Nat.eqb Nat.add Nat.modulo Nat.divmod Nat.sub snd dot combine rsum fold_right fst nth]; ring.
Qed.

Lemma concat_singles : forall (m : mesh) d (ns : list nat) lv,
  Forall2 (fun v x => own d (ENode v) x) ns lv -> (forall n, In n ns -> exists x, own d (ENode n) [x]) ->
  exists xs, lv = map (fun x => [x]) xs /\ Forall2 (fun v x => own d (ENode v) [x]) ns xs.
Proof.
  intros m d ns lv H. induction H as [|v l ns lv Hv H IH]; intros S.
  - exists []. split; constructor.
  - destruct IH as (xs & -> & F). { intros n Hn. apply S. right. exact Hn. }
    destruct (S v (or_introl eq_refl)) as (x & Hx). rewrite (own_fun _ _ _ _ Hv Hx).
    exists (x :: xs). split; [reflexivity|]. constructor; auto.
Qed.
Lemma concat_map_single : forall {A} (l : list A), concat (map (fun x => [x]) l) = l.
Proof. induction l; cbn; congruence. Qed.
Lemma nth_map0 : forall {A} (f : A -> R) l i x, nth_error l i = Some x -> nth i (map f l) 0 = f x.
Proof. intros A f l i x H. apply nth_error_nth, map_nth_error, H. Qed.

Section Continuity.
Variable V : fe_space.
Variable u : list R.
Hypothesis HV : conforming V.
Hypothesis Hu : length u = NumDofs (sp_dofs V).
Let m := sp_mesh V.
Let d := sp_dofs V.
Let coef (g : nat) := nth g u 0.

Lemma range_u : forall e l, valid m e -> GlobalDofIndices d e = Ok l -> forall g, In g l -> (g < length u)%nat.
Proof. intros. rewrite Hu. eapply (cf_range V HV); eauto. Qed.

Lemma node_value : forall n x, valid m (ENode n) -> own d (ENode n) [x] -> fe_value V u (ENode n) [] = Ok (coef x).
Proof.
  intros n x Hn Hx. destruct (cf_node V HV n Hn) as (_ & f & Lo & Ev).
  destruct (ca_node _ _ _ (cf_dofs V HV) n Hn) as (l & Hl & Gl).
  assert (l = [x]) as -> by (unfold own, d in *; congruence).
  rewrite (fe_value_ok V u (ENode n) f [] [1] [x] Lo Ev Gl (le_n _) (range_u _ _ Hn Gl)).
  unfold dot. cbn. f_equal. fold (coef x). ring.
Qed.
Lemma edge_value : forall e a b xa xb y f t v0 v1 vs, nth_error (mv_edges m) e = Some (a, b) ->
  own d (ENode a) [xa] -> own d (ENode b) [xb] -> own d (EEdge e) y -> sp_layout V (EEdge e) = Some f ->
  fe_eval f [t] = Ok (v0 :: v1 :: vs) -> length vs = length y ->
  fe_value V u (EEdge e) [t] = Ok (coef xa * v0 + coef xb * v1 + dot (map coef y) vs).
Proof.
  intros e a b xa xb y f t v0 v1 vs He Ha Hb Hy Lo Ev Lv.
  assert (Ve : valid m (EEdge e)) by (cbn; apply nth_error_Some; congruence).
  destruct (ca_edge _ _ _ (cf_dofs V HV) e a b He) as (la & lb & l & Oa & Ob & Oe & Ge).
  rewrite (own_fun _ _ _ _ Oa Ha), (own_fun _ _ _ _ Ob Hb), (own_fun _ _ _ _ Oe Hy) in Ge.
  rewrite (fe_value_ok V u (EEdge e) f [t] _ _ Lo Ev Ge); [|cbn; lia|exact (range_u _ _ Ve Ge)].
  f_equal. cbn [app map]. rewrite !dot_cons. unfold coef. ring.
Qed.

Lemma edge_agrees : forall i c j e o t, nth_error (mv_cells m) i = Some c ->
  nth_error (cv_edges c) j = Some e -> nth_error (cv_ori c) j = Some o ->
  exists w, fe_value V u (EEdge e) [t] = Ok w /\
            fe_value V u (ECell i) (edge_point (cv_type c) j o t) = Ok w.
Proof.
  intros i c j e o t Hc He Ho.
  assert (Wc : wf_cell m c).
  { pose proof (wm_cells _ (cf_mesh V HV)) as W. rewrite Forall_forall in W. apply W. eapply nth_error_In; eauto. }
  assert (Vc : valid m (ECell i)) by (cbn; apply nth_error_Some; congruence).
  destruct (cf_cell V HV i c Hc) as (f & l & ms & Lo & El & Ol & Lms & Tr).
  destruct (Tr j e o He Ho) as (fs & y & Ls & Oy & Ly & T). destruct (T t) as (v0 & v1 & vs & Es & Lvs & Ef).
  assert (Hj : (j < length (cv_nodes c))%nat).
  { rewrite <- (wc_edges _ _ Wc). apply nth_error_Some. congruence. }
  destruct (wc_local _ _ Wc j Hj) as (e' & o' & p0 & p1 & He' & Ho' & Hm & Ends).
  assert (e' = e) as -> by congruence. assert (o' = o) as -> by congruence. clear He' Ho'.
  assert (Hns : forall n, In n (cv_nodes c) -> valid m (ENode n)).
  { intros n Hn. pose proof (wc_nodes _ _ Wc) as W. rewrite Forall_forall in W. apply W, Hn. }
  destruct (ca_cell _ _ _ (cf_dofs V HV) i c Hc) as (lv & le & l' & Fv & Fe & Lle & Ol' & Gc).
  rewrite (own_fun _ _ _ _ Ol' Ol) in Gc. clear l' Ol'.
  destruct (concat_singles m d _ _ Fv) as (xs & -> & Fx).
  { intros n Hn. apply (cf_node V HV n (Hns n Hn)). }
  rewrite concat_map_single in Gc. clear Fv.
  pose proof (Forall2_len _ _ _ Fx) as Lxs.
  assert (Hnj : nth_error (cv_nodes c) j = Some (nth j (cv_nodes c) 0%nat)) by (apply nth_error_nth'; exact Hj).
  assert (Hn1 : nth_error (cv_nodes c) ((j + 1) mod length (cv_nodes c)) = Some (next_corner (cv_nodes c) j)).
  { unfold next_corner. rewrite Nat.add_1_r. apply nth_error_nth'. apply Nat.mod_upper_bound. lia. }
  destruct (Forall2_nth _ _ _ Fx _ _ Hnj) as (xj & Xj & Oj).
  destruct (Forall2_nth _ _ _ Fx _ _ Hn1) as (xn & Xn & On).
  assert (Leg : forall k, (k < length ms)%nat -> length (nth k le []) = nth k ms 0%nat /\
    forall z, nth_error (combine (cv_edges c) (cv_ori c)) k = Some z -> exists q, own d (EEdge (fst z)) q /\ nth k le [] = (if snd z then q else rev q)).
  { intros k Hk. rewrite Lms in Hk.
    destruct (nth_error (cv_edges c) k) as [ek|] eqn:Ek; [|apply nth_error_None in Ek; lia].
    destruct (nth_error (cv_ori c) k) as [ok|] eqn:Ok'.
    2: { apply nth_error_None in Ok'. rewrite (wc_oris _ _ Wc), <- (wc_edges _ _ Wc) in Ok'. lia. }
    assert (Cz : nth_error (combine (cv_edges c) (cv_ori c)) k = Some (ek, ok)).
    { clear - Ek Ok'. revert k Ek Ok'. generalize (cv_edges c) (cv_ori c). induction l as [|x l IH]; intros [|y l0] k A B; destruct k; cbn in *; try discriminate; try congruence. apply IH; auto. }
    destruct (Forall2_nth _ _ _ Fe _ _ Cz) as (q & Hq & w & Ow & Eq). cbn [fst snd] in *.
    rewrite (nth_error_nth _ _ [] Hq).
    destruct (Tr k ek ok Ek Ok') as (_ & y' & _ & Oy' & Ly' & _).
    rewrite (own_fun _ _ _ _ Ow Oy') in Eq. split.
    - rewrite Eq, <- Ly'. destruct ok; cbn; [reflexivity|apply rev_length].
    - intros z Hz. assert (z = (ek, ok)) as -> by congruence. exists y'. split; [exact Oy'|].
      rewrite Eq. destruct ok; reflexivity. }
  assert (Hjm : (j < length ms)%nat) by (rewrite Lms, (wc_edges _ _ Wc); exact Hj).
  destruct (Leg j Hjm) as (_ & Lej).
  destruct (Lej (e, o)) as (q & Oq & Enj).
  { clear - He Ho. revert j He Ho. generalize (cv_edges c) (cv_ori c). induction l as [|x l IH]; intros [|y l0] k A B; destruct k; cbn in *; try discriminate; try congruence. apply IH; auto. }
  cbn [fst snd] in Oq, Enj. rewrite (own_fun _ _ _ _ Oq Oy) in Enj. clear q Oq Lej.
  assert (Nn : num_nodes (fe_el f) = length (cv_nodes c)).
  { rewrite El. unfold cv_type, cell_type. destruct (wc_shape _ _ Wc) as [->| ->]; reflexivity. }
  rewrite Nn in Ef.
  assert (Lc : length (concat le) = length (edge_blocks ms j (if o then vs else rev vs))).
  { unfold edge_blocks.
    assert (G : forall (ms : list nat) le a w, length le = length ms -> (forall k, (k < length ms)%nat -> length (nth k le []) = nth k ms 0%nat) ->
      (forall k, (k < length ms)%nat -> (a + k)%nat = j -> length (w : list R) = nth k ms 0%nat) ->
      length (concat le : list nat) = length (concat (map (fun i => if Nat.eqb i j then w else repeat 0 (nth (i - a) ms 0%nat)) (seq a (length ms))))).
    { clear. induction ms as [|m ms IH]; intros [|x le] a w L H1 H2; try discriminate L; [reflexivity|].
      cbn [length seq map concat]. rewrite !app_length.
      rewrite (map_ext_in _ (fun i => if Nat.eqb i j then w else repeat 0 (nth (i - S a) ms 0%nat))).
      - rewrite <- (IH le (S a) w); [|cbn in L; lia| |].
        + f_equal. rewrite Nat.sub_diag. cbn [nth]. pose proof (H1 0%nat ltac:(cbn; lia)) as Lx. cbn [nth] in Lx. rewrite Lx.
          destruct (Nat.eqb_spec a j); [|rewrite repeat_length; reflexivity].
          symmetry. apply (H2 0%nat); cbn; lia.
        + intros k Hk. apply (H1 (S k)). cbn. lia.
        + intros k Hk E. apply (H2 (S k)); cbn; lia.
      - intros k Hk. apply in_seq in Hk. destruct (Nat.eqb k j); auto.
        replace (k - a)%nat with (S (k - S a)) by lia. reflexivity. }
    rewrite (G ms le 0%nat (if o then vs else rev vs)).
    - f_equal. f_equal. apply map_ext. intros k. rewrite Nat.sub_0_r. reflexivity.
    - congruence.
    - intros k Hk. apply (Leg k Hk).
    - intros k Hk E. cbn in E. subst k. rewrite <- Lvs. destruct o; [reflexivity|apply rev_length]. }
  assert (Ln : length xs = length (node_block (length (cv_nodes c)) j o v0 v1)).
  { unfold node_block. rewrite map_length, seq_length. congruence. }
  rewrite El in Ef.
  rewrite (fe_value_ok V u (ECell i) f _ _ _ Lo Ef Gc); [| |exact (range_u _ _ Vc Gc)].
  2: { rewrite !app_length, repeat_length, Ln, Lc. lia. }
  assert (Vn : (3 <= length (cv_nodes c) <= 4)%nat) by (destruct (wc_shape _ _ Wc); lia).
  rewrite !map_app, dot_app by (rewrite map_length; exact Ln).
  rewrite dot_app by (rewrite map_length; exact Lc).
  rewrite dot_zeros, dot_node_block; auto; [|rewrite map_length; congruence].
  rewrite (nth_map0 _ _ _ _ Xj), (nth_map0 _ _ _ _ Xn).
  assert (B : dot (map (fun g => nth g u 0) (concat le)) (edge_blocks ms j (if o then vs else rev vs)) = dot (map coef y) vs).
  { unfold edge_blocks. rewrite concat_map.
    replace (map (fun i => if Nat.eqb i j then (if o then vs else rev vs) else repeat 0 (nth i ms 0%nat)) (seq 0 (length ms)))
      with (map (fun i => if Nat.eqb i j then (if o then vs else rev vs) else repeat 0 (nth (i - 0) ms 0%nat)) (seq 0 (length ms)))
      by (apply map_ext; intros k; rewrite Nat.sub_0_r; reflexivity).
    rewrite dot_block; rewrite ?Nat.sub_0_r; auto; try lia.
    - assert (En : nth j (map (map (fun g => nth g u 0)) le) [] = map coef (nth j le [])).
      { change (@nil R) with (map (fun g => nth g u 0) []). rewrite map_nth. reflexivity. }
      rewrite En, Enj. destruct o; [reflexivity|]. rewrite map_rev. apply dot_rev. rewrite map_length. congruence.
    - rewrite map_length. congruence.
    - intros k Hk. change (@nil R) with (map (fun g => nth g u 0) []). rewrite map_nth, map_length. apply (Leg k Hk).
    - destruct o; rewrite ?rev_length; exact Lvs. }
  rewrite B.
  assert (Lvy : length vs = length y) by congruence.
  destruct o; destruct Ends as (-> & ->).
  - rewrite (edge_value e _ _ xj xn y fs t v0 v1 vs Hm Oj On Oy Ls Es Lvy).
    eexists. split; [reflexivity|]. f_equal. unfold coef. ring.
  - rewrite (edge_value e _ _ xn xj y fs t v0 v1 vs Hm On Oj Oy Ls Es Lvy).
    eexists. split; [reflexivity|]. f_equal. unfold coef. ring.
Qed.

Lemma ends_agree : forall e a b, nth_error (mv_edges m) e = Some (a, b) ->
  exists wa wb, fe_value V u (ENode a) [] = Ok wa /\ fe_value V u (ENode b) [] = Ok wb /\
    fe_value V u (EEdge e) [0] = Ok wa /\ fe_value V u (EEdge e) [1] = Ok wb.
Proof.
  intros e a b He. destruct (wm_edges _ (cf_mesh V HV) e a b He) as (_ & Va & Vb).
  destruct (cf_node V HV a Va) as ((xa & Oa) & _). destruct (cf_node V HV b Vb) as ((xb & Ob) & _).
  assert (Ve : valid m (EEdge e)) by (cbn; apply nth_error_Some; congruence).
  destruct (cf_edge V HV e Ve) as (f & y & Lo & Oy & _ & E0 & E1).
  exists (coef xa), (coef xb). split; [apply node_value; auto|]. split; [apply node_value; auto|].
  rewrite (edge_value e a b xa xb y f 0 _ _ _ He Oa Ob Oy Lo E0) by apply repeat_length.
  rewrite (edge_value e a b xa xb y f 1 _ _ _ He Oa Ob Oy Lo E1) by apply repeat_length.
  rewrite !dot_zeros. split; f_equal; ring.
Qed.

Lemma conforming_continuous : continuous V u.
Proof.
  split; [exact edge_agrees| |exact ends_agree].
  intros i c j n Hc Hn. fold m in Hc.
  assert (Wc : wf_cell m c).
  { pose proof (wm_cells _ (cf_mesh V HV)) as W. rewrite Forall_forall in W. apply W. eapply nth_error_In; eauto. }
  assert (Hj : (j < length (cv_nodes c))%nat) by (apply nth_error_Some; congruence).
  destruct (wc_local _ _ Wc j Hj) as (e & o & p0 & p1 & He & Ho & Hm & Ends).
  rewrite (nth_error_nth _ _ 0%nat Hn) in Ends.
  destruct (ends_agree e p0 p1 Hm) as (wa & wb & Na & Nb & Ea & Eb).
  assert (P : ref_node (cv_type c) j = edge_point (cv_type c) j o (if o then 0 else 1)).
  { unfold edge_point. replace (if o then if o then 0 else 1 else 1 - (if o then 0 else 1)) with 0 by (destruct o; ring).
    unfold on_edge, cv_type, cell_type. destruct (wc_shape _ _ Wc) as [L|L]; rewrite L in *; cbn [Nat.eqb].
    - destruct j as [|[|[|j]]]; try lia; cbn; repeat f_equal; ring.
    - destruct j as [|[|[|[|j]]]]; try lia; cbn; repeat f_equal; ring. }
  rewrite P. destruct (edge_agrees i c j e o (if o then 0 else 1) Hc He Ho) as (w & Ew & Cw).
  exists w. split; [|exact Cw]. destruct o; destruct Ends as (-> & ->); congruence.
Qed.
End Continuity.
