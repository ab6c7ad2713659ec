(** Proofs for C71: the auxiliary nodes. *)
From Coq Require Import Reals String List Arith Bool Lia Lra.
Import ListNotations.
From Verif Require Import Base MeshModel MeshView DofModel DofSpec AssembleModel GeoModel GeoSpec FeModel FeSpec FeToolsModel TransferSpec VtkModel VtkSpec.
Local Open Scope R_scope.

Lemma lin_lattice : forall o, (2 <= o)%nat -> lin_spaced (o - 1) (1 / INR o) ((INR o - 1) / INR o) = map (fun i => INR (S i) / INR o) (seq 0 (o - 1)).
Proof.
  intros o Ho. unfold lin_spaced. apply map_ext_in. intros i Hi. apply in_seq in Hi.
  assert (P : 0 < INR o) by (apply lt_0_INR; lia). destruct (o - 1 =? 1)%nat eqn:E.
  - apply Nat.eqb_eq in E. assert (i = 0%nat) by lia. assert (o = 2%nat) by lia. subst. cbn. lra.
  - apply Nat.eqb_neq in E. rewrite S_INR. rewrite !minus_INR by lia. cbn [INR].
    assert (Q : INR o - 1 - 1 <> 0). { assert (3 <= INR o). { replace 3 with (INR 3) by (cbn; lra). apply le_INR. lia. } lra. }
    field. split; lra.
Qed.
Lemma aux_segment : forall o, (2 <= o)%nat -> AuxNodesSegment o = Ok (map (fun k => [INR (S k) / INR o]) (seq 0 (o - 1))).
Proof. intros o Ho. unfold AuxNodesSegment. rewrite (proj2 (Nat.ltb_lt _ _) Ho), lin_lattice by exact Ho. cbn [lf_assert bind]. rewrite map_map. reflexivity. Qed.

(** Rows of the quadrilateral. *)
Lemma nth_concat_repeat : forall A (l : list A) n q d, (q < n * length l)%nat -> nth q (concat (repeat l n)) d = nth (q mod length l) l d.
Proof.
  induction n as [|n IH]; intros q d H; [lia|]. cbn [repeat concat]. destruct (le_lt_dec (length l) q) as [G|G].
  - rewrite app_nth2 by exact G. rewrite IH by lia. f_equal. assert (L : length l <> 0%nat) by (intros E; rewrite E in H; lia).
    rewrite <- (Nat.mod_add (q - length l) 1 (length l) L). f_equal. lia.
  - rewrite app_nth1 by exact G. rewrite Nat.mod_small by exact G. reflexivity.
Qed.
Lemma nth_flat_repeat : forall A (l : list A) n q d, (q < length l * n)%nat -> nth q (flat_map (fun y => repeat y n) l) d = nth (q / n) l d.
Proof.
  induction l as [|a l IH]; intros n q d H; [cbn in H; lia|]. cbn [flat_map length] in *. assert (L : n <> 0%nat) by (intros ->; lia). destruct (le_lt_dec n q) as [G|G].
  - rewrite app_nth2 by (rewrite repeat_length; exact G). rewrite repeat_length, IH by lia. replace q with (q - n + 1 * n)%nat at 2 by lia. rewrite Nat.div_add by exact L.
    rewrite Nat.add_1_r. reflexivity.
  - rewrite app_nth1 by (rewrite repeat_length; exact G). rewrite Nat.div_small by exact G.
    clear -G. revert q G. induction n; intros q G; [lia|]. destruct q; [reflexivity|]. cbn [repeat nth]. destruct n; [lia|]. 
    specialize (IHn q ltac:(lia)). exact IHn.
Qed.
Lemma lin_length : forall n a b, length (lin_spaced n a b) = n.
Proof. intros. unfold lin_spaced. rewrite map_length, seq_length. reflexivity. Qed.
Lemma flat_repeat_length : forall A (l : list A) n, length (flat_map (fun y => repeat y n) l) = (length l * n)%nat.
Proof. induction l as [|a l IH]; intros n; [reflexivity|]. cbn [flat_map length]. rewrite app_length, repeat_length, IH. lia. Qed.
Lemma concat_repeat_length : forall A (l : list A) n, length (concat (repeat l n)) = (n * length l)%nat.
Proof. induction n as [|n IH]; [reflexivity|]. cbn [repeat concat]. rewrite app_length, IH. lia. Qed.
Lemma quad_length : forall o, length (AuxNodesQuad o) = NumAuxNodes kQuad o.
Proof.
  intros o. unfold AuxNodesQuad. rewrite map_length, combine_length, concat_repeat_length, flat_repeat_length, !lin_length. cbn. apply Nat.min_id.
Qed.
Lemma quad_nth : forall o q, (2 <= o)%nat -> (q < (o - 1) * (o - 1))%nat ->
  nth_error (AuxNodesQuad o) q = Some [INR (S (q mod (o - 1))) / INR o; INR (S (q / (o - 1))) / INR o].
Proof.
  intros o q Ho Hq. assert (QL : (q < length (AuxNodesQuad o))%nat) by (rewrite quad_length; exact Hq).
  rewrite (nth_error_nth' _ [] QL). f_equal. unfold AuxNodesQuad in *. rewrite lin_lattice in * by exact Ho.
  set (l := map (fun i => INR (S i) / INR o) (seq 0 (o - 1))) in *.
  assert (LL : length l = (o - 1)%nat) by (unfold l; rewrite map_length, seq_length; reflexivity).
  assert (LN : forall k, (k < o - 1)%nat -> nth k l 0 = INR (S k) / INR o).
  { intros k Hk. unfold l. rewrite (nth_indep _ 0 (INR (S 0) / INR o)) by (rewrite map_length, seq_length; exact Hk). change (INR (S 0) / INR o) with ((fun i => INR (S i) / INR o) 0%nat).
    rewrite map_nth, seq_nth by exact Hk. reflexivity. }
  set (F := fun p : R * R => [fst p; snd p]) in *. transitivity (nth q (map F (combine (concat (repeat l (o - 1))) (flat_map (fun y => repeat y (o - 1)) l))) (F (0, 0))); [apply nth_indep; exact QL|].
  rewrite map_nth, combine_nth by (rewrite concat_repeat_length, flat_repeat_length; lia). unfold F.
  cbn [fst snd]. rewrite nth_concat_repeat by (rewrite LL; exact Hq). rewrite nth_flat_repeat by (rewrite LL; exact Hq). rewrite LL.
  assert (q mod (o - 1) < o - 1)%nat by (apply Nat.mod_upper_bound; lia). assert (q / (o - 1) < o - 1)%nat by (apply Nat.div_lt_upper_bound; lia).
  rewrite !LN by assumption. reflexivity.
Qed.

(** *** The triangle *)
Lemma tria_count : forall o, (4 <= o)%nat -> NumAuxNodes kTria o = (3 + 3 * (o - 4) + NumAuxNodes kTria (o - 3))%nat.
Proof.
  intros o Ho. cbn [NumAuxNodes]. destruct o as [|[|[|[|k]]]]; try lia. replace (S (S (S (S k))) - 3)%nat with (S k) by lia.
  replace (2 + S (S (S (S k))) * S (S (S (S k))) - 3 * S (S (S (S k))))%nat with (2 + S k * S k - 3 * S k + (3 + 3 * k) * 2)%nat by nia.
  rewrite Nat.div_add by lia. lia.
Qed.
Lemma interior_count : forall el o, (1 <= o)%nat -> el = kTria \/ el = kQuad -> NumAuxNodes el o = vtk_interior el o.
Proof.
  intros el o Ho [-> | ->]; cbn [NumAuxNodes vtk_interior]; [|reflexivity]. f_equal. destruct o as [|[|k]]; nia.
Qed.
Lemma set_block_app : forall A (pre cols rest : list A) pos, length pre = pos -> (length cols <= length rest)%nat ->
  set_block pos cols (pre ++ rest) = Ok (pre ++ cols ++ skipn (length cols) rest).
Proof.
  intros A pre cols rest pos <- H. unfold set_block. rewrite app_length. rewrite (proj2 (Nat.leb_le _ _)) by lia. cbn [lf_assert bind].
  rewrite firstn_app, firstn_all, Nat.sub_diag. cbn [firstn]. rewrite app_nil_r. rewrite skipn_app, skipn_all2 by lia. cbn [app].
  replace (length pre + length cols - length pre)%nat with (length cols) by lia. reflexivity.
Qed.
Definition tri_corners (o : nat) : list (list R) := let o := INR o in [[1 / o; 1 / o]; [(o - 2) / o; 1 / o]; [1 / o; (o - 2) / o]].
Definition tri_side (o j : nat) : list (list R) :=
  map (fun k => let p := nth j [(1 + S k, 1); (1 + (o - 3 - S k), 1 + S k); (1, 1 + (o - 3 - S k))]%nat (0, 0)%nat in [INR (fst p) / INR o; INR (snd p) / INR o]) (seq 0 (o - 4)).
Definition tri_inner (o : nat) (pts : list (list R)) : list (list R) :=
  let o := INR o in map (fun p => [nth 0 p 0 * (o - 6) / o + 2 / o; nth 1 p 0 * (o - 6) / o + 2 / o]) pts.
Lemma side_eq : forall o j (f : R -> list R), (5 <= o)%nat ->
  (forall s, (s < o - 4)%nat -> f (INR (S s) / INR (o - 3)) = let p := nth j [(1 + S s, 1); (1 + (o - 3 - S s), 1 + S s); (1, 1 + (o - 3 - S s))]%nat (0, 0)%nat in [INR (fst p) / INR o; INR (snd p) / INR o]) ->
  map f (map (fun p => nth 0 p 0) (map (fun k => [INR (S k) / INR (o - 3)]) (seq 0 (o - 3 - 1)))) = tri_side o j.
Proof.
  intros o j f Ho H. rewrite !map_map. unfold tri_side. replace (o - 3 - 1)%nat with (o - 4)%nat by lia. apply map_ext_in. intros k Hk. apply in_seq in Hk. cbn [nth]. apply H. lia.
Qed.
Lemma side_length : forall o j, length (tri_side o j) = (o - 4)%nat.
Proof. intros. unfold tri_side. rewrite map_length, seq_length. reflexivity. Qed.
Lemma skipn_repeat : forall A (x : A) n k, skipn k (repeat x n) = repeat x (n - k).
Proof. induction n; destruct k; cbn; auto. Qed.
Lemma tria_unfold : forall f o, (5 <= o)%nat ->
  aux_tria (S f) o = (if (5 <? o)%nat then do pts <- aux_tria f (o - 3);
      set_block (3 * o - 9) (tri_inner o pts) ((tri_corners o ++ tri_side o 0 ++ tri_side o 1 ++ tri_side o 2) ++ repeat [] (NumAuxNodes kTria (o - 3)))
    else Ok ((tri_corners o ++ tri_side o 0 ++ tri_side o 1 ++ tri_side o 2) ++ repeat [] (NumAuxNodes kTria (o - 3)))).
Proof.
  intros f o Ho. cbn [aux_tria]. rewrite (proj2 (Nat.ltb_ge o 3)) by lia. rewrite (proj2 (Nat.eqb_neq o 3)) by lia. rewrite (proj2 (Nat.eqb_neq o 4)) by lia.
  assert (P : 0 < INR o) by (apply lt_0_INR; lia). assert (P3 : INR (o - 3) = INR o - 3) by (rewrite minus_INR by lia; cbn; lra).
  assert (Q3 : INR o - 3 <> 0). { assert (5 <= INR o). { replace 5 with (INR 5) by (cbn; lra). apply le_INR. lia. } lra. }
  change [[1 / INR o; 1 / INR o]; [(INR o - 2) / INR o; 1 / INR o]; [1 / INR o; (INR o - 2) / INR o]] with (tri_corners o).
  assert (LC : length (tri_corners o) = 3%nat) by reflexivity.
  pose proof (tria_count o ltac:(lia)) as CT. set (N := NumAuxNodes kTria o) in *. set (I := NumAuxNodes kTria (o - 3)) in *. clearbody N I.
  change (repeat [] N) with ([] ++ repeat (@nil R) N). rewrite set_block_app by (rewrite ?LC, ?repeat_length; auto; lia).
  cbn [app bind]. rewrite LC, skipn_repeat, (aux_segment (o - 3)) by lia. cbn [bind].
  rewrite (side_eq o 0).
  2: exact Ho.
  2: { intros s Hs. cbn [nth fst snd]. rewrite P3, ?plus_INR. cbn [INR]. f_equal; [|f_equal]; rewrite ?S_INR; field; lra. }
  rewrite (side_eq o 1).
  2: exact Ho.
  2: { intros s Hs. cbn [nth fst snd]. rewrite P3, !plus_INR, minus_INR, P3 by lia. cbn [INR]. f_equal; [|f_equal]; rewrite ?S_INR; field; lra. }
  rewrite (side_eq o 2).
  2: exact Ho.
  2: { intros s Hs. cbn [nth fst snd]. rewrite P3, !plus_INR, minus_INR, P3 by lia. cbn [INR]. f_equal; [|f_equal]; rewrite ?S_INR; field; lra. }
  rewrite set_block_app by (rewrite ?side_length, ?repeat_length; auto; lia). cbn [bind].
  rewrite (app_assoc (tri_corners o)), set_block_app by (rewrite ?app_length, ?skipn_length, ?side_length, ?LC, ?repeat_length; lia). cbn [bind].
  rewrite (app_assoc (tri_corners o ++ tri_side o 0)), set_block_app by (rewrite ?app_length, ?skipn_length, ?side_length, ?LC, ?repeat_length; lia). cbn [bind].
  rewrite !skipn_repeat, !side_length. replace (N - 3 - (o - 4) - (o - 4) - (o - 4))%nat with I by lia. rewrite <- !app_assoc. reflexivity.
Qed.
Lemma tria_nodes : forall f o, (o < f)%nat -> (5 <= o)%nat -> exists inner, aux_tria f o = Ok ((tri_corners o ++ tri_side o 0 ++ tri_side o 1 ++ tri_side o 2) ++ inner) /\
  length inner = NumAuxNodes kTria (o - 3) /\ (o = 6%nat -> inner = [[1 / 3; 1 / 3]]).
Proof.
  induction f as [|f IH]; intros o Hf Ho; [lia|]. rewrite tria_unfold by exact Ho. destruct (5 <? o)%nat eqn:E5.
  2: { apply Nat.ltb_ge in E5. assert (o = 5%nat) by lia. subst. eexists. split; [reflexivity|]. split; [reflexivity|discriminate]. }
  apply Nat.ltb_lt in E5.
  assert (X : exists pts, aux_tria f (o - 3) = Ok pts /\ length pts = NumAuxNodes kTria (o - 3) /\ (o = 6%nat -> pts = [[1 / 3; 1 / 3]])).
  { destruct (le_lt_dec 5 (o - 3)) as [G|G].
    - destruct (IH (o - 3)%nat ltac:(lia) G) as (inner & E & LI & _). eexists. split; [exact E|]. split; [|lia].
      rewrite !app_length, !side_length, LI. rewrite (tria_count (o - 3)) by lia. change (length (tri_corners (o - 3))) with 3%nat. lia.
    - assert (o = 6 \/ o = 7)%nat as [-> | ->] by lia; destruct f as [|f]; try lia; eexists; (split; [reflexivity|]); (split; [reflexivity|]); auto; discriminate. }
  destruct X as (pts & -> & LP & V6). cbn [bind]. exists (tri_inner o pts). assert (LI : length (tri_inner o pts) = NumAuxNodes kTria (o - 3)) by (unfold tri_inner; rewrite map_length; exact LP).
  rewrite set_block_app.
  - rewrite skipn_repeat, LI, Nat.sub_diag, app_nil_r. split; [reflexivity|]. split; auto. intros ->. rewrite V6 by reflexivity. unfold tri_inner. cbn [map nth].
    assert (E6 : 1 / 3 * (INR 6 - 6) / INR 6 + 2 / INR 6 = 1 / 3) by (cbn [INR]; field). rewrite E6. reflexivity.
  - rewrite !app_length, !side_length. change (length (tri_corners o)) with 3%nat. lia.
  - rewrite repeat_length. lia.
Qed.

Lemma tria_length : forall o, (1 <= o)%nat -> exists l, AuxNodesTria o = Ok l /\ length l = NumAuxNodes kTria o.
Proof.
  intros o Ho. unfold AuxNodesTria. destruct (le_lt_dec 5 o) as [G|G].
  - destruct (tria_nodes (S o) o ltac:(lia) G) as (inner & -> & LI & _). eexists. split; [reflexivity|]. rewrite !app_length, !side_length, LI, (tria_count o) by lia.
    change (length (tri_corners o)) with 3%nat. lia.
  - assert (o = 1 \/ o = 2 \/ o = 3 \/ o = 4)%nat as [->|[->|[->| ->]]] by lia; eexists; (split; [reflexivity|]); reflexivity.
Qed.
Lemma nth_side : forall o j k, (k < o - 4)%nat -> nth_error (tri_side o j) k =
  let p := nth j [(1 + S k, 1); (1 + (o - 3 - S k), 1 + S k); (1, 1 + (o - 3 - S k))]%nat (0, 0)%nat in Some [INR (fst p) / INR o; INR (snd p) / INR o].
Proof.
  intros o j k Hk. unfold tri_side. erewrite map_nth_error; [reflexivity|]. rewrite (nth_error_nth' _ 0%nat) by (rewrite seq_length; exact Hk). rewrite seq_nth by exact Hk. reflexivity.
Qed.
Lemma three_sides : forall A (a b c : list A) n q, length a = n -> length b = n -> length c = n -> (q < 3 * n)%nat ->
  nth_error (a ++ b ++ c) q = nth_error (nth (q / n) [a; b; c] []) (q mod n) /\ (q / n < 3)%nat /\ (q mod n < n)%nat.
Proof.
  intros A a b c n q LA LB LC Hq. assert (Hn : n <> 0%nat) by lia. pose proof (Nat.div_mod q n Hn) as DM. pose proof (Nat.mod_upper_bound q n Hn) as MB.
  assert (DB : (q / n < 3)%nat) by (apply Nat.div_lt_upper_bound; lia). split; [|auto].
  destruct (q / n)%nat as [|[|[|x]]]; try lia; cbn [nth].
  - rewrite nth_error_app1 by lia. f_equal. lia.
  - rewrite nth_error_app2 by lia. rewrite nth_error_app1 by lia. f_equal. lia.
  - rewrite nth_error_app2 by lia. rewrite nth_error_app2 by lia. f_equal. lia.
Qed.
Lemma Ok_inj : forall A (a b : A), Ok a = Ok b -> a = b.
Proof. intros A a b H. congruence. Qed.
Ltac two := match goal with |- Some [?a; ?b] = Some [?c; ?d] => replace c with a by lra; replace d with b by lra; reflexivity end.
(** The auxiliary nodes of triangles are those of VTK up to order 6 and on the outermost interior triangle. *)
Lemma tria_nth : forall o l q, (3 <= o)%nat -> AuxNodesTria o = Ok l -> (q < NumAuxNodes kTria o)%nat -> (o <= 6 \/ q < 3 * (o - 3))%nat ->
  nth_error l q = Some (let p := tri_lattice o (o - 3) 1 q in [INR (fst p) / INR o; INR (snd p) / INR o]).
Proof.
  intros o l q Ho E Hq St. unfold AuxNodesTria in E. destruct (le_lt_dec 5 o) as [G|G].
  2: { assert (o = 3 \/ o = 4)%nat as [-> | ->] by lia; cbn in E; injection E as <-; cbn in Hq; destruct q as [|[|[|q]]]; try lia; cbn; two. }
  destruct (tria_nodes (S o) o ltac:(lia) G) as (inner & E' & LI & V6). rewrite E in E'. apply Ok_inj in E'. subst l.
  assert (P : 0 < INR o) by (apply lt_0_INR; lia). assert (P3 : INR (1 + (o - 3)) = INR o - 2) by (rewrite plus_INR, minus_INR by lia; cbn; lra).
  replace (tri_lattice o (o - 3) 1 q) with (tri_lattice (S (o - 1)) (o - 3) 1 q) by (f_equal; lia). cbn [tri_lattice].
  rewrite (proj2 (Nat.eqb_neq (o - 3) 0)) by lia.
  destruct (q <? 3)%nat eqn:Q3.
  { apply Nat.ltb_lt in Q3. rewrite nth_error_app1 by (rewrite app_length; change (length (tri_corners o)) with 3%nat; lia). rewrite nth_error_app1 by exact Q3.
    unfold tri_corners. destruct q as [|[|[|q]]]; try lia; cbn [nth_error nth]; cbv zeta; unfold fst, snd; rewrite ?P3; reflexivity. }
  apply Nat.ltb_ge in Q3. destruct (q <? 3 * (o - 3))%nat eqn:QS.
  { apply Nat.ltb_lt in QS. rewrite nth_error_app1 by (rewrite !app_length, !side_length; change (length (tri_corners o)) with 3%nat; lia).
    rewrite nth_error_app2 by exact Q3. change (length (tri_corners o)) with 3%nat.
    destruct (three_sides _ (tri_side o 0) (tri_side o 1) (tri_side o 2) (o - 4) (q - 3)) as (-> & DB & MB); try apply side_length; try lia.
    replace (o - 3 - 1)%nat with (o - 4)%nat by lia.
    destruct ((q - 3) / (o - 4))%nat as [|[|[|x]]]; try lia; cbn [nth]; rewrite nth_side by exact MB; reflexivity. }
  apply Nat.ltb_ge in QS. assert (O6 : o = 6%nat). { destruct St as [St|St]; [|lia]. rewrite tria_count in Hq by lia. assert (o = 5 \/ o = 6)%nat as [X|X] by lia; [rewrite X in Hq, QS; cbn in Hq; lia|exact X]. }
  rewrite (V6 O6). rewrite O6 in *. cbn in Hq. assert (q = 9%nat) by lia. subst q. cbn. two.
Qed.
