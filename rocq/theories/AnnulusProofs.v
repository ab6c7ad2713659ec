(** Topology of the mesh of an annulus. *)
From Coq Require Import Reals Lra List Arith Lia Bool.
Import ListNotations.
From Verif Require Import Base MeshModel MeshSpec MeshView MeshProofs5 MeshViewProofs RefineSpec GeoModel BuilderModel BuilderSpec
  BuilderProofs BuilderProofs2 BuilderProofs3 BuilderProofs4 BuilderProofs5 AnnulusModel AnnulusSpec.

Lemma smb : forall n k, k < n -> sm n k < n.
Proof. intros. apply Nat.mod_upper_bound. lia. Qed.

Section Annulus.
Variable p : annulus.
Let m := an_radial p.
Let n := an_angular p.
Hypothesis Hm : 1 <= m.
Hypothesis Hn : 3 <= n.
Definition av (r k : nat) : nat := n * r + k.
Let nv := S m * n.

Definition an_points : list coords := grid (fun r k => [node_position p r k]) (S m) n.
Lemma an_points_length : length an_points = nv.
Proof. unfold an_points. rewrite (grid_length _ _ 1) by auto. unfold nv. lia. Qed.
Lemma av_lt : forall r k, r <= m -> k < n -> av r k < nv.
Proof. intros. unfold av, nv. nia. Qed.
Lemma av_inj : forall r k r' k', k < n -> k' < n -> av r k = av r' k' -> r = r' /\ k = k'.
Proof. intros r k r' k' H H' E. unfold av in E. assert (r = r') by nia. subst. lia. Qed.
Lemma av_onto : forall q, q < nv -> exists r k, r <= m /\ k < n /\ q = av r k.
Proof.
  intros q Hq. exists (q / n), (q mod n). unfold av. unfold nv in Hq.
  pose proof (Nat.mod_upper_bound q n). pose proof (Nat.div_mod q n).
  assert (q / n < S m) by (apply Nat.div_lt_upper_bound; [lia|lia]). lia.
Qed.

Definition inward (r k : nat) : list nat := [av r k; av (r + 1) k; av r (sm n k)].
Definition outward (r k : nat) : list nat := [av (r + 1) k; av (r + 1) (sm n k); av r (sm n k)].
Definition acells : list (list nat) := grid (fun r k => [inward r k; outward r k]) m n.
Definition geo_in (r k : nat) : list coords :=
  [node_position p r k; node_position p (r + 1) k; node_position p r (sm n k)].
Definition geo_out (r k : nat) : list coords :=
  [node_position p (r + 1) k; node_position p (r + 1) (sm n k); node_position p r (sm n k)].
Definition ageo : list (list coords) := grid (fun r k => [geo_in r k; geo_out r k]) m n.
Definition asites : sites := mkSites an_points [] ageo.

Lemma ashape : forall c, In c acells -> length c = 3 \/ length c = 4.
Proof. intros c H. apply in_grid in H as (i & j & Hi & Hj & [<-|[<-|[]]]); auto. Qed.
Lemma cell_nodes_lt : forall r k q, r < m -> k < n -> In q (inward r k) \/ In q (outward r k) -> q < nv.
Proof.
  intros r k q Hr Hk H. pose proof (smb n k Hk).
  destruct H as [[<-|[<-|[<-|[]]]]|[<-|[<-|[<-|[]]]]]; apply av_lt; auto; lia.
Qed.
Lemma anodes : forall c q, In c acells -> In q c -> q < nv.
Proof.
  intros c q H Hq. apply in_grid in H as (r & k & Hr & Hk & [<-|[<-|[]]]); apply (cell_nodes_lt r k); auto.
Qed.
Lemma atouch : forall q, q < nv -> exists c, In c acells /\ In q c.
Proof.
  intros q Hq. destruct (av_onto q Hq) as (r & k & Hr & Hk & ->).
  destruct (Nat.eq_dec r m) as [->|Ne].
  - exists (outward (m - 1) k). split; [apply in_grid; exists (m - 1), k; split; [lia|]; simpl; auto|].
    left. f_equal. lia.
  - exists (inward r k). split; [apply in_grid; exists r, k; split; [lia|]; simpl; auto|]. left; auto.
Qed.

Definition an_accepted : Prop := forall r k, r < m -> k < n ->
  cell_geometry kTria (geo_in r k) = Ok tt /\ cell_geometry kTria (geo_out r k) = Ok tt.
Theorem annulus_loops : an_accepted -> forall check, annulus_build p check =
  (do M <- mesh_ctor check nv [] (map (fun c => (c, true)) acells); Ok (Some (M, asites))).
Proof.
  intros Acc check. unfold annulus_build. fold m n.
  replace (n * (m + 1)) with (S m * n) by lia. rewrite start_st.
  unfold annulus_vertices. fold m n. rewrite (points_loop check (fun k r => node_position p r k)). cbn [bind].
  change (grid (fun j i => [node_position p j i]) (S m) n) with an_points.
  change (S m * n) with nv. rewrite <- an_points_length.
  assert (LT : forall r k q, r < m -> k < n -> In q (inward r k) \/ In q (outward r k) -> q < length an_points)
    by (intros; rewrite an_points_length; apply (cell_nodes_lt r k); auto).
  unfold annulus_cells. fold m n.
  rewrite (for_grid_simple _ _ (fun l => st check (length an_points) an_points [] l)
    (fun r k => [(inward r k, geo_in r k); (outward r k, geo_out r k)])).
  2:{ intros r k l Hr Hk. cbv zeta. destruct (Acc r k Hr Hk) as [A1 A2].
      change [n * r + k; n * (r + 1) + k; n * r + (k + 1) mod n] with (inward r k).
      change [n * (r + 1) + k; n * (r + 1) + (k + 1) mod n; n * r + (k + 1) mod n] with (outward r k).
      rewrite put_cell_ok; auto; [|intros q Hq; apply (LT r k); auto].
      cbn [bind]. rewrite put_cell_ok; auto; [|intros q Hq; apply (LT r k); auto].
      rewrite <- app_assoc. reflexivity. }
  cbn [bind app]. unfold finish, st, build. cbn [b_fac b_geo fst f_check f_nodes f_edges f_cells].
  rewrite an_points_length. unfold asites, ageo, acells. cbn [map].
  rewrite !grid_map. cbn [map fst snd]. reflexivity.
Qed.

(** Edges: TH across a layer, TV around, TD diagonal. *)
Definition apr (t : tag) : nat * nat :=
  match t with
  | TH r k => (av r k, av (r + 1) k)
  | TV r k => (av r k, av r (sm n k))
  | TD r k => (av (r + 1) k, av r (sm n k))
  end.
Definition aU : list tag :=
  grid (fun r k => [TH r k]) m n ++ grid (fun r k => [TV r k]) (S m) n ++ grid (fun r k => [TD r k]) m n.
Definition a_ok (t : tag) : Prop :=
  match t with TH r k | TD r k => r < m /\ k < n | TV r k => r <= m /\ k < n end.
Lemma in_aU : forall t, In t aU <-> a_ok t.
Proof.
  intros t. unfold aU. rewrite !in_app_iff, !in_grid. split.
  - intros [(i & j & ? & ? & [<-|[]])|[(i & j & ? & ? & [<-|[]])|(i & j & ? & ? & [<-|[]])]]; simpl; auto.
    split; auto; lia.
  - destruct t as [i j|i j|i j]; simpl; intros [H H']; [left|right; left|right; right]; exists i, j; auto.
    split; [lia|auto].
Qed.
Lemma aU_length : length aU = n * (3 * m + 1).
Proof. unfold aU. rewrite !app_length, !(grid_length _ _ 1) by auto. lia. Qed.
Lemma aU_nodup : NoDup aU.
Proof.
  apply NoDup_app; [apply (grid_nodup tag_dec); intros; injection H3; auto| |].
  - apply NoDup_app; try (apply (grid_nodup tag_dec); intros; injection H3; auto).
    intros t H H'. apply in_grid in H as (? & ? & _ & _ & [<-|[]]).
    apply in_grid in H' as (? & ? & _ & _ & [E|[]]). discriminate.
  - intros t H H'. apply in_grid in H as (? & ? & _ & _ & [<-|[]]).
    apply in_app_iff in H' as [H'|H']; apply in_grid in H' as (? & ? & _ & _ & [E|[]]); discriminate.
Qed.
Lemma apr_proper : forall t, In t aU -> fst (apr t) <> snd (apr t).
Proof.
  intros t H E. apply in_aU in H. 
  destruct t as [r k|r k|r k]; cbn [a_ok apr fst snd] in H, E; destruct H as [Hr Hk];
    apply av_inj in E as [E1 E2]; auto using smb; try lia.
  destruct (sm_spec n k Hk); lia.
Qed.
Lemma apr_inj : forall t t', In t aU -> In t' aU -> same_pair (apr t) (apr t') -> t = t'.
Proof.
  intros t t' H H' E. apply in_aU in H, H'.
  destruct t as [r k|r k|r k], t' as [r' k'|r' k'|r' k']; cbn [a_ok] in H, H'; destruct H as [Hr Hk], H' as [Hr' Hk'];
  pose proof (sm_spec n k Hk) as Sk; pose proof (sm_spec n k' Hk') as Sk';
  destruct E as [[E1 E2]|[E1 E2]]; cbn [apr fst snd] in E1, E2;
  apply av_inj in E1, E2; auto using smb; try (f_equal; lia); exfalso; lia.
Qed.
Definition atags : list (list tag) := grid (fun r k =>
  [[TH r k; TD r k; TV r k]; [TV (r + 1) k; TH r (sm n k); TD r k]]) m n.
Lemma asides : Forall2 (fun c ts => length ts = length c /\
  forall j, j < length c -> exists t, nth_error ts j = Some t /\ In t aU /\ same_pair (apr t) (side c j)) acells atags.
Proof.
  unfold acells, atags. apply grid_forall2. intros r k Hr Hk. pose proof (smb n k Hk).
  constructor; [|constructor; [|constructor]]; (split; [reflexivity|]); intros j Hj; simpl in Hj;
  (destruct j as [|[|[|j]]]; [eexists; split; [reflexivity|]; split; [apply in_aU; cbn [a_ok]; split; auto; lia|]..|lia]);
  unfold same_pair; cbn [apr fst snd side inward outward nth length Nat.modulo Nat.add]; unfold side; cbn; auto.
Qed.
Lemma aused : forall t, In t aU -> In t (concat atags).
Proof.
  intros t H. apply in_aU in H. unfold atags. rewrite grid_concat. apply in_grid.
  destruct t as [r k|r k|r k]; cbn [a_ok] in H; destruct H as [Hr Hk].
  - exists r, k. simpl; auto.
  - destruct (Nat.eq_dec r m) as [->|Ne].
    + exists (m - 1), k. split; [lia|]. split; auto. simpl. right; right; right; left. f_equal. lia.
    + exists r, k. split; [lia|]. split; auto. simpl; auto.
  - exists r, k. simpl; auto.
Qed.
Lemma atags_count : forall t, In t aU -> count_occ tag_dec (concat atags) t =
  match t with TV r k => b2n (r <? m) + b2n (1 <=? r) | _ => 2 end.
Proof.
  intros t H. apply in_aU in H. unfold atags. rewrite grid_concat.
  rewrite (grid_ext _ _ (fun r k => [TH r k] ++ [TD r k] ++ [TV r k] ++ [TV (r + 1) k] ++ [TH r (sm n k)] ++ [TD r k])) by auto.
  rewrite !count_grid_app.
  destruct t as [a b|a b|a b]; cbn [a_ok] in H; destruct H as [Ha Hb].
  - rewrite (count_grid_one tag_dec (fun i j => [TH i j]) m n (TH a b) a b).
    2:{ intros i j Hi Hj. rewrite (proj1 (tag_count_same _ _ _)). reflexivity. }
    rewrite (count_grid_one tag_dec (fun i j => [TH i (sm n j)]) m n (TH a b) a (if b =? 0 then n - 1 else b - 1)).
    2:{ intros i j Hi Hj. rewrite (proj1 (tag_count_same _ _ _)). f_equal. f_equal.
        destruct (sm_spec n j Hj) as [[? ->]|[? ->]]; destruct (Nat.eqb_spec b 0);
        match goal with |- (?x =? ?y) = (?z =? ?w) => destruct (Nat.eqb_spec x y), (Nat.eqb_spec z w) end; auto; lia. }
    rewrite !(count_grid_zero tag_dec); [|intros i j Hi Hj [E|[]]; discriminate E..].
    destruct (Nat.eqb_spec b 0), (Nat.ltb_spec a m), (Nat.ltb_spec b n); cbn [andb b2n]; try lia;
    match goal with |- context [?x <? ?y] => destruct (Nat.ltb_spec x y) end; cbn [b2n]; lia.
  - rewrite (count_grid_one tag_dec (fun i j => [TV i j]) m n (TV a b) a b).
    2:{ intros i j Hi Hj. rewrite (proj1 (proj2 (tag_count_same _ _ _))). reflexivity. }
    assert (C2 : count_occ tag_dec (grid (fun i j => [TV (i + 1) j]) m n) (TV a b) = b2n (1 <=? a)).
    { destruct a as [|a].
      - rewrite (count_grid_zero tag_dec); [reflexivity|]. intros i j Hi Hj [E|[]]. injection E. lia.
      - rewrite (count_grid_one tag_dec (fun i j => [TV (i + 1) j]) m n (TV (S a) b) a b).
        + destruct (Nat.ltb_spec a m), (Nat.ltb_spec b n); cbn [andb b2n]; try lia. reflexivity.
        + intros i j Hi Hj. rewrite (proj1 (proj2 (tag_count_same _ _ _))). f_equal. f_equal.
          destruct (Nat.eqb_spec (i + 1) (S a)), (Nat.eqb_spec i a); auto; lia. }
    rewrite C2. rewrite !(count_grid_zero tag_dec); [|intros i j Hi Hj [E|[]]; discriminate E..].
    destruct (Nat.ltb_spec b n); [|lia]. rewrite andb_true_r. lia.
  - rewrite !(count_grid_one tag_dec (fun i j => [TD i j]) m n (TD a b) a b).
    2:{ intros i j Hi Hj. rewrite (proj2 (proj2 (tag_count_same _ _ _))). reflexivity. }
    rewrite !(count_grid_zero tag_dec); [|intros i j Hi Hj [E|[]]; discriminate E..].
    destruct (Nat.ltb_spec a m), (Nat.ltb_spec b n); cbn [andb b2n]; lia.
Qed.

Lemma an_place : forall r k, r <= m -> k < n -> place asites (av r k) = node_position p r k.
Proof.
  intros r k Hr Hk. unfold place. apply nth_error_nth. cbn [asites g_points]. unfold an_points.
  replace (av r k) with (k + r * n) by (unfold av; lia).
  apply (grid_nth _ (fun r k => node_position p r k)); auto. lia.
Qed.

Theorem annulus_topology : an_accepted -> forall check, exists M,
  annulus_build p check = Ok (Some (M, asites)) /\ (exists h, built check h M) /\
  num_entities 2 M = n * (m + 1) /\ num_entities 1 M = n * (3 * m + 1) /\
  num_entities_of_type kTria M = 2 * n * m /\ num_entities_of_type kQuad M = 0 /\
  geometry_matches M asites /\
  (forall e a b, nth_error (mv_edges (view M)) e = Some (a, b) ->
     exists t, In t aU /\ same_pair (a, b) (apr t) /\
       adjacent (view M) e = match t with TV r k => b2n (r <? m) + b2n (1 <=? r) | _ => 2 end).
Proof.
  intros Acc check. rewrite (annulus_loops Acc).
  assert (Hi : incl (@nil tag) aU) by (intros x []).
  destruct (tagged_built nv acells apr aU [] atags ashape anodes asides apr_proper apr_inj aused Hi
    (NoDup_nil _) atouch check) as (M & C & B).
  cbn [map] in C. rewrite C. cbn [bind]. exists M. split; auto. split; [eauto|].
  pose proof (tagged_nodes nv acells apr [] ashape check M B) as [N1 N2].
  pose proof (tagged_count nv acells apr aU [] atags ashape asides apr_inj aU_nodup aused Hi check M B) as NE.
  destruct (view_counts check _ M B) as (V1 & V2 & V3).
  pose proof (numbering check _ M B) as (_ & NT & NQ & _).
  rewrite raw_cells in NT, NQ by apply ashape.
  assert (L3 : forall c, In c acells -> length c = 3).
  { intros c H. apply in_grid in H as (i & j & ? & ? & [<-|[<-|[]]]); reflexivity. }
  assert (LC : length acells = 2 * n * m) by (unfold acells; rewrite (grid_length _ _ 2) by auto; lia).
  split; [rewrite <- V1, N1; unfold nv; lia|]. rewrite aU_length in NE.
  split; [rewrite <- V2, NE; auto|].
  assert (FL : forall l : list (list nat), (forall c, In c l -> length c = 3) ->
    length (filter (fun x => length (fst x) =? 3) (map (fun c => (c, true)) l)) = length l /\
    length (filter (fun x => length (fst x) =? 4) (map (fun c => (c, true)) l)) = 0).
  { clear. induction l as [|c l IH]; intros H; simpl; auto.
    destruct IH as [I1 I2]; [intros; apply H; simpl; auto|].
    rewrite (H c) by (simpl; auto). simpl. split; [lia|auto]. }
  destruct (FL acells L3) as [F3 F4].
  split; [rewrite NT, F3; auto|].
  split; [rewrite NQ, F4; auto|].
  split.
  { split; [|split; [|split]].
    - rewrite N1. cbn [asites g_points]. apply an_points_length.
    - cbn [asites g_cells]. rewrite <- (map_length cv_nodes (mv_cells (view M))), N2, LC.
      unfold ageo. rewrite (grid_length _ _ 2) by auto. lia.
    - intros q c cs Hk Hcs. cbn [asites g_cells] in Hcs.
      assert (Hc : nth_error acells q = Some (cv_nodes c)) by (rewrite <- N2, nth_error_map, Hk; reflexivity).
      apply grid_nth_inv with (c := 2) in Hcs as (i & j & r & Hi' & Hj & -> & Hr); auto.
      apply grid_nth_inv with (c := 2) in Hc as (i' & j' & r' & Hi'' & Hj' & E & Hr'); auto.
      assert (Lr : r < 2) by (change 2 with (length [geo_in i j; geo_out i j]); apply nth_error_Some; congruence).
      assert (Lr' : r' < 2) by (change 2 with (length [inward i' j'; outward i' j']); apply nth_error_Some; congruence).
      assert (E2 : i * n + j = i' * n + j' /\ r = r') by lia. destruct E2 as [E2 ->].
      assert (i = i') by nia. subst i'. assert (j = j') by lia. subst j'. pose proof (smb n j Hj).
      destruct r' as [|[|r']]; [| |lia]; cbn [nth_error] in Hr, Hr'; injection Hr as <-; injection Hr' as <-;
      unfold inward, outward; cbn [map]; rewrite !an_place by (auto; lia); auto.
    - intros q a b cs Hk Hcs. cbn [asites g_edges] in Hcs. destruct q; discriminate. }
  intros e a b He.
  destruct (tagged_adjacent tag_dec nv acells apr aU [] atags ashape anodes asides apr_inj aused Hi
    atouch check M B e a b He) as (t & Ht & HS & Hc).
  exists t. split; auto. split; auto. rewrite Hc. apply atags_count; auto.
Qed.
End Annulus.
