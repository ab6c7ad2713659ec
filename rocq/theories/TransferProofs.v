(** Proofs for C60: relative geometries of one refinement step. *)
From Coq Require Import Reals List Arith Bool ZArith Lia Lra.
Import ListNotations.
From Verif Require Import Base MeshModel MeshView RefPatModel RefPatSpec RefineModel RefineSpec RefineProofs2 RefineProofs3 DofModel DofSpec GeoModel GeoSpec FeModel TransferModel TransferSpec.
Local Open Scope R_scope.

(** ** The polygons of the tables are not degenerate *)
Definition zx (a : lpoint) (k : nat) : Z := nth k a 0%Z.
Definition zsq (a b : lpoint) : Z := ((zx a 0 - zx b 0) * (zx a 0 - zx b 0) + (zx a 1 - zx b 1) * (zx a 1 - zx b 1))%Z.
Definition zcross (o a b : lpoint) : Z := ((zx a 0 - zx o 0) * (zx b 1 - zx o 1) - (zx a 1 - zx o 1) * (zx b 0 - zx o 0))%Z.
Definition zgt (e circum : Z) : bool := (circum <? 100000000 * e)%Z.
Definition zpoly_ok (poly : lpoly) : bool :=
  has_rows 2 poly &&
  match poly with
  | [a; b; c] => let e0 := zsq b a in let e1 := zsq c b in let e2 := zsq a c in let s := (e0 + e1 + e2)%Z in
      zgt e0 s && zgt e1 s && zgt e2 s && zgt (Z.abs (zcross a b c)) s
  | [a; b; c; d] => let e0 := zsq b a in let e1 := zsq c b in let e2 := zsq d c in let e3 := zsq a d in let s := (e0 + e1 + e2 + e3)%Z in
      zgt e0 s && zgt e1 s && zgt e2 s && zgt e3 s && zgt (Z.abs (zcross a b c) + Z.abs (zcross a d c)) s
  | _ => false
  end.
Lemma tables_zok : forall t p a lc, good_anchor t p a -> children_of t p a = Ok lc ->
  forallb zpoly_ok (map (map (place 3 2 6 t)) (lc_cells lc)) = true.
Proof.
  intros t p a lc G H.
  destruct t; try discriminate; destruct p; try discriminate; cbn [children_of tria_children quad_children] in H;
  try (injection H as <-; vm_compute; reflexivity);
  (destruct a as [a|]; [|discriminate]; cbn [good_anchor num_edges] in G; do 4 (destruct a as [|a]; [try lia; injection H as <-; vm_compute; reflexivity|]); lia).
Qed.

Definition cc (p : lpoint) : vec := fun k => IZR (nth k p 0%Z) / IZR 6.
Lemma child_corners_nth : forall poly, child_corners 6 poly = map cc poly.
Proof. reflexivity. Qed.
Lemma sq_z : forall a b, sqnorm 2 (vsub (cc a) (cc b)) = IZR (zsq a b) / 36.
Proof.
  intros a b. cbv [sqnorm GeoModel.dot seq map fold_right vsub cc zsq zx]. rewrite plus_IZR, !mult_IZR, !minus_IZR. field.
Qed.
Lemma cross_z : forall o a b, cross2 (vsub (cc a) (cc o)) (vsub (cc b) (cc o)) = IZR (zcross o a b) / 36.
Proof.
  intros o a b. cbv [cross2 vsub cc zcross zx]. rewrite minus_IZR, !mult_IZR, !minus_IZR. field.
Qed.
Lemma gtb_z : forall e s, zgt e s = true -> gtb (IZR e / 36) (tol * (IZR s / 36)) = true.
Proof.
  intros e s H. unfold zgt in H. apply Z.ltb_lt in H. apply IZR_lt in H. rewrite mult_IZR in H.
  unfold gtb. destruct (Rlt_dec _ _) as [|N]; auto. exfalso. apply N. unfold tol. cbn [pow]. lra.
Qed.
Lemma abs_z : forall z, Rabs (IZR z / 36) = IZR (Z.abs z) / 36.
Proof. intros z. unfold Rdiv. rewrite Rabs_mult, <- abs_IZR, (Rabs_pos_eq (/ 36)); auto. lra. Qed.
Lemma sum3_z : forall a b c, IZR a / 36 + IZR b / 36 + IZR c / 36 = IZR (a + b + c) / 36.
Proof. intros. rewrite !plus_IZR. field. Qed.
Lemma sum4_z : forall a b c d, IZR a / 36 + IZR b / 36 + IZR c / 36 + IZR d / 36 = IZR (a + b + c + d) / 36.
Proof. intros. rewrite !plus_IZR. field. Qed.
Lemma sum2_z : forall a b, IZR a / 36 + IZR b / 36 = IZR (a + b) / 36.
Proof. intros. rewrite !plus_IZR. field. Qed.

Lemma new_cell : forall poly, zpoly_ok poly = true ->
  (length poly = 3%nat /\ new_geo GTriaO1 2 (child_corners 6 poly) = Ok (mkGeo GTriaO1 2 (child_corners 6 poly))) \/
  (length poly = 4%nat /\ new_geo GQuadO1 2 (child_corners 6 poly) = Ok (mkGeo GQuadO1 2 (child_corners 6 poly))).
Proof.
  intros poly H. unfold zpoly_ok in H. apply andb_true_iff in H as [_ H].
  destruct poly as [|p0 [|p1 [|p2 [|p3 [|p4 r]]]]]; try discriminate; [left|right]; (split; [reflexivity|]);
  rewrite child_corners_nth; cbn [map]; unfold new_geo; cbn [length num_cols Nat.eqb lf_assert bind];
  unfold check_tria, check_quad; cbn [nth]; rewrite !sq_z, ?sum3_z, ?sum4_z, !cross_z, !abs_z, ?sum2_z;
  repeat rewrite andb_true_iff in H.
  - destruct H as (((H0 & H1) & H2) & H3). rewrite (gtb_z _ _ H0), (gtb_z _ _ H1), (gtb_z _ _ H2), (gtb_z _ _ H3). reflexivity.
  - destruct H as ((((H0 & H1) & H2) & H3) & H4).
    rewrite (gtb_z _ _ H0), (gtb_z _ _ H1), (gtb_z _ _ H2), (gtb_z _ _ H3), (gtb_z _ _ H4). reflexivity.
Qed.

(** ** The map of a relative geometry *)
Lemma onto_local : forall k d poly x, has_rows d poly = true -> length poly = num_cols k -> is_o2 k = false -> k <> GParallelogram ->
  length x = dim_local k ->
  exists v, Global (mkGeo k d (child_corners 6 poly)) x = Ok v /\ map v (seq 0 d) = onto (corners 6 poly) x.
Proof.
  intros k d poly x R Lp O NP Lx. unfold Global, range_check. cbn [go_kind]. rewrite O. cbn [bind]. unfold with_local. cbn [go_kind].
  rewrite (proj2 (Nat.eqb_eq _ _) Lx). cbn [lf_assert bind]. eexists. split; [reflexivity|].
  unfold onto, corners. cbv zeta. rewrite map_length. change (@length (list Z) poly) with (@length lpoint poly). rewrite Lp.
  assert (D : length (nth 0 (map (map (fun z => IZR z / 6)) poly) []) = d).
  { unfold has_rows in R. destruct poly as [|p r]; [destruct k; discriminate|]. cbn in R. apply andb_true_iff in R as [R _]. apply Nat.eqb_eq in R. cbn. rewrite map_length. auto. }
  rewrite D. clear D.
  assert (N : forall j p, In p poly -> (j < d)%nat -> nth j (map (fun z => IZR z / 6) p) 0 = IZR (nth j p 0%Z) / 6).
  { intros j p Hp Hj. unfold has_rows in R. rewrite forallb_forall in R. apply R in Hp. apply Nat.eqb_eq in Hp.
    rewrite (nth_indep _ 0 ((fun z => IZR z / 6) 0%Z)) by (rewrite map_length; lia). apply (map_nth (fun z => IZR z / 6)). }
  destruct k; try discriminate; try congruence; cbn [num_cols] in *.
  - destruct poly as [|p0 [|]]; try discriminate. apply map_ext_in. intros j Hj. apply in_seq in Hj.
    cbn [map combine fold_right fst snd]. rewrite !N by (cbn; auto; lia). cbv [global_at col go_kind go_cols child_corners map nth]. ring.
  - destruct poly as [|p0 [|p1 [|]]]; try discriminate. apply map_ext_in. intros j Hj. apply in_seq in Hj.
    cbn [map combine fold_right fst snd]. rewrite !N by (cbn; auto; lia). unfold global_at. cbn [go_kind]. unfold col. cbn [go_cols child_corners map]. cbn [nth]. ring.
  - destruct poly as [|p0 [|p1 [|p2 [|]]]]; try discriminate. apply map_ext_in. intros j Hj. apply in_seq in Hj.
    cbn [map combine fold_right fst snd]. rewrite !N by (cbn; auto; lia). unfold global_at. cbn [go_kind]. unfold col. cbn [go_cols child_corners map]. cbn [nth]. ring.
  - destruct poly as [|p0 [|p1 [|p2 [|p3 [|]]]]]; try discriminate. apply map_ext_in. intros j Hj. apply in_seq in Hj.
    cbn [map combine fold_right fst snd]. rewrite !N by (cbn; auto; lia). unfold global_at. cbn [go_kind]. unfold col. cbn [go_cols child_corners map]. cbn [nth]. ring.
Qed.

Definition xy (p : pt) : list R := [fst p; snd p].
Lemma place_rows : forall t n, (t = kTria \/ t = kQuad) -> valid_lnode t n -> length (place 3 2 6 t n) = 2%nat.
Proof.
  intros t n T Hv. destruct T as [-> | ->]; destruct n as [j|j|]; cbn in Hv; try (destruct j as [|[|[|[|j]]]]; try lia); reflexivity.
Qed.
Lemma place_xy : forall t n, (t = kTria \/ t = kQuad) -> valid_lnode t n -> map (fun z => IZR z / IZR 6) (place 3 2 6 t n) = xy (loc t n).
Proof.
  intros t n T Hv. pose proof (place_rows t n T Hv) as Lr. pose proof (place_loc t 1 n T ltac:(lia) Hv) as P.
  change (6 * 1)%Z with 6%Z in P. change (6 / 2)%Z with 3%Z in P. change (6 / 3)%Z with 2%Z in P. rewrite <- P.
  destruct (place 3 2 6 t n) as [|a [|b [|]]]; try discriminate. reflexivity.
Qed.
Lemma rows_all : forall t l, (t = kTria \/ t = kQuad) -> (forall n, In n l -> valid_lnode t n) -> has_rows 2 (map (place 3 2 6 t) l) = true.
Proof.
  intros t l T V. unfold has_rows. apply forallb_forall. intros p Hp. apply in_map_iff in Hp as (n & <- & Hn).
  apply Nat.eqb_eq. apply place_rows; auto.
Qed.
Lemma corners_all : forall t l, (t = kTria \/ t = kQuad) -> (forall n, In n l -> valid_lnode t n) ->
  corners 6 (map (place 3 2 6 t) l) = map (fun n => xy (loc t n)) l.
Proof.
  intros t l T V. unfold corners. rewrite map_map. apply map_ext_in. intros n Hn. apply place_xy; auto.
Qed.
