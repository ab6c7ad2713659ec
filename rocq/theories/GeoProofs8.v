(** Proofs for C42: the construction of children succeeds. *)
From Coq Require Import Reals Lra List Arith Lia Bool ZArith.
Import ListNotations.
From Verif Require Import Base MeshModel RefPatModel RefPatSpec RefPatProofs2 GeoModel GeoSpec GeoProofs GeoProofs2 GeoProofs3 GeoProofs5.
Local Open Scope R_scope.

(** *** The checks for degenerate cells *)
Definition heron (a b c : R) : R := (2 * (a * b + b * c + c * a) - (a * a + b * b + c * c)) / 4.
Definition tri_ok (a b c : R) : Prop :=
  tol * (a + b + c) < a /\ tol * (a + b + c) < b /\ tol * (a + b + c) < c /\ tol * (a + b + c) < sqrt (heron a b c).
Definition para_ok (a b m : R) : Prop :=
  tol * (2 * (a + b)) < a /\ tol * (2 * (a + b)) < b /\ tol * (2 * (a + b)) < 2 * sqrt (a * b - m).
Lemma tri_swap : forall a b c, tri_ok a b c -> tri_ok b a c.
Proof.
  intros a b c (H1 & H2 & H3 & H4). unfold tri_ok. replace (b + a + c) with (a + b + c) by ring.
  replace (heron b a c) with (heron a b c) by (unfold heron; field). auto.
Qed.
Lemma tri_turn : forall a b c, tri_ok a b c -> tri_ok b c a.
Proof.
  intros a b c (H1 & H2 & H3 & H4). unfold tri_ok. replace (b + c + a) with (a + b + c) by ring.
  replace (heron b c a) with (heron a b c) by (unfold heron; field). auto.
Qed.
Lemma sqrt_16 : forall x, sqrt (1 / 4 * (1 / 4) * x) = 1 / 4 * sqrt x.
Proof. intros x. rewrite sqrt_mult_alt by lra. rewrite sqrt_square by lra. reflexivity. Qed.
Lemma tri_scale : forall a b c, tri_ok a b c -> tri_ok (1 / 4 * a) (1 / 4 * b) (1 / 4 * c).
Proof.
  intros a b c (H1 & H2 & H3 & H4). unfold tri_ok.
  replace (heron (1 / 4 * a) (1 / 4 * b) (1 / 4 * c)) with (1 / 4 * (1 / 4) * heron a b c) by (unfold heron; field).
  rewrite sqrt_16. replace (tol * (1 / 4 * a + 1 / 4 * b + 1 / 4 * c)) with (1 / 4 * (tol * (a + b + c))) by ring.
  repeat split; apply Rmult_lt_compat_l; lra.
Qed.
Lemma para_scale : forall a b m, para_ok a b m -> para_ok (1 / 4 * a) (1 / 4 * b) (1 / 4 * (1 / 4) * m).
Proof.
  intros a b m (H1 & H2 & H3). unfold para_ok.
  replace (1 / 4 * a * (1 / 4 * b) - 1 / 4 * (1 / 4) * m) with (1 / 4 * (1 / 4) * (a * b - m)) by field.
  rewrite sqrt_16. replace (tol * (2 * (1 / 4 * a + 1 / 4 * b))) with (1 / 4 * (tol * (2 * (a + b)))) by ring.
  repeat split; lra.
Qed.
Lemma para_swap : forall a b m, para_ok a b m -> para_ok b a m.
Proof.
  intros a b m (H1 & H2 & H3). unfold para_ok. replace (b + a) with (a + b) by ring. replace (b * a) with (a * b) by ring. auto.
Qed.

Lemma gtb_lt : forall a b, gtb a b = true <-> b < a.
Proof. intros a b. unfold gtb. destruct (Rlt_dec b a); split; auto; discriminate. Qed.
Lemma verify_lt : forall a b, verify (gtb a b) = Ok tt <-> b < a.
Proof. intros a b. rewrite <- gtb_lt. unfold verify. destruct (gtb a b); split; congruence. Qed.
Lemma abs_gram : forall u v, Rabs (cross2 u v) = sqrt (gram_det 2 u v).
Proof. intros u v. rewrite gram2. rewrite <- sqrt_Rsqr_abs. f_equal. unfold Rsqr, cross2, det2. ring. Qed.
Lemma dot_sub : forall d a b, sqnorm d (vsub a b) = dot d a a - 2 * dot d a b + dot d b b.
Proof.
  intros d a b. unfold sqnorm. rewrite (dot_ext d (vsub a b) (fun k => 1 * a k + -1 * b k) (vsub a b) (fun k => 1 * a k + -1 * b k)) by (intros; unfold vsub; ring).
  rewrite dot_lin, !dot_lin_r, (dot_comm d b a). ring.
Qed.
Lemma dots_sub : forall d a b c, dot d (vsub a c) (vsub b c) = dot d a b - dot d a c - dot d b c + dot d c c.
Proof.
  intros d a b c. rewrite (dot_ext d (vsub a c) (fun k => 1 * a k + -1 * c k) (vsub b c) (fun k => 1 * b k + -1 * c k)) by (intros; unfold vsub; ring).
  rewrite dot_lin, !dot_lin_r, (dot_comm d c b). ring.
Qed.
Lemma tri_gram : forall d c0 c1 c2, gram_det d (vsub c1 c0) (vsub c2 c0) =
  heron (sqnorm d (vsub c1 c0)) (sqnorm d (vsub c2 c1)) (sqnorm d (vsub c0 c2)).
Proof.
  intros d c0 c1 c2. unfold gram_det, heron. change (dot d ?a ?a) with (sqnorm d a). rewrite dots_sub, !dot_sub.
  rewrite (dot_comm d c0 c2), (dot_comm d c2 c1). field.
Qed.
Lemma bind_unit : forall (a b : res unit), (do _ <- a; b) = Ok tt <-> a = Ok tt /\ b = Ok tt.
Proof. intros [[]| |] b; cbn; split; try (intros [A B]; congruence); try discriminate; auto. Qed.

Lemma check_tria_spec : forall d c, check_tria d c = Ok tt <-> (d = 2%nat \/ d = 3%nat) /\
  tri_ok (sqnorm d (vsub (c 1%nat) (c 0%nat))) (sqnorm d (vsub (c 2%nat) (c 1%nat))) (sqnorm d (vsub (c 0%nat) (c 2%nat))).
Proof.
  intros d c. unfold check_tria. rewrite !bind_unit, !verify_lt. unfold tri_ok. rewrite <- tri_gram.
  destruct d as [|[|[|[|d]]]].
  1,2,5: split; [intros (_ & _ & _ & X); discriminate|intros ([X|X] & _); discriminate].
  - rewrite verify_lt, abs_gram. tauto.
  - rewrite verify_lt, gram3. tauto.
Qed.
Definition para (c : nat -> vec) : Prop := forall k, c 0%nat k + c 2%nat k = c 1%nat k + c 3%nat k.
Lemma sq_ext : forall d a b, (forall k, a k = b k) -> sqnorm d a = sqnorm d b.
Proof. intros d a b E. unfold sqnorm. apply dot_ext; auto. Qed.
Lemma para_gram : forall d u w v, (forall k, v k = u k + w k) -> gram_det d u v = gram_det d u w /\ gram_det d w v = gram_det d u w.
Proof.
  intros d u w v E. unfold gram_det.
  rewrite (dot_ext d v (fun k => 1 * u k + 1 * w k) v (fun k => 1 * u k + 1 * w k)) by (intros; rewrite E; ring).
  rewrite (dot_ext d u u v (fun k => 1 * u k + 1 * w k)) by (intros; try rewrite E; ring).
  rewrite (dot_ext d w w v (fun k => 1 * u k + 1 * w k)) by (intros; try rewrite E; ring).
  rewrite !dot_lin, !dot_lin_r, (dot_comm d w u). split; ring.
Qed.
Lemma check_quad_spec : forall d c, para c -> (check_quad d c = Ok tt <-> (d = 2%nat \/ d = 3%nat) /\
  para_ok (sqnorm d (vsub (c 1%nat) (c 0%nat))) (sqnorm d (vsub (c 3%nat) (c 0%nat)))
    (dot d (vsub (c 1%nat) (c 0%nat)) (vsub (c 3%nat) (c 0%nat)) * dot d (vsub (c 1%nat) (c 0%nat)) (vsub (c 3%nat) (c 0%nat)))).
Proof.
  intros d c P. unfold check_quad. rewrite !bind_unit, !verify_lt. unfold para_ok.
  set (u := vsub (c 1%nat) (c 0%nat)). set (w := vsub (c 3%nat) (c 0%nat)). set (v := vsub (c 2%nat) (c 0%nat)).
  rewrite (sq_ext d (vsub (c 2%nat) (c 1%nat)) w) by (intros k; unfold w, vsub; specialize (P k); lra).
  replace (sqnorm d (vsub (c 3%nat) (c 2%nat))) with (sqnorm d u).
  2:{ unfold sqnorm. rewrite (dot_ext d (vsub (c 3%nat) (c 2%nat)) (fun k => -1 * u k + 0 * u k) _ (fun k => -1 * u k + 0 * u k))
        by (intros k _; unfold u, vsub; specialize (P k); lra). rewrite dot_lin, dot_lin_r. ring. }
  replace (sqnorm d (vsub (c 0%nat) (c 3%nat))) with (sqnorm d w).
  2:{ unfold sqnorm. rewrite (dot_ext d (vsub (c 0%nat) (c 3%nat)) (fun k => -1 * w k + 0 * w k) _ (fun k => -1 * w k + 0 * w k))
        by (intros k _; unfold w, vsub; lra). rewrite dot_lin, dot_lin_r. ring. }
  replace (sqnorm d u + sqnorm d w + sqnorm d u + sqnorm d w) with (2 * (sqnorm d u + sqnorm d w)) by ring.
  assert (EV : forall k, v k = u k + w k) by (intros k; unfold u, v, w, vsub; specialize (P k); lra).
  destruct (para_gram d u w v EV) as [G1 G2]. change (sqnorm d u * sqnorm d w - dot d u w * dot d u w) with (gram_det d u w).
  destruct d as [|[|[|[|d]]]].
  1,2,5: split; [intros (_ & _ & _ & _ & X); discriminate|intros ([X|X] & _); discriminate].
  - rewrite verify_lt, !abs_gram, G1, G2. replace (sqrt (gram_det 2 u w) + sqrt (gram_det 2 u w)) with (2 * sqrt (gram_det 2 u w)) by ring. tauto.
  - rewrite verify_lt, <- !gram3, G1, G2. replace (sqrt (gram_det 3 u w) + sqrt (gram_det 3 u w)) with (2 * sqrt (gram_det 3 u w)) by ring. tauto.
Qed.
Lemma sq_scale : forall d a b s, (forall k, a k = s * b k) -> sqnorm d a = s * s * sqnorm d b.
Proof.
  intros d a b s E. unfold sqnorm. rewrite (dot_ext d a (fun k => s * b k + 0 * b k) a (fun k => s * b k + 0 * b k)) by (intros; rewrite E; ring).
  rewrite dot_lin, dot_lin_r. ring.
Qed.
Lemma dot_scale : forall d a b u v s t, (forall k, a k = s * u k) -> (forall k, b k = t * v k) -> dot d a b = s * t * dot d u v.
Proof.
  intros d a b u v s t E F. rewrite (dot_ext d a (fun k => s * u k + 0 * u k) b (fun k => t * v k + 0 * v k)) by (intros; rewrite ?E, ?F; ring).
  rewrite dot_lin, !dot_lin_r. ring.
Qed.

(** Triangles that are similar to one that passes. *)
Lemma tria_similar : forall d c c' s, s * s = 1 / 4 \/ s * s = 1 -> check_tria d c = Ok tt ->
  (exists i j l, In (i, j, l) [(0,1,2); (1,2,0); (2,0,1); (0,2,1); (2,1,0); (1,0,2)]%nat /\
    let e n := match n with 0%nat => vsub (c 1%nat) (c 0%nat) | 1%nat => vsub (c 2%nat) (c 1%nat) | _ => vsub (c 0%nat) (c 2%nat) end in
    (forall k, vsub (c' 1%nat) (c' 0%nat) k = s * e i k) /\ (forall k, vsub (c' 2%nat) (c' 1%nat) k = s * e j k) /\ (forall k, vsub (c' 0%nat) (c' 2%nat) k = s * e l k)) ->
  check_tria d c' = Ok tt.
Proof.
  intros d c c' s Hs H (i & j & l & HI & E0 & E1 & E2). apply check_tria_spec in H as [D T]. apply check_tria_spec. split; auto.
  rewrite (sq_scale d _ _ s E0), (sq_scale d _ _ s E1), (sq_scale d _ _ s E2).
  assert (K : forall a b c, tri_ok a b c -> tri_ok (s * s * a) (s * s * b) (s * s * c)).
  { intros a b c0 X. destruct Hs as [-> | ->]; [apply tri_scale, X|]. rewrite !Rmult_1_l. exact X. }
  apply K. cbn [In] in HI.
  destruct HI as [HI|[HI|[HI|[HI|[HI|[HI|[]]]]]]]; injection HI as <- <- <-; cbn beta iota zeta.
  - exact T.
  - apply tri_turn, T.
  - apply tri_turn, tri_turn, T.
  - apply tri_swap, tri_turn, tri_turn, T.
  - apply tri_swap, tri_turn, T.
  - apply tri_swap, T.
Qed.
Lemma quad_similar : forall d c c' s t, (s * s = 1 / 4 /\ t * t = 1 / 4) \/ (s * s = 1 /\ t * t = 1) -> para c -> para c' -> check_quad d c = Ok tt ->
  (let u := vsub (c 1%nat) (c 0%nat) in let w := vsub (c 3%nat) (c 0%nat) in
   ((forall k, vsub (c' 1%nat) (c' 0%nat) k = s * u k) /\ (forall k, vsub (c' 3%nat) (c' 0%nat) k = t * w k)) \/
   ((forall k, vsub (c' 1%nat) (c' 0%nat) k = s * w k) /\ (forall k, vsub (c' 3%nat) (c' 0%nat) k = t * u k))) ->
  check_quad d c' = Ok tt.
Proof.
  intros d c c' s t Hs P P' H E. apply (check_quad_spec d c P) in H as [D T]. apply (check_quad_spec d c' P'). split; auto.
  assert (K : forall a b m, para_ok a b m -> para_ok (s * s * a) (t * t * b) ((s * s) * (t * t) * m)).
  { intros a b m X. destruct Hs as [[-> ->]|[-> ->]]; [apply para_scale, X|]. rewrite !Rmult_1_l. exact X. }
  destruct E as [[E0 E1]|[E0 E1]]; rewrite (sq_scale d _ _ s E0), (sq_scale d _ _ t E1), (dot_scale d _ _ _ _ s t E0 E1).
  - match goal with |- para_ok _ _ (s * t * ?x * (s * t * ?x)) => replace (s * t * x * (s * t * x)) with ((s * s) * (t * t) * (x * x)) by ring end.
    apply K, T.
  - match goal with |- para_ok _ _ (s * t * ?x * (s * t * ?x)) => replace (s * t * x * (s * t * x)) with ((s * s) * (t * t) * (x * x)) by ring end.
    apply K. rewrite (dot_comm d (vsub (c 3%nat) (c 0%nat))). apply para_swap, T.
Qed.

(** *** The child polygons *)
Definition zrow (d : nat) (c : lpoint) : bool := (length c =? d)%nat && forallb (fun z => (0 <=? z)%Z && (z <=? 6)%Z) c.
Definition zcount (t : refel) (codim n : nat) : bool :=
  match t, codim with
  | kQuad, 0%nat => (n =? 3)%nat || (n =? 4)%nat
  | _, _ => (n =? el_dim t + 1 - codim)%nat
  end.
Definition zchild (t : refel) (codim : nat) (poly : lpoly) : bool := forallb (zrow (el_dim t)) poly && zcount t codim (length poly).
Lemma polygons_ok : forall t p a codim l, t <> kPoint -> good_anchor t p a -> ChildPolygons (mkPattern t p a 6) codim = Ok l ->
  forallb (zchild t codim) l = true.
Proof.
  intros t p a codim l NP G H. destruct t; [congruence| | |]; (destruct codim as [|[|[|codim]]]; [| | |cbn in H; discriminate]);
  destruct p; try (cbn in H; discriminate);
  try (vm_compute in H; injection H as <-; vm_compute; reflexivity);
  (destruct a as [a|]; [|cbn in H; discriminate H]; cbn [good_anchor num_edges] in G;
   do 4 (destruct a as [|a]; [try lia; vm_compute in H; injection H as <-; vm_compute; reflexivity|]); lia).
Qed.

Lemma mapM_all : forall A B (f : A -> res B) (Q : B -> Prop) l, (forall x, In x l -> exists y, f x = Ok y /\ Q y) ->
  exists l', mapM f l = Ok l' /\ Forall Q l'.
Proof.
  induction l as [|a l IH]; intros H; [exists []; split; [reflexivity|constructor]|].
  destruct (H a) as (y & Hy & Qy); [left; reflexivity|]. destruct IH as (l' & Hl & Ql); [intros x Hx; apply H; right; exact Hx|].
  exists (y :: l'). cbn. rewrite Hy, Hl. cbn. split; [reflexivity|]. constructor; auto.
Qed.
Definition in01 (x : list R) : Prop := Forall (fun t => 0 <= t <= 1) x.
Lemma in01_range : forall x, in01 x -> in_range x = true.
Proof.
  intros x H. unfold in_range. apply forallb_forall. intros t Ht. apply (proj1 (Forall_forall _ _) H) in Ht.
  unfold leb. destruct (Rle_dec 0 t); [|lra]. destruct (Rle_dec t 1); [|lra]. reflexivity.
Qed.
Lemma Global_in : forall g x, length x = dim_local (go_kind g) -> in01 x -> Global g x = Ok (global_at g (nth 0 x 0) (nth 1 x 0)).
Proof.
  intros g x HL H. unfold Global, range_check, with_local. rewrite (in01_range x H), HL, Nat.eqb_refl. destruct (is_o2 _); reflexivity.
Qed.
Lemma Globals : forall g pts, Forall (fun x => length x = dim_local (go_kind g) /\ in01 x) pts ->
  mapM (Global g) pts = Ok (map (fun x => global_at g (nth 0 x 0) (nth 1 x 0)) pts).
Proof.
  intros g pts H. induction H as [|x l [A B] _ IH]; [reflexivity|]. cbn [mapM map]. rewrite (Global_in g x A B), IH. reflexivity.
Qed.
Lemma scaled_in : forall d poly, forallb (zrow d) poly = true -> Forall (fun x => length x = d /\ in01 x) (scaled 6 poly).
Proof.
  intros d poly H. unfold scaled. apply Forall_map. apply Forall_forall. intros c Hc. apply (proj1 (forallb_forall _ _) H) in Hc.
  unfold zrow in Hc. apply andb_true_iff in Hc as [A B]. apply Nat.eqb_eq in A. rewrite map_length. split; auto.
  apply Forall_map. apply Forall_forall. intros z Hz. apply (proj1 (forallb_forall _ _) B) in Hz. apply andb_true_iff in Hz as [C D].
  apply Z.leb_le in C. apply Z.leb_le in D. apply IZR_le in C. apply IZR_le in D. lra.
Qed.
Lemma mid_in : forall d a b, length a = d /\ in01 a -> length b = d /\ in01 b -> length (mid a b) = d /\ in01 (mid a b).
Proof.
  intros d a b [LA HA] [LB HB]. unfold mid. rewrite map_length, combine_length, LA, LB, Nat.min_id. split; auto.
  apply Forall_map. apply Forall_forall. intros [x y] Hxy. cbn [fst snd].
  pose proof (proj1 (Forall_forall _ _) HA x (in_combine_l _ _ _ _ Hxy)). pose proof (proj1 (Forall_forall _ _) HB y (in_combine_r _ _ _ _ Hxy)). cbn in *. lra.
Qed.
Lemma mids_in : forall d l, Forall (fun x => length x = d /\ in01 x) l -> Forall (fun x => length x = d /\ in01 x) (mids l) /\ length (mids l) = length l.
Proof.
  intros d l H. unfold mids. split; [|rewrite map_length, seq_length; reflexivity].
  apply Forall_map. apply Forall_forall. intros j Hj. apply in_seq in Hj. apply mid_in.
  - apply (proj1 (Forall_forall _ _) H). apply nth_In. lia.
  - apply (proj1 (Forall_forall _ _) H). apply nth_In. apply Nat.mod_upper_bound. lia.
Qed.

(** Geometries whose children can always be built by copying and regular refinement. *)
Definition tamed (g : geo) : Prop := match go_kind g with GQuadO1 | GParallelogram => para (col g) | _ => True end.
Lemma tame_tamed : forall g, tame g <-> tamed g.
Proof. intros g. unfold tame, tamed, para. destruct (go_kind g); split; auto; try (intros _ [X|X]; discriminate). Qed.
Lemma from_in : forall g k pts, Forall (fun x => length x = dim_local (go_kind g) /\ in01 x) pts -> length pts = num_cols k ->
  (k <> GTriaO1 /\ k <> GQuadO1 /\ k <> GParallelogram) -> exists c, child_from g k pts = Ok c /\ (tamed c /\ go_kind c = k).
Proof.
  intros g k pts H HL (N1 & N2 & N3). unfold child_from. rewrite (Globals g pts H). cbn [bind]. unfold new_geo.
  rewrite map_length, HL, Nat.eqb_refl. cbn [lf_assert bind].
  exists (mkGeo k (go_dim g) (map (fun x => global_at g (nth 0 x 0) (nth 1 x 0)) pts)).
  destruct k; try congruence; cbn [bind]; repeat split; exact I.
Qed.
Lemma constructed_check : forall g, constructed g ->
  match go_kind g with GTriaO1 => check_tria (go_dim g) (col g) = Ok tt | GQuadO1 | GParallelogram => check_quad (go_dim g) (col g) = Ok tt | _ => True end.
Proof.
  intros g [(k & d & cs & H)|(d & p0 & p1 & p2 & H)].
  - unfold new_geo in H. apply bind_ok in H as ([] & _ & H). apply bind_ok in H as ([] & H1 & H2). injection H2 as <-. cbn [go_kind go_dim].
    destruct k; auto; unfold check_parallelogram in H1; apply bind_ok in H1 as ([] & H1 & _); exact H1.
  - unfold new_parallelogram3 in H. apply bind_ok in H as ([] & H1 & H2). injection H2 as <-. exact H1.
Qed.
Definition o2ish (g : geo) : Prop := is_o2 (go_kind g) = true \/ go_kind g = GPoint.
Lemma child_o2 : forall g codim poly, is_o2 (go_kind g) = true -> zchild (kind_el (go_kind g)) codim poly = true -> (codim <= dim_local (go_kind g))%nat ->
  exists c, child g 6 codim poly = Ok c /\ tamed c /\ o2ish c.
Proof.
  intros g codim poly O2 ZC HC. unfold zchild in ZC. apply andb_true_iff in ZC as [ZR ZN].
  pose proof (scaled_in _ _ ZR) as SC. change (el_dim (kind_el (go_kind g))) with (dim_local (go_kind g)) in SC.
  assert (LS : length (scaled 6 poly) = length poly) by (unfold scaled; apply map_length).
  assert (VR : forallb (fun c => length c =? dim_local (go_kind g))%nat poly = true).
  { apply forallb_forall. intros c Hc. apply (proj1 (forallb_forall _ _) ZR) in Hc. unfold zrow in Hc. apply andb_true_iff in Hc as [A _]. exact A. }
  destruct (mids_in _ _ SC) as [MI LM].
  assert (M01 : (2 <= length poly)%nat -> Forall (fun x => length x = dim_local (go_kind g) /\ in01 x) [mid (nth 0 (scaled 6 poly) []) (nth 1 (scaled 6 poly) [])]).
  { intros Hn. constructor; [|constructor]. apply mid_in; apply (proj1 (Forall_forall _ _) SC); apply nth_In; lia. }
  unfold child. rewrite VR. cbn [verify bind].
  assert (R1 : forall k pts, (exists c, child_from g k pts = Ok c /\ (tamed c /\ go_kind c = k)) -> is_o2 k = true \/ k = GPoint ->
    exists c, child_from g k pts = Ok c /\ tamed c /\ o2ish c).
  { intros k pts (c & X & Y & Z) K. exists c. split; auto. split; auto. unfold o2ish. rewrite Z. exact K. }
  destruct (go_kind g) eqn:K; try discriminate; cbn [kind_el] in *; cbn [dim_local kind_el el_dim] in HC;
    (destruct codim as [|[|[|codim]]]; try lia); cbn [zcount el_dim Nat.add Nat.sub] in ZN; cbn [Nat.sub is_o2];
    try (rewrite ZN; cbn [verify bind]); try apply Nat.eqb_eq in ZN.
  all: try (apply R1; [apply from_in|]; [rewrite K|rewrite ?app_length, LS, ?LM, ?LS, ZN; reflexivity|repeat split; discriminate|try (left; reflexivity); right; reflexivity];
      first [exact SC | apply Forall_app; split; [exact SC|]; first [exact MI | apply M01; lia]]).
  apply orb_true_iff in ZN as [ZN|ZN].
  - rewrite ZN. apply Nat.eqb_eq in ZN. apply R1; [apply from_in|]; [rewrite K; apply Forall_app; split; [exact SC|exact MI]
     |rewrite app_length, LM, LS, ZN; reflexivity|repeat split; discriminate|left; reflexivity].
  - apply Nat.eqb_eq in ZN. rewrite ZN. cbn [Nat.eqb]. apply R1; [apply from_in|]; [rewrite K; apply Forall_app; split; [exact SC|exact MI]
     |rewrite app_length, LM, LS, ZN; reflexivity|repeat split; discriminate|left; reflexivity].
Qed.
Lemma child_o1 : forall g codim poly, is_o2 (go_kind g) = false -> go_kind g <> GPoint -> zchild (kind_el (go_kind g)) codim poly = true ->
  (codim <= dim_local (go_kind g))%nat -> (codim = 0%nat -> go_kind g = GSegmentO1) -> exists c, child g 6 codim poly = Ok c /\ tamed c.
Proof.
  intros g codim poly O2 NP ZC HC C0. unfold zchild in ZC. apply andb_true_iff in ZC as [ZR ZN].
  pose proof (scaled_in _ _ ZR) as SC. change (el_dim (kind_el (go_kind g))) with (dim_local (go_kind g)) in SC.
  assert (LS : length (scaled 6 poly) = length poly) by (unfold scaled; apply map_length).
  assert (VR : forallb (fun c => length c =? dim_local (go_kind g))%nat poly = true).
  { apply forallb_forall. intros c Hc. apply (proj1 (forallb_forall _ _) ZR) in Hc. unfold zrow in Hc. apply andb_true_iff in Hc as [A _]. exact A. }
  unfold child. rewrite VR. cbn [verify bind].
  assert (R1 : forall k pts, (exists c, child_from g k pts = Ok c /\ (tamed c /\ go_kind c = k)) ->
    exists c, child_from g k pts = Ok c /\ tamed c).
  { intros k pts (c & X & Y & Z). exists c. auto. }
  destruct (go_kind g) eqn:K; try discriminate; try congruence; cbn [kind_el] in *; cbn [dim_local kind_el el_dim] in HC;
    (destruct codim as [|[|[|codim]]]; try lia; try (specialize (C0 eq_refl); discriminate C0)); cbn [zcount el_dim Nat.add Nat.sub] in ZN; cbn [Nat.sub is_o2];
    rewrite ZN; cbn [verify bind]; apply Nat.eqb_eq in ZN;
    (apply R1; apply from_in; [rewrite K; exact SC|rewrite LS, ZN; reflexivity|repeat split; discriminate]).
Qed.

Ltac with_pts K := unfold child; rewrite K; cbn [dim_local kind_el el_dim forallb length Nat.eqb andb verify bind Nat.sub is_o2];
  unfold child_from; rewrite Globals by (rewrite K; unfold scaled; cbn [map]; repeat (apply Forall_cons || apply Forall_nil); (split; [reflexivity|]);
     repeat (apply Forall_cons || apply Forall_nil); lra);
  cbn [bind]; unfold new_geo, scaled; cbn [map length num_cols Nat.eqb lf_assert bind].
Lemma child_tria : forall g poly p, go_kind g = GTriaO1 -> check_tria (go_dim g) (col g) = Ok tt -> (p = rp_copy \/ p = rp_regular) ->
  (exists a l, ChildPolygons (mkPattern kTria p a 6) 0 = Ok l /\ In poly l) -> exists c, child g 6 0 poly = Ok c /\ tamed c.
Proof.
  intros g poly p K CK Hp (a & l & HL & HI).
  assert (R1 : forall cs, (do _ <- check_tria (go_dim g) (fun i => nth i cs vzero); Ok (mkGeo GTriaO1 (go_dim g) cs)) =
     Ok (mkGeo GTriaO1 (go_dim g) cs) -> exists c, (do _ <- check_tria (go_dim g) (fun i => nth i cs vzero); Ok (mkGeo GTriaO1 (go_dim g) cs)) = Ok c /\ tamed c).
  { intros cs E. rewrite E. eexists. split; [reflexivity|]. exact I. }
  assert (GA : forall s t k, global_at g s t k = col g 0 k * (1 - s - t) + col g 1 k * s + col g 2 k * t) by (intros; unfold global_at; rewrite K; reflexivity).
  destruct Hp as [-> | ->]; vm_compute in HL; injection HL as <-; cbn [In] in HI.
  - destruct HI as [<-|[]]. with_pts K. apply R1.
    rewrite (tria_similar (go_dim g) (col g) _ 1); [reflexivity|right; ring|exact CK|].
    exists 0%nat, 1%nat, 2%nat. split; [cbn; tauto|]. cbn beta iota zeta. cbn [nth]. unfold vsub. repeat split; intros k; rewrite !GA; field.
  - destruct HI as [<-|[<-|[<-|[<-|[]]]]]; with_pts K; apply R1.
    + rewrite (tria_similar (go_dim g) (col g) _ (1/2)); [reflexivity|left; field|exact CK|].
      exists 0%nat, 1%nat, 2%nat. split; [cbn; tauto|]. cbn beta iota zeta. cbn [nth]. unfold vsub. repeat split; intros k; rewrite !GA; field.
    + rewrite (tria_similar (go_dim g) (col g) _ (-1/2)); [reflexivity|left; field|exact CK|].
      exists 0%nat, 2%nat, 1%nat. split; [cbn; tauto|]. cbn beta iota zeta. cbn [nth]. unfold vsub. repeat split; intros k; rewrite !GA; field.
    + rewrite (tria_similar (go_dim g) (col g) _ (1/2)); [reflexivity|left; field|exact CK|].
      exists 2%nat, 0%nat, 1%nat. split; [cbn; tauto|]. cbn beta iota zeta. cbn [nth]. unfold vsub. repeat split; intros k; rewrite !GA; field.
    + rewrite (tria_similar (go_dim g) (col g) _ (-1/2)); [reflexivity|left; field|exact CK|].
      exists 2%nat, 0%nat, 1%nat. split; [cbn; tauto|]. cbn beta iota zeta. cbn [nth]. unfold vsub. repeat split; intros k; rewrite !GA; field.
Qed.
Lemma check_para : forall d c, para c -> check_quad d c = Ok tt -> check_parallelogram d c = Ok tt.
Proof.
  intros d c P H. unfold check_parallelogram. rewrite H. cbn [bind]. unfold lf_assert.
  rewrite (proj2 (gtb_lt _ _)); [reflexivity|].
  rewrite (sq_ext d (vadd _ _) vzero) by (intros k; unfold vadd, vsub, vzero; specialize (P k); lra).
  replace (sqnorm d vzero) with 0. 2:{ rewrite (sq_scale d vzero vzero 0) by (intros; unfold vzero; ring). ring. }
  rewrite sqrt_0. apply Rmult_lt_0_compat; [apply Rinv_0_lt_compat; lra|]. apply sqrt_lt_R0.
  destruct (Rle_lt_or_eq_dec _ _ (sqnorm_pos d (vsub (c 2%nat) (c 0%nat)))) as [|Z]; auto. exfalso.
  apply (check_quad_spec d c P) in H as [_ (H1 & H2 & H3)]. symmetry in Z.
  set (u := vsub (c 1%nat) (c 0%nat)) in *. set (w := vsub (c 3%nat) (c 0%nat)) in *.
  assert (W : dot d w w = dot d u u /\ dot d u w = - dot d u u).
  { assert (E : forall k, (k < d)%nat -> w k = -1 * u k + 0 * u k).
    { intros k Hk. pose proof (dot_zero d _ Z k Hk) as X. unfold u, w, vsub in *. specialize (P k). lra. }
    rewrite (dot_ext d w (fun k => -1 * u k + 0 * u k) w (fun k => -1 * u k + 0 * u k)) by auto.
    rewrite (dot_ext d u u w (fun k => -1 * u k + 0 * u k)) by auto. rewrite dot_lin, !dot_lin_r. split; ring. }
  destruct W as [W1 W2]. unfold sqnorm in *. rewrite W1, W2 in H3.
  replace (dot d u u * dot d u u - - dot d u u * - dot d u u) with 0 in H3 by ring. rewrite sqrt_0 in H3.
  pose proof (dot_pos d u). unfold tol in H3. assert (0 < / 10 ^ 8) by (apply Rinv_0_lt_compat; lra). nra.
Qed.
Lemma child_quad : forall g poly p, (go_kind g = GQuadO1 \/ go_kind g = GParallelogram) -> check_quad (go_dim g) (col g) = Ok tt -> para (col g) -> (p = rp_copy \/ p = rp_regular) ->
  (exists a l, ChildPolygons (mkPattern kQuad p a 6) 0 = Ok l /\ In poly l) -> exists c, child g 6 0 poly = Ok c /\ tamed c.
Proof.
  intros g poly p K CK PA Hp (a & l & HL & HI).
  assert (R1 : forall cs, para (fun i => nth i cs vzero) -> check_quad (go_dim g) (fun i => nth i cs vzero) = Ok tt ->
     exists c, (do _ <- check_quad (go_dim g) (fun i => nth i cs vzero); Ok (mkGeo GQuadO1 (go_dim g) cs)) = Ok c /\ tamed c).
  { intros cs E F. rewrite F. eexists. split; [reflexivity|]. exact E. }
  assert (R2 : forall cs, para (fun i => nth i cs vzero) -> check_quad (go_dim g) (fun i => nth i cs vzero) = Ok tt ->
     exists c, (do _ <- check_parallelogram (go_dim g) (fun i => nth i cs vzero); Ok (mkGeo GParallelogram (go_dim g) cs)) = Ok c /\ tamed c).
  { intros cs E F. rewrite (check_para _ _ E F). eexists. split; [reflexivity|]. exact E. }
  assert (GA : forall s t k, global_at g s t k = col g 0 k * (1 - s - t) + col g 1 k * s + col g 3 k * t).
  { intros s t k. unfold global_at. destruct K as [-> | ->]; [|reflexivity]. specialize (PA k).
    replace (col g 2 k) with (col g 1 k + col g 3 k - col g 0 k) by lra. ring. }
  assert (PC : forall p0 p1 p2 p3 : R * R, fst p0 + fst p2 = fst p1 + fst p3 -> snd p0 + snd p2 = snd p1 + snd p3 ->
    para (fun i => nth i [global_at g (fst p0) (snd p0); global_at g (fst p1) (snd p1); global_at g (fst p2) (snd p2); global_at g (fst p3) (snd p3)] vzero)).
  { intros [a0 b0] [a1 b1] [a2 b2] [a3 b3] E F k. cbn [fst snd nth] in *. rewrite !GA.
    replace a3 with (a0 + a2 - a1) by lra. replace b3 with (b0 + b2 - b1) by lra. ring. }
  assert (Q : forall s t cs, para (fun i => nth i cs vzero) -> (s * s = 1 / 4 /\ t * t = 1 / 4) \/ (s * s = 1 /\ t * t = 1) ->
   ((forall k, nth 1 cs vzero k - nth 0 cs vzero k = s * (col g 1 k - col g 0 k)) /\ (forall k, nth 3 cs vzero k - nth 0 cs vzero k = t * (col g 3 k - col g 0 k))) \/
   ((forall k, nth 1 cs vzero k - nth 0 cs vzero k = s * (col g 3 k - col g 0 k)) /\ (forall k, nth 3 cs vzero k - nth 0 cs vzero k = t * (col g 1 k - col g 0 k))) ->
   check_quad (go_dim g) (fun i => nth i cs vzero) = Ok tt).
  { intros s t cs P' Hs E. exact (quad_similar (go_dim g) (col g) (fun i => nth i cs vzero) s t Hs PA P' CK E). }
  assert (D : exists cs, para (fun i => nth i cs vzero) /\ check_quad (go_dim g) (fun i => nth i cs vzero) = Ok tt /\ child g 6 0 poly =
     match go_kind g with GParallelogram => (do _ <- check_parallelogram (go_dim g) (fun i => nth i cs vzero); Ok (mkGeo GParallelogram (go_dim g) cs))
       | _ => (do _ <- check_quad (go_dim g) (fun i => nth i cs vzero); Ok (mkGeo GQuadO1 (go_dim g) cs)) end).
  2:{ destruct D as (cs & D1 & D2 & ->). destruct K as [-> | ->]; auto. }
  assert (CH : forall a0 b0 a1 b1 a2 b2 a3 b3 : Z, forallb (zrow 2) [[a0; b0]; [a1; b1]; [a2; b2]; [a3; b3]] = true ->
     isParallelogram [[a0; b0]; [a1; b1]; [a2; b2]; [a3; b3]] = Ok true ->
     let f z := 1 / IZR 6 * IZR z in let cs := [global_at g (f a0) (f b0); global_at g (f a1) (f b1); global_at g (f a2) (f b2); global_at g (f a3) (f b3)] in
     child g 6 0 [[a0; b0]; [a1; b1]; [a2; b2]; [a3; b3]] =
     match go_kind g with GParallelogram => (do _ <- check_parallelogram (go_dim g) (fun i => nth i cs vzero); Ok (mkGeo GParallelogram (go_dim g) cs))
       | _ => (do _ <- check_quad (go_dim g) (fun i => nth i cs vzero); Ok (mkGeo GQuadO1 (go_dim g) cs)) end).
  { intros a0 b0 a1 b1 a2 b2 a3 b3 ZR IP f cs. apply scaled_in in ZR.
    unfold child. destruct K as [K|K]; rewrite K; cbn [dim_local kind_el el_dim forallb length Nat.eqb andb verify bind Nat.sub is_o2];
    try (rewrite IP; cbn [bind]); unfold child_from; (rewrite Globals; [|rewrite K; exact ZR]);
    cbn [bind]; unfold new_geo, scaled; cbn [map length num_cols Nat.eqb lf_assert bind nth]; reflexivity. }
  destruct Hp as [-> | ->]; vm_compute in HL; injection HL as <-; cbn [In] in HI.
  - destruct HI as [<-|[]]. rewrite CH by reflexivity. eexists. split; [|split; [|reflexivity]].
    + apply (PC (_, _) (_, _) (_, _) (_, _)); cbn [fst snd]; field.
    + apply (Q 1 1); [apply (PC (_, _) (_, _) (_, _) (_, _)); cbn [fst snd]; field|right; split; ring|].
      left. cbn [nth]. split; intros k; rewrite !GA; field.
  - destruct HI as [<-|[<-|[<-|[<-|[]]]]]; rewrite CH by reflexivity; eexists; (split; [|split; [|reflexivity]]).
    all: try (apply (PC (_, _) (_, _) (_, _) (_, _)); cbn [fst snd]; field).
    + apply (Q (1/2) (1/2)); [apply (PC (_, _) (_, _) (_, _) (_, _)); cbn [fst snd]; field|left; split; field|].
      left. cbn [nth]. split; intros k; rewrite !GA; field.
    + apply (Q (1/2) (-1/2)); [apply (PC (_, _) (_, _) (_, _) (_, _)); cbn [fst snd]; field|left; split; field|].
      right. cbn [nth]. split; intros k; rewrite !GA; field.
    + apply (Q (-1/2) (-1/2)); [apply (PC (_, _) (_, _) (_, _) (_, _)); cbn [fst snd]; field|left; split; field|].
      right. cbn [nth]. split; intros k; rewrite !GA; field.
    + apply (Q (1/2) (-1/2)); [apply (PC (_, _) (_, _) (_, _) (_, _)); cbn [fst snd]; field|left; split; field|].
      left. cbn [nth]. split; intros k; rewrite !GA; field.
Qed.

(** *** Success *)
Theorem children_succeed : forall g P codim, constructed g -> tame g -> go_kind g <> GPoint -> p_lc P = 6%Z -> p_el P = kind_el (go_kind g) ->
  implemented (p_el P) (p_pat P) = true -> good_anchor (p_el P) (p_pat P) (p_anchor P) -> (codim <= dim_local (go_kind g))%nat ->
  (is_o2 (go_kind g) = false -> dim_local (go_kind g) = 2%nat -> p_pat P = rp_copy \/ p_pat P = rp_regular) ->
  exists cs, ChildGeometry g P codim = Ok cs /\ Forall (fun c => tame c /\ (is_o2 (go_kind g) = true -> o2ish c)) cs.
Proof.
  intros g P codim CO TA NP LC EL IM GA HC PT. apply tame_tamed in TA. destruct (children_outcome P codim) as [(n & HN) HP]; auto.
  { rewrite EL. exact HC. }
  destruct (HP GA) as (polys & HL). pose proof (children_count P codim n polys IM HN HL) as EN.
  assert (EP : P = mkPattern (kind_el (go_kind g)) (p_pat P) (p_anchor P) 6) by (destruct P; cbn in *; congruence).
  assert (ZP : forallb (zchild (kind_el (go_kind g)) codim) polys = true).
  { rewrite EP in HL. eapply polygons_ok; [|rewrite <- EL; exact GA|exact HL]. intros X. apply NP. destruct (go_kind g); cbn in X; congruence. }
  pose proof (constructed_check g CO) as CK.
  destruct (mapM_all _ _ (child g (p_lc P) codim) (fun c => tame c /\ (is_o2 (go_kind g) = true -> o2ish c)) polys) as (cs & HM & HQ).
  { intros poly HI. pose proof (proj1 (forallb_forall _ _) ZP poly HI) as ZC. rewrite LC.
    destruct (is_o2 (go_kind g)) eqn:O2.
    - destruct (child_o2 g codim poly O2 ZC HC) as (c & A & B & C). exists c. split; auto. split; auto. apply tame_tamed, B.
    - assert (X : exists c, child g 6 codim poly = Ok c /\ tamed c).
      { destruct codim as [|codim].
        - destruct (go_kind g) eqn:K; try discriminate; try congruence.
          + apply child_o1; rewrite ?K; auto; discriminate.
          + apply (child_tria g poly (p_pat P)); auto. exists (p_anchor P), polys. rewrite EP in HL. cbn [kind_el] in HL. auto.
          + apply (child_quad g poly (p_pat P)); auto. { unfold tamed in TA. rewrite K in TA. exact TA. } exists (p_anchor P), polys. rewrite EP in HL. cbn [kind_el] in HL. auto.
          + apply (child_quad g poly (p_pat P)); auto. { unfold tamed in TA. rewrite K in TA. exact TA. } exists (p_anchor P), polys. rewrite EP in HL. cbn [kind_el] in HL. auto.
        - apply child_o1; auto. discriminate. }
      destruct X as (c & A & B). exists c. split; auto. split; [apply tame_tamed, B|discriminate]. }
  exists cs. split; auto. unfold ChildGeometry. rewrite EL. replace (same_el _ _) with true by (destruct (kind_el (go_kind g)); reflexivity).
  cbn [verify bind].
  assert (E : (do _ <- verify (codim <=? dim_local (go_kind g))%nat; do polys <- ChildPolygons P codim; do n <- NumChildren P codim;
      do _ <- verify (length polys =? n)%nat; mapM (child g (p_lc P) codim) polys) = Ok cs).
  { rewrite (proj2 (Nat.leb_le _ _) HC), HL, HN. cbn [verify bind]. rewrite EN, Nat.eqb_refl. cbn [verify bind]. exact HM. }
  destruct (go_kind g); try exact E; congruence.
Qed.

(** A thin triangle that cannot be refined barycentrically. *)
Definition thin : geo := mkGeo GTriaO1 2 [fun k => 0; fun k => match k with 0%nat => 1 | _ => 0 end; fun k => match k with 0%nat => 1 / 2 | _ => / 10000 end].
Lemma thin_ok : constructed thin.
Proof.
  left. exists GTriaO1, 2%nat, (go_cols thin). unfold new_geo. cbn [go_cols thin length num_cols Nat.eqb lf_assert bind].
  replace (check_tria _ _) with (Ok tt : res unit); [reflexivity|]. symmetry. apply check_tria_spec. split; [left; reflexivity|].
  unfold tri_ok. rewrite <- tri_gram, <- abs_gram. unfold sqnorm, dot, vsub, cross2, tol. cbn [map seq fold_right nth].
  rewrite Rabs_right; repeat split; lra.
Qed.
Lemma thin_barycentric : exists P, new_pattern kTria rp_barycentric None = Ok P /\ ChildGeometry thin P 0 = Throw.
Proof.
  exists (mkPattern kTria rp_barycentric None 6). split; [reflexivity|].
  unfold ChildGeometry. cbn [p_el thin go_kind kind_el same_el verify bind dim_local el_dim Nat.leb p_lc].
  set (Q := ChildPolygons _ _). vm_compute in Q. subst Q. cbn [bind]. set (n := NumChildren _ _). vm_compute in n. subst n. cbn [bind length Nat.eqb verify].
  cbn [mapM].
  assert (E : child thin 6 0 [[0; 0]; [3; 0]; [2; 2]]%Z = Throw).
  { with_pts (eq_refl : go_kind thin = GTriaO1). cbn [nth]. unfold check_tria.
    assert (F : forall a b, a <= b -> verify (gtb a b) = Throw).
    { intros a b Hab. unfold gtb. destruct (Rlt_dec b a); [lra|reflexivity]. }
    assert (T : forall a b, b < a -> verify (gtb a b) = Ok tt) by (intros; apply verify_lt; assumption).
    rewrite T; [cbn [bind]; rewrite F; [reflexivity|]|];
    unfold sqnorm, dot, vsub, tol, global_at, col; cbn [thin go_kind go_cols go_dim map seq fold_right nth]; lra. }
  match goal with |- bind ?a _ = _ => replace a with (Throw : res geo) by (symmetry; exact E) end. reflexivity.
Qed.
