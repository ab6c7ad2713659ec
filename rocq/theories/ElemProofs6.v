(** Linear elements. *)
From Coq Require Import Reals List Arith Bool Lia Lra.
Import ListNotations.
From Verif Require Import Base MeshModel MeshView DofModel RefPatModel GeoModel GeoSpec GeoProofs GeoProofs2 GeoProofs3 GeoProofs4 FeModel LagrModel QuadModel FeSpec QuadSpec
  HierProofs HierProofs3 QuadProofs ElemModel ElemSpec ElemProofs ElemProofs2 ElemProofs3.
Local Open Scope R_scope.

Lemma inner2 : forall a b, inner 2 a b = a 0%nat * b 0%nat + a 1%nat * b 1%nat.
Proof. intros. unfold inner. cbn [seq map fold_right]. ring. Qed.

(** Cramer's rule: combine three equations with cofactors. *)
Ltac cramer v c gr E0 E1 E2 :=
  match goal with |- _ = gr ?i ?r * _ =>
    match r with
    | 0%nat => transitivity ((c i + (gr i 0%nat * v 0%nat 0%nat + gr i 1%nat * v 0%nat 1%nat)) * (v 1%nat 1%nat - v 2%nat 1%nat) +
                 (c i + (gr i 0%nat * v 1%nat 0%nat + gr i 1%nat * v 1%nat 1%nat)) * (v 2%nat 1%nat - v 0%nat 1%nat) +
                 (c i + (gr i 0%nat * v 2%nat 0%nat + gr i 1%nat * v 2%nat 1%nat)) * (v 0%nat 1%nat - v 1%nat 1%nat))
    | _ => transitivity ((c i + (gr i 0%nat * v 0%nat 0%nat + gr i 1%nat * v 0%nat 1%nat)) * (v 2%nat 0%nat - v 1%nat 0%nat) +
                 (c i + (gr i 0%nat * v 1%nat 0%nat + gr i 1%nat * v 1%nat 1%nat)) * (v 0%nat 0%nat - v 2%nat 0%nat) +
                 (c i + (gr i 0%nat * v 2%nat 0%nat + gr i 1%nat * v 2%nat 1%nat)) * (v 1%nat 0%nat - v 0%nat 0%nat))
    end end; [rewrite E0, E1, E2; ring|ring].

(** *** Triangles *)
Section Tria.
Variable v : nat -> vec.
Let X := fun r c => match c with 0%nat => 1 | Datatypes.S c' => v r c' end.
Let D := det3 X.
Lemma bary_inverse : forall c gr, barycentric v c gr -> D <> 0 /\ forall r i, (r < 2)%nat -> (i < 3)%nat -> inv3 X (1 + r) i = gr i r.
Proof.
  intros c gr H.
  assert (E : forall i j, (i < 3)%nat -> (j < 3)%nat -> c i + (gr i 0%nat * v j 0%nat + gr i 1%nat * v j 1%nat) = delta i j).
  { intros i j Hi Hj. rewrite <- (H i j Hi Hj), inner2. reflexivity. }
  assert (DD : D <> 0).
  { intros Z. pose proof (E 0%nat 0%nat ltac:(lia) ltac:(lia)) as E00. pose proof (E 0%nat 1%nat ltac:(lia) ltac:(lia)) as E01.
    pose proof (E 0%nat 2%nat ltac:(lia) ltac:(lia)) as E02. pose proof (E 1%nat 0%nat ltac:(lia) ltac:(lia)) as E10.
    pose proof (E 1%nat 1%nat ltac:(lia) ltac:(lia)) as E11. pose proof (E 1%nat 2%nat ltac:(lia) ltac:(lia)) as E12.
    unfold delta in *. cbn [Nat.eqb] in *. unfold D, det3, X in Z.
    assert (A1 : gr 0%nat 0%nat * (v 1%nat 0%nat - v 0%nat 0%nat) + gr 0%nat 1%nat * (v 1%nat 1%nat - v 0%nat 1%nat) = -1) by lra.
    assert (A2 : gr 0%nat 0%nat * (v 2%nat 0%nat - v 0%nat 0%nat) + gr 0%nat 1%nat * (v 2%nat 1%nat - v 0%nat 1%nat) = -1) by lra.
    assert (B1 : gr 1%nat 0%nat * (v 1%nat 0%nat - v 0%nat 0%nat) + gr 1%nat 1%nat * (v 1%nat 1%nat - v 0%nat 1%nat) = 1) by lra.
    assert (B2 : gr 1%nat 0%nat * (v 2%nat 0%nat - v 0%nat 0%nat) + gr 1%nat 1%nat * (v 2%nat 1%nat - v 0%nat 1%nat) = 0) by lra.
    set (a := v 1%nat 0%nat - v 0%nat 0%nat) in *. set (b := v 1%nat 1%nat - v 0%nat 1%nat) in *.
    set (a' := v 2%nat 0%nat - v 0%nat 0%nat) in *. set (b' := v 2%nat 1%nat - v 0%nat 1%nat) in *.
    assert (W : a * b' - b * a' = 0) by (unfold a, b, a', b'; lra).
    (* (g0 x g1) (a b' - b a') = (g0.(a,b)) (g1.(a',b')) - (g0.(a',b')) (g1.(a,b)) = 1 *)
    assert ((gr 0%nat 0%nat * a + gr 0%nat 1%nat * b) * (gr 1%nat 0%nat * a' + gr 1%nat 1%nat * b') -
            (gr 0%nat 0%nat * a' + gr 0%nat 1%nat * b') * (gr 1%nat 0%nat * a + gr 1%nat 1%nat * b) =
            (gr 0%nat 0%nat * gr 1%nat 1%nat - gr 0%nat 1%nat * gr 1%nat 0%nat) * (a * b' - b * a')) as I by ring.
    rewrite A1, A2, B1, B2, W in I. lra. }
  split; [exact DD|]. intros r i Hr Hi.
  pose proof (E i 0%nat Hi ltac:(lia)) as E0. pose proof (E i 1%nat Hi ltac:(lia)) as E1. pose proof (E i 2%nat Hi ltac:(lia)) as E2.
  unfold inv3. fold D. apply (Rmult_eq_reg_r D); [|exact DD]. unfold Rdiv. rewrite Rmult_assoc, Rinv_l, Rmult_1_r by exact DD.
  assert (r = 0 \/ r = 1)%nat as [-> | ->] by lia; assert (i = 0 \/ i = 1 \/ i = 2)%nat as [-> | [-> | ->]] by lia;
    unfold D, det3, X; cbn [Nat.add Nat.modulo Nat.divmod fst snd Nat.sub]; unfold delta in E0, E1, E2; cbn [Nat.eqb] in E0, E1, E2; cramer v c gr E0 E1 E2.
Qed.
Lemma area_poly : 1 / 2 * Rabs D = polygon_area [v 0%nat; v 1%nat; v 2%nat].
Proof.
  unfold polygon_area. cbn [length seq map fold_right nth Nat.add Nat.modulo Nat.divmod fst snd Nat.sub].
  replace (1 / 2) with (/ 2) by lra. do 2 f_equal. unfold D, det3, X. ring.
Qed.
Lemma tria_entries : forall c gr, barycentric v c gr -> forall i j, (i < 3)%nat -> (j < 3)%nat ->
  laplace_tria v i j = polygon_area [v 0%nat; v 1%nat; v 2%nat] * inner 2 (gr i) (gr j).
Proof.
  intros c gr H i j Hi Hj. destruct (bary_inverse c gr H) as [_ I]. unfold laplace_tria. fold X. fold D.
  rewrite (proj2 (Nat.ltb_lt i 3) Hi), (proj2 (Nat.ltb_lt j 3) Hj). cbn [andb seq map]. unfold rsum. cbn [fold_right].
  rewrite area_poly. pose proof (I 0%nat i ltac:(lia) Hi) as I0. pose proof (I 1%nat i ltac:(lia) Hi) as I1.
  pose proof (I 0%nat j ltac:(lia) Hj) as J0. pose proof (I 1%nat j ltac:(lia) Hj) as J1. rewrite I0, I1, J0, J1, inner2. ring.
Qed.
Lemma bary_exists : polygon_area [v 0%nat; v 1%nat; v 2%nat] <> 0 -> exists c gr, barycentric v c gr.
Proof.
  intros H. assert (DD : D <> 0). { intros Z. apply H. rewrite <- area_poly, Z, Rabs_R0. ring. }
  exists (fun i => inv3 X 0 i), (fun i r => inv3 X (1 + r) i). intros i j Hi Hj. rewrite inner2.
  unfold inv3. fold D. apply (Rmult_eq_reg_r D); [|exact DD].
  assert (i = 0 \/ i = 1 \/ i = 2)%nat as [-> | [-> | ->]] by lia; assert (j = 0 \/ j = 1 \/ j = 2)%nat as [-> | [-> | ->]] by lia;
    cbn [Nat.add Nat.modulo Nat.divmod fst snd Nat.sub]; unfold delta; cbn [Nat.eqb];
    field_simplify_eq; try exact DD; unfold D, det3, X; ring.
Qed.
End Tria.

(** *** Quadrilaterals *)
Definition qcol (c : nat -> vec) (x y : R) : list vec :=
  [(fun k => (c 1%nat k - c 0%nat k) * (1 - y) + (c 2%nat k - c 3%nat k) * y);
   (fun k => (c 3%nat k - c 0%nat k) * (1 - x) + (c 2%nat k - c 1%nat k) * x)].
Definition qdet (c : nat -> vec) (x y : R) : R :=
  let J := qcol c x y in nth 0 J vzero 0%nat * nth 1 J vzero 1%nat - nth 0 J vzero 1%nat * nth 1 J vzero 0%nat.
Lemma gram2 : forall a b : vec, gramian_det 2 [a; b] = (a 0%nat * b 1%nat - a 1%nat * b 0%nat) ^ 2.
Proof. intros. unfold gramian_det, gramian. cbn [length nth]. rewrite !inner2. ring. Qed.
Lemma inverse_world : forall (a b : vec) D (r : list R) (w : vec), D = a 0%nat * b 1%nat - a 1%nat * b 0%nat -> D <> 0 ->
  w 0%nat * D = b 1%nat * nth 0 r 0 - a 1%nat * nth 1 r 0 -> w 1%nat * D = - b 0%nat * nth 0 r 0 + a 0%nat * nth 1 r 0 ->
  world_gradient 2 [a; b] r w.
Proof.
  intros a b D r w ED ND W0 W1. split.
  - intros c Hc. cbn [length] in Hc. rewrite inner2. apply (Rmult_eq_reg_r D); [|exact ND].
    rewrite Rmult_plus_distr_r, !Rmult_assoc, W0, W1.
    assert (c = 0 \/ c = 1)%nat as [-> | ->] by lia; cbn [nth]; rewrite ED; ring.
  - exists [(b 1%nat * w 0%nat - b 0%nat * w 1%nat) / D; (a 0%nat * w 1%nat - a 1%nat * w 0%nat) / D]. split; [reflexivity|].
    intros k Hk. unfold apply. cbn [combine map fold_right fst snd].
    assert (k = 0 \/ k = 1)%nat as [-> | ->] by lia; apply (Rmult_eq_reg_r D); auto; field_simplify; auto; rewrite ED; ring.
Qed.
Section Quad.
Variable (g : geo) (vol : list R -> R) (G : nat -> list R -> vec).
Hypothesis (Kd : go_kind g = GQuadO1 \/ go_kind g = GParallelogram) (Pl : go_dim g = 2%nat) (Ex : exact_parallelogram g).
Let c := col g.
Lemma quad_jac : forall x y J, Jacobian g [x; y] = Ok J -> forall m k, (m < 2)%nat -> nth m J vzero k = nth m (qcol c x y) vzero k.
Proof.
  intros x y J HJ m k Hm. rewrite Jacobian_ok in HJ.
  - injection HJ as <-. cbn [nth]. unfold jac_cols, qcol, c. destruct Kd as [K|K]; rewrite K.
    + reflexivity.
    + pose proof (Ex K k) as E. assert (m = 0 \/ m = 1)%nat as [-> | ->] by lia; cbn [nth]; unfold vsub.
      * replace (col g 2 k) with (col g 1 k + col g 3 k - col g 0 k) by lra. ring.
      * replace (col g 2 k) with (col g 1 k + col g 3 k - col g 0 k) by lra. ring.
  - split; [destruct Kd as [-> | ->]; reflexivity|]. destruct Kd as [-> | ->]; discriminate.
Qed.
Lemma quad_vol : forall x y, volume_at g vol [x; y] -> vol [x; y] = Rabs (qdet c x y).
Proof.
  intros x y [J [HJ E]]. pose proof (quad_jac x y J HJ) as Q. rewrite E, Pl.
  assert (L : length J = 2%nat).
  { rewrite Jacobian_ok in HJ; [injection HJ as <-; unfold jac_cols; destruct Kd as [-> | ->]; reflexivity|].
    split; [destruct Kd as [-> | ->]; reflexivity|]. destruct Kd as [-> | ->]; discriminate. }
  destruct (two_cols J L) as [a [b ->]]. rewrite gram2. unfold qdet.
  rewrite <- !Q by lia. cbn [nth]. rewrite <- Rsqr_pow2. apply sqrt_Rsqr_abs.
Qed.
Lemma quad_grad : forall x y, gradient_at g o1_quad G [x; y] -> qdet c x y <> 0 /\ forall i, (i < 4)%nat ->
  G i [x; y] 0%nat * qdet c x y = nth 1 (qcol c x y) vzero 1%nat * nth 0 (nth i (DervRefShapFncts x y) []) 0 -
                                  nth 0 (qcol c x y) vzero 1%nat * nth 1 (nth i (DervRefShapFncts x y) []) 0 /\
  G i [x; y] 1%nat * qdet c x y = - nth 1 (qcol c x y) vzero 0%nat * nth 0 (nth i (DervRefShapFncts x y) []) 0 +
                                  nth 0 (qcol c x y) vzero 0%nat * nth 1 (nth i (DervRefShapFncts x y) []) 0.
Proof.
  intros x y [J [gr [HJ [ND [Eg HW]]]]]. rewrite Pl in *. pose proof (quad_jac x y J HJ) as Q.
  assert (L : length J = 2%nat).
  { rewrite Jacobian_ok in HJ; [injection HJ as <-; unfold jac_cols; destruct Kd as [-> | ->]; reflexivity|].
    split; [destruct Kd as [-> | ->]; reflexivity|]. destruct Kd as [-> | ->]; discriminate. }
  cbn in Eg. injection Eg as <-. destruct (two_cols J L) as [a [b ->]]. rewrite gram2 in ND.
  assert (ED : qdet c x y = a 0%nat * b 1%nat - a 1%nat * b 0%nat) by (unfold qdet; rewrite <- !Q by lia; reflexivity).
  assert (N : qdet c x y <> 0) by (intros Z; apply ND; rewrite <- ED, Z; ring).
  split; [exact N|]. intros i Hi. specialize (HW i Hi).
  change ([[y - 1; x - 1]; [1 - y; - x]; [y; x]; [- y; 1 - x]]) with (DervRefShapFncts x y) in HW.
  set (r := nth i (DervRefShapFncts x y) []) in *.
  set (w := fun k : nat => match k with 0%nat => (b 1%nat * nth 0 r 0 - a 1%nat * nth 1 r 0) / qdet c x y
                                 | _ => (- b 0%nat * nth 0 r 0 + a 0%nat * nth 1 r 0) / qdet c x y end).
  assert (W : world_gradient 2 [a; b] r w).
  { apply (inverse_world a b (qdet c x y) r w ED N); unfold w; field; exact N. }
  assert (ND' : gramian_det 2 [a; b] <> 0) by (rewrite gram2; exact ND).
  rewrite (world_unique 2 [a; b] r _ w eq_refl ND' HW W 0%nat ltac:(lia)), (world_unique 2 [a; b] r _ w eq_refl ND' HW W 1%nat ltac:(lia)).
  pose proof (Q 0%nat 0%nat ltac:(lia)) as Q00. pose proof (Q 0%nat 1%nat ltac:(lia)) as Q01.
  pose proof (Q 1%nat 0%nat ltac:(lia)) as Q10. pose proof (Q 1%nat 1%nat ltac:(lia)) as Q11.
  rewrite <- Q00, <- Q01, <- Q10, <- Q11. cbn [nth]. unfold w. split; field; exact N.
Qed.
Definition qpoint (i j : nat) (x y : R) : R :=
  let J := qcol c x y in let d := DervRefShapFncts x y in
  let gm := fun r m => match r with
    | 0%nat => nth 1 J vzero 1%nat * nth 0 (nth m d []) 0 - nth 0 J vzero 1%nat * nth 1 (nth m d []) 0
    | _ => - nth 1 J vzero 0%nat * nth 0 (nth m d []) 0 + nth 0 J vzero 0%nat * nth 1 (nth m d []) 0 end in
  (gm 0%nat i * gm 0%nat j + gm 1%nat i * gm 1%nat j) / Rabs (qdet c x y).
Lemma laplace_points : forall v i j, (forall m k, v m k = c m k) ->
  laplace_quad v i j = (qpoint i j kZeta_0 kZeta_0 + (qpoint i j kZeta_0 kZeta_1 + (qpoint i j kZeta_1 kZeta_0 + qpoint i j kZeta_1 kZeta_1))) * (1 / 4).
Proof.
  intros v i j V. unfold laplace_quad, kQuadPoints. cbv zeta. cbn [map seq]. unfold rsum. cbn [fold_right fst snd].
  f_equal. unfold qpoint, qdet, qcol. cbv zeta. cbn [nth].
  rewrite !V.
  apply (f_equal2 Rplus); [apply (f_equal2 Rdiv); [ring|apply f_equal; ring]|].
  apply (f_equal2 Rplus); [apply (f_equal2 Rdiv); [ring|apply f_equal; ring]|].
  apply (f_equal2 Rplus); [apply (f_equal2 Rdiv); [ring|apply f_equal; ring]|].
  etransitivity; [apply Rplus_0_r|]. apply (f_equal2 Rdiv); [ring|apply f_equal; ring].
Qed.
Lemma point_value : forall x y i j, volume_at g vol [x; y] -> gradient_at g o1_quad G [x; y] -> (i < 4)%nat -> (j < 4)%nat ->
  vol [x; y] * inner 2 (G i [x; y]) (G j [x; y]) = qpoint i j x y.
Proof.
  intros x y i j HV HG Hi Hj. rewrite (quad_vol x y HV), inner2. destruct (quad_grad x y HG) as [N H].
  destruct (H i Hi) as [I0 I1]. destruct (H j Hj) as [J0 J1]. unfold qpoint. cbv zeta. rewrite <- I0, <- I1, <- J0, <- J1.
  set (D := qdet c x y) in *. assert (A : Rabs D <> 0) by (apply Rabs_no_R0; exact N).
  assert (S2 : D * D = Rabs D * Rabs D). { rewrite <- Rabs_mult. rewrite Rabs_pos_eq; [reflexivity|]. apply Rle_0_sqr. }
  apply (Rmult_eq_reg_r (Rabs D)); [|exact A].
  replace ((G i [x; y] 0%nat * D * (G j [x; y] 0%nat * D) + G i [x; y] 1%nat * D * (G j [x; y] 1%nat * D)) / Rabs D * Rabs D)
    with ((G i [x; y] 0%nat * G j [x; y] 0%nat + G i [x; y] 1%nat * G j [x; y] 1%nat) * (D * D)) by (field; exact A).
  rewrite S2. ring.
Qed.
End Quad.

(** *** The provider *)
Lemma vertices_ok : forall g el, kind_el (go_kind g) = el -> constructed g -> exact_parallelogram g -> dim_local (go_kind g) = 2%nat ->
  exists vs, traverse (Global g) (ref_nodes el) = Ok vs /\ length vs = num_nodes el /\
    forall m k, (m < num_nodes el)%nat -> nth m vs vzero k = col g m k.
Proof.
  intros g el E C Ex D.
  destruct (traverse_all _ _ (Global g) (ref_nodes el)) as [vs H].
  { intros x I. apply In_nth_error in I. destruct I as [n Hn]. destruct (control_images g n x C Ex) as [p [Ep _]].
    - unfold control_points. rewrite E. rewrite nth_error_app1; [exact Hn|]. apply nth_error_Some. congruence.
    - exists p. exact Ep. }
  exists vs. split; [exact H|]. destruct (traverse_nth _ _ _ _ _ H) as [L N].
  assert (LN : length (ref_nodes el) = num_nodes el) by (destruct el; reflexivity).
  split; [congruence|]. intros m k Hm.
  destruct (control_images g m (nth m (ref_nodes el) []) C Ex) as [p [Ep Hp]].
  - unfold control_points. rewrite E, nth_error_app1 by lia. apply nth_error_nth'. lia.
  - pose proof (N m [] vzero ltac:(lia)) as X. rewrite Ep in X. injection X as X. rewrite <- X. apply Hp.
Qed.
Lemma laplace_tria_ok : forall g c gr, kind_el (go_kind g) = kTria -> go_dim g = 2%nat -> constructed g ->
  barycentric (col g) c gr ->
  exists M, LinearFELaplaceEval g = Ok M /\ em_n M = 4%nat /\
    (forall i j, (i < 3)%nat -> (j < 3)%nat -> em_at M i j = polygon_area [col g 0; col g 1; col g 2] * inner 2 (gr i) (gr j)) /\
    (forall i j, (3 <= i \/ 3 <= j)%nat -> em_at M i j = 0).
Proof.
  intros g c gr E D C B. assert (Ex : exact_parallelogram g). { intros K. rewrite K in E. discriminate E. }
  assert (Dl : dim_local (go_kind g) = 2%nat) by (destruct (go_kind g); try discriminate E; reflexivity).
  destruct (vertices_ok g kTria E C Ex Dl) as [vs [H [L V]]].
  unfold LinearFELaplaceEval. rewrite D, Dl, E. cbn [Nat.eqb andb lf_assert bind]. change ([[0; 0]; [1; 0]; [0; 1]]) with (ref_nodes kTria).
  rewrite H. cbn [bind]. rewrite L. cbn [num_nodes Nat.eqb lf_assert bind].
  eexists. split; [reflexivity|]. split; [reflexivity|]. cbn [em_at].
  assert (B' : barycentric (fun i => nth i vs vzero) c gr).
  { intros i j Hi Hj. rewrite <- (B i j Hi Hj). rewrite !inner2. rewrite !V by (cbn [num_nodes]; lia). reflexivity. }
  split.
  - intros i j Hi Hj. rewrite (tria_entries _ c gr B' i j Hi Hj). f_equal. unfold polygon_area.
    cbn [length seq map fold_right nth Nat.add Nat.modulo Nat.divmod fst snd Nat.sub]. rewrite !V by (cbn [num_nodes]; lia). reflexivity.
  - intros i j H34. unfold laplace_tria.
    destruct (Nat.ltb_spec i 3) as [Hi|Hi], (Nat.ltb_spec j 3) as [Hj|Hj]; cbn [andb]; try reflexivity. lia.
Qed.
Lemma gauss4_points : qr_points gauss4 = [[kZeta_0; kZeta_0]; [kZeta_1; kZeta_0]; [kZeta_0; kZeta_1]; [kZeta_1; kZeta_1]].
Proof.
  assert (A : (1 - 1 / sqrt 3) / 2 = kZeta_0) by (unfold kZeta_0, kSqrt3; lra).
  assert (B : (1 + 1 / sqrt 3) / 2 = kZeta_1) by (unfold kZeta_1, kSqrt3; lra).
  unfold gauss4. cbv zeta. cbn [qr_points]. rewrite A, B. reflexivity.
Qed.
Lemma laplace_quad_ok : forall g vol G, go_kind g = GQuadO1 \/ go_kind g = GParallelogram -> go_dim g = 2%nat -> constructed g ->
  exact_parallelogram g -> (forall p, In p (qr_points gauss4) -> volume_at g vol p) ->
  (forall p, In p (qr_points gauss4) -> gradient_at g o1_quad G p) ->
  is_matrix (LinearFELaplaceEval g) 4 (fun i j => quadrature gauss4 (fun p => vol p * inner 2 (G i p) (G j p))).
Proof.
  intros g vol G K D C Ex HV HG.
  assert (E : kind_el (go_kind g) = kQuad) by (destruct K as [-> | ->]; reflexivity).
  assert (Dl : dim_local (go_kind g) = 2%nat) by (destruct K as [-> | ->]; reflexivity).
  destruct (vertices_ok g kQuad E C Ex Dl) as [vs [H [L V]]].
  unfold is_matrix, LinearFELaplaceEval. rewrite D, Dl, E. cbn [Nat.eqb andb lf_assert bind].
  change ([[0; 0]; [1; 0]; [1; 1]; [0; 1]]) with (ref_nodes kQuad).
  rewrite H. cbn [bind]. rewrite L. cbn [num_nodes Nat.eqb lf_assert bind].
  eexists. split; [reflexivity|]. split; [reflexivity|]. cbn [em_at]. intros i j Hi Hj.
  assert (Lc : forall m, (4 <= m)%nat -> col g m = vzero).
  { intros m Hm. unfold col. apply nth_overflow.
    rewrite (constructed_cols g C). destruct K as [-> | ->]; cbn; lia. }
  rewrite (laplace_points g _ i j).
  - rewrite gauss4_points in HV, HG. unfold quadrature. rewrite gauss4_points. unfold gauss4. cbv zeta. cbn [qr_weights map].
    unfold FeModel.dot. cbn [combine map fst snd]. unfold rsum. cbn [fold_right].
    rewrite !(point_value g vol G K D Ex) by (try assumption; first [apply HV|apply HG]; cbn [In]; tauto). ring.
  - intros m k. destruct (Nat.lt_ge_cases m 4) as [Hm|Hm]; [apply V; exact Hm|].
    rewrite (Lc m Hm), nth_overflow by (rewrite L; exact Hm). reflexivity.
Qed.
Lemma gauss4_exact : rule_for kQuad 3 gauss4.
Proof.
  constructor; [reflexivity| |reflexivity|].
  - intros p I. cbn in I. intuition (subst p; reflexivity).
  - apply exact_moments. intros e I. change (qr_el gauss4) with kQuad in *.
    pose proof (exponents_len kQuad 3 e I) as L. rewrite (integral_monomial kQuad e L).
    assert (S3 : / sqrt 3 * / sqrt 3 = / 3). { rewrite <- Rinv_mult, sqrt_sqrt by lra. reflexivity. }
    assert (S3' : / sqrt 3 * (/ sqrt 3 * / sqrt 3) = / sqrt 3 * / 3) by (rewrite S3; reflexivity).
    assert (In e [[0;0];[0;1];[0;2];[0;3];[1;0];[1;1];[1;2];[1;3];[2;0];[2;1];[2;2];[2;3];[3;0];[3;1];[3;2];[3;3]]%nat) as I' by exact I.
    clear I L. set (z := / sqrt 3) in *.
    cbn [In] in I'; repeat (destruct I' as [<-|I']); try destruct I';
    unfold quadrature, gauss4; cbv zeta; cbn [qr_points qr_weights map]; unfold FeModel.dot; cbn [combine map fst snd]; unfold rsum; cbn [fold_right];
    rewrite !mono2; cbn [moment]; cbn [pow INR]; unfold Rdiv; fold z;
    ring_simplify.
    all: try (field_simplify_eq; nra).
Qed.
Lemma bary_sum : forall v c gr, barycentric v c gr -> forall r, (r < 2)%nat -> gr 0%nat r + gr 1%nat r + gr 2%nat r = 0.
Proof.
  intros v c gr B r Hr. destruct (bary_inverse v c gr B) as [N H]. rewrite <- !H by lia.
  unfold inv3. set (D := det3 _) in *.
  assert (r = 0 \/ r = 1)%nat as [-> | ->] by lia; cbn [Nat.add Nat.modulo Nat.divmod fst snd Nat.sub]; field; exact N.
Qed.

(** *** Load vector *)
Lemma linear_load : forall g src area h w, kind_el (go_kind g) = kTria \/ kind_el (go_kind g) = kQuad -> go_dim g = 2%nat ->
  Volume g = Ok area -> (forall m, (m < num_nodes (kind_el (go_kind g)))%nat -> src (midpoint (kind_el (go_kind g)) m) = Ok (h m)) ->
  (kind_el (go_kind g) = kTria -> src [-1; -1] = Ok w) ->
  let n := num_nodes (kind_el (go_kind g)) in
  exists v, LinearFELoadEval g src = Ok v /\ length v = 4%nat /\
    (forall i, (i < n)%nat -> nth i v 0 = area / INR n * sum_to n (fun m => h m * hat (kind_el (go_kind g)) i (midpoint (kind_el (go_kind g)) m))) /\
    (forall i, (n <= i)%nat -> nth i v 0 = 0).
Proof.
  intros g src area h w K D HV HS HO n. unfold LinearFELoadEval. rewrite D, HV.
  assert (Dl : dim_local (go_kind g) = 2%nat) by (unfold dim_local; destruct K as [-> | ->]; reflexivity). rewrite Dl.
  cbn [Nat.eqb andb lf_assert bind]. unfold n. clear n. destruct K as [K|K]; rewrite K in *; cbn [num_nodes] in *; cbn [bind].
  - assert (M0 : midpoint kTria 0 = [1 / 2; 0]) by (unfold midpoint, on_edge, between, ref_node; cbn; f_equal; [lra|f_equal; lra]).
    assert (M1 : midpoint kTria 1 = [1 / 2; 1 / 2]) by (unfold midpoint, on_edge, between, ref_node; cbn; f_equal; [lra|f_equal; lra]).
    assert (M2 : midpoint kTria 2 = [0; 1 / 2]) by (unfold midpoint, on_edge, between, ref_node; cbn; f_equal; [lra|f_equal; lra]).
    pose proof (HS 0%nat ltac:(lia)) as S0. pose proof (HS 1%nat ltac:(lia)) as S1. pose proof (HS 2%nat ltac:(lia)) as S2.
    rewrite M0 in S0. rewrite M1 in S1. rewrite M2 in S2. cbn [traverse]. rewrite S0, S1, S2, (HO eq_refl). cbn [bind].
    eexists. split; [reflexivity|]. split; [reflexivity|]. split.
    + intros i Hi. unfold sum_to. cbn [seq map fold_right]. rewrite M0, M1, M2.
      assert (i = 0 \/ i = 1 \/ i = 2)%nat as [-> | [-> | ->]] by lia; cbn [seq fold_left repeat upd nth map Nat.add Nat.modulo Nat.divmod fst snd Nat.sub hat];
        field; cbn [INR]; lra.
    + intros i Hi. destruct i as [|[|[|[|i]]]]; try lia; cbn [seq fold_left repeat upd nth map Nat.add Nat.modulo Nat.divmod fst snd Nat.sub].
      * ring.
      * destruct i; reflexivity.
  - assert (M0 : midpoint kQuad 0 = [1 / 2; 0]) by (unfold midpoint, on_edge, between, ref_node; cbn; f_equal; [lra|f_equal; lra]).
    assert (M1 : midpoint kQuad 1 = [1; 1 / 2]) by (unfold midpoint, on_edge, between, ref_node; cbn; f_equal; [lra|f_equal; lra]).
    assert (M2 : midpoint kQuad 2 = [1 / 2; 1]) by (unfold midpoint, on_edge, between, ref_node; cbn; f_equal; [lra|f_equal; lra]).
    assert (M3 : midpoint kQuad 3 = [0; 1 / 2]) by (unfold midpoint, on_edge, between, ref_node; cbn; f_equal; [lra|f_equal; lra]).
    pose proof (HS 0%nat ltac:(lia)) as S0. pose proof (HS 1%nat ltac:(lia)) as S1. pose proof (HS 2%nat ltac:(lia)) as S2. pose proof (HS 3%nat ltac:(lia)) as S3.
    rewrite M0 in S0. rewrite M1 in S1. rewrite M2 in S2. rewrite M3 in S3. cbn [traverse]. rewrite S0, S1, S2, S3. cbn [bind].
    eexists. split; [reflexivity|]. split; [reflexivity|]. split.
    + intros i Hi. unfold sum_to. cbn [seq map fold_right]. rewrite M0, M1, M2, M3.
      assert (i = 0 \/ i = 1 \/ i = 2 \/ i = 3)%nat as [-> | [-> | [-> | ->]]] by lia; cbn [seq fold_left repeat upd nth map Nat.add Nat.modulo Nat.divmod fst snd Nat.sub hat];
        field; cbn [INR]; lra.
    + intros i Hi. destruct i as [|[|[|[|i]]]]; try lia. cbn [seq fold_left repeat upd nth map Nat.add Nat.modulo Nat.divmod fst snd Nat.sub].
      destruct i; reflexivity.
Qed.
