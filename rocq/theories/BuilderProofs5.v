(** The torus mesh. *)
From Coq Require Import Reals Lra List Arith Lia Bool.
Import ListNotations.
From Verif Require Import Base MeshModel MeshSpec MeshView MeshProofs5 MeshViewProofs RefineSpec GeoModel BuilderModel BuilderSpec
  BuilderProofs BuilderProofs2 BuilderProofs3 BuilderProofs4.

Definition sm (n i : nat) : nat := (i + 1) mod n.
Lemma sm_spec : forall n i, i < n -> (i + 1 = n /\ sm n i = 0) \/ (i + 1 < n /\ sm n i = i + 1).
Proof.
  intros n i H. unfold sm. destruct (Nat.eq_dec (i + 1) n) as [->|N].
  - left. split; auto. apply Nat.mod_same. lia.
  - right. split; [lia|]. apply Nat.mod_small. lia.
Qed.

(** ** The constructor of QuadO1 for a trapezoid across a cone *)
Local Open Scope R_scope.
Lemma check_quad_two : forall c, check_quad 3 c = Ok tt \/ check_quad 3 c = Throw.
Proof.
  intros c. unfold check_quad. cbv zeta.
  repeat match goal with |- (do _ <- verify ?b; _) = _ \/ _ => destruct (verify_two b) as [-> | ->]; cbn [bind]; auto end.
  apply verify_two.
Qed.
Lemma quad3_ok : forall c, let e i j := sqnorm 3 (vsub (c i) (c j)) in
  let s := tol * (e 1%nat 0%nat + e 2%nat 1%nat + e 3%nat 2%nat + e 0%nat 3%nat) in
  s < e 1%nat 0%nat -> s < e 2%nat 1%nat -> s < e 3%nat 2%nat -> s < e 0%nat 3%nat ->
  s < sqrt (sqnorm 3 (cross (vsub (c 1%nat) (c 0%nat)) (vsub (c 2%nat) (c 0%nat)))) +
      sqrt (sqnorm 3 (cross (vsub (c 3%nat) (c 0%nat)) (vsub (c 2%nat) (c 0%nat)))) ->
  check_quad 3 c = Ok tt.
Proof.
  intros c e s A B C D E. unfold check_quad. cbv zeta.
  fold (e 1%nat 0%nat) (e 2%nat 1%nat) (e 3%nat 2%nat) (e 0%nat 3%nat). fold s.
  apply gtb_spec in A, B, C, D, E. rewrite A, B, C, D. cbn [verify bind]. rewrite E. reflexivity.
Qed.
Lemma quad3_inv : forall c, check_quad 3 c = Ok tt -> let e i j := sqnorm 3 (vsub (c i) (c j)) in
  let s := tol * (e 1%nat 0%nat + e 2%nat 1%nat + e 3%nat 2%nat + e 0%nat 3%nat) in
  s < e 1%nat 0%nat /\ s < e 2%nat 1%nat /\
  s < sqrt (sqnorm 3 (cross (vsub (c 1%nat) (c 0%nat)) (vsub (c 2%nat) (c 0%nat)))) +
      sqrt (sqnorm 3 (cross (vsub (c 3%nat) (c 0%nat)) (vsub (c 2%nat) (c 0%nat)))).
Proof.
  intros c K e s. unfold check_quad in K. cbv zeta in K.
  fold (e 1%nat 0%nat) (e 2%nat 1%nat) (e 3%nat 2%nat) (e 0%nat 3%nat) in K. fold s in K.
  rewrite <- !gtb_spec.
  destruct (gtb (e 1%nat 0%nat) s); [|discriminate K].
  destruct (gtb (e 2%nat 1%nat) s); [|discriminate K].
  destruct (gtb (e 3%nat 2%nat) s); [|discriminate K].
  destruct (gtb (e 0%nat 3%nat) s); [|discriminate K]. cbn [verify bind] in K.
  match goal with |- context [gtb ?u s] => destruct (gtb u s) end; [auto|discriminate K].
Qed.
(** Corners of the trapezoid: radius and height at the sides, direction at the ends. *)
Section Trapezoid.
Variables rho rho' ze ze' x y x' y' : R.
Hypothesis U : x * x + y * y = 1.
Hypothesis U' : x' * x' + y' * y' = 1.
Definition trapezoid : list coords :=
  [[rho * x; rho * y; ze]; [rho' * x; rho' * y; ze']; [rho' * x'; rho' * y'; ze']; [rho * x'; rho * y'; ze]].
Let Q := 2 - 2 * (x * x' + y * y').
Let A4 := (rho' - rho) ^ 2 + (ze' - ze) ^ 2.
Let W := (ze' - ze) ^ 2 * Q + (rho' - rho) ^ 2 * (Q - Q ^ 2 / 4).
Let c := fun i k : nat => nth k (nth i trapezoid []) 0.
Ltac coord := unfold c, sqnorm, dot, cross, vsub, trapezoid; cbn [seq map fold_right nth].
Lemma trapezoid_sides : sqnorm 3 (vsub (c 1%nat) (c 0%nat)) = A4 /\ sqnorm 3 (vsub (c 2%nat) (c 1%nat)) = rho' ^ 2 * Q /\
  sqnorm 3 (vsub (c 3%nat) (c 2%nat)) = A4 /\ sqnorm 3 (vsub (c 0%nat) (c 3%nat)) = rho ^ 2 * Q.
Proof.
  coord. unfold A4, Q. split; [|split; [|split]].
  - transitivity ((rho' - rho) ^ 2 * (x * x + y * y) + (ze' - ze) ^ 2); [ring|]. rewrite U. ring.
  - transitivity (rho' ^ 2 * ((x * x + y * y) + (x' * x' + y' * y') - 2 * (x * x' + y * y'))); [ring|].
    rewrite U, U'. ring.
  - transitivity ((rho' - rho) ^ 2 * (x' * x' + y' * y') + (ze' - ze) ^ 2); [ring|]. rewrite U'. ring.
  - transitivity (rho ^ 2 * ((x * x + y * y) + (x' * x' + y' * y') - 2 * (x * x' + y * y'))); [ring|].
    rewrite U, U'. ring.
Qed.
Lemma trapezoid_cross :
  sqnorm 3 (cross (vsub (c 1%nat) (c 0%nat)) (vsub (c 2%nat) (c 0%nat))) = rho' ^ 2 * W /\
  sqnorm 3 (cross (vsub (c 3%nat) (c 0%nat)) (vsub (c 2%nat) (c 0%nat))) = rho ^ 2 * W.
Proof.
  assert (K : (x * y' - y * x') ^ 2 = Q - Q ^ 2 / 4).
  { unfold Q. transitivity ((x * x + y * y) * (x' * x' + y' * y') - (x * x' + y * y') ^ 2); [ring|].
    rewrite U, U'. field. }
  assert (K' : (x' - x) ^ 2 + (y' - y) ^ 2 = Q).
  { unfold Q. transitivity ((x * x + y * y) + (x' * x' + y' * y') - 2 * (x * x' + y * y')); [ring|]. rewrite U, U'. ring. }
  unfold W. rewrite <- K, <- K'. coord. split; ring.
Qed.
Lemma Q_pos : 0 <= Q.
Proof.
  replace Q with ((x' - x) ^ 2 + (y' - y) ^ 2).
  - pose proof (pow2_ge_0 (x' - x)). pose proof (pow2_ge_0 (y' - y)). lra.
  - unfold Q. transitivity ((x * x + y * y) + (x' * x' + y' * y') - 2 * (x * x' + y * y')); [ring|]. rewrite U, U'. ring.
Qed.
Variables lo hi : R.
Hypothesis L : lo <= rho ^ 2 * Q.
Hypothesis L' : lo <= rho' ^ 2 * Q.
Hypothesis H : rho ^ 2 * Q <= hi.
Hypothesis H' : rho' ^ 2 * Q <= hi.
Hypothesis C1 : 2 * (A4 + hi) < 10 ^ 8 * A4.
Hypothesis C2 : 2 * (A4 + hi) < 10 ^ 8 * lo.
Hypothesis Ar : lo * A4 / 4 <= rho ^ 2 * W.
Hypothesis Ar' : lo * A4 / 4 <= rho' ^ 2 * W.
Lemma trapezoid_ok : cell_geometry kQuad trapezoid = Ok tt.
Proof.
  change (cell_geometry kQuad trapezoid) with (check_quad 3 c). destruct trapezoid_sides as (E0 & E1 & E2 & E3).
  destruct trapezoid_cross as (X1 & X2).
  assert (T : tol * (A4 + rho' ^ 2 * Q + A4 + rho ^ 2 * Q) <= tol * (2 * (A4 + hi))).
  { apply Rmult_le_compat_l; [unfold tol; lra|lra]. }
  assert (T1 : tol * (2 * (A4 + hi)) < A4) by (unfold tol; lra).
  assert (T2 : tol * (2 * (A4 + hi)) < lo) by (unfold tol; lra).
  assert (Hp : 0 <= hi) by (eapply Rle_trans; [|exact H]; apply Rmult_le_pos; [apply pow2_ge_0|apply Q_pos]).
  assert (A1 : 0 <= A4) by (unfold A4; pose proof (pow2_ge_0 (rho' - rho)); pose proof (pow2_ge_0 (ze' - ze)); lra).
  assert (P0 : 0 <= tol * (2 * (A4 + hi))) by (unfold tol; lra).
  apply quad3_ok; rewrite ?E0, ?E1, ?E2, ?E3, ?X1, ?X2; eapply Rle_lt_trans; try exact T; try lra.
  assert (G : tol * (2 * (A4 + hi)) / 2 < sqrt (lo * A4 / 4)).
  { rewrite <- (sqrt_pow2 (tol * (2 * (A4 + hi)) / 2)) by lra. apply sqrt_lt_1_alt.
    set (t := tol * (2 * (A4 + hi))) in *. split; [nra|]. assert (t * t < A4 * lo) by (apply Rmult_le_0_lt_compat; lra).
    nra. }
  pose proof (sqrt_le_1_alt _ _ Ar). pose proof (sqrt_le_1_alt _ _ Ar'). lra.
Qed.
End Trapezoid.
Lemma trapezoid_two : forall rho rho' ze ze' x y x' y', cell_geometry kQuad (trapezoid rho rho' ze ze' x y x' y') = Ok tt \/
  cell_geometry kQuad (trapezoid rho rho' ze ze' x y x' y') = Throw.
Proof. intros. apply geometry_two. auto. Qed.
Lemma trapezoid_bad : forall rho rho' ze ze' x y x' y', x * x + y * y = 1 -> x' * x' + y' * y' = 1 ->
  let Q := 2 - 2 * (x * x' + y * y') in
  (rho' - rho) ^ 2 + (ze' - ze) ^ 2 = 0 \/ rho' ^ 2 * Q = 0 \/
  (ze' - ze) ^ 2 * Q + (rho' - rho) ^ 2 * (Q - Q ^ 2 / 4) = 0 ->
  cell_geometry kQuad (trapezoid rho rho' ze ze' x y x' y') = Throw.
Proof.
  intros rho rho' ze ze' x y x' y' U U' Q B.
  destruct (trapezoid_two rho rho' ze ze' x y x' y') as [E|E]; auto. exfalso.
  apply quad3_inv in E. cbv zeta in E.
  destruct (trapezoid_sides rho rho' ze ze' x y x' y' U U') as (E0 & E1 & E2 & E3).
  destruct (trapezoid_cross rho rho' ze ze' x y x' y' U U') as (X1 & X2).
  rewrite E0, E1, E2, E3, X1, X2 in E. pose proof (Q_pos x y x' y' U U') as QP. fold Q in E, QP.
  pose proof (pow2_ge_0 (rho' - rho)). pose proof (pow2_ge_0 (ze' - ze)).
  assert (0 <= rho ^ 2 * Q) by (apply Rmult_le_pos; [apply pow2_ge_0|auto]).
  assert (0 <= rho' ^ 2 * Q) by (apply Rmult_le_pos; [apply pow2_ge_0|auto]).
  set (A4 := (rho' - rho) ^ 2 + (ze' - ze) ^ 2) in *.
  assert (0 <= tol * (A4 + rho' ^ 2 * Q + A4 + rho ^ 2 * Q)).
  { apply Rmult_le_pos; [unfold tol; lra|unfold A4; lra]. }
  destruct E as (F1 & F2 & F3). destruct B as [B|[B|B]].
  - lra.
  - lra.
  - rewrite B, !Rmult_0_r, sqrt_0 in F3. lra.
Qed.
Local Open Scope nat_scope.

Section Torus.
Variable p : params.
Hypothesis P : proper p.
Let nx := p_nx p.
Let ny := p_ny p.
Let v := torus_index p.
Let nv := ny * nx.

Definition torus_points : list coords := grid (fun j i => [torus_loc p i j]) ny nx.
Lemma torus_points_length : length torus_points = nv.
Proof. unfold torus_points. rewrite (grid_length _ _ 1) by auto. unfold nv. lia. Qed.
Lemma tv_lt : forall i j, i < nx -> j < ny -> v i j < nv.
Proof. intros. unfold v, torus_index, nv. fold nx. nia. Qed.
Lemma tv_inj : forall i j i' j', i < nx -> i' < nx -> v i j = v i' j' -> i = i' /\ j = j'.
Proof. intros i j i' j' Hi Hi' E. unfold v, torus_index in E. fold nx in E. assert (j = j') by nia. subst. lia. Qed.
Lemma tv_onto : forall k, k < nv -> exists i j, i < nx /\ j < ny /\ k = v i j.
Proof.
  intros k Hk. exists (k mod nx), (k / nx). unfold v, torus_index. fold nx. unfold nv in Hk.
  assert (nx <> 0) by nia.
  pose proof (Nat.mod_upper_bound k nx). pose proof (Nat.div_mod k nx).
  assert (k / nx < ny) by (apply Nat.div_lt_upper_bound; [lia|lia]). lia.
Qed.
Lemma sm_lt : forall n i, i < n -> sm n i < n.
Proof. intros. apply Nat.mod_upper_bound. lia. Qed.

Definition wrapped (i j : nat) : list nat := [v i j; v (sm nx i) j; v (sm nx i) (sm ny j); v i (sm ny j)].
Definition tcells : list (list nat) := grid (fun i j => [wrapped i j]) nx ny.
Definition tgeo : list (list coords) := grid (fun i j =>
  [[torus_loc p i j; torus_loc p (i + 1) j; torus_loc p (i + 1) (j + 1); torus_loc p i (j + 1)]]) nx ny.
Definition tsites : sites := mkSites torus_points [] tgeo.

Lemma tshape : forall c, In c tcells -> length c = 3 \/ length c = 4.
Proof. intros c H. apply in_grid in H as (i & j & Hi & Hj & [<-|[]]); auto. Qed.
Lemma tnodes : forall c k, In c tcells -> In k c -> k < nv.
Proof.
  intros c k H Hk. apply in_grid in H as (i & j & Hi & Hj & [<-|[]]);
  destruct Hk as [<-|[<-|[<-|[<-|[]]]]]; apply tv_lt; auto using sm_lt.
Qed.
Lemma ttouch : forall k, k < nv -> exists c, In c tcells /\ In k c.
Proof.
  intros k Hk. destruct (tv_onto k Hk) as (i & j & Hi & Hj & ->).
  exists (wrapped i j). split; [apply in_grid; exists i, j; simpl; auto|left; auto].
Qed.

Definition tcorners (i j : nat) : list coords :=
  [torus_loc p i j; torus_loc p (i + 1) j; torus_loc p (i + 1) (j + 1); torus_loc p i (j + 1)].
Definition accepted : Prop := forall i j, i < nx -> j < ny -> cell_geometry kQuad (tcorners i j) = Ok tt.
Lemma torus_cell_in : forall i j k, i < nx -> j < ny -> In k (wrapped i j) -> k < length torus_points.
Proof.
  intros i j k Hi Hj H. rewrite torus_points_length.
  destruct H as [<-|[<-|[<-|[<-|[]]]]]; apply tv_lt; auto; apply sm_lt; auto.
Qed.

Theorem torus_loops : accepted -> forall check, torus_build p check =
  (do M <- mesh_ctor check nv [] (map (fun c => (c, true)) tcells); Ok (Some (M, tsites))).
Proof.
  intros Acc check. unfold torus_build. fold nx ny. pose proof (P' p P) as [A B]. fold nx in A. fold ny in B.
  pose proof (sizes_pos p P) as [X Y].
  destruct (Nat.eqb_spec (nx * ny) 0) as [ZZ|_]; [nia|].
  destruct (Rle_lt_dec (x_size p) 0) as [ZZ|_]; [exfalso; lra|].
  destruct (Rle_lt_dec (y_size p) 0) as [ZZ|_]; [exfalso; lra|].
  replace (nx * ny) with (ny * nx) by lia. rewrite start_st.
  unfold torus_vertices. fold nx ny. rewrite points_loop. cbn [bind].
  change (grid (fun j i => [torus_loc p i j]) ny nx) with torus_points.
  change (ny * nx) with nv. rewrite <- torus_points_length.
  unfold torus_cells. fold nx ny v.
  rewrite (for_grid_simple _ _ (fun l => st check (length torus_points) torus_points [] l)
    (fun i j => [(wrapped i j, [torus_loc p i j; torus_loc p (i + 1) j; torus_loc p (i + 1) (j + 1); torus_loc p i (j + 1)])])).
  2:{ intros i j l Hi Hj. apply put_cell_ok; auto.
      - intros k Hk. apply (torus_cell_in i j); auto.
      - apply Acc; auto. }
  cbn [bind app]. unfold finish, st, build. cbn [b_fac b_geo fst f_check f_nodes f_edges f_cells].
  rewrite torus_points_length. unfold tsites, tgeo, tcells. cbn [map].
  rewrite !grid_map. cbn [map fst snd]. reflexivity.
Qed.

(** One refused cell is enough. *)
Theorem torus_bad : forall k l, k < nx -> l < ny -> cell_geometry kQuad (tcorners k l) = Throw ->
  forall check, torus_build p check = Throw.
Proof.
  intros k l Hk Hl Bad check. unfold torus_build. fold nx ny. pose proof (P' p P) as [A B]. fold nx in A. fold ny in B.
  pose proof (sizes_pos p P) as [X Y].
  destruct (Nat.eqb_spec (nx * ny) 0) as [ZZ|_]; [nia|].
  destruct (Rle_lt_dec (x_size p) 0) as [ZZ|_]; [exfalso; lra|].
  destruct (Rle_lt_dec (y_size p) 0) as [ZZ|_]; [exfalso; lra|].
  replace (nx * ny) with (ny * nx) by lia. rewrite start_st.
  unfold torus_vertices. fold nx ny. rewrite points_loop. cbn [bind].
  change (grid (fun j i => [torus_loc p i j]) ny nx) with torus_points.
  change (ny * nx) with nv. rewrite <- torus_points_length.
  unfold torus_cells. fold nx ny v.
  rewrite (for_grid_throw _ (fun s => exists Cc, s = st check (length torus_points) torus_points [] Cc) _ nx ny _ k l);
    auto; [eauto| |].
  - intros i j s Hi Hj [Cc ->].
    assert (T : cell_geometry kQuad (tcorners i j) = Ok tt \/ cell_geometry kQuad (tcorners i j) = Throw)
      by (apply geometry_two; auto).
    destruct T as [T|T].
    + left. eexists. split; [apply put_cell_ok; auto|eauto].
      intros q Hq. apply (torus_cell_in i j); auto.
    + right. apply put_cell_throw; auto. intros q Hq. apply (torus_cell_in i j); auto.
  - intros s [Cc ->]. apply put_cell_throw; auto. intros q Hq. apply (torus_cell_in k l); auto.
Qed.

(** The cells are trapezoids. *)
Lemma theta_eq : forall i, theta p i = (2 * PI * INR i / INR nx)%R.
Proof.
  intros i. unfold theta, hx, rad_r. assert (X := PI_RGT_0). destruct (sizes_pos p P) as [S1 S2].
  destruct (nx_pos p P) as [N1 N2]. fold nx in N1 |- *. field. lra.
Qed.
Lemma phi_eq : forall j, phi p j = (2 * PI * INR j / INR ny)%R.
Proof.
  intros i. unfold phi, hy, rad_R. assert (X := PI_RGT_0). destruct (sizes_pos p P) as [S1 S2].
  destruct (nx_pos p P) as [N1 N2]. fold ny in N2 |- *. field. lra.
Qed.
Definition ring_rad (i : nat) : R := (rad_R p + rad_r p * cos (theta p i))%R.
Definition ring_z (i : nat) : R := (rad_r p * sin (theta p i))%R.
Lemma tcorners_trapezoid : forall i j, tcorners i j =
  trapezoid (ring_rad i) (ring_rad (i + 1)) (ring_z i) (ring_z (i + 1))
    (cos (phi p j)) (sin (phi p j)) (cos (phi p (j + 1))) (sin (phi p (j + 1))).
Proof. reflexivity. Qed.
Lemma circle : forall t, (cos t * cos t + sin t * sin t = 1)%R.
Proof. intros. pose proof (sin2_cos2 t). unfold Rsqr in *. lra. Qed.

(** A degenerate side. *)
Theorem torus_thin : forall check, nx = 1 \/ ny = 1 -> torus_build p check = Throw.
Proof.
  intros check D. pose proof (P' p P) as [A B]. fold nx in A. fold ny in B.
  apply (torus_bad 0 0); auto; [lia..|]. rewrite tcorners_trapezoid.
  apply trapezoid_bad; try apply circle. destruct D as [D|D].
  - left. unfold ring_rad, ring_z. rewrite !theta_eq, D. cbn [INR plus].
    replace (2 * PI * 1 / 1)%R with (2 * PI)%R by field. replace (2 * PI * 0 / 1)%R with 0%R by field.
    rewrite cos_2PI, sin_2PI, cos_0, sin_0. ring.
  - right. left. rewrite !phi_eq, D. cbn [INR plus].
    replace (2 * PI * 1 / 1)%R with (2 * PI)%R by field. replace (2 * PI * 0 / 1)%R with 0%R by field.
    rewrite cos_2PI, sin_2PI, cos_0, sin_0. ring.
Qed.
Theorem torus_two_two : forall check, nx = 2 -> ny = 2 -> torus_build p check = Throw.
Proof.
  intros check D D'. apply (torus_bad 0 0); auto; [lia..|]. rewrite tcorners_trapezoid.
  apply trapezoid_bad; try apply circle. right. right.
  unfold ring_rad, ring_z. rewrite !theta_eq, !phi_eq, D, D'. cbn [INR plus].
  replace (2 * PI * 1 / (1 + 1))%R with PI by field. replace (2 * PI * 0 / (1 + 1))%R with 0%R by field.
  rewrite cos_PI, sin_PI, cos_0, sin_0. field.
Qed.
(** A torus without a hole. *)
Theorem torus_horn : forall check k, nx = 2 * k -> x_size p = y_size p -> torus_build p check = Throw.
Proof.
  intros check k D E. pose proof (P' p P) as [A B]. fold nx in A. fold ny in B.
  apply (torus_bad (k - 1) 0); auto; [lia..|]. rewrite tcorners_trapezoid.
  apply trapezoid_bad; try apply circle. right. left.
  assert (Z0 : ring_rad (k - 1 + 1) = 0%R).
  { unfold ring_rad. rewrite theta_eq. replace (k - 1 + 1) with k by lia. rewrite D, mult_INR.
    assert (0 < INR k)%R by (apply lt_0_INR; lia).
    replace (2 * PI * INR k / (INR 2 * INR k))%R with PI by (simpl (INR 2); field; lra).
    rewrite cos_PI. unfold rad_R, rad_r. rewrite E. ring. }
  rewrite Z0. ring.
Qed.

(** Cells that are not too thin. *)
Local Open Scope R_scope.
Lemma turn : forall (n i : nat), (1 <= n)%nat ->
  2 - 2 * (cos (2 * PI * INR i / INR n) * cos (2 * PI * INR (i + 1) / INR n) +
           sin (2 * PI * INR i / INR n) * sin (2 * PI * INR (i + 1) / INR n)) = 4 * sin (PI / INR n) ^ 2.
Proof.
  intros n i Hn. assert (0 < INR n) by (apply lt_0_INR; lia).
  rewrite <- cos_minus. rewrite step.
  replace (2 * PI * INR i / INR n - 2 * PI * (INR i + 1) / INR n) with (- (2 * (PI / INR n))) by (field; lra).
  rewrite cos_neg, cos_2a. pose proof (circle (PI / INR n)). nra.
Qed.
Lemma sin_small : forall n, (3 <= n)%nat -> 0 < sin (PI / INR n) /\ sin (PI / INR n) ^ 2 <= 3 / 4.
Proof.
  intros n Hn. pose proof PI_RGT_0. assert (I3 : 3 <= INR n) by (apply (le_INR 3) in Hn; simpl in Hn; lra).
  assert (L : PI / INR n <= PI / 3) by (apply Rmult_le_compat_l; [lra|apply Rinv_le_contravar; lra]).
  assert (0 < PI / INR n) by (apply Rdiv_lt_0_compat; lra).
  assert (S0 : 0 < sin (PI / INR n)) by (apply sin_gt_0; lra). split; auto.
  assert (S1 : sin (PI / INR n) <= sin (PI / 3)) by (apply sin_incr_1; lra).
  rewrite sin_PI3 in S1. assert (S3 : sqrt 3 * sqrt 3 = 3) by (apply sqrt_sqrt; lra).
  assert (0 <= sqrt 3) by apply sqrt_pos.
  assert (sin (PI / INR n) * sin (PI / INR n) <= (sqrt 3 / 2) * (sqrt 3 / 2)) by (apply Rmult_le_compat; lra). nra.
Qed.
Lemma shaped_accepted : torus_shaped p -> (3 <= ny)%nat -> accepted.
Proof.
  intros (RR & C1 & C2) Hy i j Hi Hj. cbv zeta in RR, C1, C2.
  change ((p_x1 p - p_x0 p) / (2 * PI)) with (rad_r p) in *. change ((p_y1 p - p_y0 p) / (2 * PI)) with (rad_R p) in *.
  fold nx ny in C1, C2. destruct (sin_small ny Hy) as [S0 S1].
  pose proof (P' p P) as [A B]. fold nx in A. fold ny in B.
  assert (r0 : 0 < rad_r p). { destruct (sizes_pos p P). unfold rad_r. pose proof PI_RGT_0. apply Rdiv_lt_0_compat; lra. }
  set (r := rad_r p) in *. set (RB := rad_R p) in *.
  set (s := sin (PI / INR ny)) in *.
  assert (Rg : forall i, RB - r <= ring_rad i <= RB + r).
  { intros k. unfold ring_rad. fold r RB. pose proof (COS_bound (theta p k)). nra. }
  assert (Sq : forall i, (RB - r) ^ 2 <= ring_rad i ^ 2 <= (RB + r) ^ 2).
  { intros k. destruct (Rg k) as [G1 G2]. split; apply pow_incr; lra. }
  assert (s2 : 0 <= s ^ 2) by apply pow2_ge_0.
  assert (A4 : (ring_rad (i + 1) - ring_rad i) ^ 2 + (ring_z (i + 1) - ring_z i) ^ 2 = 4 * (r * sin (PI / INR nx)) ^ 2).
  { unfold ring_rad, ring_z. fold r RB. rewrite !theta_eq.
    set (t := 2 * PI * INR i / INR nx). set (t' := 2 * PI * INR (i + 1) / INR nx).
    transitivity (r ^ 2 * ((cos t * cos t + sin t * sin t) + (cos t' * cos t' + sin t' * sin t') -
      2 * (cos t * cos t' + sin t * sin t'))); [ring|].
    rewrite !circle. transitivity (r ^ 2 * (2 - 2 * (cos t * cos t' + sin t * sin t'))); [ring|].
    unfold t, t'. rewrite turn by auto. ring. }
  rewrite tcorners_trapezoid.
  assert (Qe : 2 - 2 * (cos (phi p j) * cos (phi p (j + 1)) + sin (phi p j) * sin (phi p (j + 1))) = 4 * s ^ 2).
  { rewrite !phi_eq. apply turn; auto. }
  set (a := (r * sin (PI / INR nx)) ^ 2) in *.
  assert (W : s ^ 2 * (4 * a) <= (ring_z (i + 1) - ring_z i) ^ 2 * (4 * s ^ 2) +
                (ring_rad (i + 1) - ring_rad i) ^ 2 * (4 * s ^ 2 - (4 * s ^ 2) ^ 2 / 4)).
  { rewrite <- A4. pose proof (pow2_ge_0 (ring_rad (i + 1) - ring_rad i)) as D0.
    pose proof (pow2_ge_0 (ring_z (i + 1) - ring_z i)) as Z0.
    set (D2 := (ring_rad (i + 1) - ring_rad i) ^ 2) in *. set (Z2 := (ring_z (i + 1) - ring_z i) ^ 2) in *.
    set (q := s ^ 2) in *.
    replace (Z2 * (4 * q) + D2 * (4 * q - (4 * q) ^ 2 / 4)) with (4 * (q * Z2) + 4 * (q * D2) * (1 - q)) by field.
    assert (0 <= q * Z2) by (apply Rmult_le_pos; auto). assert (0 <= q * D2) by (apply Rmult_le_pos; auto).
    nra. }
  assert (a0 : 0 <= a) by apply pow2_ge_0.
  assert (Ar : forall k, 4 * ((RB - r) * s) ^ 2 * (4 * a) / 4 <= ring_rad k ^ 2 * (s ^ 2 * (4 * a))).
  { intros k. replace (4 * ((RB - r) * s) ^ 2 * (4 * a) / 4) with ((RB - r) ^ 2 * (s ^ 2 * (4 * a))) by field.
    apply Rmult_le_compat_r; [|apply Sq]. apply Rmult_le_pos; lra. }
  apply (trapezoid_ok _ _ _ _ _ _ _ _ (circle _) (circle _) (4 * ((RB - r) * s) ^ 2) (4 * ((RB + r) * s) ^ 2));
    rewrite ?Qe, ?A4.
  - destruct (Sq i). nra.
  - destruct (Sq (i + 1)%nat). nra.
  - destruct (Sq i). nra.
  - destruct (Sq (i + 1)%nat). nra.
  - lra.
  - lra.
  - eapply Rle_trans; [apply (Ar i)|]. apply Rmult_le_compat_l; [apply pow2_ge_0|exact W].
  - eapply Rle_trans; [apply (Ar (i + 1)%nat)|]. apply Rmult_le_compat_l; [apply pow2_ge_0|exact W].
Qed.
Local Open Scope nat_scope.

Section Wide.
Hypothesis Hx : 2 <= nx.
Hypothesis Hy : 2 <= ny.
Definition fold2 (n i : nat) : nat := if n =? 2 then 0 else i.
Definition num2 (n : nat) : nat := if n =? 2 then 1 else n.

Definition tpr (t : tag) : nat * nat :=
  match t with
  | TH i j => (v i j, v (sm nx i) j)
  | TV i j => (v i j, v i (sm ny j))
  | TD i j => (0, 0)
  end.
Definition tU : list tag := grid (fun i j => [TH i j]) (num2 nx) ny ++ grid (fun i j => [TV i j]) nx (num2 ny).
Definition t_ok (t : tag) : Prop :=
  match t with
  | TH i j => i < num2 nx /\ j < ny
  | TV i j => i < nx /\ j < num2 ny
  | TD _ _ => False
  end.
Lemma in_tU : forall t, In t tU <-> t_ok t.
Proof.
  intros t. unfold tU. rewrite in_app_iff, !in_grid. split.
  - intros [(i & j & ? & ? & [<-|[]])|(i & j & ? & ? & [<-|[]])]; simpl; auto.
  - destruct t as [i j|i j|i j]; simpl; intros H; [left|right|destruct H]; exists i, j; tauto.
Qed.
Lemma tU_length : length tU = num2 nx * ny + nx * num2 ny.
Proof. unfold tU. rewrite app_length, !(grid_length _ _ 1) by auto. lia. Qed.
Lemma tU_nodup : NoDup tU.
Proof.
  apply NoDup_app; try (apply (grid_nodup tag_dec); intros; injection H3; auto).
  intros t H H'. apply in_grid in H as (? & ? & _ & _ & [<-|[]]).
  apply in_grid in H' as (? & ? & _ & _ & [E|[]]). discriminate.
Qed.
Lemma num2_le : forall n, 2 <= n -> num2 n <= n.
Proof. intros n H. unfold num2. destruct (n =? 2); lia. Qed.
Lemma num2_cases : forall n, (n = 2 /\ num2 n = 1) \/ (n <> 2 /\ num2 n = n).
Proof. intros n. unfold num2. destruct (Nat.eqb_spec n 2); auto. Qed.
Lemma fold2_cases : forall n i, (n = 2 /\ fold2 n i = 0) \/ (n <> 2 /\ fold2 n i = i).
Proof. intros n i. unfold fold2. destruct (Nat.eqb_spec n 2); auto. Qed.
Lemma fold2_lt : forall n i, i < n -> fold2 n i < num2 n.
Proof. intros n i H. destruct (fold2_cases n i) as [[? ->]|[? ->]], (num2_cases n) as [[? ->]|[? ->]]; lia. Qed.

Lemma tpr_proper : forall t, In t tU -> fst (tpr t) <> snd (tpr t).
Proof.
  intros t H E. apply in_tU in H. pose proof (num2_le nx Hx). pose proof (num2_le ny Hy).
  destruct t as [i j|i j|i j]; cbn [t_ok tpr fst snd] in H, E; [| |auto].
  - assert (Hi : i < nx) by lia. apply tv_inj in E as [E _]; auto using sm_lt.
    destruct (sm_spec nx i Hi); lia.
  - assert (Hj : j < ny) by lia. apply tv_inj in E as [_ E]; auto; try tauto.
    destruct (sm_spec ny j Hj); lia.
Qed.
Lemma tpr_inj : forall t t', In t tU -> In t' tU -> same_pair (tpr t) (tpr t') -> t = t'.
Proof.
  intros t t' H H' E. apply in_tU in H, H'.
  pose proof (num2_cases nx) as Nx. pose proof (num2_cases ny) as Ny.
  destruct t as [i j|i j|i j], t' as [i' j'|i' j'|i' j']; cbn [t_ok] in H, H'; try tauto.
  - assert (Hi : i < nx) by lia. assert (Hi' : i' < nx) by lia.
    destruct E as [[E1 E2]|[E1 E2]]; cbn [tpr fst snd] in E1, E2; apply tv_inj in E1, E2; auto using sm_lt;
    destruct (sm_spec nx i Hi), (sm_spec nx i' Hi'); f_equal; lia.
  - assert (Hi : i < nx) by lia. assert (Hj : j' < ny) by lia. destruct H' as [H' _].
    destruct E as [[E1 E2]|[E1 E2]]; cbn [tpr fst snd] in E1, E2; apply tv_inj in E1, E2; auto using sm_lt;
    destruct (sm_spec nx i Hi), (sm_spec ny j' Hj); lia.
  - assert (Hi : i' < nx) by lia. assert (Hj : j < ny) by lia. destruct H as [H _].
    destruct E as [[E1 E2]|[E1 E2]]; cbn [tpr fst snd] in E1, E2; apply tv_inj in E1, E2; auto using sm_lt;
    destruct (sm_spec nx i' Hi), (sm_spec ny j Hj); lia.
  - assert (Hj : j < ny) by lia. assert (Hj' : j' < ny) by lia. destruct H as [H ?], H' as [H' ?].
    destruct E as [[E1 E2]|[E1 E2]]; cbn [tpr fst snd] in E1, E2; apply tv_inj in E1, E2; auto;
    destruct (sm_spec ny j Hj), (sm_spec ny j' Hj'); f_equal; lia.
Qed.

Definition ttags : list (list tag) := grid (fun i j =>
  [[TH (fold2 nx i) j; TV (sm nx i) (fold2 ny j); TH (fold2 nx i) (sm ny j); TV i (fold2 ny j)]]) nx ny.
Lemma th_pair : forall i j, i < nx -> same_pair (tpr (TH (fold2 nx i) j)) (v i j, v (sm nx i) j).
Proof.
  intros i j Hi. destruct (fold2_cases nx i) as [[E ->]|[E ->]]; [|left; auto].
  cbn [tpr]. destruct i as [|[|i]]; [left; auto| |lia]. right. rewrite E. cbn [fst snd]. auto.
Qed.
Lemma tv_pair : forall i j, j < ny -> same_pair (tpr (TV i (fold2 ny j))) (v i j, v i (sm ny j)).
Proof.
  intros i j Hj. destruct (fold2_cases ny j) as [[E ->]|[E ->]]; [|left; auto].
  cbn [tpr]. destruct j as [|[|j]]; [left; auto| |lia]. right. rewrite E. cbn [fst snd]. auto.
Qed.
Lemma pair_swap : forall a x y, same_pair a (x, y) -> same_pair a (y, x).
Proof. unfold same_pair; simpl; tauto. Qed.

Lemma tsides : Forall2 (fun c ts => length ts = length c /\
  forall j, j < length c -> exists t, nth_error ts j = Some t /\ In t tU /\ same_pair (tpr t) (side c j)) tcells ttags.
Proof.
  unfold tcells, ttags. apply grid_forall2. intros i j Hi Hj.
  constructor; [|constructor]; (split; [reflexivity|]); intros k Hk; simpl in Hk.
  pose proof (sm_lt nx i Hi). pose proof (sm_lt ny j Hj).
  pose proof (fold2_lt nx i Hi). pose proof (fold2_lt ny j Hj).
  destruct k as [|[|[|[|k]]]]; [eexists; split; [reflexivity|]; split; [apply in_tU; cbn [t_ok]; auto|]..|lia].
  - apply th_pair; auto.
  - apply tv_pair; auto.
  - apply pair_swap. apply th_pair; auto.
  - apply pair_swap. apply tv_pair; auto.
Qed.
Lemma tused : forall t, In t tU -> In t (concat ttags).
Proof.
  intros t H. apply in_tU in H. unfold ttags. rewrite grid_concat. apply in_grid.
  pose proof (num2_le nx Hx). pose proof (num2_le ny Hy).
  destruct t as [i j|i j|i j]; cbn [t_ok] in H; [| |destruct H].
  - exists i, j. split; [lia|]. split; [lia|]. left. f_equal.
    destruct (fold2_cases nx i) as [[E ->]|[E ->]]; auto. destruct (num2_cases nx); lia.
  - exists i, j. split; [lia|]. split; [lia|]. right; right; right; left. f_equal.
    destruct (fold2_cases ny j) as [[E ->]|[E ->]]; auto. destruct (num2_cases ny); lia.
Qed.

Lemma ttags_count : nx <> 2 -> ny <> 2 -> forall t, In t tU -> count_occ tag_dec (concat ttags) t = 2.
Proof.
  intros Nx Ny t H. apply in_tU in H. unfold ttags. rewrite grid_concat.
  rewrite (grid_ext _ _ (fun i j => [TH i j] ++ [TV (sm nx i) j] ++ [TH i (sm ny j)] ++ [TV i j])).
  2:{ intros i j Hi Hj. destruct (fold2_cases nx i) as [[? ->]|[? ->]], (fold2_cases ny j) as [[? ->]|[? ->]]; auto; lia. }
  rewrite !count_grid_app.
  destruct (num2_cases nx) as [[? ?]|[_ Ex]]; [lia|]. destruct (num2_cases ny) as [[? ?]|[_ Ey]]; [lia|].
  destruct t as [a b|a b|a b]; cbn [t_ok] in H; rewrite ?Ex, ?Ey in H; [| |destruct H].
  - rewrite (count_grid_one tag_dec (fun i j => [TH i j]) nx ny (TH a b) a b).
    2:{ intros i j Hi Hj. rewrite (proj1 (tag_count_same _ _ _)). reflexivity. }
    rewrite (count_grid_one tag_dec (fun i j => [TH i (sm ny j)]) nx ny (TH a b) a (if b =? 0 then ny - 1 else b - 1)).
    2:{ intros i j Hi Hj. rewrite (proj1 (tag_count_same _ _ _)). f_equal. f_equal.
        destruct (sm_spec ny j Hj) as [[? ->]|[? ->]]; destruct (Nat.eqb_spec b 0);
        match goal with |- (?x =? ?y) = (?z =? ?w) => destruct (Nat.eqb_spec x y), (Nat.eqb_spec z w) end; auto; lia. }
    rewrite !(count_grid_zero tag_dec); [|intros i j Hi Hj [E|[]]; discriminate E..].
    destruct (Nat.eqb_spec b 0), (Nat.ltb_spec a nx), (Nat.ltb_spec b ny); cbn [andb b2n]; try lia;
    match goal with |- context [?x <? ?y] => destruct (Nat.ltb_spec x y) end; cbn [b2n]; lia.
  - rewrite (count_grid_one tag_dec (fun i j => [TV i j]) nx ny (TV a b) a b).
    2:{ intros i j Hi Hj. rewrite (proj1 (proj2 (tag_count_same _ _ _))). reflexivity. }
    rewrite (count_grid_one tag_dec (fun i j => [TV (sm nx i) j]) nx ny (TV a b) (if a =? 0 then nx - 1 else a - 1) b).
    2:{ intros i j Hi Hj. rewrite (proj1 (proj2 (tag_count_same _ _ _))). f_equal. f_equal.
        destruct (sm_spec nx i Hi) as [[? ->]|[? ->]]; destruct (Nat.eqb_spec a 0);
        match goal with |- (?x =? ?y) = (?z =? ?w) => destruct (Nat.eqb_spec x y), (Nat.eqb_spec z w) end; auto; lia. }
    rewrite !(count_grid_zero tag_dec); [|intros i j Hi Hj [E|[]]; discriminate E..].
    destruct (Nat.eqb_spec a 0), (Nat.ltb_spec a nx), (Nat.ltb_spec b ny); cbn [andb b2n]; try lia;
    match goal with |- context [?x <? ?y] => destruct (Nat.ltb_spec x y) end; cbn [andb b2n]; lia.
Qed.

(** Positions. *)
Lemma torus_loc_point : forall i j, torus_loc p i j = torus_point p i j.
Proof.
  intros i j. unfold torus_loc, torus_point, rad_R, rad_r. cbv zeta.
  assert (X := PI_RGT_0). destruct (sizes_pos p P) as [S1 S2]. destruct (nx_pos p P) as [N1 N2].
  assert (E1 : theta p i = (2 * PI * INR i / INR (p_nx p))%R).
  { unfold theta, hx, rad_r. field. lra. }
  assert (E2 : phi p j = (2 * PI * INR j / INR (p_ny p))%R).
  { unfold phi, hy, rad_R. field. lra. }
  rewrite E1, E2. reflexivity.
Qed.
Lemma wrap_x : forall i, i < nx -> cos (2 * PI * INR (i + 1) / INR nx) = cos (2 * PI * INR (sm nx i) / INR nx) /\
  sin (2 * PI * INR (i + 1) / INR nx) = sin (2 * PI * INR (sm nx i) / INR nx).
Proof.
  intros i Hi. destruct (sm_spec nx i Hi) as [[E ->]|[E ->]]; auto.
  rewrite E. destruct (nx_pos p P) as [N1 N2]. fold nx in N1.
  replace (2 * PI * INR nx / INR nx)%R with (2 * PI)%R by (field; lra).
  replace (2 * PI * INR 0 / INR nx)%R with 0%R by (simpl; field; lra).
  rewrite cos_2PI, sin_2PI, cos_0, sin_0. auto.
Qed.
Lemma wrap_y : forall j, j < ny -> cos (2 * PI * INR (j + 1) / INR ny) = cos (2 * PI * INR (sm ny j) / INR ny) /\
  sin (2 * PI * INR (j + 1) / INR ny) = sin (2 * PI * INR (sm ny j) / INR ny).
Proof.
  intros j Hj. destruct (sm_spec ny j Hj) as [[E ->]|[E ->]]; auto.
  rewrite E. destruct (nx_pos p P) as [N1 N2]. fold ny in N2.
  replace (2 * PI * INR ny / INR ny)%R with (2 * PI)%R by (field; lra).
  replace (2 * PI * INR 0 / INR ny)%R with 0%R by (simpl; field; lra).
  rewrite cos_2PI, sin_2PI, cos_0, sin_0. auto.
Qed.
Lemma wrap_loc : forall i j, i < nx -> j < ny ->
  torus_loc p (i + 1) j = torus_loc p (sm nx i) j /\
  torus_loc p (i + 1) (j + 1) = torus_loc p (sm nx i) (sm ny j) /\
  torus_loc p i (j + 1) = torus_loc p i (sm ny j).
Proof.
  intros i j Hi Hj. rewrite !torus_loc_point. unfold torus_point; cbv zeta. fold nx ny.
  destruct (wrap_x i Hi) as [-> ->]. destruct (wrap_y j Hj) as [-> ->]. auto.
Qed.
Lemma torus_place : forall i j, i < nx -> j < ny -> nth_error torus_points (v i j) = Some (torus_loc p i j).
Proof.
  intros i j Hi Hj. unfold torus_points, v, torus_index. fold nx.
  rewrite (grid_nth _ (fun j i => torus_loc p i j)); auto.
Qed.
Lemma tplace_ok : forall i j, i < nx -> j < ny -> place tsites (v i j) = torus_loc p i j.
Proof. intros. unfold place. apply nth_error_nth. apply torus_place; auto. Qed.

Theorem torus_wide : accepted -> forall check, exists M g,
  torus_build p check = Ok (Some (M, g)) /\ (exists h, built check h M) /\
  num_entities 2 M = nx * ny /\
  num_entities 1 M = (if nx =? 2 then 1 else nx) * ny + nx * (if ny =? 2 then 1 else ny) /\
  num_entities_of_type kTria M = 0 /\ num_entities_of_type kQuad M = nx * ny /\
  (forall i j, i < nx -> j < ny -> nth_error (g_points g) (i + j * nx) = Some (torus_point p i j)) /\
  geometry_matches M g /\
  (3 <= nx -> 3 <= ny -> forall e, e < num_entities 1 M -> adjacent (view M) e = 2).
Proof.
  intros Acc check. rewrite (torus_loops Acc).
  assert (Hn : incl (@nil tag) tU) by (intros x []).
  destruct (tagged_built nv tcells tpr tU [] ttags tshape tnodes tsides tpr_proper tpr_inj tused Hn
    (NoDup_nil _) ttouch check) as (M & C & B).
  cbn [map] in C. rewrite C. cbn [bind]. exists M, tsites. split; auto. split; [eauto|].
  pose proof (tagged_nodes nv tcells tpr [] tshape check M B) as [N1 N2].
  pose proof (tagged_count nv tcells tpr tU [] ttags tshape tsides tpr_inj tU_nodup tused Hn check M B) as NE.
  destruct (view_counts check _ M B) as (V1 & V2 & V3).
  pose proof (numbering check _ M B) as (_ & NT & NQ & _).
  rewrite raw_cells in NT, NQ by apply tshape.
  assert (L4 : forall c, In c tcells -> length c = 4).
  { intros c H. apply in_grid in H as (i & j & ? & ? & [<-|[]]); reflexivity. }
  assert (LC : length tcells = nx * ny) by (unfold tcells; rewrite (grid_length _ _ 1) by auto; fold nx ny; lia).
  split; [rewrite <- V1, N1; unfold nv; lia|]. rewrite tU_length in NE.
  split; [rewrite <- V2, NE; auto|].
  split; [rewrite NT, (proj2 (filter_len p _ _ true L4)); auto|].
  split; [rewrite NQ, (proj1 (filter_len p _ _ true L4)), LC; auto|].
  split.
  { intros i j Hi Hj. rewrite <- torus_loc_point. apply torus_place; auto. }
  split.
  { split; [|split; [|split]].
    - rewrite N1. cbn [tsites g_points]. apply torus_points_length.
    - cbn [tsites g_cells]. rewrite <- (map_length cv_nodes (mv_cells (view M))), N2, LC.
      unfold tgeo. rewrite (grid_length _ _ 1) by auto. lia.
    - intros k c cs Hk Hcs. cbn [tsites g_cells] in Hcs.
      assert (Hc : nth_error tcells k = Some (cv_nodes c)) by (rewrite <- N2, nth_error_map, Hk; reflexivity).
      apply grid_nth_inv with (c := 1) in Hcs as (i & j & r & Hi & Hj & -> & Hr); auto.
      apply grid_nth_inv with (c := 1) in Hc as (i' & j' & r' & Hi' & Hj' & E & Hr'); auto.
      destruct r as [|r]; [|destruct r; discriminate]. destruct r' as [|r']; [|destruct r'; discriminate].
      assert (i = i') by nia. subst i'. assert (j = j') by lia. subst j'.
      cbn [nth_error] in Hr, Hr'; injection Hr as <-; injection Hr' as <-.
      unfold wrapped; cbn [map]. destruct (wrap_loc i j Hi Hj) as (-> & -> & ->).
      rewrite !tplace_ok by (auto using sm_lt). auto.
    - intros k a b cs Hk Hcs. cbn [tsites g_edges] in Hcs. destruct k; discriminate. }
  intros Gx Gy e He. rewrite <- V2 in He.
  destruct (nth_error (mv_edges (view M)) e) as [[a b]|] eqn:Ee; [|apply nth_error_None in Ee; lia].
  destruct (tagged_adjacent tag_dec nv tcells tpr tU [] ttags tshape tnodes tsides tpr_inj tused Hn
    ttouch check M B e a b Ee) as (t & Ht & HS & Hc).
  rewrite Hc. apply ttags_count; auto; lia.
Qed.
End Wide.
End Torus.

Theorem torus_mesh : forall p check, proper p -> torus_shaped p -> 3 <= p_nx p -> 3 <= p_ny p -> exists M g,
  torus_build p check = Ok (Some (M, g)) /\ (exists h, built check h M) /\
  num_entities 2 M = p_nx p * p_ny p /\ num_entities 1 M = 2 * p_nx p * p_ny p /\
  num_entities_of_type kTria M = 0 /\ num_entities_of_type kQuad M = p_nx p * p_ny p /\
  (forall i j, i < p_nx p -> j < p_ny p ->
     nth_error (g_points g) (i + j * p_nx p) = Some (torus_point p i j)) /\
  geometry_matches M g /\
  (forall e, e < num_entities 1 M -> adjacent (view M) e = 2).
Proof.
  intros p check P T Hx Hy. destruct (torus_wide p P) with (check := check) as (M & g & A & B & C & D & E & F & G & H & I); try lia.
  { apply shaped_accepted; auto. }
  exists M, g. split; auto. split; auto. split; auto. split; [|auto 10].
  rewrite D. destruct (Nat.eqb_spec (p_nx p) 2), (Nat.eqb_spec (p_ny p) 2); lia.
Qed.
Theorem torus_small : forall p check, proper p ->
  (p_nx p = 1 \/ p_ny p = 1 -> torus_build p check = Throw) /\
  (p_nx p = 2 -> p_ny p = 2 -> torus_build p check = Throw) /\
  (p_nx p = 2 -> 3 <= p_ny p -> torus_shaped p -> exists M g,
     torus_build p check = Ok (Some (M, g)) /\ num_entities 1 M < 2 * p_nx p * p_ny p).
Proof.
  intros p check P. split; [apply torus_thin; auto|]. split; [apply torus_two_two; auto|]. intros Hx Hy T.
  destruct (torus_wide p P) with (check := check) as (M & g & A & B & C & D & _); auto; try lia.
  { apply shaped_accepted; auto. }
  exists M, g. split; auto. rewrite D.
  destruct (Nat.eqb_spec (p_nx p) 2), (Nat.eqb_spec (p_ny p) 2); nia.
Qed.
Theorem torus_square : forall p check, proper p -> (p_x1 p - p_x0 p = p_y1 p - p_y0 p)%R -> Nat.Even (p_nx p) ->
  torus_build p check = Throw.
Proof. intros p check P E [k K]. apply (torus_horn p P check k); auto. Qed.

(** Two cells along the tube, three around it. *)
Definition stubby : params := mkParams 0 0 1 2 3 2.
Lemma stubby_proper : proper stubby.
Proof. unfold proper, stubby; simpl. split; [lia|]. split; [lia|]. lra. Qed.
Local Open Scope R_scope.
Lemma third : forall (i : nat) (x y : R), cos (2 * PI * INR i / INR 3) = x -> sin (2 * PI * INR i / INR 3) = y ->
  ring_rad stubby i = / (2 * PI) * (2 + x) /\ ring_z stubby i = / (2 * PI) * y.
Proof.
  intros i x y <- <-. pose proof PI_RGT_0. unfold ring_rad, ring_z. rewrite (theta_eq stubby stubby_proper).
  unfold rad_R, rad_r, x_size, y_size. cbn [stubby p_x0 p_x1 p_y0 p_y1 p_nx].
  split; field; lra.
Qed.
Lemma thirds : forall i, (i < 3)%nat -> exists c s c' s',
  ring_rad stubby i = / (2 * PI) * (2 + c) /\ ring_z stubby i = / (2 * PI) * s /\
  ring_rad stubby (i + 1) = / (2 * PI) * (2 + c') /\ ring_z stubby (i + 1) = / (2 * PI) * s' /\
  -(1 / 2) <= c <= 1 /\ -(1 / 2) <= c' <= 1 /\ (c' - c) ^ 2 + (s' - s) ^ 2 = 3 /\ 3 / 4 <= (s' - s) ^ 2.
Proof.
  assert (E0 : cos (2 * PI * INR 0 / INR 3) = 1 /\ sin (2 * PI * INR 0 / INR 3) = 0).
  { cbn [INR]. replace (2 * PI * 0 / (1 + 1 + 1)) with 0 by field. rewrite cos_0, sin_0. auto. }
  assert (E1 : cos (2 * PI * INR 1 / INR 3) = -1 / 2 /\ sin (2 * PI * INR 1 / INR 3) = sqrt 3 / 2).
  { cbn [INR]. replace (2 * PI * 1 / (1 + 1 + 1)) with (2 * (PI / 3)) by field. rewrite cos_2PI3, sin_2PI3. auto. }
  assert (E2 : cos (2 * PI * INR 2 / INR 3) = -1 / 2 /\ sin (2 * PI * INR 2 / INR 3) = - (sqrt 3 / 2)).
  { cbn [INR]. replace (2 * PI * (1 + 1) / (1 + 1 + 1)) with (- (2 * (PI / 3)) + 2 * INR 1 * PI) by (simpl; field).
    rewrite cos_period, sin_period, cos_neg, sin_neg, cos_2PI3, sin_2PI3. auto. }
  assert (E3 : cos (2 * PI * INR 3 / INR 3) = 1 /\ sin (2 * PI * INR 3 / INR 3) = 0).
  { cbn [INR]. replace (2 * PI * (1 + 1 + 1) / (1 + 1 + 1)) with (2 * PI) by field. rewrite cos_2PI, sin_2PI. auto. }
  assert (S3 : sqrt 3 * sqrt 3 = 3) by (apply sqrt_sqrt; lra).
  destruct (third 0 _ _ (proj1 E0) (proj2 E0)) as [A0 B0]. destruct (third 1 _ _ (proj1 E1) (proj2 E1)) as [A1 B1].
  destruct (third 2 _ _ (proj1 E2) (proj2 E2)) as [A2 B2]. destruct (third 3 _ _ (proj1 E3) (proj2 E3)) as [A3 B3].
  intros i Hi. destruct i as [|[|[|i]]]; [| | |lia]; cbn [Nat.add]; do 4 eexists;
    (split; [eassumption|]); (split; [eassumption|]); (split; [eassumption|]); (split; [eassumption|]);
    (split; [lra|]); (split; [lra|]); split; nra.
Qed.
Lemma stubby_accepted : accepted stubby.
Proof.
  intros i j Hi Hj. cbn [stubby p_nx p_ny] in Hi, Hj. destruct (thirds i Hi) as (c & s & c' & s' & R1 & Z1 & R2 & Z2 & C & C' & E & S2).
  rewrite tcorners_trapezoid. rewrite R1, R2, Z1, Z2.
  pose proof PI_RGT_0 as PP. set (q := / (2 * PI)). assert (q0 : 0 < q) by (apply Rinv_0_lt_compat; lra).
  assert (q2 : 0 < q ^ 2) by nra.
  assert (Qe : 2 - 2 * (cos (phi stubby j) * cos (phi stubby (j + 1)) + sin (phi stubby j) * sin (phi stubby (j + 1))) = 4).
  { rewrite !(phi_eq stubby stubby_proper). cbn [stubby p_ny]. rewrite (turn stubby 2 j) by lia.
    replace (PI / INR 2) with (PI / 2) by (simpl; field). rewrite sin_PI2. ring. }
  apply (trapezoid_ok _ _ _ _ _ _ _ _ (circle _) (circle _) (9 * q ^ 2) (36 * q ^ 2)); rewrite ?Qe;
    replace (q * (2 + c') - q * (2 + c)) with (q * (c' - c)) by ring;
    replace (q * s' - q * s) with (q * (s' - s)) by ring;
    rewrite ?Rpow_mult_distr.
  - assert (9 / 4 <= (2 + c) ^ 2) by nra. nra.
  - assert (9 / 4 <= (2 + c') ^ 2) by nra. nra.
  - assert ((2 + c) ^ 2 <= 9) by nra. nra.
  - assert ((2 + c') ^ 2 <= 9) by nra. nra.
  - replace (q ^ 2 * (c' - c) ^ 2 + q ^ 2 * (s' - s) ^ 2) with (q ^ 2 * 3) by (rewrite <- E; ring). lra.
  - replace (q ^ 2 * (c' - c) ^ 2 + q ^ 2 * (s' - s) ^ 2) with (q ^ 2 * 3) by (rewrite <- E; ring). lra.
  - replace (q ^ 2 * (c' - c) ^ 2 + q ^ 2 * (s' - s) ^ 2) with (q ^ 2 * 3) by (rewrite <- E; ring).
    assert (9 / 4 <= (2 + c) ^ 2) by nra.
    assert (9 / 4 * (3 / 4) <= (2 + c) ^ 2 * (s' - s) ^ 2) by (apply Rmult_le_compat; lra).
    replace (9 * q ^ 2 * (q ^ 2 * 3) / 4) with (q ^ 2 * q ^ 2 * (4 * (9 / 4 * (3 / 4)))) by field.
    match goal with |- _ <= ?u => replace u with (q ^ 2 * q ^ 2 * (4 * ((2 + c) ^ 2 * (s' - s) ^ 2))) by field end.
    apply Rmult_le_compat_l; [apply Rmult_le_pos; lra|lra].
  - replace (q ^ 2 * (c' - c) ^ 2 + q ^ 2 * (s' - s) ^ 2) with (q ^ 2 * 3) by (rewrite <- E; ring).
    assert (9 / 4 <= (2 + c') ^ 2) by nra.
    assert (9 / 4 * (3 / 4) <= (2 + c') ^ 2 * (s' - s) ^ 2) by (apply Rmult_le_compat; lra).
    replace (9 * q ^ 2 * (q ^ 2 * 3) / 4) with (q ^ 2 * q ^ 2 * (4 * (9 / 4 * (3 / 4)))) by field.
    match goal with |- _ <= ?u => replace u with (q ^ 2 * q ^ 2 * (4 * ((2 + c') ^ 2 * (s' - s) ^ 2))) by field end.
    apply Rmult_le_compat_l; [apply Rmult_le_pos; lra|lra].
Qed.
Local Open Scope nat_scope.
Theorem torus_stubby : forall check, proper stubby /\ exists M g,
  torus_build stubby check = Ok (Some (M, g)) /\ num_entities 1 M = 9.
Proof.
  intros check. split; [exact stubby_proper|].
  destruct (torus_wide stubby stubby_proper) with (check := check) as (M & g & A & B & C & D & _); try (simpl; lia).
  { exact stubby_accepted. }
  exists M, g. split; auto. 
Qed.

(** Parameters for the examples. *)
Lemma shaped_example : well_shaped (mkParams 0 0 1 2 3 4).
Proof. unfold well_shaped; cbn [p_x0 p_x1 p_y0 p_y1 p_nx p_ny INR]. cbv zeta. split; lra. Qed.
Lemma thin_example : ~ well_shaped (mkParams 0 0 1 1 1 (100 * 100)).
Proof.
  unfold well_shaped; cbn [p_x0 p_x1 p_y0 p_y1 p_nx p_ny]. cbv zeta. rewrite mult_INR.
  replace (INR 100) with 100%R by (rewrite (INR_IZR_INZ 100); reflexivity). simpl (INR 1). intros [_ H]. lra.
Qed.
Lemma torus_example : torus_shaped (mkParams 0 0 1 2 3 3) /\ torus_shaped (mkParams 0 0 1 2 2 3).
Proof.
  pose proof PI_RGT_0. assert (q0 : (0 < / (2 * PI))%R) by (apply Rinv_0_lt_compat; lra).
  assert (S3 : (sin (PI / INR 3) ^ 2 = 3 / 4)%R).
  { replace (PI / INR 3)%R with (PI / 3)%R by (simpl; field). rewrite sin_PI3.
    assert (sqrt 3 * sqrt 3 = 3)%R by (apply sqrt_sqrt; lra). nra. }
  assert (S2 : (sin (PI / INR 2) ^ 2 = 1)%R).
  { replace (PI / INR 2)%R with (PI / 2)%R by (simpl; field). rewrite sin_PI2. ring. }
  unfold torus_shaped; cbn [p_x0 p_x1 p_y0 p_y1 p_nx p_ny]. cbv zeta. rewrite !Rpow_mult_distr, S2, S3.
  unfold Rdiv. set (q := (/ (2 * PI))%R) in *.
  assert (0 < q ^ 2)%R by nra.
  replace (((2 - 0) * q - (1 - 0) * q) ^ 2)%R with (q ^ 2)%R by ring.
  replace (((2 - 0) * q + (1 - 0) * q) ^ 2)%R with (9 * q ^ 2)%R by ring.
  replace (((1 - 0) ^ 2 * q ^ 2))%R with (q ^ 2)%R by ring.
  split; (split; [lra|]); split; lra.
Qed.
