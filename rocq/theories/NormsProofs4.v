(** C101: the DG norm; examples. *)
From Coq Require Import Reals List Arith Lia Lra Bool.
Import ListNotations.
From Verif Require Import Base Scalars MeshModel MeshView RefPatModel GeoModel GeoSpec DofModel FlagSpec FlagModel FlagProofs RefineSpec FeModel QuadModel AssembleModel ElemModel ElemSpec FeSpec
  FeToolsModel GalerkinModel DpgModel MfModel NormalModel NormalSpec StokesModel StokesSpec StokesProofs StokesProofs2 StokesProofs3 StokesProofs4 StokesProofs11 NormsModel NormsSpec
  NormsProofs NormsProofs2 NormsProofs3.
Local Open Scope R_scope.

Theorem dg_norm : forall m geom pos q f f_grad U G, triangulation m geom pos -> manifold m -> no_overlap m geom -> (0 < size m 0)%nat -> cell_rules m q -> midpoint_rules m q ->
  vector_field m geom f U -> (forall c, of_points (U c)) -> matrix_field m geom MatrixXd f_grad G ->
  exists J, squared_jumps m pos U J /\
    DGnorm m geom f f_grad q = Ok (sqrt (cell_quadrature m geom q (fun c x => square_norm (G c x)) + sum_to (size m 1) J)).
Proof.
  intros m geom pos q f fg U G TR MF NV NE CR MR VF UP MG. destruct (normals_exist m geom pos TR) as (n & NO & _).
  apply (dg_from m geom pos n q f U TR NO MF NV MR VF UP fg).
  rewrite (integral m geom pos q TR CR NE _ (fun c p => square_norm (G c (point_of geom c p)))); [reflexivity|]. intros c p Hc L. apply (matrix_square m geom); assumption.
Qed.
Theorem dg_fixed : forall m geom pos q f f_grad U G, triangulation m geom pos -> manifold m -> no_overlap m geom -> (0 < size m 0)%nat -> cell_rules m q -> midpoint_rules m q ->
  vector_field m geom f U -> (forall c, of_points (U c)) -> matrix_field m geom Matrix2d f_grad G ->
  exists J, squared_jumps m pos U J /\ DGnorm m geom f f_grad q = Ok (sqrt (sum_to (size m 1) J)).
Proof.
  intros m geom pos q f fg U G TR MF NV NE CR MR VF UP MG. destruct (normals_exist m geom pos TR) as (n & NO & _).
  destruct (dg_from m geom pos n q f U TR NO MF NV MR VF UP fg 0) as (J & HJ & E).
  - rewrite (integral m geom pos q TR CR NE _ (fun _ _ => 0)); [|intros c p Hc L; apply (fixed_square m geom _ G); assumption].
    f_equal. apply sum_zero. intros c _. unfold cell_part. apply sum_zero. intros k _. ring.
  - exists J. split; [exact HJ|]. rewrite E, Rplus_0_l. reflexivity.
Qed.
(** The first cell already fails. *)
Theorem dg_points : forall m geom pos q f f_grad x, triangulation m geom pos -> (0 < size m 0)%nat ->
  (forall e, (e < size m 1)%nat -> length (qr_points (q (EEdge e))) <> 1%nat) ->
  IntegrateMeshFunction m geom (scalar_fun (squaredNorm f_grad)) q (fun _ => true) 0 = Ok x ->
  DGnorm m geom f f_grad q = Assert.
Proof.
  intros m geom pos q f fg x TR NE H E. unfold DGnorm. rewrite E. cbn [bind].
  destruct (flag_boundary_correct m 1 (proj1 (tr_trias _ _ _ TR))) as (F & _). destruct F as (bd & -> & _); [lia|]. cbn [bind].
  destruct (normals_exist m geom pos TR) as (n & NO & _).
  assert (ST : forall A S (body : A -> S -> res S) l a s, body a s = Assert -> each (a :: l) body s = Assert).
  { intros A S body l a s Q. unfold each. cbn [fold_left bind]. rewrite Q. clear. induction l as [|b l IH]; [reflexivity|]. cbn [fold_left bind]. exact IH. }
  change (mv_count m 0) with (size m 0). destruct (size m 0) as [|k] eqn:SK; [lia|]. cbn [seq]. rewrite ST; [reflexivity|].
  assert (H0 : (0 < size m 0)%nat) by lia.
  unfold cell_jumps. rewrite (proj1 (normals_is m geom pos n TR NO 0 H0)). cbn [bind traverse seq]. rewrite (proj1 (side_is m geom pos TR 0 0 H0 ltac:(lia))). cbn [bind].
  specialize (H _ (side_range m 0 0 (tr_trias _ _ _ TR) H0 ltac:(lia))). unfold edge_points. destruct (qr_points (q (EEdge (side_at m 0 0)))) as [|[|t [|]] [|]]; try reflexivity. cbn in H. lia.
Qed.

(** * Examples *)
Definition one_point_rules (e : ent) : quadrule :=
  match e with DofModel.ECell _ => mkQr kTria [[1 / 3; 1 / 3]] [1 / 2] 1 | _ => mkQr kSegment [[1 / 2]] [1] 1 end.
Definition field_fun (geom : ent -> geo) (U : nat -> vec -> vec) : valuefun := fun e pts =>
  match e with
  | DofModel.ECell c => Ok (Mats R unit false (plain_ety (Some 2%nat) (Some 1%nat)) (map (fun p => let u := U c (point_of geom c p) in mkMat R 2 1 [u 0%nat; u 1%nat]) pts))
  | _ => Assert
  end.
Definition matrix_fun (geom : ent -> geo) (t : ety) (G : nat -> vec -> nat -> nat -> R) : valuefun := fun e pts =>
  match e with
  | DofModel.ECell c => Ok (Mats R unit false t (map (fun p => let g := G c (point_of geom c p) in mkMat R 2 2 [g 0%nat 0%nat; g 1%nat 0%nat; g 0%nat 1%nat; g 1%nat 1%nat]) pts))
  | _ => Assert
  end.
Lemma field_fun_ok : forall m geom U, vector_field m geom (field_fun geom U) U.
Proof. intros m geom U c pts _ _. reflexivity. Qed.
Lemma matrix_fun_ok : forall m geom t G, matrix_field m geom t (matrix_fun geom t G) G.
Proof. intros m geom t G c pts _ _. reflexivity. Qed.
Lemma one_point_cells : forall m, cell_rules m one_point_rules /\ midpoint_rules m one_point_rules.
Proof.
  intros m. split.
  - intros c _. split; [split; [reflexivity|intros p [<-|[]]; reflexivity]|discriminate].
  - intros e _. split; reflexivity.
Qed.
Definition unit_matrix (i j : nat) : R := if (i =? j)%nat then 1 else 0.
(** The field x on the square: continuous, with gradient 1. *)
Lemma gradient_lost : exists m geom pos q f f_grad U G, triangulation m geom pos /\ manifold m /\ no_overlap m geom /\ (0 < size m 0)%nat /\ cell_rules m q /\ midpoint_rules m q /\
  vector_field m geom f U /\ (forall c, of_points (U c)) /\ matrix_field m geom Matrix2d f_grad G /\
  (forall c x, U c x = x) /\ (forall c x, G c x = unit_matrix) /\
  DGnorm m geom f f_grad q = Ok 0 /\ cell_quadrature m geom q (fun c x => square_norm (G c x)) = 8.
Proof.
  exists sq_mesh, sq_geom, sq_pos, one_point_rules, (field_fun sq_geom (fun _ x => x)), (matrix_fun sq_geom Matrix2d (fun _ _ => unit_matrix)), (fun _ x => x), (fun _ _ => unit_matrix).
  assert (UP : forall c : nat, of_points ((fun (_ : nat) x => x) c)) by (intros c x y H; exact H).
  destruct (one_point_cells sq_mesh) as [CR MR]. assert (NE : (0 < size sq_mesh 0)%nat) by (cbn; lia).
  split; [exact sq_triangulation|]. split; [exact sq_manifold|]. split; [exact sq_apart|]. split; [exact NE|]. split; [exact CR|]. split; [exact MR|].
  split; [apply field_fun_ok|]. split; [exact UP|]. split; [apply matrix_fun_ok|]. split; [reflexivity|]. split; [reflexivity|]. split.
  - destruct (dg_fixed sq_mesh sq_geom sq_pos one_point_rules _ _ (fun _ x => x) (fun _ _ => unit_matrix) sq_triangulation sq_manifold sq_apart NE CR MR (field_fun_ok _ _ _) UP (matrix_fun_ok _ _ _ _)) as (J & [J0 J1] & E).
    rewrite E. f_equal. rewrite <- sqrt_0. f_equal. apply sum_zero. intros e He. destruct (boundary_edge sq_mesh e) eqn:B; [apply J0; assumption|].
    pose proof (interior sq_mesh sq_manifold e He B) as A. destruct (two_sides sq_mesh sq_geom sq_pos sq_triangulation e A) as (c & i & c' & i' & EL & Ne).
    assert (O : edge_of sq_mesh c i e) by (apply (at_edge sq_mesh sq_geom sq_pos sq_triangulation e (c, i)); rewrite EL; left; reflexivity).
    assert (O' : edge_of sq_mesh c' i' e) by (apply (at_edge sq_mesh sq_geom sq_pos sq_triangulation e (c', i')); rewrite EL; right; left; reflexivity).
    rewrite (J1 c i c' i' e O O' (distinct_cells _ _ _ sq_triangulation c i c' i' e O O' Ne)). unfold square, difference. rewrite inner2. ring.
  - unfold cell_quadrature, sum_to, triangle_det, square_norm, unit_matrix. cbn [size sq_mesh mv_cells length seq map fold_right one_point_rules qr_points qr_weights nth Nat.eqb].
    unfold sum_to. cbn [seq map fold_right Nat.eqb]. unfold polygon, area2. cbn. rewrite !Rabs_pos_eq by lra. lra.
Qed.
