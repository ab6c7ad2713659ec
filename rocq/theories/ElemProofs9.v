(** Library rules for element matrices; examples. *)
From Coq Require Import Reals List Arith Bool Lia Lra.
Import ListNotations.
From Verif Require Import Base MeshModel MeshView DofModel RefPatModel GeoModel GeoSpec GeoProofs GeoProofs2 GeoProofs3 GeoProofs4 PropGeo FeModel LagrModel LagrProofs LagrProofs2 QuadModel FeSpec QuadSpec
  GaussSpec GaussProofs5 CacheProofs2 TriaTab TriaSpec TriaProofs2 QuadRuleModel HierProofs HierProofs3 PolyProofs QuadProofs PropQuad
  ElemModel ElemSpec ElemProofs ElemProofs2 ElemProofs3 ElemProofs4 ElemProofs5 ElemProofs6 ElemProofs7 ElemProofs8.
Local Open Scope R_scope.

Lemma library_tria : forall leg jac k, (1 <= k <= 25)%nat ->
  exists q, make_QuadRule leg jac HardcodedQuadRule kTria (2 * k) = Ok q /\ rule_within (1 / 10 ^ 15) kTria (2 * k) q /\ nonnegative_weights q.
Proof.
  intros leg jac k H. destruct (tria_tables leg jac (2 * k) ltac:(lia)) as (q & k' & E & L & T). exists q. split; [exact E|].
  split; [exact (table_within _ _ _ _ L T)|]. intros w I. left. apply (proj1 (tr_inside _ _ _ T)), I.
Qed.
Lemma library_quad : forall stop stopj hard k, finds_legendre_zeros stop (k + 1) -> finds_jacobi_zeros stopj (k + 1) ->
  exists q, make_QuadRule (GaussLegendre stop) (GaussJacobi stopj) hard kQuad (2 * k) = Ok q /\ rule_within 0 kQuad (2 * k) q /\ nonnegative_weights q.
Proof.
  intros stop stopj hard k F F'.
  assert (D : (2 * k / 2 = k)%nat) by (rewrite Nat.mul_comm; apply Nat.div_mul; lia).
  destruct (gauss_rules stop stopj hard kQuad (2 * k) ltac:(discriminate) ltac:(discriminate) ltac:(rewrite D; exact F) ltac:(rewrite D; exact F')) as (q & E & Dq & L & Rf & _ & P).
  exists q. split; [exact E|]. split.
  - apply (within_less 0 kQuad (2 * k) (qr_degree q) q (or_intror eq_refl) L), within_zero, Rf.
  - intros w I. left. apply (proj1 P), I.
Qed.
Lemma lagrange_affine : forall g k, constructed g -> exact_parallelogram g -> go_kind g = GTriaO1 \/ go_kind g = GParallelogram ->
  exists vol b G, affine_cell g (lagrange k (kind_el (go_kind g))) (ord k) vol /\
    everywhere (shape_at (lagrange k (kind_el (go_kind g))) b) /\ everywhere (gradient_at g (lagrange k (kind_el (go_kind g))) G).
Proof.
  intros g k C Ex K. set (t := kind_el (go_kind g)).
  assert (Nt : t <> kPoint) by (unfold t; destruct K as [-> | ->]; discriminate).
  destruct (lagrange_describes k t) as (E1 & E2 & E3 & _).
  destruct (data_exist g (lagrange k t) C Ex K E1 E3 (lagrange_gradients k t Nt)) as (vol & b & G & H).
  exists vol, b, G. split; [|split; intros p L; apply H, L].
  constructor; auto.
  - destruct K as [K | K]; unfold isAffine; rewrite K; reflexivity.
  - destruct K as [K | K]; rewrite K; reflexivity.
  - destruct K as [K | K]; rewrite K; reflexivity.
  - apply lagrange_contained.
  - intros p L. apply H, L.
Qed.

(** A straight triangle with six nodes. *)
Definition tri6 : geo :=
  mkGeo GTriaO2 2 [(fun _ => 0); (fun k => match k with 0%nat => 2 | _ => 0 end); (fun k => match k with 0%nat => 0 | _ => 2 end);
    (fun k => match k with 0%nat => 1 | _ => 0 end); (fun _ => 1); (fun k => match k with 0%nat => 0 | _ => 1 end)].
Lemma tri6_constructed : constructed tri6.
Proof. left. exists GTriaO2, 2%nat, (go_cols tri6). reflexivity. Qed.
(** LinearFELocalLoadVector on triangles with six nodes. *)
Lemma o2_ok : forall g x y, go_kind g = GTriaO2 -> 0 <= x <= 1 -> 0 <= y <= 1 -> exists w, Global g [x; y] = Ok w.
Proof.
  intros g x y K Hx Hy. exists (global_at g x y). unfold Global, range_check, with_local. rewrite K.
  rewrite (proj2 (in_range_true [x; y])); [reflexivity|]. intros t [<-|[<-|[]]]; assumption.
Qed.
Lemma load_outside : forall g (F : vec -> R), go_kind g = GTriaO2 -> go_dim g = 2%nat ->
  let src := fun p => do x <- Global g p; Ok (F x) in
  (exists area, Volume g = Ok area) /\ (forall m, (m < 3)%nat -> exists h, src (midpoint kTria m) = Ok h) /\
  LinearFELoadEval g src = Throw.
Proof.
  intros g F K D src.
  assert (V : exists area, Volume g = Ok area).
  { unfold Volume, IntegrationElement, range_check, with_local. rewrite K. cbn [kind_el is_o2 dim_local].
    rewrite (proj2 (in_range_true [1 / 3; 1 / 3])) by (intros t [<-|[<-|[]]]; lra). cbn [verify bind length Nat.eqb lf_assert nth].
    unfold jac_cols. rewrite K. eexists. reflexivity. }
  split; [exact V|]. destruct V as [area V].
  destruct (o2_ok g (1 / 2) 0 K ltac:(lra) ltac:(lra)) as [w0 E0]. destruct (o2_ok g (1 / 2) (1 / 2) K ltac:(lra) ltac:(lra)) as [w1 E1].
  destruct (o2_ok g 0 (1 / 2) K ltac:(lra) ltac:(lra)) as [w2 E2].
  assert (Eo : Global g [-1; -1] = Throw).
  { unfold Global, range_check. rewrite K. cbn [is_o2]. destruct (in_range [-1; -1]) eqn:B; [|reflexivity].
    rewrite in_range_true in B. specialize (B (-1) (or_introl eq_refl)). lra. }
  assert (M0 : midpoint kTria 0 = [1 / 2; 0]) by (unfold midpoint, on_edge, between, ref_node; cbn; f_equal; [lra|f_equal; lra]).
  assert (M1 : midpoint kTria 1 = [1 / 2; 1 / 2]) by (unfold midpoint, on_edge, between, ref_node; cbn; f_equal; [lra|f_equal; lra]).
  assert (M2 : midpoint kTria 2 = [0; 1 / 2]) by (unfold midpoint, on_edge, between, ref_node; cbn; f_equal; [lra|f_equal; lra]).
  split.
  - intros m Hm. unfold src. destruct m as [|[|[|]]]; try lia.
    + rewrite M0, E0. eexists. reflexivity.
    + rewrite M1, E1. eexists. reflexivity.
    + rewrite M2, E2. eexists. reflexivity.
  - unfold LinearFELoadEval. rewrite D, V, K. cbn [kind_el dim_local Nat.eqb andb lf_assert bind traverse]. unfold src. rewrite E0, E1, E2, Eo. reflexivity.
Qed.
(** The triangle with corners (0,0), (2,0), (1,3) *)
Lemma tri_laplace : exists M, LinearFELaplaceEval tri = Ok M /\ em_at M 0 0 = 5 / 6 /\ em_at M 0 1 = - 2 / 3.
Proof.
  eexists. split; [reflexivity|]. cbn [em_at]. unfold laplace_tria, det3, inv3. cbn [Nat.ltb Nat.leb andb seq map Nat.add Nat.modulo Nat.divmod fst snd Nat.sub nth].
  cbn [with_local lf_assert length dim_local go_kind tri Nat.eqb bind dimension kind_el nth].
  cbv [global_at go_kind tri col go_cols nth]. unfold det3. unfold rsum. cbn [fold_right].
  rewrite !Rabs_right by lra. split; field.
Qed.
