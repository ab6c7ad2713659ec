(** Examples for C87-C90, and curved edges. *)
From Coq Require Import Reals List Arith ZArith Lia Lra Bool.
Import ListNotations.
From Verif Require Import Base MeshModel MeshView RefPatModel GeoModel GeoSpec GeoProofs DofModel FlagModel FlagSpec DpgModel PropMeshView PropDof NormalModel NormalSpec NormalProofs NormalProofs3 NormalProofs5.
Local Open Scope R_scope.

Definition pt (x y : R) : vec := fun k => match k with 0%nat => x | 1%nat => y | _ => 0 end.
(** A triangle and a quadrilateral with a reflex corner. *)
Definition ex_tria : geo := mkGeo GTriaO1 2 [pt 0 0; pt 1 0; pt 1 1].
Definition ex_dart : geo := mkGeo GQuadO1 2 [pt 1 1; pt 1 0; pt 3 0; pt (5 / 4) (1 / 4)].
Definition ex_geom (e : ent) : geo := match e with DofModel.ECell 0 => ex_tria | _ => ex_dart end.
Ltac checks := repeat match goal with |- context [gtb ?a ?b] => rewrite (proj2 (gtb_true a b)) by lra end.
Lemma tria_straight : straight ex_tria.
Proof.
  split; [left; reflexivity|]. split; [reflexivity|]. split; [|split; [intros K; discriminate K|intros K; discriminate K]].
  left. exists GTriaO1, 2%nat, (go_cols ex_tria). unfold new_geo, ex_tria. cbn [go_cols length num_cols Nat.eqb lf_assert bind].
  unfold check_tria. cbv zeta. unfold sqnorm, GeoModel.dot, vsub, cross2, tol, pt. cbn [nth seq map fold_right].
  assert (A : Rabs ((1 - 0) * (1 - 0) - (0 - 0) * (1 - 0)) = 1) by (rewrite Rabs_pos_eq; lra). rewrite A. checks. reflexivity.
Qed.
Lemma dart_simple : simple [pt 1 1; pt 1 0; pt 3 0; pt (5 / 4) (1 / 4)].
Proof. right. unfold separates, area2, pt. lra. Qed.
Lemma dart_straight : straight ex_dart.
Proof.
  split; [right; left; reflexivity|]. split; [reflexivity|]. split; [|split; [intros K; discriminate K|intros _; exact dart_simple]].
  left. exists GQuadO1, 2%nat, (go_cols ex_dart). unfold new_geo, ex_dart. cbn [go_cols length num_cols Nat.eqb lf_assert bind].
  unfold check_quad. cbv zeta. unfold sqnorm, GeoModel.dot, vsub, cross2, tol, pt. cbn [nth seq map fold_right].
  assert (A : Rabs ((1 - 1) * (0 - 1) - (0 - 1) * (3 - 1)) = 2) by (rewrite Rabs_pos_eq; lra).
  assert (A' : Rabs ((5 / 4 - 1) * (0 - 1) - (1 / 4 - 1) * (3 - 1)) = 5 / 4) by (rewrite Rabs_pos_eq; lra). rewrite A, A'. checks. reflexivity.
Qed.
Theorem example_straight : straight_cells example_mesh ex_geom.
Proof.
  intros c v Hv. destruct c as [|[|c]]; cbn in Hv.
  - injection Hv as <-. split; [exact tria_straight|reflexivity].
  - injection Hv as <-. split; [exact dart_straight|reflexivity].
  - destruct c; discriminate Hv.
Qed.
Lemma tria_left : forall x, region (polygon ex_geom 0) x -> x 0%nat <= 1.
Proof.
  intros x H. inversion H as [a b c y T|? ? ? ? ? ? ?|? ? ? ? ? ? ?]; subst. destruct T as [r [s [t [A [B [C [D E]]]]]]].
  rewrite (E 0%nat) by lia. unfold pt. lra.
Qed.
Lemma dart_right : forall x, region (polygon ex_geom 1) x -> 1 <= x 0%nat.
Proof.
  intros x H. inversion H as [|a b c d y S T|a b c d y S T]; subst; destruct T as [[r [s [t [A [B [C [D E]]]]]]]|[r [s [t [A [B [C [D E]]]]]]]];
    rewrite (E 0%nat) by lia; unfold pt; lra.
Qed.
Lemma example_disjoint : disjoint_interiors (polygon ex_geom 0) (polygon ex_geom 1).
Proof.
  intros x [[r [Hr K]] I]. pose proof (dart_right x) as L. destruct I as [r' [Hr' K']].
  assert (X : 1 <= x 0%nat) by (apply L, K'; intros k _; rewrite Rminus_diag_eq by reflexivity; rewrite Rabs_R0; exact Hr').
  pose proof (tria_left (fun k => x k + r / 2)) as Q. cbn beta in Q.
  assert (x 0%nat + r / 2 <= 1); [|lra]. apply Q, K. intros k _. replace (x k + r / 2 - x k) with (r / 2) by ring. rewrite Rabs_pos_eq; lra.
Qed.
Theorem example_neighbours : edge_of example_mesh 0 1 3 /\ edge_of example_mesh 1 0 3 /\
  (forall c, cell_at_edge example_mesh 3 c -> c = 0%nat \/ c = 1%nat) /\
  common_edge (polygon ex_geom 0) 1 (polygon ex_geom 1) 0 /\ disjoint_interiors (polygon ex_geom 0) (polygon ex_geom 1).
Proof.
  split; [eexists; split; reflexivity|]. split; [eexists; split; reflexivity|]. split; [|split; [|exact example_disjoint]].
  - intros c [i [v [Hv _]]]. destruct c as [|[|c]]; auto. cbn in Hv. destruct c; discriminate Hv.
  - right. split; intros k _; reflexivity.
Qed.

(** A triangle with a curved edge. *)
Definition ex_curved : geo := mkGeo GTriaO2 2 [pt 0 0; pt 4 0; pt 0 4; pt 2 (-1); pt 2 2; pt 0 2].
Theorem curved_edges : exists g N J, constructed g /\ go_dim g = 2%nat /\ OuterNormals g = Ok N /\ Jacobian g [0; 0] = Ok J /\
  inner 2 (nth 0 N vzero) (nth 0 J vzero) <> 0.
Proof.
  assert (LE : leb 0 0 = true /\ leb 0 1 = true /\ leb 1 1 = true).
  { unfold leb. destruct (Rle_dec 0 0), (Rle_dec 0 1), (Rle_dec 1 1); auto; exfalso; lra. }
  destruct LE as [L00 [L01 L11]].
  assert (EJ : Jacobian ex_curved [0; 0] = Ok (jac_cols ex_curved 0 0)).
  { unfold Jacobian, range_check, in_range. cbn [is_o2 go_kind ex_curved forallb]. rewrite L00, L01. reflexivity. }
  assert (EC : exists cs, Corners ex_curved = Ok cs /\ length cs = 3%nat /\ (forall k, (k < 2)%nat -> nth 0 cs vzero k = pt 0 0 k /\ nth 1 cs vzero k = pt 4 0 k)).
  { unfold Corners. cbn [go_kind ex_curved kind_el NodeCoords]. unfold mapM, Global, range_check, in_range. cbn [is_o2 go_kind ex_curved forallb].
    rewrite L00, L01, L11. cbn. eexists. split; [reflexivity|]. split; [reflexivity|]. intros k Hk.
    destruct k as [|[|]]; [| |lia]; cbn; unfold t2_alpha, t2_beta0, t2_beta1, t2_gamma0, t2_gamma1, t2_delta, col, pt, Rsqr; cbn; split; lra. }
  destruct EC as [cs [EC [LC HC]]].
  assert (EO : orientation ex_curved = Ok 1).
  { unfold orientation. cbn [go_kind ex_curved kind_el]. fold ex_curved. rewrite EJ. cbn [bind jac_cols go_kind ex_curved determinant].
    rewrite (proj2 (gtb_true _ 0)); [reflexivity|]. unfold det2, t2_beta0, t2_beta1, t2_gamma0, t2_gamma1, t2_delta, col, pt. cbn. lra. }
  exists ex_curved, (map (normal cs 1) (seq 0 (length cs))), (jac_cols ex_curved 0 0). split; [left; exists GTriaO2, 2%nat, (go_cols ex_curved); reflexivity|].
  split; [reflexivity|]. split; [unfold OuterNormals; rewrite EC, EO; reflexivity|]. split; [exact EJ|].
  rewrite LC. cbn [seq map nth]. unfold normal, normalized. rewrite LC. cbn [Nat.modulo Nat.divmod Nat.add Nat.sub fst snd].
  unfold sqnorm, GeoModel.dot, inner. cbn [seq map fold_right]. unfold vsub. destruct (HC 0%nat) as [A0 B0]; [lia|]. destruct (HC 1%nat) as [A1 B1]; [lia|].
  rewrite A0, B0, A1, B1. unfold pt at 1 2 3 4 5 6 7 8. rewrite (proj2 (gtb_true _ 0)) by lra. cbn [jac_cols go_kind ex_curved nth].
  unfold t2_beta0, t2_gamma0, t2_delta, col, pt. cbn. checks.
  match goal with |- context [sqrt ?z] => assert (Q : 0 < sqrt z) by (apply sqrt_lt_R0; lra); revert Q; generalize (sqrt z) end.
  intros s Q E. assert (Y : 0 < / s) by (apply Rinv_0_lt_compat; exact Q). unfold Rdiv in E. apply Rlt_not_eq in Y. apply Y. lra.
Qed.
