(** Corollaries and examples for C57-C59. *)
From Coq Require Import Reals List Arith Lia Lra Bool.
From Coquelicot Require Import Coquelicot.
Import ListNotations.
From Verif Require Import Base Scalars MeshModel MeshView PropMeshView DofModel DofSpec PropDof RefPatModel GeoModel GeoSpec PropGeo FeModel LagrModel QuadModel HierModel QuadRuleModel AssembleModel
  FeSpec HierSpec QuadSpec GaussSpec TriaSpec HierProofs HierProofs8 GaussProofs4 GaussProofs5 LagrProofs3 ElemModel ElemSpec ElemProofs9
  FeToolsModel FeToolsSpec FeToolsProofs FeToolsProofs2 FeToolsProofs3 FeToolsProofs4.
Local Open Scope R_scope.

Lemma lagrange_projection : forall k m, wf_mesh m -> complete_mesh m -> exists V, lagrange_space k m = Ok V /\
  forall coef, length coef = NumDofs (sp_dofs V) -> NodalProjection V (fe_value V coef) (fun _ => true) = Ok coef.
Proof.
  intros k m W Cm. destruct (lagrange_space_ok k m) as (lo & E & _). eexists. split; [exact E|].
  destruct (lagrange_whole k m _ W E) as (Em & Wh). intros coef L. apply whole_projection; [exact Wh|rewrite Em; exact Cm|exact L].
Qed.
Lemma hier_projection : forall n get m deg, wf_mesh m -> complete_mesh m ->
  (forall e, valid m e -> (1 <= deg e)%nat /\ (2 * deg e <= n)%nat) -> exact_rules get n -> exists V, hier_space get m deg = Ok V /\
  forall coef, length coef = NumDofs (sp_dofs V) -> NodalProjection V (fe_value V coef) (fun _ => true) = Ok coef.
Proof.
  intros n get m deg W Cm D Ru. pose proof (hier_space_ok get m deg W (fun e Ve => proj1 (D e Ve))) as E. eexists. split; [exact E|].
  destruct (hier_whole n get m deg _ W D Ru E) as (Em & Wh). intros coef L. apply whole_projection; [exact Wh|rewrite Em; exact Cm|exact L].
Qed.
Lemma lagrange_essential : forall k m, wf_mesh m -> exists V, lagrange_space k m = Ok V /\ sp_mesh V = m /\
  forall coef sel, length coef = NumDofs (sp_dofs V) -> exists fv, InitEssentialConditionFromFunction V sel (fe_value V coef) = Ok fv /\
    length fv = NumDofs (sp_dofs V) /\
    forall k, (k < NumDofs (sp_dofs V))%nat ->
      (untouched V sel (entities m 1) k /\ nth_error fv k = Some (false, 0)) \/
      ((exists e, In e (entities m 1) /\ sel e = true /\ touches V e k) /\ nth_error fv k = Some (true, nth k coef 0)).
Proof.
  intros k m W. destruct (lagrange_space_ok k m) as (lo & E & _). eexists. split; [exact E|]. split; [reflexivity|].
  destruct (lagrange_whole k m _ W E) as (Em & Wh). intros coef sel L. exact (whole_essential _ Wh coef sel L).
Qed.
Lemma hier_essential : forall n get m deg, wf_mesh m ->
  (forall e, valid m e -> (1 <= deg e)%nat /\ (2 * deg e <= n)%nat) -> exact_rules get n -> exists V, hier_space get m deg = Ok V /\ sp_mesh V = m /\
  forall coef sel, length coef = NumDofs (sp_dofs V) -> exists fv, InitEssentialConditionFromFunction V sel (fe_value V coef) = Ok fv /\
    length fv = NumDofs (sp_dofs V) /\
    forall k, (k < NumDofs (sp_dofs V))%nat ->
      (untouched V sel (entities m 1) k /\ nth_error fv k = Some (false, 0)) \/
      ((exists e, In e (entities m 1) /\ sel e = true /\ touches V e k) /\ nth_error fv k = Some (true, nth k coef 0)).
Proof.
  intros n get m deg W D Ru. pose proof (hier_space_ok get m deg W (fun e Ve => proj1 (D e Ve))) as E. eexists. split; [exact E|]. split; [reflexivity|].
  destruct (hier_whole n get m deg _ W D Ru E) as (Em & Wh). intros coef sel L. exact (whole_essential _ Wh coef sel L).
Qed.
(** The Gauss rules of the library. *)
Lemma rules_exist : forall n, exists get, exact_rules get n.
Proof.
  intros n. destruct (legendre_zeros_exist (n / 2 + 1)) as (stop & F). destruct (jacobi_zeros_exist (n / 2 + 1)) as (stopj & F').
  destruct (segment_rule stop n F) as (q & _ & D & Rq & _). destruct (duffy_rule stop stopj n F F') as (qt & _ & Dt & Rt & _ & _ & I).
  exists (fun t _ => match t with kTria => qt | _ => q end). intros k Hk.
  assert (Hn : (k <= 2 * (n / 2 + 1) - 1)%nat) by (pose proof (Nat.div_mod n 2); pose proof (Nat.mod_upper_bound n 2); lia).
  rewrite D in Rq. rewrite Dt in Rt. split; [exact (rule_lower _ _ _ _ Hn Rq)|]. split; [exact (rule_lower _ _ _ _ Hn Rt)|].
  intros x Hx. specialize (I x Hx). rewrite (rf_el _ _ _ Rt) in I. destruct x as [|a [|b [|]]]; try destruct I as [I1 [I2 I3]]; try destruct I. cbn [nth]. lra.
Qed.
Lemma example_complete : complete_mesh example_mesh.
Proof.
  split.
  - intros i H. cbn in H. repeat (destruct i as [|i]; [first [exists (mkCellv [0; 1; 2]%nat [1; 3; 2]%nat [true; true; true]); split; [cbn; tauto|cbn; tauto]
      | exists (mkCellv [2; 1; 4; 3]%nat [3; 0; 5; 4]%nat [false; false; true; true]); split; [cbn; tauto|cbn; tauto]]|]). lia.
  - intros v H. cbn in H.
    assert (Q : forall v, (v < 5)%nat -> existsb (fun p => (v =? fst p) || (v =? snd p))%nat (mv_edges example_mesh) = true).
    { intros w Hw. do 5 (destruct w as [|w]; [reflexivity|]). lia. }
    specialize (Q v H). apply existsb_exists in Q. destruct Q as ([a b] & I & T). exists a, b. split; [exact I|]. apply orb_true_iff in T.
    destruct T as [T|T]; apply Nat.eqb_eq in T; auto.
Qed.
(** *** A mesh with one triangle *)
Definition one_mesh : mesh := mkMeshV 3 [(0, 1); (1, 2); (2, 0)]%nat [mkCellv [0; 1; 2]%nat [0; 1; 2]%nat [true; true; true]].
Lemma one_wf : wf_mesh one_mesh /\ complete_mesh one_mesh.
Proof.
  split; [split|split].
  - repeat constructor; auto. cbn. intros j Hj. destruct j as [|[|[|j]]]; [| | |lia]; cbn; do 4 eexists; repeat split; reflexivity.
  - intros i a b H. destruct i as [|[|[|i]]]; cbn in H; [| | |destruct i; discriminate]; injection H as <- <-; cbn; lia.
  - intros i j a b c d H H' E. destruct i as [|[|[|i]]]; cbn in H; [| | |destruct i; discriminate]; injection H as <- <-;
      (destruct j as [|[|[|j]]]; cbn in H'; [| | |destruct j; discriminate]); injection H' as <- <-; lia.
  - intros i H. eexists. split; [left; reflexivity|]. cbn in *. lia.
  - intros v H. cbn in H. destruct v as [|[|[|v]]]; [exists 0%nat, 1%nat|exists 0%nat, 1%nat|exists 1%nat, 2%nat|lia]; cbn; auto.
Qed.
Lemma tri_flat : exists vol, flat tri vol.
Proof.
  destruct (lagrange_affine tri O1 tri_constructed) as (vol & b & G & [A1 A2 A3 A4 A5 A6 A7] & _); [discriminate|left; reflexivity|].
  exists vol. split; [exact A1|exact A2|]. intros p L. apply A7. exact L.
Qed.
Lemma tri_volume : forall vol p, length p = 2%nat -> volume_at tri vol p -> vol p = 6.
Proof.
  intros vol p L (J & HJ & E). destruct p as [|x [|y [|]]]; try discriminate L.
  destruct (C40_jacobian_is_derivative tri [x; y]) as (J' & HJ' & _). { split; [reflexivity|discriminate]. }
  rewrite E. replace (gramian_det (go_dim tri) J) with (6 * 6); [apply sqrt_square; lra|].
  cbv in HJ. injection HJ as <-. cbv -[Rplus Rmult Rminus Ropp IZR]. ring.
Qed.
Definition mid_rule : quadrule := mkQr kTria [[1 / 3; 1 / 3]] [1 / 2] 1.
Lemma mid_integrable : integrable tri mid_rule (fun _ => 6) (fun _ => 1) (fun _ => Ok 1).
Proof.
  destruct tri_flat as (vol & [_ _ V]).
  assert (Q : volume_at tri (fun _ => 6) [1 / 3; 1 / 3]).
  { destruct (V [1 / 3; 1 / 3] eq_refl) as (J & HJ & E). exists J. split; [exact HJ|]. rewrite <- E. symmetry. apply tri_volume; [reflexivity|]. exists J. auto. }
  split; [split; [reflexivity|split]|split; [cbn; lia|]].
  - intros p [<-|[]]. split; [reflexivity|discriminate].
  - intros p [<-|[]]. exact Q.
  - intros p [<-|[]]. reflexivity.
Qed.
(** Nothing is selected, the result is the area 3 of the triangle. *)
Lemma predicate_ignored : exists m geom mf q ep vol h,
  wf_mesh m /\ (forall e, In e (entities m 0) -> integrable (geom e) (q e) (vol e) (h e) (mf e)) /\
  sum_over (filter ep (entities m 0)) (fun e => quadrature (q e) (fun p => vol e p * h e p)) = 0 /\
  IntegrateMeshFunction m geom mf q ep 0 = Ok 3.
Proof.
  exists one_mesh, (fun _ => tri), (fun _ _ => Ok 1), (fun _ => mid_rule), (fun _ => false), (fun _ _ => 6), (fun _ _ => 1).
  split; [apply one_wf|]. split; [intros e _; exact mid_integrable|]. split; [reflexivity|].
  rewrite (integrate_rejected one_mesh (fun _ => tri) (fun _ _ => Ok 1) (fun _ => mid_rule) (fun _ _ => 6) (fun _ _ => 1) (fun _ => false) 0 (ECell 0) [] eq_refl eq_refl
    (fun e _ _ => mid_integrable)).
  f_equal. unfold local_sum, quadrature, sum_over. cbn. lra.
Qed.
