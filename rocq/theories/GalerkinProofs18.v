(** Proofs for C76: the library's rules for triangles settle Lagrangian elements. *)
From Coq Require Import Reals List Arith ZArith Lia Lra Bool.
Import ListNotations.
From Verif Require Import Base Scalars MeshModel MeshView RefPatModel GeoModel FeModel LagrModel QuadModel TriaTab QuadRuleModel ElemModel ElemSpec DirichletSpec GalerkinProofs17.
Local Open Scope R_scope.

Lemma tab_good : forall l q k j a b w, QuadRule kTria (map (fun t => [tab_real (fst (fst t)); tab_real (snd (fst t))]) l) (map (fun t => tab_real (snd t)) l) k = Ok q ->
  nth_error l j = Some (a, b, w) -> (0 < w)%Z -> good q (tab_real a) (tab_real b).
Proof.
  intros l q k j a b w E Hj Pw. exists j, (tab_real w). unfold QuadRule in E. repeat (match type of E with bind (lf_assert ?x) _ = _ => destruct x; cbn [bind lf_assert] in E; [|discriminate E] end).
  injection E as <-. cbn [qr_points qr_weights]. split; [rewrite nth_error_map, Hj; reflexivity|]. split; [rewrite nth_error_map, Hj; reflexivity|].
  unfold tab_real. apply Rdiv_lt_0_compat; apply IZR_lt; [exact Pw|reflexivity].
Qed.
Lemma dec_pos : IZR dec <> 0. Proof. apply not_0_IZR. discriminate. Qed.
Ltac numbers := unfold tab_real, dec in *.
Theorem library_settles : forall leg jac k q, make_QuadRule leg jac HardcodedQuadRule kTria (2 * ord k) = Ok q -> settles q (lagrange k kTria).
Proof.
  intros leg jac k q E. destruct k.
  - change (QuadRule kTria (map (fun t => [tab_real (fst (fst t)); tab_real (snd (fst t))]) tab_2) (map (fun t => tab_real (snd t)) tab_2) 2 = Ok q) in E.
    apply settles_tria1. do 2 eexists. exact (tab_good _ _ _ 0 _ _ _ E eq_refl eq_refl).
  - change (QuadRule kTria (map (fun t => [tab_real (fst (fst t)); tab_real (snd (fst t))]) tab_4) (map (fun t => tab_real (snd t)) tab_4) 4 = Ok q) in E.
    apply settles_tria2. refine (three_points q _ _ _ _ _ _ (tab_good _ _ _ 0 _ _ _ E eq_refl eq_refl) (tab_good _ _ _ 1 _ _ _ E eq_refl eq_refl) (tab_good _ _ _ 2 _ _ _ E eq_refl eq_refl) _).
    numbers. lra.
  - change (QuadRule kTria (map (fun t => [tab_real (fst (fst t)); tab_real (snd (fst t))]) tab_6) (map (fun t => tab_real (snd t)) tab_6) 6 = Ok q) in E.
    apply settles_tria3. intros a b c d e f H.
    pose proof (H _ _ (tab_good _ _ _ 0 _ _ _ E eq_refl eq_refl)) as H0. pose proof (H _ _ (tab_good _ _ _ 1 _ _ _ E eq_refl eq_refl)) as H1.
    pose proof (H _ _ (tab_good _ _ _ 2 _ _ _ E eq_refl eq_refl)) as H2. pose proof (H _ _ (tab_good _ _ _ 3 _ _ _ E eq_refl eq_refl)) as H3.
    pose proof (H _ _ (tab_good _ _ _ 4 _ _ _ E eq_refl eq_refl)) as H4. pose proof (H _ _ (tab_good _ _ _ 5 _ _ _ E eq_refl eq_refl)) as H5.
    clear E H. numbers. repeat split; lra.
Qed.
