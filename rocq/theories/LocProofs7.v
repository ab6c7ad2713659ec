(** Examples for C105 and C106; diffusion coefficients that are not symmetric. *)
From Coq Require Import Reals List Arith ZArith Bool Lia Lra.
Import ListNotations.
From Verif Require Import Base Scalars MeshModel MeshView DofModel DofSpec RefPatModel GeoModel GeoSpec FlagModel LagrModel FeModel QuadModel FeSpec QuadSpec LagrProofs LagrProofs2 PolyProofs QuadProofs 
  HierProofs AssembleModel AssembleSpec ElemModel ElemSpec ElemProofs7 DpgModel DpgSpec ProdModel ProdSpec ProdProofs8 NormalModel NormalSpec NormalProofs3 NormalProofs4 NormalProofs5 NormalProofs8 NormalProofs9 LocModel LocSpec LocProofs LocProofs2 LocProofs3 LocProofs4 LocProofs5 LocProofs6 GaussProofs5 PropMeshView PropDof PropQuad.
Local Open Scope R_scope.

Lemma exponents_mono : forall t k l e, (k <= l)%nat -> In e (exponents t k) -> In e (exponents t l).
Proof.
  intros t k l e H I. destruct t; cbn [exponents] in *; [exact I| | |].
  - apply in_map_iff in I. destruct I as [a [<- Ha]]. apply in_map_iff. exists a. split; [reflexivity|]. apply in_seq in Ha. apply in_seq. lia.
  - apply in_map_iff in I. destruct I as [[a b] [<- Ha]]. apply in_map_iff. exists (a, b). split; [reflexivity|]. apply filter_In in Ha. destruct Ha as [Ha Hs].
    apply filter_In. split; [|apply Nat.leb_le; apply Nat.leb_le in Hs; lia]. apply in_prod_iff in Ha. apply in_prod_iff. rewrite !in_seq in *. lia.
  - apply in_map_iff in I. destruct I as [[a b] [<- Ha]]. apply in_map_iff. exists (a, b). split; [reflexivity|]. apply in_prod_iff in Ha. apply in_prod_iff. rewrite !in_seq in *. lia.
Qed.
Lemma rule_for_less : forall t k l q, (k <= l)%nat -> rule_for t l q -> rule_for t k q.
Proof.
  intros t k l q H [E P W X]. constructor; try assumption. apply exact_moments. rewrite E in *. intros e He.
  rewrite (exact_monomial q l e X); [rewrite E; reflexivity|]. rewrite E. eapply exponents_mono; eassumption.
Qed.
Lemma rules_available : exists make, provides_rules make.
Proof.
  assert (One : forall t, t <> kPoint -> exists q, rule_for t 6 q).
  { intros t Ht. destruct (legendre_zeros_exist 26) as (stop & F). destruct (jacobi_zeros_exist 26) as (stopj & F').
    destruct (C53_gauss stop stopj (fun _ => Assert) t 51 Ht ltac:(intros; right; lia) F F') as (q & _ & _ & D & X & _).
    exists q. eapply rule_for_less; [|exact X]. lia. }
  destruct (One kSegment ltac:(discriminate)) as [q1 R1]. destruct (One kTria ltac:(discriminate)) as [q2 R2]. destruct (One kQuad ltac:(discriminate)) as [q3 R3].
  exists (fun t _ => match t with kPoint => Assert | kSegment => Ok q1 | kTria => Ok q2 | kQuad => Ok q3 end).
  intros t k Ht Hk. destruct t; [contradiction| | |]; eexists; (split; [reflexivity|]); (eapply rule_for_less; [exact Hk|]); assumption.
Qed.

(** Integral of a constant over the triangle *)
Lemma tria_constant : forall c, integral kTria (fun _ => c) = c / 2.
Proof.
  intros c. rewrite (integral_ext kTria _ (poly [[0; 0]%nat] (fun _ => c))).
  - rewrite integral_poly; [|discriminate|intros e [<- | []]; reflexivity]. cbn [map rsum fold_right]. rewrite integral_monomial by reflexivity. cbn. lra.
  - intros x Lx. destruct x as [|a [|b [|? ?]]]; try discriminate Lx. unfold poly, monomial. cbn. ring.
Qed.
Lemma tria_constructed : constructed ex_tria /\ exact_parallelogram ex_tria.
Proof. destruct tria_straight as (_ & _ & C & _). split; [exact C|]. intros K. discriminate K. Qed.

Theorem diffusion_refuted : exists make geom m ks trial s alpha A G H vol cell ft,
  wf_mesh m /\ ProdSpec.built m ks trial /\ exact_cell make (geom cell) trial trial 0 0 ft ft vol /\
  provider make geom trial trial 0 0 (Diffusion alpha) = Ok s /\ gradients_ok ft /\
  everywhere (gradient_at (geom cell) ft G) /\ everywhere (gradient_at (geom cell) ft H) /\ everywhere (value_at (alpha cell) (fun _ => A)) /\
  ~ is_dense (sm_eval s cell) (fe_total ft) (fe_total ft)
      (fun i j => integral (kind_el (go_kind (geom cell))) (fun p => vol p * inner (go_dim (geom cell)) (G j p) (ElemSpec.flux (go_dim (geom cell)) A (H i p)))).
Proof.
  destruct rules_available as [make Rules]. set (ks := [H1 1]).
  destruct (proj2 (built_iff example_mesh ks example_wf)) as [trial B]; [split; [discriminate|repeat constructor]|].
  set (A := Tens (fun k l => match k, l with 0%nat, 1%nat => 1 | _, _ => 0 end)). set (alpha := (fun _ _ => Ok A) : coefficient coeff).
  destruct (terms_constructed make ex_geom example_mesh ks ks trial trial 0 0 (H1 1) (H1 1) (Diffusion alpha) example_wf B B eq_refl eq_refl Rules) as [s Pr]; [split; intros []|].
  destruct tria_constructed as [C Ex].
  set (ft := lagrange O1 kTria).
  destruct (built_exact_cell make example_mesh ks ks trial trial 0 0 (H1 1) (H1 1) ex_tria ft ft example_wf B B eq_refl eq_refl Rules C Ex (or_introl eq_refl) eq_refl eq_refl)
    as (vol & u & G & b & H & EC & _ & HG & _ & HH).
  exists make, ex_geom, example_mesh, ks, trial, s, alpha, A, G, H, vol, (DofModel.ECell 0), ft.
  assert (Gr : gradients_ok ft) by (apply lagrange_gradients; discriminate).
  assert (HA : everywhere (value_at (alpha (DofModel.ECell 0)) (fun _ => A))) by (intros p _; reflexivity).
  split; [exact example_wf|]. split; [exact B|]. split; [exact EC|]. split; [exact Pr|]. split; [exact Gr|]. split; [exact HG|]. split; [exact HH|]. split; [exact HA|].
  intros [M' [E' [_ [_ X']]]].
  destruct (diffusion_integrals make ex_geom trial trial 0 0 (DofModel.ECell 0) ft ft vol s EC alpha G H A Pr Gr Gr HG HH HA) as [M [E [_ [_ X]]]].
  rewrite E in E'. injection E' as <-. specialize (X 1%nat 2%nat ltac:(cbn; lia) ltac:(cbn; lia)). specialize (X' 1%nat 2%nat ltac:(cbn; lia) ltac:(cbn; lia)). rewrite X in X'. clear X.
  change (kind_el (go_kind (ex_geom (DofModel.ECell 0)))) with kTria in X'. change (go_dim (ex_geom (DofModel.ECell 0))) with 2%nat in X'.
  assert (D : forall p, length p = 2%nat -> vol p = 1 /\ (H 1%nat p 0%nat = 1 /\ H 1%nat p 1%nat = -1) /\ (G 2%nat p 0%nat = 0 /\ G 2%nat p 1%nat = 1)).
  { intros p Lp. destruct p as [|x [|y [|? ?]]]; try discriminate Lp. split; [|split].
    - destruct (ac_volume _ _ _ _ (ec_affine_trial _ _ _ _ _ _ _ _ _ EC) [x; y] eq_refl) as [J [HJ ->]]. injection HJ as <-. cbn. unfold vsub, pt. cbn.
      match goal with |- sqrt ?z = 1 => replace z with 1 by ring end. apply sqrt_1.
    - destruct (HH [x; y] eq_refl) as [J [gr [HJ [_ [HG' W]]]]]. injection HJ as <-. injection HG' as <-. specialize (W 1%nat ltac:(cbn; lia)). destruct W as [W _].
      pose proof (W 0%nat ltac:(cbn; lia)) as W0. pose proof (W 1%nat ltac:(cbn; lia)) as W1. cbn in W0, W1. unfold vsub, pt in W0, W1. cbn in W0, W1. lra.
    - destruct (HG [x; y] eq_refl) as [J [gr [HJ [_ [HG' W]]]]]. injection HJ as <-. injection HG' as <-. specialize (W 2%nat ltac:(cbn; lia)). destruct W as [W _].
      pose proof (W 0%nat ltac:(cbn; lia)) as W0. pose proof (W 1%nat ltac:(cbn; lia)) as W1. cbn in W0, W1. unfold vsub, pt in W0, W1. cbn in W0, W1. lra. }
  rewrite (integral_ext kTria _ (fun _ => 1)), (integral_ext kTria (fun p => vol p * inner 2 (G 2%nat p) _) (fun _ => 0)), !tria_constant in X'.
  - lra.
  - intros p Lp. destruct (D p Lp) as [-> [[D1 D2] [D3 D4]]]. unfold inner, ElemSpec.flux, A. cbn. rewrite D1, D2, D3, D4. ring.
  - intros p Lp. destruct (D p Lp) as [-> [[D1 D2] [D3 D4]]]. unfold inner, ElemSpec.flux, A. cbn. rewrite D1, D2, D3, D4. ring.
Qed.

(** The ultraweak method: all terms can be added; the cells of the example mesh are straight. *)
Definition ex_terms : list (nat * nat * term) :=
  [(0%nat, 0%nat, Convection (fun _ _ => Ok vzero) (fun _ _ => Ok (pt 1 2)));
   (4%nat, 0%nat, FluxTerm (fun _ _ => Ok 1));
   (1%nat, 1%nat, Reaction (fun _ p => Ok (nth 0 p 0)));
   (3%nat, 1%nat, TraceTerm (fun _ _ => Ok (pt 1 0)));
   (3%nat, 0%nat, Diffusion (fun _ _ => Ok (Scal 2)))].
Lemma ex_terms_added : exists make trial test b, provides_rules make /\ ProdSpec.built example_mesh ultraweak trial /\ ProdSpec.built example_mesh [H1 2; L2 3] test /\
  add_terms make ex_geom (NewBuilder trial test) ex_terms = Ok b /\ straight_cells example_mesh ex_geom.
Proof.
  destruct rules_available as [make Rules].
  destruct (proj2 (built_iff example_mesh ultraweak example_wf) ultraweak_offered) as [trial B].
  destruct (proj2 (built_iff example_mesh [H1 2; L2 3] example_wf)) as [test B']; [split; [discriminate|repeat constructor]|].
  assert (Add : forall ts b, bl_trial b = trial -> bl_test b = test ->
    Forall (fun t => exists kt kv, nth_error ultraweak (fst (fst t)) = Some kt /\ nth_error [H1 2; L2 3] (snd (fst t)) = Some kv /\ term_fits (snd t) kt kv) ts ->
    exists b', add_terms make ex_geom b ts = Ok b').
  { intros ts. induction ts as [|[[tc vc] t] ts IH]; intros b E1 E2 F; cbn [add_terms]; [eauto|]. inversion F as [|? ? [kt [kv [K1 [K2 K3]]]] F']; subst. cbn [fst snd] in *.
    unfold AddTerm. destruct (terms_constructed make ex_geom example_mesh ultraweak [H1 2; L2 3] (bl_trial b) (bl_test b) tc vc kt kv t example_wf B B' K1 K2 Rules K3) as [s ->].
    cbn [bind]. apply IH; auto. }
  destruct (Add ex_terms (NewBuilder trial test) eq_refl eq_refl) as [b Hb].
  - unfold ex_terms. repeat (constructor; [eexists; eexists; split; [reflexivity|split; [reflexivity|split; [intros []|first [exact I|intros []]]]]|]). constructor.
  - exists make, trial, test, b. split; [exact Rules|]. split; [exact B|]. split; [exact B'|]. split; [exact Hb|exact example_straight].
Qed.
