(** C106: integrals over the boundary of cells. *)
From Coq Require Import Reals List Arith ZArith Bool Lia Lra.
From Coquelicot Require Import Coquelicot.
Import ListNotations.
From Verif Require Import Base Scalars MeshModel MeshView DofModel RefPatModel GeoModel GeoSpec GeoProofs GeoProofs2 GeoProofs3 FlagModel FlagSpec FeModel QuadModel FeSpec QuadSpec
  HierProofs HierProofs3 PolyProofs AssembleModel ElemModel ElemSpec ElemProofs ElemProofs2 ElemProofs4 DpgModel ProdModel NormalModel NormalSpec NormalProofs3 NormalProofs4 NormalProofs5 NormalProofs7 LocModel LocSpec LocProofs.
Local Open Scope R_scope.

Lemma each_fold : forall A B (step : A -> B -> res B) (F : A -> B -> B) (I : B -> Prop) l m,
  (forall s m, In s l -> I m -> step s m = Ok (F s m)) -> (forall s m, In s l -> I m -> I (F s m)) -> I m ->
  each l step m = Ok (fold_left (fun m s => F s m) l m).
Proof.
  intros A B step F I l. unfold each. induction l as [|s l IH]; intros m H K Im; [reflexivity|].
  cbn [fold_left bind]. rewrite (H s m (or_introl eq_refl) Im).
  apply IH; [intros s' m' Is; apply H; right; exact Is|intros s' m' Is; apply K; right; exact Is|apply K; [left; reflexivity|exact Im]].
Qed.
Lemma nth_in_range : forall A (l : list A) i d, (i < length l)%nat -> elem_at l i = Ok (nth i l d).
Proof. intros A l i d H. unfold elem_at. rewrite (nth_error_nth' l d H). reflexivity. Qed.

(** *** Rules on the boundary *)
Section Boundary.
Variables (el : refel) (k : nat) (q : quadrule).
Hypothesis (Hel : el = kTria \/ el = kQuad) (Rq : rule_for kSegment k q).
Lemma nsub : num_sub_entities el 1 = num_nodes el. Proof. destruct Hel as [-> | ->]; reflexivity. Qed.
Lemma traverse_nth_error : forall A B (f : A -> res B) l bs i b, traverse f l = Ok bs -> nth_error bs i = Some b ->
  exists a, nth_error l i = Some a /\ f a = Ok b.
Proof.
  intros A B f l. induction l as [|x l IH]; intros bs i b H Hb; cbn [traverse] in H.
  - injection H as <-. destruct i; discriminate.
  - destruct (bind_ok _ _ _ _ _ H) as [y [Hy H1]]. destruct (bind_ok _ _ _ _ _ H1) as [ys [Hys H2]]. injection H2 as <-.
    destruct i as [|i]; cbn in Hb |- *; [injection Hb as <-; eauto|]. eapply IH; eassumption.
Qed.
Lemma on_boundary_rule : forall L f ps s, BoundaryQuadRule el q = Ok L -> traverse (precompute f) L = Ok ps -> (s < num_nodes el)%nat ->
  length ps = num_nodes el /\ exists p, nth_error ps s = Some p /\ elem_at ps s = Ok p /\ pc_fe p = f /\
    qr_points (pc_qr p) = map (boundary_point el s) (qr_points q) /\ NumPoints (pc_qr p) = NumPoints q /\
    traverse (fe_eval f) (map (boundary_point el s) (qr_points q)) = Ok (pc_shap p).
Proof.
  intros L f ps s HL HP Hs. destruct (boundary_rules el k q Hel Rq) as [L' [HL' [LL H]]]. rewrite HL in HL'. injection HL' as <-.
  pose proof (traverse_length _ _ _ _ _ HP) as LP. rewrite LL in LP. split; [exact LP|].
  destruct (nth_error ps s) as [p|] eqn:Ep; [|apply nth_error_None in Ep; lia]. exists p. split; [reflexivity|].
  split; [unfold elem_at; rewrite Ep; reflexivity|].
  destruct (traverse_nth_error _ _ _ _ _ _ _ HP Ep) as [r [Er Pr]]. destruct (H s r Er) as [_ [Pts _]].
  destruct (precompute_ok _ _ _ Pr) as [E1 [E2 [E3 _]]]. split; [exact E1|]. rewrite E2, Pts. split; [reflexivity|].
  split; [unfold NumPoints; rewrite Pts, map_length; reflexivity|]. rewrite Pts in E3. exact E3.
Qed.
Lemma boundary_shape_each : forall f b s rsf k' i, at_points q (fun x => shape_at f b (boundary_point el s x)) ->
  traverse (fe_eval f) (map (boundary_point el s) (qr_points q)) = Ok rsf -> (k' < NumPoints q)%nat -> (i < fe_total f)%nat ->
  nth i (nth k' rsf []) 0 = b i (boundary_point el s (nth k' (qr_points q) [])).
Proof.
  intros f b s rsf k' i HB HS Hk Hi. destruct (traverse_nth _ _ _ _ _ HS) as [_ N].
  destruct (HB _ (pt_in q k' Hk)) as [v [E [_ EV]]].
  assert (Hk2 : (k' < length (map (boundary_point el s) (qr_points q)))%nat) by (rewrite map_length; exact Hk).
  pose proof (N k' (boundary_point el s []) [] Hk2) as E'. rewrite map_nth in E'.
  assert (X : nth k' rsf [] = v) by congruence. rewrite X. apply EV. exact Hi.
Qed.
Lemma boundary_traverse : forall A (m : mesh_fun A) h s, at_points q (fun x => value_at m h (boundary_point el s x)) ->
  traverse m (map (boundary_point el s) (qr_points q)) = Ok (map (fun x => h (boundary_point el s x)) (qr_points q)).
Proof.
  intros A m h s H. rewrite (traverse_map _ _ m h); [rewrite map_map; reflexivity|]. intros p Hp. apply in_map_iff in Hp. destruct Hp as [x [<- Hx]]. apply H. exact Hx.
Qed.
End Boundary.

(** *** Fluxes *)
Lemma bacc_entry : forall c0 n (w : nat -> R) (X : nat -> nat -> nat -> R) ks m,
  d_rows Rring (fold_left (fun m k => block_add m c0 n (w k) (X k)) ks m) = d_rows Rring m /\
  d_cols Rring (fold_left (fun m k => block_add m c0 n (w k) (X k)) ks m) = d_cols Rring m /\
  forall i j, (d_coef Rring (fold_left (fun m k => block_add m c0 n (w k) (X k)) ks m) i j : R) =
    if ((c0 <=? j) && (j <? c0 + n))%nat then (d_coef Rring m i j : R) + rsum (map (fun k => w k * X k i (j - c0)%nat) ks) else d_coef Rring m i j.
Proof.
  intros c0 n w X ks. induction ks as [|k ks IH]; intros m; cbn [fold_left map].
  - split; [reflexivity|]. split; [reflexivity|]. intros i j. cbn [rsum fold_right]. destruct (_ && _); [|reflexivity]. symmetry. apply Rplus_0_r.
  - destruct (IH (block_add m c0 n (w k) (X k))) as [A [B C]]. split; [exact A|]. split; [exact B|]. intros i j. rewrite C.
    change (rsum (?x :: ?y)) with (x + rsum y). cbn [block_add d_coef]. destruct (_ && _); [|reflexivity]. cbn [car Rring]. lra.
Qed.
Lemma flux_get : forall make trial test tc vc P, precompute_flux make trial test tc vc = Ok P ->
  SignProvider (ps_mesh trial) = Ok (snd P) /\ exists ft, ShapeFunctionLayout trial kSegment tc = Ok (Some ft) /\ fe_num1 ft 1 = Ok 0%nat /\
  forall el, el = kTria \/ el = kQuad -> exists ov, ShapeFunctionLayout test el vc = Ok ov /\
  match ov with
  | Some fv => exists q pt L pvs, make kSegment (fe_degree ft + fe_degree fv)%nat = Ok q /\ precompute ft q = Ok pt /\
      BoundaryQuadRule el q = Ok L /\ traverse (precompute fv) L = Ok pvs /\ type_get (fst P) el (None, []) = (Some pt, pvs)
  | None => type_get (fst P) el (None, []) = (None, [])
  end.
Proof.
  intros make trial test tc vc P H. unfold precompute_flux in H. apply bind_ok in H. destruct H as [sp [H1 H]].
  apply bind_ok in H. destruct H as [ot [H2 H]]. destruct ot as [ft|]; [|discriminate]. apply bind_ok in H. destruct H as [n [H3 H]].
  apply bind_ok in H. destruct H as [u [H4 H]]. apply lf_assert_ok in H4. apply Nat.eqb_eq in H4. subst n. cbv beta zeta in H.
  apply bind_ok in H. destruct H as [a [Ha H]]. apply bind_ok in H. destruct H as [b [Hb H]]. injection H as <-. cbn [fst snd].
  split; [exact H1|]. exists ft. do 2 (split; [assumption|]). intros el Hel.
  assert (One : forall t c, (do fe_test <- ShapeFunctionLayout test t vc;
    match fe_test with
    | None => Ok (None, [])
    | Some fv =>
        do segment_qr <- make kSegment (fe_degree ft + fe_degree fv)%nat;
        do pt <- precompute ft segment_qr;
        do boundaryQr <- BoundaryQuadRule t segment_qr;
        do _ <- lf_assert (length boundaryQr =? num_sub_entities t 1)%nat;
        do pvs <- traverse (precompute fv) boundaryQr;
        Ok (Some pt, pvs)
    end) = Ok c -> exists ov, ShapeFunctionLayout test t vc = Ok ov /\
    match ov with
    | Some fv => exists q pt L pvs, make kSegment (fe_degree ft + fe_degree fv)%nat = Ok q /\ precompute ft q = Ok pt /\
        BoundaryQuadRule t q = Ok L /\ traverse (precompute fv) L = Ok pvs /\ c = (Some pt, pvs)
    | None => c = (None, [])
    end).
  { intros t c X. apply bind_ok in X. destruct X as [ov [X1 X]]. exists ov. split; [exact X1|]. destruct ov as [fv|]; [|congruence].
    apply bind_ok in X. destruct X as [q [X2 X]]. apply bind_ok in X. destruct X as [pt [X3 X]]. apply bind_ok in X. destruct X as [L [X4 X]].
    apply bind_ok in X. destruct X as [u' [_ X]]. apply bind_ok in X. destruct X as [pvs [X5 X]]. injection X as <-. exists q, pt, L, pvs. auto. }
  destruct Hel as [-> | ->]; cbn [type_get on_tria on_quad]; apply One; assumption.
Qed.
Lemma flux_parts : forall make geom trial test tc vc alpha s, provider make geom trial test tc vc (FluxTerm alpha) = Ok s ->
  exists P, precompute_flux make trial test tc vc = Ok P /\ placed s tc vc /\ sm_eval s = FluxMat geom P (ps_mesh trial) alpha.
Proof.
  intros make geom trial test tc vc alpha s H. unfold provider in H. cbv beta zeta in H. apply bind_ok in H. destruct H as [P [H1 H]]. injection H as <-.
  exists P. split; [exact H1|]. split; [split; [reflexivity|split; reflexivity]|reflexivity].
Qed.
Lemma block_index : forall n s s' j, (j < n)%nat -> ((s' * n <=? s * n + j) && (s * n + j <? s' * n + n))%nat = (s' =? s)%nat.
Proof.
  intros n s s' j Hj. destruct (Nat.eqb_spec s' s) as [-> | Ne].
  - apply andb_true_iff. split; [apply Nat.leb_le; lia|apply Nat.ltb_lt; lia].
  - apply andb_false_iff. destruct (Nat.lt_trichotomy s' s) as [L|[E|L]]; [right|contradiction|left].
    + apply Nat.ltb_ge. assert ((s' + 1) * n <= s * n)%nat by (apply Nat.mul_le_mono_r; lia). lia.
    + apply Nat.leb_gt. assert ((s + 1) * n <= s' * n)%nat by (apply Nat.mul_le_mono_r; lia). lia.
Qed.
Section Flux.
Variables (make : refel -> nat -> res quadrule) (geom : ent -> geo) (trial test : product_space) (tc vc : nat).
Variables (c : nat) (ft fv : srfe) (q : quadrule).
Let cell := DofModel.ECell c.
Let g := geom cell.
Let el := kind_el (go_kind g).
Let m := ps_mesh trial.
Hypothesis FC : flux_cell make g trial test tc vc ft fv q.
Variables (ell : nat -> list R -> R) (v : cellv).
Hypothesis HE : edge_elements q g ell.
Hypothesis W : wf_mesh m.
Hypothesis HC : nth_error (mv_cells m) c = Some v.
Hypothesis HT : cv_type v = el.

Lemma edges_count : length (cv_edges v) = num_nodes el.
Proof.
  rewrite <- HT. pose proof (wm_cells m W) as F. rewrite Forall_forall in F. specialize (F v (nth_error_In _ _ HC)).
  rewrite (wc_edges m v F). unfold cv_type, cell_type. destruct (wc_shape m v F) as [E|E]; rewrite E; reflexivity.
Qed.
Lemma sign_value : forall d s, SignProvider m = Ok d -> (s < num_nodes el)%nat -> exists e z, edge_of m c s e /\
  nth_error (cv_edges v) s = Some e /\ PrescribedSign d c e = Ok z /\ sign_of m c e (IZR z).
Proof.
  intros d s Hd Hs. destruct (nth_error (cv_edges v) s) as [e|] eqn:E; [|apply nth_error_None in E; rewrite edges_count in E; lia].
  assert (EO : edge_of m c s e) by (exists v; auto). assert (CE : cell_at_edge m e c) by (exists s; exact EO).
  destruct (prescribed_signs m W) as [d' [Hd' [A B]]]. rewrite Hd in Hd'. injection Hd' as <-.
  destruct (A c e) as [Z | Z]; [exact (edge_range m c s e W EO)| |]; eexists; eexists; (split; [exact EO|]); (split; [reflexivity|]); (split; [exact Z|]).
  - left. split; [reflexivity|]. apply (B c e CE). exact Z.
  - right. split; [reflexivity|]. destruct (one_sign m d e c W Hd CE) as [c0 [X [Y K]]]. exists c0. split; [exact X|].
    assert (c <> c0) by (intros ->; rewrite Y in Z; discriminate).
    pose proof (proj1 (B c0 e X) Y c CE). lia.
Qed.
Theorem flux_term : forall s alpha psi b a, provider make geom trial test tc vc (FluxTerm alpha) = Ok s ->
  at_points q (shape_at ft psi) -> boundary_shapes el fv b q -> boundary_values el (alpha cell) a q ->
  exists sg, (forall i e, edge_of m c i e -> sign_of m c e (sg i)) /\ placed s tc vc /\
  is_by_edges (sm_eval s cell) (fe_total fv) (fe_total ft) (num_nodes el) (fun i k j =>
    quadrature q (fun x => ell k x * (sg k * a (boundary_point el k x) * psi j x * b i (boundary_point el k x)))).
Proof.
  intros s alpha psi b a Pr HPsi HB HAl. destruct (flux_parts _ _ _ _ _ _ _ _ Pr) as [P [HP [Pl Es]]].
  destruct FC as [D Ht Hv Mk Rq]. pose proof (cell_el g D) as Hel. fold el in Hel, Hv.
  destruct (flux_get _ _ _ _ _ _ HP) as [Sp [ft' [X1 [_ X]]]]. rewrite Ht in X1. injection X1 as <-.
  destruct (X el Hel) as [ov [X1 Y]]. rewrite Hv in X1. injection X1 as <-. destruct Y as [q' [pt [L [pvs [Y1 [Y2 [Y3 [Y4 Y5]]]]]]]].
  rewrite Mk in Y1. injection Y1 as <-. fold m in Sp. destruct (precompute_ok _ _ _ Y2) as [E1 [E2 [E3 _]]].
  assert (Sg : exists sg, forall s, (s < num_nodes el)%nat -> exists e z, edge_of m c s e /\
    nth_error (cv_edges v) s = Some e /\ PrescribedSign (snd P) c e = Ok z /\ IZR z = sg s /\ sign_of m c e (sg s)).
  { exists (fun s => match nth_error (cv_edges v) s with Some e => match PrescribedSign (snd P) c e with Ok z => IZR z | _ => 0 end | None => 0 end).
    intros s0 Hs0. destruct (sign_value (snd P) s0 Sp Hs0) as [e [z [A1 [A2 [A3 A4]]]]]. exists e, z. rewrite A2, A3. auto. }
  destruct Sg as [sg Sg]. exists sg. split.
  { intros i e EO. assert (Hi : (i < num_nodes el)%nat).
    { destruct EO as [v' [F1 F2]]. rewrite HC in F1. injection F1 as <-. rewrite <- edges_count. apply nth_error_Some. rewrite F2. discriminate. }
    destruct (Sg i Hi) as [e' [z [[v' [F1 F2]] [F3 [_ [_ F4]]]]]]. destruct EO as [v'' [G1 G2]]. rewrite HC in G1. injection G1 as <-. congruence. }
  split; [exact Pl|]. rewrite Es. unfold is_by_edges, FluxMat. cbv zeta. fold cell g el m. rewrite Y5, (nsub el Hel).
  assert (Hb : forall s0, (s0 < num_nodes el)%nat -> exists p, nth_error pvs s0 = Some p /\ elem_at pvs s0 = Ok p /\ pc_fe p = fv /\
    qr_points (pc_qr p) = map (boundary_point el s0) (qr_points q) /\ NumPoints (pc_qr p) = NumPoints q /\
    traverse (fe_eval fv) (map (boundary_point el s0) (qr_points q)) = Ok (pc_shap p)).
  { intros s0 Hs0. destruct (on_boundary_rule el _ q Hel Rq L fv pvs s0 Y3 Y4 Hs0) as [_ Q]. exact Q. }
  assert (N0 : (0 < num_nodes el)%nat) by (destruct Hel as [-> | ->]; cbn; lia).
  assert (LP : length pvs = num_nodes el) by (destruct (on_boundary_rule el _ q Hel Rq L fv pvs 0 Y3 Y4 N0) as [Q _]; exact Q).
  rewrite LP, Nat.eqb_refl. cbn [lf_assert bind]. rewrite E2, E1.
  rewrite (lf_true (forallb _ pvs)).
  2: { apply forallb_forall. intros p Hp. apply In_nth_error in Hp. destruct Hp as [s0 Hs0].
       assert (L0 : (s0 < num_nodes el)%nat) by (rewrite <- LP; apply nth_error_Some; rewrite Hs0; discriminate).
       destruct (Hb s0 L0) as [p' [F1 [_ [_ [_ [F2 _]]]]]]. rewrite Hs0 in F1. injection F1 as <-. rewrite F2. apply Nat.eqb_refl. }
  cbn [bind]. rewrite D. cbn [Nat.eqb lf_assert bind]. destruct (Hb 0%nat N0) as [p0 [_ [F0 [F1 _]]]]. rewrite F0. cbn [bind]. rewrite F1.
  set (n := fe_total ft).
  set (sh := fun s0 => nth s0 (map pc_shap pvs) []).
  set (w := fun s0 k => nth k (map (fun x => a (boundary_point el s0 x)) (qr_points q)) 0 * (nth k (qr_weights q) 0 * nth k (map (ell s0) (qr_points q)) 0 * sg s0)).
  set (Z := fun s0 k i j => nth i (nth k (sh s0) []) 0 * nth j (nth k (pc_shap pt) []) 0).
  set (F := fun s0 mat => fold_left (fun mat k => block_add mat (s0 * n) n (w s0 k) (Z s0 k)) (seq 0 (NumPoints q)) mat).
  rewrite (each_fold _ _ _ F (fun _ => True)); [|clear - Sg HE Hel HC Hb HAl cell Rq|auto|exact I].
  2: { intros s0 mat Hs0 _. apply in_seq in Hs0. destruct (HE s0 ltac:(fold el; lia)) as [e [HS [R1 [R2 R3]]]]. rewrite HS. cbn [bind].
       rewrite (dets q e R2 (ell s0) R3). cbn [bind]. rewrite (assert_len q _ (map (ell s0) (qr_points q))) by apply map_length. cbn [bind].
       destruct (Hb s0 ltac:(lia)) as [p [G1 [G2 [G3 [G4 [G5 G6]]]]]]. rewrite G2. cbn [bind]. rewrite G4.
       rewrite (boundary_traverse el q _ (alpha cell) a s0 (HAl s0 ltac:(lia))). cbn [bind sub_entities ent_index cell].
       destruct (Sg s0 ltac:(lia)) as [ed [z [S1 [S2 [S3 [S4 S5]]]]]].
       assert (EC : cell_at m c = v) by (unfold cell_at; apply nth_error_nth; exact HC).
       unfold elem_at at 1. rewrite EC, S2. cbn [bind]. rewrite S3. cbn [bind]. unfold F, w, Z, sh.
       rewrite (nth_error_nth (map pc_shap pvs) s0 [] (map_nth_error pc_shap s0 pvs G1)), S4. reflexivity. }
  eexists. split; [reflexivity|].
  assert (Fold : forall l mat, (forall s0, In s0 l -> (s0 < num_nodes el)%nat) -> NoDup l ->
     d_rows Rring (fold_left (fun m s => F s m) l mat) = d_rows Rring mat /\ d_cols Rring (fold_left (fun m s => F s m) l mat) = d_cols Rring mat /\
     forall i s0 j, (j < n)%nat ->
      (In s0 l -> (d_coef Rring (fold_left (fun m s => F s m) l mat) i (s0 * n + j)%nat : R) =
        (d_coef Rring mat i (s0 * n + j)%nat : R) + rsum (map (fun k => w s0 k * Z s0 k i j) (seq 0 (NumPoints q)))) /\
      (~ In s0 l -> d_coef Rring (fold_left (fun m s => F s m) l mat) i (s0 * n + j)%nat = d_coef Rring mat i (s0 * n + j)%nat)).
  { intros l. induction l as [|s0 l IH]; intros mat Hl Nd; cbn [fold_left].
    - split; [reflexivity|]. split; [reflexivity|]. intros. split; [intros []|reflexivity].
    - destruct (bacc_entry (s0 * n) n (w s0) (Z s0) (seq 0 (NumPoints q)) mat) as [B1 [B2 B3]]. fold (F s0 mat) in B1, B2, B3. inversion Nd as [|? ? Ni Nd']; subst.
      destruct (IH (F s0 mat) (fun s1 H1 => Hl s1 (or_intror H1)) Nd') as [C1 [C2 C3]]. split; [congruence|]. split; [congruence|].
      intros i s1 j Hj. destruct (C3 i s1 j Hj) as [K1 K2]. specialize (B3 i (s1 * n + j)%nat). rewrite (block_index n s1 s0 j Hj) in B3. split.
      + intros [<- | Hin].
        * rewrite (K2 Ni). rewrite Nat.eqb_refl in B3. replace (s0 * n + j - s0 * n)%nat with j in B3 by lia. exact B3.
        * rewrite (K1 Hin). destruct (Nat.eqb_spec s0 s1) as [-> | _]; [contradiction|]. rewrite B3. reflexivity.
      + intros Nin. rewrite K2 by (intros Hin; apply Nin; right; exact Hin). destruct (Nat.eqb_spec s0 s1) as [-> | _]; [exfalso; apply Nin; left; reflexivity|]. exact B3. }
  destruct (Fold (seq 0 (num_nodes el)) (dzero (fe_total fv) (n * num_nodes el)) ltac:(intros s0 H0; apply in_seq in H0; lia) (seq_NoDup _ _)) as [C1 [C2 C3]].
  split; [exact C1|]. split; [exact C2|]. intros i s0 j Hi Hs0 Hj. destruct (C3 i s0 j Hj) as [K1 _].
  rewrite (K1 ltac:(apply in_seq; lia)). cbn [dzero d_coef]. rewrite Rplus_0_l, (quad_idx q _ (rf_weights _ _ _ Rq)). apply rs_ext. intros k Hk. apply in_seq in Hk.
  unfold w, Z, sh. rewrite !(nth_map_in q) by lia. destruct (Hb s0 Hs0) as [p [G1 [_ [_ [_ [_ G6]]]]]].
  rewrite (nth_error_nth (map pc_shap pvs) s0 [] (map_nth_error pc_shap s0 pvs G1)).
  rewrite (boundary_shape_each el q fv b s0 (pc_shap p) k i (HB s0 Hs0) G6) by lia.
  assert (SE : nth j (nth k (pc_shap pt) []) 0 = psi j (nth k (qr_points q) [])).
  { destruct (traverse_nth _ _ _ _ _ E3) as [_ N]. assert (Hk' : (k < NumPoints q)%nat) by lia. destruct (HPsi _ (pt_in q k Hk')) as [u [Eu [_ EV]]].
    pose proof (N k [] [] Hk') as E'. assert (Q : nth k (pc_shap pt) [] = u) by congruence. rewrite Q. apply EV. exact Hj. }
  rewrite SE. ring.
Qed.
End Flux.
