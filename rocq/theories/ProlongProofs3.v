(** Proofs for C66: prolongation. *)
From Coq Require Import Reals List Arith Bool ZArith Lia Lra.
Import ListNotations.
From Verif Require Import Base Scalars MeshModel MeshView RefPatModel RefPatSpec RefineModel RefineSpec RefineProofs2 DofModel DofSpec GeoModel GeoSpec FeModel LagrModel AssembleModel
  FeSpec FeProofs LagrProofs LagrProofs2 LagrProofs3 HierProofs FeToolsModel FeToolsSpec FeToolsProofs FeToolsProofs2
  TransferModel TransferSpec TransferProofs TransferProofs2 TransferProofs3 TransferProofs4 ProlongSpec ProlongProofs ProlongProofs2.
Local Open Scope R_scope.

(** *** Finite element functions are continuous *)
Lemma lagrange_value : forall k m V coef e x, wf_mesh m -> lagrange_space k m = Ok V -> length coef = NumDofs (sp_dofs V) -> valid m e ->
  ent_codim e <> 2%nat -> length x = el_dim (ent_type m e) ->
  exists l v, GlobalDofIndices (sp_dofs V) e = Ok l /\ length l = fe_total (lagrange k (ent_type m e)) /\ fe_eval (lagrange k (ent_type m e)) x = Ok v /\
    length v = fe_total (lagrange k (ent_type m e)) /\ fe_value V coef e x = Ok (dot (map (fun g => nth g coef 0) l) v).
Proof.
  intros k m V coef e x W EV Lc Ve NN Lx. destruct (V_is k m V EV) as (VM & VD & VL).
  destruct (lagrange_elements k m V W EV) as (_ & EO0 & EO1 & _).
  assert (EO : element_ok V e).
  { destruct e as [i|i|i]; [exfalso; apply NN; reflexivity|apply EO1|apply EO0].
    - cbn in *. apply in_map, in_seq. lia.
    - apply cells_in. exact Ve. }
  destruct EO as (f & l & Lo & HD & _ & RG & LT & _). rewrite VL in Lo. injection Lo as <-. unfold has_dofs in HD.
  destruct (lagrange_describes k (ent_type m e)) as (EL & _ & CO & _).
  destruct (co_eval _ CO x) as (v & Ev & Lv); [rewrite EL; rewrite Lx; destruct (ent_type m e); reflexivity|].
  exists l, v. split; [exact HD|]. split; [exact LT|]. split; [exact Ev|]. split; [exact Lv|].
  eapply fe_value_ok; [apply VL|exact Ev|exact HD|lia|rewrite Lc; exact RG].
Qed.
Lemma fe_function_continuous : forall k m V coef, wf_mesh m -> lagrange_space k m = Ok V -> length coef = NumDofs (sp_dofs V) ->
  continuous_function m (fe_value V coef).
Proof.
  intros k m V coef W EV Lc. destruct (lagrange_conforming k m V W EV) as (VM & CF). pose proof (conforming_continuous V coef CF Lc) as CN.
  split.
  - intros e x Ve Hx. destruct e as [i|i|i].
    + destruct x; [|destruct Hx]. assert (Vi : valid (sp_mesh V) (ENode i)) by (rewrite VM; exact Ve).
      destruct (cf_node V CF i Vi) as ((g & Og) & _). rewrite (node_value V coef CF Lc i g Vi Og). eauto.
    + destruct (lagrange_value k m V coef (EEdge i) x W EV Lc Ve ltac:(discriminate) (in_ref_length _ _ Hx)) as (l & v & _ & _ & _ & _ & E). eauto.
    + destruct (lagrange_value k m V coef (ECell i) x W EV Lc Ve ltac:(discriminate) (in_ref_length _ _ Hx)) as (l & v & _ & _ & _ & _ & E). eauto.
  - intros i c j e o t Ec Ee Eo _. rewrite <- VM in Ec. destruct (cn_edge _ _ CN i c j e o t Ec Ee Eo) as (w & A & B). congruence.
  - intros i c j n Ec En. rewrite <- VM in Ec. destruct (cn_node _ _ CN i c j n Ec En) as (w & A & B). congruence.
  - intros e a b E. rewrite <- VM in E. destruct (cn_ends _ _ CN e a b E) as (wa & wb & A & B & C & D). split; congruence.
Qed.

(** *** Transfer of continuous functions *)
Section Transfer.
Variable H : hierarchy.
Hypothesis GL : good_levels (levels H).
Lemma transfer_inside : forall mf lc lf L L' e p w x, (lc <= lf)%nat -> nth_error (levels H) lf = Some L -> nth_error (levels H) (S lf) = Some L' ->
  valid (l_mesh L') e -> length x = ent_dim e -> inside L L' e p w ->
  transfer_eval H mf lc (S lf) e x = if (lc =? lf)%nat then mf p (onto w x) else transfer_eval H mf lc lf p (onto w x).
Proof.
  intros mf lc lf L L' e p w x Hl E E' V Hx IN.
  destruct (nth_in H GL _ _ E) as [W S0]. destruct (nth_in H GL _ _ E') as [W' _]. destruct (gl_step _ GL _ _ _ E E') as [RF LK].
  destruct (transfer_image H GL mf lc (S lf) L' e x ltac:(lia) E' V Hx) as (Lc & q & y & EC & IM & Vq & Ly & ET). rewrite ET.
  inversion IM as [l0 e0 x0 A1 A2 A3 A4 A5 A6 | l0 e0 x0 L0 L0' p0 w0 k0 q0 y0 E0 E0' IN0 I2 A1 A2 A3 A4 A5 A6]; subst; [lia|].
  rewrite E in E0. injection E0 as <-. rewrite E' in E0'. injection E0' as <-.
  destruct (inside_unique L L' W S0 LK _ _ _ _ _ IN IN0) as [<- <-].
  destruct (Nat.eqb_spec lc lf) as [->|N].
  - inversion I2 as [l0 e0 x0 A1 A2 A3 A4 A5 A6 | l0 e0 x0 L0 L0' p0 w0 k0 q0 y0 E0 E0' IN' I3 A1 A2 A3 A4 A5 A6]; subst; [reflexivity|].
    pose proof (image_le H _ _ _ _ _ _ I3). lia.
  - assert (Vp : valid (l_mesh L) p).
    { destruct (up H GL _ _ _ _ E E' V) as (p' & w' & _ & Vp & _ & IN' & _). destruct (inside_unique L L' W S0 LK _ _ _ _ _ IN IN') as [-> _]. exact Vp. }
    destruct (transfer_image H GL mf lc lf L p (onto w x) ltac:(lia) E Vp) as (Lc' & q' & y' & EC' & IM' & _ & _ & ET').
    { exact (inside_dim L L' e p w x W W' V Vp IN). }
    rewrite ET'. destruct (image_unique H GL _ _ _ _ _ _ _ _ I2 IM') as [-> ->]. reflexivity.
Qed.
Theorem transfer_continuous : forall mf lc lf Lc L, (lc < lf)%nat -> nth_error (levels H) lc = Some Lc -> nth_error (levels H) lf = Some L ->
  continuous_function (l_mesh Lc) mf -> continuous_function (l_mesh L) (transfer_eval H mf lc lf).
Proof.
  intros mf lc lf. induction lf as [|lf IH]; intros Lc L' Hl EC E' CM; [lia|].
  destruct (nth_error (levels H) lf) as [L|] eqn:E.
  2: { apply nth_error_None in E. assert (S lf < length (levels H))%nat by (apply nth_error_Some; congruence). lia. }
  destruct (nth_in H GL _ _ E) as [W S0]. destruct (nth_in H GL _ _ E') as [W' _]. destruct (gl_step _ GL _ _ _ E E') as [RF LK].
  assert (LX : forall e x, valid (l_mesh L') e -> in_ref (ent_type (l_mesh L') e) x -> length x = ent_dim e).
  { intros e x V Hx. rewrite (in_ref_length _ _ Hx). apply type_dim; auto. }
  destruct (Nat.eq_dec lc lf) as [->|N].
  - rewrite EC in E. injection E as ->. apply (step_continuous L L' W W' S0 RF LK mf); auto.
    intros e p w x V Hx IN. rewrite (transfer_inside mf lf lf L L' e p w x); auto. rewrite Nat.eqb_refl. reflexivity.
  - apply (step_continuous L L' W W' S0 RF LK (transfer_eval H mf lc lf)); auto.
    + apply (IH Lc L); auto. lia.
    + intros e p w x V Hx IN. rewrite (transfer_inside mf lc lf L L' e p w x); auto; [|lia]. destruct (Nat.eqb_spec lc lf); [contradiction|reflexivity].
Qed.
End Transfer.

(** *** Prolongation *)
Theorem prolongation : forall H k k' l L L' Vc Vf dofs, reached H -> nth_error (levels H) l = Some L -> nth_error (levels H) (S l) = Some L' ->
  lagrange_space k (l_mesh L) = Ok Vc -> lagrange_space k' (l_mesh L') = Ok Vf -> length dofs = NumDofs (sp_dofs Vc) ->
  exists c, prolongate H (Some l) Vc Vf dofs l = Ok c /\ length c = NumDofs (sp_dofs Vf) /\
    forall i F p q y, nth_error (mv_cells (l_mesh L')) i = Some F -> In p (fe_nodes (lagrange k' (cv_type F))) ->
      image (levels H) (S l) (ECell i) p l q y -> exists v, fe_value Vf c (ECell i) p = Ok v /\ fe_value Vc dofs q y = Ok v.
Proof.
  intros H k k' l L L' Vc Vf dofs RE E E' EC EF Ld. pose proof (reached_levels H RE) as GL.
  destruct (nth_in H GL _ _ E) as [W S0]. destruct (nth_in H GL _ _ E') as [W' _].
  assert (LL : (S l < length (levels H))%nat) by (apply nth_error_Some; congruence).
  pose proof (fe_function_continuous k _ Vc dofs W EC Ld) as CC.
  pose proof (transfer_continuous H GL _ l (S l) L L' ltac:(lia) E E' CC) as CT.
  destruct (interpolates k' (l_mesh L') Vf _ W' EF CT) as (c & Ec & Lc & Q).
  exists c. split; [|split; [exact Lc|]].
  - unfold prolongate, transfer_checks. change (all_levels H) with (levels H). rewrite Ld.
    rewrite (proj2 (Nat.ltb_lt l (length (levels H) - 1))) by lia. rewrite Nat.leb_refl. cbn [lf_assert bind].
    rewrite (proj2 (Nat.ltb_lt l (l + 1))) by lia. rewrite (proj2 (Nat.ltb_lt (l + 1) (length (levels H)))) by lia. cbn [lf_assert bind].
    rewrite Nat.eqb_refl. cbn [lf_assert bind]. rewrite Nat.add_1_r. exact Ec.
  - intros i F p q y Hi Hp IM. rewrite (Q i F p Hi Hp).
    assert (VI : valid (l_mesh L') (ECell i)) by (cbn; apply nth_error_Some; congruence).
    assert (TF : cv_type F = kTria \/ cv_type F = kQuad).
    { eapply tq. eapply cell_wf_of; eauto. }
    assert (Tc : ent_type (l_mesh L') (ECell i) = cv_type F) by (cbn; unfold DofModel.cell_at; rewrite (nth_error_nth _ _ _ Hi); reflexivity).
    assert (PI : in_ref (ent_type (l_mesh L') (ECell i)) p) by (rewrite Tc; eapply nodes_in; eauto).
    destruct (transfer_image H GL (fe_value Vc dofs) l (S l) L' (ECell i) p ltac:(lia) E' VI) as (Lc' & q' & y' & _ & IM' & _ & _ & ET).
    { rewrite (in_ref_length _ _ PI). apply type_dim; auto. }
    destruct (image_unique H GL _ _ _ _ _ _ _ _ IM IM') as [<- <-]. rewrite ET.
    destruct (ct_value _ _ CT (ECell i) p VI PI) as (v & Ev). rewrite ET in Ev. eauto.
Qed.

(** *** Exactness *)
Ltac each H := repeat (destruct H as [<-|H]); try contradiction.
Ltac shape := cbv [lagrange fe_eval fe_nodes o1_tria o1_quad o2_tria o2_quad o3_tria o3_quad point2 o3_tria_eval tensor_eval o2_seg_eval o3_seg_eval o2_mapping o3_mapping
   map nth fst snd app monomial combine fold_right pow dot rsum].
Lemma tria_compose : forall k e a0 a1 a2 b0 b1 b2 x y, In e (exponents kTria (ord k)) ->
  let A p := [a0 + a1 * nth 0 p 0 + a2 * nth 1 p 0; b0 + b1 * nth 0 p 0 + b2 * nth 1 p 0] in
  exists v, fe_eval (lagrange k kTria) [x; y] = Ok v /\ monomial e (A [x; y]) = dot (map (fun p => monomial e (A p)) (fe_nodes (lagrange k kTria))) v.
Proof.
  intros k e a0 a1 a2 b0 b1 b2 x y H A. unfold A. clear A.
  destruct k; cbn in H; each H; (eexists; split; [reflexivity|]); shape; field.
Qed.
Lemma quad_compose : forall k e (sw : bool) a0 a1 b0 b1 x y, In e (exponents kQuad (ord k)) ->
  let A p := [a0 + a1 * nth (if sw then 1 else 0) p 0; b0 + b1 * nth (if sw then 0 else 1) p 0] in
  exists v, fe_eval (lagrange k kQuad) [x; y] = Ok v /\ monomial e (A [x; y]) = dot (map (fun p => monomial e (A p)) (fe_nodes (lagrange k kQuad))) v.
Proof.
  intros k e sw a0 a1 b0 b1 x y H A. unfold A. clear A.
  destruct k, sw; cbn in H; each H; (eexists; split; [reflexivity|]); shape; field.
Qed.
Lemma exponents_incl : forall t k k' e, (t = kTria \/ t = kQuad) -> (ord k <= ord k')%nat -> In e (exponents t (ord k)) -> In e (exponents t (ord k')).
Proof.
  intros t k k' e T Hk H. destruct T as [-> | ->]; destruct k, k'; cbn [ord] in Hk; try lia; auto; cbn in H; each H; cbn; tauto.
Qed.
Lemma rsum_cons : forall a l, rsum (a :: l) = a + rsum l. Proof. reflexivity. Qed.
Lemma dot_plus_l : forall A (f g : A -> R) l v, dot (map (fun p => f p + g p) l) v = dot (map f l) v + dot (map g l) v.
Proof.
  intros A f g l. induction l as [|a l IH]; intros [|b v]; cbn [map]; rewrite ?dot_nil_r, ?dot_cons; try (unfold dot; cbn; ring). rewrite IH. ring.
Qed.
Lemma dot_scale_l : forall A (f : A -> R) r l v, dot (map (fun p => r * f p) l) v = r * dot (map f l) v.
Proof.
  intros A f r l. induction l as [|a l IH]; intros [|b v]; cbn [map]; rewrite ?dot_nil_r, ?dot_cons; try (unfold dot; cbn; ring). rewrite IH. ring.
Qed.
Lemma dot_zero_l : forall A (l : list A) v, dot (map (fun _ => 0) l) v = 0.
Proof.
  intros A l. induction l as [|a l IH]; intros [|b v]; cbn [map]; rewrite ?dot_nil_r, ?dot_cons; try (unfold dot; cbn; ring). rewrite IH. ring.
Qed.
Lemma poly_compose : forall es C (A : list R -> list R) x ns v,
  (forall e, In e es -> monomial e (A x) = dot (map (fun p => monomial e (A p)) ns) v) ->
  poly es C (A x) = dot (map (fun p => poly es C (A p)) ns) v.
Proof.
  intros es C A x ns v. unfold poly. induction es as [|e es IH]; intros H.
  - cbn [map]. change (rsum []) with 0. symmetry. apply dot_zero_l.
  - cbn [map]. rewrite rsum_cons, IH by (intros; apply H; right; auto). rewrite (H e (or_introl eq_refl)).
    rewrite <- dot_scale_l, <- dot_plus_l. f_equal.
Qed.
(** A finite element function on a cell is a polynomial. *)
Lemma poly_zero : forall es x, poly es (fun _ => 0) x = 0.
Proof. intros es x. unfold poly. induction es; cbn [map]; [reflexivity|]. rewrite rsum_cons, IHes. ring. Qed.
Lemma poly_lin : forall es r c C x, r * poly es c x + poly es C x = poly es (fun e => r * c e + C e) x.
Proof. intros es r c C x. unfold poly. induction es; cbn [map]; [cbn; ring|]. rewrite !rsum_cons, <- IHes. ring. Qed.
Lemma combine_polys : forall es (cs : list R) (D : list R -> Prop) (v : list R -> list R),
  (forall x, D x -> length (v x) = length cs) ->
  (forall i, (i < length cs)%nat -> exists c, forall x, D x -> nth i (v x) 0 = poly es c x) ->
  exists C, forall x, D x -> dot cs (v x) = poly es C x.
Proof.
  intros es cs D. induction cs as [|r cs IH]; intros v Lv Hv.
  - exists (fun _ => 0). intros x _. rewrite poly_zero. destruct (v x); reflexivity.
  - destruct (Hv 0%nat ltac:(cbn; lia)) as (c & Hc). destruct (IH (fun x => tl (v x))) as (C & HC).
    + intros x Dx. specialize (Lv x Dx). destruct (v x); cbn in *; lia.
    + intros i Hi. destruct (Hv (S i) ltac:(cbn; lia)) as (c' & Hc'). exists c'. intros x Dx. rewrite <- (Hc' x Dx).
      destruct (v x); [destruct i|]; reflexivity.
    + exists (fun e => r * c e + C e). intros x Dx. rewrite <- poly_lin, <- (HC x Dx), <- (Hc x Dx). specialize (Lv x Dx).
      destruct (v x) as [|a w]; [discriminate|]. cbn [tl nth]. rewrite dot_cons. reflexivity.
Qed.
Lemma cell_poly : forall k m V coef i c, wf_mesh m -> lagrange_space k m = Ok V -> length coef = NumDofs (sp_dofs V) -> nth_error (mv_cells m) i = Some c ->
  exists C, forall y, length y = 2%nat -> fe_value V coef (ECell i) y = Ok (poly (exponents (cv_type c) (ord k)) C y).
Proof.
  intros k m V coef i c W EV Lc Ec. pose proof (tq _ _ (cell_wf_of _ _ _ W Ec)) as T.
  assert (VC : valid m (ECell i)) by (cbn; apply nth_error_Some; congruence).
  assert (Tc : ent_type m (ECell i) = cv_type c) by (cbn; unfold DofModel.cell_at; rewrite (nth_error_nth _ _ _ Ec); reflexivity).
  assert (ED : el_dim (cv_type c) = 2%nat) by (destruct T as [-> | ->]; reflexivity).
  assert (LV : forall y, length y = 2%nat -> exists l v, GlobalDofIndices (sp_dofs V) (ECell i) = Ok l /\ length l = fe_total (lagrange k (cv_type c)) /\ fe_eval (lagrange k (cv_type c)) y = Ok v /\
    length v = fe_total (lagrange k (cv_type c)) /\ fe_value V coef (ECell i) y = Ok (dot (map (fun g => nth g coef 0) l) v)).
  { intros y Ly. rewrite <- Tc. apply (lagrange_value k m V coef (ECell i) y W EV Lc VC ltac:(discriminate)). rewrite Tc, ED. exact Ly. }
  destruct (LV [0; 0] eq_refl) as (l & _ & G & Ll & _).
  destruct (combine_polys (exponents (cv_type c) (ord k)) (map (fun g => nth g coef 0) l) (fun y => length y = 2%nat)
              (fun y => match fe_eval (lagrange k (cv_type c)) y with Ok v => v | _ => [] end)) as (C & HC).
  - intros y Ly. destruct (LV y Ly) as (_ & v & _ & _ & -> & Lv & _). rewrite map_length. lia.
  - rewrite map_length, Ll. intros j Hj. destruct (lagrange_contained k (cv_type c) j Hj) as (cc & Hcc). exists cc. intros y Ly.
    destruct (Hcc y) as (v & -> & E).
    { destruct (lagrange_describes k (cv_type c)) as (-> & _). rewrite Ly. destruct T as [-> | ->]; reflexivity. }
    exact E.
  - exists C. intros y Ly. destruct (LV y Ly) as (l' & v & G' & _ & Ev & _ & E). rewrite G in G'. injection G' as <-. rewrite E, <- (HC y Ly), Ev. reflexivity.
Qed.

(** The shapes of children of the same type. *)
Definition same_class (t : refel) (w : list (list R)) : Prop :=
  planar w /\ length w = num_nodes t /\
  (t = kTria \/ exists x0 x1 y0 y1, w = [[x0; y0]; [x1; y0]; [x1; y1]; [x0; y1]] \/ w = [[x0; y0]; [x0; y1]; [x1; y1]; [x1; y0]]).
Lemma class_compose : forall k k' t w C x y, (t = kTria \/ t = kQuad) -> same_class t w -> (ord k <= ord k')%nat ->
  exists v, fe_eval (lagrange k' t) [x; y] = Ok v /\
    poly (exponents t (ord k)) C (onto w [x; y]) = dot (map (fun p => poly (exponents t (ord k)) C (onto w p)) (fe_nodes (lagrange k' t))) v.
Proof.
  intros k k' t w C x y T (PW & LW & SC) Hk.
  assert (EX : exists v, fe_eval (lagrange k' t) [x; y] = Ok v) by (destruct T as [-> | ->]; destruct k'; eexists; reflexivity).
  destruct EX as (v & Ev). exists v. split; [exact Ev|]. apply poly_compose. intros e He. pose proof (exponents_incl t k k' e T Hk He) as He'.
  assert (TWO : forall p, In p (fe_nodes (lagrange k' t)) -> exists a b, p = [a; b]).
  { intros p Hp. pose proof (in_ref_length _ _ (nodes_in k' t p T Hp)) as Lp. assert (el_dim t = 2%nat) as ED by (destruct T as [-> | ->]; reflexivity).
    rewrite ED in Lp. destruct p as [|a [|b [|]]]; try discriminate. eauto. }
  destruct SC as [->|(x0 & x1 & y0 & y1 & SC)].
  - destruct (planar3 w PW LW) as (a & b & c & d & e0 & f & ->).
    destruct (tria_compose k' e a (c - a) (e0 - a) b (d - b) (f - b) x y He') as (v' & Ev' & Q). rewrite Ev in Ev'. injection Ev' as <-.
    replace (onto [[a; b]; [c; d]; [e0; f]] [x; y]) with [a + (c - a) * x + (e0 - a) * y; b + (d - b) * x + (f - b) * y] by (cbn; vec_eq).
    cbn [nth] in Q. rewrite Q. f_equal. apply map_ext_in. intros p Hp. destruct (TWO p Hp) as (s & r & ->). f_equal. cbn. vec_eq.
  - assert (t = kQuad) as -> by (destruct T as [-> | ->]; auto; destruct SC as [-> | ->]; discriminate LW).
    destruct SC as [-> | ->].
    + destruct (quad_compose k' e false x0 (x1 - x0) y0 (y1 - y0) x y He') as (v' & Ev' & Q). rewrite Ev in Ev'. injection Ev' as <-.
      replace (onto [[x0; y0]; [x1; y0]; [x1; y1]; [x0; y1]] [x; y]) with [x0 + (x1 - x0) * x; y0 + (y1 - y0) * y] by (cbn; vec_eq).
      cbn [nth] in Q. rewrite Q. f_equal. apply map_ext_in. intros p Hp. destruct (TWO p Hp) as (s & r & ->). f_equal. cbn. vec_eq.
    + destruct (quad_compose k' e true x0 (x1 - x0) y0 (y1 - y0) x y He') as (v' & Ev' & Q). rewrite Ev in Ev'. injection Ev' as <-.
      replace (onto [[x0; y0]; [x0; y1]; [x1; y1]; [x1; y0]] [x; y]) with [x0 + (x1 - x0) * y; y0 + (y1 - y0) * x] by (cbn; vec_eq).
      cbn [nth] in Q. rewrite Q. f_equal. apply map_ext_in. intros p Hp. destruct (TWO p Hp) as (s & r & ->). f_equal. cbn. vec_eq.
Qed.
Lemma quad_children_rectangles : forall p a lc l, good_anchor kQuad p a -> children_of kQuad p a = Ok lc -> In l (lc_cells lc) -> length l = 4%nat ->
  exists x0 x1 y0 y1, map (fun n => xy (loc kQuad n)) l = [[x0; y0]; [x1; y0]; [x1; y1]; [x0; y1]] \/ map (fun n => xy (loc kQuad n)) l = [[x0; y0]; [x0; y1]; [x1; y1]; [x1; y0]].
Proof.
  assert (RECT : forall p0 p1 p2 p3 : list R, forall x0 y0 x1 y1 x2 y2 x3 y3, p0 = [x0; y0] -> p1 = [x1; y1] -> p2 = [x2; y2] -> p3 = [x3; y3] ->
     (y1 = y0 /\ x2 = x1 /\ y2 = y3 /\ x3 = x0) \/ (x1 = x0 /\ y2 = y1 /\ x2 = x3 /\ y3 = y0) ->
     exists a b c d, [p0; p1; p2; p3] = [[a; c]; [b; c]; [b; d]; [a; d]] \/ [p0; p1; p2; p3] = [[a; c]; [a; d]; [b; d]; [b; c]]).
  { intros p0 p1 p2 p3 x0 y0 x1 y1 x2 y2 x3 y3 -> -> -> -> [(-> & -> & -> & ->)|(-> & -> & -> & ->)].
    - exists x0, x1, y0, y3. left. reflexivity.
    - exists x0, x3, y0, y1. right. reflexivity. }
  intros p a lc l G CO Hl L4. cbn [children_of quad_children] in CO.
  destruct p; try discriminate CO;
  try (destruct a as [a|]; [|discriminate CO]; cbn [anchored] in CO; cbn [good_anchor num_edges] in G; assert (a < 4)%nat by (cbn in G; lia);
       destruct a as [|[|[|[|a]]]]; [| | | |exfalso; lia]);
  injection CO as <-; cbn [lc_cells In Nat.add Nat.modulo Nat.divmod Nat.sub fst snd] in Hl;
  repeat (destruct Hl as [<-|Hl]; [cbn [length] in L4; try discriminate L4|]); try contradiction; cbn [map];
  (eapply RECT; [reflexivity|reflexivity|reflexivity|reflexivity|]); cbn; first [left; repeat split; lra|right; repeat split; lra].
Qed.
Lemma child_class : forall L L' i I F c w, wf_mesh (l_mesh L) -> wf_mesh (l_mesh L') -> simple_mesh (l_mesh L) -> refined_to L (l_mesh L') -> linked L L' ->
  nth_error (mv_cells (l_mesh L')) i = Some F -> nth_error (mv_cells (l_mesh L)) I = Some c -> cv_type F = cv_type c -> inside L L' (ECell i) (ECell I) w ->
  same_class (cv_type c) w.
Proof.
  intros L L' i I F c w W W' S0 RF LK EF Ec TT [IC IP]. cbn [ent_index ent_codim ent_nodes] in IC, IP. rewrite EF in IP.
  pose proof (cell_wf_of _ _ _ W Ec) as Wc. pose proof (cell_wf_of _ _ _ W' EF) as WF.
  assert (NF : num_nodes (cv_type F) = length (cv_nodes F)) by (destruct (wf_type _ _ WF) as [[-> ->]|[-> ->]]; reflexivity).
  split; [eapply placed_planar; eauto|]. split; [rewrite <- TT, NF; symmetry; eapply F2_len; eauto|].
  destruct (tq _ _ Wc) as [T|T]; [left; exact T|right].
  destruct (rf_counts _ _ RF) as [NC _].
  destruct (nth_error (l_cells L) I) as [ci|] eqn:Eci.
  2: { apply nth_error_None in Eci. assert (I < length (mv_cells (l_mesh L)))%nat by (apply nth_error_Some; congruence). lia. }
  pose proof (rf_compatible _ _ RF I c ci Ec Eci) as CM. destruct (rf_cell _ _ RF I c ci Ec Eci) as (lc & CO & _ & _ & FC & _).
  apply In_nth_error in IC as (k & IC). destruct (F2_nth _ _ _ _ _ _ _ FC IC) as (l & Hl & f & Ef & SF). rewrite EF in Ef. injection Ef as <-.
  assert (WW : w = map (fun n => xy (loc (cv_type c) n)) l).
  { assert (IP' : Forall2 (placed L (ECell I)) (cv_nodes F) (map (fun n => xy (loc (cv_type c) n)) l)).
    { clear - SF Ec. induction SF; cbn [map]; constructor; auto. apply pl_cell; auto. }
    exact (placed_list L L' W S0 LK _ _ _ _ IP IP'). }
  rewrite T in *. rewrite WW. pose proof (cm_anchor _ _ _ CM) as GA. rewrite T in GA. apply (quad_children_rectangles _ _ lc l GA CO); [eapply nth_error_In; eauto|].
  rewrite (F2_len _ _ _ _ _ SF), <- NF, TT. reflexivity.
Qed.

Theorem prolongation_exact : forall H k k' l L L' Vc Vf dofs c, reached H -> nth_error (levels H) l = Some L -> nth_error (levels H) (S l) = Some L' ->
  lagrange_space k (l_mesh L) = Ok Vc -> lagrange_space k' (l_mesh L') = Ok Vf -> length dofs = NumDofs (sp_dofs Vc) -> (ord k <= ord k')%nat ->
  prolongate H (Some l) Vc Vf dofs l = Ok c ->
  forall i I F P x y, nth_error (mv_cells (l_mesh L')) i = Some F -> nth_error (mv_cells (l_mesh L)) I = Some P -> cv_type F = cv_type P ->
    length x = 2%nat -> image (levels H) (S l) (ECell i) x l (ECell I) y ->
    exists v, fe_value Vf c (ECell i) x = Ok v /\ fe_value Vc dofs (ECell I) y = Ok v.
Proof.
  intros H k k' l L L' Vc Vf dofs c RE E E' EC EF Ld Hk Pc i I F P x y Hi HI TT Lx IM.
  destruct (prolongation H k k' l L L' Vc Vf dofs RE E E' EC EF Ld) as (c' & Pc' & Lc & Q). rewrite Pc in Pc'. injection Pc' as <-.
  pose proof (reached_levels H RE) as GL.
  destruct (nth_in H GL _ _ E) as [W S0]. destruct (nth_in H GL _ _ E') as [W' _]. destruct (gl_step _ GL _ _ _ E E') as [RF LK].
  inversion IM as [l0 e0 x0 A1 A2 A3 A4 A5 A6 | l0 e0 x0 L0 L0' p0 w k0 q0 y0 E0 E0' IN I2 A1 A2 A3 A4 A5 A6]; subst; [lia|].
  rewrite E in E0. injection E0 as <-. rewrite E' in E0'. injection E0' as <-.
  inversion I2 as [l0 e0 x0 A1 A2 A3 A4 A5 A6 | l0 e0 x0 L0 L0' p1 w1 k0 q0 y0 E0 E0' IN' I3 A1 A2 A3 A4 A5 A6]; subst.
  2: { pose proof (image_le H _ _ _ _ _ _ I3). lia. }
  destruct x as [|s [|t [|]]]; try discriminate Lx. clear Lx.
  assert (VI : valid (l_mesh L') (ECell i)) by (cbn; apply nth_error_Some; congruence).
  assert (TI : ent_type (l_mesh L') (ECell i) = cv_type F) by (cbn; unfold DofModel.cell_at; rewrite (nth_error_nth _ _ _ Hi); reflexivity).
  assert (VP : valid (l_mesh L) (ECell I)) by (cbn; apply nth_error_Some; congruence).
  pose proof (tq _ _ (cell_wf_of _ _ _ W HI)) as T.
  pose proof (child_class L L' i I F P w W W' S0 RF LK Hi HI TT IN) as SC.
  destruct (cell_poly k _ Vc dofs I P W EC Ld HI) as (C & HC).
  assert (LO : forall z, length (onto w z) = 2%nat) by (intros z; exact (inside_dim L L' (ECell i) (ECell I) w z W W' VI VP IN)).
  rewrite (HC _ (LO [s; t])). eexists. split; [|reflexivity].
  destruct (lagrange_value k' (l_mesh L') Vf c (ECell i) [s; t] W' EF Lc VI ltac:(discriminate)) as (gl & v & G & Lg & Ev & Lv & EVV).
  { rewrite TI, TT. destruct T as [-> | ->]; reflexivity. }
  rewrite EVV. f_equal. rewrite TI in Ev, Lv, Lg. rewrite TT in Ev, Lv, Lg.
  destruct (class_compose k k' (cv_type P) w C s t T SC Hk) as (v' & Ev' & Z). rewrite Ev in Ev'. injection Ev' as <-. rewrite Z. f_equal.
  destruct (lagrange_cardinal k' (cv_type P)) as (N1 & N2 & _).
  apply nth_ext with (d := 0) (d' := 0).
  - rewrite !map_length. congruence.
  - rewrite map_length. intros q Hq.
    destruct (nth_error gl q) as [g|] eqn:Eg; [|apply nth_error_None in Eg; lia].
    destruct (nth_error (fe_nodes (lagrange k' (cv_type P))) q) as [p|] eqn:Ep; [|apply nth_error_None in Ep; lia].
    rewrite (nth_error_nth _ _ 0 (map_nth_error (fun g => nth g c 0) _ _ Eg)).
    rewrite (nth_error_nth _ _ 0 (map_nth_error (fun p => poly (exponents (cv_type P) (ord k)) C (onto w p)) _ _ Ep)).
    destruct (V_is k' _ Vf EF) as (_ & VD & _). rewrite VD in G, Lc. rewrite <- TT in Ep.
    pose proof (value_at_node k' (l_mesh L') Vf W' EF c Lc i F q p gl g Hi Ep G Eg) as VN.
    assert (IMp : image (levels H) (S l) (ECell i) p l (ECell I) (onto w p)) by (eapply image_up; eauto; constructor).
    destruct (Q i F p (ECell I) (onto w p) Hi (nth_error_In _ _ Ep) IMp) as (z & Z1 & Z2).
    rewrite (HC _ (LO p)) in Z2. congruence.
Qed.
