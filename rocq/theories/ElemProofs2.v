(** Entries of element matrices and vectors, symmetry, definiteness, kernels. *)
From Coq Require Import Reals List Arith Bool Lia Lra.
Import ListNotations.
From Verif Require Import Base MeshModel MeshView DofModel RefPatModel GeoModel GeoSpec GeoProofs GeoProofs2 GeoProofs3 FeModel QuadModel FeSpec QuadSpec
  HierProofs HierProofs3 ElemModel ElemSpec ElemProofs.
Local Open Scope R_scope.

Lemma lf_true : forall b, b = true -> lf_assert b = Ok tt. Proof. intros b ->. reflexivity. Qed.
Lemma traverse_length : forall A B (f : A -> res B) l bs, traverse f l = Ok bs -> length bs = length l.
Proof. intros. apply (traverse_nth _ _ _ _ _ H). Qed.

(** *** Geometry at the quadrature points *)
Lemma vol_element : forall g vol p, admissible g p -> volume_at g vol p -> IntegrationElement g p = Ok (vol p).
Proof. intros g vol p A [J [HJ ->]]. apply integration_element; assumption. Qed.
Lemma jacobian_cols : forall g p J, admissible g p -> Jacobian g p = Ok J -> length J = dim_local (go_kind g).
Proof.
  intros g p J A HJ. destruct (jacobian_derivative g p A) as [J' [E [q [_ [L _]]]]].
  rewrite HJ in E. injection E as <-. rewrite L. apply A.
Qed.
Lemma gramian_inverse : forall g f G p, admissible g p -> dim_local (go_kind g) = 2%nat -> gradient_at g f G p ->
  exists M gr, JacobianInverseGramian g p = Ok M /\ length M = 2%nat /\ fe_grad f p = Ok gr /\
    forall i, (i < fe_total f)%nat -> forall k, (k < go_dim g)%nat -> trf_grad M gr i k = G i p k.
Proof.
  intros g f G p A D [J [gr [HJ [ND [HG HW]]]]].
  destruct (inverse_gramian g p J A HJ ltac:(lia) ND) as [M [HM IM]]. pose proof (jacobian_cols g p J A HJ) as L. rewrite D in L.
  exists M, gr. split; [exact HM|]. split; [destruct IM as [E _]; congruence|]. split; [exact HG|].
  intros i Hi k Hk. apply (world_unique (go_dim g) J (nth i gr []) _ _ L ND); [|apply HW, Hi|exact Hk].
  apply trf_world; assumption.
Qed.
Lemma concat_two : forall (l : list (list vec)) n, length l = n -> (forall k, (k < n)%nat -> length (nth k l []) = 2%nat) ->
  length (concat l) = (2 * n)%nat.
Proof.
  induction l as [|a l IH]; intros n L H; cbn [length] in L; subst n; [reflexivity|].
  cbn [concat]. rewrite app_length. pose proof (H 0%nat ltac:(lia)) as H0. cbn [nth] in H0. rewrite H0.
  rewrite (IH (length l) eq_refl); [lia|]. intros k Hk. apply (H (S k)). lia.
Qed.
Lemma stiff_value : forall d J gr a i j G H, (forall k, (k < d)%nat -> trf_grad J gr i k = G k) ->
  (forall k, (k < d)%nat -> trf_grad J gr j k = H k) -> stiff d J gr a i j = inner d G (flux d a H).
Proof.
  intros d J gr a i j G H E F. change (stiff d J gr a i j) with (inner d (trf_grad J gr i) (cmul d a (trf_grad J gr j))).
  apply inner_ext; [exact E|]. intros k Hk. rewrite flux_cmul. apply flux_ext; assumption.
Qed.

Section Entries.
Variable (q : quadrule) (g : geo) (f : srfe).
Hypothesis (HW : length (qr_weights q) = length (qr_points q)).
Hypothesis (HA : forall p, In p (qr_points q) -> admissible g p).
Variable (vol : list R -> R).
Hypothesis (HV : forall p, In p (qr_points q) -> volume_at g vol p).

Lemma dets : traverse (IntegrationElement g) (qr_points q) = Ok (map vol (qr_points q)).
Proof. apply traverse_map. intros p Hp. apply vol_element; auto. Qed.
Lemma nth_map_in : forall A (h : list R -> A) k d, (k < NumPoints q)%nat -> nth k (map h (qr_points q)) d = h (nth k (qr_points q) []).
Proof.
  intros A h k d Hk. rewrite (nth_indep _ d (h [])) by (rewrite map_length; exact Hk). apply map_nth.
Qed.
Lemma pt_in : forall k, (k < NumPoints q)%nat -> In (nth k (qr_points q) []) (qr_points q).
Proof. intros k Hk. apply nth_In. exact Hk. Qed.
Lemma assert_len : forall A (l : list A), length l = length (qr_points q) -> lf_assert (length l =? NumPoints q)%nat = Ok tt.
Proof. intros A l E. apply lf_true. apply Nat.eqb_eq. exact E. Qed.

Lemma diffusion_entries : forall get alpha G a, dim_local (go_kind g) = 2%nat ->
  get (kind_el (go_kind g)) (2 * fe_degree f)%nat = Ok q ->
  (forall p, In p (qr_points q) -> gradient_at g f G p) -> (forall p, In p (qr_points q) -> value_at alpha a p) ->
  is_matrix (DiffusionEval get g f alpha) (fe_total f)
    (fun i j => quadrature q (fun p => vol p * inner (go_dim g) (G i p) (flux (go_dim g) (a p) (G j p)))).
Proof.
  intros get alpha G a D Q HG HAl. unfold is_matrix, DiffusionEval. rewrite D. cbn [Nat.eqb lf_assert bind]. rewrite Q. cbn [bind].
  rewrite dets. cbn [bind]. rewrite (assert_len _ (map vol (qr_points q))) by apply map_length. cbn [bind].
  destruct (traverse_all _ _ (JacobianInverseGramian g) (qr_points q)) as [jit HJ].
  { intros p Hp. destruct (gramian_inverse g f G p (HA p Hp) D (HG p Hp)) as [M [gr [E _]]]. exists M. exact E. }
  destruct (traverse_all _ _ (fe_grad f) (qr_points q)) as [grs HGr].
  { intros p Hp. destruct (HG p Hp) as [J [gr [_ [_ [E _]]]]]. exists gr. exact E. }
  rewrite HJ. cbn [bind].
  destruct (traverse_nth _ _ _ _ _ HJ) as [LJ NJ]. destruct (traverse_nth _ _ _ _ _ HGr) as [LG NG].
  assert (Each : forall k, (k < NumPoints q)%nat -> length (nth k jit []) = 2%nat /\
     forall i, (i < fe_total f)%nat -> forall c, (c < go_dim g)%nat ->
       trf_grad (nth k jit []) (nth k grs []) i c = G i (nth k (qr_points q) []) c).
  { intros k Hk. pose proof (pt_in k Hk) as Hp.
    destruct (gramian_inverse g f G _ (HA _ Hp) D (HG _ Hp)) as [M [gr [EM [LM [EG HH]]]]].
    pose proof (NJ k [] [] Hk) as EM'. pose proof (NG k [] [] Hk) as EG'.
    assert (X1 : nth k jit [] = M) by congruence. assert (X2 : nth k grs [] = gr) by congruence. rewrite X1, X2. split; assumption. }
  assert (LC : length (concat jit) = (2 * NumPoints q)%nat).
  { apply concat_two; [exact LJ|]. intros k Hk. apply Each, Hk. }
  rewrite LC, Nat.eqb_refl. cbn [lf_assert bind].
  rewrite (traverse_map _ _ alpha a) by exact HAl. cbn [bind]. rewrite HGr. cbn [bind].
  eexists. split; [reflexivity|].
  split.
  - exact (proj1 (acc_entry (fun k => nth k (qr_weights q) 0 * nth k (map vol (qr_points q)) 0)
      (fun k => stiff (go_dim g) (nth k jit []) (nth k grs []) (nth k (map a (qr_points q)) (Scal 0))) _ _ 0%nat 0%nat)).
  - intros i j Hi Hj.
    rewrite (proj2 (acc_entry (fun k => nth k (qr_weights q) 0 * nth k (map vol (qr_points q)) 0)
      (fun k => stiff (go_dim g) (nth k jit []) (nth k grs []) (nth k (map a (qr_points q)) (Scal 0))) _ _ i j)).
    cbn [ezero em_at]. rewrite Rplus_0_l, (quad_idx q _ HW). apply rs_ext. intros k Hk. apply in_seq in Hk.
    rewrite !nth_map_in by lia. rewrite Rmult_assoc. do 2 f_equal.
    destruct (Each k ltac:(lia)) as [_ E]. apply stiff_value; intros c Hc; apply E; assumption.
Qed.

Variable (b : nat -> list R -> R).
Hypothesis (HB : forall p, In p (qr_points q) -> shape_at f b p).
Lemma shapes : exists rsf, traverse (fe_eval f) (qr_points q) = Ok rsf /\ length rsf = length (qr_points q) /\
  forall k, (k < NumPoints q)%nat -> length (nth k rsf []) = fe_total f /\
    forall i, (i < fe_total f)%nat -> nth i (nth k rsf []) 0 = b i (nth k (qr_points q) []).
Proof.
  destruct (traverse_all _ _ (fe_eval f) (qr_points q)) as [rsf H].
  { intros p Hp. destruct (HB p Hp) as [v [E _]]. exists v. exact E. }
  exists rsf. split; [exact H|]. destruct (traverse_nth _ _ _ _ _ H) as [L N]. split; [exact L|].
  intros k Hk. destruct (HB _ (pt_in k Hk)) as [v [E [LV EV]]]. pose proof (N k [] [] Hk) as E'.
  assert (X : nth k rsf [] = v) by congruence. rewrite X. split; assumption.
Qed.
Lemma mass_entries : forall get gamma c, dim_local (go_kind g) = 2%nat ->
  get (kind_el (go_kind g)) (2 * fe_degree f)%nat = Ok q -> (forall p, In p (qr_points q) -> value_at gamma c p) ->
  is_matrix (MassEval get g f gamma) (fe_total f)
    (fun i j => quadrature q (fun p => vol p * (c p * b i p * b j p))).
Proof.
  intros get gamma c D Q HC. unfold is_matrix, MassEval. rewrite D. cbn [Nat.eqb lf_assert bind]. rewrite Q. cbn [bind].
  rewrite dets. cbn [bind]. rewrite (assert_len _ (map vol (qr_points q))) by apply map_length. cbn [bind].
  rewrite (traverse_map _ _ gamma c) by exact HC. cbn [bind]. destruct shapes as [rsf [E [L V]]]. rewrite E. cbn [bind].
  eexists. split; [reflexivity|]. split.
  - exact (proj1 (acc_entry (fun k => nth k (qr_weights q) 0 * nth k (map vol (qr_points q)) 0)
      (fun k => mass (nth k (map c (qr_points q)) 0) (nth k rsf [])) _ _ 0%nat 0%nat)).
  - intros i j Hi Hj.
    rewrite (proj2 (acc_entry (fun k => nth k (qr_weights q) 0 * nth k (map vol (qr_points q)) 0)
      (fun k => mass (nth k (map c (qr_points q)) 0) (nth k rsf [])) _ _ i j)).
    cbn [ezero em_at]. rewrite Rplus_0_l, (quad_idx q _ HW). apply rs_ext. intros k Hk. apply in_seq in Hk.
    rewrite !nth_map_in by lia. rewrite Rmult_assoc. destruct (V k ltac:(lia)) as [_ EV]. unfold mass.
    rewrite !EV by assumption. reflexivity.
Qed.
Lemma mass_edge_entries : forall get gamma c,
  get (kind_el (go_kind g)) (2 * fe_degree f)%nat = Ok q -> (forall p, In p (qr_points q) -> value_at gamma c p) ->
  is_matrix (MassEdgeEval get g f gamma) (fe_total f)
    (fun i j => quadrature q (fun p => vol p * (c p * b i p * b j p))).
Proof.
  intros get gamma c Q HC. unfold is_matrix, MassEdgeEval. rewrite Q. cbn [bind].
  rewrite dets. cbn [bind]. rewrite (assert_len _ (map vol (qr_points q))) by apply map_length. cbn [bind].
  rewrite (traverse_map _ _ gamma c) by exact HC. cbn [bind]. destruct shapes as [rsf [E [L V]]]. rewrite E. cbn [bind].
  rewrite map_length. fold (NumPoints q).
  eexists. split; [reflexivity|]. split.
  - exact (proj1 (acc_entry (fun k => nth k (qr_weights q) 0 * nth k (map vol (qr_points q)) 0 * nth k (map c (qr_points q)) 0)
      (fun k i j => nth i (nth k rsf []) 0 * nth j (nth k rsf []) 0) _ _ 0%nat 0%nat)).
  - intros i j Hi Hj.
    rewrite (proj2 (acc_entry (fun k => nth k (qr_weights q) 0 * nth k (map vol (qr_points q)) 0 * nth k (map c (qr_points q)) 0)
      (fun k i j => nth i (nth k rsf []) 0 * nth j (nth k rsf []) 0) _ _ i j)).
    cbn [ezero em_at]. rewrite Rplus_0_l, (quad_idx q _ HW). apply rs_ext. intros k Hk. apply in_seq in Hk.
    rewrite !nth_map_in by lia. destruct (V k ltac:(lia)) as [_ EV]. rewrite !EV by assumption. ring.
Qed.
Lemma load_entries : forall get src h, dim_local (go_kind g) = 2%nat ->
  get (kind_el (go_kind g)) (2 * fe_degree f)%nat = Ok q -> (forall p, In p (qr_points q) -> value_at src h p) ->
  is_vector (LoadEval get g f src) (fe_total f) (fun i => quadrature q (fun p => vol p * (h p * b i p))).
Proof.
  intros get src h D Q HC. unfold is_vector, LoadEval. rewrite Q. cbn [bind]. rewrite D. cbn [Nat.eqb lf_assert bind].
  rewrite dets. cbn [bind]. rewrite (assert_len _ (map vol (qr_points q))) by apply map_length. cbn [bind].
  rewrite (traverse_map _ _ src h) by exact HC. cbn [bind]. destruct shapes as [rsf [E [L V]]]. rewrite E. cbn [bind].
  rewrite map_length. fold (NumPoints q). eexists. split; [reflexivity|].
  destruct (acc_vec (fun k => nth k (qr_weights q) 0 * nth k (map vol (qr_points q)) 0 * nth k (map h (qr_points q)) 0)
     (fun k => nth k rsf []) (seq 0 (NumPoints q)) (fe_total f) (repeat 0 (fe_total f))) as [L1 N1].
  { apply repeat_length. } { intros k Hk. apply in_seq in Hk. apply V. lia. }
  split; [exact L1|]. intros i Hi. rewrite N1 by exact Hi. rewrite nth_repeat, Rplus_0_l, (quad_idx q _ HW). apply rs_ext.
  intros k Hk. apply in_seq in Hk. rewrite !nth_map_in by lia. destruct (V k ltac:(lia)) as [_ EV]. rewrite !EV by assumption. ring.
Qed.
Lemma load_edge_entries : forall get src h, dim_local (go_kind g) = 1%nat ->
  get (kind_el (go_kind g)) (2 * fe_degree f)%nat = Ok q -> (forall p, In p (qr_points q) -> value_at src h p) ->
  is_vector (LoadEdgeEval get g f src) (fe_total f) (fun i => quadrature q (fun p => vol p * (h p * b i p))).
Proof.
  intros get src h D Q HC. unfold is_vector, LoadEdgeEval. rewrite D. cbn [Nat.eqb lf_assert bind]. rewrite Q. cbn [bind].
  rewrite dets. cbn [bind]. rewrite (assert_len _ (map vol (qr_points q))) by apply map_length. cbn [bind].
  rewrite (traverse_map _ _ src h) by exact HC. cbn [bind]. destruct shapes as [rsf [E [L V]]]. rewrite E. cbn [bind].
  eexists. split; [reflexivity|].
  destruct (acc_vec (fun k => nth k (qr_weights q) 0 * nth k (map vol (qr_points q)) 0 * nth k (map h (qr_points q)) 0)
     (fun k => nth k rsf []) (seq 0 (NumPoints q)) (fe_total f) (repeat 0 (fe_total f))) as [L1 N1].
  { apply repeat_length. } { intros k Hk. apply in_seq in Hk. apply V. lia. }
  split; [exact L1|]. intros i Hi. rewrite N1 by exact Hi. rewrite nth_repeat, Rplus_0_l, (quad_idx q _ HW). apply rs_ext.
  intros k Hk. apply in_seq in Hk. rewrite !nth_map_in by lia. destruct (V k ltac:(lia)) as [_ EV]. rewrite !EV by assumption. ring.
Qed.
End Entries.
