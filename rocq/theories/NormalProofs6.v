(** C89: flags of the in- and outflow boundary. *)
From Coq Require Import Reals List Arith ZArith Lia Lra Bool.
Import ListNotations.
From Verif Require Import Base MeshModel MeshView RefPatModel GeoModel GeoSpec GeoProofs2 DofModel FlagModel FlagSpec FlagProofs FeModel DpgModel NormalModel NormalSpec NormalProofs NormalProofs2 NormalProofs3 NormalProofs4 NormalProofs5.
Local Open Scope nat_scope.

(** Values [val c i] written so far, for the pairs in [W]. *)
Definition written (m : mesh) (W : nat -> nat -> Prop) (val : nat -> nat -> nat -> bool) (d : dset bool) : Prop :=
  d_codim d = 1 /\ length (d_data d) = length (mv_edges m) /\
  forall e, e < length (mv_edges m) ->
    (exists c i, W c i /\ edge_of m c i e /\ nth e (d_data d) false = val c i e) \/
    ((forall c i, W c i -> ~ edge_of m c i e) /\ nth e (d_data d) false = false).
Lemma written_ext : forall m W W' val d, (forall c i, W c i <-> W' c i) -> written m W val d -> written m W' val d.
Proof.
  intros m W W' val d E [A [B H]]. split; [exact A|]. split; [exact B|]. intros e He. destruct (H e He) as [[c [i [X Y]]]|[X Y]].
  - left. exists c, i. split; [apply E, X|exact Y].
  - right. split; [|exact Y]. intros c i K. apply X, E, K.
Qed.
Lemma written_step : forall m W val d c i e b, e < length (mv_edges m) -> edge_of m c i e -> b = val c i e -> written m W val d ->
  exists d', dset_at d 1 e (fun _ => b) = Ok d' /\ written m (fun c' i' => W c' i' \/ (c' = c /\ i' = i)) val d'.
Proof.
  intros m W val d c i e b He Ec -> [A [B H]]. unfold dset_at. rewrite (dget_ok _ d 1 e false A) by lia. cbn [bind]. eexists. split; [reflexivity|].
  split; [exact A|]. cbn [d_data]. split; [rewrite upd_length; exact B|]. intros e' He'.
  destruct (Nat.eq_dec e' e) as [-> | Ne].
  - left. exists c, i. split; [auto|]. split; [exact Ec|]. apply nth_upd_eq. lia.
  - rewrite nth_upd_neq by auto. destruct (H e' He') as [[c0 [i0 [X Y]]]|[X Y]].
    + left. exists c0, i0. auto.
    + right. split; [|exact Y]. intros c0 i0 [K|[-> ->]]; [exact (X c0 i0 K)|]. intros Q. apply Ne.
      destruct Q as [v [Q1 Q2]], Ec as [v' [Q3 Q4]]. congruence.
Qed.

Lemma polygon_length : forall m geom c v, wf_mesh m -> straight_cells m geom -> nth_error (mv_cells m) c = Some v ->
  length (polygon geom c) = length (cv_edges v) /\ num_sub_entities (cv_type v) 1 = length (cv_edges v).
Proof.
  intros m geom c v W G Hv. destruct (G c v Hv) as [[_ [_ [Co _]]] T]. unfold polygon. rewrite (constructed_cols _ Co).
  pose proof (wm_cells _ W) as F. rewrite Forall_forall in F. pose proof (F v (nth_error_In _ _ Hv)) as Wc.
  rewrite (wc_edges _ _ Wc). destruct (G c v Hv) as [[K _] _]. revert T. unfold cv_type, cell_type.
  destruct (wc_shape _ _ Wc) as [-> | ->], K as [-> |[-> | ->]]; cbn; intros T; try discriminate; auto.
Qed.
Lemma one_cell_unique : forall m e c i c' i', one_cell_at m e -> edge_of m c i e -> edge_of m c' i' e -> c = c' /\ i = i'.
Proof.
  intros m e c i c' i' [l [ND [L H]]] A B.
  assert (I : In (c, i) l) by (apply H; cbn [fst snd]; split; [apply edge_of_parts in A; apply A|exact A]).
  assert (I' : In (c', i') l) by (apply H; cbn [fst snd]; split; [apply edge_of_parts in B; apply B|exact B]).
  destruct l as [|x [|? ?]]; try discriminate. destruct I as [E|[]], I' as [E'|[]]. rewrite E in E'. injection E' as -> ->. auto.
Qed.
Lemma one_cell_exists : forall m e, one_cell_at m e -> exists c i, edge_of m c i e.
Proof.
  intros m e [l [ND [L H]]]. destruct l as [|[c i] l]; [discriminate|]. exists c, i. destruct (H (c, i)) as [K _]. apply K. left. reflexivity.
Qed.
(** Flags of boundary edges. *)
Lemma edge_flags : forall m, wf_mesh m -> exists d, flag_boundary m 1 = Ok d /\
  forall e, e < length (mv_edges m) -> exists b, dget d 1 e = Ok b /\ (b = true <-> one_cell_at m e).
Proof.
  intros m W. destruct (flag_boundary_correct m 1 W) as [H _]. destruct H as [d [E [A [B H]]]]; [lia|]. exists d. split; [exact E|].
  intros e He. exists (nth e (d_data d) false). split; [apply dget_ok; [exact A|rewrite B; exact He]|].
  rewrite (H e (nth e (d_data d) false)) by (apply nth_error_nth'; rewrite B; exact He). cbn. split.
  - intros [e' [k [_ [X [_ ->]]]]]. exact X.
  - intros X. exists e, 0. split; [exact He|]. split; [exact X|]. auto.
Qed.
Lemma ltb_lt : forall a b, ltb a b = true <-> (a < b)%R.
Proof. intros a b. unfold ltb. destruct (Rlt_dec a b); split; auto; discriminate. Qed.

Section Flags.
Variable m : mesh.
Variable geom : ent -> geo.
Variable beta : vectorfun.
Hypothesis W : wf_mesh m.
Hypothesis G : straight_cells m geom.
Hypothesis B : forall e, e < size m 1 -> exists b, beta (EEdge e) [(1 / 2)%R] = Ok b.

(** The velocity points into the cell with edge [e]. *)
Definition incoming (e : nat) : Prop := exists c i n b, edge_of m c i e /\ outer_normal (polygon geom c) i n /\
  beta (EEdge e) [(1 / 2)%R] = Ok b /\ (inner 2 n b < 0)%R.

Lemma inflow_ok : exists d, flagEntitiesOnInflowBoundary m geom beta = Ok d /\ d_codim d = 1 /\ length (d_data d) = length (mv_edges m) /\
  forall e, e < length (mv_edges m) -> (nth e (d_data d) false = true <-> one_cell_at m e /\ incoming e).
Proof.
  destruct (edge_flags m W) as [bd [Ebd Hbd]].
  set (val := fun c i e => match dget bd 1 e, OuterNormals (geom (ECell c)), beta (EEdge e) [(1 / 2)%R] with
    | Ok f, Ok N, Ok b => f && ltb (GeoModel.dot 2 (nth i N vzero) b) 0 | _, _, _ => false end).
  unfold flagEntitiesOnInflowBoundary. rewrite Ebd. cbn [bind].
  match goal with |- context [each (seq 0 (mv_count m 0)) ?body _] => set (bd1 := body) end.
  destruct (each_inv (fun done d => written m (fun c i => In c done /\ i < length (cv_edges (cell_at m c))) val d) bd1 (seq 0 (mv_count m 0)) (new_dset m 1 false)) as [d [E H]].
  - split; [reflexivity|]. split; [apply repeat_length|]. intros e He. right. split; [intros c i [[] _]|apply nth_repeat_same].
  - intros done c d Hc I. apply in_seq in Hc. change (mv_count m 0) with (length (mv_cells m)) in Hc.
    assert (Hv : nth_error (mv_cells m) c = Some (cell_at m c)) by (apply nth_error_nth'; lia).
    destruct (polygon_length m geom c _ W G Hv) as [L1 L2]. destruct (G c _ Hv) as [St _]. destruct (outer_normals _ St) as [N [EN [LN _]]].
    unfold bd1. cbn [sub_entities bind]. rewrite EN. cbn [bind]. rewrite L2.
    match goal with |- context [each (seq 0 (length (cv_edges (cell_at m c)))) ?body d] => set (bd2 := body) end.
    destruct (each_inv (fun sd d => written m (fun c' i => (In c' done /\ i < length (cv_edges (cell_at m c'))) \/ (c' = c /\ In i sd)) val d)
      bd2 (seq 0 (length (cv_edges (cell_at m c)))) d) as [d' [E' H']].
    + eapply written_ext; [|exact I]. intros c' i. cbn [In]. tauto.
    + intros sd i d1 Hi I1. apply in_seq in Hi. unfold bd2, elem_at.
      destruct (nth_error (cv_edges (cell_at m c)) i) as [e|] eqn:Ee; [|apply nth_error_None in Ee; lia]. cbn [bind].
      rewrite (nth_error_nth' N vzero) by (fold (polygon geom c) in LN; lia). cbn [bind].
      assert (Ec : edge_of m c i e) by (apply edge_of_parts; split; [lia|exact Ee]).
      pose proof (edge_range m c i e W Ec) as He. destruct (B e He) as [b Eb]. rewrite Eb. cbn [bind].
      destruct (Hbd e He) as [f [Ef _]]. rewrite Ef. cbn [bind].
      assert (Vb : f && ltb (GeoModel.dot 2 (nth i N vzero) b) 0 = val c i e) by (unfold val; rewrite Ef, EN, Eb; reflexivity).
      destruct (written_step m _ val d1 c i e _ He Ec Vb I1) as [d2 [E2 H2]].
      exists d2. split; [exact E2|]. eapply written_ext; [|exact H2]. intros c' i'. cbn beta. rewrite in_app_iff. cbn [In]. intuition congruence.
    + exists d'. split; [exact E'|]. eapply written_ext; [|exact H']. intros c' i. cbn beta. rewrite in_app_iff, in_seq. cbn [In].
      split; [intros [[X Y]|[-> Y]]; [auto|split; [auto|lia]]|]. intros [[X|[->|[]]] Y]; [auto|]. right. split; [reflexivity|lia].
  - exists d. split; [exact E|]. destruct H as [A [Ln H]]. split; [exact A|]. split; [exact Ln|]. intros e He.
    destruct (Hbd e He) as [f [Ef Hf]].
    assert (Val : forall c i, edge_of m c i e -> (val c i e = true <-> one_cell_at m e /\ exists n b, outer_normal (polygon geom c) i n /\
      beta (EEdge e) [(1 / 2)%R] = Ok b /\ (inner 2 n b < 0)%R)).
    { intros c i Ec. destruct Ec as [v [Hv Hi]]. destruct (polygon_length m geom c _ W G Hv) as [L1 L2]. destruct (G c _ Hv) as [St _].
      destruct (outer_normals _ St) as [N [EN [LN PN]]]. destruct (B e He) as [b Eb]. unfold val. rewrite Ef, EN, Eb. rewrite andb_true_iff, Hf, ltb_lt.
      assert (Hl : i < length (polygon geom c)) by (rewrite L1; apply nth_error_Some; rewrite Hi; discriminate).
      split; intros [X Y]; (split; [exact X|]).
      - exists (nth i N vzero), b. split; [exact (PN i Hl)|]. split; [reflexivity|exact Y].
      - destruct Y as [n [b' [On [Eb' Q]]]]. injection Eb' as <-. destruct (straight_oriented _ St) as [sg Or].
        pose proof (outer_unique _ i _ _ (or_simple _ _ Or) Hl On (PN i Hl)) as U. revert Q. unfold inner, GeoModel.dot. cbn [seq map fold_right].
        rewrite !U by lia. auto. }
    destruct (H e He) as [[c [i [_ [Ec ->]]]]|[X ->]].
    + rewrite (Val c i Ec). split; intros [X Y]; (split; [exact X|]).
      * destruct Y as [n [b Y]]. exists c, i, n, b. auto.
      * destruct Y as [c' [i' [n [b [Ec' Y]]]]]. destruct (one_cell_unique m e c i c' i' X Ec Ec') as [-> ->]. exists n, b. exact Y.
    + split; [discriminate|]. intros [One _]. exfalso. destruct (one_cell_exists m e One) as [c [i Ec]]. apply (X c i); [|exact Ec].
      apply edge_of_parts in Ec. destruct Ec as [Hc Hi]. split; [apply in_seq; change (mv_count m 0) with (length (mv_cells m)); lia|].
      apply nth_error_Some. rewrite Hi. discriminate.
Qed.

Theorem inflow : exists d, flagEntitiesOnInflowBoundary m geom beta = Ok d /\ d_codim d = 1 /\ length (d_data d) = size m 1 /\
  forall e x, nth_error (d_data d) e = Some x ->
    (x = true <-> one_cell_at m e /\ exists c i n b, edge_of m c i e /\ outer_normal (polygon geom c) i n /\
       beta (EEdge e) [(1 / 2)%R] = Ok b /\ (inner 2 n b < 0)%R).
Proof.
  destruct inflow_ok as [d [E [A [L H]]]]. exists d. split; [exact E|]. split; [exact A|]. split; [exact L|].
  intros e x Hx. rewrite <- (nth_error_nth _ _ false Hx). apply H. rewrite <- L. apply nth_error_Some. rewrite Hx. discriminate.
Qed.
Theorem outflow : exists d, flagEntitiesOnOutflowBoundary m geom beta = Ok d /\ d_codim d = 1 /\ length (d_data d) = size m 1 /\
  forall e x, nth_error (d_data d) e = Some x ->
    (x = true <-> one_cell_at m e /\ exists c i n b, edge_of m c i e /\ outer_normal (polygon geom c) i n /\
       beta (EEdge e) [(1 / 2)%R] = Ok b /\ (0 <= inner 2 n b)%R).
Proof.
  destruct (edge_flags m W) as [bd [Ebd Hbd]]. destruct inflow_ok as [di [Ei [Ai [Li Hi]]]].
  unfold flagEntitiesOnOutflowBoundary. rewrite Ebd, Ei. cbn [bind].
  match goal with |- context [each (seq 0 (mv_count m 1)) ?body _] => set (bd1 := body) end.
  set (n := length (mv_edges m)).
  destruct (each_inv (fun done d => d_codim d = 1 /\ length (d_data d) = n /\
    forall e, e < n -> In e done -> (nth e (d_data d) false = true <-> one_cell_at m e /\ ~ incoming e)) bd1 (seq 0 (mv_count m 1)) (new_dset m 1 false)) as [d [E [A [L H]]]].
  - split; [reflexivity|]. split; [apply repeat_length|]. intros e _ [].
  - intros done e d He [A [L H]]. apply in_seq in He. change (mv_count m 1) with n in He. destruct (Hbd e (proj2 He)) as [f [Ef Hf]].
    unfold bd1. rewrite Ef. cbn [bind]. rewrite (dget_ok _ di 1 e false Ai) by (fold n in Li; lia). cbn [bind]. unfold dset_at. rewrite (dget_ok _ d 1 e false A) by lia. cbn [bind].
    eexists. split; [reflexivity|]. split; [exact A|]. cbn [d_data]. split; [rewrite upd_length; exact L|]. intros e' He' K.
    destruct (Nat.eq_dec e' e) as [-> | Ne].
    + rewrite nth_upd_eq by lia. rewrite andb_true_iff, negb_true_iff, Hf. specialize (Hi e (proj2 He)).
      destruct (nth e (d_data di) false); split; intros [X Y]; (split; [exact X|]); try discriminate; auto.
      * exfalso. apply Y, Hi. reflexivity.
      * intros Q. destruct Hi as [_ Hi]. discriminate Hi. auto.
    + rewrite nth_upd_neq by auto. apply H; [exact He'|]. apply in_app_iff in K. destruct K as [K|[K|[]]]; [exact K|]. exfalso. auto.
  - exists d. split; [exact E|]. split; [exact A|]. split; [exact L|]. intros e x Hx. rewrite <- (nth_error_nth _ _ false Hx).
    assert (He : e < n) by (rewrite <- L; apply nth_error_Some; rewrite Hx; discriminate).
    rewrite H by (first [exact He|apply in_seq; change (mv_count m 1) with n; lia]). split; intros [X Y]; (split; [exact X|]).
    + destruct (one_cell_exists m e X) as [c [i Ec]]. destruct (B e He) as [b Eb]. pose proof Ec as [v [Hv Hk]].
      destruct (G c _ Hv) as [St _]. destruct (outer_normals _ St) as [N [EN [LN PN]]]. destruct (polygon_length m geom c _ W G Hv) as [L1 _].
      assert (Hl : i < length (polygon geom c)) by (rewrite L1; apply nth_error_Some; rewrite Hk; discriminate).
      exists c, i, (nth i N vzero), b. split; [exact Ec|]. split; [exact (PN i Hl)|]. split; [exact Eb|]. apply Rnot_lt_le. intros Q.
      apply Y. exists c, i, (nth i N vzero), b. auto.
    + destruct Y as [c [i [nn [b [Ec [On [Eb Q]]]]]]]. intros [c' [i' [n' [b' [Ec' [On' [Eb' Q']]]]]]].
      destruct (one_cell_unique m e c i c' i' X Ec Ec') as [<- <-]. rewrite Eb in Eb'. injection Eb' as <-.
      destruct Ec as [v [Hv Hk]]. destruct (G c _ Hv) as [St _]. destruct (straight_oriented _ St) as [sg Or]. destruct (polygon_length m geom c _ W G Hv) as [L1 _].
      assert (Hl : i < length (polygon geom c)) by (rewrite L1; apply nth_error_Some; rewrite Hk; discriminate).
      pose proof (outer_unique _ i _ _ (or_simple _ _ Or) Hl On On') as U. revert Q Q'. unfold inner. cbn [seq map fold_right]. rewrite !U by lia. lra.
Qed.
Theorem flow_partition : forall di do_, flagEntitiesOnInflowBoundary m geom beta = Ok di -> flagEntitiesOnOutflowBoundary m geom beta = Ok do_ ->
  forall e, e < size m 1 -> exists x y, nth_error (d_data di) e = Some x /\ nth_error (d_data do_) e = Some y /\
    (x = true \/ y = true <-> one_cell_at m e) /\ ~ (x = true /\ y = true).
Proof.
  intros di do_ Edi Edo e He. destruct inflow as [d [E [_ [L H]]]]. rewrite Edi in E. injection E as <-.
  destruct outflow as [d [E [_ [L' H']]]]. rewrite Edo in E. injection E as <-.
  exists (nth e (d_data di) false), (nth e (d_data do_) false).
  assert (X : nth_error (d_data di) e = Some (nth e (d_data di) false)) by (apply nth_error_nth'; lia).
  assert (Y : nth_error (d_data do_) e = Some (nth e (d_data do_) false)) by (apply nth_error_nth'; lia).
  split; [exact X|]. split; [exact Y|]. rewrite (H e _ X), (H' e _ Y). split.
  - split; [intros [[K _]|[K _]]; exact K|]. intros K. destruct (one_cell_exists m e K) as [c [i Ec]]. destruct (B e He) as [b Eb]. pose proof Ec as [v [Hv Hk]].
    destruct (G c _ Hv) as [St _]. destruct (outer_normals _ St) as [N [EN [LN PN]]]. destruct (polygon_length m geom c _ W G Hv) as [L1 _].
    assert (Hl : i < length (polygon geom c)) by (rewrite L1; apply nth_error_Some; rewrite Hk; discriminate).
    destruct (Rlt_le_dec (inner 2 (nth i N vzero) b) 0) as [Q|Q]; [left|right]; (split; [exact K|]); exists c, i, (nth i N vzero), b; auto.
  - intros [[One [c [i [nn [b [Ec [On [Eb Q]]]]]]]] [_ [c' [i' [n' [b' [Ec' [On' [Eb' Q']]]]]]]]].
    destruct (one_cell_unique m e c i c' i' One Ec Ec') as [<- <-]. rewrite Eb in Eb'. injection Eb' as <-.
    destruct Ec as [v [Hv Hk]]. destruct (G c _ Hv) as [St _]. destruct (straight_oriented _ St) as [sg Or]. destruct (polygon_length m geom c _ W G Hv) as [L1 _].
    assert (Hl : i < length (polygon geom c)) by (rewrite L1; apply nth_error_Some; rewrite Hk; discriminate).
    pose proof (outer_unique _ i _ _ (or_simple _ _ Or) Hl On On') as U. revert Q Q'. unfold inner. cbn [seq map fold_right]. rewrite !U by lia. lra.
Qed.
End Flags.
