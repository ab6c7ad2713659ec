From Coq Require Import Reals Lra List Arith Lia Bool ZArith.
Import ListNotations.
From Verif Require Import Base MeshModel RefPatModel GeoModel GeoSpec GeoProofs GeoProofs2 GeoProofs3 GeoProofs4 GeoProofs5 GeoProofs6.
Local Open Scope R_scope.

Ltac coefs := cbv [s2_alpha s2_beta s2_gamma t2_beta0 t2_beta1 t2_gamma0
        t2_gamma1 t2_delta t2_alpha q2_beta0 q2_beta1 q2_gamma0 q2_gamma1 q2_delta q2_alpha q2_eps0 q2_eps1 Rsqr].

Lemma axis1 : forall p, axis_parallel [p].
Proof. intros p. left. exists p. reflexivity. Qed.
Lemma axis2 : forall w, axis_parallel w -> length w = 2%nat ->
  exists x0 x1 y0 y1, w = [[x0; y0]; [x1; y0]] \/ w = [[x0; y0]; [x0; y1]].
Proof.
  intros w [(p & ->)|(x0 & x1 & y0 & y1 & [->|[->|[->| ->]]])] L; try discriminate L; exists x0, x1, y0, y1; auto.
Qed.
Lemma axis4 : forall w, axis_parallel w -> length w = 4%nat ->
  exists x0 x1 y0 y1, w = [[x0; y0]; [x1; y0]; [x1; y1]; [x0; y1]] \/ w = [[x0; y0]; [x0; y1]; [x1; y1]; [x1; y0]].
Proof.
  intros w [(p & ->)|(x0 & x1 & y0 & y1 & [->|[->|[->| ->]]])] L; try discriminate L; exists x0, x1, y0, y1; auto.
Qed.
Lemma axis3 : forall w, axis_parallel w -> length w <> 3%nat.
Proof. intros w [(p & ->)|(x0 & x1 & y0 & y1 & [->|[->|[->| ->]]])]; cbn; lia. Qed.

Lemma closed_equal : forall g codim w c x k, base_facts g codim w c -> go_kind g <> GPoint -> closed_class g w ->
  length x = dim_local (go_kind c) ->
  global_at c (nth 0 x 0) (nth 1 x 0) k = global_at g (nth 0 (onto w x) 0) (nth 1 (onto w x) 0) k.
Proof.
  intros g codim w c x k B NP CC Lx. pose proof B as (C & Dc & Dk & Ln & O & Q & KQ & F & Hc).
  assert (V : forall i, (i < length w)%nat -> col c i = global_at g (nth 0 (nth i w []) 0) (nth 1 (nth i w []) 0)).
  { intros i Hi. apply Global_value. eapply columns_nodes; eauto. }
  assert (M : is_o2 (go_kind c) = true -> forall i, (i < if (dim_local (go_kind c) =? 1)%nat then 1 else length w)%nat ->
    col c (length w + i) = global_at g (nth 0 (between (nth i w []) (nth ((i + 1) mod length w) w []) (1 / 2)) 0)
                                       (nth 1 (between (nth i w []) (nth ((i + 1) mod length w) w []) (1 / 2)) 0)).
  { intros O2 i Hi. apply Global_value. eapply columns_mids; eauto. }
  clear Hc B C. unfold closed_class in CC.
  set (t := nth 1 x 0). set (s := nth 0 x 0).
  assert (Ex : onto w x = onto w [s; t]) by reflexivity. rewrite Ex. clear Ex.
  destruct (go_kind g) eqn:Kg; try contradiction; destruct (go_kind c) eqn:Kc; cbn [dim_local kind_el el_dim num_nodes is_o2] in *;
    try lia; try (exfalso; assert (O' : true = false) by (apply O; lia); discriminate O');
    try (exfalso; assert (O' : false = true) by (apply O; lia); discriminate O');
    try (destruct (Q eq_refl); discriminate).
  all: try (discriminate (KQ eq_refl)).
  all: try (exfalso; apply (axis3 w CC); auto; fail).
  all: try (destruct (axis4 w CC (eq_sym Ln)) as (x0 & x1 & y0 & y1 & [-> | ->]); clear F).
  all: try (destruct (axis2 w CC (eq_sym Ln)) as (x0 & x1 & y0 & y1 & [-> | ->]); clear F).
  all: repeat (destruct w as [|? w]; try discriminate Ln); clear Ln.
  all: repeat match goal with F : Forall _ (_ :: _) |- _ => inversion F; clear F; subst end.
  all: clear Lx; clearbody s t; clear x.
  all: repeat match goal with p : list R |- _ => destruct p as [|? p]; cbn [length] in *; try discriminate; try lia end.
  all: cbn [length Nat.eqb] in V, M.
  all: pose proof (V 0%nat ltac:(lia)) as V0; try pose proof (V 1%nat ltac:(lia)) as V1; try pose proof (V 2%nat ltac:(lia)) as V2;
    try pose proof (V 3%nat ltac:(lia)) as V3; clear V.
  all: try pose proof (M eq_refl 0%nat ltac:(lia)) as M0; try pose proof (M eq_refl 1%nat ltac:(lia)) as M1;
    try pose proof (M eq_refl 2%nat ltac:(lia)) as M2; try pose proof (M eq_refl 3%nat ltac:(lia)) as M3; clear M.
  all: cbv [onto between length nth seq map combine fold_right fst snd Nat.add Nat.modulo Nat.divmod Nat.sub] in *.
  all: unfold global_at in *; rewrite Kg in *; rewrite Kc.
  all: coefs; rewrite ?V0, ?V1, ?V2, ?V3, ?M0, ?M1, ?M2, ?M3; coefs.
  all: try field.
  destruct (Q eq_refl) as (_ & X). pose proof (X 0%nat) as X0. pose proof (X 1%nat) as X1. cbn in X0, X1.
  replace r1 with (r3 + r - r5) by lra. replace r2 with (r4 + r0 - r6) by lra. ring.
Qed.

Lemma base_child : forall g codim w c, base_facts g codim w c -> go_kind g <> GPoint -> exact_parallelogram g ->
  child_of g codim w c.
Proof.
  intros g codim w c B NP Xg. pose proof B as (C & Dc & Dk & Ln & O & Q & KQ & F & Hc).
  pose proof (base_exact _ _ _ _ B Xg) as X.
  unfold child_of. do 5 (split; [assumption|]). split; [|split; [|split]].
  - intros x Hx. apply In_nth_error in Hx. destruct Hx as (i & Hi). rewrite (Hc i x Hi).
    destruct (control_images c i x C X Hi) as (p & Hp & E). rewrite Hp. cbn. intros k _. apply E.
  - intros CC x Hx. pose proof (onto_defined g codim w c x B NP Hx) as Ad.
    assert (Lx : length x = dim_local (go_kind c)).
    { destruct (is_o2 (go_kind g)); [|exact Hx]. unfold dim_local.
      destruct (kind_el (go_kind c)), x as [|? [|? [|]]]; cbn in Hx; try contradiction; reflexivity. }
    assert (Ac : admissible c x).
    { split; [exact Lx|]. intros O2. destruct (Nat.eq_dec (dim_local (go_kind c)) 0) as [Z|N].
      - rewrite Z in Lx. destruct x; [|discriminate Lx]. intros t [].
      - rewrite <- O, O2 in Hx by exact N.
        destruct (kind_el (go_kind c)), x as [|? [|? [|]]]; cbn in Hx; try contradiction; intros u Hu;
          repeat (destruct Hu as [<-|Hu]); try contradiction; lra. }
    do 2 eexists. split; [apply Global_ok, Ac|]. split; [apply Global_ok, Ad|].
    intros k _. eapply closed_equal; eauto.
  - intros D t q Hq. apply Global_value in Hq. subst q.
    assert (L2 : length w = 2%nat).
    { rewrite <- Ln. unfold dim_local in D. destruct (kind_el (go_kind c)); try discriminate D; reflexivity. }
    exists (col c 0), (col c 1).
    pose proof (columns_nodes _ _ _ _ 0 B ltac:(lia)) as E0. pose proof (columns_nodes _ _ _ _ 1 B ltac:(lia)) as E1.
    destruct (is_o2 (go_kind c)) eqn:O2.
    + pose proof (columns_mids _ _ _ _ 0 B O2) as EM. rewrite D, L2 in EM. specialize (EM ltac:(cbn; lia)).
      exists (col c 2). split; [exact E0|]. split; [exact E1|]. split; [exact EM|]. intros k _.
      rewrite <- O by lia. unfold global_at.
      destruct (go_kind c); try discriminate O2; try discriminate D. coefs. cbn [nth]. ring.
    + exists (global_at g (nth 0 (between (nth 0 w []) (nth 1 w []) (1 / 2)) 0) (nth 1 (between (nth 0 w []) (nth 1 w []) (1 / 2)) 0)).
      split; [exact E0|]. split; [exact E1|]. split.
      * apply Global_ok. split.
        -- unfold between. rewrite map_length, combine_length.
           rewrite Forall_forall in F. rewrite (F (nth 0 w [])) by (apply nth_In; lia).
           rewrite (F (nth 1 w [])) by (apply nth_In; lia). lia.
        -- rewrite <- O by lia. congruence.
      * intros k _. rewrite <- O by lia. unfold global_at.
        destruct (go_kind c); try discriminate O2; try discriminate D. cbn [nth]. ring.
  - intros D i t q Hi Hq. apply Global_value in Hq. subst q.
    set (j := ((i + 1) mod length w)%nat).
    assert (Hj : (j < length w)%nat) by (apply Nat.mod_upper_bound; lia).
    exists (col c i), (col c j).
    pose proof (columns_nodes _ _ _ _ i B Hi) as E0. pose proof (columns_nodes _ _ _ _ j B Hj) as E1.
    assert (EF := edge_formula c i t). rewrite Ln in EF. fold j in EF.
    destruct (is_o2 (go_kind c)) eqn:O2.
    + pose proof (columns_mids _ _ _ _ i B O2) as EM. rewrite D in EM. specialize (EM ltac:(cbn; lia)). fold j in EM.
      exists (col c (length w + i)). split; [exact E0|]. split; [exact E1|]. split; [exact EM|]. intros k _.
      rewrite <- O by lia. apply EF; auto.
    + exists (global_at g (nth 0 (between (nth i w []) (nth j w []) (1 / 2)) 0) (nth 1 (between (nth i w []) (nth j w []) (1 / 2)) 0)).
      split; [exact E0|]. split; [exact E1|]. split.
      * apply Global_ok. split.
        -- unfold between. rewrite map_length, combine_length.
           rewrite Forall_forall in F. rewrite (F (nth i w [])) by (apply nth_In; lia).
           rewrite (F (nth j w [])) by (apply nth_In; lia). lia.
        -- rewrite <- O by lia. congruence.
      * intros k _. rewrite <- O by lia. apply EF; auto.
Qed.

Lemma children_geometry : forall g P codim cs, exact_parallelogram g -> go_kind g <> GPoint ->
  ChildGeometry g P codim = Ok cs ->
  p_el P = kind_el (go_kind g) /\
  exists polys, ChildPolygons P codim = Ok polys /\ NumChildren P codim = Ok (length cs) /\
  Forall2 (fun poly c => child_of g codim (corners (p_lc P) poly) c) polys cs.
Proof.
  intros g P codim cs X NP H. unfold ChildGeometry in H.
  destruct (same_el (p_el P) (kind_el (go_kind g))) eqn:SE; [|discriminate H]. cbn [verify bind] in H.
  split; [destruct (p_el P), (kind_el (go_kind g)); try discriminate SE; reflexivity|].
  assert (H' : (do _ <- verify (codim <=? dim_local (go_kind g))%nat;
      do polys <- ChildPolygons P codim;
      do n <- NumChildren P codim;
      do _ <- verify (length polys =? n)%nat;
      mapM (child g (p_lc P) codim) polys) = Ok cs) by (destruct (go_kind g); auto; contradiction).
  clear H. destruct (verify (codim <=? _)%nat); try discriminate H'. cbn [bind] in H'.
  destruct (ChildPolygons P codim) as [polys| |]; try discriminate H'. cbn [bind] in H'.
  destruct (NumChildren P codim) as [n| |]; try discriminate H'. cbn [bind] in H'.
  destruct (Nat.eqb_spec (length polys) n) as [En|]; [subst n|discriminate H']. cbn [verify bind] in H'.
  apply mapM_ok in H'. exists polys. split; [reflexivity|]. split.
  - f_equal. clear - H'. induction H'; cbn; auto.
  - clear - H' X NP. induction H'; constructor; auto. apply base_child; auto. apply child_base. assumption.
Qed.

Lemma point_child : forall g P codim cs, constructed g -> go_kind g = GPoint ->
  ChildGeometry g P codim = Ok cs -> p_el P = kPoint /\ codim = 0%nat /\ cs = [g].
Proof.
  intros g P codim cs C K H. unfold ChildGeometry in H. rewrite K in H.
  destruct (same_el (p_el P) (kind_el GPoint)) eqn:SE; [|discriminate H]. cbn [verify bind] in H.
  destruct (Nat.eqb_spec codim 0) as [->|]; [|discriminate H]. cbn [verify bind] in H.
  destruct (NumChildren P 0) as [n| |]; try discriminate H. cbn [bind] in H.
  destruct (n =? 1)%nat; [|discriminate H]. cbn [verify bind] in H.
  destruct (new_geo GPoint (go_dim g) (go_cols g)) as [c| |] eqn:E; try discriminate H. cbn [bind] in H. injection H as <-.
  split; [destruct (p_el P); try discriminate SE; reflexivity|]. split; [reflexivity|].
  apply new_geo_inv in E. destruct E as (-> & _). destruct g; cbn in *. subst. reflexivity.
Qed.

(** *** Curves *)
Lemma between_sym : forall a b, between a b (1 / 2) = between b a (1 / 2).
Proof.
  induction a as [|u a IH]; intros [|v b]; try reflexivity. unfold between in *. cbn [combine map fst snd].
  rewrite IH. f_equal. lra.
Qed.
Lemma curve_reverse : forall g a b t q, curve g a b t q -> curve g b a (1 - t) q.
Proof.
  intros g a b t q (pa & pb & pm & Ea & Eb & Em & H). exists pb, pa, pm. rewrite between_sym.
  do 3 (split; [assumption|]). intros k Hk. rewrite (H k Hk). destruct (is_o2 _); ring.
Qed.
Lemma curve_unique : forall g a b t q q', curve g a b t q -> curve g a b t q' ->
  forall k, (k < go_dim g)%nat -> q k = q' k.
Proof.
  intros g a b t q q' (pa & pb & pm & Ea & Eb & Em & H) (pa' & pb' & pm' & Ea' & Eb' & Em' & H') k Hk.
  rewrite (H k Hk), (H' k Hk). replace pa' with pa by congruence. replace pb' with pb by congruence.
  replace pm' with pm by congruence. reflexivity.
Qed.
Lemma curve_exact : forall g a b t q, go_kind g <> GPoint -> closed_class g [a; b] ->
  (is_o2 (go_kind g) = true -> 0 <= t <= 1) -> curve g a b t q ->
  exists p, Global g (between a b t) = Ok p /\ forall k, (k < go_dim g)%nat -> q k = p k.
Proof.
  intros g a b t q NP CC Ht (pa & pb & pm & Ea & Eb & Em & H).
  pose proof (Global_defined _ _ _ Ea) as (La & Ia). pose proof (Global_defined _ _ _ Eb) as (Lb & Ib).
  exists (global_at g (nth 0 (between a b t) 0) (nth 1 (between a b t) 0)). split.
  - apply Global_ok. split.
    + unfold between. rewrite map_length, combine_length. lia.
    + intros O2 u Hu. unfold between in Hu. apply in_map_iff in Hu. destruct Hu as ((x & y) & <- & Hxy).
      cbn [fst snd]. pose proof (in_combine_l _ _ _ _ Hxy). pose proof (in_combine_r _ _ _ _ Hxy).
      apply convex01; auto.
  - intros k Hk. rewrite (H k Hk). apply Global_value in Ea, Eb, Em. subst pa pb pm. clear H.
    unfold closed_class in CC. unfold global_at.
    destruct (go_kind g); try contradiction; cbn [dim_local kind_el el_dim is_o2] in *;
      repeat (destruct a as [|? a]; try discriminate La); repeat (destruct b as [|? b]; try discriminate Lb);
      try (destruct (axis2 _ CC eq_refl) as (x0 & x1 & y0 & y1 & [E | E]); injection E as -> -> -> ->);
      cbv [between combine map nth fst snd]; coefs; field.
Qed.
