(** The children of the triangles of a mesh do not overlap if the triangles do not. *)
From Coq Require Import Reals List Arith Lia Bool Lra.
Import ListNotations.
From Verif Require Import Base MeshModel MeshView RefPatModel RefPatSpec RefineModel RefineSpec DofModel DofSpec FlagSpec FlagModel GeoModel GeoSpec GeoProofs2 FeModel FeSpec FeToolsModel
  TransferModel TransferSpec TransferProofs TransferProofs2 TransferProofs4 TransferProofs5 NormalSpec NormalProofs2 NormalProofs3 NormalProofs4 StokesModel StokesSpec RectProofs4 RectProofs5 RectProofs7.
Local Open Scope R_scope.

Definition plane_tria (g : geo) : Prop := go_kind g = GTriaO1 /\ go_dim g = 2%nat /\ fits kTria g.
Lemma plane_cols : forall g, plane_tria g -> go_cols g = [col g 0; col g 1; col g 2] /\ area2 (col g 0) (col g 1) (col g 2) <> 0.
Proof.
  intros g (K & D & F). split; [|exact (tria_nonflat g K D (proj1 F))]. pose proof (constructed_cols g (proj1 F)) as Q. rewrite K in Q. cbn in Q. unfold col.
  destruct (go_cols g) as [|a [|b [|c [|]]]]; try discriminate. reflexivity.
Qed.
Section Step.
Variables (L L' : level).
Let m := l_mesh L. Let m' := l_mesh L'.
Hypothesis W : wf_mesh m.
Hypothesis W' : wf_mesh m'.
Hypothesis S0 : simple_mesh m.
Hypothesis RF : refined_to L m'.
Hypothesis LK : RefineSpec.linked L L'.
Hypothesis T : tri_mesh m.
Hypothesis RG : regular_level L.
Variables geom geom' : ent -> geo.
Hypothesis KT : forall i, (i < length (mv_cells m))%nat -> plane_tria (geom (DofModel.ECell i)).
Hypothesis KT' : forall i, (i < length (mv_cells m'))%nat -> plane_tria (geom' (DofModel.ECell i)).
Hypothesis FG : forall e, valid m' e -> fine_geometry L L' geom e = Ok (geom' e).

Lemma tri_type : forall i c, nth_error (mv_cells m) i = Some c -> cv_type c = kTria.
Proof. intros i c H. pose proof (T c (nth_error_In _ _ H)) as Q. unfold cv_type, cell_type. rewrite Q. reflexivity. Qed.
Lemma tri_type' : forall i c, nth_error (mv_cells m') i = Some c -> cv_type c = kTria.
Proof. intros i c H. pose proof (fine_tri L L' RF LK T RG c (nth_error_In _ _ H)) as Q. unfold cv_type, cell_type. rewrite Q. reflexivity. Qed.
Lemma child_corners : forall i c k f n0 n1 n2 x0 x1 x2, nth_error (mv_cells m) i = Some c -> In k (children L 0 i 0) -> nth_error (mv_cells m') k = Some f ->
  cv_nodes f = [x0; x1; x2] -> stands_for L i c n0 x0 -> stands_for L i c n1 x1 -> stands_for L i c n2 x2 ->
  let at_ n := global_at (geom (DofModel.ECell i)) (fst (loc kTria n)) (snd (loc kTria n)) in let g := geom' (DofModel.ECell k) in
  polygon geom' k = [col g 0; col g 1; col g 2] /\ same2 (col g 0) (at_ n0) /\ same2 (col g 1) (at_ n1) /\ same2 (col g 2) (at_ n2).
Proof.
  intros i c k f n0 n1 n2 x0 x1 x2 Hc Hk Hf HN P0 P1 P2 at_ g.
  assert (Hi : (i < length (mv_cells m))%nat) by (apply nth_error_Some; congruence). assert (Hk' : (k < length (mv_cells m'))%nat) by (apply nth_error_Some; congruence).
  destruct (KT i Hi) as (K & D & F). destruct (KT' k Hk') as (K' & D' & F').
  split; [exact (proj1 (plane_cols _ (KT' k Hk')))|].
  set (pl n := [fst (loc kTria n); snd (loc kTria n)]).
  assert (IN : TransferSpec.inside L L' (DofModel.ECell k) (DofModel.ECell i) [pl n0; pl n1; pl n2]).
  { split; [exact Hk|]. cbn [ent_nodes]. fold m'. rewrite Hf, HN. unfold pl. rewrite <- (tri_type i c Hc).
    constructor; [exact (pl_cell L i c n0 x0 Hc P0)|]. constructor; [exact (pl_cell L i c n1 x1 Hc P1)|]. constructor; [exact (pl_cell L i c n2 x2 Hc P2)|]. constructor. }
  assert (TC : ent_type (l_mesh L) (DofModel.ECell i) = kTria) by (cbn [ent_type]; unfold DofModel.cell_at; fold m; rewrite (nth_error_nth _ _ _ Hc); exact (tri_type i c Hc)).
  assert (TF : ent_type (l_mesh L') (DofModel.ECell k) = kTria) by (cbn [ent_type]; unfold DofModel.cell_at; fold m'; rewrite (nth_error_nth _ _ _ Hf); exact (tri_type' k f Hf)).
  destruct (fine_fits L L' W W' S0 RF LK geom (DofModel.ECell k) (DofModel.ECell i) _ g Hk' Hi IN) as (_ & _ & Q); [rewrite TC; exact F|exact (FG (DofModel.ECell k) Hk')|].
  rewrite D, TF in Q. assert (CC : closed_class (geom (DofModel.ECell i)) [pl n0; pl n1; pl n2]) by (unfold closed_class; rewrite K; exact I). specialize (Q CC).
  assert (E : forall s t, 0 <= s -> 0 <= t -> s + t <= 1 -> same2 (global_at g s t) (global_at (geom (DofModel.ECell i)) (nth 0 (onto [pl n0; pl n1; pl n2] [s; t]) 0) (nth 1 (onto [pl n0; pl n1; pl n2] [s; t]) 0))).
  { intros s t A B C k2 Hk2. destruct (Q [s; t]) as (x & y & X & Y & E); [cbn; auto|]. apply global_inv in X. apply global_inv in Y. subst x y. exact (E k2 Hk2). }
  assert (G : forall s t u v, global_at g s t = (fun k => col g 0 k * (1 - s - t) + col g 1 k * s + col g 2 k * t) /\
     global_at (geom (DofModel.ECell i)) u v = (fun k => col (geom (DofModel.ECell i)) 0 k * (1 - u - v) + col (geom (DofModel.ECell i)) 1 k * u + col (geom (DofModel.ECell i)) 2 k * v)).
  { intros s t u v. unfold global_at. unfold g in *. rewrite K, K'. auto. }
  split; [|split]; intros k2 Hk2; unfold at_.
  - specialize (E 0 0 ltac:(lra) ltac:(lra) ltac:(lra) k2 Hk2). destruct (G 0 0 (nth 0 (onto [pl n0; pl n1; pl n2] [0; 0]) 0) (nth 1 (onto [pl n0; pl n1; pl n2] [0; 0]) 0)) as [G1 G2]. rewrite G1, G2 in E.
    rewrite (proj2 (G 0 0 _ _)). unfold onto, pl in E. cbn [length nth seq map combine fold_right fst snd] in E. lra.
  - specialize (E 1 0 ltac:(lra) ltac:(lra) ltac:(lra) k2 Hk2). destruct (G 1 0 (nth 0 (onto [pl n0; pl n1; pl n2] [1; 0]) 0) (nth 1 (onto [pl n0; pl n1; pl n2] [1; 0]) 0)) as [G1 G2]. rewrite G1, G2 in E.
    rewrite (proj2 (G 0 0 _ _)). unfold onto, pl in E. cbn [length nth seq map combine fold_right fst snd] in E. lra.
  - specialize (E 0 1 ltac:(lra) ltac:(lra) ltac:(lra) k2 Hk2). destruct (G 0 1 (nth 0 (onto [pl n0; pl n1; pl n2] [0; 1]) 0) (nth 1 (onto [pl n0; pl n1; pl n2] [0; 1]) 0)) as [G1 G2]. rewrite G1, G2 in E.
    rewrite (proj2 (G 0 0 _ _)). unfold onto, pl in E. cbn [length nth seq map combine fold_right fst snd] in E. lra.
Qed.
(** Child number [j] of cell [i] is the quarter [j] of its triangle. *)
Lemma child_quarter : forall i j k, (i < length (mv_cells m))%nat -> nth_error (children L 0 i 0) j = Some k ->
  (j < 4)%nat /\ quarter (col (geom (DofModel.ECell i)) 0) (col (geom (DofModel.ECell i)) 1) (col (geom (DofModel.ECell i)) 2) j (polygon geom' k).
Proof.
  intros i j k Hi Hk. destruct (nth_error (mv_cells m) i) as [c|] eqn:Hc; [|apply nth_error_None in Hc; lia].
  destruct (four L L' RF T RG i c Hc) as (v0 & v1 & v2 & m0 & m1 & m2 & k0 & k1 & k2 & k3 & f0 & f1 & f2 & f3 & SV0 & SV1 & SV2 & SM0 & SM1 & SM2 & CH & (E0 & E1 & E2 & E3) & N0 & N1 & N2 & N3).
  pose proof (nth_error_In _ _ Hk) as Hin. rewrite CH in Hk. set (g := geom (DofModel.ECell i)). assert (K : go_kind g = GTriaO1) by exact (proj1 (KT i Hi)).
  assert (GA : forall s t, global_at g s t = (fun k => col g 0 k * (1 - s - t) + col g 1 k * s + col g 2 k * t)) by (intros; unfold global_at; rewrite K; reflexivity).
  assert (LV0 : same2 (global_at g (fst (loc kTria (V 0))) (snd (loc kTria (V 0)))) (col g 0)) by (intros q _; rewrite GA; cbn; lra).
  assert (LV1 : same2 (global_at g (fst (loc kTria (V 1))) (snd (loc kTria (V 1)))) (col g 1)) by (intros q _; rewrite GA; cbn; lra).
  assert (LV2 : same2 (global_at g (fst (loc kTria (V 2))) (snd (loc kTria (V 2)))) (col g 2)) by (intros q _; rewrite GA; cbn; lra).
  assert (LM0 : same2 (global_at g (fst (loc kTria (M 0))) (snd (loc kTria (M 0)))) (middle (col g 0) (col g 1))) by (intros q _; rewrite GA; unfold middle; cbn; lra).
  assert (LM1 : same2 (global_at g (fst (loc kTria (M 1))) (snd (loc kTria (M 1)))) (middle (col g 1) (col g 2))) by (intros q _; rewrite GA; unfold middle; cbn; lra).
  assert (LM2 : same2 (global_at g (fst (loc kTria (M 2))) (snd (loc kTria (M 2)))) (middle (col g 2) (col g 0))) by (intros q _; rewrite GA; unfold middle; cbn; lra).
  assert (TR : forall p q r : vec, same2 p q -> same2 q r -> same2 p r) by (intros p q r A B z Hz; rewrite (A z Hz); exact (B z Hz)).
  destruct j as [|[|[|[|j]]]]; cbn in Hk; [injection Hk as <-|injection Hk as <-|injection Hk as <-|injection Hk as <-|destruct j; discriminate]; (split; [lia|]).
  - destruct (child_corners i c k0 f0 (V 0) (M 0) (M 2) _ _ _ Hc Hin E0 N0 SV0 SM0 SM2) as (Q & Q0 & Q1 & Q2). rewrite Q. do 3 eexists. split; [reflexivity|]. fold g in Q0, Q1, Q2. split; [|split]; eauto.
  - destruct (child_corners i c k1 f1 (V 1) (M 0) (M 1) _ _ _ Hc Hin E1 N1 SV1 SM0 SM1) as (Q & Q0 & Q1 & Q2). rewrite Q. do 3 eexists. split; [reflexivity|]. fold g in Q0, Q1, Q2. split; [|split]; eauto.
  - destruct (child_corners i c k2 f2 (V 2) (M 2) (M 1) _ _ _ Hc Hin E2 N2 SV2 SM2 SM1) as (Q & Q0 & Q1 & Q2). rewrite Q. do 3 eexists. split; [reflexivity|]. fold g in Q0, Q1, Q2. split; [|split]; eauto.
  - destruct (child_corners i c k3 f3 (M 0) (M 1) (M 2) _ _ _ Hc Hin E3 N3 SM0 SM1 SM2) as (Q & Q0 & Q1 & Q2). rewrite Q. do 3 eexists. split; [reflexivity|]. fold g in Q0, Q1, Q2. split; [|split]; eauto.
Qed.
Lemma parent_cell : forall k, (k < length (mv_cells m'))%nat -> exists i j, (i < length (mv_cells m))%nat /\ nth_error (children L 0 i 0) j = Some k.
Proof.
  intros k Hk. destruct (LK 0%nat ltac:(lia)) as (A & B & C).
  destruct (nth_error (parents L' 0) k) as [pa|] eqn:E; [|apply nth_error_None in E; rewrite A in E; cbn in E; fold m' in E; lia].
  destruct (B k pa E) as (cd & i & j & -> & Hc & Hi). assert (cd = 0)%nat by lia. subst cd. apply C in E. exists i, j. auto.
Qed.
Lemma fine_apart : no_overlap m geom -> no_overlap m' geom'.
Proof.
  intros NO k k' Hk Hk' NE. change (size m' 0) with (length (mv_cells m')) in Hk, Hk'.
  destruct (parent_cell k Hk) as (i & j & Hi & Hj). destruct (parent_cell k' Hk') as (i' & j' & Hi' & Hj').
  destruct (child_quarter i j k Hi Hj) as [B Q]. destruct (child_quarter i' j' k' Hi' Hj') as [B' Q'].
  destruct (plane_cols _ (KT i Hi)) as [P N]. destruct (plane_cols _ (KT i' Hi')) as [P' N'].
  destruct (Nat.eq_dec i i') as [<-|NI].
  - apply (quarters_apart _ _ _ N j j'); auto. congruence.
  - intros x [I I']. apply (NO i i' Hi Hi' NI x). unfold polygon. rewrite P, P'. split; [exact (quarter_in _ _ _ N j _ x Q I)|exact (quarter_in _ _ _ N' j' _ x Q' I')].
Qed.
End Step.
