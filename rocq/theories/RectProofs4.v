(** Regular refinement of triangles: the finer mesh consists of triangles, is a manifold if the coarse one is, and its cells are
    reached from the boundary if the coarse ones are. *)
From Coq Require Import Reals List Arith Lia Bool.
Import ListNotations.
From Verif Require Import Base MeshModel MeshView RefPatModel RefineModel RefineSpec RefineProofs2 RefineProofs3 RefineProofs5 DofModel FlagSpec FlagModel NormalSpec StokesModel StokesSpec.
Local Open Scope nat_scope.

Definition tri_mesh (m : mesh) : Prop := forall c, In c (mv_cells m) -> length (cv_nodes c) = 3.
Definition regular_level (L : level) : Prop := forall ci, In ci (l_cells L) -> cc_pat ci = rp_regular.

Lemma pair_edge : forall m k c a b, wf_mesh m -> nth_error (mv_cells m) k = Some c -> length (cv_nodes c) = 3 ->
  In a (cv_nodes c) -> In b (cv_nodes c) -> a <> b ->
  exists i e x y, edge_of m k i e /\ nth_error (mv_edges m) e = Some (x, y) /\ ((x = a /\ y = b) \/ (x = b /\ y = a)).
Proof.
  intros m k c a b W H L Ia Ib N. pose proof (wm_cells m W) as Fo. rewrite Forall_forall in Fo. pose proof (Fo c (nth_error_In _ _ H)) as Wc.
  assert (J : exists j, j < 3 /\ ((nth j (cv_nodes c) 0 = a /\ next_corner (cv_nodes c) j = b) \/ (nth j (cv_nodes c) 0 = b /\ next_corner (cv_nodes c) j = a))).
  { destruct (cv_nodes c) as [|x [|y [|z [|]]]]; try discriminate. unfold next_corner. cbn [length].
    destruct Ia as [<-|[<-|[<-|[]]]]; destruct Ib as [<-|[<-|[<-|[]]]]; try congruence;
      first [exists 0; split; [lia|]; cbn; tauto | exists 1; split; [lia|]; cbn; tauto | exists 2; split; [lia|]; cbn; tauto]. }
  destruct J as (j & Hj & J). rewrite <- L in Hj. destruct (wc_local m c Wc j Hj) as (e & o & x & y & E1 & _ & E2 & O2).
  exists j, e, x, y. split; [exists c; auto|]. split; auto. destruct o; destruct O2; subst; tauto.
Qed.
Lemma share : forall m k k' c c' a b, wf_mesh m -> nth_error (mv_cells m) k = Some c -> nth_error (mv_cells m) k' = Some c' -> length (cv_nodes c) = 3 -> length (cv_nodes c') = 3 ->
  In a (cv_nodes c) -> In b (cv_nodes c) -> In a (cv_nodes c') -> In b (cv_nodes c') -> a <> b -> StokesSpec.reached m k -> StokesSpec.reached m k'.
Proof.
  intros m k k' c c' a b W H H' L L' A B A' B' N R.
  destruct (pair_edge m k c a b W H L A B N) as (i & e & x & y & E1 & E2 & E3).
  destruct (pair_edge m k' c' a b W H' L' A' B' N) as (i' & e' & x' & y' & E1' & E2' & E3').
  assert (e = e') by (apply (wm_unique m W e e' x y x' y'); auto; destruct E3 as [[-> ->]|[-> ->]]; destruct E3' as [[-> ->]|[-> ->]]; auto).
  subst e'. exact (reached_across m _ _ _ _ _ R E1 E1').
Qed.

Section Step.
Variables (L L' : level).
Let m := l_mesh L. Let m' := l_mesh L'.
Hypothesis W : wf_mesh m.
Hypothesis W' : wf_mesh m'.
Hypothesis S' : simple_mesh m'.
Hypothesis RF : refined_to L m'.
Hypothesis LK : RefineSpec.linked L L'.
Hypothesis T : tri_mesh m.
Hypothesis RG : regular_level L.

Lemma four : forall i c, nth_error (mv_cells m) i = Some c -> exists v0 v1 v2 m0 m1 m2 k0 k1 k2 k3 f0 f1 f2 f3,
  stands_for L i c (V 0) v0 /\ stands_for L i c (V 1) v1 /\ stands_for L i c (V 2) v2 /\
  stands_for L i c (M 0) m0 /\ stands_for L i c (M 1) m1 /\ stands_for L i c (M 2) m2 /\
  children L 0 i 0 = [k0; k1; k2; k3] /\
  (nth_error (mv_cells m') k0 = Some f0 /\ nth_error (mv_cells m') k1 = Some f1 /\ nth_error (mv_cells m') k2 = Some f2 /\ nth_error (mv_cells m') k3 = Some f3) /\
  cv_nodes f0 = [v0; m0; m2] /\ cv_nodes f1 = [v1; m0; m1] /\ cv_nodes f2 = [v2; m2; m1] /\ cv_nodes f3 = [m0; m1; m2].
Proof.
  intros i c H. assert (Hl : i < length (l_cells L)). { rewrite (proj1 (rf_counts _ _ RF)). apply nth_error_Some. unfold m in H. congruence. }
  destruct (nth_error (l_cells L) i) as [ci|] eqn:E; [|apply nth_error_None in E; lia].
  destruct (rf_cell _ _ RF i c ci H E) as (lc & E1 & _ & _ & F & _).
  rewrite (RG ci (nth_error_In _ _ E)) in E1. assert (Tc : cv_type c = kTria) by (pose proof (T c (nth_error_In _ _ H)) as Q3; unfold cv_type, cell_type; rewrite ?Q3; destruct (cv_nodes c) as [|? [|? [|? [|]]]]; try discriminate Q3; reflexivity).
  rewrite Tc in E1. cbn in E1. injection E1 as <-. cbn [lc_cells] in F.
  remember (children L 0 i 0) as ks eqn:K. clear K.
  inversion F as [|k0 l0 r0 s0 (f0 & A0 & B0) F0]; subst. inversion F0 as [|k1 l1 r1 s1 (f1 & A1 & B1) F1]; subst.
  inversion F1 as [|k2 l2 r2 s2 (f2 & A2 & B2) F2]; subst. inversion F2 as [|k3 l3 r3 s3 (f3 & A3 & B3) F3]; subst. inversion F3; subst.
  clear F F0 F1 F2 F3.
  assert (U : forall n u u', stands_for L i c n u -> stands_for L i c n u' -> u = u').
  { intros n u u' X Y. destruct n as [k|k|]; unfold stands_for in X, Y; [destruct X as (z & X1 & X2); destruct Y as (z' & Y1 & Y2)|destruct X as (z & X1 & X2); destruct Y as (z' & Y1 & Y2)|]; congruence. }
  assert (G : forall n1 n2 n3 f, Forall2 (stands_for L i c) [n1; n2; n3] (cv_nodes f) -> exists x y z, cv_nodes f = [x; y; z] /\ stands_for L i c n1 x /\ stands_for L i c n2 y /\ stands_for L i c n3 z).
  { intros n1 n2 n3 f Z. inversion Z as [|? x ? ? Z1 Z']; subst. inversion Z' as [|? y ? ? Z2 Z'']; subst. inversion Z'' as [|? z ? ? Z3 Z3']; subst. inversion Z3'; subst. eauto 10. }
  apply G in B0 as (x0 & y0 & z0 & N0 & P0 & Q0 & R0). apply G in B1 as (x1 & y1 & z1 & N1 & P1 & Q1 & R1).
  apply G in B2 as (x2 & y2 & z2 & N2 & P2 & Q2 & R2). apply G in B3 as (x3 & y3 & z3 & N3 & P3 & Q3 & R3).
  assert (y1 = y0) by eauto. assert (y2 = z0) by eauto. assert (z2 = z1) by eauto. assert (x3 = y0) by eauto. assert (y3 = z1) by eauto. assert (z3 = z0) by eauto. subst.
  exists x0, x1, x2, y0, z1, z0, k0, k1, k2, k3, f0, f1, f2, f3. do 10 (split; [auto|]). auto.
Qed.
Lemma fine_tri : tri_mesh m'.
Proof.
  intros f Hf. apply In_nth_error in Hf as (j & Hj). destruct (LK 0 ltac:(lia)) as (A & B & C).
  assert (Lj : j < length (parents L' 0)) by (rewrite A; cbn; apply nth_error_Some; fold m'; congruence).
  destruct (nth_error (parents L' 0) j) as [pa|] eqn:E; [|apply nth_error_None in E; lia].
  destruct (B j pa E) as (cd & i & k & -> & Hc & Hi). assert (cd = 0) by lia. subst cd. apply C in E. cbn in Hi. fold m in Hi.
  destruct (nth_error (mv_cells m) i) as [c|] eqn:Ec; [|apply nth_error_None in Ec; lia].
  destruct (four i c Ec) as (v0 & v1 & v2 & m0 & m1 & m2 & k0 & k1 & k2 & k3 & f0 & f1 & f2 & f3 & _ & _ & _ & _ & _ & _ & K & (A0 & A1 & A2 & A3) & N0 & N1 & N2 & N3).
  rewrite K in E. destruct k as [|[|[|[|k]]]]; cbn in E; try (destruct k; discriminate); injection E as <-; rewrite Hj in *;
    [injection A0 as <-; rewrite N0|injection A1 as <-; rewrite N1|injection A2 as <-; rewrite N2|injection A3 as <-; rewrite N3]; reflexivity.
Qed.
Lemma nodup3 : forall k f x y z, nth_error (mv_cells m') k = Some f -> cv_nodes f = [x; y; z] -> x <> y /\ y <> z /\ x <> z.
Proof.
  intros k f x y z H N. pose proof (proj1 S' f (nth_error_In _ _ H)) as D. rewrite N in D. inversion D as [|? ? D1 D2]; subst. inversion D2 as [|? ? D3 D4]; subst.
  cbn in D1, D3. intuition congruence.
Qed.
(** Once one child of a cell is reached, all are. *)
Lemma siblings : forall i c k, nth_error (mv_cells m) i = Some c -> In k (children L 0 i 0) -> StokesSpec.reached m' k -> forall k', In k' (children L 0 i 0) -> StokesSpec.reached m' k'.
Proof.
  intros i c k Hc Hk R k' Hk'.
  destruct (four i c Hc) as (v0 & v1 & v2 & m0 & m1 & m2 & k0 & k1 & k2 & k3 & f0 & f1 & f2 & f3 & _ & _ & _ & _ & _ & _ & K & (A0 & A1 & A2 & A3) & N0 & N1 & N2 & N3).
  destruct (nodup3 k3 f3 _ _ _ A3 N3) as (D1 & D2 & D3). rewrite K in Hk, Hk'.
  assert (T0 := f_equal (@length nat) N0). assert (T1 := f_equal (@length nat) N1). assert (T2 := f_equal (@length nat) N2). assert (T3 := f_equal (@length nat) N3).
  assert (C0 : StokesSpec.reached m' k0 <-> StokesSpec.reached m' k3).
  { split; [apply (share m' k0 k3 f0 f3 m0 m2)|apply (share m' k3 k0 f3 f0 m0 m2)]; auto; rewrite ?N0, ?N3; cbn; auto. }
  assert (C1 : StokesSpec.reached m' k1 <-> StokesSpec.reached m' k3).
  { split; [apply (share m' k1 k3 f1 f3 m0 m1)|apply (share m' k3 k1 f3 f1 m0 m1)]; auto; rewrite ?N1, ?N3; cbn; auto. }
  assert (C2 : StokesSpec.reached m' k2 <-> StokesSpec.reached m' k3).
  { split; [apply (share m' k2 k3 f2 f3 m1 m2)|apply (share m' k3 k2 f3 f2 m1 m2)]; auto; rewrite ?N2, ?N3; cbn; auto. }
  assert (R3 : StokesSpec.reached m' k3) by (cbn in Hk; destruct Hk as [<-|[<-|[<-|[<-|[]]]]]; tauto).
  cbn in Hk'. destruct Hk' as [<-|[<-|[<-|[<-|[]]]]]; tauto.
Qed.
(** At both ends of each edge of a cell there is a child of the cell that contains this half of the edge. *)
Lemma at_edge : forall i c j e a b a' q, nth_error (mv_cells m) i = Some c -> nth_error (cv_edges c) j = Some e -> nth_error (mv_edges m) e = Some (a, b) ->
  children L 2 a 2 = [a'] -> children L 1 e 2 = [q] ->
  exists k f, In k (children L 0 i 0) /\ nth_error (mv_cells m') k = Some f /\ length (cv_nodes f) = 3 /\ In a' (cv_nodes f) /\ In q (cv_nodes f) /\ a' <> q.
Proof.
  intros i c j e a b a' q Hc He Hab Ha Hq.
  destruct (four i c Hc) as (v0 & v1 & v2 & m0 & m1 & m2 & k0 & k1 & k2 & k3 & f0 & f1 & f2 & f3 & (x0 & X0 & Y0) & (x1 & X1 & Y1) & (x2 & X2 & Y2) & (e0 & P0 & Q0) & (e1 & P1 & Q1) & (e2 & P2 & Q2) & K & (A0 & A1 & A2 & A3) & N0 & N1 & N2 & N3).
  destruct (nodup3 k0 f0 _ _ _ A0 N0) as (D01 & D02 & D03). destruct (nodup3 k1 f1 _ _ _ A1 N1) as (D11 & D12 & D13). destruct (nodup3 k2 f2 _ _ _ A2 N2) as (D21 & D22 & D23).
  pose proof (wm_cells m W) as Fo. rewrite Forall_forall in Fo. pose proof (Fo c (nth_error_In _ _ Hc)) as Wc. pose proof (T c (nth_error_In _ _ Hc)) as Tc.
  assert (Lj : j < length (cv_nodes c)). { rewrite <- (wc_edges m c Wc). apply nth_error_Some. congruence. }
  destruct (wc_local m c Wc j Lj) as (e' & o & p0 & p1 & E1 & _ & E2 & O2). rewrite He in E1. injection E1 as <-. rewrite Hab in E2. injection E2 as <- <-.
  assert (Q : a = nth j (cv_nodes c) 0 \/ a = next_corner (cv_nodes c) j) by (destruct o; tauto). clear O2.
  apply (nth_error_nth _ _ 0) in X0. apply (nth_error_nth _ _ 0) in X1. apply (nth_error_nth _ _ 0) in X2. unfold next_corner in Q. rewrite Tc in Q, Lj.
  destruct j as [|[|[|j]]]; [| | |lia]; cbn [Nat.modulo Nat.divmod fst snd Nat.sub] in Q.
  - rewrite He in P0. injection P0 as <-. assert (q = m0) by congruence. subst q. destruct Q as [Q|Q].
    + assert (a' = v0) by congruence. subst a'. exists k0, f0. rewrite K, N0. cbn. auto 10.
    + assert (a' = v1) by congruence. subst a'. exists k1, f1. rewrite K, N1. cbn. auto 10.
  - rewrite He in P1. injection P1 as <-. assert (q = m1) by congruence. subst q. destruct Q as [Q|Q].
    + assert (a' = v1) by congruence. subst a'. exists k1, f1. rewrite K, N1. cbn. auto 10.
    + assert (a' = v2) by congruence. subst a'. exists k2, f2. rewrite K, N2. cbn. auto 10.
  - rewrite He in P2. injection P2 as <-. assert (q = m2) by congruence. subst q. destruct Q as [Q|Q].
    + assert (a' = v2) by congruence. subst a'. exists k2, f2. rewrite K, N2. cbn. auto 10.
    + assert (a' = v0) by congruence. subst a'. exists k0, f0. rewrite K, N0. cbn. auto 10.
Qed.
Lemma split_all : forall i j e, edge_of m i j e -> is_split L e.
Proof.
  intros i j e (c & Hc & He). assert (Hl : i < length (l_cells L)). { rewrite (proj1 (rf_counts _ _ RF)). apply nth_error_Some. unfold m in Hc. congruence. }
  destruct (nth_error (l_cells L) i) as [ci|] eqn:E; [|apply nth_error_None in E; lia].
  pose proof (rf_compatible _ _ RF i c ci Hc E) as CM. apply (cm_edges _ _ _ CM j e He). rewrite (RG ci (nth_error_In _ _ E)).
  assert (Tc : cv_type c = kTria) by (pose proof (T c (nth_error_In _ _ Hc)) as Q3; unfold cv_type, cell_type; rewrite ?Q3; destruct (cv_nodes c) as [|? [|? [|? [|]]]]; try discriminate Q3; reflexivity). rewrite Tc. cbn.
  pose proof (wm_cells m W) as Fo. rewrite Forall_forall in Fo. pose proof (Fo c (nth_error_In _ _ Hc)) as Wc.
  assert (j < 3) by (rewrite <- (T c (nth_error_In _ _ Hc)), <- (wc_edges m c Wc); apply nth_error_Some; congruence). lia.
Qed.
Hypothesis AE : forall e f, In f (children L 1 e 1) -> adjacent m' f = adjacent m e.
Hypothesis AC : forall c f, In f (children L 0 c 1) -> adjacent m' f = 2.
Lemma edge_at : forall e i j, edge_of m i j e -> exists a b a' q f, nth_error (mv_edges m) e = Some (a, b) /\ children L 2 a 2 = [a'] /\ children L 1 e 2 = [q] /\
  In f (children L 1 e 1) /\ nth_error (mv_edges m') f = Some (a', q).
Proof.
  intros e i j H. pose proof (split_all i j e H) as SP. destruct H as (c & Hc & He).
  pose proof (wm_cells m W) as Fo. rewrite Forall_forall in Fo. pose proof (Fo c (nth_error_In _ _ Hc)) as Wc.
  assert (Lj : j < length (cv_nodes c)) by (rewrite <- (wc_edges m c Wc); apply nth_error_Some; congruence).
  destruct (wc_local m c Wc j Lj) as (e' & o & a & b & E1 & _ & E2 & _). rewrite He in E1. injection E1 as <-.
  destruct (rf_split _ _ RF e a b E2 SP) as (f & g & a' & b' & q & F1 & F2 & F3 & F4 & F5 & _).
  exists a, b, a', q, f. rewrite F1. cbn. auto 10.
Qed.
Lemma children_reached : forall i, StokesSpec.reached m i -> forall k, In k (children L 0 i 0) -> StokesSpec.reached m' k.
Proof.
  induction 1 as [i j e He B|i j i' j' e R IH He He'].
  - destruct (edge_at e i j He) as (a & b & a' & q & f & E1 & E2 & E3 & E4 & E5). destruct He as (c & Hc & He).
    destruct (at_edge i c j e a b a' q Hc He E1 E2 E3) as (k & g & K1 & K2 & K3 & K4 & K5 & K6).
    destruct (pair_edge m' k g a' q W' K2 K3 K4 K5 K6) as (l & f' & x & y & G1 & G2 & G3).
    assert (f' = f) by (apply (wm_unique m' W' f' f x y a' q); auto). subst f'.
    apply (siblings i c k Hc K1). apply reached_boundary with l f; auto. unfold boundary_edge in *. rewrite (AE e f E4). exact B.
  - destruct (edge_at e i j He) as (a & b & a' & q & f & E1 & E2 & E3 & E4 & E5). destruct He as (c & Hc & He). destruct He' as (c' & Hc' & He').
    destruct (at_edge i c j e a b a' q Hc He E1 E2 E3) as (k & g & K1 & K2 & K3 & K4 & K5 & K6).
    destruct (at_edge i' c' j' e a b a' q Hc' He' E1 E2 E3) as (k' & g' & K1' & K2' & K3' & K4' & K5' & K6').
    apply (siblings i' c' k' Hc' K1'). apply (share m' k k' g g' a' q); auto.
Qed.
Lemma fine_reached : all_reached m -> all_reached m'.
Proof.
  intros R j Hj. destruct (LK 0 ltac:(lia)) as (A & B & C). change (size m' 0) with (length (mv_cells m')) in Hj.
  destruct (nth_error (parents L' 0) j) as [pa|] eqn:E; [|apply nth_error_None in E; rewrite A in E; cbn in E; fold m' in E; lia].
  destruct (B j pa E) as (cd & i & k & -> & Hc & Hi). assert (cd = 0) by lia. subst cd. apply C in E.
  apply (children_reached i); [apply R; exact Hi|]. eapply nth_error_In; eauto.
Qed.
Lemma fine_manifold : manifold m -> manifold m'.
Proof.
  intros Mf f Hf. destruct (LK 1 ltac:(lia)) as (A & B & C). change (size m' 1) with (length (mv_edges m')) in Hf.
  destruct (nth_error (parents L' 1) f) as [pa|] eqn:E; [|apply nth_error_None in E; rewrite A in E; cbn in E; fold m' in E; lia].
  destruct (B f pa E) as (cd & i & k & -> & Hc & Hi). apply C in E. apply nth_error_In in E.
  destruct cd as [|[|]]; [| |lia].
  - right. exact (AC i f E).
  - rewrite (AE i f E). apply Mf. exact Hi.
Qed.
End Step.
