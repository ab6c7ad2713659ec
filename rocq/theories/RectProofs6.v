(** The boundary of a regularly refined mesh. *)
From Coq Require Import Reals List Arith Lia Bool.
Import ListNotations.
From Verif Require Import Base MeshModel MeshView RefPatModel RefineModel RefineSpec DofModel FlagSpec FlagModel NormalSpec StokesModel StokesSpec FlowSpec RectProofs4.
Local Open Scope nat_scope.

Section Step.
Variables (L L' : level).
Let m := l_mesh L. Let m' := l_mesh L'.
Hypothesis W : wf_mesh m.
Hypothesis RF : refined_to L m'.
Hypothesis LK : RefineSpec.linked L L'.
Hypothesis AE : forall e f, In f (children L 1 e 1) -> adjacent m' f = adjacent m e.
Hypothesis AC : forall c f, In f (children L 0 c 1) -> adjacent m' f = 2.
Hypothesis SP : forall e, boundary_edge m e = true -> is_split L e.

Lemma same_node : forall a b u, children L 2 a 2 = [u] -> children L 2 b 2 = [u] -> a = b.
Proof.
  intros a b u A B. destruct (LK 2 ltac:(lia)) as (_ & _ & C).
  assert (X := proj1 (C 2 a 0 u) ltac:(rewrite A; reflexivity)). assert (Y := proj1 (C 2 b 0 u) ltac:(rewrite B; reflexivity)). congruence.
Qed.
Lemma no_middle : forall a e u, children L 2 a 2 = [u] -> children L 1 e 2 = [u] -> False.
Proof.
  intros a e u A B. destruct (LK 2 ltac:(lia)) as (_ & _ & C).
  assert (X := proj1 (C 2 a 0 u) ltac:(rewrite A; reflexivity)). assert (Y := proj1 (C 1 e 0 u) ltac:(rewrite B; reflexivity)). congruence.
Qed.
Lemma same_middle : forall e e' u, children L 1 e 2 = [u] -> children L 1 e' 2 = [u] -> e = e'.
Proof.
  intros e e' u A B. destruct (LK 2 ltac:(lia)) as (_ & _ & C).
  assert (X := proj1 (C 1 e 0 u) ltac:(rewrite A; reflexivity)). assert (Y := proj1 (C 1 e' 0 u) ltac:(rewrite B; reflexivity)). congruence.
Qed.
Lemma same_edge : forall e e' f, In f (children L 1 e 1) -> In f (children L 1 e' 1) -> e = e'.
Proof.
  intros e e' f A B. destruct (LK 1 ltac:(lia)) as (_ & _ & C). apply In_nth_error in A as (k & A). apply In_nth_error in B as (k' & B). apply C in A. apply C in B. congruence.
Qed.
Lemma halves : forall e a b, nth_error (mv_edges m) e = Some (a, b) -> boundary_edge m e = true -> exists f g a' b' q,
  children L 1 e 1 = [f; g] /\ children L 1 e 2 = [q] /\ children L 2 a 2 = [a'] /\ children L 2 b 2 = [b'] /\
  nth_error (mv_edges m') f = Some (a', q) /\ nth_error (mv_edges m') g = Some (q, b') /\ boundary_edge m' f = true /\ boundary_edge m' g = true.
Proof.
  intros e a b H B. destruct (rf_split _ _ RF e a b H (SP e B)) as (f & g & a' & b' & q & F1 & F2 & F3 & F4 & F5 & F6 & _).
  exists f, g, a', b', q. do 6 (split; [auto|]). unfold boundary_edge in *. rewrite (AE e f), (AE e g) by (rewrite F1; cbn; auto). auto.
Qed.
(** The boundary edges of the finer mesh are the halves of those of the coarse mesh. *)
Lemma from_half : forall h, h < length (mv_edges m') -> boundary_edge m' h = true -> exists e a b, nth_error (mv_edges m) e = Some (a, b) /\ boundary_edge m e = true /\ In h (children L 1 e 1).
Proof.
  intros h Hh B. destruct (LK 1 ltac:(lia)) as (A & P & C).
  destruct (nth_error (parents L' 1) h) as [pa|] eqn:E; [|apply nth_error_None in E; rewrite A in E; cbn in E; fold m' in E; lia].
  destruct (P h pa E) as (cd & i & k & -> & Hc & Hi). apply C in E. apply nth_error_In in E. unfold boundary_edge in *.
  destruct cd as [|[|]]; [| |lia].
  - rewrite (AC i h E) in B. discriminate.
  - rewrite (AE i h E) in B. cbn in Hi. fold m in Hi. destruct (nth_error (mv_edges m) i) as [[a b]|] eqn:Ei; [|apply nth_error_None in Ei; lia]. eauto 10.
Qed.
(** Boundary edges at a node, and at the midpoint of an edge. *)
Lemma half_at : forall w w' e, children L 2 w 2 = [w'] -> ends_in m w e -> exists h, In h (children L 1 e 1) /\ ends_in m' w' h /\
  forall h', In h' (children L 1 e 1) -> ends_in m' w' h' -> h' = h.
Proof.
  intros w w' e Cw (B & a & b & H & O). destruct (halves e a b H B) as (f & g & a' & b' & q & F1 & F2 & F3 & F4 & F5 & F6 & F7 & F8).
  assert (NQ : w' <> q) by (intros ->; exact (no_middle w e q Cw F2)). destruct (wm_edges m W e a b H) as (Nab & _).
  destruct O as [-> | ->].
  - assert (w' = a') by congruence. subst w'. exists f. rewrite F1. split; [cbn; auto|]. split; [split; eauto|]. intros h' [<-|[<-|[]]] (_ & x & y & X & Y); auto.
    rewrite F6 in X. injection X as <- <-. destruct Y as [Y|Y]; [congruence|]. subst b'. exfalso. apply Nab. eapply same_node; eauto.
  - assert (w' = b') by congruence. subst w'. exists g. rewrite F1. split; [cbn; auto|]. split; [split; eauto|]. intros h' [<-|[<-|[]]] (_ & x & y & X & Y); auto.
    rewrite F5 in X. injection X as <- <-. destruct Y as [Y|Y]; [|congruence]. subst b'. exfalso. apply Nab. eapply same_node; eauto.
Qed.
Lemma ends_from : forall w w' h, children L 2 w 2 = [w'] -> ends_in m' w' h -> exists e, ends_in m w e /\ In h (children L 1 e 1).
Proof.
  intros w w' h Cw (B & x & y & H & O). destruct (from_half h) as (e & a & b & E1 & E2 & E3); auto. { apply nth_error_Some. congruence. }
  exists e. split; auto. split; auto. exists a, b. split; auto.
  destruct (halves e a b E1 E2) as (f & g & a' & b' & q & F1 & F2 & F3 & F4 & F5 & F6 & F7 & F8). rewrite F1 in E3.
  assert (NQ : w' <> q) by (intros ->; exact (no_middle w e q Cw F2)).
  destruct E3 as [<-|[<-|[]]].
  - rewrite F5 in H. injection H as <- <-. destruct O as [O|O]; [|congruence]. left. subst w'. eapply same_node; eauto.
  - rewrite F6 in H. injection H as <- <-. destruct O as [O|O]; [congruence|]. right. subst w'. eapply same_node; eauto.
Qed.
(** A boundary node comes from a boundary node or is the midpoint of a boundary edge. *)
Lemma node_from : forall v', boundary_node m' v' -> (exists v, boundary_node m v /\ children L 2 v 2 = [v']) \/
  (exists e a b, nth_error (mv_edges m) e = Some (a, b) /\ boundary_edge m e = true /\ children L 1 e 2 = [v']).
Proof.
  intros v' (h & x & y & H & B & O). destruct (from_half h) as (e & a & b & E1 & E2 & E3); auto. { apply nth_error_Some. congruence. }
  destruct (halves e a b E1 E2) as (f & g & a' & b' & q & F1 & F2 & F3 & F4 & F5 & F6 & F7 & F8). rewrite F1 in E3.
  assert (Q : v' = a' \/ v' = b' \/ v' = q).
  { destruct E3 as [<-|[<-|[]]]; [rewrite F5 in H|rewrite F6 in H]; injection H as <- <-; tauto. }
  destruct Q as [-> |[-> | ->]]; [left; exists a|left; exists b|right; eauto 10]; (split; [exists e, a, b; auto|auto]).
Qed.
Lemma fine_curves : closed_curves m -> closed_curves m'.
Proof.
  intros CC v' Bv. destruct (node_from v' Bv) as [(v & Bn & Cv)|(e & a & b & E1 & E2 & E3)].
  - destruct (CC v Bn) as (l & ND & Ln & Hl). destruct l as [|e1 [|e2 [|]]]; try discriminate.
    assert (e1 <> e2) by (inversion ND as [|? ? X _]; subst; intros ->; apply X; cbn; auto).
    destruct (half_at v v' e1 Cv) as (h1 & A1 & B1 & C1); [apply Hl; cbn; auto|]. destruct (half_at v v' e2 Cv) as (h2 & A2 & B2 & C2); [apply Hl; cbn; auto|].
    exists [h1; h2]. split; [|split; [reflexivity|]].
    + constructor; [|constructor; [intros []|constructor]]. intros [X|[]]. subst h2. apply H. eapply same_edge; eauto.
    + intros h. split; [intros [<-|[<-|[]]]; auto|]. intros Eh. destruct (ends_from v v' h Cv Eh) as (e & Ee & Ie). apply Hl in Ee.
      destruct Ee as [<-|[<-|[]]]; [left; symmetry; auto|right; left; symmetry; auto].
  - destruct (halves e a b E1 E2) as (f & g & a' & b' & q & F1 & F2 & F3 & F4 & F5 & F6 & F7 & F8). assert (q = v') by congruence. subst q.
    exists [f; g]. split; [|split; [reflexivity|]].
    + constructor; [|constructor; [intros []|constructor]]. intros [X|[]]. subst g. rewrite F5 in F6. injection F6 as -> _. exact (no_middle a e v' F3 F2).
    + intros h. split; [intros [<-|[<-|[]]]; (split; [auto|eauto])|]. intros (B & x & y & H & O).
      destruct (from_half h) as (e' & c & d & E1' & E2' & E3'); auto. { apply nth_error_Some. congruence. }
      destruct (halves e' c d E1' E2') as (f' & g' & c' & d' & q' & G1 & G2 & G3 & G4 & G5 & G6 & _).
      assert (v' = q').
      { rewrite G1 in E3'. destruct E3' as [<-|[<-|[]]]; [rewrite G5 in H|rewrite G6 in H]; injection H as <- <-; destruct O as [O|O]; auto; exfalso; subst; eauto using no_middle. }
      subst q'. rewrite <- F1. rewrite (same_middle e e' v' F2 G2). exact E3'.
Qed.
Lemma chain : forall x y z, FlowSpec.linked m' x y -> FlowSpec.linked m' y z -> FlowSpec.linked m' x z.
Proof. intros x y z A B. induction B as [|u w e B IH E1 E2]; auto. exact (linked_on m' x u w e IH E1 E2). Qed.
Lemma back : forall x y, FlowSpec.linked m' x y -> FlowSpec.linked m' y x.
Proof. intros x y A. induction A as [|u w e B IH E1 E2]; [constructor|]. apply (chain w u x); auto. apply (linked_on m' w w u e); auto. constructor. Qed.
Lemma along_edge : forall e a b a' b' q, nth_error (mv_edges m) e = Some (a, b) -> boundary_edge m e = true -> children L 2 a 2 = [a'] -> children L 2 b 2 = [b'] -> children L 1 e 2 = [q] ->
  FlowSpec.linked m' a' q /\ FlowSpec.linked m' q b'.
Proof.
  intros e a b a' b' q E1 E2 A B Q. destruct (halves e a b E1 E2) as (f & g & a2 & b2 & q2 & F1 & F2 & F3 & F4 & F5 & F6 & F7 & F8).
  assert (a2 = a') by congruence. assert (b2 = b') by congruence. assert (q2 = q) by congruence. subst.
  split; [apply (linked_on m' a' a' q f)|apply (linked_on m' q q b' g)]; try constructor; auto; do 2 eexists; eauto.
Qed.
Lemma chain_fine : forall v w, FlowSpec.linked m v w -> forall v' w', children L 2 v 2 = [v'] -> children L 2 w 2 = [w'] -> FlowSpec.linked m' v' w'.
Proof.
  intros v w A. induction A as [|x y e A IH (B & a & b & H & O) (_ & c & d & H' & O')]; intros v' w' Cv Cw; [assert (v' = w') by congruence; subst; constructor|].
  rewrite H in H'. injection H' as <- <-.
  destruct (halves e a b H B) as (f & g & a' & b' & q & F1 & F2 & F3 & F4 & F5 & F6 & F7 & F8). destruct (along_edge e a b a' b' q H B F3 F4 F2) as [L1 L2].
  pose proof (chain _ _ _ L1 L2) as L3.
  destruct O as [-> | ->]; [pose proof (IH v' a' Cv F3) as L4|pose proof (IH v' b' Cv F4) as L4]; (destruct O' as [-> | ->]; [assert (w' = a') by congruence|assert (w' = b') by congruence]; subst w');
    eauto using chain, back.
Qed.
Lemma fine_connected : connected_boundary m -> connected_boundary m'.
Proof.
  intros CB.
  assert (Q : forall v', boundary_node m' v' -> exists v u, boundary_node m v /\ children L 2 v 2 = [u] /\ FlowSpec.linked m' u v').
  { intros v' Bv. destruct (node_from v' Bv) as [(v & Bn & Cv)|(e & a & b & E1 & E2 & E3)].
    - exists v, v'. split; auto. split; auto. constructor.
    - destruct (halves e a b E1 E2) as (f & g & a' & b' & q & F1 & F2 & F3 & F4 & _). assert (q = v') by congruence. subst q.
      exists a, a'. split; [exists e, a, b; auto|]. split; auto. exact (proj1 (along_edge e a b a' b' v' E1 E2 F3 F4 E3)). }
  intros v' w' Bv Bw. destruct (Q v' Bv) as (v & u & B1 & C1 & L1). destruct (Q w' Bw) as (w & t & B2 & C2 & L2).
  apply (chain _ u); [apply back; auto|]. apply (chain _ t); auto. exact (chain_fine v w (CB v w B1 B2) u t C1 C2).
Qed.
Lemma fine_boundary : (exists v, boundary_node m v) -> exists v', boundary_node m' v'.
Proof.
  intros (v & e & a & b & H & B & _). destruct (halves e a b H B) as (f & g & a' & b' & q & F1 & F2 & F3 & F4 & F5 & F6 & F7 & F8).
  exists a', f, a', q. auto.
Qed.
End Step.
