(** C93: traces of Lagrangian elements on the boundary. *)
From Coq Require Import Reals List Arith Lia Lra Bool.
Import ListNotations.
From Verif Require Import Base MeshModel MeshView DofModel DofSpec RefPatModel GeoModel GeoSpec FeModel LagrModel FeSpec HierSpec FeProofs LagrProofs LagrProofs2 LagrProofs3
  AssembleModel FeToolsModel FeToolsSpec FeToolsProofs2 DpgModel ProdModel ProdSpec ProdProofs.
Local Open Scope R_scope.

Lemma lagrange_interior : forall k t, t = kTria \/ t = kQuad -> fe_num1 (lagrange k t) 0 = Ok (cell_num k t) /\ interior_num (lagrange k t) = cell_num k t.
Proof. intros k t [-> | ->]; destruct k; split; reflexivity. Qed.
Lemma lagrange_dims : forall k t p, In p (fe_nodes (lagrange k t)) -> length p = dimension (fe_el (lagrange k t)).
Proof. intros k t p I. destruct k, t; cbn in I; repeat (destruct I as [<-|I]; [reflexivity|]); destruct I. Qed.
Lemma on_boundary_dim : forall t x, t = kTria \/ t = kQuad -> on_boundary t x -> length x = 2%nat.
Proof.
  intros t x T (j & s & Hj & _ & ->). destruct T as [-> | ->]; cbn [num_nodes] in Hj; do 4 (destruct j as [|j]; [try reflexivity; lia|]); lia.
Qed.
Lemma rsum_app : forall a b, rsum (a ++ b) = rsum a + rsum b.
Proof. induction a as [|x a IH]; intros b; cbn [app rsum fold_right]; [unfold rsum; cbn; ring|]. change (x + rsum (a ++ b) = x + rsum a + rsum b). rewrite IH. ring. Qed.
Lemma rsum_zeros : forall n, rsum (repeat 0 n) = 0.
Proof. induction n as [|n IH]; [reflexivity|]. change (0 + rsum (repeat 0 n) = 0). rewrite IH. ring. Qed.
Lemma dot_zeros : forall (u w : list R) n, dot u (w ++ repeat 0 n) = dot (firstn (length w) u) w.
Proof.
  intros u w n. revert u. induction w as [|x w IH]; intros u; cbn [app length firstn].
  - revert u. induction n as [|n IHn]; intros u; [destruct u; reflexivity|]. destruct u as [|y u]; [reflexivity|]. cbn [repeat]. unfold dot in *. cbn [combine map fst snd rsum fold_right].
    change (y * 0 + rsum (map (fun p => fst p * snd p) (combine u (repeat 0 n))) = 0). rewrite IHn. ring_simplify. reflexivity.
  - destruct u as [|y u]; [reflexivity|]. unfold dot. cbn [combine map fst snd]. change (y * x + dot u (w ++ repeat 0 n) = y * x + dot (firstn (length w) u) w). rewrite IH. reflexivity.
Qed.
Theorem trace_boundary : forall k t x, t = kTria \/ t = kQuad -> on_boundary t x ->
  exists w n, fe_eval (trace_element (lagrange k t)) x = Ok w /\ fe_num1 (lagrange k t) 0 = Ok n /\
    fe_eval (lagrange k t) x = Ok (w ++ repeat 0 n) /\ rsum w = 1 /\
    forall c, poly (exponents t (ord k)) c x = dot (map (poly (exponents t (ord k)) c) (fe_nodes (trace_element (lagrange k t)))) w.
Proof.
  intros k t x T B. pose proof (on_boundary_dim t x T B) as Lx.
  destruct (lagrange_describes k t) as (El & _ & C & U). specialize (U ltac:(destruct T; subst t; discriminate)).
  assert (D2 : dimension (fe_el (lagrange k t)) = 2%nat) by (rewrite El; destruct T; subst t; reflexivity).
  destruct (lagrange_interior k t T) as [I0 I1].
  assert (Q : exists v, fe_eval (lagrange k t) x = Ok (v ++ repeat 0 (cell_num k t))).
  { destruct B as (j & s & Hj & _ & ->). destruct (lagrange_trace k t j true T Hj s) as (a & b & l & _ & _ & E). rewrite El in E. unfold edge_point in E. rewrite E. rewrite app_assoc. eexists. reflexivity. }
  destruct Q as (v & E). destruct (co_eval _ C x) as (v' & E' & Lv); [congruence|]. rewrite E in E'. injection E' as <-.
  rewrite app_length, repeat_length in Lv.
  exists v, (cell_num k t).
  assert (Et : fe_total (trace_element (lagrange k t)) = length v) by (cbn [trace_element fe_total]; rewrite I1; lia).
  assert (Eg : fe_eval (trace_element (lagrange k t)) x = Ok v).
  { destruct (trace_values _ C U x _ (eq_trans Lx (eq_sym D2)) E) as (z & _ & Eg & _). rewrite Eg, Et, firstn_app, Nat.sub_diag, firstn_all, firstn_O, app_nil_r. reflexivity. }
  split; [exact Eg|]. split; [exact I0|]. split; [exact E|]. split.
  - destruct (lagrange_unity k t x) as (u & Eu & Su); [congruence|]. rewrite E in Eu. injection Eu as <-. rewrite rsum_app, rsum_zeros in Su. lra.
  - intros c. destruct (lagrange_reproduces k t c x) as (u & Eu & Su); [congruence|]. rewrite E in Eu. injection Eu as <-. rewrite Su, dot_zeros.
    rewrite firstn_map. change (fe_nodes (trace_element (lagrange k t))) with (firstn (fe_total (trace_element (lagrange k t))) (fe_nodes (lagrange k t))). rewrite Et. reflexivity.
Qed.
Ltac bd j s := exists j, s; split; [cbn; lia|]; split; [lra|]; cbn; list_eq; try (field_simplify; lra); try lra.
Ltac bd_any := first [solve [bd 0%nat 0] | solve [bd 1%nat 0] | solve [bd 2%nat 0] | solve [bd 3%nat 0]
  | solve [bd 0%nat (1/2)] | solve [bd 1%nat (1/2)] | solve [bd 2%nat (1/2)] | solve [bd 3%nat (1/2)]
  | solve [bd 0%nat (1/3)] | solve [bd 1%nat (1/3)] | solve [bd 2%nat (1/3)] | solve [bd 3%nat (1/3)]
  | solve [bd 0%nat (2/3)] | solve [bd 1%nat (2/3)] | solve [bd 2%nat (2/3)] | solve [bd 3%nat (2/3)]].
Lemma trace_nodes : forall k t p, t = kTria \/ t = kQuad -> In p (fe_nodes (trace_element (lagrange k t))) -> on_boundary t p.
Proof.
  intros k t p [-> | ->] I; destruct k; cbn in I; repeat (destruct I as [<-|I]; [bd_any|]); destruct I.
Qed.
Theorem lagrange_traces : forall k t, t = kTria \/ t = kQuad -> let g := trace_element (lagrange k t) in
  fe_el g = t /\ fe_degree g = ord k /\ counts g /\ uniform_counts g /\ no_interior g /\ cardinal g /\ gradients_ok g /\ dual g /\
  forall p, In p (fe_nodes g) -> on_boundary t p.
Proof.
  intros k t T g. destruct (lagrange_describes k t) as (El & Dg & C & U). assert (Tp : t <> kPoint) by (destruct T; subst t; discriminate). specialize (U Tp).
  destruct (trace_ok' _ C U) as (A1 & A2 & A3 & A4 & A5 & _ & _ & A6 & A7).
  split; [exact (eq_trans A1 El)|]. split; [exact (eq_trans A2 Dg)|]. split; [exact A3|]. split; [exact A4|]. split; [exact A5|].
  assert (K : cardinal g) by (apply A7; [exact (lagrange_dims k t)|exact (lagrange_cardinal k t)]).
  split; [exact K|]. split; [apply A6; exact (lagrange_gradients k t Tp)|]. split.
  - apply cardinal_dual; [exact K| |].
    + intros p I. apply (co_eval _ A3). rewrite A1. apply lagrange_dims. unfold g in I. cbn [trace_element fe_nodes] in I. eapply firstn_In_lt. exact I.
    + apply (trace_n2d _ C U); [apply lagrange_cardinal|]. apply lagrange_nodes.
  - intros p. apply trace_nodes. exact T.
Qed.
