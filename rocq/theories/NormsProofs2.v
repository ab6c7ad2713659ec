(** C101: the values collected on the edges. *)
From Coq Require Import Reals List Arith Lia Lra Bool.
Import ListNotations.
From Verif Require Import Base Scalars MeshModel MeshView RefPatModel GeoModel GeoSpec DofModel FlagSpec FlagModel FlagProofs RefineSpec FeModel QuadModel AssembleModel ElemModel ElemSpec ElemProofs ElemProofs2 ElemProofs3 FeSpec HierProofs3
  FeToolsModel GalerkinModel DpgModel DpgProofs6 MfModel NormalModel NormalSpec NormalProofs3 StokesModel StokesSpec StokesProofs StokesProofs3 StokesProofs4 StokesProofs5 StokesProofs8 NormsModel NormsSpec.
Local Open Scope R_scope.

Definition mid_point (i : nat) : list R := match i with 0%nat => [1 / 2; 0] | 1%nat => [1 - 1 / 2; 1 / 2] | _ => [0; 1 - 1 / 2] end.
Definition lsum (l : list R) : R := fold_right Rplus 0 l.
Lemma lsum_app : forall a b, lsum (a ++ b) = lsum a + lsum b.
Proof. unfold lsum. induction a as [|x a IH]; intros b; cbn [app fold_right]; [ring|]. rewrite IH. ring. Qed.

Section Jumps.
Variables (m : mesh) (geom : ent -> geo) (pos : nat -> vec) (n : nat -> nat -> vec) (q : ent -> quadrule) (f : valuefun) (U : nat -> vec -> vec).
Hypothesis TR : triangulation m geom pos.
Hypothesis NO : normals_of m geom n.
Hypothesis MR : midpoint_rules m q.
Hypothesis VF : vector_field m geom f U.
Definition value (c i : nat) : vec := U c (point_of geom c (mid_point i)).
Definition tensor (c i : nat) : list R := outer [value c i 0%nat; value c i 1%nat] (nth i (normals_at geom c) vzero).
Definition hits (e : nat) (ci : nat * nat) : bool := is_side m (fst ci) (snd ci) e.
Definition total (l : list (nat * nat)) : list R := map (fun k => lsum (map (fun ci => nth k (tensor (fst ci) (snd ci)) 0) l)) (seq 0 4).
Definition collected (l : list (nat * nat)) : list (list R) := match l with [] => [] | _ => [total l] end.
Definition state (done : list (nat * nat)) (s : dset (list (list R))) : Prop :=
  d_codim s = 1%nat /\ length (d_data s) = size m 1 /\
  forall e, (e < size m 1)%nat -> nth_error (d_data s) e = Some (collected (filter (hits e) done)).
Lemma total_one : forall c i, total [(c, i)] = tensor c i.
Proof. intros c i. unfold total, tensor, outer, lsum. cbn [map seq fst snd app nth fold_right]. rewrite !Rplus_0_r. reflexivity. Qed.
Lemma add_total : forall l c i, add_jump (tensor c i) (total l) = Ok (total (l ++ [(c, i)])).
Proof.
  intros l c i. unfold add_jump. change (length (total l) =? length (tensor c i))%nat with true. cbn [lf_assert bind].
  unfold total. f_equal. unfold tensor at 1, outer. cbn [map seq fst snd app combine nth]. rewrite !map_app, !lsum_app. cbn [map fst snd]. unfold tensor at 2 4 6 8. unfold outer.
  cbn [map app nth lsum fold_right]. rewrite !Rplus_0_r. reflexivity.
Qed.
Lemma add_collected : forall l c i, add_jumps (collected l) [tensor c i] = Ok (collected (l ++ [(c, i)])).
Proof.
  intros [|x l] c i; [cbn [collected add_jumps app]; rewrite total_one; reflexivity|].
  change (collected (x :: l)) with [total (x :: l)]. unfold add_jumps, loop2. rewrite add_total. reflexivity.
Qed.
Lemma side_is : forall c i, (c < size m 0)%nat -> (i < 3)%nat -> elem_at (cv_edges (cell_at m c)) i = Ok (side_at m c i) /\
  exists o, elem_at (cv_ori (cell_at m c)) i = Ok o.
Proof.
  intros c i Hc Hi. destruct (cell_view m c Hc) as (v & E & Ev). unfold side_at. rewrite Ev.
  destruct (cell_shape m c v (tr_trias _ _ _ TR) E) as (n0 & n1 & n2 & e0 & e1 & e2 & En & Ee & WC).
  pose proof (wc_oris _ _ WC) as LO. rewrite En in LO. unfold elem_at. rewrite Ee. split.
  - destruct i as [|[|[|]]]; [reflexivity..|lia].
  - destruct (nth_error (cv_ori v) i) as [o|] eqn:Q; [eauto|]. apply nth_error_None in Q. cbn in LO. lia.
Qed.
Lemma step : forall c i done s, (c < size m 0)%nat -> (i < 3)%nat -> state done s ->
  exists s', edge_jump m f c (normals_at geom c) [[mid_point 0]; [mid_point 1]; [mid_point 2]] i s = Ok s' /\ state (done ++ [(c, i)]) s'.
Proof.
  intros c i done s Hc Hi (C & L & H). unfold edge_jump. destruct (side_is c i Hc Hi) as [-> [o EO]]. cbn [bind].
  assert (EP : elem_at [[mid_point 0]; [mid_point 1]; [mid_point 2]] i = Ok [mid_point i]) by (destruct i as [|[|[|]]]; [reflexivity..|lia]).
  rewrite EP. cbn [bind]. rewrite (VF c [mid_point i] Hc) by (intros p [<-|[]]; destruct i as [|[|]]; reflexivity). cbn [bind map].
  unfold column_vectors. cbn [traverse m_cols m_data Nat.eqb lf_assert bind]. rewrite EO. cbn [bind].
  assert (EN : (if o then [[value c i 0%nat; value c i 1%nat]] else rev [[value c i 0%nat; value c i 1%nat]]) = [[value c i 0%nat; value c i 1%nat]]) by (destruct o; reflexivity).
  unfold value in EN. rewrite EN. cbn [map]. clear EN.
  assert (RG : (side_at m c i < size m 1)%nat) by (apply side_range; [exact (tr_trias _ _ _ TR)|assumption..]).
  unfold dset_at, dget. rewrite C. cbn [Nat.eqb lf_assert bind]. rewrite (H _ RG). cbn [bind].
  change (outer [U c (point_of geom c (mid_point i)) 0%nat; U c (point_of geom c (mid_point i)) 1%nat] (nth i (normals_at geom c) vzero)) with (tensor c i).
  rewrite add_collected. cbn [bind]. eexists. split; [reflexivity|]. split; [reflexivity|]. cbn [d_data]. split; [rewrite upd_length; exact L|].
  intros e He. rewrite filter_app. cbn [filter]. change (hits e (c, i)) with (is_side m c i e). rewrite (is_side_at m c i e (tr_trias _ _ _ TR) Hc Hi).
  destruct (Nat.eqb_spec (side_at m c i) e) as [<-|Ne].
  - rewrite nth_error_upd_eq by lia. reflexivity.
  - rewrite nth_error_upd_neq by auto. rewrite app_nil_r. apply H, He.
Qed.
Definition sides (cs : list nat) : list (nat * nat) := flat_map (fun c => [(c, 0); (c, 1); (c, 2)]%nat) cs.
Lemma cell_step : forall c done s, (c < size m 0)%nat -> state done s -> exists s', cell_jumps m geom f q c s = Ok s' /\ state (done ++ [(c, 0); (c, 1); (c, 2)]%nat) s'.
Proof.
  intros c done s Hc ST. unfold cell_jumps. rewrite (proj1 (normals_is m geom pos n TR NO c Hc)). cbn [bind].
  assert (EQ : traverse (fun i => do edge <- elem_at (cv_edges (cell_at m c)) i; edge_points i (q (EEdge edge))) (seq 0 3) = Ok [[mid_point 0]; [mid_point 1]; [mid_point 2]]).
  { assert (P : forall i, (i < 3)%nat -> (do edge <- elem_at (cv_edges (cell_at m c)) i; edge_points i (q (EEdge edge))) = Ok [mid_point i]).
    { intros i Hi. rewrite (proj1 (side_is c i Hc Hi)). cbn [bind]. unfold edge_points. rewrite (proj1 (MR _ (side_range m c i (tr_trias _ _ _ TR) Hc Hi))). reflexivity. }
    cbn [seq traverse]. rewrite !P by lia. reflexivity. }
  rewrite EQ. cbn [bind].
  destruct (each_inv (fun is s => state (done ++ map (fun i => (c, i)) is) s) (edge_jump m f c (normals_at geom c) [[mid_point 0]; [mid_point 1]; [mid_point 2]]) (seq 0 3) s) as (s' & E & S').
  - cbn [map]. rewrite app_nil_r. exact ST.
  - intros is i s0 I S0. rewrite map_app, app_assoc. cbn [map]. apply step; [exact Hc| |exact S0]. apply in_seq in I. lia.
  - exists s'. split; [exact E|exact S'].
Qed.
Lemma all_cells : exists s, each (seq 0 (mv_count m 0)) (cell_jumps m geom f q) (new_dset m 1 []) = Ok s /\ state (sides (seq 0 (size m 0))) s.
Proof.
  destruct (each_inv (fun cs s => state (sides cs) s) (cell_jumps m geom f q) (seq 0 (mv_count m 0)) (new_dset m 1 [])) as (s & E & S).
  - split; [reflexivity|]. split; [apply repeat_length|]. intros e He. cbn [sides flat_map filter collected new_dset d_data].
    rewrite (nth_error_nth' _ []) by (rewrite repeat_length; exact He). f_equal. apply nth_repeat.
  - intros cs c s I S. unfold sides. rewrite flat_map_app. cbn [flat_map]. rewrite app_nil_r. apply cell_step; [|exact S]. apply in_seq in I. exact (proj2 I).
  - exists s. split; [exact E|exact S].
Qed.
End Jumps.
