From Coq Require Import Reals Lra List Arith Lia Bool ZArith.
Import ListNotations.
From Verif Require Import Base MeshModel RefPatModel GeoModel GeoSpec GeoProofs.
Local Open Scope R_scope.

(** *** Facts about constructed geometries *)
Lemma new_geo_inv : forall k d cs g, new_geo k d cs = Ok g ->
  g = mkGeo k d cs /\ length cs = num_cols k.
Proof.
  intros k d cs g H. unfold new_geo in H.
  destruct (Nat.eqb_spec (length cs) (num_cols k)) as [E|]; [|discriminate H]. cbn [lf_assert bind] in H.
  match type of H with (do _ <- ?m; _) = _ => destruct m; try discriminate H end.
  cbn [bind] in H. injection H as <-. auto.
Qed.
Lemma constructed_cols : forall g, constructed g -> length (go_cols g) = num_cols (go_kind g).
Proof.
  intros g [(k & d & cs & H)|(d & p0 & p1 & p2 & H)].
  - destruct (new_geo_inv _ _ _ _ H) as (-> & L). exact L.
  - unfold new_parallelogram3 in H. destruct (check_quad _ _); try discriminate H. cbn [bind] in H.
    injection H as <-. reflexivity.
Qed.
(** Constructing again from the same columns works for objects made by [new_geo]. *)
Lemma new_geo_again : forall k d cs g, new_geo k d cs = Ok g -> new_geo (go_kind g) (go_dim g) (go_cols g) = Ok g.
Proof. intros k d cs g H. destruct (new_geo_inv _ _ _ _ H) as (-> & _). exact H. Qed.

Lemma col_nth : forall g i, (i < length (go_cols g))%nat -> nth_error (go_cols g) i = Some (col g i).
Proof. intros g i H. apply nth_error_nth'. exact H. Qed.

(** *** C44: control points *)
Lemma control_images : forall g i x, constructed g -> exact_parallelogram g ->
  nth_error (control_points (go_kind g)) i = Some x ->
  exists p, Global g x = Ok p /\ forall k, p k = col g i k.
Proof.
  intros g i x C X Hx. 
  assert (Ad : admissible g x).
  { assert (Hin : In x (control_points (go_kind g))) by (eapply nth_error_In; eauto).
    unfold admissible. destruct (go_kind g); cbn in Hin |- *;
      repeat (destruct Hin as [<-|Hin]); try contradiction; split; try reflexivity; try discriminate;
      intros _ t Ht; cbn in Ht; repeat (destruct Ht as [<-|Ht]); try contradiction; lra. }
  exists (global_at g (nth 0 x 0) (nth 1 x 0)). split; [apply Global_ok, Ad|]. intros k.
  unfold exact_parallelogram in X. destruct g as [kd d cs]. cbn [go_kind] in Hx, X.
  destruct kd.
  all: destruct i as [|[|[|[|[|[|[|[|i]]]]]]]]; cbn in Hx; try discriminate Hx;
    try (destruct i; discriminate Hx); injection Hx as <-; cbn [nth global_at go_kind];
    try (unfold s2_alpha, s2_beta, s2_gamma, t2_beta0, t2_beta1, t2_gamma0, t2_gamma1, t2_delta, t2_alpha,
      q2_beta0, q2_beta1, q2_gamma0, q2_gamma1, q2_delta, q2_alpha, q2_eps0, q2_eps1, Rsqr;
    cbv zeta; field).
  specialize (X eq_refl k). lra.
Qed.

(** *** C41 *)
Lemma same_refl : forall d r, r <> Assert -> same_outcome d r r.
Proof. intros d [p| |] H; simpl; auto. Qed.

Lemma Global_throw : forall g x, length x = dim_local (go_kind g) -> is_o2 (go_kind g) = true ->
  in_range x = false -> Global g x = Throw.
Proof. intros g x L O H. unfold Global, range_check. rewrite O, H. reflexivity. Qed.

Lemma on_edge_len : forall el i t, el = kTria \/ el = kQuad -> (i < num_nodes el)%nat -> length (on_edge el i t) = 2%nat.
Proof.
  intros el i t [->| ->] H; cbn [num_nodes] in H;
    destruct i as [|[|[|[|i]]]]; try lia; reflexivity.
Qed.

Lemma in_range1 : forall t, in_range [t] = leb 0 t && leb t 1.
Proof. intros. cbn. rewrite andb_true_r. reflexivity. Qed.
Lemma in_range_edge : forall el i t, el = kTria \/ el = kQuad -> (i < num_nodes el)%nat ->
  in_range (on_edge el i t) = in_range [t].
Proof.
  intros el i t He H. apply eq_iff_eq_true. rewrite !in_range_true.
  assert (F : (forall u, In u [t] -> 0 <= u <= 1) <-> 0 <= t <= 1).
  { split; [intros F; apply F; left; reflexivity|]. intros F u [<-|[]]; exact F. }
  rewrite F.
  destruct He as [->| ->]; cbn [num_nodes] in H; destruct i as [|[|[|[|i]]]]; try lia; cbn -[Rmult Rplus Rminus];
   split.
  all: intros G.
  all: try (intros u [<-|[<-|[]]]; lra).
  all: match type of G with forall u, ?a = u \/ ?b = u \/ False -> _ =>
    pose proof (G a (or_introl eq_refl)); pose proof (G b (or_intror (or_introl eq_refl))); lra end.
Qed.

Lemma edge_geometry : forall g i, constructed g -> exact_parallelogram g -> dim_local (go_kind g) = 2%nat ->
  (i < num_nodes (kind_el (go_kind g)))%nat ->
  exists s, SubGeometry g 1 i = Ok s /\ go_dim s = go_dim g /\ dim_local (go_kind s) = 1%nat /\
    forall t, same_outcome (go_dim g) (Global s [t]) (Global g (on_edge (kind_el (go_kind g)) i t)).
Proof.
  intros g i C X D Hi.
  assert (El : kind_el (go_kind g) = kTria \/ kind_el (go_kind g) = kQuad).
  { unfold dim_local in D. destruct (kind_el (go_kind g)); try discriminate D; auto. }
  assert (L : length (on_edge (kind_el (go_kind g)) i 0) = 2%nat) by (apply on_edge_len; auto).
  assert (S : exists s, SubGeometry g 1 i = Ok s /\ go_dim s = go_dim g /\ dim_local (go_kind s) = 1%nat /\
     is_o2 (go_kind s) = is_o2 (go_kind g) /\
     forall t, is_o2 (go_kind g) = false \/ 0 <= t <= 1 -> same_outcome (go_dim g) (Global s [t]) (Global g (on_edge (kind_el (go_kind g)) i t))).
  { assert (G : forall s t, is_o2 (go_kind s) = is_o2 (go_kind g) -> dim_local (go_kind s) = 1%nat ->
        is_o2 (go_kind g) = false \/ 0 <= t <= 1 ->
        (forall k, global_at s t 0 k = global_at g (nth 0 (on_edge (kind_el (go_kind g)) i t) 0)
                                          (nth 1 (on_edge (kind_el (go_kind g)) i t) 0) k) ->
        same_outcome (go_dim g) (Global s [t]) (Global g (on_edge (kind_el (go_kind g)) i t))).
    { intros s t O D1 R E. rewrite !Global_ok.
      - cbn [same_outcome]. intros k _. apply E.
      - split; [rewrite D; apply on_edge_len; auto|]. intros O2. destruct R as [R|R]; [congruence|].
        apply in_range_true. rewrite in_range_edge; auto. apply in_range_true. intros u [<-|[]]; exact R.
      - split; [rewrite D1; reflexivity|]. intros O2. destruct R as [R|R]; [congruence|].
        intros u [<-|[]]; exact R. }
    unfold exact_parallelogram in X. pose proof (constructed_cols g C) as LC. clear C.
    destruct g as [kd d cs]. cbn [go_kind go_cols] in *.
    destruct kd; try discriminate D; cbn [kind_el num_nodes] in Hi; cbn [num_cols] in LC;
      repeat (destruct cs as [|? cs]; try discriminate LC); clear LC; cbv [col go_cols nth] in X;
      destruct i as [|[|[|[|i]]]]; try lia; eexists; (split; [reflexivity|]); (split; [reflexivity|]);
      (split; [reflexivity|]); (split; [reflexivity|]); intros t R; (apply G; [reflexivity|reflexivity|exact R|]);
      intros k; cbv [global_at go_kind on_edge between ref_node ref_nodes kind_el num_nodes nth combine map fst snd
        Nat.add Nat.modulo Nat.divmod Nat.sub num_cols col go_cols s2_alpha s2_beta s2_gamma t2_beta0 t2_beta1 t2_gamma0
        t2_gamma1 t2_delta t2_alpha q2_beta0 q2_beta1 q2_gamma0 q2_gamma1 q2_delta q2_alpha q2_eps0 q2_eps1 Rsqr];
      try ring.
    all: specialize (X eq_refl k).
    - replace (v1 k) with (v0 k + v2 k - v k) by lra. ring.
    - replace (v1 k) with (v0 k + v2 k - v k) by lra. ring. }
  destruct S as (s & E & Ds & D1 & O & H). exists s. do 3 (split; [assumption|]).
  intros t. destruct (is_o2 (go_kind g)) eqn:O2; [|apply H; auto].
  destruct (in_range [t]) eqn:R.
  - apply H. right. apply in_range_true with (x := [t]); [exact R|left; reflexivity].
  - rewrite (Global_throw s [t]), (Global_throw g); simpl; auto.
    + rewrite D. apply on_edge_len; auto.
    + rewrite in_range_edge; auto.
Qed.
