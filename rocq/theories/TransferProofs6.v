(** Proofs for C60: the results. *)
From Coq Require Import Reals List Arith Bool ZArith Lia Lra.
Import ListNotations.
From Verif Require Import Base MeshModel MeshView RefPatModel RefPatSpec RefineModel RefineSpec PropRefine PropRefine2
  DofModel DofSpec GeoModel GeoSpec FeModel FeToolsModel TransferModel TransferSpec TransferProofs2 TransferProofs3 TransferProofs4 TransferProofs5.
Local Open Scope R_scope.

Lemma constructor_checks : forall H mf_level lc lf,
  (transfer_checks H mf_level lc lf = Ok tt <-> (lc < lf < length (levels H))%nat /\ (forall l, mf_level = Some l -> l = lc)) /\
  (transfer_checks H mf_level lc lf = Ok tt \/ transfer_checks H mf_level lc lf = Assert).
Proof.
  intros H ml lc lf. unfold transfer_checks, lf_assert. change (all_levels H) with (levels H).
  destruct (Nat.ltb_spec lc (length (levels H) - 1)); cbn [bind].
  2:{ split; [|auto]. split; [discriminate|]. intros [A _]. lia. }
  destruct (Nat.ltb_spec lc lf); cbn [bind].
  2:{ split; [|auto]. split; [discriminate|]. intros [A _]. lia. }
  destruct (Nat.ltb_spec lf (length (levels H))); cbn [bind].
  2:{ split; [|auto]. split; [discriminate|]. intros [A _]. lia. }
  destruct ml as [l|].
  - destruct (Nat.eqb_spec l lc) as [->|N]; (split; [|auto]); split; try discriminate.
    + intros _. split; [lia|]. intros l' E. congruence.
    + reflexivity.
    + intros [_ A]. elim N. apply A. reflexivity.
  - split; [|auto]. split; [|reflexivity]. intros _. split; [lia|]. discriminate.
Qed.
Lemma transfer_at_image : forall H mf lc lf L e x, reached H -> (lc < lf)%nat -> nth_error (levels H) lf = Some L -> valid (l_mesh L) e ->
  in_ref (ent_type (l_mesh L) e) x ->
  exists Lc q y, nth_error (levels H) lc = Some Lc /\ valid (l_mesh Lc) q /\ in_ref (ent_type (l_mesh Lc) q) y /\
    image (levels H) lf e x lc q y /\ transfer_eval H mf lc lf e x = mf q y.
Proof.
  intros H mf lc lf L e x RE LT HL V IR. pose proof (reached_levels H RE) as GL.
  assert (LX : length x = ent_dim e).
  { rewrite (in_ref_length _ _ IR). apply type_dim; auto. apply (nth_in H GL lf L HL). }
  destruct (transfer_image H GL mf lc lf L e x LT HL V LX) as (Lc & q & y & A & B & C & D & E).
  exists Lc, q, y. split; auto. split; auto. split; [|auto]. eapply image_in_ref; eauto.
Qed.
Lemma same_point_image : forall H geom l e x k q y L, reached H -> geometric (levels H) geom -> quads_kept (levels H) geom ->
  image (levels H) l e x k q y -> nth_error (levels H) l = Some L -> valid (l_mesh L) e -> in_ref (ent_type (l_mesh L) e) x ->
  same_point (geom l e) x (geom k q) y.
Proof.
  intros H geom l e x k q y L RE GE QK I HL V IR. pose proof (reached_levels H RE) as GL.
  eapply same_place; eauto. apply kept_closed; auto.
Qed.
Lemma world_function_transfer : forall H geom f lc lf L e x, reached H -> geometric (levels H) geom -> quads_kept (levels H) geom ->
  (lc < lf)%nat -> nth_error (levels H) lf = Some L -> valid (l_mesh L) e -> in_ref (ent_type (l_mesh L) e) x ->
  depends_on (go_dim (geom lf e)) f ->
  exists r, transfer_eval H (world_function f (geom lc)) lc lf e x = Ok r /\ world_function f (geom lf) e x = Ok r.
Proof.
  intros H geom f lc lf L e x RE GE QK LT HL V IR DF.
  destruct (transfer_at_image H (world_function f (geom lc)) lc lf L e x RE LT HL V IR) as (Lc & q & y & A & B & C & D & E).
  destruct (same_point_image H geom lf e x lc q y L RE GE QK D HL V IR) as (ED & p & p' & G1 & G2 & EQ).
  exists (f p). rewrite E. unfold world_function. rewrite G1, G2. cbn [bind]. split; [|reflexivity]. f_equal. symmetry. apply DF. exact EQ.
Qed.
Lemma getMesh_neighbours : forall lc lf, (lc < lf)%nat -> (transfer_getMesh lc lf = lf <-> lf = (lc + 1)%nat).
Proof. intros lc lf LT. unfold transfer_getMesh. lia. Qed.
Lemma reached_example : exists H, reached H /\
  map (fun L => (mv_nodes (l_mesh L), length (mv_edges (l_mesh L)), length (mv_cells (l_mesh L)))) (levels H) =
    [(6, 8, 3); (9, 17, 9); (26, 61, 36)]%nat.
Proof.
  destruct C28_example as (GO & H & RH & EH).
  destruct (geo_history closure_ops (fun i => if (i =? 0)%nat then 2%nat else 0%nat) true closure_mesh) as (H' & G1 & G2 & _); auto.
  - apply closure_mesh_wf.
  - apply closure_mesh_simple.
  - intros _. apply closure_mesh_wf.
  - intros i. destruct (i =? 0)%nat; lia.
  - rewrite RH in G2. injection G2 as <-. exists H. split; [|exact EH].
    exists closure_ops, (fun i => if (i =? 0)%nat then 2%nat else 0%nat), true, closure_mesh.
    split; [apply closure_mesh_wf|]. split; [apply closure_mesh_simple|]. split; [intros _; apply closure_mesh_wf|].
    split; [intros i; destruct (i =? 0)%nat; lia|]. split; auto.
Qed.
Lemma getMesh_wrong : exists H lc lf, reached H /\ transfer_checks H (Some lc) lc lf = Ok tt /\ transfer_getMesh lc lf <> lf.
Proof.
  destruct reached_example as (H & RE & EH). exists H, 0%nat, 2%nat. split; auto. split; [|discriminate].
  apply constructor_checks. split; [|congruence].
  apply (f_equal (@length _)) in EH. rewrite map_length in EH. rewrite EH. cbn. lia.
Qed.
