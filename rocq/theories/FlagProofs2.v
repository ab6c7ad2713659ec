From Coq Require Import Reals List Arith Lia Bool.
Import ListNotations.
From Verif Require Import Base MeshModel MeshSpec MeshView MeshViewProofs DofModel FlagModel FlagSpec FlagProofs
  BuilderModel BuilderSpec BuilderProofs4 BuilderProofs5 RefineSpec.

Lemma edge_flags : forall m, wf_mesh m -> exists d, flag_boundary m 1 = Ok d /\
  length (d_data d) = length (mv_edges m) /\
  forall e x, nth_error (d_data d) e = Some x -> (x = true <-> adjacent m e = 1).
Proof.
  intros m W. destruct (flag_boundary_correct m 1 W) as (F & _).
  destruct F as (d & E & _ & L & H); [lia|]. exists d. split; auto. split; [exact L|].
  intros e x Hx. rewrite (H e x Hx). rewrite <- one_cell_adjacent.
  assert (He : e < size m 1) by (rewrite <- L; apply nth_error_Some; congruence).
  cbn [part Nat.sub]. split.
  - intros (e' & k & _ & O & _ & ->). exact O.
  - intros O. exists e, 0. auto.
Qed.

Lemma structured_flags : forall p check, proper p -> well_shaped p -> exists M g M' g' d d',
  tp_triag_build p check = Ok (Some (M, g)) /\ tp_quad_build p check = Ok (Some (M', g')) /\
  flag_boundary (view M) 1 = Ok d /\ flag_boundary (view M') 1 = Ok d' /\
  (forall e a b x, nth_error (mv_edges (view M)) e = Some (a, b) -> nth_error (d_data d) e = Some x ->
     (x = true <-> on_common_side p (place g a) (place g b))) /\
  (forall e a b x, nth_error (mv_edges (view M')) e = Some (a, b) -> nth_error (d_data d') e = Some x ->
     (x = true <-> on_common_side p (place g' a) (place g' b))) /\
  (torus_shaped p -> 3 <= p_nx p -> 3 <= p_ny p -> exists M2 g2 d2, torus_build p check = Ok (Some (M2, g2)) /\
     flag_boundary (view M2) 1 = Ok d2 /\ forall e x, nth_error (d_data d2) e = Some x -> x = false).
Proof.
  intros p check H W.
  destruct (triag_mesh p H W check) as (M & g & E & (h & B) & T). repeat apply proj2 in T.
  destruct (quad_mesh p H W check) as (M' & g' & E' & (h' & B') & T'). repeat apply proj2 in T'.
  destruct (edge_flags _ (view_wf _ _ _ B)) as (d & F & L & D).
  destruct (edge_flags _ (view_wf _ _ _ B')) as (d' & F' & L' & D').
  exists M, g, M', g', d, d'. do 4 (split; [assumption|]).
  split; [|split].
  - intros e a b x He Hx. rewrite (D e x Hx). apply T, He.
  - intros e a b x He Hx. rewrite (D' e x Hx). apply T', He.
  - intros TS Hx Hy. destruct (torus_mesh p check H TS Hx Hy) as (M2 & g2 & E2 & (h2 & B2) & N2).
    repeat apply proj2 in N2.
    destruct (edge_flags _ (view_wf _ _ _ B2)) as (d2 & F2 & L2 & D2).
    exists M2, g2, d2. do 2 (split; [assumption|]). intros e x X.
    assert (He : e < length (d_data d2)) by (apply nth_error_Some; congruence).
    destruct (view_counts _ _ _ B2) as (_ & C2 & _).
    destruct x; auto. pose proof (proj1 (D2 e true X) eq_refl) as Y. rewrite N2 in Y; [discriminate Y|]. lia.
Qed.
