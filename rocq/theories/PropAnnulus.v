(** Property C99: the mesh builder for annuli of projects/ipdg_stokes. *)
From Coq Require Import Reals Lra List Arith Lia Bool.
Import ListNotations.
From Verif Require Import Base MeshModel MeshSpec MeshView RefineSpec BuilderModel BuilderSpec
  AnnulusModel AnnulusSpec AnnulusProofs3.

(** C99: AnnulusTriagMeshBuilder with at least three cells around that are not too thin:
    numbers of entities, positions, orientation, tiling of the region between the
    polygons, and edges on the boundary. *)
Theorem C99_annulus_mesh : forall p check, proper_annulus p -> annulus_shaped p -> exists M g,
  annulus_build p check = Ok (Some (M, g)) /\ (exists h, built check h M) /\
  num_entities 2 M = an_angular p * (an_radial p + 1) /\
  num_entities 1 M = an_angular p * (3 * an_radial p + 1) /\
  num_entities_of_type kTria M = 2 * an_angular p * an_radial p /\ num_entities_of_type kQuad M = 0 /\
  (forall i k, i <= an_radial p -> k < an_angular p ->
     nth_error (g_points g) (an_angular p * i + k) = Some (circle_point p i k)) /\
  geometry_matches M g /\
  (forall cs, In cs (g_cells g) -> (0 < signed_area cs)%R) /\
  sumR (map signed_area (g_cells g)) =
    (INR (an_angular p) * sin (2 * PI / INR (an_angular p)) / 2 * (an_outer p ^ 2 - an_inner p ^ 2))%R /\
  tiles_ring p (g_cells g) /\
  (forall e a b, nth_error (mv_edges (view M)) e = Some (a, b) ->
     (adjacent (view M) e = 1 \/ adjacent (view M) e = 2) /\
     (adjacent (view M) e = 1 <-> on_common_circle p (place g a) (place g b))).
Proof. exact annulus_mesh. Qed.

(** The region is within the disk, and its hole is hardly smaller than it should be. *)
Theorem C99_region : forall p, proper_annulus p -> forall x y, between_polygons p x y ->
  ((an_inner p * cos (PI / INR (an_angular p))) ^ 2 <= x ^ 2 + y ^ 2 <= an_outer p ^ 2)%R.
Proof. exact ring_bounds. Qed.

(** C99, finding: setCenterPoint is without effect; the first node should be to the
    right of the centre at the distance of the inner radius. *)
Theorem C99_center_refuted : forall p check, proper_annulus p -> annulus_shaped p ->
  an_center p <> (0%R, 0%R) -> exists M g,
  annulus_build p check = Ok (Some (M, g)) /\
  nth_error (g_points g) 0 <> Some [(fst (an_center p) + an_inner p)%R; snd (an_center p)].
Proof. exact annulus_offcenter. Qed.

(** C99, finding: with one or two cells around Build throws an exception. *)
Theorem C99_few_cells_refuted : forall p check, (0 < an_inner p < an_outer p)%R -> 1 <= an_radial p ->
  an_angular p = 1 \/ an_angular p = 2 -> annulus_build p check = Throw.
Proof. exact annulus_few. Qed.

(** The default settings meet the hypotheses. *)
Example C99_example : proper_annulus (mkAnnulus (1 / 4) 1 1 4 (0%R, 0%R)) /\ annulus_shaped (mkAnnulus (1 / 4) 1 1 4 (0%R, 0%R)).
Proof. exact annulus_default. Qed.

Print Assumptions C99_annulus_mesh.
Print Assumptions C99_region.
Print Assumptions C99_center_refuted.
Print Assumptions C99_few_cells_refuted.
