(** Property C36: boundary flags and numbers of super-entities. *)
From Coq Require Import Reals List Arith Lia Bool.
Import ListNotations.
From Verif Require Import Base MeshModel MeshSpec MeshView MeshViewProofs DofModel DofSpec FlagModel FlagSpec FlagProofs
  BuilderModel BuilderSpec RefineSpec FlagProofs2 PropDof PropMeshView.

(** CountNumSuperEntities(mesh, codim_sub, codim_super) counts, for each entity [s] of
    co-dimension [codim_sub], the pairs (super-entity [e], local number [k]) such that
    [s] is the [k]-th part of [e]; other co-dimensions are rejected. *)
Theorem C36_number_of_super_entities : forall m codim_sub codim_super, wf_mesh m ->
  (codim_sub <= 2 -> codim_super <= codim_sub -> exists d,
     count_super m codim_sub codim_super = Ok d /\ d_codim d = codim_sub /\
     length (d_data d) = size m codim_sub /\
     forall s n, nth_error (d_data d) s = Some n ->
       has_size (fun ek => fst ek < size m (codim_sub - codim_super) /\
                           part m (codim_sub - codim_super) (fst ek) codim_super (snd ek) s) n) /\
  (2 < codim_sub \/ codim_sub < codim_super -> count_super m codim_sub codim_super = Throw).
Proof. exact count_super_correct. Qed.

(** flagEntitiesOnBoundary(mesh, codim): an edge (codim 1) or a node (codim 2) is
    flagged iff it is or belongs to an edge with exactly one adjacent cell. *)
Theorem C36_boundary_flags : forall m codim, wf_mesh m ->
  (0 < codim <= 2 -> exists d, flag_boundary m codim = Ok d /\ d_codim d = codim /\
     length (d_data d) = size m codim /\
     forall s b, nth_error (d_data d) s = Some b ->
       (b = true <-> exists e k, e < size m 1 /\ one_cell_at m e /\ part m 1 e (codim - 1) k s)) /\
  (codim = 0 \/ 2 < codim -> flag_boundary m codim = Assert).
Proof. exact flag_boundary_correct. Qed.

(** flagEntitiesOnBoundary(mesh): no cell is flagged, edges and nodes as above. *)
Theorem C36_boundary_flags_all : forall m, wf_mesh m -> exists d1 d2,
  flag_boundary_all m = Ok [repeat false (size m 0); d1; d2] /\
  (forall rel l, nth_error [d1; d2] rel = Some l -> length l = size m (1 + rel) /\
     forall s b, nth_error l s = Some b ->
       (b = true <-> exists e k, e < size m 1 /\ one_cell_at m e /\ part m 1 e rel k s)).
Proof. exact flag_all_correct. Qed.

(** On the meshes of TPTriagMeshBuilder and TPQuadMeshBuilder the flagged edges are
    those on the sides of the rectangle, and on those of the torus there are none. *)
Theorem C36_flags_of_structured_meshes : forall p check, proper p -> well_shaped p -> exists M g M' g' d d',
  tp_triag_build p check = Ok (Some (M, g)) /\ tp_quad_build p check = Ok (Some (M', g')) /\
  flag_boundary (view M) 1 = Ok d /\ flag_boundary (view M') 1 = Ok d' /\
  (forall e a b x, nth_error (mv_edges (view M)) e = Some (a, b) -> nth_error (d_data d) e = Some x ->
     (x = true <-> on_common_side p (place g a) (place g b))) /\
  (forall e a b x, nth_error (mv_edges (view M')) e = Some (a, b) -> nth_error (d_data d') e = Some x ->
     (x = true <-> on_common_side p (place g' a) (place g' b))) /\
  (torus_shaped p -> 3 <= p_nx p -> 3 <= p_ny p -> exists M2 g2 d2, torus_build p check = Ok (Some (M2, g2)) /\
     flag_boundary (view M2) 1 = Ok d2 /\ forall e x, nth_error (d_data d2) e = Some x -> x = false).
Proof. exact structured_flags. Qed.

Example C36_example : wf_mesh example_mesh /\ 
  count_super example_mesh 1 1 = Ok (mkDset 1 [1; 1; 1; 2; 1; 1]) /\
  flag_boundary example_mesh 1 = Ok (mkDset 1 [true; true; true; false; true; true]).
Proof. split; [exact example_wf|]. split; vm_compute; reflexivity. Qed.

Print Assumptions C36_number_of_super_entities.
Print Assumptions C36_boundary_flags.
Print Assumptions C36_boundary_flags_all.
Print Assumptions C36_flags_of_structured_meshes.
