(** What follows for the structured meshes. *)
From Coq Require Import Reals Lra List Arith Lia Bool.
Import ListNotations.
From Verif Require Import Base Scalars MeshModel MeshSpec MeshView MeshViewProofs RefPatModel RefineModel RefineSpec RefineProofs5 BuilderModel BuilderSpec
  BuilderProofs3 BuilderProofs5 GeoModel GeoSpec DofModel FlagSpec FlagModel FeModel QuadModel LagrModel AssembleModel AssembleSpec NormalSpec StokesModel StokesSpec StokesProofs11 FlowSpec
  StokesProofs StokesProofs2 StokesProofs7 StokesProofs8 StokesProofs9 StokesProofs10 StokesProofs16 StokesProofs17 TransferModel TransferSpec TransferProofs4 RectSpec RectProofs RectProofs2.
Local Open Scope nat_scope.

Lemma structured_valid : forall p check, proper p ->
  (well_shaped p -> exists M g, tp_triag_build p check = Ok (Some (M, g)) /\ valid_mesh (view M)) /\
  (well_shaped p -> exists M g, tp_quad_build p check = Ok (Some (M, g)) /\ valid_mesh (view M)) /\
  (torus_shaped p -> 3 <= p_nx p -> 3 <= p_ny p -> exists M g, torus_build p check = Ok (Some (M, g)) /\ valid_mesh (view M)).
Proof.
  intros p check P. split; [|split].
  - intros W. destruct (triag_valid p P W check) as (M & E & _ & V). exists M, (sites3 p). split; auto.
  - intros W. destruct (quad_valid p P W check) as (M & E & _ & V). exists M, (sites4 p). split; auto.
  - intros T X Y. destruct (torus_valid p P X Y T check) as (M & E & _ & V). exists M, (tsites p). split; auto.
Qed.
Lemma valid_refined : forall m, valid_mesh m -> forall ops longest check, (forall i, longest i < 3) -> Forall good_hop ops ->
  exists H, run_hops ops (new_hierarchy longest m (new_factory check)) = Ok H /\
    length (levels H) = S (length (filter is_refinement ops)) /\
    (exists L0, nth_error (levels H) 0 = Some L0 /\ l_mesh L0 = m) /\
    (forall L, In L (levels H) -> valid_mesh (l_mesh L)) /\ TransferSpec.reached H.
Proof.
  intros m (W & S' & C) ops longest check L O.
  destruct (any_history ops longest check m W S' (fun _ => C) L O) as (H & R & N & Z & V & _).
  destruct (geo_history ops longest check m W S' (fun _ => C) L O) as (H' & R' & R2 & _).
  assert (H' = H) by congruence. subst H'. exists H. split; [exact R|]. split; [exact N|]. split; [exact Z|]. split.
  - intros l Hl. destruct (V l Hl) as (A & B & D). exact (conj A (conj B (D C))).
  - exists ops, longest, check, m. exact (conj W (conj S' (conj (fun _ => C) (conj L (conj O R'))))).
Qed.
Lemma rect_mesh : forall p check, proper p -> well_shaped p -> exists M g, tp_triag_build p check = Ok (Some (M, g)) /\
  (exists geom, given g geom) /\ forall geom, given g geom ->
  let m := view M in triangulation m geom (position g) /\ manifold m /\ no_overlap m geom /\ all_reached m /\ complete_mesh m /\
  (exists v, boundary_node m v) /\ closed_curves m /\ connected_boundary m.
Proof.
  intros p check P W. destruct (triag_detail p P W check) as (M & E & _ & D). exists M, (sites3 p). split; auto. split; [exact (rect_geom p P W)|].
  intros geom G m. split; [exact (rect_triangulation p P W M D geom G)|]. split; [exact (rect_manifold p P M D)|].
  split; [exact (rect_apart p P W M D geom G)|]. split; [exact (rect_reached p P M D)|]. split; [exact (dt_complete p M D)|].
  split; [exact (rect_corner p P M D)|]. split; [exact (rect_curves p P M D)|exact (rect_connected p P M D)].
Qed.
Local Open Scope R_scope.
Lemma rect_no_flow : forall p check, proper p -> well_shaped p -> exists M g, tp_triag_build p check = Ok (Some (M, g)) /\ forall geom, given g geom ->
  let m := view M in let N := (size m 2 + size m 1)%nat in
  forall sigma modified q check' f b, 0 < sigma -> tria_rule q -> of_points f ->
  exists A rhs D, buildSystemMatrixNoFlow m geom (u_handler (uniform m stokes_map check')) f b sigma q modified = Ok (A, rhs) /\
  AssembleSpec.is_matrix Rring A N N D /\ length rhs = N /\
  exists x, solves Rring N D (comp Rring rhs) x /\ forall y, solves Rring N D (comp Rring rhs) y -> forall i, (i < N)%nat -> y i = x i.
Proof.
  intros p check P W. destruct (rect_mesh p check P W) as (M & g & E & _ & Q). exists M, g. split; auto. intros geom G m N sigma modified q check' f b S0 T O.
  destruct (Q geom G) as (T1 & T2 & T3 & T4 & T5 & T6 & T7 & T8). destruct (normals_exist _ _ _ T1) as (n & Hn & _).
  exact (no_flow_solution m geom (position g) n T1 Hn T2 sigma modified q check' S0 T4 T5 f b T O).
Qed.
Lemma rect_in_out_flow : forall p check, proper p -> well_shaped p -> exists M g, tp_triag_build p check = Ok (Some (M, g)) /\ forall geom, given g geom ->
  let m := view M in let N := (size m 2 + size m 1)%nat in
  forall solver, exact_solver solver -> forall sigma modified q check' f b, 0 < sigma -> tria_rule q -> of_points f ->
  exists A rhs D off, buildSystemMatrixInOutFlow m geom solver (u_handler (uniform m stokes_map check')) f b sigma q modified = Ok (A, rhs, off) /\
  AssembleSpec.is_matrix Rring A N N D /\ length rhs = N /\
  exists x, solves Rring N D (comp Rring rhs) x /\ forall y, solves Rring N D (comp Rring rhs) y -> forall i, (i < N)%nat -> y i = x i.
Proof.
  intros p check P W. destruct (rect_mesh p check P W) as (M & g & E & _ & Q). exists M, g. split; auto. intros geom G m N solver Es sigma modified q check' f b S0 T O.
  destruct (Q geom G) as (T1 & T2 & T3 & T4 & T5 & T6 & T7 & T8). destruct (normals_exist _ _ _ T1) as (n & Hn & _).
  exact (in_out_solution m geom (position g) n T1 Hn T2 T3 T6 T7 T8 solver Es sigma modified q f b check' (Rgt_not_eq _ _ S0) T O S0 T4 T5).
Qed.
