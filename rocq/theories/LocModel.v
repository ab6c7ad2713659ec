(** Model of projects/dpg/loc_comp_dpg.h: element matrices and vectors for components of product
    spaces, and of the builders in product_element_matrix_provider_builder.h and
    product_element_vector_provider_builder.h.
    Simplifications: those of ElemModel (scalar type R, exact arithmetic, mesh functions are
    evaluated at one point after the other) and DpgModel; cell.RefEl() is the type of the geometry
    of the cell. *)
From Coq Require Import Reals List Arith ZArith Bool.
Import ListNotations.
From Verif Require Import Base Scalars MeshModel MeshView DofModel RefPatModel GeoModel FlagModel FeModel QuadModel AssembleModel ElemModel DpgModel ProdModel NormalModel.
Local Open Scope R_scope.

(** A mesh function. *)
Definition coefficient (A : Type) := ent -> mesh_fun A.
(** elem_mat_t mat(rows, cols); mat.setZero(); mat += w * M *)
Definition dzero (r c : nat) : dense Rring := mkDense Rring r c (fun _ _ => 0).
Definition dadd (m : dense Rring) (w : R) (M : nat -> nat -> R) : dense Rring :=
  mkDense Rring (d_rows Rring m) (d_cols Rring m) (fun i j => d_coef Rring m i j + w * M i j).
(** Eigen: equality of matrices (points, column by column) and of vectors (weights). *)
Definition points_eqb (a b : list (list R)) : bool := if list_eq_dec (list_eq_dec Req_EM_T) a b then true else false.
Definition weights_eqb (a b : list R) : bool := if list_eq_dec Req_EM_T a b then true else false.
(** loc_comp_dpg.h:213-216 (447-450, 688-691, 1236-1240): the consistency of two rules. *)
Definition same_rule (p q : quadrule) : bool :=
  points_eqb (qr_points p) (qr_points q) && weights_eqb (qr_weights p) (qr_weights q) && (NumPoints p =? NumPoints q)%nat.

Section Providers.
(** lf::quad::make_QuadRule *)
Variable make : refel -> nat -> res quadrule.
(** Geometry of the entities. *)
Variable geom : ent -> geo.

(** * Integrals over cells *)

(** loc_comp_dpg.h:158-192 (391-426, 626-664): fe_precomp_trial_, fe_precomp_test_. *)
Definition precompute_both (trial test : product_space) (trial_component test_component : nat) : res (precomps * precomps) :=
  let one ref_el :=
    do fe_trial <- ShapeFunctionLayout trial ref_el trial_component;
    do fe_test <- ShapeFunctionLayout test ref_el test_component;
    match fe_trial, fe_test with
    | Some ft, Some fv =>
        do qr <- make ref_el (fe_degree ft + fe_degree fv)%nat;
        do a <- precompute ft qr;
        do b <- precompute fv qr;
        Ok (Some a, Some b)
    | _, _ => Ok (None, None)
    end in
  do t <- one kTria;
  do q <- one kQuad;
  Ok (mkPrecomps (fst t) (fst q), mkPrecomps (snd t) (snd q)).
(** loc_comp_dpg.h:198-221 (434-455, 675-696) *)
Definition both (P : precomps * precomps) (g : geo) : res (precomp * precomp) :=
  match pcs_get (fst P) (kind_el (go_kind g)), pcs_get (snd P) (kind_el (go_kind g)) with
  | Some pfe_trial, Some pfe_test =>
      do _ <- lf_assert (same_rule (pc_qr pfe_trial) (pc_qr pfe_test));
      do _ <- lf_assert (dim_local (go_kind g) =? 2)%nat;
      Ok (pfe_trial, pfe_test)
  | _, _ => Assert
  end.
(** The transformed gradients of the test functions times alpha times those of the trial functions,
    loc_comp_dpg.h:253-264. *)
Definition stiff2 (d : nat) (J : list vec) (grv grt : list (list R)) (a : coeff) : nat -> nat -> R :=
  fun i j => GeoModel.dot d (trf_grad J grv i) (cmul d a (trf_grad J grt j)).
(** loc_comp_dpg.h:194-267 *)
Definition DiffusionMat (P : precomps * precomps) (alpha : coefficient coeff) (cell : ent) : res (dense Rring) :=
  let g := geom cell in
  do ps <- both P g;
  let (pt, pv) := ps in
  let q := pc_qr pt in
  do det <- traverse (IntegrationElement g) (qr_points q);
  do _ <- lf_assert (length det =? NumPoints q)%nat;
  do jit <- traverse (JacobianInverseGramian g) (qr_points q);
  do _ <- lf_assert (length (concat jit) =? 2 * NumPoints q)%nat;
  do al <- traverse (alpha cell) (qr_points q);
  Ok (fold_left (fun m k =>
        dadd m (nth k (qr_weights q) 0 * nth k det 0)
             (stiff2 (go_dim g) (nth k jit []) (nth k (pc_grad pv) []) (nth k (pc_grad pt) []) (nth k al (Scal 0))))
      (seq 0 (NumPoints q)) (dzero (fe_total (pc_fe pv)) (fe_total (pc_fe pt)))).
(** loc_comp_dpg.h:428-483 *)
Definition ReactionMat (P : precomps * precomps) (gamma : coefficient R) (cell : ent) : res (dense Rring) :=
  let g := geom cell in
  do ps <- both P g;
  let (pt, pv) := ps in
  let q := pc_qr pt in
  do det <- traverse (IntegrationElement g) (qr_points q);
  do _ <- lf_assert (length det =? NumPoints q)%nat;
  do gam <- traverse (gamma cell) (qr_points q);
  Ok (fold_left (fun m k =>
        dadd m (nth k (qr_weights q) 0 * nth k det 0)
             (fun i j => nth i (nth k (pc_shap pv) []) 0 * nth k gam 0 * nth j (nth k (pc_shap pt) []) 0))
      (seq 0 (NumPoints q)) (dzero (fe_total (pc_fe pv)) (fe_total (pc_fe pt)))).
(** loc_comp_dpg.h:666-752 *)
Definition ConvectionMat (P : precomps * precomps) (beta_1 beta_2 : coefficient vec) (cell : ent) : res (dense Rring) :=
  let g := geom cell in
  let d := go_dim g in
  do ps <- both P g;
  let (pt, pv) := ps in
  let q := pc_qr pt in
  do det <- traverse (IntegrationElement g) (qr_points q);
  do _ <- lf_assert (length det =? NumPoints q)%nat;
  do jit <- traverse (JacobianInverseGramian g) (qr_points q);
  do _ <- lf_assert (length (concat jit) =? 2 * NumPoints q)%nat;
  do b1 <- traverse (beta_1 cell) (qr_points q);
  do b2 <- traverse (beta_2 cell) (qr_points q);
  Ok (fold_left (fun m k =>
        let J := nth k jit [] in
        dadd m (nth k (qr_weights q) 0 * nth k det 0)
             (fun i j =>
                GeoModel.dot d (nth k b1 vzero) (trf_grad J (nth k (pc_grad pv) []) i) * nth j (nth k (pc_shap pt) []) 0 +
                nth i (nth k (pc_shap pv) []) 0 * GeoModel.dot d (nth k b2 vzero) (trf_grad J (nth k (pc_grad pt) []) j)))
      (seq 0 (NumPoints q)) (dzero (fe_total (pc_fe pv)) (fe_total (pc_fe pt)))).

(** loc_comp_dpg.h:1392-1413 *)
Definition precompute_load (test : product_space) (test_component : nat) : res precomps :=
  let one ref_el :=
    do fe_test <- ShapeFunctionLayout test ref_el test_component;
    match fe_test with
    | None => Ok None
    | Some fv => do qr <- make ref_el (2 * fe_degree fv)%nat; do p <- precompute fv qr; Ok (Some p)
    end in
  do t <- one kTria;
  do q <- one kQuad;
  Ok (mkPrecomps t q).
(** loc_comp_dpg.h:1415-1453 *)
Definition LoadVec (P : precomps) (f : coefficient R) (cell : ent) : res (list R) :=
  let g := geom cell in
  match pcs_get P (kind_el (go_kind g)) with
  | None => Assert
  | Some pv =>
  do _ <- lf_assert (dim_local (go_kind g) =? 2)%nat;
  let q := pc_qr pv in
  do det <- traverse (IntegrationElement g) (qr_points q);
  do _ <- lf_assert (length det =? NumPoints q)%nat;
  do fval <- traverse (f cell) (qr_points q);
  Ok (fold_left (fun v k => vec_axpy (nth k fval 0 * (nth k (qr_weights q) 0 * nth k det 0)) (nth k (pc_shap pv) []) v)
      (seq 0 (NumPoints q)) (repeat 0 (fe_total (pc_fe pv))))
  end.

(** * Integrals over the boundary of cells *)

(** The entries for triangles and quadrilaterals of arrays indexed by types. *)
Record per_type (A : Type) := mkPerType { on_tria : A; on_quad : A }.
Definition type_get {A} (P : per_type A) (t : refel) (dflt : A) : A :=
  match t with kTria => on_tria A P | kQuad => on_quad A P | _ => dflt end.

(** loc_comp_dpg.h:887-943: fe_precomp_trial_ (one element for segments), fe_precomp_test_ (one for
    each edge) by type of the cell; sign_provider_. *)
Definition flux_data := (per_type (option precomp * list precomp) * dset Z)%type.
Definition precompute_flux (trial test : product_space) (trial_component test_component : nat) : res flux_data :=
  do sign_provider <- SignProvider (ps_mesh trial);
  do fe_trial <- ShapeFunctionLayout trial kSegment trial_component;
  match fe_trial with
  | None => Assert
  | Some ft =>
  do n <- fe_num1 ft 1;
  do _ <- lf_assert (n =? 0)%nat;
  let one ref_el :=
    do fe_test <- ShapeFunctionLayout test ref_el test_component;
    match fe_test with
    | None => Ok (None, [])
    | Some fv =>
        do segment_qr <- make kSegment (fe_degree ft + fe_degree fv)%nat;
        do pt <- precompute ft segment_qr;
        do boundaryQr <- BoundaryQuadRule ref_el segment_qr;
        do _ <- lf_assert (length boundaryQr =? num_sub_entities ref_el 1)%nat;
        do pvs <- traverse (precompute fv) boundaryQr;
        Ok (Some pt, pvs)
    end in
  do t <- one kTria;
  do q <- one kQuad;
  Ok (mkPerType _ t q, sign_provider)
  end.
(** [mat.block(0, c0, rows, cols) += w * M] for a block with all rows. *)
Definition block_add (m : dense Rring) (c0 cols : nat) (w : R) (M : nat -> nat -> R) : dense Rring :=
  mkDense Rring (d_rows Rring m) (d_cols Rring m) (fun i j =>
    if ((c0 <=? j) && (j <? c0 + cols))%nat then d_coef Rring m i j + w * M i (j - c0)%nat else d_coef Rring m i j).
(** loc_comp_dpg.h:945-1016 *)
Definition FluxMat (P : flux_data) (m : mesh) (alpha : coefficient R) (cell : ent) : res (dense Rring) :=
  let g := geom cell in
  let el := kind_el (go_kind g) in
  let (trial, pvs) := type_get (fst P) el (None, []) in
  let numSegments := num_sub_entities el 1 in
  do _ <- lf_assert (length pvs =? numSegments)%nat;
  match trial with
  | None => Assert
  | Some pt =>
  do _ <- lf_assert (forallb (fun p => NumPoints (pc_qr p) =? NumPoints (pc_qr pt))%nat pvs);
  do _ <- lf_assert (dim_local (go_kind g) =? 2)%nat;
  do pv0 <- elem_at pvs 0;
  let q := pc_qr pt in
  let n := fe_total (pc_fe pt) in
  each (seq 0 numSegments) (fun segment mat =>
    do edge <- SubGeometry g 1 segment;
    do det <- traverse (IntegrationElement edge) (qr_points q);
    do _ <- lf_assert (length det =? NumPoints q)%nat;
    do pv <- elem_at pvs segment;
    do al <- traverse (alpha cell) (qr_points (pc_qr pv));
    do subs <- sub_entities m 0 (ent_index cell) 1;
    do e <- elem_at subs segment;
    do sgn <- PrescribedSign (snd P) (ent_index cell) e;
    Ok (fold_left (fun mat k =>
          block_add mat (segment * n) n (nth k al 0 * (nth k (qr_weights q) 0 * nth k det 0 * IZR sgn))
            (fun i j => nth i (nth k (pc_shap pv) []) 0 * nth j (nth k (pc_shap pt) []) 0))
        (seq 0 (NumPoints q)) mat))
  (dzero (fe_total (pc_fe pv0)) (n * numSegments))
  end.

(** loc_comp_dpg.h:1149-1203: fe_precomp_trial_, fe_precomp_test_, segment_qr_; a rule that has not
    been set has no points. *)
Definition trace_data := per_type (list precomp * list precomp * quadrule).
Definition empty_rule (t : refel) : quadrule := mkQr t [] [] 0.
Definition precompute_trace (trial test : product_space) (trial_component test_component : nat) : res trace_data :=
  let one ref_el :=
    do fe_trial <- ShapeFunctionLayout trial ref_el trial_component;
    do fe_test <- ShapeFunctionLayout test ref_el test_component;
    match fe_trial, fe_test with
    | Some ft, Some fv =>
        do segment_qr <- make kSegment (fe_degree ft + fe_degree fv)%nat;
        do boundary_qr <- BoundaryQuadRule ref_el segment_qr;
        do _ <- lf_assert (length boundary_qr =? num_sub_entities ref_el 1)%nat;
        do pts <- traverse (precompute ft) boundary_qr;
        do pvs <- traverse (precompute fv) boundary_qr;
        Ok (pts, pvs, segment_qr)
    | _, _ => Ok ([], [], empty_rule kPoint)
    end in
  do t <- one kTria;
  do q <- one kQuad;
  Ok (mkPerType _ t q).
(** loc_comp_dpg.h:1205-1298 *)
Definition TraceMat (P : trace_data) (beta : coefficient vec) (cell : ent) : res (dense Rring) :=
  let g := geom cell in
  let el := kind_el (go_kind g) in
  let '(pts, pvs, segment_qr) := type_get P el ([], [], empty_rule kPoint) in
  let num_segments := num_sub_entities el 1 in
  do _ <- lf_assert (length pts =? num_segments)%nat;
  do _ <- lf_assert (length pvs =? num_segments)%nat;
  do _ <- lf_assert (forallb (fun p => same_rule (pc_qr (fst p)) (pc_qr (snd p))) (combine pts pvs));
  do pt0 <- elem_at pts 0;
  do pv0 <- elem_at pvs 0;
  do _ <- lf_assert (NumPoints segment_qr =? NumPoints (pc_qr pt0))%nat;
  do _ <- lf_assert (dim_local (go_kind g) =? 2)%nat;
  do normals <- OuterNormals g;
  do _ <- lf_assert (length normals =? num_segments)%nat;
  each (seq 0 num_segments) (fun segment mat =>
    do edge <- SubGeometry g 1 segment;
    do pt <- elem_at pts segment;
    do pv <- elem_at pvs segment;
    do det <- traverse (IntegrationElement edge) (qr_points segment_qr);
    do _ <- lf_assert (length det =? NumPoints (pc_qr pt))%nat;
    do be <- traverse (beta cell) (qr_points (pc_qr pt));
    do n <- elem_at normals segment;
    Ok (fold_left (fun mat k =>
          dadd mat (nth k (qr_weights segment_qr) 0 * nth k det 0)
            (fun i j => nth i (nth k (pc_shap pv) []) 0 * nth j (nth k (pc_shap pt) []) 0 * GeoModel.dot 2 n (nth k be vzero)))
        (seq 0 (NumPoints (pc_qr pt))) mat))
  (dzero (fe_total (pc_fe pv0)) (fe_total (pc_fe pt0))).

(** * Builders *)

(** product_element_matrix_provider_builder.h: the spaces and the providers added so far; isActive
    is the default implementation, sub_element_matrix_provider.h. *)
Record builder := mkBuilder { bl_trial : product_space; bl_test : product_space; bl_subs : list (sub_mat Rring) }.
Definition NewBuilder (trial test : product_space) : builder := mkBuilder trial test [].
(** The five Add functions. *)
Inductive term :=
| Diffusion (alpha : coefficient coeff)
| Reaction (gamma : coefficient R)
| Convection (beta_1 beta_2 : coefficient vec)
| FluxTerm (alpha : coefficient R)
| TraceTerm (beta : coefficient vec).
Definition provider (trial test : product_space) (trial_component test_component : nat) (t : term) : res (sub_mat Rring) :=
  let sub ev := mkSubMat Rring (fun _ => true) trial_component test_component ev in
  match t with
  | Diffusion alpha => do P <- precompute_both trial test trial_component test_component; Ok (sub (DiffusionMat P alpha))
  | Reaction gamma => do P <- precompute_both trial test trial_component test_component; Ok (sub (ReactionMat P gamma))
  | Convection b1 b2 => do P <- precompute_both trial test trial_component test_component; Ok (sub (ConvectionMat P b1 b2))
  | FluxTerm alpha => do P <- precompute_flux trial test trial_component test_component; Ok (sub (FluxMat P (ps_mesh trial) alpha))
  | TraceTerm beta => do P <- precompute_trace trial test trial_component test_component; Ok (sub (TraceMat P beta))
  end.
Definition AddTerm (b : builder) (trial_component test_component : nat) (t : term) : res builder :=
  do s <- provider (bl_trial b) (bl_test b) trial_component test_component t;
  Ok (mkBuilder (bl_trial b) (bl_test b) (bl_subs b ++ [s])).
(** Build(): the product provider, and the builder without its terms. *)
Definition BuildMat (b : builder) : (ent -> res (dense Rring)) * builder :=
  (ProductMatEval Rring (ps_dofs (bl_trial b)) (ps_dofs (bl_test b)) (bl_subs b), mkBuilder (bl_trial b) (bl_test b) []).
(** product_element_vector_provider_builder.h *)
Record vbuilder := mkVBuilder { vb_test : product_space; vb_subs : list (sub_vec Rring) }.
Definition NewVBuilder (test : product_space) : vbuilder := mkVBuilder test [].
Definition AddLoad (b : vbuilder) (test_component : nat) (f : coefficient R) : res vbuilder :=
  do P <- precompute_load (vb_test b) test_component;
  Ok (mkVBuilder (vb_test b) (vb_subs b ++ [mkSubVec Rring (fun _ => true) test_component (LoadVec P f)])).
Definition BuildVec (b : vbuilder) : (ent -> res (list R)) * vbuilder :=
  (ProductVecEval Rring (ps_dofs (vb_test b)) (vb_subs b), mkVBuilder (vb_test b) []).
End Providers.
