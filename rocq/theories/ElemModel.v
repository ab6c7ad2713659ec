(** Model of the element matrix and element vector providers,
    lib/lf/fe/loc_comp_ellbvp.h, lib/lf/uscalfe/loc_comp_ellbvp.h,
    lib/lf/uscalfe/precomputed_scalar_reference_finite_element.h and
    lib/lf/uscalfe/lin_fe.h, lin_fe.cc.
    Simplifications: the scalar type is R, so conjugation and adjoints are trivial; exact
    arithmetic; a mesh function, here restricted to the entity at hand, maps one
    reference point to a value (matrices of points are treated column by column); the
    geometry pointer is not null; logging is left out. *)
From Coq Require Import Reals List Arith Bool.
Import ListNotations.
From Verif Require Import Base MeshModel MeshView DofModel RefPatModel GeoModel FeModel QuadModel.
Local Open Scope R_scope.

(** ElemMat: a square matrix of dynamic size.  ElemVec is a list. *)
Record emat := mkEmat { em_n : nat; em_at : nat -> nat -> R }.
Definition ezero (n : nat) : emat := mkEmat n (fun _ _ => 0).
(** mat += w * M *)
Definition eadd (m : emat) (w : R) (M : nat -> nat -> R) : emat :=
  mkEmat (em_n m) (fun i j => em_at m i j + w * M i j).
(** vec += w * v *)
Definition vec_axpy (w : R) (v u : list R) : list R := map (fun p => fst p + w * snd p) (combine u v).

(** A value of the diffusion coefficient: scalar or matrix
    (fe/loc_comp_ellbvp.h:59-69), and its product with a vector. *)
Inductive coeff := Scal (a : R) | Tens (A : nat -> nat -> R).
Definition cmul (d : nat) (c : coeff) (v : vec) : vec :=
  match c with
  | Scal a => fun k => a * v k
  | Tens A => fun k => rsum (map (fun l => A k l * v l) (seq 0 d))
  end.
Definition mesh_fun (A : Type) := list R -> res A.
(** Column i of JinvT.block * grsf.block^T: the transformed gradient of shape function i. *)
Definition trf_grad (J : list vec) (gr : list (list R)) (i : nat) : vec :=
  fun k => rsum (map (fun c => nth c J vzero k * nth c (nth i gr []) 0) (seq 0 2)).
(** trf_grad.adjoint() * (alpha * trf_grad) *)
Definition stiff (d : nat) (J : list vec) (gr : list (list R)) (a : coeff) : nat -> nat -> R :=
  fun i j => GeoModel.dot d (trf_grad J gr i) (cmul d a (trf_grad J gr j)).
(** (gamma * rsf.col(k)) * rsf.col(k).adjoint() *)
Definition mass (gam : R) (v : list R) : nat -> nat -> R := fun i j => gam * nth i v 0 * nth j v 0.

Section Providers.
(** qr_cache_.Get; see C54 for the cache. *)
Variable get : refel -> nat -> res quadrule.

(** fe/loc_comp_ellbvp.h:168-219 *)
Definition DiffusionEval (g : geo) (f : srfe) (alpha : mesh_fun coeff) : res emat :=
  do _ <- lf_assert (dim_local (go_kind g) =? 2)%nat;
  let d := go_dim g in
  do q <- get (kind_el (go_kind g)) (2 * fe_degree f);
  do det <- traverse (IntegrationElement g) (qr_points q);
  do _ <- lf_assert (length det =? NumPoints q)%nat;
  do jit <- traverse (JacobianInverseGramian g) (qr_points q);
  do _ <- lf_assert (length (concat jit) =? 2 * NumPoints q)%nat;
  do al <- traverse alpha (qr_points q);
  do gr <- traverse (fe_grad f) (qr_points q);
  Ok (fold_left (fun m k =>
        eadd m (nth k (qr_weights q) 0 * nth k det 0)
             (stiff d (nth k jit []) (nth k gr []) (nth k al (Scal 0))))
      (seq 0 (NumPoints q)) (ezero (fe_total f))).

(** fe/loc_comp_ellbvp.h:349-384 *)
Definition MassEval (g : geo) (f : srfe) (gamma : mesh_fun R) : res emat :=
  do _ <- lf_assert (dim_local (go_kind g) =? 2)%nat;
  do q <- get (kind_el (go_kind g)) (2 * fe_degree f);
  do det <- traverse (IntegrationElement g) (qr_points q);
  do _ <- lf_assert (length det =? NumPoints q)%nat;
  do gam <- traverse gamma (qr_points q);
  do rsf <- traverse (fe_eval f) (qr_points q);
  Ok (fold_left (fun m k =>
        eadd m (nth k (qr_weights q) 0 * nth k det 0) (mass (nth k gam 0) (nth k rsf [])))
      (seq 0 (NumPoints q)) (ezero (fe_total f))).

(** fe/loc_comp_ellbvp.h:500-532 *)
Definition MassEdgeEval (g : geo) (f : srfe) (gamma : mesh_fun R) : res emat :=
  do q <- get (kind_el (go_kind g)) (2 * fe_degree f);
  do det <- traverse (IntegrationElement g) (qr_points q);
  do _ <- lf_assert (length det =? NumPoints q)%nat;
  do gam <- traverse gamma (qr_points q);
  do rsf <- traverse (fe_eval f) (qr_points q);
  Ok (fold_left (fun m k =>
        eadd m ((nth k (qr_weights q) 0 * nth k det 0) * nth k gam 0)
             (fun i j => nth i (nth k rsf []) 0 * nth j (nth k rsf []) 0))
      (seq 0 (length det)) (ezero (fe_total f))).

(** fe/loc_comp_ellbvp.h:642-694 *)
Definition LoadEval (g : geo) (f : srfe) (src : mesh_fun R) : res (list R) :=
  do q <- get (kind_el (go_kind g)) (2 * fe_degree f);
  do _ <- lf_assert (dim_local (go_kind g) =? 2)%nat;
  do det <- traverse (IntegrationElement g) (qr_points q);
  do _ <- lf_assert (length det =? NumPoints q)%nat;
  do fval <- traverse src (qr_points q);
  do rsf <- traverse (fe_eval f) (qr_points q);
  Ok (fold_left (fun v k =>
        vec_axpy (nth k (qr_weights q) 0 * nth k det 0 * nth k fval 0) (nth k rsf []) v)
      (seq 0 (length det)) (repeat 0 (fe_total f))).

(** fe/loc_comp_ellbvp.h:798-836 *)
Definition LoadEdgeEval (g : geo) (f : srfe) (src : mesh_fun R) : res (list R) :=
  do _ <- lf_assert (dim_local (go_kind g) =? 1)%nat;
  do q <- get (kind_el (go_kind g)) (2 * fe_degree f);
  do det <- traverse (IntegrationElement g) (qr_points q);
  do _ <- lf_assert (length det =? NumPoints q)%nat;
  do gval <- traverse src (qr_points q);
  do rsf <- traverse (fe_eval f) (qr_points q);
  Ok (fold_left (fun v k =>
        vec_axpy ((nth k (qr_weights q) 0 * nth k det 0) * nth k gval 0) (nth k rsf []) v)
      (seq 0 (NumPoints q)) (repeat 0 (fe_total f))).
End Providers.

(** *** lib/lf/uscalfe *)
(** precomputed_scalar_reference_finite_element.h:72-79, 172-183 *)
Record precomp := mkPrecomp {
  pc_fe : srfe; pc_qr : quadrule; pc_shap : list (list R); pc_grad : list (list (list R))
}.
Definition precompute (f : srfe) (q : quadrule) : res precomp :=
  do sh <- traverse (fe_eval f) (qr_points q);
  do gr <- traverse (fe_grad f) (qr_points q);
  Ok (mkPrecomp f q sh gr).
(** The array fe_precomp_, of which only the entries for triangles and
    quadrilaterals are ever initialized. *)
Record precomps := mkPrecomps { pcs_tria : option precomp; pcs_quad : option precomp }.
Definition pcs_get (P : precomps) (t : refel) : option precomp :=
  match t with kTria => pcs_tria P | kQuad => pcs_quad P | _ => None end.

(** uscalfe/loc_comp_ellbvp.h:209-231: first constructor of
    ReactionDiffusionElementMatrixProvider; also 637-656 for ScalarLoadElementVectorProvider. *)
Definition precompute_default (make : refel -> nat -> res quadrule) (layout : refel -> option srfe) : res precomps :=
  let one t := match layout t with
               | None => Ok None
               | Some f => do q <- make t (2 * fe_degree f)%nat; do p <- precompute f q; Ok (Some p)
               end in
  do a <- one kTria; do b <- one kQuad; Ok (mkPrecomps a b).
(** uscalfe/loc_comp_ellbvp.h:233-263: second constructor.  [strict] as in the
    second constructor of ScalarLoadElementVectorProvider, 658-686, which insists on a rule. *)
Definition precompute_given (strict : bool) (coll : refel -> option quadrule) (layout : refel -> option srfe) : res precomps :=
  let one t := match layout t with
               | None => Ok None
               | Some f =>
                   match coll t with
                   | Some q => do _ <- lf_assert (refel_eqb (qr_el q) t); do p <- precompute f q; Ok (Some p)
                   | None => if strict then Assert else Ok None
                   end
               end in
  do a <- one kTria; do b <- one kQuad; Ok (mkPrecomps a b).

(** uscalfe/loc_comp_ellbvp.h:265-339 *)
Definition ReactionDiffusionEval (P : precomps) (g : geo) (alpha : mesh_fun coeff) (gamma : mesh_fun R) : res emat :=
  match pcs_get P (kind_el (go_kind g)) with
  | None => Throw
  | Some pfe =>
  do _ <- lf_assert (dim_local (go_kind g) =? 2)%nat;
  let d := go_dim g in
  let q := pc_qr pfe in
  do det <- traverse (IntegrationElement g) (qr_points q);
  do _ <- lf_assert (length det =? NumPoints q)%nat;
  do jit <- traverse (JacobianInverseGramian g) (qr_points q);
  do _ <- lf_assert (length (concat jit) =? 2 * NumPoints q)%nat;
  do al <- traverse alpha (qr_points q);
  do gam <- traverse gamma (qr_points q);
  Ok (fold_left (fun m k =>
        eadd m (nth k (qr_weights q) 0 * nth k det 0)
             (fun i j => stiff d (nth k jit []) (nth k (pc_grad pfe) []) (nth k al (Scal 0)) i j +
                         mass (nth k gam 0) (nth k (pc_shap pfe) []) i j))
      (seq 0 (NumPoints q)) (ezero (fe_total (pc_fe pfe))))
  end.

(** uscalfe/loc_comp_ellbvp.h:691-746 *)
Definition ULoadEval (P : precomps) (g : geo) (src : mesh_fun R) : res (list R) :=
  match pcs_get P (kind_el (go_kind g)) with
  | None => Assert
  | Some pfe =>
  let q := pc_qr pfe in
  do _ <- lf_assert (dim_local (go_kind g) =? 2)%nat;
  do det <- traverse (IntegrationElement g) (qr_points q);
  do _ <- lf_assert (length det =? NumPoints q)%nat;
  do fval <- traverse src (qr_points q);
  Ok (fold_left (fun v k =>
        vec_axpy (nth k (qr_weights q) 0 * nth k det 0 * nth k fval 0) (nth k (pc_shap pfe) []) v)
      (seq 0 (length det)) (repeat 0 (fe_total (pc_fe pfe))))
  end.

(** Constructors of MassEdgeMatrixProvider and ScalarLoadEdgeVectorProvider,
    uscalfe/loc_comp_ellbvp.h:395-433, 813-845: built-in rule ([rule] = None) or given rule. *)
Definition precompute_edge (make : refel -> nat -> res quadrule) (layout : refel -> option srfe)
    (rule : option quadrule) : res precomp :=
  match layout kSegment with
  | None => Assert
  | Some f =>
      match rule with
      | None => do q <- make kSegment (2 * fe_degree f)%nat; precompute f q
      | Some q => do _ <- lf_assert (refel_eqb (qr_el q) kSegment); precompute f q
      end
  end.
(** uscalfe/loc_comp_ellbvp.h:491-529 *)
Definition UMassEdgeEval (pfe : precomp) (g : geo) (gamma : mesh_fun R) : res emat :=
  do _ <- lf_assert (refel_eqb (kind_el (go_kind g)) kSegment);
  let q := pc_qr pfe in
  do det <- traverse (IntegrationElement g) (qr_points q);
  do _ <- lf_assert (length det =? NumPoints q)%nat;
  do gam <- traverse gamma (qr_points q);
  Ok (fold_left (fun m k =>
        eadd m ((nth k (qr_weights q) 0 * nth k det 0) * nth k gam 0)
             (fun i j => nth i (nth k (pc_shap pfe) []) 0 * nth j (nth k (pc_shap pfe) []) 0))
      (seq 0 (length det)) (ezero (fe_total (pc_fe pfe)))).
(** uscalfe/loc_comp_ellbvp.h:882-921 *)
Definition ULoadEdgeEval (pfe : precomp) (g : geo) (src : mesh_fun R) : res (list R) :=
  do _ <- lf_assert (refel_eqb (kind_el (go_kind g)) kSegment);
  let q := pc_qr pfe in
  do mapped <- traverse (Global g) (qr_points q);
  do _ <- lf_assert (length mapped =? NumPoints q)%nat;
  do det <- traverse (IntegrationElement g) (qr_points q);
  do _ <- lf_assert (length det =? NumPoints q)%nat;
  do gval <- traverse src (qr_points q);
  Ok (fold_left (fun v k =>
        vec_axpy ((nth k (qr_weights q) 0 * nth k det 0) * nth k gval 0) (nth k (pc_shap pfe) []) v)
      (seq 0 (NumPoints q)) (repeat 0 (fe_total (pc_fe pfe)))).

(** *** lin_fe.cc *)
(** lin_fe.cc:69-83: area and gradients from the 3x3 matrix [1 | vertices^T].
    Simplification: Eigen's inverse and determinant of a 3x3 matrix are given by
    cofactors. *)
Definition det3 (X : nat -> nat -> R) : R :=
  X 0%nat 0%nat * (X 1%nat 1%nat * X 2%nat 2%nat - X 1%nat 2%nat * X 2%nat 1%nat)
  - X 0%nat 1%nat * (X 1%nat 0%nat * X 2%nat 2%nat - X 1%nat 2%nat * X 2%nat 0%nat)
  + X 0%nat 2%nat * (X 1%nat 0%nat * X 2%nat 1%nat - X 1%nat 1%nat * X 2%nat 0%nat).
(** Entry (i, j) of the inverse: cofactor (j, i) over the determinant; indices modulo 3. *)
Definition inv3 (X : nat -> nat -> R) (i j : nat) : R :=
  let a := ((j + 1) mod 3)%nat in let b := ((j + 2) mod 3)%nat in
  let c := ((i + 1) mod 3)%nat in let e := ((i + 2) mod 3)%nat in
  (X a c * X b e - X a e * X b c) / det3 X.
Definition laplace_tria (v : nat -> vec) : nat -> nat -> R :=
  let X := fun r c => match c with 0%nat => 1 | Datatypes.S c' => v r c' end in
  let area := 1 / 2 * Rabs (det3 X) in
  let G := fun r c => inv3 X (1 + r) c in
  fun i j => if ((i <? 3) && (j <? 3))%nat
             then rsum (map (fun r => area * G r i * G r j) (seq 0 2)) else 0.
(** lin_fe.cc:27-37 *)
Definition DervRefShapFncts (x y : R) : list (list R) :=
  [[y - 1; x - 1]; [1 - y; - x]; [y; x]; [- y; 1 - x]].
(** lin_fe.h:73-78 *)
Definition kSqrt3 : R := 1 / sqrt 3.
Definition kZeta_0 : R := 1 / 2 - 1 / 2 * kSqrt3.
Definition kZeta_1 : R := 1 / 2 + 1 / 2 * kSqrt3.
Definition kQuadPoints : list (R * R) :=
  [(kZeta_0, kZeta_0); (kZeta_0, kZeta_1); (kZeta_1, kZeta_0); (kZeta_1, kZeta_1)].
(** lin_fe.cc:87-147 *)
Definition laplace_quad (v : nat -> vec) : nat -> nat -> R :=
  let T := [[1; -1; -1; 1]; [0; 1; 0; -1]; [0; 0; 0; 1]; [0; 0; 1; -1]] in
  let G := fun r c => rsum (map (fun l => v l r * nth c (nth l T []) 0) (seq 0 4)) in
  let c0 := G 0%nat 1%nat * G 1%nat 2%nat - G 1%nat 1%nat * G 0%nat 2%nat in
  let c1 := G 0%nat 1%nat * G 1%nat 3%nat - G 1%nat 1%nat * G 0%nat 3%nat in
  let c2 := G 1%nat 2%nat * G 0%nat 3%nat - G 0%nat 2%nat * G 1%nat 3%nat in
  let detDPhi := fun x y => Rabs (c0 + c1 * x + c2 * y) in
  let adj := fun x y => [[G 1%nat 2%nat + G 1%nat 3%nat * x; - G 1%nat 1%nat - G 1%nat 3%nat * y];
                         [- G 0%nat 2%nat - G 0%nat 3%nat * x; G 0%nat 1%nat + G 0%nat 3%nat * y]] in
  let gradmat := fun p r i =>
    rsum (map (fun c => nth c (nth r (adj (fst p) (snd p)) []) 0 *
                        nth c (nth i (DervRefShapFncts (fst p) (snd p)) []) 0) (seq 0 2)) in
  fun i j =>
    rsum (map (fun p => rsum (map (fun r => gradmat p r i * gradmat p r j) (seq 0 2))
                        / detDPhi (fst p) (snd p)) kQuadPoints) * (1 / 4).
(** lin_fe.cc:39-163 *)
Definition LinearFELaplaceEval (g : geo) : res emat :=
  do _ <- lf_assert ((go_dim g =? 2) && (dim_local (go_kind g) =? 2))%nat;
  do vs <- traverse (Global g) (match kind_el (go_kind g) with
                                | kTria => [[0; 0]; [1; 0]; [0; 1]]
                                | _ => [[0; 0]; [1; 0]; [1; 1]; [0; 1]]
                                end);
  let v := fun i => nth i vs vzero in
  match kind_el (go_kind g) with
  | kTria => do _ <- lf_assert (length vs =? 3)%nat; Ok (mkEmat 4 (laplace_tria v))
  | kQuad => do _ <- lf_assert (length vs =? 4)%nat; Ok (mkEmat 4 (laplace_quad v))
  | _ => Assert
  end.
(** lin_fe.h:161-222: LinearFELocalLoadVector::Eval.  For a triangle the source
    function is evaluated at (-1,-1) as well; the value is not used. *)
Definition LinearFELoadEval (g : geo) (src : mesh_fun R) : res (list R) :=
  do _ <- lf_assert ((go_dim g =? 2) && (dim_local (go_kind g) =? 2))%nat;
  do mp <- match kind_el (go_kind g) with
           | kTria => Ok [[1 / 2; 0]; [1 / 2; 1 / 2]; [0; 1 / 2]; [-1; -1]]
           | kQuad => Ok [[1 / 2; 0]; [1; 1 / 2]; [1 / 2; 1]; [0; 1 / 2]]
           | _ => Assert
           end;
  do area <- Volume g;
  do fv <- traverse src mp;
  let n := num_nodes (kind_el (go_kind g)) in
  let v := fold_left (fun v k =>
      let v1 := upd k (nth k v 0 + 1 / 2 * nth k fv 0) v in
      let k1 := ((k + 1) mod n)%nat in
      upd k1 (nth k1 v1 0 + 1 / 2 * nth k fv 0) v1) (seq 0 n) (repeat 0 4) in
  Ok (map (fun x => area / INR n * x) v).
