(** C77: arithmetic of mesh functions is pointwise. *)
From Coq Require Import List Arith Bool ZArith.
Import ListNotations.
From Verif Require Import Base RefPatModel DofModel GeoModel FeModel MfModel MfSpec MfProofs2 MfProofs3.

(** For every expression that is built with the operators from mesh functions, every entity
    and every nonempty list of points where the expression is defined, the result has one
    value per point, and it is the value of the expression at that point.  Partial: for
    expressions that satisfy [typed], which excludes products of objects that are neither
    scalars nor Eigen objects, squared norms of fixed-size matrices that are not vectors, and
    sums, entrywise products and scalar multiples of fixed-size matrices that are not stored in Eigen's default order;
    see the refutations below. *)
Theorem C77_expressions_partial : forall K T zero add sub mul neg cj tadd tsub tmul tneg, (forall x y : K, mul x y = mul y x) ->
  forall D env (F : nat -> ent -> list Reals.Rdefinitions.R -> pval K T) G,
  (forall n, represents K T zero D (env n) (G n) (fun e p => Some (F n e p))) ->
  forall x t, typed G x t -> (forall e p, D e p -> exists w, meaning K T zero add sub mul neg cj tadd tsub tmul tneg F x e p = Some w) ->
  represents K T zero D (mesh_function K T zero add sub mul neg cj tadd tsub tmul tneg env x) t (meaning K T zero add sub mul neg cj tadd tsub tmul tneg F x).
Proof. exact expressions. Qed.
Print Assumptions C77_expressions_partial.
(** Constants. *)
Theorem C77_constant : forall K T zero D v, const_ok K T v -> represents K T zero D (MeshFunctionConstant K T v) (const_type K T v) (fun _ _ => Some (const_val K T zero v)).
Proof. exact constant. Qed.
Print Assumptions C77_constant.
(** Functions of global coordinates. *)
Theorem C77_global : forall K T zero (D : ent -> list Reals.Rdefinitions.R -> Prop) dim geom (f : vec -> K) (Phi : ent -> list Reals.Rdefinitions.R -> vec),
  (forall e p, D e p -> length p = dim e /\ Global (geom e) p = Ok (Phi e p)) ->
  represents K T zero D (MeshFunctionGlobal K T dim geom f) TScal (fun e p => Some (PScal K T (f (Phi e p)))).
Proof. exact global. Qed.
Print Assumptions C77_global.
(** The product of objects that are neither scalars nor Eigen objects has no values. *)
Theorem C77_objects_refuted : exists c x, (forall n, const_ok Z Z (c n)) /\ (forall e p, exists w, Zmeaning (values_of c) x e p = Some w) /\
  (forall e, Zfun (constants c) x e one_point = Ok (Others Z Z [])) /\
  forall t, ~ represents Z Z 0%Z (fun _ _ => True) (Zfun (constants c) x) t (Zmeaning (values_of c) x).
Proof.
  exists (fun _ => OOther Z Z 3%Z), (MMul (MLeaf 0) (MLeaf 0)). split; [exact (fun _ => I)|]. split; [intros; eexists; reflexivity|].
  split; [exact other_product_empty|exact product_of_objects].
Qed.
Print Assumptions C77_objects_refuted.
(** The sum of fixed-size row-major matrices is wrong, and so is the product with a scalar. *)
Theorem C77_row_major_refuted : exists c, (forall n, const_ok Z Z (c n)) /\
  (forall e p, exists w, Zmeaning (values_of c) (MAdd (MLeaf 1) (MLeaf 1)) e p = Some w) /\
  (forall t, ~ represents Z Z 0%Z (fun _ _ => True) (Zfun (constants c) (MAdd (MLeaf 1) (MLeaf 1))) t (Zmeaning (values_of c) (MAdd (MLeaf 1) (MLeaf 1)))) /\
  (forall e p, exists w, Zmeaning (values_of c) (MMul (MLeaf 0) (MLeaf 1)) e p = Some w) /\
  (forall t, ~ represents Z Z 0%Z (fun _ _ => True) (Zfun (constants c) (MMul (MLeaf 0) (MLeaf 1))) t (Zmeaning (values_of c) (MMul (MLeaf 0) (MLeaf 1)))).
Proof.
  exists scaled. split; [intros [|n]; cbn; unfold mat_ok; cbn; auto|]. split; [intros; eexists; reflexivity|]. split; [exact sum_of_row_major|].
  split; [intros; eexists; reflexivity|exact multiple_of_row_major].
Qed.
Print Assumptions C77_row_major_refuted.
(** The squared norm of a fixed-size matrix that is not a vector is accepted and is zero. *)
Theorem C77_matrix_norm_refuted : exists c, const_ok Z Z c /\ (exists r k f, const_val Z Z 0%Z c = PMat Z Z false r k f /\ 1 < r /\ 1 < k /\ f 0 0 <> 0%Z) /\
  forall e, Zfun (constants (fun _ => c)) (MSquaredNorm (MLeaf 0)) e one_point = Ok (Scals Z Z [0%Z]).
Proof.
  exists (two_by_two false). split; [cbn; unfold mat_ok; cbn; auto|]. split; [|exact matrix_norm_zero].
  exists 2, 2. eexists. split; [reflexivity|]. split; [auto|]. split; [auto|]. discriminate.
Qed.
Print Assumptions C77_matrix_norm_refuted.
(** Without points the operators on fixed-size matrices read outside of an empty vector. *)
Theorem C77_no_points_refuted : exists c, const_ok Z Z c /\ (forall e, constants (fun _ => c) 0 e [] = Ok (Mats Z Z false (plain_ety (Some 2) (Some 2)) [])) /\
  forall e, Zfun (constants (fun _ => c)) (MNeg (MLeaf 0)) e [] = Assert.
Proof. exists (two_by_two false). split; [cbn; unfold mat_ok; cbn; auto|]. split; [reflexivity|exact no_points_undefined]. Qed.
Print Assumptions C77_no_points_refuted.
(** An expression that meets the hypotheses: |A v|^2 - s. *)
Example C77_example : typed (fun n => const_type Z Z (ex_leaf n)) ex_expr TScal /\
  (forall D n, represents Z Z 0%Z D (MeshFunctionConstant Z Z (ex_leaf n)) (const_type Z Z (ex_leaf n)) (fun _ _ => Some (const_val Z Z 0%Z (ex_leaf n)))) /\
  (forall e p, Zmeaning (fun n _ _ => const_val Z Z 0%Z (ex_leaf n)) ex_expr e p = Some (PScal Z Z 1678%Z)) /\
  (forall e, Zfun (constants ex_leaf) ex_expr e one_point = Ok (Scals Z Z [1678%Z])).
Proof. split; [exact ex_typed|]. split; [exact ex_leaves|]. split; [exact ex_value|reflexivity]. Qed.
