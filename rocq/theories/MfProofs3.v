(** Proofs for C77: given mesh functions; faults; an example. *)
From Coq Require Import List Arith Lia Bool ZArith.
Import ListNotations.
From Verif Require Import Base RefPatModel DofModel GeoModel FeModel MfModel MfSpec MfProofs MfProofs2.

Lemma nth_repeat_some : forall A (x : A) n k, k < n -> nth_error (repeat x n) k = Some x.
Proof. intros A x n. induction n; intros [|k] H; cbn; try lia; [reflexivity|apply IHn; lia]. Qed.
Lemma traverse_values : forall A B (f : A -> res B) g l, (forall x, In x l -> f x = Ok (g x)) -> FeModel.traverse f l = Ok (map g l).
Proof. intros A B f g l. induction l as [|a l IH]; intros H; [reflexivity|]. cbn. rewrite (H a (or_introl eq_refl)). cbn. rewrite IH; [reflexivity|]. intros x Hx. apply H. right. exact Hx. Qed.

Section Leaves.
Variable K : Type.
Variable T : Type.
Variable zero : K.
Lemma same_refl : forall p : pval K T, same K T p p.
Proof. intros [x|a r c f|x]; cbn; auto. Qed.
Lemma constant : forall D v, const_ok K T v -> represents K T zero D (MeshFunctionConstant K T v) (const_type K T v) (fun _ _ => Some (const_val K T zero v)).
Proof.
  intros D v H e pts _ _. eexists. split; [reflexivity|].
  assert (Q : forall k p, nth_error pts k = Some p -> k < length pts) by (intros k p E; apply nth_error_Some; rewrite E; discriminate).
  destruct v as [x|a t m|x]; cbn [has_type vsize const_type const_val]; (split; [|split; [apply repeat_length|]]).
  - exact I.
  - intros k p E. eexists. eexists. split; [reflexivity|]. cbn [value_at]. rewrite nth_repeat_some by exact (Q k p E). split; [reflexivity|apply same_refl].
  - split; [reflexivity|]. split; [reflexivity|]. apply Forall_forall. intros y Hy. apply repeat_spec in Hy. subst y. exact H.
  - intros k p E. eexists. eexists. split; [reflexivity|]. cbn [value_at]. rewrite nth_repeat_some by exact (Q k p E). split; [reflexivity|apply same_refl].
  - exact I.
  - intros k p E. eexists. eexists. split; [reflexivity|]. cbn [value_at]. rewrite nth_repeat_some by exact (Q k p E). split; [reflexivity|apply same_refl].
Qed.
Lemma global : forall (D : ent -> list Reals.Rdefinitions.R -> Prop) dim geom (f : vec -> K) (Phi : ent -> list Reals.Rdefinitions.R -> vec),
  (forall e p, D e p -> length p = dim e /\ Global (geom e) p = Ok (Phi e p)) ->
  represents K T zero D (MeshFunctionGlobal K T dim geom f) TScal (fun e p => Some (PScal K T (f (Phi e p)))).
Proof.
  intros D dim geom f Phi H e pts _ HD. exists (Scals K T (map (fun p => f (Phi e p)) pts)).
  split; [|split; [exact I|split; [apply map_length|]]].
  - unfold MeshFunctionGlobal. replace (forallb (fun x => length x =? dim e) pts) with true.
    + cbn [lf_assert bind]. rewrite (traverse_values _ _ _ (Phi e)); [cbn [bind]; rewrite map_map; reflexivity|]. intros p Hp. apply H, HD, Hp.
    + symmetry. apply forallb_forall. intros p Hp. apply Nat.eqb_eq. apply H, HD, Hp.
  - intros k p E. eexists. eexists. split; [reflexivity|]. cbn [value_at]. rewrite (map_nth_error _ _ _ E). split; [reflexivity|]. reflexivity.
Qed.
End Leaves.

(** The operations of the integers. *)
Notation Zfun := (mesh_function Z Z 0%Z Z.add Z.sub Z.mul Z.opp (fun x => x) Z.add Z.sub Z.mul Z.opp).
Notation Zmeaning := (meaning Z Z 0%Z Z.add Z.sub Z.mul Z.opp (fun x => x) Z.add Z.sub Z.mul Z.opp).
Definition two_by_two (rm : bool) : one_val Z Z := OMat Z Z false (mkEty (Some 2) (Some 2) rm) (mkMat Z 2 2 [1; 2; 3; 4]%Z).
Definition one_point : list (list Reals.Rdefinitions.R) := [[]].

Lemma other_product_empty : forall e, Zfun (fun _ => MeshFunctionConstant Z Z (OOther Z Z 3%Z)) (MMul (MLeaf 0) (MLeaf 0)) e one_point = Ok (Others Z Z []).
Proof. reflexivity. Qed.
Lemma matrix_norm_zero : forall e, Zfun (fun _ => MeshFunctionConstant Z Z (two_by_two false)) (MSquaredNorm (MLeaf 0)) e one_point = Ok (Scals Z Z [0%Z]).
Proof. reflexivity. Qed.
Lemma no_points_undefined : forall e, Zfun (fun _ => MeshFunctionConstant Z Z (two_by_two false)) (MNeg (MLeaf 0)) e [] = Assert.
Proof. reflexivity. Qed.
Lemma row_major_sum : forall e, exists v p, Zfun (fun _ => MeshFunctionConstant Z Z (two_by_two true)) (MAdd (MLeaf 0) (MLeaf 0)) e one_point = Ok v /\
  value_at Z Z 0%Z v 0 = Some (PMat Z Z false 2 2 p) /\ p 0 1 = 6%Z /\
  match const_val Z Z 0%Z (two_by_two true) with PMat _ _ _ _ _ f => f 0 1 = 2%Z | _ => False end.
Proof. intros e. eexists. eexists. split; [reflexivity|]. split; [reflexivity|]. split; reflexivity. Qed.
Lemma row_major_scale : forall e, exists v p, Zfun (fun n => MeshFunctionConstant Z Z (match n with O => OScal Z Z 1%Z | _ => two_by_two true end)) (MMul (MLeaf 0) (MLeaf 1)) e one_point = Ok v /\
  value_at Z Z 0%Z v 0 = Some (PMat Z Z false 2 2 p) /\ p 0 1 = 3%Z.
Proof. intros e. eexists. eexists. split; [reflexivity|]. split; reflexivity. Qed.

(** An expression that meets the hypotheses: |A v|^2 - s with a 2x2 matrix A, a vector v. *)
Definition ex_leaf (n : nat) : one_val Z Z :=
  match n with
  | 0 => two_by_two false
  | 1 => OMat Z Z false (plain_ety (Some 2) (Some 1)) (mkMat Z 2 1 [5; 6]%Z)
  | _ => OScal Z Z 7%Z
  end.
Definition ex_expr : mexpr := MSub (MSquaredNorm (MMul (MLeaf 0) (MLeaf 1))) (MLeaf 2).
Lemma ex_typed : typed (fun n => const_type Z Z (ex_leaf n)) ex_expr TScal.
Proof.
  unfold ex_expr. apply ty_sub_scal.
  - apply (ty_norm_vec _ _ (product_type (plain_ety (Some 2) (Some 2)) (plain_ety (Some 2) (Some 1)))).
    + exact (ty_mul_mat (fun n => const_type Z Z (ex_leaf n)) (MLeaf 0) (MLeaf 1) (mkEty (Some 2) (Some 2) false) _ (ty_leaf (fun n => const_type Z Z (ex_leaf n)) 0) (ty_leaf (fun n => const_type Z Z (ex_leaf n)) 1)).
    + split; discriminate.
    + intros r c E. cbn in E. injection E as <- <-. auto.
  - exact (ty_leaf (fun n => const_type Z Z (ex_leaf n)) 2).
Qed.
Lemma ex_value : forall e p, Zmeaning (fun n _ _ => const_val Z Z 0%Z (ex_leaf n)) ex_expr e p = Some (PScal Z Z 1678%Z).
Proof. reflexivity. Qed.
Lemma ex_leaves : forall D n, represents Z Z 0%Z D (MeshFunctionConstant Z Z (ex_leaf n)) (const_type Z Z (ex_leaf n)) (fun _ _ => Some (const_val Z Z 0%Z (ex_leaf n))).
Proof. intros D n. apply constant. destruct n as [|[|n]]; cbn; unfold mat_ok; cbn; auto. Qed.

(** Not pointwise: the operators miss the meaning of the expression. *)
Definition constants (c : nat -> one_val Z Z) : nat -> mfun Z Z := fun n => MeshFunctionConstant Z Z (c n).
Definition values_of (c : nat -> one_val Z Z) : nat -> ent -> list Reals.Rdefinitions.R -> pval Z Z := fun n _ _ => const_val Z Z 0%Z (c n).
Lemma refute : forall c x e, (exists v, Zfun (constants c) x e one_point = Ok v /\ forall d w, value_at Z Z 0%Z v 0 = Some d -> Zmeaning (values_of c) x e [] = Some w -> ~ same Z Z d w) ->
  forall t, ~ represents Z Z 0%Z (fun _ _ => True) (Zfun (constants c) x) t (Zmeaning (values_of c) x).
Proof.
  intros c x e (v & E & H) t R. destruct (R e one_point) as (v' & E' & _ & _ & Q); [discriminate|auto|]. rewrite E in E'. injection E' as <-.
  destruct (Q 0 [] eq_refl) as (w & d & Ew & Ed & Hs). exact (H d w Ed Ew Hs).
Qed.
Lemma product_of_objects : forall t, ~ represents Z Z 0%Z (fun _ _ => True) (Zfun (constants (fun _ => OOther Z Z 3%Z)) (MMul (MLeaf 0) (MLeaf 0))) t (Zmeaning (values_of (fun _ => OOther Z Z 3%Z)) (MMul (MLeaf 0) (MLeaf 0))).
Proof. apply (refute _ _ (ENode 0)). eexists. split; [reflexivity|]. intros d w E. discriminate E. Qed.
Lemma sum_of_row_major : forall t, ~ represents Z Z 0%Z (fun _ _ => True) (Zfun (constants (fun _ => two_by_two true)) (MAdd (MLeaf 0) (MLeaf 0))) t (Zmeaning (values_of (fun _ => two_by_two true)) (MAdd (MLeaf 0) (MLeaf 0))).
Proof.
  apply (refute _ _ (ENode 0)). eexists. split; [reflexivity|]. intros d w E E'. cbn [value_at nth_error refill] in E. vm_compute in E, E'. injection E as <-. injection E' as <-.
  intros (_ & _ & _ & H). specialize (H 0 1 ltac:(lia) ltac:(lia)). vm_compute in H. discriminate H.
Qed.
Definition scaled (n : nat) : one_val Z Z := match n with O => OScal Z Z 1%Z | _ => two_by_two true end.
Lemma multiple_of_row_major : forall t, ~ represents Z Z 0%Z (fun _ _ => True) (Zfun (constants scaled) (MMul (MLeaf 0) (MLeaf 1))) t (Zmeaning (values_of scaled) (MMul (MLeaf 0) (MLeaf 1))).
Proof.
  apply (refute _ _ (ENode 0)). eexists. split; [reflexivity|]. intros d w E E'. vm_compute in E, E'. injection E as <-. injection E' as <-.
  intros (_ & _ & _ & H). specialize (H 0 1 ltac:(lia) ltac:(lia)). vm_compute in H. discriminate H.
Qed.
