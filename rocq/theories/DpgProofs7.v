(** Concrete cases of the hypotheses of C82-C84. *)
From Coq Require Import List Arith Bool Lia Reals Lra ZArith.
Import ListNotations.
From Verif Require Import Base Scalars MeshModel MeshView DofModel DofSpec DofProofs4 FeModel AssembleModel AssembleSpec AssembleProofs AssembleProofs2 DpgModel DpgSpec DpgProofs DpgProofs2 DpgProofs3 DpgProofs4 DpgProofs5 PropMeshView PropDof.
Local Open Scope nat_scope.

Definition ex_u : list dof_map := [[(kPoint, 1)]; [(kSegment, 2)]].
Definition ex_v : list dof_map := [[(kPoint, 1); (kTria, 1)]].
Lemma ex_product : exists p, product example_mesh ex_u = Ok p /\ NumDofs (p_handler p) = 17 /\
  GlobalDofIndices (p_handler p) (ECell 0) = Ok [0; 1; 2; 7; 8; 11; 12; 9; 10] /\
  p_LocalStartIndex p (ECell 0) 1 = Ok 3 /\ p_Component p 6 = Ok 1 /\ Entity (p_handler p) 6 = Ok (EEdge 0).
Proof. eexists. split; [vm_compute; reflexivity|]. vm_compute. repeat split. Qed.

Definition ex_sizes (e : ent) : nat := match e with ECell 0 => 3 | ECell 1 => 4 | _ => 0 end.
(** A sub-provider for components 1 (edges) and 0 (nodes, triangles), active on the triangle only. *)
Definition ex_sub : sub_mat Zring :=
  mkSubMat Zring (fun e => match e with ECell 0 => true | _ => false end) 1 0 (fun _ => Ok (mkDense Zring 4 6 (fun i j => Z.of_nat (i + 10 * j)))).
Definition ex_sub2 : sub_mat Zring :=
  mkSubMat Zring (fun _ => true) 0 0 (fun e => match e with ECell 0 => Ok (mkDense Zring 4 3 (fun i j => 1%Z)) | _ => Ok (mkDense Zring 4 4 (fun i j => 2%Z)) end).
Definition ex_sv : sub_vec Zring :=
  mkSubVec Zring (fun _ => true) 0 (fun e => match e with ECell 0 => Ok [1; 2; 3; 4]%Z | _ => Ok [5; 6; 7; 8]%Z end).
Lemma ex_fits : exists trial test, product example_mesh ex_u = Ok trial /\ product example_mesh ex_v = Ok test /\
  Forall (fits Zring example_mesh trial test) [ex_sub; ex_sub2] /\ Forall (fits_vec Zring example_mesh test) [ex_sv] /\
  entities example_mesh 0 = [ECell 0; ECell 1].
Proof.
  eexists. eexists. split; [vm_compute; reflexivity|]. split; [vm_compute; reflexivity|]. split; [|split].
  - repeat constructor; cbn [sm_active sm_trial sm_test sm_eval ex_sub ex_sub2]; try (eexists; vm_compute; reflexivity).
    + intros cell [<-|[<-|[]]] A; try discriminate. eexists. split; [reflexivity|]. split; vm_compute; reflexivity.
    + intros cell [<-|[<-|[]]] A; eexists; (split; [reflexivity|]); split; vm_compute; reflexivity.
  - repeat constructor; cbn [sv_active sv_test sv_eval ex_sv]; try (eexists; vm_compute; reflexivity).
    intros cell [<-|[<-|[]]] A; eexists; (split; [reflexivity|]); vm_compute; reflexivity.
  - vm_compute. reflexivity.
Qed.

Local Open Scope R_scope.
Lemma spd_diag : forall n d, 0 < d -> spd n (fun i j => if (i =? j)%nat then d else 0).
Proof.
  intros n d Hd. split.
  - intros i j _ _. now rewrite Nat.eqb_sym.
  - intros x (i & Hi & Nz). rewrite form_def.
    rewrite (rs_ext n _ (fun i => d * (x i * x i))).
    + rewrite rs_mul. apply Rmult_lt_0_compat; auto.
      assert (P : forall k, 0 <= Rsum k (fun i => x i * x i)).
      { induction k; [cbn; lra|]. rewrite (sumn_S Rring). cbn. pose proof (Rle_0_sqr (x k)) as Q. unfold Rsqr in Q. lra. }
      assert (Q : forall k, (i < k)%nat -> x i * x i <= Rsum k (fun i => x i * x i)).
      { induction k as [|k IH]; [lia|]. intros Hk. rewrite (sumn_S Rring). cbn [kadd Rring].
        destruct (Nat.eq_dec i k) as [->|]; [pose proof (P k); lra|]. specialize (IH ltac:(lia)).
        pose proof (Rle_0_sqr (x k)) as Y. unfold Rsqr in Y. lra. }
      specialize (Q n Hi). pose proof (Rsqr_pos_lt (x i) Nz) as Y. unfold Rsqr in Y. lra.
    + intros j Hj. rewrite (sumn_single Rring n j) by (auto; intros a Ha Na; replace (j =? a)%nat with false by (symmetry; apply Nat.eqb_neq; auto); cbn; ring).
      rewrite Nat.eqb_refl. cbn. ring.
Qed.
Definition ex_stiff (e : ent) : res (dense Rring) := Ok (mkDense Rring 5 (ex_sizes e) (fun i j => INR (i + j))).
Definition ex_gram (e : ent) : res (dense Rring) := Ok (mkDense Rring 5 5 (fun i j => if (i =? j)%nat then 2 else 0)).
Definition ex_load (e : ent) : res (list R) := Ok [1; 2; 3; 4; 5].
Lemma ex_dpg : exists trial, product example_mesh [[(kPoint, 1%nat)]] = Ok trial /\
  serves (p_handler trial) (entities example_mesh 0) (dofs_of (p_handler trial)) /\
  dpg_data example_mesh (p_handler trial) ex_stiff ex_gram ex_load.
Proof.
  destruct (product_ok example_mesh [[(kPoint, 1%nat)]] example_wf ltac:(discriminate)) as [p Hp].
  exists p. split; auto. split; [exact (product_serves example_mesh _ p example_wf Hp 0)|].
  vm_compute in Hp. injection Hp as <-.
  intros cell He. do 3 eexists. split; [reflexivity|]. split; [reflexivity|]. split; [reflexivity|]. cbn [d_rows d_cols d_coef length].
  split; auto. split; auto. split; auto. split; [|apply spd_diag; lra].
  destruct He as [<-|[<-|[]]]; vm_compute; reflexivity.
Qed.
