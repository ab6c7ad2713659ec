(** C78: mesh data sets are maps from the entities of a mesh to values. *)
From Coq Require Import List Arith Bool.
Import ListNotations.
From Verif Require Import Base MeshModel MeshView PropMeshView DofModel DofSpec TransferModel DataModel DataSpec DataProofs.

(** A data set for the entities of one co-dimension is defined on just these entities, after
    any history of assignments; reading gives the value assigned last, or the initial value,
    and another value can be assigned; on other entities both fail. *)
Theorem C78_codim : forall A m codim (init : A) d0, CodimMeshDataSet A m codim init = Ok d0 -> forall h d, reached (cd_set A) d0 h d ->
  (forall e, cd_DefinedOn A d e = true <-> ent_codim (h_ent e) = codim /\ belongs m e) /\
  (forall e, cd_DefinedOn A d e = true -> exists x, cd_get A d e = Ok x /\ latest init e h x /\ forall y, exists d', cd_set A d e y = Ok d') /\
  (forall e, cd_DefinedOn A d e = false -> cd_get A d e = Assert /\ forall y, cd_set A d e y = Assert).
Proof. exact codim_history. Qed.
Print Assumptions C78_codim.
(** It exists for the co-dimensions 0, 1, 2; others are rejected with an exception. *)
Theorem C78_codim_new : forall A m codim (init : A), (codim <= 2 -> exists d, CodimMeshDataSet A m codim init = Ok d) /\ (2 < codim -> CodimMeshDataSet A m codim init = Throw).
Proof. exact codim_new. Qed.
Print Assumptions C78_codim_new.
(** A data set for all entities. *)
Theorem C78_all : forall A m (init : A) d0, AllCodimMeshDataSet A m init = Ok d0 -> forall h d, reached (ad_set A) d0 h d ->
  (forall e, ad_DefinedOn A d e = true <-> belongs m e) /\
  (forall e, ad_DefinedOn A d e = true -> exists x, ad_get A d e = Ok x /\ latest init e h x /\ forall y, exists d', ad_set A d e y = Ok d') /\
  (forall e, ad_DefinedOn A d e = false -> ad_get A d e = Assert /\ forall y, ad_set A d e y = Assert).
Proof. exact all_history. Qed.
Print Assumptions C78_all.
Theorem C78_all_new : forall A m (init : A), exists d, AllCodimMeshDataSet A m init = Ok d.
Proof. exact all_new. Qed.
Print Assumptions C78_all_new.
(** On a mesh with two cells: two edges are written, one of them twice. *)
Example C78_example : let e i := mkHandle 7 (EEdge i) in exists d0 d, CodimMeshDataSet nat (mkMeshRef 7 example_mesh) 1 5 = Ok d0 /\
  reached (cd_set nat) d0 [(e 2, 30); (e 0, 20); (e 2, 10)] d /\
  cd_get nat d (e 0) = Ok 20 /\ cd_get nat d (e 1) = Ok 5 /\ cd_get nat d (e 2) = Ok 30 /\
  cd_get nat d (mkHandle 8 (EEdge 0)) = Assert /\ cd_get nat d (mkHandle 7 (ENode 0)) = Assert.
Proof.
  intros e. eexists. eexists. split; [reflexivity|]. split.
  - eapply re_set; [eapply re_set; [eapply re_set; [apply re_start|]|]|]; reflexivity.
  - vm_compute. auto 6.
Qed.
