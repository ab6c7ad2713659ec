(** Examples and findings for the writers of text files. *)
From Coq Require Import String Ascii List Arith NArith ZArith QArith Qabs Bool Lia.
Import ListNotations.
From Verif Require Import Base MeshView MshModel MshSpec MshProofs RefineModel WriteModel WriteSpec WriteProofs WriteProofs2 WriteProofs3 WriteProofs4 WriteProofs5 WriteProofs6.
Local Open Scope list_scope.
Local Open Scope nat_scope.

Lemma matlab_ok : forall m xy filename f, Forall tri_or_quad (mv_cells m) -> matlab_name filename f ->
  exists text out, writeMatlab m xy filename = Ok (f ++ str ".m", text) /\ run text = Some (f, out) /\ matlab_mesh m xy out.
Proof.
  intros m xy filename f Hm Hn. destruct (writeMatlab_runs m xy filename f Hm Hn) as (t & x & y & W & R & X & Y).
  exists t. eexists. split; [exact W|]. split; [exact R|]. exists x, y. split; [reflexivity|]. split; assumption.
Qed.
Lemma hierarchy_ok : forall H xy base, identifier base ->
  Forall (fun L => filled_level L /\ Forall tri_or_quad (mv_cells (l_mesh L))) (h_coarser H ++ [h_finest H]) ->
  exists fs, WriteMatlab H xy base = Ok fs /\ NoDup (map fst fs) /\ length fs = 2 * length (h_coarser H ++ [h_finest H]) /\
    forall k L, nth_error (h_coarser H ++ [h_finest H]) k = Some L -> exists t1 t2 out,
      nth_error fs (2 * k) = Some (base ++ str "_L" ++ show k ++ str ".m", t1) /\
      nth_error fs (2 * k + 1) = Some (base ++ str "_L" ++ show k ++ str "_pi.m", t2) /\
      run t1 = Some (base ++ str "_L" ++ show k, out) /\ matlab_mesh (l_mesh L) (xy k) out /\
      run t2 = Some (base ++ str "_L" ++ show k ++ str "_pi", matlab_parents L).
Proof.
  intros H xy base Hb HF. destruct (levels_run xy base _ 0 Hb HF) as (fs & E & Hm & Hf). exists fs. split; [exact E|]. split; [rewrite Hm; apply level_names_nodup|]. split.
  - rewrite <- (map_length fst fs), Hm.
    assert (K : forall n k, length (flat_map (fun i => [level_name base i ++ str ".m"; level_name base i ++ str "_pi.m"]) (seq k n)) = 2 * n).
    { induction n as [|n IH]; intro k; [reflexivity|]. cbn [seq flat_map app length]. rewrite IH. lia. }
    apply K.
  - intros k L HL. destruct (Hf k L HL) as (t1 & t2 & out & A & B & C & D & F). exists t1, t2, out. cbn [Nat.add] in *.
    unfold level_name in *. rewrite <- !app_assoc in A, B, F. split; [exact A|]. split; [exact B|]. split; [exact C|]. split; [exact D|exact F].
Qed.

(** A triangle and a quadrilateral. *)
Definition two_cells := mkMeshV 5 [(0, 1); (1, 2); (2, 0); (1, 3); (3, 4); (4, 2)]
  [mkCellv [0; 1; 2] [0; 1; 2] [true; true; true]; mkCellv [1; 3; 4; 2] [3; 4; 5; 1] [true; true; true; false]].
Lemma two_cells_good : Forall good_cell (mv_cells two_cells).
Proof. constructor; [split; [left; reflexivity|reflexivity]|]. constructor; [split; [right; reflexivity|reflexivity]|]. constructor. Qed.
Lemma two_cells_shapes : Forall tri_or_quad (mv_cells two_cells).
Proof. eapply Forall_impl; [|exact two_cells_good]. intros c H. apply H. Qed.
Lemma mesh_name : matlab_name (str "mesh") (str "mesh") /\ matlab_name (str "team.m") (str "team").
Proof.
  split; split; try ident.
  - right. split; [reflexivity|]. split; [cbn; lia|]. discriminate.
  - left. reflexivity.
Qed.
(** A level with parents. *)
Definition a_level : level := mkLevel two_cells (repeat fresh_pci 5) (repeat fresh_eci 6) (repeat fresh_cci 2)
  [mkPar (Some (2, 0)) (Some 0) (Some 0); no_parent; no_parent; no_parent; no_parent] (repeat no_parent 6) [mkPar (Some (0, 3)) (Some 3) (Some 1); no_parent] [Some 2; None] (repeat false 6).
Lemma a_level_filled : filled_level a_level.
Proof. unfold filled_level. cbn. repeat split; try lia; repeat constructor; cbn; lia. Qed.

Lemma names_refuted : exists filename xy, identifier filename /\ 2 <= length filename /\
  (exists text out, writeMatlab two_cells xy filename = Ok (filename, text) /\ run text = Some (firstn 2 filename, out)) /\
  exists c, identifier [c] /\ writeMatlab two_cells xy [c] = Assert.
Proof.
  exists (str "team"), (fun _ => (0%Q, 0%Q)). split; [ident|]. split; [cbn; lia|]. split.
  - eexists. eexists. split; [reflexivity|]. vm_compute. reflexivity.
  - exists "Q"%char. split; [exists "Q"%char, []; repeat split; constructor|reflexivity].
Qed.
Lemma directory_refuted : exists m xy filename text, Forall tri_or_quad (mv_cells m) /\ writeMatlab m xy filename = Ok (filename, text) /\ run text = None.
Proof.
  exists two_cells, (fun _ => (0%Q, 0%Q)), (str "out/mesh.m"). eexists. split; [exact two_cells_shapes|]. split; [reflexivity|]. vm_compute. reflexivity.
Qed.
Lemma precision_refuted : exists m xy xy' filename r, Forall tri_or_quad (mv_cells m) /\ ~ (fst (xy O) == fst (xy' O))%Q /\ (fst (xy O) == fst (xy' 1%nat))%Q /\
  writeMatlab m xy filename = Ok r /\ writeMatlab m xy' filename = Ok r.
Proof.
  exists two_cells, (fun _ => (1%Q, 0%Q)), (fun i => ((if i =? 0 then 1000001 # 1000000 else 1)%Q, 0%Q)), (str "mesh"). eexists. split; [exact two_cells_shapes|].
  split; [discriminate|]. split; [reflexivity|]. split; [vm_compute; reflexivity|vm_compute; reflexivity].
Qed.
Lemma short_refuted : exists m xy filename, Forall good_cell (mv_cells m) /\ filename <> [] /\ writeMatplotlib m xy filename = Throw.
Proof. exists two_cells, (fun _ => (0%Q, 0%Q)), (str "abc"). split; [exact two_cells_good|]. split; [discriminate|reflexivity]. Qed.
