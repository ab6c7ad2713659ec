(** C104: pictures of meshes in TikZ. *)
From Coq Require Import String Ascii List Arith NArith ZArith QArith Bool.
Import ListNotations.
From Verif Require Import Base MeshModel MeshView DofModel AssembleModel.
From Verif Require Import MshModel WriteSpec TikzModel TikzSpec TikzProofs2.
Local Open Scope list_scope.
Local Open Scope nat_scope.

(** For every mesh, selector and combination of flags writeTikZ returns true and writes a picture (with
    WithPreamble: a document with this picture) that can be read, and that shows exactly what is documented
    for the selected entities: cells, edges, nodes, in this order. *)
Theorem C104_picture : forall (m : mesh) (corners : ent -> list point) (selector : ent -> bool) (ctrl : N), proper_corners m corners -> exists text,
  writeTikZ true m corners selector ctrl = (true, text) /\
  shows (f_document (flags_of ctrl)) text (drawing (flags_of ctrl) m corners selector).
Proof. exact tikz_shows. Qed.
Print Assumptions C104_picture.
Example C104_example : proper_corners one_cell one_corners.
Proof. exact one_corners_proper. Qed.
(** Four commands for a triangle, one edge and one node, if cells are drawn with numbers. *)
Example C104_example_drawing :
  length (drawing (flags_of 43) one_cell one_corners (fun e => match e with EEdge 0 | ENode 2 | ECell _ => true | _ => false end)) = 4.
Proof. reflexivity. Qed.

(** If the file cannot be opened, it returns false. *)
Theorem C104_closed : forall m corners selector ctrl, fst (writeTikZ false m corners selector ctrl) = false.
Proof. exact tikz_closed. Qed.
Print Assumptions C104_closed.
(** Flags are combined bit by bit. *)
Theorem C104_or : forall a b k, N.testbit (ctrl_or a b) k = N.testbit a k || N.testbit b k.
Proof. exact tikz_or. Qed.
Print Assumptions C104_or.
Theorem C104_and : forall a b k, N.testbit (ctrl_and a b) k = N.testbit a k && N.testbit b k.
Proof. exact tikz_and. Qed.
Print Assumptions C104_and.
(** Without RenderCells, CellNumbering and VerticeNumbering have no effect. *)
Theorem C104_no_cells : forall o m corners selector ctrl ctrl', f_cells (flags_of ctrl) = false -> f_cells (flags_of ctrl') = false ->
  (forall k, k <> 1%N -> k <> 2%N -> N.testbit ctrl k = N.testbit ctrl' k) -> writeTikZ o m corners selector ctrl = writeTikZ o m corners selector ctrl'.
Proof. exact tikz_no_cells. Qed.
Print Assumptions C104_no_cells.
Example C104_no_cells_example : f_cells (flags_of 56) = false /\ f_cells (flags_of 62) = false /\ forall k, k <> 1%N -> k <> 2%N -> N.testbit 56 k = N.testbit 62 k.
Proof. split; [reflexivity|]. split; [reflexivity|]. intros [|[[[p|p|]|[p|p|]|]|[[p|p|]|[p|p|]|]|]] H1 H2; try reflexivity; congruence. Qed.
(** Without the last argument cells are not numbered, although 7 is documented as its default. *)
Theorem C104_default_refuted : exists m corners, proper_corners m corners /\ writeTikZ_all true m corners default_ctrl <> writeTikZ_all true m corners 7 /\
  ~ In (Number 0) (flat_map (fun f => match f with Text _ _ t => [t] | _ => [] end) (drawing (flags_of default_ctrl) m corners (fun _ => true))) /\
  In (Number 0) (flat_map (fun f => match f with Text _ _ t => [t] | _ => [] end) (drawing (flags_of 7) m corners (fun _ => true))).
Proof. exact default_refuted. Qed.
Print Assumptions C104_default_refuted.
