(** Specification vocabulary for C24-C32. *)
From Coq Require Import List Arith Lia Bool ZArith Reals.
Import ListNotations.
From Verif Require Import Base MeshModel MeshView RefPatModel RefPatSpec RefineModel.
Local Open Scope nat_scope.

(** * The input of a refinement step *)
(** Every triangle has a refinement edge. *)
Definition refedge_ok (m : mesh) (re : list (option nat)) : Prop :=
  length re = length (mv_cells m) /\
  forall i c, nth_error (mv_cells m) i = Some c -> cv_type c = kTria ->
    exists a, nth_error re i = Some (Some a) /\ a < 3.

(** A level that has not been refined, with arbitrary marks. *)
Definition unrefined (L : level) : Prop :=
  let m := l_mesh L in
  l_points L = repeat fresh_pci (mv_nodes m) /\
  l_edges L = repeat fresh_eci (length (mv_edges m)) /\
  l_cells L = repeat fresh_cci (length (mv_cells m)) /\
  length (l_marked L) = length (mv_edges m) /\
  refedge_ok m (l_refedge L).

(** The corners of a cell are pairwise different, and two different cells have at
    most two corners in common. *)
Definition simple_mesh (m : mesh) : Prop :=
  (forall c, In c (mv_cells m) -> NoDup (cv_nodes c)) /\
  (forall i j c d x y z, nth_error (mv_cells m) i = Some c -> nth_error (mv_cells m) j = Some d ->
     In x (cv_nodes c) -> In y (cv_nodes c) -> In z (cv_nodes c) ->
     In x (cv_nodes d) -> In y (cv_nodes d) -> In z (cv_nodes d) ->
     x <> y -> y <> z -> x <> z -> i = j).

(** * Closure of the marking *)
Definition is_marked (L : level) (e : nat) : Prop := nth_error (l_marked L) e = Some true.
(** Edge [e] is flagged as to be split. *)
Definition is_split (L : level) (e : nat) : Prop :=
  exists ci, nth_error (l_edges L) e = Some ci /\ ec_pat ci = rp_split.
Definition is_copied (L : level) (e : nat) : Prop :=
  exists ci, nth_error (l_edges L) e = Some ci /\ ec_pat ci = rp_copy.

(** A set of edges is admissible if with any edge of a triangle it contains the
    refinement edge of that triangle. *)
Definition admissible (L : level) (S : nat -> Prop) : Prop :=
  forall i c a e r, nth_error (mv_cells (l_mesh L)) i = Some c -> cv_type c = kTria ->
    nth_error (l_refedge L) i = Some (Some a) -> nth_error (cv_edges c) a = Some r ->
    In e (cv_edges c) -> S e -> S r.

(** Pattern and anchor of a cell subdivide exactly those of its edges that are split. *)
Definition anchor_nat (a : option nat) : nat := match a with Some k => k | None => 0 end.
Record cell_compatible (L : level) (c : cellv) (ci : cci) : Prop := {
  cm_implemented : implemented (cv_type c) (cc_pat ci) = true;
  cm_not_nil : cc_pat ci <> rp_nil;
  cm_anchor : good_anchor (cv_type c) (cc_pat ci) (cc_anchor ci);
  cm_edges : forall j e, nth_error (cv_edges c) j = Some e ->
     (In j (split_edges (cv_type c) (cc_pat ci) (anchor_nat (cc_anchor ci))) <-> is_split L e)
}.
(** All refinement decisions have been taken, consistently. *)
Record compatible (L : level) : Prop := {
  co_points : l_points L = repeat (mkPci rp_copy None) (mv_nodes (l_mesh L));
  co_nedges : length (l_edges L) = length (mv_edges (l_mesh L));
  co_edges : forall e ci, nth_error (l_edges L) e = Some ci ->
     (ec_pat ci = rp_split \/ ec_pat ci = rp_copy) /\ ec_edges ci = [] /\ ec_points ci = [];
  co_ncells : length (l_cells L) = length (mv_cells (l_mesh L));
  co_cells : forall i c ci, nth_error (mv_cells (l_mesh L)) i = Some c -> nth_error (l_cells L) i = Some ci ->
     cell_compatible L c ci /\ cc_cells ci = [] /\ cc_edges ci = [] /\ cc_points ci = []
}.

(** * Positions of the nodes created in a cell (C24) *)
(** Vertex k of the parent, the new node on its edge k, the new interior node, in
    reference coordinates of the parent. *)
Definition loc (t : refel) (n : lnode) : pt :=
  let c := ref_corners t in
  match n with
  | V k => nth k c (0, 0)%R
  | M k => midpoint (nth k c (0, 0)%R) (nth (S k mod length c) c (0, 0)%R)
  | C => match t with kTria => (1 / 3, 1 / 3)%R | _ => (1 / 2, 1 / 2)%R end
  end.

(** * Relation between two consecutive levels (C28-C31) *)
(** Entities of co-dimension [cd]. *)
Definition entities (m : mesh) (cd : nat) : nat :=
  match cd with 0 => length (mv_cells m) | 1 => length (mv_edges m) | 2 => mv_nodes m | _ => 0 end.
(** The children of co-dimension [d] of entity number [i] of co-dimension [cd], in
    the order in which the hierarchy lists them. *)
Definition children (L : level) (cd i d : nat) : list nat :=
  match cd, d with
  | 2, 2 => match nth_error (l_points L) i with Some (mkPci _ (Some c)) => [c] | _ => [] end
  | 1, 1 => match nth_error (l_edges L) i with Some x => ec_edges x | None => [] end
  | 1, 2 => match nth_error (l_edges L) i with Some x => ec_points x | None => [] end
  | 0, 0 => match nth_error (l_cells L) i with Some x => cc_cells x | None => [] end
  | 0, 1 => match nth_error (l_cells L) i with Some x => cc_edges x | None => [] end
  | 0, 2 => match nth_error (l_cells L) i with Some x => cc_points x | None => [] end
  | _, _ => []
  end.
(** Parent information about the entities of co-dimension [d]. *)
Definition parents (L : level) (d : nat) : list parent :=
  match d with 0 => l_cpar L | 1 => l_epar L | 2 => l_ppar L | _ => [] end.
(** Number of sides of cells that are edge [e]. *)
Definition adjacent (m : mesh) (e : nat) : nat := count_occ Nat.eq_dec (flat_map cv_edges (mv_cells m)) e.

(** [u] is the node of the finer mesh that is called [n] in cell [c], number [i]. *)
Definition stands_for (L : level) (i : nat) (c : cellv) (n : lnode) (u : nat) : Prop :=
  match n with
  | V k => exists v, nth_error (cv_nodes c) k = Some v /\ children L 2 v 2 = [u]
  | M k => exists e, nth_error (cv_edges c) k = Some e /\ children L 1 e 2 = [u]
  | C => children L 0 i 2 = [u]
  end.
(** The mesh [m'] arises from the level [L] by carrying out the refinement that [L]
    prescribes. *)
Record refined_to (L : level) (m' : mesh) : Prop := {
  rf_nodes : forall v, v < mv_nodes (l_mesh L) -> exists u, children L 2 v 2 = [u] /\ u < mv_nodes m';
  rf_copied : forall e a b, nth_error (mv_edges (l_mesh L)) e = Some (a, b) -> is_copied L e ->
     exists f a' b', children L 1 e 1 = [f] /\ children L 1 e 2 = [] /\ children L 2 a 2 = [a'] /\ children L 2 b 2 = [b'] /\
       nth_error (mv_edges m') f = Some (a', b');
  rf_split : forall e a b, nth_error (mv_edges (l_mesh L)) e = Some (a, b) -> is_split L e ->
     exists f g a' b' q, children L 1 e 1 = [f; g] /\ children L 1 e 2 = [q] /\ children L 2 a 2 = [a'] /\ children L 2 b 2 = [b'] /\
       nth_error (mv_edges m') f = Some (a', q) /\ nth_error (mv_edges m') g = Some (q, b') /\ q < mv_nodes m';
  rf_decided : forall e, e < length (mv_edges (l_mesh L)) -> is_copied L e \/ is_split L e;
  rf_cell : forall i c ci, nth_error (mv_cells (l_mesh L)) i = Some c -> nth_error (l_cells L) i = Some ci ->
     exists lc, children_of (cv_type c) (cc_pat ci) (cc_anchor ci) = Ok lc /\
       (lc_centre lc = true -> exists u, children L 0 i 2 = [u] /\ u < mv_nodes m') /\ (lc_centre lc = false -> children L 0 i 2 = []) /\
       Forall2 (fun j l => exists f, nth_error (mv_cells m') j = Some f /\ Forall2 (stands_for L i c) l (cv_nodes f))
               (children L 0 i 0) (lc_cells lc) /\
       Forall2 (fun j l => exists u w, nth_error (mv_edges m') j = Some (u, w) /\ stands_for L i c (fst l) u /\ stands_for L i c (snd l) w)
               (children L 0 i 1) (lc_edges lc);
  rf_counts : length (l_cells L) = length (mv_cells (l_mesh L)) /\ length (l_edges L) = length (mv_edges (l_mesh L));
  rf_compatible : forall i c ci, nth_error (mv_cells (l_mesh L)) i = Some c -> nth_error (l_cells L) i = Some ci -> cell_compatible L c ci
}.
(** Child lists and parent information are inverse to each other, and there is
    exactly one parent for every entity of the finer level. *)
Definition linked (L L' : level) : Prop :=
  forall d, d < 3 ->
    length (parents L' d) = entities (l_mesh L') d /\
    (forall j pa, nth_error (parents L' d) j = Some pa ->
       exists cd i k, pa = mkPar (Some (cd, i)) (Some i) (Some k) /\ cd <= d /\ i < entities (l_mesh L) cd) /\
    (forall cd i k j, nth_error (children L cd i d) k = Some j <->
       nth_error (parents L' d) j = Some (mkPar (Some (cd, i)) (Some i) (Some k))).
(** What PerformRefinement must not change in the level it refines. *)
Definition same_decisions (L L1 : level) : Prop :=
  l_mesh L1 = l_mesh L /\ map pc_pat (l_points L1) = map pc_pat (l_points L) /\ map ec_pat (l_edges L1) = map ec_pat (l_edges L) /\
  map (fun c => (cc_pat c, cc_anchor c)) (l_cells L1) = map (fun c => (cc_pat c, cc_anchor c)) (l_cells L) /\
  l_ppar L1 = l_ppar L /\ l_epar L1 = l_epar L /\ l_cpar L1 = l_cpar L /\ l_refedge L1 = l_refedge L /\ l_marked L1 = l_marked L.

(** The number of children of co-dimension [d] of all cells together. *)
Definition cell_children (L : level) (d : nat) (n : nat) : Prop :=
  exists ks, length ks = length (mv_cells (l_mesh L)) /\ n = list_sum ks /\
    forall i c ci k lat, nth_error (mv_cells (l_mesh L)) i = Some c -> nth_error (l_cells L) i = Some ci -> nth_error ks i = Some k ->
      NumChildren (mkPattern (cv_type c) (cc_pat ci) (cc_anchor ci) lat) d = Ok k.
Definition num_split (L : level) : nat := length (filter (fun x => rp_eqb (ec_pat x) rp_split) (l_edges L)).
Definition num_copied (L : level) : nat := length (filter (fun x => rp_eqb (ec_pat x) rp_copy) (l_edges L)).

(** Triangles and quadrilaterals of a mesh. *)
Definition is_tria (c : cellv) : bool := match cv_type c with kTria => true | _ => false end.
Definition tria_count (m : mesh) : nat := length (filter is_tria (mv_cells m)).
Definition quad_count (m : mesh) : nat := length (filter (fun c => negb (is_tria c)) (mv_cells m)).

(** * Histories of a hierarchy *)
Inductive hop :=
  | Mark (marker : nat -> bool)                               (* MarkEdges *)
  | Regular (longest : nat -> nat) (p : refpat)               (* RefineRegular *)
  | Marked (longest : nat -> nat).                            (* RefineMarked *)
Definition apply_hop (o : hop) (H : hierarchy) : res hierarchy :=
  match o with Mark f => MarkEdges f H | Regular lg p => RefineRegular lg p H | Marked lg => RefineMarked lg H end.
Fixpoint run_hops (os : list hop) (H : hierarchy) : res hierarchy :=
  match os with [] => Ok H | o :: r => do H' <- apply_hop o H; run_hops r H' end.
(** Longest edges are edges of a triangle; uniform refinement is regular or barycentric. *)
Definition good_hop (o : hop) : Prop :=
  match o with Mark _ => True | Regular lg p => (forall i, lg i < 3) /\ (p = rp_regular \/ p = rp_barycentric)
             | Marked lg => forall i, lg i < 3 end.
Definition is_refinement (o : hop) : bool := match o with Mark _ => false | _ => true end.
Definition levels (H : hierarchy) : list level := h_coarser H ++ [h_finest H].
