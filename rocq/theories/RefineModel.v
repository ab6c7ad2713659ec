(** Model of lf::refinement::MeshHierarchy: adaptive and uniform refinement of
    a hybrid 2D mesh (lib/lf/refinement/mesh_hierarchy.h, .cc).  Topology only:
    meshes are seen through their public interface (MeshView), geometries are
    reduced to "supplied" as in MeshModel. *)
From Coq Require Import List Arith Lia Bool ZArith.
Import ListNotations.
From Verif Require Import Base MeshModel MeshView RefPatModel.
Local Open Scope nat_scope.

(** Access to an element of a vector; out of range is undefined behaviour. *)
Definition get {A} (l : list A) (i : nat) : res A :=
  match nth_error l i with Some x => Ok x | None => Assert end.
Fixpoint mapM {A B} (f : A -> res B) (l : list A) : res (list B) :=
  match l with
  | [] => Ok []
  | x :: r => do y <- f x; do ys <- mapM f r; Ok (y :: ys)
  end.
Definition rp_eqb (p q : refpat) : bool :=
  match p, q with
  | rp_nil, rp_nil | rp_copy, rp_copy | rp_split, rp_split | rp_bisect, rp_bisect
  | rp_trisect, rp_trisect | rp_trisect_left, rp_trisect_left | rp_quadsect, rp_quadsect
  | rp_threeedge, rp_threeedge | rp_regular, rp_regular | rp_barycentric, rp_barycentric => true
  | _, _ => false
  end.

(** * Data members *)
(** mesh_hierarchy.h:26-33 (PointChildInfo); None = idx_nil. *)
Record pci := mkPci { pc_pat : refpat; pc_child : option nat }.
(** mesh_hierarchy.h:49-57 (EdgeChildInfo). *)
Record eci := mkEci { ec_pat : refpat; ec_edges : list nat; ec_points : list nat }.
(** mesh_hierarchy.h:72-79 (CellChildInfo). *)
Record cci := mkCci { cc_pat : refpat; cc_anchor : option nat;
                      cc_cells : list nat; cc_edges : list nat; cc_points : list nat }.
(** mesh_hierarchy.h:87-98 (ParentInfo) without rel_ref_geo_; the pointer to the
    parent entity is its co-dimension and its index in the coarser mesh. *)
Record parent := mkPar { pa_ptr : option (nat * nat); pa_index : option nat; pa_num : option nat }.
Definition no_parent := mkPar None None None.

(** What MeshHierarchy stores for one level (mesh_hierarchy.h:422-436: the vectors
    meshes_, point_child_infos_, edge_child_infos_, cell_child_infos_, parent_infos_,
    edge_marked_, refinement_edges_). *)
Record level := mkLevel {
  l_mesh : mesh;
  l_points : list pci; l_edges : list eci; l_cells : list cci;
  l_ppar : list parent; l_epar : list parent; l_cpar : list parent;
  l_refedge : list (option nat);
  l_marked : list bool
}.
Definition fresh_pci := mkPci rp_nil None.
Definition fresh_eci := mkEci rp_nil [] [].
Definition fresh_cci := mkCci rp_nil None [] [] [].

(** mesh_hierarchy.cc:47-69 and 1240-1264: a level that has not been refined yet. *)
Definition new_level (m : mesh) (ppar epar cpar : list parent) (refedge : list (option nat)) : level :=
  mkLevel m (repeat fresh_pci (mv_nodes m)) (repeat fresh_eci (length (mv_edges m)))
          (repeat fresh_cci (length (mv_cells m))) ppar epar cpar refedge
          (repeat false (length (mv_edges m))).

(** mesh_hierarchy.cc:1839-1858 (LongestEdge): [lens] are the lengths of the edges
    (integration element at the midpoint), compared by [ltb]. *)
Fixpoint longest_loop {L} (ltb : L -> L -> bool) (lens : list L) (k best : nat) (mx : L) : nat :=
  match lens with
  | [] => best
  | x :: r => if ltb mx x then longest_loop ltb r (S k) k x else longest_loop ltb r (S k) best mx
  end.
Definition LongestEdge {L} (ltb : L -> L -> bool) (zero : L) (lens : list L) : nat :=
  longest_loop ltb lens 0 0 zero.

(** mesh_hierarchy.cc:34-70 (constructor), refinement edges of the base mesh.  The
    lengths of edges are not part of the model: [longest c] stands for LongestEdge
    of cell [c]. *)
Definition base_level (longest : nat -> nat) (m : mesh) : level :=
  new_level m (repeat no_parent (mv_nodes m)) (repeat no_parent (length (mv_edges m)))
    (repeat no_parent (length (mv_cells m)))
    (map (fun i => match cv_type (nth i (mv_cells m) (mkCellv [] [] [])) with
                   | kTria => Some (longest i) | _ => None end)
         (seq 0 (length (mv_cells m)))).

(** * RefineMarked: closure of the marking *)

(** mesh_hierarchy.cc:140-154: initial patterns of edges. *)
Fixpoint init_edges (marked : list bool) (es : list eci) : res (list eci) :=
  match es, marked with
  | [], _ => Ok []
  | e :: r, b :: bs =>
      do _ <- verify (rp_eqb (ec_pat e) rp_nil);
      do r' <- init_edges bs r;
      Ok (mkEci (if b then rp_split else rp_copy) (ec_edges e) (ec_points e) :: r')
  | _, [] => Assert
  end.

(** mesh_hierarchy.cc:176-193: edge_split. *)
Definition edge_split (es : list eci) (c : cellv) : res (list bool) :=
  mapM (fun e => do ci <- get es e; Ok (rp_eqb (ec_pat ci) rp_split)) (cv_edges c).
(** mesh_hierarchy.cc:188-191: split_edge_idx and split_edge_cnt. *)
Definition split_idx (fl : list bool) : list nat :=
  filter (fun k => nth k fl false) (seq 0 (length fl)).

Definition set_pat (p : refpat) (a : option nat) (ci : cci) : cci :=
  mkCci p a (cc_cells ci) (cc_edges ci) (cc_points ci).
(** mesh_hierarchy.cc:246-247 etc.: finest_edge_ci[..].ref_pat_ = rp_split. *)
Definition set_split (e : nat) (es : list eci) : res (list eci) :=
  do ci <- get es e;
  Ok (upd e (mkEci rp_split (ec_edges ci) (ec_points ci)) es).

(** mesh_hierarchy.cc:195-283: a triangle with refinement edge [re]; the third
    component is false iff refinement_complete is set to false. *)
Definition visit_tria (c : cellv) (re : option nat) (fl : list bool) (es : list eci) (ci : cci)
  : res (list eci * cci * bool) :=
  match re with
  | None => Throw
  | Some a =>
      do _ <- verify (a <? 3);
      let s k := nth ((a + k) mod 3) fl false in
      let cnt := length (split_idx fl) in
      let set p := set_pat p (Some a) ci in
      match s 0, s 1, s 2 with
      | false, false, false => do _ <- verify (cnt =? 0); Ok (es, set rp_copy, true)
      | true, false, false => do _ <- verify (cnt =? 1); Ok (es, set rp_bisect, true)
      | true, true, false => do _ <- verify (cnt =? 2); Ok (es, set rp_trisect, true)
      | false, true, false => do _ <- verify (cnt =? 1);
          do es' <- set_split (nth a (cv_edges c) 0) es; Ok (es', set rp_trisect, false)
      | true, false, true => do _ <- verify (cnt =? 2); Ok (es, set rp_trisect_left, true)
      | false, false, true => do _ <- verify (cnt =? 1);
          do es' <- set_split (nth a (cv_edges c) 0) es; Ok (es', set rp_trisect_left, false)
      | true, true, true => do _ <- verify (cnt =? 3); Ok (es, set rp_regular, true)
      | false, true, true => do _ <- verify (cnt =? 2);
          do es' <- set_split (nth a (cv_edges c) 0) es; Ok (es', set rp_quadsect, false)
      end
  end.

(** mesh_hierarchy.cc:284-351: a quadrilateral. *)
Definition visit_quad (fl : list bool) (ci : cci) : res cci :=
  match split_idx fl with
  | [] => Ok (set_pat rp_copy (cc_anchor ci) ci)
  | [i] => Ok (set_pat rp_trisect (Some i) ci)
  | [i; j] =>
      if j - i =? 2 then Ok (set_pat rp_bisect (Some i) ci)
      else if (i + 1) mod 4 =? j then Ok (set_pat rp_quadsect (Some i) ci)
      else if (j + 1) mod 4 =? i then Ok (set_pat rp_quadsect (Some j) ci)
      else Throw
  | [_; _; _] =>
      if negb (nth 0 fl false) then Ok (set_pat rp_threeedge (Some 2) ci)
      else if negb (nth 1 fl false) then Ok (set_pat rp_threeedge (Some 3) ci)
      else if negb (nth 2 fl false) then Ok (set_pat rp_threeedge (Some 0) ci)
      else if negb (nth 3 fl false) then Ok (set_pat rp_threeedge (Some 1) ci)
      else Throw
  | [_; _; _; _] => Ok (set_pat rp_regular (cc_anchor ci) ci)
  | _ => Throw
  end.

(** mesh_hierarchy.cc:164-357: the visit of one cell. *)
Definition visit (c : cellv) (re : option nat) (es : list eci) (ci : cci)
  : res (list eci * cci * bool) :=
  do fl <- edge_split es c;
  match cv_type c with
  | kTria => visit_tria c re fl es ci
  | _ => do ci' <- visit_quad fl ci; Ok (es, ci', true)
  end.

(** mesh_hierarchy.cc:163-358: one pass over all cells. *)
Fixpoint pass (cs : list cellv) (re : list (option nat)) (es : list eci) (cis : list cci)
  : res (list eci * list cci * bool) :=
  match cs, re, cis with
  | [], _, _ => Ok (es, [], true)
  | c :: cs', a :: re', ci :: cis' =>
      do x <- visit c a es ci;
      let '(es1, ci1, b1) := x in
      do y <- pass cs' re' es1 cis';
      let '(es2, cis2, b2) := y in
      Ok (es2, ci1 :: cis2, b1 && b2)
  | _, _, _ => Assert
  end.

(** mesh_hierarchy.cc:160-359: do ... while (!refinement_complete), cut off
    after [fuel] passes (None). *)
Fixpoint closure (fuel : nat) (cs : list cellv) (re : list (option nat)) (es : list eci) (cis : list cci)
  : option (res (list eci * list cci)) :=
  match fuel with
  | 0 => None
  | S fuel' =>
      match pass cs re es cis with
      | Ok (es', cis', true) => Some (Ok (es', cis'))
      | Ok (es', cis', false) => closure fuel' cs re es' cis'
      | Throw => Some Throw
      | Assert => Some Assert
      end
  end.

(** mesh_hierarchy.cc:125-138 and 79-94: the size checks, and the pattern of the points. *)
Definition check_sizes (L : level) : res unit :=
  do _ <- verify (length (l_points L) =? mv_nodes (l_mesh L));
  do _ <- verify (length (l_edges L) =? length (mv_edges (l_mesh L)));
  verify (length (l_cells L) =? length (mv_cells (l_mesh L))).
Definition copy_all (ps : list pci) : list pci := map (fun p => mkPci rp_copy (pc_child p)) ps.

(** mesh_hierarchy.cc:116-359: RefineMarked up to the call of PerformRefinement. *)
Definition mark_closure (fuel : nat) (L : level) : option (res level) :=
  match (do _ <- check_sizes L; init_edges (l_marked L) (l_edges L)) with
  | Ok es =>
      match closure fuel (mv_cells (l_mesh L)) (l_refedge L) es (l_cells L) with
      | Some (Ok (es', cis')) =>
          Some (Ok (mkLevel (l_mesh L) (copy_all (l_points L)) es' cis' (l_ppar L) (l_epar L) (l_cpar L)
                            (l_refedge L) (l_marked L)))
      | Some Throw => Some Throw
      | Some Assert => Some Assert
      | None => None
      end
  | Throw => Some Throw
  | Assert => Some Assert
  end.

(** mesh_hierarchy.cc:72-108: RefineRegular up to the call of PerformRefinement. *)
Definition flag_uniform (p : refpat) (L : level) : res level :=
  do _ <- verify (rp_eqb p rp_regular || rp_eqb p rp_barycentric);
  do _ <- check_sizes L;
  Ok (mkLevel (l_mesh L) (copy_all (l_points L))
        (map (fun e => mkEci rp_split (ec_edges e) (ec_points e)) (l_edges L))
        (map (fun ci => set_pat p (cc_anchor ci) ci) (l_cells L))
        (l_ppar L) (l_epar L) (l_cpar L) (l_refedge L) (l_marked L)).

(** * PerformRefinement *)

(** mesh_hierarchy.cc:393-411: children of points. *)
Fixpoint copy_nodes (ps : list pci) (f : factory) : res (list pci * factory) :=
  match ps with
  | [] => Ok ([], f)
  | p :: r =>
      if rp_eqb (pc_pat p) rp_nil
      then do x <- copy_nodes r f; Ok (p :: fst x, snd x)
      else do i <- add_point true f;
           do x <- copy_nodes r (snd i);
           Ok (mkPci (pc_pat p) (Some (fst i)) :: fst x, snd x)
  end.

(** child_point_idx of a node; idx_nil would be refused by AddEntity. *)
Definition node_child (ps : list pci) (v : nat) : res nat :=
  do p <- get ps v;
  match pc_child p with Some i => Ok i | None => Assert end.

(** mesh_hierarchy.cc:423-513: children of one edge. *)
Definition refine_edge (ps : list pci) (e : nat * nat) (ci : eci) (f : factory) : res (eci * factory) :=
  do a <- node_child ps (fst e);
  do b <- node_child ps (snd e);
  match ec_pat ci with
  | rp_copy =>
      do x <- add_entity kSegment [a; b] true f;
      Ok (mkEci rp_copy (ec_edges ci ++ [fst x]) (ec_points ci), snd x)
  | rp_split =>
      do mp <- add_point true f;
      do x <- add_entity kSegment [a; fst mp] true (snd mp);
      do y <- add_entity kSegment [fst mp; b] true (snd x);
      Ok (mkEci rp_split (ec_edges ci ++ [fst x; fst y]) (ec_points ci ++ [fst mp]), snd y)
  | _ => Throw
  end.
Fixpoint refine_edges (ps : list pci) (ends : list (nat * nat)) (es : list eci) (f : factory)
  : res (list eci * factory) :=
  match ends, es with
  | [], _ => Ok ([], f)
  | e :: r, ci :: cs =>
      do x <- refine_edge ps e ci f;
      do y <- refine_edges ps r cs (snd x);
      Ok (fst x :: fst y, snd y)
  | _, [] => Assert
  end.

(** Nodes of the fine mesh that belong to a cell: vertex_child_idx[k],
    edge_midpoint_idx[k], center_fine_idx. *)
Inductive lnode := V (k : nat) | M (k : nat) | C.

(** What the switch statements mesh_hierarchy.cc:604-1163 set up: whether a new
    interior node is created, child_cell_nodes, child_edge_nodes. *)
Record local_children := mkLocal {
  lc_centre : bool; lc_cells : list (list lnode); lc_edges : list (lnode * lnode)
}.
(** [mod[k]] (mesh_hierarchy.cc:549-554), with LF_VERIFY_MSG(anchor != idx_nil). *)
Definition anchored (a : option nat) (f : nat -> local_children) : res local_children :=
  match a with Some k => Ok (f k) | None => Throw end.

(** mesh_hierarchy.cc:606-909 (triangles). *)
Definition tria_children (p : refpat) (anchor : option nat) : res local_children :=
  match p with
  | rp_copy => Ok (mkLocal false [[V 0; V 1; V 2]] [])
  | rp_bisect => anchored anchor (fun a =>
      let v k := V ((k + a) mod 3) in let m k := M ((k + a) mod 3) in
      mkLocal false [[v 0; m 0; v 2]; [v 1; m 0; v 2]] [(m 0, v 2)])
  | rp_trisect => anchored anchor (fun a =>
      let v k := V ((k + a) mod 3) in let m k := M ((k + a) mod 3) in
      mkLocal false [[v 0; m 0; v 2]; [v 1; m 0; m 1]; [v 2; m 0; m 1]] [(m 0, v 2); (m 0, m 1)])
  | rp_trisect_left => anchored anchor (fun a =>
      let v k := V ((k + a) mod 3) in let m k := M ((k + a) mod 3) in
      mkLocal false [[v 0; m 0; m 2]; [v 1; m 0; v 2]; [v 2; m 0; m 2]] [(m 0, v 2); (m 0, m 2)])
  | rp_quadsect => anchored anchor (fun a =>
      let v k := V ((k + a) mod 3) in let m k := M ((k + a) mod 3) in
      mkLocal false [[v 0; m 0; m 2]; [v 1; m 0; m 1]; [v 2; m 0; m 1]; [v 2; m 0; m 2]]
              [(m 0, v 2); (m 0, m 2); (m 0, m 1)])
  | rp_barycentric =>
      Ok (mkLocal true [[V 0; M 0; C]; [V 1; M 0; C]; [V 1; M 1; C]; [V 2; M 1; C]; [V 2; M 2; C]; [V 0; M 2; C]]
                  [(V 0, C); (V 1, C); (V 2, C); (M 0, C); (M 1, C); (M 2, C)])
  | rp_regular =>
      Ok (mkLocal false [[V 0; M 0; M 2]; [V 1; M 0; M 1]; [V 2; M 2; M 1]; [M 0; M 1; M 2]]
                  [(M 0, M 2); (M 0, M 1); (M 2, M 1)])
  | _ => Throw
  end.
(** mesh_hierarchy.cc:910-1160 (quadrilaterals). *)
Definition quad_children (p : refpat) (anchor : option nat) : res local_children :=
  match p with
  | rp_copy => Ok (mkLocal false [[V 0; V 1; V 2; V 3]] [])
  | rp_trisect => anchored anchor (fun a =>
      let v k := V ((k + a) mod 4) in let m k := M ((k + a) mod 4) in
      mkLocal false [[m 0; v 2; v 3]; [m 0; v 0; v 3]; [m 0; v 1; v 2]] [(m 0, v 2); (m 0, v 3)])
  | rp_quadsect => anchored anchor (fun a =>
      let v k := V ((k + a) mod 4) in let m k := M ((k + a) mod 4) in
      mkLocal false [[v 0; v 3; m 0]; [v 1; m 1; m 0]; [v 2; v 3; m 1]; [m 0; m 1; v 3]]
              [(v 3, m 0); (m 1, m 0); (v 3, m 1)])
  | rp_bisect | rp_split => anchored anchor (fun a =>
      let v k := V ((k + a) mod 4) in let m k := M ((k + a) mod 4) in
      mkLocal false [[v 0; m 0; m 2; v 3]; [v 1; v 2; m 2; m 0]] [(m 0, m 2)])
  | rp_threeedge => anchored anchor (fun a =>
      let v k := V ((k + a) mod 4) in let m k := M ((k + a) mod 4) in
      mkLocal false [[v 2; v 3; m 3; m 1]; [v 0; m 0; m 3]; [v 1; m 0; m 1]; [m 0; m 1; m 3]]
              [(m 3, m 1); (m 0, m 3); (m 0, m 1)])
  | rp_barycentric | rp_regular =>
      Ok (mkLocal true [[V 0; M 0; C; M 3]; [V 1; M 1; C; M 0]; [V 2; M 1; C; M 2]; [V 3; M 2; C; M 3]]
                  [(M 0, C); (M 1, C); (M 2, C); (M 3, C)])
  | _ => Throw
  end.
Definition children_of (t : refel) (p : refpat) (anchor : option nat) : res local_children :=
  match t with
  | kTria => tria_children p anchor
  | kQuad => quad_children p anchor
  | _ => Throw
  end.

(** mesh_hierarchy.cc:570-597: vertex_child_idx and edge_midpoint_idx (None = idx_nil). *)
Definition vertex_child_idx (ps : list pci) (c : cellv) : res (list (option nat)) :=
  mapM (fun v => do p <- get ps v; do _ <- verify (rp_eqb (pc_pat p) rp_copy); Ok (pc_child p)) (cv_nodes c).
Definition edge_midpoint_idx (es : list eci) (c : cellv) : res (list (option nat)) :=
  mapM (fun e => do ci <- get es e;
                 match ec_points ci with
                 | [] => Ok None
                 | p :: _ => do _ <- verify (rp_eqb (ec_pat ci) rp_split); Ok (Some p)
                 end) (cv_edges c).
(** Number of a node of the fine mesh; idx_nil is caught by checkValidIndex or by
    the assertions of AddEntity. *)
Definition resolve (vs ms : list (option nat)) (ctr : option nat) (n : lnode) : res nat :=
  match (match n with V k => nth k vs None | M k => nth k ms None | C => ctr end) with
  | Some i => Ok i
  | None => Assert
  end.

(** mesh_hierarchy.cc:1171-1183: registration of the interior edges. *)
Fixpoint add_edges (l : list (nat * nat)) (f : factory) : res (list nat * factory) :=
  match l with
  | [] => Ok ([], f)
  | (a, b) :: r =>
      do x <- add_entity kSegment [a; b] true f;
      do y <- add_edges r (snd x);
      Ok (fst x :: fst y, snd y)
  end.
(** mesh_hierarchy.cc:1193-1224: registration of the child cells. *)
Fixpoint add_cells (l : list (list nat)) (f : factory) : res (list nat * factory) :=
  match l with
  | [] => Ok ([], f)
  | ns :: r =>
      do x <- (if length ns =? 3 then add_entity kTria ns true f
               else if length ns =? 4 then add_entity kQuad ns true f else Throw);
      do y <- add_cells r (snd x);
      Ok (fst x :: fst y, snd y)
  end.

(** mesh_hierarchy.cc:525-1226: refinement of one cell.  ChildGeometry is
    represented by the polygons it is made from. *)
Definition refine_cell (ps : list pci) (es : list eci) (c : cellv) (ci : cci) (f : factory)
  : res (cci * factory) :=
  let t := cv_type c in
  do P <- new_pattern t (cc_pat ci) (cc_anchor ci);
  do _ <- verify ((length (cv_edges c) =? num_edges t) && (length (cv_nodes c) =? num_nodes t));
  do vs <- vertex_child_idx ps c;
  do ms <- edge_midpoint_idx es c;
  do lc <- children_of t (cc_pat ci) (cc_anchor ci);
  do cp <- (if lc_centre lc
            then do pg <- ChildPolygons P 2;
                 do _ <- verify (length pg =? 1);
                 do x <- add_point true f; Ok (Some (fst x), snd x)
            else Ok (None, f));
  let '(ctr, f1) := cp in
  do ccn <- mapM (mapM (resolve vs ms ctr)) (lc_cells lc);
  do cen <- mapM (fun e => do a <- resolve vs ms ctr (fst e); do b <- resolve vs ms ctr (snd e); Ok (a, b))
                 (lc_edges lc);
  do eg <- ChildPolygons P 1;
  do n1 <- NumChildren P 1;
  do _ <- verify (length cen =? n1);
  do _ <- lf_assert (length cen <=? length eg);
  do x <- add_edges cen f1;
  do cg <- ChildPolygons P 0;
  do n0 <- NumChildren P 0;
  do _ <- verify (length ccn =? n0);
  do _ <- lf_assert (length ccn <=? length cg);
  do y <- add_cells ccn (snd x);
  Ok (mkCci (cc_pat ci) (cc_anchor ci) (cc_cells ci ++ fst y) (cc_edges ci ++ fst x)
            (cc_points ci ++ match ctr with Some i => [i] | None => [] end), snd y).
Fixpoint refine_cells (ps : list pci) (es : list eci) (cs : list cellv) (cis : list cci) (f : factory)
  : res (list cci * factory) :=
  match cs, cis with
  | [], _ => Ok ([], f)
  | c :: r, ci :: rs =>
      do x <- refine_cell ps es c ci f;
      do y <- refine_cells ps es r rs (snd x);
      Ok (fst x :: fst y, snd y)
  | _, [] => Assert
  end.

(** mesh_hierarchy.cc:1281-1370: parent information of the fine mesh. *)
Fixpoint set_parents (codim idx : nat) (children : list nat) (k : nat) (arr : list parent)
  : res (list parent) :=
  match children with
  | [] => Ok arr
  | ch :: r =>
      do _ <- verify (ch <? length arr);
      set_parents codim idx r (S k) (upd ch (mkPar (Some (codim, idx)) (Some idx) (Some k)) arr)
  end.
Fixpoint point_parents (ps : list pci) (i : nat) (pp : list parent) : res (list parent) :=
  match ps with
  | [] => Ok pp
  | p :: r =>
      do pp' <- (match pc_child p with Some ch => set_parents 2 i [ch] 0 pp | None => Ok pp end);
      point_parents r (S i) pp'
  end.
Fixpoint edge_parents (es : list eci) (i : nat) (pp ep : list parent) : res (list parent * list parent) :=
  match es with
  | [] => Ok (pp, ep)
  | e :: r =>
      do ep' <- set_parents 1 i (ec_edges e) 0 ep;
      do pp' <- set_parents 1 i (ec_points e) 0 pp;
      edge_parents r (S i) pp' ep'
  end.
Fixpoint cell_parents (cs : list cci) (i : nat) (pp ep cp : list parent)
  : res (list parent * list parent * list parent) :=
  match cs with
  | [] => Ok (pp, ep, cp)
  | c :: r =>
      do cp' <- set_parents 0 i (cc_cells c) 0 cp;
      do ep' <- set_parents 0 i (cc_edges c) 0 ep;
      do pp' <- set_parents 0 i (cc_points c) 0 pp;
      cell_parents r (S i) pp' ep' cp'
  end.

(** mesh_hierarchy.cc:1417-1580: refinement edge of child number [k] of a triangle
    refined with pattern [p], with refinement edge [re]; [longest] is its longest edge. *)
Definition inherit_refedge (p : refpat) (re : option nat) (k longest : nat) : res (option nat) :=
  match p with
  | rp_copy => Ok re
  | rp_bisect => if k <? 2 then Ok (Some 2) else Throw
  | rp_trisect => match k with 0 => Ok (Some 2) | 1 => Ok (Some 1) | 2 => Ok (Some 0) | _ => Throw end
  | rp_trisect_left => match k with 0 | 1 => Ok (Some 2) | 2 => Ok (Some 0) | _ => Throw end
  | rp_quadsect => match k with 0 => Ok (Some 2) | 1 | 2 | 3 => Ok (Some 0) | _ => Throw end
  | rp_regular =>
      match re with
      | Some 0 => match k with 0 | 1 => Ok (Some 0) | 2 | 3 => Ok (Some 1) | _ => Throw end
      | Some 1 => match k with 0 => Ok (Some 1) | 1 | 2 | 3 => Ok (Some 2) | _ => Throw end
      | Some 2 => match k with 0 => Ok (Some 2) | 1 => Ok (Some 1) | 2 | 3 => Ok (Some 0) | _ => Throw end
      | _ => Throw
      end
  | rp_barycentric => Ok (Some longest)
  | _ => Throw
  end.
(** mesh_hierarchy.cc:1386-1597: refinement edge of fine cell number [i]. *)
Definition fine_refedge (longest : nat -> nat) (coarse : mesh) (re : list (option nat)) (cis : list cci)
           (cpar : list parent) (i : nat) (c : cellv) : res (option nat) :=
  match cv_type c with
  | kTria =>
      do pa <- get cpar i;
      match pa_ptr pa, pa_num pa with
      | Some (_, p), Some k =>
          do pc <- get (mv_cells coarse) p;
          match cv_type pc with
          | kTria =>
              do ci <- get cis p;
              do ch <- get (cc_cells ci) k;
              do _ <- verify (ch =? i);
              do r <- get re p;
              inherit_refedge (cc_pat ci) r k (longest i)
          | _ => Ok (Some (longest i))
          end
      | _, _ => Throw
      end
  | _ => Ok None
  end.
Fixpoint fine_refedges (longest : nat -> nat) (coarse : mesh) (re : list (option nat)) (cis : list cci)
         (cpar : list parent) (i : nat) (cs : list cellv) : res (list (option nat)) :=
  match cs with
  | [] => Ok []
  | c :: r =>
      do x <- fine_refedge longest coarse re cis cpar i c;
      do y <- fine_refedges longest coarse re cis cpar (S i) r;
      Ok (x :: y)
  end.

(** mesh_hierarchy.cc:367-1599 (PerformRefinement); [longest] gives the longest
    edges of the cells of the new mesh. Returns the updated level, the new
    level and the factory. *)
Definition PerformRefinement (longest : nat -> nat) (L : level) (f : factory)
  : res (level * level * factory) :=
  let m := l_mesh L in
  do xs <- copy_nodes (l_points L) f;
  let '(ps, f1) := xs in
  do ys <- refine_edges ps (mv_edges m) (l_edges L) f1;
  let '(es, f2) := ys in
  do _ <- verify (length (l_cells L) =? length (mv_cells m));
  do zs <- refine_cells ps es (mv_cells m) (l_cells L) f2;
  let '(cs, f3) := zs in
  do fm <- fst (build f3);
  let m' := view fm in
  do pp1 <- point_parents ps 0 (repeat no_parent (mv_nodes m'));
  do pe <- edge_parents es 0 pp1 (repeat no_parent (length (mv_edges m')));
  let '(pp2, ep2) := pe in
  do pec <- cell_parents cs 0 pp2 ep2 (repeat no_parent (length (mv_cells m')));
  let '(pp3, ep3, cp3) := pec in
  do re <- fine_refedges longest m (l_refedge L) cs cp3 0 (mv_cells m');
  Ok (mkLevel m ps es cs (l_ppar L) (l_epar L) (l_cpar L) (l_refedge L) (l_marked L),
      new_level m' pp3 ep3 cp3 re, snd (build f3)).

(** * The hierarchy *)
(** meshes_ etc.: all levels but the finest one, coarsest first; the finest one;
    the factory. *)
Record hierarchy := mkHier { h_coarser : list level; h_finest : level; h_factory : factory }.

(** mesh_hierarchy.cc:34-70. *)
Definition new_hierarchy (longest : nat -> nat) (m : mesh) (f : factory) : hierarchy :=
  mkHier [] (base_level longest m) f.

Definition push (H : hierarchy) (x : level * level * factory) : hierarchy :=
  let '(L, L', f) := x in mkHier (h_coarser H ++ [L]) L' f.

(** mesh_hierarchy.h:454-467 (MarkEdges); the marker is called for every edge. *)
Definition MarkEdges (marker : nat -> bool) (H : hierarchy) : res hierarchy :=
  let L := h_finest H in
  do _ <- verify (length (l_marked L) =? length (mv_edges (l_mesh L)));
  Ok (mkHier (h_coarser H)
        (mkLevel (l_mesh L) (l_points L) (l_edges L) (l_cells L) (l_ppar L) (l_epar L) (l_cpar L)
                 (l_refedge L) (map marker (seq 0 (length (mv_edges (l_mesh L))))))
        (h_factory H)).
(** mesh_hierarchy.cc:72-113. initGeometryInParent, which fills in geometries, is
    not part of this model. *)
Definition RefineRegular (longest : nat -> nat) (p : refpat) (H : hierarchy) : res hierarchy :=
  do L <- flag_uniform p (h_finest H);
  do x <- PerformRefinement longest L (h_factory H);
  Ok (push H x).
(** mesh_hierarchy.cc:116-365; C25 shows that the number of passes allowed here
    is never exceeded. *)
Definition RefineMarked (longest : nat -> nat) (H : hierarchy) : res hierarchy :=
  let L := h_finest H in
  match mark_closure (S (length (mv_edges (l_mesh L)))) L with
  | Some r => do L' <- r; do x <- PerformRefinement longest L' (h_factory H); Ok (push H x)
  | None => Assert
  end.

(** mesh_hierarchy.cc:1917-1935 (GenerateMeshHierarchyByUniformRefinemnt);
    [longest k] is used in step k. *)
Fixpoint uniform_steps (longest : nat -> nat -> nat) (p : refpat) (n k : nat) (H : hierarchy) : res hierarchy :=
  match n with
  | 0 => Ok H
  | S n' => do H' <- RefineRegular (longest k) p H; uniform_steps longest p n' (S k) H'
  end.
Definition GenerateMeshHierarchy (longest : nat -> nat -> nat) (m : mesh) (n : nat) (p : refpat) : res hierarchy :=
  uniform_steps longest p n 1 (new_hierarchy (longest 0) m (new_factory true)).
