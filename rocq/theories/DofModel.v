(** Model of lf::assemble::UniformFEDofHandler and DynamicFEDofHandler
    (lib/lf/assemble/dofhandler.h, dofhandler.cc).

    Index vectors are lists of naturals.  A vector element read outside its
    vector yields 0 here; the theorems determine every element that an accessor
    returns, so such a read would show.  gdof_idx_t is modelled by an unbounded
    natural number. *)
From Coq Require Import List Arith Lia Bool.
Import ListNotations.
From Verif Require Import Base MeshModel MeshView.

(** A mesh entity, identified by co-dimension and index
    (lib/lf/mesh/mesh_interface.h:EntityByIndex). *)
Inductive ent := ENode (i : nat) | EEdge (i : nat) | ECell (i : nat).

Definition cell_at (m : mesh) (i : nat) : cellv := nth i (mv_cells m) (mkCellv [] [] []).
Definition edge_at (m : mesh) (i : nat) : nat * nat := nth i (mv_edges m) (0, 0).

(** Entity::RefEl(). *)
Definition ent_type (m : mesh) (e : ent) : refel :=
  match e with
  | ENode _ => kPoint
  | EEdge _ => kSegment
  | ECell i => cv_type (cell_at m i)
  end.
(** Mesh::Index(). *)
Definition ent_index (e : ent) : nat :=
  match e with ENode i => i | EEdge i => i | ECell i => i end.

(** Mesh::NumEntities(codim). *)
Definition mv_count (m : mesh) (codim : nat) : nat :=
  match codim with
  | 0 => length (mv_cells m)
  | 1 => length (mv_edges m)
  | _ => mv_nodes m
  end.

(** [2 - ref_el_type.Dimension()] (lib/lf/base/ref_el.h:45-57). *)
Definition codim_of (t : refel) : nat :=
  match t with kPoint => 2 | kSegment => 1 | kTria => 0 | kQuad => 0 end.

(** What both kinds of handlers offer (lib/lf/assemble/dofhandler.h:111-234,
    abstract class DofHandler). *)
Record dofh := mkDofh {
  NumDofs : nat;
  NumLocalDofs : ent -> res nat;
  NumInteriorDofs : ent -> res nat;
  GlobalDofIndices : ent -> res (list nat);
  InteriorGlobalDofIndices : ent -> res (list nat);
  Entity : nat -> res ent
}.

(** * UniformFEDofHandler *)

(** Equality of reference elements: implicit conversion to the enum RefElType
    (lib/lf/base/ref_el.h:34-43, 481). *)
Definition refel_eqb (a b : refel) : bool :=
  match a, b with
  | kPoint, kPoint | kSegment, kSegment | kTria, kTria | kQuad, kQuad => true
  | _, _ => false
  end.

(** dof_map_t = std::map<RefEl, size_type> (dofhandler.h:269). *)
Definition dof_map := list (refel * nat).
Fixpoint dmap_find (t : refel) (d : dof_map) : option nat :=
  match d with
  | [] => None
  | (t', n) :: r => if refel_eqb t t' then Some n else dmap_find t r
  end.

(** num_loc_dof_point_ etc. (dofhandler.h:404-416: initial value 0; dofhandler.cc:96-118). *)
Record layout := mkLayout { ly_pt : nat; ly_seg : nat; ly_tria : nat; ly_quad : nat }.
Definition or_zero (o : option nat) : nat := match o with Some n => n | None => 0 end.
Definition layout_of (d : dof_map) : layout :=
  mkLayout (or_zero (dmap_find kPoint d)) (or_zero (dmap_find kSegment d))
           (or_zero (dmap_find kTria d)) (or_zero (dmap_find kQuad d)).

(** num_dofs_tria_, num_dofs_quad_, num_dofs_[codim] (dofhandler.cc:131-139). *)
Definition num_dofs_tria (l : layout) : nat := 3 * ly_pt l + 3 * ly_seg l + ly_tria l.
Definition num_dofs_quad (l : layout) : nat := 4 * ly_pt l + 4 * ly_seg l + ly_quad l.
Definition num_dofs (l : layout) (codim : nat) : nat :=
  match codim with
  | 0 => Nat.max (num_dofs_tria l) (num_dofs_quad l)
  | 1 => 2 * ly_pt l + ly_seg l
  | _ => ly_pt l
  end.

(** State of the loops of initIndexArrays: the vector dofs_[codim] being filled,
    the write position, dof_idx and dof_entities_. *)
Record wst := mkWst { w_arr : list nat; w_off : nat; w_dof : nat; w_ents : list ent }.
Definition at_off (o : nat) (s : wst) : wst := mkWst (w_arr s) o (w_dof s) (w_ents s).
Definition put (v : nat) (s : wst) : wst :=
  mkWst (upd (w_off s) v (w_arr s)) (S (w_off s)) (w_dof s) (w_ents s).
(** [dofs[off++] = dof_idx; dof_entities_.push_back(e); dof_idx++]
    (dofhandler.cc:162-166, 199-203, 275-279). *)
Definition put_new (e : ent) (s : wst) : wst :=
  mkWst (upd (w_off s) (w_dof s) (w_arr s)) (S (w_off s)) (S (w_dof s)) (w_ents s ++ [e]).

Fixpoint times {A} (n : nat) (f : A -> A) (s : A) : A :=
  match n with 0 => s | S k => times k f (f s) end.

(** [for (j = 0; j < n; j++) dofs[off++] = src[start + j]]. *)
Definition copy_fwd (src : list nat) (start n : nat) (s : wst) : wst :=
  fold_left (fun s j => put (nth (start + j) src 0) s) (seq 0 n) s.
(** [for (j = n - 1; j >= 0; j--) dofs[off++] = src[start + j]]. *)
Definition copy_bwd (src : list nat) (start n : nat) (s : wst) : wst :=
  fold_left (fun s j => put (nth (start + j) src 0) s) (rev (seq 0 n)) s.

Record udofh := mkUdofh {
  u_mesh : mesh; u_lay : layout;
  u_dofs2 : list nat; u_dofs1 : list nat; u_dofs0 : list nat;
  u_ents : list ent; u_num : nat
}.

Section Uniform.
Variables (m : mesh) (l : layout) (check : bool).

(** Step I (dofhandler.cc:147-168). *)
Definition u_node (s : wst) (i : nat) : wst :=
  times (ly_pt l) (put_new (ENode i)) (at_off (i * num_dofs l 2) s).
Definition u_nodes : wst :=
  fold_left u_node (seq 0 (mv_count m 2))
    (mkWst (repeat 0 (mv_count m 2 * num_dofs l 2)) 0 0 []).

(** Step II (dofhandler.cc:170-205). *)
Definition u_edge (dofs2 : list nat) (s : wst) (i : nat) : wst :=
  let (a, b) := edge_at m i in
  let s := at_off (i * num_dofs l 1) s in
  let s := fold_left (fun s v => copy_fwd dofs2 (v * num_dofs l 2) (num_dofs l 2) s) [a; b] s in
  times (ly_seg l) (put_new (EEdge i)) s.
Definition u_edges (s : wst) : wst :=
  fold_left (u_edge (w_arr s)) (seq 0 (mv_count m 1))
    (mkWst (repeat 0 (mv_count m 1 * num_dofs l 1)) 0 (w_dof s) (w_ents s)).

(** Step III (dofhandler.cc:207-281). *)
Definition u_cell_edge (dofs1 : list nat) (c : cellv) (s : wst) (k : nat) : wst :=
  let start := nth k (cv_edges c) 0 * num_dofs l 1 + (num_dofs l 1 - ly_seg l) in
  if negb check || nth k (cv_ori c) false
  then copy_fwd dofs1 start (ly_seg l) s
  else copy_bwd dofs1 start (ly_seg l) s.
Definition u_cell_interior (c : cellv) : nat :=
  match cv_type c with kTria => ly_tria l | _ => ly_quad l end.
Definition u_cell (dofs2 dofs1 : list nat) (s : wst) (i : nat) : wst :=
  let c := cell_at m i in
  let s := at_off (i * num_dofs l 0) s in
  let s := fold_left (fun s v => copy_fwd dofs2 (v * num_dofs l 2) (num_dofs l 2) s) (cv_nodes c) s in
  let s := fold_left (u_cell_edge dofs1 c) (seq 0 (num_nodes (cv_type c))) s in
  times (u_cell_interior c) (put_new (ECell i)) s.
Definition u_cells (dofs2 : list nat) (s : wst) : wst :=
  fold_left (u_cell dofs2 (w_arr s)) (seq 0 (mv_count m 0))
    (mkWst (repeat 0 (mv_count m 0 * num_dofs l 0)) 0 (w_dof s) (w_ents s)).

(** initIndexArrays (dofhandler.cc:142-284). *)
Definition u_init : udofh :=
  let s2 := u_nodes in
  let s1 := u_edges s2 in
  let s0 := u_cells (w_arr s2) s1 in
  mkUdofh m l (w_arr s2) (w_arr s1) (w_arr s0) (w_ents s0) (w_dof s0).
End Uniform.

(** The constructors (dofhandler.cc:86-129; dofhandler.h:307-308). *)
Definition uniform (m : mesh) (d : dof_map) (check : bool) : udofh :=
  u_init m (layout_of d) check.

(** NumCoveredDofs, NumInteriorDofs of a reference element (dofhandler.h:424-477). *)
Definition u_covered (l : layout) (t : refel) : nat :=
  match t with
  | kPoint => num_dofs l 2
  | kSegment => num_dofs l 1
  | kTria => num_dofs_tria l
  | kQuad => num_dofs_quad l
  end.
Definition u_interior (l : layout) (t : refel) : nat :=
  match t with
  | kPoint => ly_pt l
  | kSegment => ly_seg l
  | kTria => ly_tria l
  | kQuad => ly_quad l
  end.

Definition slice {A} (start n : nat) (a : list A) : list A := firstn n (skipn start a).

Definition u_array (u : udofh) (codim : nat) : list nat :=
  match codim with 0 => u_dofs0 u | 1 => u_dofs1 u | _ => u_dofs2 u end.

(** GlobalDofIndices(RefEl, index) (dofhandler.cc:286-300). *)
Definition u_global (u : udofh) (t : refel) (i : nat) : res (list nat) :=
  do _ <- lf_assert (i <? mv_count (u_mesh u) (codim_of t));
  Ok (slice (num_dofs (u_lay u) (codim_of t) * i) (u_covered (u_lay u) t)
            (u_array u (codim_of t))).
(** InteriorGlobalDofIndices(RefEl, index) (dofhandler.cc:307-323). *)
Definition u_interior_global (u : udofh) (t : refel) (i : nat) : res (list nat) :=
  do _ <- lf_assert (i <? mv_count (u_mesh u) (codim_of t));
  Ok (slice (num_dofs (u_lay u) (codim_of t) * i
             + (u_covered (u_lay u) t - u_interior (u_lay u) t))
            (u_interior (u_lay u) t) (u_array u (codim_of t))).

(** Entity(dofnum) (dofhandler.h:376-381, 750-755). *)
Definition entity_of (ents : list ent) (d : nat) : res ent :=
  match nth_error ents d with Some e => Ok e | None => Throw end.

(** The public interface (dofhandler.cc:302-338). *)
Definition u_handler (u : udofh) : dofh := {|
  NumDofs := u_num u;
  NumLocalDofs := fun e => Ok (u_covered (u_lay u) (ent_type (u_mesh u) e));
  NumInteriorDofs := fun e => Ok (u_interior (u_lay u) (ent_type (u_mesh u) e));
  GlobalDofIndices := fun e => u_global u (ent_type (u_mesh u) e) (ent_index e);
  InteriorGlobalDofIndices := fun e => u_interior_global u (ent_type (u_mesh u) e) (ent_index e);
  Entity := entity_of (u_ents u)
|}.

(** * DynamicFEDofHandler *)

(** Index vectors of one co-dimension: dofs_, offsets_, num_int_dofs_. *)
Record dvec := mkDvec { dv_dofs : list nat; dv_offs : list nat; dv_nint : list nat }.
Record dynh := mkDynh {
  dy_mesh : mesh; dy2 : dvec; dy1 : dvec; dy0 : dvec;
  dy_ents : list ent; dy_num : nat
}.

(** State of the loops of the constructor; [p_pos] is edge_dof_offset /
    cell_dof_offset. *)
Record pst := mkPst { p_dofs : list nat; p_pos : nat; p_dof : nat; p_ents : list ent;
                      p_offs : list nat; p_nint : list nat }.
(** [dofs_[codim].push_back(v); pos++]. *)
Definition push (v : nat) (s : pst) : pst :=
  mkPst (p_dofs s ++ [v]) (S (p_pos s)) (p_dof s) (p_ents s) (p_offs s) (p_nint s).
Definition push_new (e : ent) (s : pst) : pst :=
  mkPst (p_dofs s ++ [p_dof s]) (S (p_pos s)) (S (p_dof s)) (p_ents s ++ [e])
        (p_offs s) (p_nint s).
Definition record_ent (i off n : nat) (s : pst) : pst :=
  mkPst (p_dofs s) (p_pos s) (p_dof s) (p_ents s) (upd i off (p_offs s)) (upd i n (p_nint s)).
Definition sentinel (i off : nat) (s : pst) : pst :=
  mkPst (p_dofs s) (p_pos s) (p_dof s) (p_ents s) (upd i off (p_offs s)) (p_nint s).
Definition push_fwd (src : list nat) (start n : nat) (s : pst) : pst :=
  fold_left (fun s j => push (nth (start + j) src 0) s) (seq 0 n) s.
Definition push_bwd (src : list nat) (start n : nat) (s : pst) : pst :=
  fold_left (fun s j => push (nth (start + j) src 0) s) (rev (seq 0 n)) s.
Definition fresh (n dof : nat) (ents : list ent) : pst :=
  mkPst [] 0 dof ents (repeat 0 (S n)) (repeat 0 n).
Definition dvec_of (s : pst) : dvec := mkDvec (p_dofs s) (p_offs s) (p_nint s).

Section Dynamic.
Variables (m : mesh) (locdof : ent -> nat).

(** Step I (dofhandler.h:574-604); here the offset of a node is dof_idx. *)
Definition d_node (s : pst) (i : nat) : pst :=
  times (locdof (ENode i)) (push_new (ENode i)) (record_ent i (p_dof s) (locdof (ENode i)) s).
Definition d_nodes : pst :=
  let s := fold_left d_node (seq 0 (mv_count m 2)) (fresh (mv_count m 2) 0 []) in
  sentinel (mv_count m 2) (p_dof s) s.

(** Copying the indices of a vertex (dofhandler.h:625-635, 661-671). *)
Definition d_vertex (v2 : dvec) (s : pst) (v : nat) : pst :=
  push_fwd (dv_dofs v2) (nth v (dv_offs v2) 0) (nth v (dv_nint v2) 0) s.

(** Step II (dofhandler.h:606-646). *)
Definition d_edge (v2 : dvec) (s : pst) (i : nat) : pst :=
  let (a, b) := edge_at m i in
  let s := record_ent i (p_pos s) (locdof (EEdge i)) s in
  let s := fold_left (d_vertex v2) [a; b] s in
  times (locdof (EEdge i)) (push_new (EEdge i)) s.
Definition d_edges (s2 : pst) : pst :=
  let s := fold_left (d_edge (dvec_of s2)) (seq 0 (mv_count m 1))
             (fresh (mv_count m 1) (p_dof s2) (p_ents s2)) in
  sentinel (mv_count m 1) (p_pos s) s.

(** Step III (dofhandler.h:648-713). *)
Definition d_cell_edge (v1 : dvec) (c : cellv) (s : pst) (k : nat) : pst :=
  let e := nth k (cv_edges c) 0 in
  let n := nth e (dv_nint v1) 0 in
  let start := nth (S e) (dv_offs v1) 0 - n in
  if nth k (cv_ori c) false
  then push_fwd (dv_dofs v1) start n s
  else push_bwd (dv_dofs v1) start n s.
Definition d_cell (v2 v1 : dvec) (s : pst) (i : nat) : pst :=
  let c := cell_at m i in
  let s := record_ent i (p_pos s) (locdof (ECell i)) s in
  let s := fold_left (d_vertex v2) (cv_nodes c) s in
  let s := fold_left (d_cell_edge v1 c) (seq 0 (num_nodes (cv_type c))) s in
  times (locdof (ECell i)) (push_new (ECell i)) s.
Definition d_cells (s2 s1 : pst) : pst :=
  let s := fold_left (d_cell (dvec_of s2) (dvec_of s1)) (seq 0 (mv_count m 0))
             (fresh (mv_count m 0) (p_dof s1) (p_ents s1)) in
  sentinel (mv_count m 0) (p_pos s) s.

(** The constructor (dofhandler.h:564-713). *)
Definition dynamic : dynh :=
  let s2 := d_nodes in
  let s1 := d_edges s2 in
  let s0 := d_cells s2 s1 in
  mkDynh m (dvec_of s2) (dvec_of s1) (dvec_of s0) (p_ents s0) (p_dof s0).
End Dynamic.

Definition dy_vec (d : dynh) (codim : nat) : dvec :=
  match codim with 0 => dy0 d | 1 => dy1 d | _ => dy2 d end.

(** The public interface (dofhandler.cc:344-402).  Mesh::Index of an entity that
    does not belong to the mesh is outside the contract, hence the guard. *)
Definition dy_guard {A} (d : dynh) (e : ent) (f : dvec -> nat -> A) : res A :=
  do _ <- lf_assert (ent_index e <? mv_count (dy_mesh d) (codim_of (ent_type (dy_mesh d) e)));
  Ok (f (dy_vec d (codim_of (ent_type (dy_mesh d) e))) (ent_index e)).
Definition dy_covered (v : dvec) (i : nat) : nat :=
  nth (S i) (dv_offs v) 0 - nth i (dv_offs v) 0.
Definition dy_handler (d : dynh) : dofh := {|
  NumDofs := dy_num d;
  NumLocalDofs := fun e => dy_guard d e dy_covered;
  NumInteriorDofs := fun e => dy_guard d e (fun v i => nth i (dv_nint v) 0);
  GlobalDofIndices := fun e =>
    dy_guard d e (fun v i => slice (nth i (dv_offs v) 0) (dy_covered v i) (dv_dofs v));
  InteriorGlobalDofIndices := fun e =>
    dy_guard d e (fun v i =>
      slice (nth i (dv_offs v) 0 + (dy_covered v i - nth i (dv_nint v) 0))
            (nth i (dv_nint v) 0) (dv_dofs v));
  Entity := entity_of (dy_ents d)
|}.
