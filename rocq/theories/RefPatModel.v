(** Model of lf::refinement::Hybrid2DRefinementPattern
    (lib/lf/refinement/hybrid2d_refinement_pattern.h, .cc).
    Lattice polygons are integer matrices; such a matrix is the list of its
    columns, a column the list of its coordinates. *)
From Coq Require Import List Arith Lia Bool ZArith.
Import ListNotations.
From Verif Require Import Base MeshModel.
Local Open Scope Z_scope.

(** hybrid2d_refinement_pattern.h:35-46. *)
Inductive refpat :=
| rp_nil | rp_copy | rp_split | rp_bisect | rp_trisect | rp_trisect_left
| rp_quadsect | rp_threeedge | rp_regular | rp_barycentric.

(** hybrid2d_refinement_pattern.h:53-103 and lib/lf/geometry/refinement_pattern.h:34-64:
    members ref_el_, ref_pat_, anchor_/anchor_set_ ([None]: anchor_ = idx_nil and
    not set), lattice_const_. *)
Record pattern := mkPattern { p_el : refel; p_pat : refpat; p_anchor : option nat; p_lc : Z }.

(** lib/lf/base/ref_el.h:308-328: NumSubEntities(1). *)
Definition num_edges (t : refel) : nat :=
  match t with kPoint => 0 | kSegment => 2 | kTria => 3 | kQuad => 4 end%nat.
(** lib/lf/base/ref_el.h:45-57. *)
Definition el_dim (t : refel) : nat :=
  match t with kPoint => 0 | kSegment => 1 | kTria => 2 | kQuad => 2 end%nat.

(** The constructors (hybrid2d_refinement_pattern.h:71-103); the lattice constant
    is 6 (lib/lf/geometry/refinement_pattern.h:47-48). *)
Definition new_pattern (t : refel) (p : refpat) (a : option nat) : res pattern :=
  match a with
  | None => Ok (mkPattern t p None 6)
  | Some k => do _ <- verify (k <? num_edges t)%nat; Ok (mkPattern t p (Some k) 6)
  end.

(** hybrid2d_refinement_pattern.cc:49-270. *)
Definition NumChildren (P : pattern) (codim : nat) : res nat :=
  do _ <- verify (codim <=? el_dim (p_el P))%nat;
  match p_el P with
  | kPoint => match p_pat P with rp_nil => Ok 0%nat | rp_copy => Ok 1%nat | _ => Throw end
  | kSegment =>
      match codim with
      | 0%nat => match p_pat P with rp_nil => Ok 0%nat | rp_copy => Ok 1%nat | rp_split => Ok 2%nat | _ => Throw end
      | 1%nat => match p_pat P with rp_nil | rp_copy => Ok 0%nat | rp_split => Ok 1%nat | _ => Throw end
      | _ => Throw
      end
  | kTria =>
      match codim with
      | 0%nat => match p_pat P with
                 | rp_nil => Ok 0%nat | rp_copy => Ok 1%nat | rp_bisect => Ok 2%nat
                 | rp_trisect | rp_trisect_left => Ok 3%nat
                 | rp_quadsect | rp_regular => Ok 4%nat
                 | rp_barycentric => Ok 6%nat
                 | _ => Throw end
      | 1%nat => match p_pat P with
                 | rp_nil | rp_copy => Ok 0%nat | rp_bisect => Ok 1%nat
                 | rp_trisect | rp_trisect_left => Ok 2%nat
                 | rp_quadsect | rp_regular => Ok 3%nat
                 | rp_barycentric => Ok 6%nat
                 | _ => Throw end
      | 2%nat => match p_pat P with rp_barycentric => Ok 1%nat | _ => Ok 0%nat end
      | _ => Throw
      end
  | kQuad =>
      match codim with
      | 0%nat => match p_pat P with
                 | rp_nil => Ok 0%nat | rp_copy => Ok 1%nat | rp_trisect => Ok 3%nat
                 | rp_quadsect => Ok 4%nat | rp_bisect | rp_split => Ok 2%nat
                 | rp_threeedge | rp_barycentric | rp_regular => Ok 4%nat
                 | _ => Throw end
      | 1%nat => match p_pat P with
                 | rp_nil | rp_copy => Ok 0%nat | rp_trisect => Ok 2%nat
                 | rp_quadsect => Ok 3%nat | rp_bisect | rp_split => Ok 1%nat
                 | rp_threeedge => Ok 3%nat
                 | rp_barycentric | rp_regular => Ok 4%nat
                 | _ => Throw end
      | 2%nat => match p_pat P with rp_barycentric | rp_regular => Ok 1%nat | _ => Ok 0%nat end
      | _ => Throw
      end
  end.

Definition lpoint := list Z.
Definition lpoly := list lpoint.

(** [LF_VERIFY_MSG(anchor_set_, ...)]. *)
Definition with_anchor (a : option nat) (f : nat -> res (list lpoly)) : res (list lpoly) :=
  match a with Some k => f k | None => Throw end.

Section Lattice.
Variables half third one : Z.

(** .cc:344-347: lt_node_coords, lt_midpoint_coords of the triangle. *)
Definition t_node (k : nat) : lpoint := nth k [[0; 0]; [one; 0]; [0; one]] [].
Definition t_mid (k : nat) : lpoint := nth k [[half; 0]; [half; half]; [0; half]] [].
(** .cc:350-352: mod_k. *)
Definition t_mod (k a : nat) : nat := ((k + a) mod 3)%nat.

(** .cc:355-529: codim = 0. *)
Definition tria_cells (p : refpat) (anchor : option nat) : res (list lpoly) :=
  let b := [third; third] in
  match p with
  | rp_nil => Ok []
  | rp_copy => Ok [[t_node 0; t_node 1; t_node 2]]
  | rp_bisect => with_anchor anchor (fun a =>
      let n k := t_node (t_mod k a) in let m k := t_mid (t_mod k a) in
      Ok [[n 0; m 0; n 2]; [n 1; m 0; n 2]]%nat)
  | rp_trisect => with_anchor anchor (fun a =>
      let n k := t_node (t_mod k a) in let m k := t_mid (t_mod k a) in
      Ok [[n 0; m 0; n 2]; [n 1; m 0; m 1]; [n 2; m 0; m 1]]%nat)
  | rp_trisect_left => with_anchor anchor (fun a =>
      let n k := t_node (t_mod k a) in let m k := t_mid (t_mod k a) in
      Ok [[n 0; m 0; m 2]; [n 1; m 0; n 2]; [n 2; m 0; m 2]]%nat)
  | rp_quadsect => with_anchor anchor (fun a =>
      let n k := t_node (t_mod k a) in let m k := t_mid (t_mod k a) in
      Ok [[n 0; m 0; m 2]; [n 1; m 0; m 1]; [n 2; m 0; m 1]; [n 2; m 0; m 2]]%nat)
  | rp_regular =>
      let n := t_node in let m := t_mid in
      Ok [[n 0; m 0; m 2]; [n 1; m 0; m 1]; [n 2; m 2; m 1]; [m 0; m 1; m 2]]%nat
  | rp_barycentric =>
      let n := t_node in let m := t_mid in
      Ok [[n 0%nat; m 0%nat; b]; [n 1%nat; m 0%nat; b]; [n 1%nat; m 1%nat; b];
          [n 2%nat; m 1%nat; b]; [n 2%nat; m 2%nat; b]; [n 0%nat; m 2%nat; b]]
  | _ => Throw
  end.
(** .cc:530-664: codim = 1. *)
Definition tria_edges (p : refpat) (anchor : option nat) : res (list lpoly) :=
  let b := [third; third] in
  match p with
  | rp_nil | rp_copy => Ok []
  | rp_bisect => with_anchor anchor (fun a =>
      let n k := t_node (t_mod k a) in let m k := t_mid (t_mod k a) in
      Ok [[m 0; n 2]]%nat)
  | rp_trisect => with_anchor anchor (fun a =>
      let n k := t_node (t_mod k a) in let m k := t_mid (t_mod k a) in
      Ok [[m 0; n 2]; [m 0; m 1]]%nat)
  | rp_trisect_left => with_anchor anchor (fun a =>
      let n k := t_node (t_mod k a) in let m k := t_mid (t_mod k a) in
      Ok [[m 0; n 2]; [m 0; m 2]]%nat)
  | rp_quadsect => with_anchor anchor (fun a =>
      let n k := t_node (t_mod k a) in let m k := t_mid (t_mod k a) in
      Ok [[m 0; n 2]; [m 0; m 2]; [m 0; m 1]]%nat)
  | rp_regular =>
      let m := t_mid in Ok [[m 0; m 2]; [m 0; m 1]; [m 2; m 1]]%nat
  | rp_barycentric =>
      let n := t_node in let m := t_mid in
      Ok [[n 0%nat; b]; [n 1%nat; b]; [n 2%nat; b]; [m 0%nat; b]; [m 1%nat; b]; [m 2%nat; b]]
  | _ => Throw
  end.
(** .cc:665-673: codim = 2. *)
Definition tria_points (p : refpat) : res (list lpoly) :=
  match p with rp_barycentric => Ok [[[third; third]]] | _ => Ok [] end.

(** .cc:684-694: special points of the quadrilateral. *)
Definition q_node (k : nat) : lpoint := nth k [[0; 0]; [one; 0]; [one; one]; [0; one]] [].
Definition q_mid (k : nat) : lpoint := nth k [[half; 0]; [one; half]; [half; one]; [0; half]] [].
Definition q_mod (k a : nat) : nat := ((k + a) mod 4)%nat.

(** .cc:697-858: codim = 0. *)
Definition quad_cells (p : refpat) (anchor : option nat) : res (list lpoly) :=
  match p with
  | rp_nil => Ok []
  | rp_copy => Ok [[q_node 0; q_node 1; q_node 2; q_node 3]]
  | rp_trisect => with_anchor anchor (fun a =>
      let n k := q_node (q_mod k a) in let m k := q_mid (q_mod k a) in
      Ok [[m 0; n 2; n 3]; [m 0; n 0; n 3]; [m 0; n 1; n 2]]%nat)
  | rp_quadsect => with_anchor anchor (fun a =>
      let n k := q_node (q_mod k a) in let m k := q_mid (q_mod k a) in
      Ok [[n 0; n 3; m 0]; [n 1; m 1; m 0]; [n 2; n 3; m 1]; [m 0; m 1; n 3]]%nat)
  | rp_bisect | rp_split => with_anchor anchor (fun a =>
      let n k := q_node (q_mod k a) in let m k := q_mid (q_mod k a) in
      Ok [[n 0; m 0; m 2; n 3]; [n 1; n 2; m 2; m 0]]%nat)
  | rp_threeedge => with_anchor anchor (fun a =>
      let n k := q_node (q_mod k a) in let m k := q_mid (q_mod k a) in
      Ok [[n 2; n 3; m 3; m 1]; [n 0; m 0; m 3]; [n 1; m 0; m 1]; [m 0; m 1; m 3]]%nat)
  | rp_barycentric | rp_regular =>
      let n := q_node in let m := q_mid in let b := [half; half] in
      Ok [[n 0%nat; m 0%nat; b; m 3%nat]; [n 1%nat; m 1%nat; b; m 0%nat];
          [n 2%nat; m 1%nat; b; m 2%nat]; [n 3%nat; m 2%nat; b; m 3%nat]]
  | _ => Throw
  end.
(** .cc:859-960: codim = 1. *)
Definition quad_edges (p : refpat) (anchor : option nat) : res (list lpoly) :=
  match p with
  | rp_nil | rp_copy => Ok []
  | rp_trisect => with_anchor anchor (fun a =>
      let n k := q_node (q_mod k a) in let m k := q_mid (q_mod k a) in
      Ok [[m 0; n 2]; [m 0; n 3]]%nat)
  | rp_quadsect => with_anchor anchor (fun a =>
      let n k := q_node (q_mod k a) in let m k := q_mid (q_mod k a) in
      Ok [[n 3; m 0]; [m 1; m 0]; [n 3; m 1]]%nat)
  | rp_bisect | rp_split => with_anchor anchor (fun a =>
      let m k := q_mid (q_mod k a) in
      Ok [[m 0; m 2]]%nat)
  | rp_threeedge => with_anchor anchor (fun a =>
      let m k := q_mid (q_mod k a) in
      Ok [[m 3; m 1]; [m 0; m 3]; [m 0; m 1]]%nat)
  | rp_barycentric | rp_regular =>
      let m := q_mid in let b := [half; half] in
      Ok [[m 0%nat; b]; [m 1%nat; b]; [m 2%nat; b]; [m 3%nat; b]]
  | _ => Throw
  end.
(** .cc:961-970: codim = 2. *)
Definition quad_points (p : refpat) : res (list lpoly) :=
  match p with rp_barycentric | rp_regular => Ok [[[half; half]]] | _ => Ok [] end.

(** .cc:293-335: segments. *)
Definition seg_cells (p : refpat) : res (list lpoly) :=
  match p with
  | rp_nil => Ok []
  | rp_copy => Ok [[[0]; [one]]]
  | rp_split => Ok [[[0]; [half]]; [[half]; [one]]]
  | _ => Throw
  end.
Definition seg_points (p : refpat) : res (list lpoly) :=
  match p with rp_split => Ok [[[half]]] | _ => Ok [] end.
End Lattice.

(** hybrid2d_refinement_pattern.cc:274-981; lattice_const_ is non-negative, [/]
    on it is integer division. *)
Definition ChildPolygons (P : pattern) (codim : nat) : res (list lpoly) :=
  do _ <- verify (codim <=? el_dim (p_el P))%nat;
  let half := p_lc P / 2 in let third := p_lc P / 3 in let one := p_lc P in
  match p_el P with
  | kPoint => match p_pat P with rp_nil => Ok [] | _ => Ok [[[]]] end
  | kSegment => match codim with
                | 0%nat => seg_cells half one (p_pat P)
                | 1%nat => seg_points half (p_pat P)
                | _ => Throw
                end
  | kTria => match codim with
             | 0%nat => tria_cells half third one (p_pat P) (p_anchor P)
             | 1%nat => tria_edges half third one (p_pat P) (p_anchor P)
             | 2%nat => tria_points third (p_pat P)
             | _ => Throw
             end
  | kQuad => match codim with
             | 0%nat => quad_cells half one (p_pat P) (p_anchor P)
             | 1%nat => quad_edges half one (p_pat P) (p_anchor P)
             | 2%nat => quad_points half (p_pat P)
             | _ => Throw
             end
  end.

(** lib/lf/geometry/refinement_pattern.cc:18-27. *)
Definition isParallelogram (poly : lpoly) : res bool :=
  do _ <- lf_assert (forallb (fun c => length c =? 2)%nat poly);
  match poly with
  | [a; b; c; d] =>
      let s k := nth k a 0 - nth k b 0 + nth k c 0 - nth k d 0 in
      Ok (s 0%nat * s 0%nat + s 1%nat * s 1%nat =? 0)
  | _ => Ok false
  end.
