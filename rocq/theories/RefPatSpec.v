(** Specification vocabulary for C21-C24: planar geometry of lattice polygons. *)
From Coq Require Import List Arith Lia Bool ZArith Reals Permutation.
Import ListNotations.
From Verif Require Import Base MeshModel RefPatModel.
Local Open Scope R_scope.

(** Points of the plane in reference coordinates. *)
Definition pt := (R * R)%type.

(** Reference coordinates of a lattice point for lattice constant [lc]. *)
Definition to_ref (lc : Z) (c : lpoint) : pt :=
  (IZR (nth 0 c 0%Z) / IZR lc, IZR (nth 1 c 0%Z) / IZR lc).

(** The closed reference triangle and square (lib/lf/base/ref_el.h, RefEl). *)
Definition in_ref (t : refel) (p : pt) : Prop :=
  match t with
  | kTria => 0 <= fst p /\ 0 <= snd p /\ fst p + snd p <= 1
  | kQuad => 0 <= fst p <= 1 /\ 0 <= snd p <= 1
  | _ => False
  end.
Definition ref_area (t : refel) : R := match t with kTria => / 2 | _ => 1 end.
Definition ref_corners (t : refel) : list pt :=
  match t with
  | kTria => [(0, 0); (1, 0); (0, 1)]
  | _ => [(0, 0); (1, 0); (1, 1); (0, 1)]
  end.

(** > 0 iff [p] lies to the left of the line from [a] to [b]. *)
Definition side (a b p : pt) : R :=
  (fst b - fst a) * (snd p - snd a) - (snd b - snd a) * (fst p - fst a).

(** Consecutive pairs of corners, cyclically. *)
Definition sides {A} (l : list A) : list (A * A) :=
  match l with [] => [] | a :: r => combine l (r ++ [a]) end.

(** A convex polygon (corners listed in either sense of rotation) as a closed
    set, and its interior. *)
Definition in_poly (poly : list pt) (p : pt) : Prop :=
  Forall (fun s => 0 <= side (fst s) (snd s) p) (sides poly) \/
  Forall (fun s => side (fst s) (snd s) p <= 0) (sides poly).
Definition in_interior (poly : list pt) (p : pt) : Prop :=
  Forall (fun s => 0 < side (fst s) (snd s) p) (sides poly) \/
  Forall (fun s => side (fst s) (snd s) p < 0) (sides poly).
(** Strictly convex: all corners but the end points of a side lie strictly on the
    same side of it. *)
Definition convex (poly : list pt) : Prop :=
  let ok (lt : R -> R -> Prop) := forall i j, (i < length poly)%nat -> (j < length poly)%nat ->
     j <> i -> j <> (S i mod length poly)%nat ->
     lt 0 (side (nth i poly (0, 0)) (nth (S i mod length poly) poly (0, 0)) (nth j poly (0, 0))) in
  ok Rlt \/ ok Rgt.
(** Shoelace formula. *)
Definition area (poly : list pt) : R :=
  Rabs (fold_right Rplus 0
          (map (fun s => fst (fst s) * snd (snd s) - snd (fst s) * fst (snd s)) (sides poly))) / 2.

(** The polygons tile the reference element [t]. *)
Record tiles (t : refel) (polys : list (list pt)) : Prop := {
  ti_cover : forall p, in_ref t p -> exists poly, In poly polys /\ in_poly poly p;
  ti_inside : forall poly p, In poly polys -> in_poly poly p -> in_ref t p;
  ti_disjoint : forall i j a b p, nth_error polys i = Some a -> nth_error polys j = Some b ->
     in_interior a p -> in_interior b p -> i = j;
  ti_convex : forall poly, In poly polys -> convex poly /\ (length poly = 3 \/ length poly = 4)%nat;
  ti_area : fold_right Rplus 0 (map area polys) = ref_area t
}.

(** Which edges of the reference element a pattern splits, as documented for the
    class (hybrid2d_refinement_pattern.h:128-200 and refinement_doc.h). *)
Definition split_edges (t : refel) (p : refpat) (a : nat) : list nat :=
  match t, p with
  | kTria, rp_bisect => [a]
  | kTria, rp_trisect => [a; (a + 1) mod 3]
  | kTria, rp_trisect_left => [a; (a + 2) mod 3]
  | kTria, (rp_quadsect | rp_regular | rp_barycentric) => [0; 1; 2]
  | kQuad, rp_trisect => [a]
  | kQuad, rp_quadsect => [a; (a + 1) mod 4]
  | kQuad, (rp_bisect | rp_split) => [a; (a + 2) mod 4]
  | kQuad, rp_threeedge => [a; (a + 1) mod 4; (a + 3) mod 4]
  | kQuad, (rp_regular | rp_barycentric) => [0; 1; 2; 3]
  | _, _ => []
  end%nat.

(** Unordered segments. *)
Definition same_seg {A} (s s' : A * A) : Prop := s = s' \/ s = (snd s', fst s').
(** Equal collections of unordered segments, with multiplicities. *)
Definition same_segs {A} (l l' : list (A * A)) : Prop :=
  exists l2, Permutation l l2 /\ Forall2 same_seg l2 l'.

Definition midpoint (a b : pt) : pt := ((fst a + fst b) / 2, (snd a + snd b) / 2).
(** Edge [j] of the reference element, whole or in two halves. *)
Definition trace (t : refel) (split : list nat) (j : nat) : list (pt * pt) :=
  let c := ref_corners t in
  let a := nth j c (0, 0) in let b := nth (S j mod length c) c (0, 0) in
  if existsb (Nat.eqb j) split then [(a, midpoint a b); (midpoint a b, b)] else [(a, b)].
Definition boundary_traces (t : refel) (split : list nat) : list (pt * pt) :=
  flat_map (trace t split) (seq 0 (length (ref_corners t))).
(** Strictly inside the reference element. *)
Definition inside_ref (t : refel) (p : pt) : Prop :=
  match t with
  | kTria => 0 < fst p /\ 0 < snd p /\ fst p + snd p < 1
  | kQuad => 0 < fst p < 1 /\ 0 < snd p < 1
  | _ => False
  end.
Definition pair_of (l : list pt) : pt * pt := (nth 0 l (0, 0), nth 1 l (0, 0)).

(** Patterns that need an anchor. *)
Definition needs_anchor (t : refel) (p : refpat) : bool :=
  match t, p with
  | kTria, (rp_bisect | rp_trisect | rp_trisect_left | rp_quadsect) => true
  | kQuad, (rp_bisect | rp_split | rp_trisect | rp_quadsect | rp_threeedge) => true
  | _, _ => false
  end.
(** Patterns implemented for a type of cell. *)
Definition implemented (t : refel) (p : refpat) : bool :=
  match t, p with
  | kTria, (rp_split | rp_threeedge) => false
  | kQuad, rp_trisect_left => false
  | kSegment, (rp_nil | rp_copy | rp_split) => true
  | kSegment, _ => false
  | kPoint, (rp_nil | rp_copy) => true
  | kPoint, _ => false
  | _, _ => true
  end.
(** An anchor that the constructor accepts, given if needed. *)
Definition good_anchor (t : refel) (p : refpat) (a : option nat) : Prop :=
  match a with Some k => (k < num_edges t)%nat | None => needs_anchor t p = false end.
