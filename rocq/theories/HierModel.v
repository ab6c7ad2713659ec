(** Model of the hierarchic finite elements of arbitrary degree.

    Models lib/lf/fe/hierarchic_fe.{h,cc} and lib/lf/fe/hierarchic_scalar_fe_space.h.
    Simplifications: exact real arithmetic; the scalar type is R; methods are modelled
    for one point.  Degrees are natural numbers instead of [unsigned]; degree 0, for
    which [degree - 1] wraps around, is rejected by the constructors of the model. *)
From Coq Require Import Reals List Arith Bool.
Import ListNotations.
From Verif Require Import Base MeshModel MeshView DofModel FeModel LagrModel QuadModel.
Local Open Scope R_scope.

(** *** Polynomials *)
(** hierarchic_fe.cc:12-29; the loop carries (Pim1, Pi). *)
Definition legendre_step (x t : R) (s : R * R) (i : nat) : R * R :=
  (snd s, (2 * INR i - 1) * (2 * x - t) / INR i * snd s - (INR i - 1) * t * t / INR i * fst s).
Definition legendre (n : nat) (x t : R) : R :=
  match n with
  | 0%nat => 1
  | 1%nat => 2 * x - t
  | _ => snd (fold_left (legendre_step x t) (seq 2 (n - 1)) (1, 2 * x - t))
  end.
(** hierarchic_fe.cc:31-37; for n >= 1 *)
Definition ilegendre (n : nat) (x t : R) : R :=
  if (n =? 1)%nat then x
  else (legendre n x t - t * t * legendre (n - 2) x t) / (2 * (2 * INR n - 1)).
(** hierarchic_fe.cc:39-41; for n >= 1 *)
Definition ilegendre_dx (n : nat) (x t : R) : R := legendre (n - 1) x t.
(** hierarchic_fe.cc:43-48; for n >= 1 *)
Definition ilegendre_dt (n : nat) (x t : R) : R :=
  if (n =? 1)%nat then 0
  else - (1 / 2) * (legendre (n - 1) x t + t * legendre (n - 2) x t).
(** hierarchic_fe.cc:51-58 *)
Fixpoint legendre_dx (n : nat) (x t : R) : R :=
  match n with
  | 0%nat => 0
  | S k => 2 * INR n * legendre k x t + (2 * x - t) * legendre_dx k x t
  end.

(** hierarchic_fe.cc:60-87; the loop carries (p0, p1), p1 being the p2 of the turn. *)
Definition jacobi_step (al be x : R) (s : R * R) (j : nat) : R * R :=
  let j := INR j in
  let alpha1 := 2 * (j + 1) * (j + al + be + 1) * (2 * j + al + be) in
  let alpha2 := (2 * j + al + be + 1) * (al * al - be * be) in
  let alpha3 := (2 * j + al + be) * (2 * j + al + be + 1) * (2 * j + al + be + 2) in
  let alpha4 := 2 * (j + al) * (j + be) * (2 * j + al + be + 2) in
  (snd s, 1 / alpha1 * ((alpha2 + alpha3 * x) * snd s - alpha4 * fst s)).
Definition jacobi_ab (n : nat) (al be x : R) : R :=
  let x := 2 * x - 1 in
  match n with
  | 0%nat => 1
  | 1%nat => 1 / 2 * (al - be + x * (al + be + 2))
  | _ => snd (fold_left (jacobi_step al be x) (seq 1 (n - 1)) (1, 1 / 2 * (al - be + x * (al + be + 2))))
  end.
(** hierarchic_fe.cc:89-91 *)
Definition jacobi (n : nat) (al x : R) : R := jacobi_ab n al 0 x.
(** hierarchic_fe.cc:103-108 and 115-121: the next polynomial, number [m]. *)
Definition ijacobi_next (al x m pm1 p : R) : R :=
  let a := 2 * m * (m + al) * (2 * m + al - 2) in
  let b := 2 * m + al - 1 in
  let c := (2 * m + al) * (2 * m + al - 2) in
  let d := 2 * (m + al - 1) * (m - 1) * (2 * m + al) in
  (b * (c * (2 * x - 1) + al * al) * p - d * pm1) / a.
(** hierarchic_fe.cc:93-128; the loop carries (Pjm2, Pjm1, Pj). *)
Definition ijacobi_step (al x : R) (s : R * R * R) (j : nat) : R * R * R :=
  let '(_, pm1, p) := s in (pm1, p, ijacobi_next al x (INR j + 1) pm1 p).
Definition ijacobi (n : nat) (al x : R) : R :=
  match n with
  | 0%nat => -1
  | 1%nat => x
  | _ =>
      let p1 := (2 + al) * x - 1 in
      let '(pm2, pm1, p) := fold_left (ijacobi_step al x) (seq 2 (n - 2)) (1, p1, ijacobi_next al x 2 1 p1) in
      let n := INR n in
      let an := (n + al) / ((2 * n + al - 1) * (2 * n + al)) in
      let bn := al / ((2 * n + al - 2) * (2 * n + al)) in
      let cn := (n - 1) / ((2 * n + al - 2) * (2 * n + al - 1)) in
      an * p + bn * pm1 - cn * pm2
  end.
(** hierarchic_fe.cc:130-132; for n >= 1 *)
Definition ijacobi_dx (n : nat) (al x : R) : R := jacobi (n - 1) al x.
(** hierarchic_fe.cc:134-139 *)
Definition jacobi_dx (n : nat) (al x : R) : R :=
  if (n =? 0)%nat then 0 else jacobi_ab (n - 1) (al + 1) 1 x * (al + INR n + 1).

(** *** Segments *)
(** Dual basis on a segment: hierarchic_fe.h:366-384, also 955-1016 and 1560-1640.
    [v0], [v1]: values at the ends, [vals]: at the quadrature points. *)
Definition seg_dual (q : quadrule) (v0 v1 : R) (vals : list R) (i : nat) : R :=
  let p0 := ilegendre_dx i 0 1 in
  let p1 := ilegendre_dx i 1 1 in
  let psidd := map (fun p => legendre_dx (i - 1) (nth 0 p 0) 1) (qr_points q) in
  let integ := dot (qr_weights q) (map (fun p => fst p * snd p) (combine psidd vals)) in
  (p1 * v1 - p0 * v0 - integ) * (2 * INR i - 1).
(** hierarchic_fe.h:293-309 *)
Definition seg_rows (p : nat) (x : R) : list R :=
  [1 - x; x] ++ map (fun i => ilegendre (i + 2) x 1) (seq 0 (p - 1)).
(** 311-328 *)
Definition seg_grads (p : nat) (x : R) : list R :=
  [-1; 1] ++ map (fun i => ilegendre_dx (i + 2) x 1) (seq 0 (p - 1)).
(** 361-386 *)
Definition seg_n2d (p : nat) (q : quadrule) (v : list R) : list R :=
  [nth 0 v 0; nth 1 v 0] ++ map (seg_dual q (nth 0 v 0) (nth 1 v 0) (skipn 2 v)) (seq 2 (p - 1)).
(** The values must be as many as there are evaluation nodes. *)
Definition sized {A} (n : nat) (v : list R) (a : A) : res A := do _ <- lf_assert (length v =? n); Ok a.
(** 241-391, with the quadrature rule [q] for degree 2 (p - 1). *)
Definition hier_segment (p : nat) (q : quadrule) : srfe := {|
  fe_el := kSegment; fe_degree := p; fe_total := p + 1;
  fe_num1 := fun c => do _ <- lf_assert (c <=? 1); Ok (if c =? 0 then p - 1 else 2)%nat;
  fe_num2 := fun c i => do _ <- lf_assert ((c =? 0) && (i =? 0) || (c =? 1) && (i <? 2))%nat;
                        do _ <- lf_assert (c <=? 1); Ok (if c =? 0 then p - 1 else 2)%nat;
  fe_eval := fun x => point1 x (seg_rows p);
  fe_grad := fun x => point1 x (fun s => map (fun g => [g]) (seg_grads p s));
  fe_nodes := [[0]; [1]] ++ qr_points q;
  fe_num_nodes := NumPoints q + 2;
  fe_n2d := fun v => sized (NumPoints q + 2) v (seg_n2d p q v)
|}.

(** *** Triangles and quadrilaterals: common parts *)
(** Rows of one edge with [n] functions: in order if the edge has positive relative
    orientation, otherwise the other functions, last row first. *)
Definition edge_rows {A} (o : bool) (n : nat) (pos neg : nat -> A) : list A :=
  if o then map pos (seq 0 n) else rev (map neg (seq 0 n)).
Definition edge_deg (ed : list nat) (k : nat) : nat := nth k ed 0%nat.
Definition ori_at (os : list bool) (k : nat) : bool := nth k os true.
(** Points of an edge: 838-869 and 1470-1512; none if the edge has degree 1. *)
Definition edge_pts (d : nat) (q : quadrule) : nat := if (1 <? d)%nat then NumPoints q else 0.
Definition edge_nodes (d : nat) (q : quadrule) (o : bool) (pos neg : R -> list R) : list (list R) :=
  if (1 <? d)%nat then map (fun p => (if o then pos else neg) (nth 0 p 0)) (qr_points q) else [].
(** Coefficients of one edge: 953-974, 976-997, 999-1018 and 1560-1640. [va], [vb]:
    values at the first and the second local end point. *)
Definition edge_dofs (d : nat) (q : quadrule) (o : bool) (va vb : R) (vals : list R) : list R :=
  edge_rows o (d - 1) (fun i => seg_dual q va vb vals (i + 2)) (fun i => seg_dual q vb va vals (i + 2)).
(** [nodevals.segment(k, n)] *)
Definition segment {A} (k n : nat) (v : list A) : list A := firstn n (skipn k v).

(** *** Triangles *)
(** 522-526 *)
Definition tria_interior (p : nat) : nat := if (p <=? 2)%nat then 0%nat else ((p - 2) * (p - 1) / 2)%nat.
(** Interior functions, numbered by the degrees (i, j) as in the loops 644 and 660. *)
Definition tria_ij (p : nat) : list (nat * nat) :=
  if (2 <? p)%nat
  then concat (map (fun i => map (fun j => (i, j)) (seq 0 (p - i - 2))) (seq 0 (p - 2))) else [].
(** The edge function that enters interior functions, 649-656 *)
Definition tria_edge0 (o : bool) (i : nat) (l1 l2 : R) : R :=
  if o then ilegendre (i + 2) l2 (l1 + l2) else ilegendre (i + 2) l1 (l1 + l2).
(** 579-686 *)
Definition tria_rows (p : nat) (ed : list nat) (os : list bool) (x y : R) : list R :=
  let l1 := 1 - x - y in let l2 := x in let l3 := y in
  [l1; l2; l3]
  ++ edge_rows (ori_at os 0) (edge_deg ed 0 - 1)
       (fun i => ilegendre (i + 2) l2 (l1 + l2)) (fun i => ilegendre (i + 2) l1 (l1 + l2))
  ++ edge_rows (ori_at os 1) (edge_deg ed 1 - 1)
       (fun i => ilegendre (i + 2) l3 (l2 + l3)) (fun i => ilegendre (i + 2) l2 (l2 + l3))
  ++ edge_rows (ori_at os 2) (edge_deg ed 2 - 1)
       (fun i => ilegendre (i + 2) l1 (l3 + l1)) (fun i => ilegendre (i + 2) l3 (l3 + l1))
  ++ map (fun ij => tria_edge0 (ori_at os 0) (fst ij) l1 l2 *
                    ijacobi (snd ij + 1) (2 * INR (fst ij) + 4) l3) (tria_ij p).
(** Gradient of ILegendre(n, a, a + b) for a and b with constant gradients, as in
    724-741 and similar *)
Definition chain (n : nat) (a b : R) (ga gb : R * R) : list R :=
  [ilegendre_dx n a (a + b) * fst ga + ilegendre_dt n a (a + b) * (fst ga + fst gb);
   ilegendre_dx n a (a + b) * snd ga + ilegendre_dt n a (a + b) * (snd ga + snd gb)].
(** 688-820 *)
Definition tria_grads (p : nat) (ed : list nat) (os : list bool) (x y : R) : list (list R) :=
  let l1 := 1 - x - y in let l2 := x in let l3 := y in
  let d1 := (-1, -1) in let d2 := (1, 0) in let d3 := (0, 1) in
  [[fst d1; snd d1]; [fst d2; snd d2]; [fst d3; snd d3]]
  ++ edge_rows (ori_at os 0) (edge_deg ed 0 - 1)
       (fun i => chain (i + 2) l2 l1 d2 d1) (fun i => chain (i + 2) l1 l2 d1 d2)
  ++ edge_rows (ori_at os 1) (edge_deg ed 1 - 1)
       (fun i => chain (i + 2) l3 l2 d3 d2) (fun i => chain (i + 2) l2 l3 d2 d3)
  ++ edge_rows (ori_at os 2) (edge_deg ed 2 - 1)
       (fun i => chain (i + 2) l1 l3 d1 d3) (fun i => chain (i + 2) l3 l1 d3 d1)
  ++ map (fun ij =>
       let ev := tria_edge0 (ori_at os 0) (fst ij) l1 l2 in
       let de := if ori_at os 0 then chain (fst ij + 2) l2 l1 d2 d1 else chain (fst ij + 2) l1 l2 d1 d2 in
       let inte := ijacobi (snd ij + 1) (2 * INR (fst ij) + 4) l3 in
       let eval := ijacobi_dx (snd ij + 1) (2 * INR (fst ij) + 4) l3 in
       [inte * nth 0 de 0 + ev * eval * fst d3; inte * nth 1 de 0 + ev * eval * snd d3]) (tria_ij p).
(** 828-878 *)
Definition tria_nodes (ed : list nat) (os : list bool) (qe : list quadrule) (qt : quadrule) : list (list R) :=
  let q k := nth k qe qt in
  [[0; 0]; [1; 0]; [0; 1]]
  ++ edge_nodes (edge_deg ed 0) (q 0%nat) (ori_at os 0) (fun s => [s; 0]) (fun s => [1 - s; 0])
  ++ edge_nodes (edge_deg ed 1) (q 1%nat) (ori_at os 1) (fun s => [1 - s; s]) (fun s => [s; 1 - s])
  ++ edge_nodes (edge_deg ed 2) (q 2%nat) (ori_at os 2) (fun s => [0; 1 - s]) (fun s => [0; s])
  ++ qr_points qt.
(** 883-889 *)
Definition tria_num_nodes (ed : list nat) (qe : list quadrule) (qt : quadrule) : nat :=
  let n k := edge_pts (edge_deg ed k) (nth k qe qt) in (3 + n 0 + n 1 + n 2 + NumPoints qt)%nat.
(** 945-1020 *)
Definition tria_edge_dofs (ed : list nat) (os : list bool) (qe : list quadrule) (qt : quadrule) (v : list R) : list R :=
  let q k := nth k qe qt in
  let n k := edge_pts (edge_deg ed k) (q k) in
  let at_ k := nth k v 0 in
  edge_dofs (edge_deg ed 0) (q 0%nat) (ori_at os 0) (at_ 0%nat) (at_ 1%nat) (segment 3 (n 0%nat) v)
  ++ edge_dofs (edge_deg ed 1) (q 1%nat) (ori_at os 1) (at_ 1%nat) (at_ 2%nat) (segment (3 + n 0%nat) (n 1%nat) v)
  ++ edge_dofs (edge_deg ed 2) (q 2%nat) (ori_at os 2) (at_ 2%nat) (at_ 0%nat)
       (segment (3 + n 0%nat + n 1%nat) (n 2%nat) v).
(** 1026-1089: one coefficient *)
Definition face_dual (o : bool) (q : quadrule) (vals : list R) (ij : nat * nat) : R :=
  let i := fst ij in let j := snd ij in
  let term (p : list R) (v : R) :=
    let x := nth 0 p 0 in let y := nth 1 p 0 in
    let xnorm := x / (1 - y) in
    let xadj := if o then xnorm else 1 - xnorm in
    v * legendre_dx (i + 1) xadj 1 *
    ((1 - y) ^ (i + 1) * jacobi_dx j (2 * INR i + 4) y
     - (2 * INR i + 4) * (1 - y) ^ i * ijacobi_dx (j + 1) (2 * INR i + 4) y) in
  dot (qr_weights q) (map (fun pv => term (fst pv) (snd pv)) (combine (qr_points q) vals))
  * (2 * INR i + 3) * (2 * INR j + 2 * INR i + 5).
Definition tria_face_dofs (p : nat) (ed : list nat) (os : list bool) (qe : list quadrule) (qt : quadrule) (v : list R) : list R :=
  let n k := edge_pts (edge_deg ed k) (nth k qe qt) in
  map (face_dual (ori_at os 0) qt (segment (3 + (n 0%nat + n 1%nat + n 2%nat)) (NumPoints qt) v)) (tria_ij p).
(** 891-917 *)
Definition tria_n2d (p : nat) (ed : list nat) (os : list bool) (qe : list quadrule) (qt : quadrule) (v : list R) : list R :=
  let vertex := firstn 3 v in
  let edge := tria_edge_dofs ed os qe qt v in
  let face := tria_face_dofs p ed os qe qt v in
  let boundary := map (fun pt => dot (vertex ++ edge) (tria_rows p ed os (nth 0 pt 0) (nth 1 pt 0)))
                      (tria_nodes ed os qe qt) in
  let bface := tria_face_dofs p ed os qe qt boundary in
  vertex ++ edge ++ map (fun a => fst a - snd a) (combine face bface).
Definition all_equal (l : list nat) : bool := match l with [] => true | a :: l => forallb (Nat.eqb a) l end.
(** 473-1090; [qe]: rules for degree 2 (edge degree - 1), [qt]: rule for degree
    2 (p - 1) on the triangle. *)
Definition hier_tria (p : nat) (ed : list nat) (os : list bool) (qe : list quadrule) (qt : quadrule) : srfe := {|
  fe_el := kTria; fe_degree := Nat.max (Nat.max p (Nat.max (edge_deg ed 0) (Nat.max (edge_deg ed 1) (edge_deg ed 2)))) 1;
  fe_total := tria_interior p + (edge_deg ed 0 - 1) + (edge_deg ed 1 - 1) + (edge_deg ed 2 - 1) + 3;
  fe_num1 := fun c => match c with
    | 0 => Ok (tria_interior p)
    | 1 => do _ <- verify (all_equal ed); Ok (edge_deg ed 0 - 1)
    | 2 => Ok 1 | _ => Assert end%nat;
  fe_num2 := fun c i => match c with
    | 0 => do _ <- lf_assert (i =? 0); Ok (tria_interior p)
    | 1 => do _ <- lf_assert (i <=? 2); Ok (edge_deg ed i - 1)
    | 2 => do _ <- lf_assert (i <=? 2); Ok 1 | _ => Throw end%nat;
  fe_eval := fun x => point2 x (tria_rows p ed os);
  fe_grad := fun x => point2 x (tria_grads p ed os);
  fe_nodes := tria_nodes ed os qe qt;
  fe_num_nodes := tria_num_nodes ed qe qt;
  fe_n2d := fun v => sized (tria_num_nodes ed qe qt) v (tria_n2d p ed os qe qt v)
|}.

(** *** Quadrilaterals *)
(** 1184-1187, also the degree of the one-dimensional element fe1d_ (1169-1171) *)
Definition quad_deg (p : nat) (ed : list nat) : nat :=
  Nat.max p (Nat.max (edge_deg ed 0) (Nat.max (edge_deg ed 1) (Nat.max (edge_deg ed 2) (edge_deg ed 3)))).
(** Interior functions in the order of the loops 1316-1321: (j, i), the degrees in x
    and y *)
Definition quad_ij (p : nat) : list (nat * nat) :=
  concat (map (fun i => map (fun j => (j, i)) (seq 0 (p - 1))) (seq 0 (p - 1))).
(** 1247-1329 *)
Definition quad_rows (p : nat) (ed : list nat) (os : list bool) (x y : R) : list R :=
  let m := quad_deg p ed in
  let sx k := nth k (seg_rows m x) 0 in
  let sy k := nth k (seg_rows m y) 0 in
  let fx k := nth k (seg_rows m (1 - x)) 0 in
  let fy k := nth k (seg_rows m (1 - y)) 0 in
  [sx 0%nat * sy 0%nat; sx 1%nat * sy 0%nat; sx 1%nat * sy 1%nat; sx 0%nat * sy 1%nat]
  ++ edge_rows (ori_at os 0) (edge_deg ed 0 - 1)
       (fun i => sx (2 + i)%nat * sy 0%nat) (fun i => fx (2 + i)%nat * sy 0%nat)
  ++ edge_rows (ori_at os 1) (edge_deg ed 1 - 1)
       (fun i => sx 1%nat * sy (2 + i)%nat) (fun i => sx 1%nat * fy (2 + i)%nat)
  ++ edge_rows (ori_at os 2) (edge_deg ed 2 - 1)
       (fun i => fx (2 + i)%nat * sy 1%nat) (fun i => sx (2 + i)%nat * sy 1%nat)
  ++ edge_rows (ori_at os 3) (edge_deg ed 3 - 1)
       (fun i => sx 0%nat * fy (2 + i)%nat) (fun i => sx 0%nat * sy (2 + i)%nat)
  ++ map (fun ji => sx (fst ji + 2)%nat * sy (snd ji + 2)%nat) (quad_ij p).
(** 1331-1444 *)
Definition quad_grads (p : nat) (ed : list nat) (os : list bool) (x y : R) : list (list R) :=
  let m := quad_deg p ed in
  let sx k := nth k (seg_rows m x) 0 in
  let sy k := nth k (seg_rows m y) 0 in
  let fx k := nth k (seg_rows m (1 - x)) 0 in
  let fy k := nth k (seg_rows m (1 - y)) 0 in
  let dx k := nth k (seg_grads m x) 0 in
  let dy k := nth k (seg_grads m y) 0 in
  let dfx k := nth k (seg_grads m (1 - x)) 0 in
  let dfy k := nth k (seg_grads m (1 - y)) 0 in
  [[dx 0%nat * sy 0%nat; sx 0%nat * dy 0%nat]; [dx 1%nat * sy 0%nat; sx 1%nat * dy 0%nat];
   [dx 1%nat * sy 1%nat; sx 1%nat * dy 1%nat]; [dx 0%nat * sy 1%nat; sx 0%nat * dy 1%nat]]
  ++ edge_rows (ori_at os 0) (edge_deg ed 0 - 1)
       (fun j => [dx (2 + j)%nat * sy 0%nat; sx (2 + j)%nat * dy 0%nat])
       (fun j => [- dfx (2 + j)%nat * sy 0%nat; fx (2 + j)%nat * dy 0%nat])
  ++ edge_rows (ori_at os 1) (edge_deg ed 1 - 1)
       (fun j => [dx 1%nat * sy (2 + j)%nat; sx 1%nat * dy (2 + j)%nat])
       (fun j => [dx 1%nat * fy (2 + j)%nat; sx 1%nat * - dfy (2 + j)%nat])
  ++ edge_rows (ori_at os 2) (edge_deg ed 2 - 1)
       (fun j => [- dfx (2 + j)%nat * sy 1%nat; fx (2 + j)%nat * dy 1%nat])
       (fun j => [dx (2 + j)%nat * sy 1%nat; sx (2 + j)%nat * dy 1%nat])
  ++ edge_rows (ori_at os 3) (edge_deg ed 3 - 1)
       (fun j => [dx 0%nat * fy (2 + j)%nat; sx 0%nat * - dfy (2 + j)%nat])
       (fun j => [dx 0%nat * sy (2 + j)%nat; sx 0%nat * dy (2 + j)%nat])
  ++ map (fun kj => [dx (fst kj + 2)%nat * sy (snd kj + 2)%nat; sx (fst kj + 2)%nat * dy (snd kj + 2)%nat]) (quad_ij p).
(** The nodes of fe1d_, if there are interior functions. *)
Definition quad_pts1 (p : nat) (q1 : quadrule) : list R :=
  if (1 <? p)%nat then [0; 1] ++ map (fun a => nth 0 a 0) (qr_points q1) else [].
(** 1452-1525; [qe]: rules of the edges, [q1]: rule of fe1d_ *)
Definition quad_nodes (p : nat) (ed : list nat) (os : list bool) (qe : list quadrule) (q1 : quadrule) : list (list R) :=
  let q k := nth k qe q1 in
  [[0; 0]; [1; 0]; [1; 1]; [0; 1]]
  ++ edge_nodes (edge_deg ed 0) (q 0%nat) (ori_at os 0) (fun s => [s; 0]) (fun s => [1 - s; 0])
  ++ edge_nodes (edge_deg ed 1) (q 1%nat) (ori_at os 1) (fun s => [1; s]) (fun s => [1; 1 - s])
  ++ edge_nodes (edge_deg ed 2) (q 2%nat) (ori_at os 2) (fun s => [1 - s; 1]) (fun s => [s; 1])
  ++ edge_nodes (edge_deg ed 3) (q 3%nat) (ori_at os 3) (fun s => [0; 1 - s]) (fun s => [0; s])
  ++ concat (map (fun y => map (fun x => [x; y]) (quad_pts1 p q1)) (quad_pts1 p q1)).
(** 1530-1542 *)
Definition quad_num_nodes (p : nat) (ed : list nat) (qe : list quadrule) (q1 : quadrule) : nat :=
  let n k := edge_pts (edge_deg ed k) (nth k qe q1) in
  let nq := if (1 <? p)%nat then (NumPoints q1 + 2)%nat else 0%nat in
  (4 + n 0 + n 1 + n 2 + n 3 + nq * nq)%nat.
(** 1642-1668: the one-dimensional functionals in x for every node in y, then in y;
    the result is read column by column. [nq]: number of nodes of fe1d_. *)
Definition quad_face_dofs (p m : nat) (q1 : quadrule) (vals : list R) : list R :=
  if (1 <? p)%nat then
    let nq := (NumPoints q1 + 2)%nat in
    let temp := map (fun i => segment 2 (p - 1) (seg_n2d m q1 (segment (nq * i) nq vals))) (seq 0 nq) in
    let temp2 := map (fun k => segment 2 (p - 1) (seg_n2d m q1 (map (fun row => nth k row 0) temp))) (seq 0 (p - 1)) in
    concat (map (fun l => map (fun row => nth l row 0) temp2) (seq 0 (p - 1)))
  else [].
(** 1545-1668.  The loop over i runs up to Degree() and skips edges of lower degree,
    so every edge gets its coefficients 2 .. edge degree. *)
Definition quad_n2d (p : nat) (ed : list nat) (os : list bool) (qe : list quadrule) (q1 : quadrule) (v : list R) : list R :=
  let q k := nth k qe q1 in
  let n k := edge_pts (edge_deg ed k) (q k) in
  let at_ k := nth k v 0 in
  firstn 4 v
  ++ edge_dofs (edge_deg ed 0) (q 0%nat) (ori_at os 0) (at_ 0%nat) (at_ 1%nat) (segment 4 (n 0%nat) v)
  ++ edge_dofs (edge_deg ed 1) (q 1%nat) (ori_at os 1) (at_ 1%nat) (at_ 2%nat) (segment (4 + n 0%nat) (n 1%nat) v)
  ++ edge_dofs (edge_deg ed 2) (q 2%nat) (ori_at os 2) (at_ 2%nat) (at_ 3%nat)
       (segment (4 + n 0%nat + n 1%nat) (n 2%nat) v)
  ++ edge_dofs (edge_deg ed 3) (q 3%nat) (ori_at os 3) (at_ 3%nat) (at_ 0%nat)
       (segment (4 + n 0%nat + n 1%nat + n 2%nat) (n 3%nat) v)
  ++ quad_face_dofs p (quad_deg p ed) q1 (skipn (4 + n 0 + n 1 + n 2 + n 3)%nat v).
(** 1140-1677 *)
Definition hier_quad (p : nat) (ed : list nat) (os : list bool) (qe : list quadrule) (q1 : quadrule) : srfe := {|
  fe_el := kQuad; fe_degree := quad_deg p ed;
  fe_total := 4 + (p - 1) * (p - 1) + (edge_deg ed 0 - 1) + (edge_deg ed 1 - 1) + (edge_deg ed 2 - 1) + (edge_deg ed 3 - 1);
  fe_num1 := fun c => match c with
    | 0 => Ok ((p - 1) * (p - 1))
    | 1 => do _ <- verify (all_equal ed); Ok (edge_deg ed 0 - 1)
    | 2 => Ok 1 | _ => Assert end%nat;
  fe_num2 := fun c i => match c with
    | 0 => do _ <- lf_assert (i =? 0); Ok ((p - 1) * (p - 1))
    | 1 => do _ <- lf_assert (i <? 4); Ok (edge_deg ed i - 1)
    | 2 => do _ <- lf_assert (i <? 4); Ok 1 | _ => Throw end%nat;
  fe_eval := fun x => point2 x (quad_rows p ed os);
  fe_grad := fun x => point2 x (quad_grads p ed os);
  fe_nodes := quad_nodes p ed os qe q1;
  fe_num_nodes := quad_num_nodes p ed qe q1;
  fe_n2d := fun v => sized (quad_num_nodes p ed qe q1) v (quad_n2d p ed os qe q1 v)
|}.

(** *** The constructors *)
(** QuadRuleCache::Get, lib/lf/quad/quad_rule_cache.cc:13-32, as a function of the
    reference element and the degree. *)
Definition rules := refel -> nat -> quadrule.
Section Elements.
Variable get : rules.
Definition edge_rules (ed : list nat) : list quadrule := map (fun d : nat => get kSegment (2 * (d - 1))%nat) ed.
(** hierarchic_fe.h:250-253; degree 0 asks for a rule of degree 2^32 - 2. *)
Definition new_segment (p : nat) : res srfe :=
  do _ <- lf_assert (1 <=? p); Ok (hier_segment p (get kSegment (2 * (p - 1))%nat)).
(** 482-503 *)
Definition new_tria (p : nat) (ed : list nat) (os : list bool) : res srfe :=
  do _ <- lf_assert (forallb (fun d => 1 <=? d) (p :: ed));
  Ok (hier_tria p ed os (edge_rules ed) (get kTria (2 * (p - 1))%nat)).
(** 1149-1177 *)
Definition new_quad (p : nat) (ed : list nat) (os : list bool) : res srfe :=
  do _ <- lf_assert (forallb (fun d => 1 <=? d) (p :: ed));
  Ok (hier_quad p ed os (edge_rules ed) (get kSegment (2 * (quad_deg p ed - 1))%nat)).

(** *** HierarchicScalarFESpace *)
(** hierarchic_scalar_fe_space.h:99-114 *)
Definition hier_count (m : mesh) (deg : ent -> nat) (e : ent) : nat :=
  match ent_type m e with
  | kPoint => 1
  | kSegment => deg e - 1
  | kTria => if deg e <=? 2 then 0 else (deg e - 2) * (deg e - 1) / 2
  | kQuad => (deg e - 1) * (deg e - 1)
  end%nat.
(** Init, 178-220: the element of an entity. *)
Definition hier_element (m : mesh) (deg : ent -> nat) (e : ent) : res srfe :=
  match e with
  | ENode _ => Ok (fe_point 1)
  | EEdge _ => new_segment (deg e)
  | ECell i =>
      match nth_error (mv_cells m) i with
      | None => Assert
      | Some c =>
          let ed := map (fun k => deg (EEdge k)) (cv_edges c) in
          match cv_type c with
          | kTria => new_tria (deg e) ed (cv_ori c)
          | kQuad => new_quad (deg e) ed (cv_ori c)
          | _ => Throw
          end
      end
  end.
Definition to_option {A} (r : res A) : option A := match r with Ok a => Some a | _ => None end.
(** 93-116: the constructor; building the element of any entity may fail. *)
Definition hier_space (m : mesh) (deg : ent -> nat) : res fe_space :=
  do _ <- traverse (fun i => hier_element m deg (ENode i)) (seq 0 (mv_count m 2));
  do _ <- traverse (fun i => hier_element m deg (EEdge i)) (seq 0 (mv_count m 1));
  do _ <- traverse (fun i => hier_element m deg (ECell i)) (seq 0 (mv_count m 0));
  Ok (mkSpace m (fun e => to_option (hier_element m deg e)) (dy_handler (dynamic m (hier_count m deg)))).
End Elements.
