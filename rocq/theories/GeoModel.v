(** Model of lib/lf/geometry: Point, SegmentO1, TriaO1, QuadO1, Parallelogram,
    SegmentO2, TriaO2, QuadO2 and Volume.  Doubles are exact reals.  Methods that
    take a matrix of reference points act on its columns one by one; the model
    takes one column.  Vectors of world coordinates are functions of the
    coordinate's number, of which the first [go_dim] matter. *)
From Coq Require Import Reals List Arith Lia Bool ZArith.
Import ListNotations.
From Verif Require Import Base MeshModel RefPatModel.
Local Open Scope R_scope.

Definition vec := nat -> R.
Inductive gkind := GPoint | GSegmentO1 | GTriaO1 | GQuadO1 | GParallelogram
                 | GSegmentO2 | GTriaO2 | GQuadO2.
(** Kind of object, DimGlobal() and the columns of coords_. *)
Record geo := mkGeo { go_kind : gkind; go_dim : nat; go_cols : list vec }.

Definition vadd (a b : vec) : vec := fun k => a k + b k.
Definition vsub (a b : vec) : vec := fun k => a k - b k.
Definition vscale (s : R) (a : vec) : vec := fun k => s * a k.
Definition vzero : vec := fun _ => 0.
(** Eigen's dot product and squaredNorm in [d] dimensions. *)
Definition dot (d : nat) (a b : vec) : R := fold_right Rplus 0 (map (fun k => a k * b k) (seq 0 d)).
Definition sqnorm (d : nat) (a : vec) : R := dot d a a.
(** Comparisons of doubles. *)
Definition gtb (a b : R) : bool := if Rlt_dec b a then true else false.
Definition leb (a b : R) : bool := if Rle_dec a b then true else false.

(** RefEl() of the kinds and DimLocal(). *)
Definition kind_el (k : gkind) : refel :=
  match k with
  | GPoint => kPoint | GSegmentO1 | GSegmentO2 => kSegment | GTriaO1 | GTriaO2 => kTria
  | GQuadO1 | GParallelogram | GQuadO2 => kQuad
  end.
Definition dim_local (k : gkind) : nat := el_dim (kind_el k).
(** Number of columns in the type of coords_ (point.h:41, segment_o1.h:35,
    tria_o1.h:62, quad_o1.h:89,167, segment_o2.h:59, tria_o2.h:66, quad_o2.h:70). *)
Definition num_cols (k : gkind) : nat :=
  match k with
  | GPoint => 1 | GSegmentO1 => 2 | GTriaO1 => 3 | GQuadO1 | GParallelogram => 4
  | GSegmentO2 => 3 | GTriaO2 => 6 | GQuadO2 => 8
  end.
Definition col (g : geo) (i : nat) : vec := nth i (go_cols g) vzero.

(** *** Constructors *)
Definition cross (a b : vec) : vec := fun k =>
  match k with
  | 0%nat => a 1%nat * b 2%nat - a 2%nat * b 1%nat
  | 1%nat => a 2%nat * b 0%nat - a 0%nat * b 2%nat
  | _ => a 0%nat * b 1%nat - a 1%nat * b 0%nat
  end.
Definition cross2 (a b : vec) : R := a 0%nat * b 1%nat - a 1%nat * b 0%nat.
(** tria_o1.h:18, quad_o1.h:18: the default tolerance 1.0E-8. *)
Definition tol : R := / 10 ^ 8.

(** tria_o1.cc:10-48 (assertNonDegenerateTriangle) *)
Definition check_tria (d : nat) (c : nat -> vec) : res unit :=
  let e0 := sqnorm d (vsub (c 1%nat) (c 0%nat)) in
  let e1 := sqnorm d (vsub (c 2%nat) (c 1%nat)) in
  let e2 := sqnorm d (vsub (c 0%nat) (c 2%nat)) in
  let circum := e0 + e1 + e2 in
  do _ <- verify (gtb e0 (tol * circum));
  do _ <- verify (gtb e1 (tol * circum));
  do _ <- verify (gtb e2 (tol * circum));
  let u := vsub (c 1%nat) (c 0%nat) in let v := vsub (c 2%nat) (c 0%nat) in
  match d with
  | 2%nat => verify (gtb (Rabs (cross2 u v)) (tol * circum))
  | 3%nat => verify (gtb (sqrt (sqnorm 3 (cross u v))) (tol * circum))
  | _ => Assert
  end.
(** quad_o1.cc:12-58 (assertNonDegenerateQuad) *)
Definition check_quad (d : nat) (c : nat -> vec) : res unit :=
  let e0 := sqnorm d (vsub (c 1%nat) (c 0%nat)) in
  let e1 := sqnorm d (vsub (c 2%nat) (c 1%nat)) in
  let e2 := sqnorm d (vsub (c 3%nat) (c 2%nat)) in
  let e3 := sqnorm d (vsub (c 0%nat) (c 3%nat)) in
  let circum := e0 + e1 + e2 + e3 in
  do _ <- verify (gtb e0 (tol * circum));
  do _ <- verify (gtb e1 (tol * circum));
  do _ <- verify (gtb e2 (tol * circum));
  do _ <- verify (gtb e3 (tol * circum));
  let u := vsub (c 1%nat) (c 0%nat) in let v := vsub (c 2%nat) (c 0%nat) in
  let w := vsub (c 3%nat) (c 0%nat) in
  match d with
  | 2%nat => verify (gtb (Rabs (cross2 u v) + Rabs (cross2 w v)) (tol * circum))
  | 3%nat => verify (gtb (sqrt (sqnorm 3 (cross u v)) + sqrt (sqnorm 3 (cross w v))) (tol * circum))
  | _ => Assert
  end.
(** Parallelogram's constructor from four points (quad_o1.cc:258-271). *)
Definition check_parallelogram (d : nat) (c : nat -> vec) : res unit :=
  do _ <- check_quad d c;
  let s := vadd (vsub (c 3%nat) (c 2%nat)) (vsub (c 1%nat) (c 0%nat)) in
  lf_assert (gtb (/ 10 ^ 8 * sqrt (sqnorm d (vsub (c 2%nat) (c 0%nat)))) (sqrt (sqnorm d s))).

(** The constructors: point.h:12, segment_o1.h:13-14, tria_o1.cc:50-68, quad_o1.cc:60-64,
    258-271, segment_o2.cc:15-26, tria_o2.cc:18-47, quad_o2.cc:19-54.  The number of
    columns is part of the argument's type in C++, here it is checked; derived
    members (jacobian_, alpha_, ...) are functions of the columns below. *)
Definition new_geo (k : gkind) (d : nat) (cs : list vec) : res geo :=
  do _ <- lf_assert (length cs =? num_cols k)%nat;
  let c i := nth i cs vzero in
  do _ <- match k with
          | GTriaO1 => check_tria d c
          | GQuadO1 => check_quad d c
          | GParallelogram => check_parallelogram d c
          | _ => Ok tt
          end;
  Ok (mkGeo k d cs).
(** Parallelogram's constructor from three points (quad_o1.cc:273-288). *)
Definition new_parallelogram3 (d : nat) (p0 p1 p2 : vec) : res geo :=
  let cs := [p0; p1; vadd p1 (vsub p2 p0); p2] in
  do _ <- check_quad d (fun i => nth i cs vzero);
  Ok (mkGeo GParallelogram d cs).

(** *** Monomial coefficients of the second-order maps *)
Section Coefficients.
Variable g : geo.
Let A := col g 0. Let B := col g 1. Let C := col g 2. Let D := col g 3.
Let E := col g 4. Let F := col g 5. Let G := col g 6. Let H := col g 7.
(** segment_o2.cc:18-20 *)
Definition s2_alpha : vec := fun k => 2 * (B k + A k) - 4 * C k.
Definition s2_beta : vec := fun k => 4 * C k - 3 * A k - B k.
Definition s2_gamma : vec := A.
(** tria_o2.cc:41-46 *)
Definition t2_alpha : vec := A.
Definition t2_beta0 : vec := fun k => 4 * D k - 3 * A k - B k.
Definition t2_beta1 : vec := fun k => 4 * F k - 3 * A k - C k.
Definition t2_gamma0 : vec := fun k => 2 * (A k + B k) - 4 * D k.
Definition t2_gamma1 : vec := fun k => 2 * (A k + C k) - 4 * F k.
Definition t2_delta : vec := fun k => 4 * (A k + E k - D k - F k).
(** quad_o2.cc:44-49 *)
Definition q2_alpha : vec := A.
Definition q2_beta0 : vec := fun k => -3 * A k - B k + 4 * E k.
Definition q2_beta1 : vec := fun k => -3 * A k - D k + 4 * H k.
Definition q2_gamma0 : vec := fun k => 2 * (A k + B k) - 4 * E k.
Definition q2_gamma1 : vec := fun k => 2 * (A k + D k) - 4 * H k.
Definition q2_delta : vec := fun k => 5 * A k - B k - 3 * C k - D k - 4 * (E k - F k - G k + H k).
Definition q2_eps0 : vec := fun k => -2 * (A k + B k - C k - D k) + 4 * (E k - G k).
Definition q2_eps1 : vec := fun k => -2 * (A k - B k - C k + D k) - 4 * (F k - H k).
End Coefficients.

(** Reference points have as many coordinates as the reference element's dimension. *)
Definition with_local (g : geo) (x : list R) {T} (f : R -> R -> res T) : res T :=
  do _ <- lf_assert (length x =? dim_local (go_kind g))%nat;
  f (nth 0 x 0) (nth 1 x 0).
(** (0 <= local.array()).all() && (local.array() <= 1).all() *)
Definition in_range (x : list R) : bool := forallb (fun t => leb 0 t && leb t 1) x.
Definition is_o2 (k : gkind) : bool :=
  match k with GSegmentO2 | GTriaO2 | GQuadO2 => true | _ => false end.
(** The check at the beginning of the methods of the second-order geometries. *)
Definition range_check (g : geo) (x : list R) : res unit :=
  if is_o2 (go_kind g) then verify (in_range x) else Ok tt.

(** *** Global: point.cc:4-7, segment_o1.cc:7-9, tria_o1.cc:70-74, quad_o1.cc:67-81,
    306-310, segment_o2.cc:28-37, tria_o2.cc:50-59, quad_o2.cc:56-67 *)
Definition global_at (g : geo) (s t : R) : vec :=
  let c := col g in
  match go_kind g with
  | GPoint => c 0%nat
  | GSegmentO1 => fun k => c 1%nat k * s + c 0%nat k * (1 - s)
  | GTriaO1 => fun k => c 0%nat k * (1 - s - t) + c 1%nat k * s + c 2%nat k * t
  | GQuadO1 => fun k => c 0%nat k * ((1 - s) * (1 - t)) + c 1%nat k * (s * (1 - t)) +
                        c 2%nat k * (s * t) + c 3%nat k * ((1 - s) * t)
  | GParallelogram => fun k => c 0%nat k * (1 - s - t) + c 1%nat k * s + c 3%nat k * t
  | GSegmentO2 => fun k => (s2_alpha g k * s + s2_beta g k) * s + s2_gamma g k
  | GTriaO2 => fun k => (t2_beta0 g k * s + t2_beta1 g k * t) +
                        (t2_gamma0 g k * s² + t2_gamma1 g k * t²) +
                        t2_delta g k * (s * t) + t2_alpha g k
  | GQuadO2 => fun k => (q2_beta0 g k * s + q2_beta1 g k * t) +
                        (q2_gamma0 g k * s² + q2_gamma1 g k * t²) +
                        q2_delta g k * (s * t) +
                        (q2_eps0 g k * (s² * t) + q2_eps1 g k * (t² * s)) + q2_alpha g k
  end.
Definition Global (g : geo) (x : list R) : res vec :=
  do _ <- range_check g x;
  with_local g x (fun s t => Ok (global_at g s t)).

(** *** Jacobian: point.cc:10-12, segment_o1.cc:11-13, tria_o1.cc:57 and tria_o1.h:35-38,
    quad_o1.cc:85-102, 291, 312-314, segment_o2.cc:39-44, tria_o2.cc:64-82,
    quad_o2.cc:69-98; the list of the matrix' columns. *)
Definition jac_cols (g : geo) (s t : R) : list vec :=
  let c := col g in
  match go_kind g with
  | GPoint => []
  | GSegmentO1 => [vsub (c 1%nat) (c 0%nat)]
  | GTriaO1 => [vsub (c 1%nat) (c 0%nat); vsub (c 2%nat) (c 0%nat)]
  | GQuadO1 =>
      [(fun k => (c 1%nat k - c 0%nat k) * (1 - t) + (c 2%nat k - c 3%nat k) * t);
       (fun k => (c 3%nat k - c 0%nat k) * (1 - s) + (c 2%nat k - c 1%nat k) * s)]
  | GParallelogram => [vsub (c 1%nat) (c 0%nat); vsub (c 3%nat) (c 0%nat)]
  | GSegmentO2 => [fun k => 2 * s2_alpha g k * s + s2_beta g k]
  | GTriaO2 =>
      [(fun k => t2_beta0 g k + 2 * t2_gamma0 g k * s + t * t2_delta g k);
       (fun k => t2_beta1 g k + 2 * t2_gamma1 g k * t + s * t2_delta g k)]
  | GQuadO2 =>
      [(fun k => q2_beta0 g k + 2 * q2_gamma0 g k * s + q2_eps1 g k * t² +
                 2 * q2_eps0 g k * (s * t) + t * q2_delta g k);
       (fun k => q2_beta1 g k + 2 * q2_gamma1 g k * t + q2_eps0 g k * s² +
                 2 * q2_eps1 g k * (s * t) + s * q2_delta g k)]
  end.
Definition Jacobian (g : geo) (x : list R) : res (list vec) :=
  do _ <- range_check g x;
  with_local g x (fun s t => Ok (jac_cols g s t)).

(** *** JacobianInverseGramian and IntegrationElement *)
(** [jacobian.transpose().inverse()] for a 2x2 matrix (Eigen: adjugate over
    determinant), and the same formula written out in tria_o2.cc:97-100 and
    quad_o2.cc:111-113. *)
Definition det2 (J0 J1 : vec) : R := J0 0%nat * J1 1%nat - J1 0%nat * J0 1%nat.
Definition inv_transpose (J0 J1 : vec) : list vec :=
  [(fun k => match k with 0%nat => J1 1%nat | _ => - J1 0%nat end / det2 J0 J1);
   (fun k => match k with 0%nat => - J0 1%nat | _ => J0 0%nat end / det2 J0 J1)].
(** [jacobian * (jacobian.transpose() * jacobian).inverse()] and the formula with
    [tmp] in tria_o2.cc:106-114 and quad_o2.cc:119-127; solving with a QR
    decomposition (quad_o1.cc:125-128) is exact here. *)
Definition gram_det (d : nat) (J0 J1 : vec) : R := dot d J0 J0 * dot d J1 J1 - dot d J0 J1 * dot d J0 J1.
Definition pseudo_inverse (d : nat) (J0 J1 : vec) : list vec :=
  [(fun k => (J0 k * dot d J1 J1 + J1 k * - dot d J0 J1) / gram_det d J0 J1);
   (fun k => (J0 k * - dot d J0 J1 + J1 k * dot d J0 J0) / gram_det d J0 J1)].

(** point.cc:14-17, segment_o1.cc:15-25, tria_o1.cc:58-67 and tria_o1.h:39-42,
    quad_o1.cc:106-132, 290-303, 316-319, segment_o2.cc:46-64, tria_o2.cc:87-119,
    quad_o2.cc:100-132 *)
Definition JacobianInverseGramian (g : geo) (x : list R) : res (list vec) :=
  do _ <- range_check g x;
  with_local g x (fun s t =>
  let d := go_dim g in
  match go_kind g, jac_cols g s t with
  | GSegmentO1, [J0] =>
      Ok [if (d =? 1)%nat then fun k => / J0 k else fun k => J0 k / sqnorm d J0]
  | GSegmentO2, [J0] =>
      let jTj := 4 * s * (s * sqnorm d (s2_alpha g) + dot d (s2_alpha g) (s2_beta g)) +
                 sqnorm d (s2_beta g) in
      Ok [if (d =? 1)%nat then fun k => / J0 k else fun k => J0 k * / jTj]
  | _, [J0; J1] => Ok (if (d =? 2)%nat then inv_transpose J0 J1 else pseudo_inverse d J0 J1)
  | _, _ => Throw
  end).
(** point.cc:19-21, segment_o1.cc:27-31, tria_o1.cc:61,65-66 and tria_o1.h:43-46,
    quad_o1.cc:136-156, 296-302, 321-324, segment_o2.cc:66-76, tria_o2.cc:123-146,
    quad_o2.cc:134-158 *)
Definition IntegrationElement (g : geo) (x : list R) : res R :=
  do _ <- range_check g x;
  match go_kind g with
  | GPoint => Ok 1
  | _ =>
  with_local g x (fun s t =>
  let d := go_dim g in
  match go_kind g, jac_cols g s t with
  | GSegmentO1, [J0] => Ok (sqrt (sqnorm d J0))
  | GSegmentO2, [J0] =>
      Ok (sqrt (4 * s * (s * sqnorm d (s2_alpha g) + dot d (s2_alpha g) (s2_beta g)) +
                sqnorm d (s2_beta g)))
  | k, [J0; J1] =>
      Ok (if (d =? 2)%nat then Rabs (det2 J0 J1)
          else if is_o2 k then sqrt (Rabs (gram_det d J0 J1)) else sqrt (gram_det d J0 J1))
  | _, _ => Throw
  end)
  end.

(** geometry_interface.cc:11-39 *)
Definition Volume (g : geo) : res R :=
  match kind_el (go_kind g) with
  | kPoint => Ok 1
  | kSegment => do r <- IntegrationElement g [1 / 2]; Ok (1 * r)
  | kTria => do r <- IntegrationElement g [1 / 3; 1 / 3]; Ok (1 / 2 * r)
  | kQuad => do r <- IntegrationElement g [1 / 2; 1 / 2]; Ok (1 * r)
  end.

(** geometry_interface.h:220 (inherited by all classes but two), quad_o1.h:76, 146 *)
Definition isAffine (g : geo) : bool :=
  match go_kind g with GQuadO1 => false | GParallelogram => true | _ => true end.

(** *** SubGeometry: point.cc:23-28, segment_o1.cc:33-43, tria_o1.cc:76-97,
    quad_o1.cc:159-178, 327-347, segment_o2.cc:78-88, tria_o2.cc:149-171,
    quad_o2.cc:160-182; RefEl().SubSubEntity2SubEntity(1,i,1,j) is (i+j) mod n
    (lib/lf/base/ref_el.h:412-449).  A column number beyond the matrix is an error
    (quad_o2.cc:175 would let 8 pass). *)
Definition one_col (g : geo) (i n : nat) : res geo :=
  do _ <- lf_assert (i <? n)%nat;
  match nth_error (go_cols g) i with
  | Some c => new_geo GPoint (go_dim g) [c]
  | None => Assert
  end.
Definition SubGeometry (g : geo) (codim i : nat) : res geo :=
  let d := go_dim g in
  match go_kind g with
  | GPoint => match codim, i with 0%nat, 0%nat => new_geo GPoint d (go_cols g) | _, _ => Throw end
  | GSegmentO1 | GSegmentO2 =>
      match codim with
      | 0%nat => do _ <- lf_assert (i =? 0)%nat; new_geo (go_kind g) d (go_cols g)
      | 1%nat => one_col g i (num_cols (go_kind g))
      | _ => Throw
      end
  | GTriaO1 | GQuadO1 | GParallelogram =>
      let n := num_cols (go_kind g) in
      match codim with
      | 0%nat => do _ <- lf_assert (i =? 0)%nat; new_geo (go_kind g) d (go_cols g)
      | 1%nat => do _ <- lf_assert (i <? n)%nat;
                 new_geo GSegmentO1 d [col g i; col g ((i + 1) mod n)]
      | 2%nat => one_col g i n
      | _ => Throw
      end
  | GTriaO2 =>
      match codim with
      | 0%nat => do _ <- lf_assert (i =? 0)%nat; new_geo GTriaO2 d (go_cols g)
      | 1%nat => do _ <- lf_assert (i <=? 2)%nat;
                 new_geo GSegmentO2 d [col g i; col g ((i + 1) mod 3); col g (i + 3)]
      | 2%nat => one_col g i 6
      | _ => Throw
      end
  | GQuadO2 =>
      match codim with
      | 0%nat => do _ <- lf_assert (i =? 0)%nat; new_geo GQuadO2 d (go_cols g)
      | 1%nat => do _ <- lf_assert (i <=? 3)%nat;
                 new_geo GSegmentO2 d [col g i; col g ((i + 1) mod 4); col g (i + 4)]
      | 2%nat => one_col g i 9
      | _ => Throw
      end
  end.

(** *** ChildGeometry *)
Definition same_el (a b : refel) : bool :=
  match a, b with
  | kPoint, kPoint | kSegment, kSegment | kTria, kTria | kQuad, kQuad => true
  | _, _ => false
  end.
Fixpoint mapM {A B} (f : A -> res B) (l : list A) : res (list B) :=
  match l with
  | [] => Ok []
  | a :: r => do b <- f a; do bs <- mapM f r; Ok (b :: bs)
  end.
(** [h_lattice * child_polygons[l].cast<double>()] *)
Definition scaled (lc : Z) (poly : lpoly) : list (list R) :=
  map (map (fun z => 1 / IZR lc * IZR z)) poly.
(** (a + b) / 2 *)
Definition mid (a b : list R) : list R := map (fun p => (fst p + snd p) / 2) (combine a b).
(** Midpoints of consecutive corners, the last one with the first one. *)
Definition mids (poly : list (list R)) : list (list R) :=
  map (fun j => mid (nth j poly []) (nth ((j + 1) mod length poly) poly [])) (seq 0 (length poly)).
(** The geometry built from one scaled child polygon. *)
Definition child_from (g : geo) (k : gkind) (pts : list (list R)) : res geo :=
  do ps <- mapM (Global g) pts; new_geo k (go_dim g) ps.

(** One iteration of the loop over the children: segment_o1.cc:66-90,
    tria_o1.cc:119-149, quad_o1.cc:205-250, 375-432, segment_o2.cc:109-140,
    tria_o2.cc:192-240, quad_o2.cc:203-276. *)
Definition child (g : geo) (lc : Z) (codim : nat) (poly : lpoly) : res geo :=
  let pts := scaled lc poly in
  let n := length poly in
  let kd := go_kind g in
  do _ <- verify (forallb (fun c => length c =? dim_local kd)%nat poly);
  match kind_el kd with
  | kPoint => Throw
  | kSegment =>
      do _ <- verify (n =? 2 - codim)%nat;
      match codim, is_o2 kd with
      | 0%nat, false => child_from g GSegmentO1 pts
      | 0%nat, true => child_from g GSegmentO2 (pts ++ [mid (nth 0 pts []) (nth 1 pts [])])
      | 1%nat, _ => child_from g GPoint pts
      | _, _ => Throw
      end
  | kTria =>
      do _ <- verify (n =? 3 - codim)%nat;
      match codim, is_o2 kd with
      | 0%nat, false => child_from g GTriaO1 pts
      | 0%nat, true => child_from g GTriaO2 (pts ++ mids pts)
      | 1%nat, false => child_from g GSegmentO1 pts
      | 1%nat, true => child_from g GSegmentO2 (pts ++ [mid (nth 0 pts []) (nth 1 pts [])])
      | 2%nat, _ => child_from g GPoint pts
      | _, _ => Throw
      end
  | kQuad =>
      match codim with
      | 0%nat =>
          if (n =? 3)%nat then
            if is_o2 kd then child_from g GTriaO2 (pts ++ mids pts) else child_from g GTriaO1 pts
          else if (n =? 4)%nat then
            match kd with
            | GQuadO2 => child_from g GQuadO2 (pts ++ mids pts)
            | GParallelogram =>
                do b <- isParallelogram poly;
                if b then child_from g GParallelogram pts else child_from g GQuadO1 pts
            | _ => child_from g GQuadO1 pts
            end
          else Throw
      | 1%nat =>
          do _ <- verify (n =? 2)%nat;
          if is_o2 kd then child_from g GSegmentO2 (pts ++ [mid (nth 0 pts []) (nth 1 pts [])])
          else child_from g GSegmentO1 pts
      | 2%nat => do _ <- verify (n =? 1)%nat; child_from g GPoint pts
      | _ => Throw
      end
  end.
(** point.cc:30-41, segment_o1.cc:45-92, tria_o1.cc:99-151, quad_o1.cc:181-252,
    351-434, segment_o2.cc:90-143, tria_o2.cc:173-243, quad_o2.cc:184-279 *)
Definition ChildGeometry (g : geo) (P : pattern) (codim : nat) : res (list geo) :=
  do _ <- verify (same_el (p_el P) (kind_el (go_kind g)));
  match go_kind g with
  | GPoint =>
      do _ <- verify (codim =? 0)%nat;
      do n <- NumChildren P 0;
      do _ <- verify (n =? 1)%nat;
      do c <- new_geo GPoint (go_dim g) (go_cols g);
      Ok [c]
  | _ =>
      do _ <- verify (codim <=? dim_local (go_kind g))%nat;
      do polys <- ChildPolygons P codim;
      do n <- NumChildren P codim;
      do _ <- verify (length polys =? n)%nat;
      mapM (child g (p_lc P) codim) polys
  end.
