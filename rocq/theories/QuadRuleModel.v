(** Model of the construction of quadrature rules.

    Models lib/lf/quad/gauss_quadrature.cc, make_quad_rule.cc, make_quad_rule_nodal.cc
    and quad_rule_cache.{h,cc}.  Simplifications: exact real arithmetic.  The Newton
    iterations for the roots are not run: the point at which the loop evaluates the
    polynomial for the last time is a parameter ([stop], [stopj]).  The tables of
    quad_rules_tria.cc are a parameter here ([hard]). *)
From Coq Require Import Reals List Arith Bool.
Import ListNotations.
From Verif Require Import Base MeshModel MeshView DofModel RefPatModel FeModel QuadModel.
Local Open Scope R_scope.

(** *** Gauss-Legendre *)
(** gauss_quadrature.cc:42-50: (p1, p2) after the loop over j. *)
Definition gl_step (z : R) (s : R * R) (j : nat) : R * R :=
  (((2 * INR j + 1) * z * fst s - INR j * snd s) / (INR j + 1), fst s).
Definition gl_values (n : nat) (z : R) : R * R := fold_left (gl_step z) (seq 0 n) (1, 0).
(** 55: the derivative *)
Definition gl_pp (n : nat) (z : R) : R :=
  let p := gl_values n z in INR n * (z * fst p - snd p) / (z * z - 1).
(** 57-58: the last Newton step *)
Definition gl_next (n : nat) (z : R) : R := z - fst (gl_values n z) / gl_pp n z.
(** 17-68; the loop over i writes entries i and n - 1 - i. *)
Definition GaussLegendre (stop : nat -> nat -> R) (n : nat) : res (list R * list R) :=
  do _ <- lf_assert (0 <? n)%nat;
  let m := ((n + 1) / 2)%nat in
  let step (s : list R * list R) (i : nat) :=
    let z1 := stop n i in
    let z := gl_next n z1 in let pp := gl_pp n z1 in
    let w := 1 / ((1 - z * z) * pp * pp) in
    (upd (n - 1 - i) (1 / 2 * (1 + z)) (upd i (1 / 2 * (1 - z)) (fst s)),
     upd (n - 1 - i) w (upd i w (snd s))) in
  Ok (fold_left step (seq 0 m) (repeat 0 n, repeat 0 n)).

(** *** Gauss-Jacobi with alpha = 1, beta = 0, the only case in which it is called *)
(** 149-164: (temp, p1, p2) after the loop over j. *)
Definition gj_step (z : R) (s : R * R * R) (j : nat) : R * R * R :=
  let '(_, p1, p2) := s in
  let temp := 2 * INR j + 1 in
  let a := 2 * INR j * (INR j + 1) * (temp - 2) in
  let b := (temp - 1) * (1 + temp * (temp - 2) * z) in
  let c := 2 * (INR j - 1 + 1) * (INR j - 1) * temp in
  (temp, (b * p1 - c * p2) / a, p1).
Definition gj_values (n : nat) (z : R) : R * R * R :=
  fold_left (gj_step z) (seq 2 (n - 1)) (3, (1 + 3 * z) / 2, 1).
(** 165-167 *)
Definition gj_pp (n : nat) (z : R) : R :=
  let '(temp, p1, p2) := gj_values n z in
  (INR n * (1 - temp * z) * p1 + 2 * (INR n + 1) * INR n * p2) / (temp * (1 - z * z)).
(** 171-172 *)
Definition gj_next (n : nat) (z : R) : R := z - snd (fst (gj_values n z)) / gj_pp n z.
(** 181-185; lgamma(k + 1) is the logarithm of k! *)
Definition gj_weight (n : nat) (z : R) : R :=
  let '(temp, p1, p2) := gj_values n z in
  (INR (fact n) * INR (fact (n - 1)) / (INR (fact n) * INR (fact (n + 1)))) * temp * 2 / (gj_pp n z * p2).
(** 71-195; that more than ten iterations are a failure (177) is not modelled. *)
Definition GaussJacobi (stopj : nat -> nat -> R) (n : nat) : res (list R * list R) :=
  do _ <- lf_assert (0 <? n)%nat;
  Ok (map (fun i => gj_next n (stopj n i)) (seq 0 n), map (fun i => gj_weight n (stopj n i)) (seq 0 n)).

(** *** make_QuadRule *)
(** Kronecker product of vectors *)
Definition kron (a b : list R) : list R := concat (map (fun x => map (fun y => x * y) b) a).
Definition replicate {A} (n : nat) (l : list A) : list A := concat (repeat l n).
(** Columns from two rows *)
Definition columns (r0 r1 : list R) : list (list R) := map (fun p => [fst p; snd p]) (combine r0 r1).
Section Make.
Variable leg jac : nat -> res (list R * list R).
Variable hard : nat -> res quadrule.
(** make_quad_rule.cc:22-27 *)
Definition make_segment (degree : nat) : res quadrule :=
  let n := (degree / 2 + 1)%nat in
  do pw <- leg n;
  QuadRule kSegment (map (fun x => [x]) (fst pw)) (snd pw) (2 * n - 1).
(** 28-37 *)
Definition make_quad (degree : nat) : res quadrule :=
  let n := (degree / 2 + 1)%nat in
  do pw <- leg n;
  let p := fst pw in
  QuadRule kQuad (columns (kron p (repeat 1 n)) (replicate n p)) (kron (snd pw) (snd pw)) (2 * n - 1).
(** 137-151 *)
Definition make_duffy (degree : nat) : res quadrule :=
  let n := (degree / 2 + 1)%nat in
  do lw <- leg n;
  do jw <- jac n;
  let jp := map (fun x => (x + 1) / 2) (fst jw) in
  let jw := map (fun w => w * (1 / 4)) (snd jw) in
  QuadRule kTria (columns (kron (fst lw) (map (fun y => 1 - y) jp)) (replicate n jp)) (kron (snd lw) jw) (2 * n - 1).
(** 38-136 *)
Definition make_tria (degree : nat) : res quadrule :=
  if (degree =? 3)%nat then hard 4
  else if ((1 <=? degree) && (degree <=? 50))%nat then hard degree
  else make_duffy degree.
(** 21-157 *)
Definition make_QuadRule (el : refel) (degree : nat) : res quadrule :=
  match el with
  | kSegment => make_segment degree
  | kQuad => make_quad degree
  | kTria => make_tria degree
  | kPoint => Throw
  end.

(** *** QuadRuleCache *)
(** quad_rule_cache.h:69: the member cache_, one container per reference element *)
Definition cache := refel -> list quadrule.
Definition empty_cache : cache := fun _ => [].
Definition set_cache (c : cache) (el : refel) (l : list quadrule) : cache :=
  fun el' => if refel_eqb el el' then l else c el'.
(** std::deque::resize to a larger size *)
Definition grow (l : list quadrule) (n : nat) : list quadrule := l ++ repeat invalid_rule (n - length l).
(** quad_rule_cache.cc:13-25; the result is a reference to entry [degree]. *)
Definition Get (c : cache) (el : refel) (degree : nat) : res (cache * quadrule) :=
  let v := if (length (c el) <? degree + 1)%nat then grow (c el) (degree + 1) else c el in
  do qr <- entry v degree;
  do v' <- (if (NumPoints qr =? 0)%nat then do q <- make_QuadRule el degree; Ok (upd degree q v) else Ok v);
  do q <- entry v' degree;
  do _ <- lf_assert (degree <=? qr_degree q)%nat;
  Ok (set_cache c el v', q).
(** What a call leaves behind that fails in make_QuadRule (20): the resized container. *)
Definition after_failure (c : cache) (el : refel) (degree : nat) : cache :=
  set_cache c el (if (length (c el) <? degree + 1)%nat then grow (c el) (degree + 1) else c el).
End Make.

(** *** Other rules *)
(** make_quad_rule.cc:159-171 *)
Definition make_TriaQR_MidpointRule : res quadrule := QuadRule kTria [[1 / 3; 1 / 3]] [1 / 2] 1.
(** 173-193; the weights 0.16666666666666665741 are the double nearest to 1/6, here
    1/6. *)
Definition make_TriaQR_EdgeMidpointRule : res quadrule :=
  QuadRule kTria [[1 / 2; 0]; [1 / 2; 1 / 2]; [0; 1 / 2]] [1 / 6; 1 / 6; 1 / 6] 2.
(** 195-216 *)
Definition make_QuadQR_EdgeMidpointRule : res quadrule :=
  QuadRule kQuad [[1 / 2; 0]; [1; 1 / 2]; [1 / 2; 1]; [0; 1 / 2]] [1 / 4; 1 / 4; 1 / 4; 1 / 4] 1.
(** 218-239 *)
Definition make_TriaQR_P6O4 : res quadrule :=
  QuadRule kTria [[1 / 2; 0]; [1 / 2; 1 / 2]; [0; 1 / 2]; [1 / 6; 1 / 6]; [1 / 6; 2 / 3]; [2 / 3; 1 / 6]]
    (map (fun w => w / 60) [1; 1; 1; 9; 9; 9]) 3.
(** lib/lf/base/ref_el.h: NodeCoords *)
Definition node_coords (t : refel) : list (list R) :=
  match t with
  | kPoint => [[]]
  | kSegment => [[0]; [1]]
  | kTria => [[0; 0]; [1; 0]; [0; 1]]
  | kQuad => [[0; 0]; [1; 0]; [1; 1]; [0; 1]]
  end.
(** make_quad_rule_nodal.cc:13-22 *)
Definition make_QuadRuleNodal (t : refel) : res quadrule :=
  let vol := match t with kTria => 1 / 2 | _ => 1 end in
  QuadRule t (node_coords t) (repeat (vol / INR (num_nodes t)) (num_nodes t)) 1.
