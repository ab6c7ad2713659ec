(** Model of the Lagrangian finite elements of degree 1, 2, 3.

    Models lib/lf/uscalfe/lagr_fe.h and fe_space_lagrange_o{1,2,3}.h.
    Simplification: exact real arithmetic (1/3.0 is one third). *)
From Coq Require Import Reals List Arith Bool.
Import ListNotations.
From Verif Require Import Base MeshModel MeshView DofModel FeModel.
Local Open Scope R_scope.

Definition point1 {A} (x : list R) (f : R -> A) : res A :=
  match x with [s] => Ok (f s) | _ => Assert end.
Definition point2 {A} (x : list R) (f : R -> R -> A) : res A :=
  match x with [s; t] => Ok (f s t) | _ => Assert end.
(** LF_ASSERT_MSG(codim <= dim) *)
Definition codim_le (d c : nat) (n : nat) : res nat := do _ <- lf_assert (c <=? d); Ok n.
(** The stricter check of the linear elements: 92-100, 203-211, 318-326 *)
Definition codim_sub (el : refel) (c i n : nat) : res nat :=
  do _ <- lf_assert (c <=? dimension el);
  do _ <- lf_assert (i <? num_sub_entities el c)%nat; Ok n.

(** *** Linear elements *)
(** 56-145 *)
Definition o1_tria : srfe := {|
  fe_el := kTria; fe_degree := 1; fe_total := 3;
  fe_num1 := fun c => codim_le 2 c (if c =? 2 then 1 else 0)%nat;
  fe_num2 := fun c i => codim_sub kTria c i (if c =? 2 then 1 else 0)%nat;
  fe_eval := fun p => point2 p (fun x y => [1 - x - y; x; y]);
  fe_grad := fun p => point2 p (fun _ _ => [[-1; -1]; [1; 0]; [0; 1]]);
  fe_nodes := [[0; 0]; [1; 0]; [0; 1]]; fe_num_nodes := 3; fe_n2d := identity_n2d 3
|}.
(** 164-263 *)
Definition o1_quad : srfe := {|
  fe_el := kQuad; fe_degree := 1; fe_total := 4;
  fe_num1 := fun c => codim_le 2 c (if c =? 2 then 1 else 0)%nat;
  fe_num2 := fun c i => codim_sub kQuad c i (if c =? 2 then 1 else 0)%nat;
  fe_eval := fun p => point2 p (fun x y => [(1 - x) * (1 - y); x * (1 - y); x * y; (1 - x) * y]);
  fe_grad := fun p => point2 p (fun x y => [[y - 1; x - 1]; [1 - y; - x]; [y; x]; [- y; 1 - x]]);
  fe_nodes := [[0; 0]; [1; 0]; [1; 1]; [0; 1]]; fe_num_nodes := 4; fe_n2d := identity_n2d 4
|}.
(** 283-370 *)
Definition o1_segment : srfe := {|
  fe_el := kSegment; fe_degree := 1; fe_total := 2;
  fe_num1 := fun c => codim_le 1 c (if c =? 1 then 1 else 0)%nat;
  fe_num2 := fun c i => codim_sub kSegment c i (if c =? 1 then 1 else 0)%nat;
  fe_eval := fun p => point1 p (fun x => [1 - x; x]);
  fe_grad := fun p => point1 p (fun _ => [[-1]; [1]]);
  fe_nodes := [[0]; [1]]; fe_num_nodes := 2; fe_n2d := identity_n2d 2
|}.

(** *** Quadratic elements *)
(** 399-546 *)
Definition o2_tria : srfe := {|
  fe_el := kTria; fe_degree := 2; fe_total := 6;
  fe_num1 := fun c => codim_le 2 c (if c =? 0 then 0 else 1)%nat;
  fe_num2 := fun c i => codim_le 2 c (if c =? 0 then 0 else 1)%nat;
  fe_eval := fun p => point2 p (fun x y =>
    [2 * (1 - x - y) * (1 / 2 - x - y); 2 * x * (x - 1 / 2); 2 * y * (y - 1 / 2);
     4 * (1 - x - y) * x; 4 * x * y; 4 * (1 - x - y) * y]);
  fe_grad := fun p => point2 p (fun x y =>
    [[-3 + 4 * x + 4 * y; -3 + 4 * x + 4 * y]; [4 * x - 1; 0]; [0; 4 * y - 1];
     [4 - 8 * x - 4 * y; -4 * x]; [4 * y; 4 * x]; [-4 * y; 4 - 8 * y - 4 * x]]);
  fe_nodes := [[0; 0]; [1; 0]; [0; 1]; [1 / 2; 0]; [1 / 2; 1 / 2]; [0; 1 / 2]];
  fe_num_nodes := 6; fe_n2d := identity_n2d 6
|}.
(** 562-686 *)
Definition o2_seg_eval (x : R) : list R :=
  [2 * (1 - x) * (1 / 2 - x); 2 * x * (x - 1 / 2); 4 * (1 - x) * x].
Definition o2_seg_grad (x : R) : list R := [4 * x - 3; 4 * x - 1; 4 - 8 * x].
Definition o2_segment : srfe := {|
  fe_el := kSegment; fe_degree := 2; fe_total := 3;
  fe_num1 := fun c => codim_le 1 c 1;
  fe_num2 := fun c i => codim_le 1 c 1;
  fe_eval := fun p => point1 p o2_seg_eval;
  fe_grad := fun p => point1 p (fun x => map (fun g => [g]) (o2_seg_grad x));
  fe_nodes := [[0]; [1]; [1 / 2]]; fe_num_nodes := 3; fe_n2d := identity_n2d 3
|}.
(** Tensor product of segment functions, 781-795 and 1345-1361; gradients 808-849 and
    1373-1411. *)
Definition tensor_eval (ev : R -> list R) (mp : list (nat * nat)) (x y : R) : list R :=
  map (fun p => nth (fst p) (ev x) 0 * nth (snd p) (ev y) 0) mp.
Definition tensor_grad (ev gr : R -> list R) (mp : list (nat * nat)) (x y : R) : list (list R) :=
  map (fun p => [nth (fst p) (gr x) 0 * nth (snd p) (ev y) 0;
                 nth (snd p) (gr y) 0 * nth (fst p) (ev x) 0]) mp.
(** 916-924 *)
Definition o2_mapping : list (nat * nat) :=
  [(0, 0); (1, 0); (1, 1); (0, 1); (2, 0); (1, 2); (2, 1); (0, 2); (2, 2)]%nat.
(** 712-906 *)
Definition o2_quad : srfe := {|
  fe_el := kQuad; fe_degree := 2; fe_total := 9;
  fe_num1 := fun c => codim_le 2 c 1;
  fe_num2 := fun c i => codim_le 2 c 1;
  fe_eval := fun p => point2 p (tensor_eval o2_seg_eval o2_mapping);
  fe_grad := fun p => point2 p (tensor_grad o2_seg_eval o2_seg_grad o2_mapping);
  fe_nodes := [[0; 0]; [1; 0]; [1; 1]; [0; 1]; [1 / 2; 0]; [1; 1 / 2]; [1 / 2; 1]; [0; 1 / 2];
               [1 / 2; 1 / 2]];
  fe_num_nodes := 9; fe_n2d := identity_n2d 9
|}.

(** *** Cubic elements *)
(** 944-1140 *)
Definition o3_tria_eval (x y : R) : list R :=
  let l0 := 1 - x - y in let l1 := x in let l2 := y in
  [9 / 2 * l0 * (l0 - 1 / 3) * (l0 - 2 / 3);
   9 / 2 * l1 * (l1 - 1 / 3) * (l1 - 2 / 3);
   9 / 2 * l2 * (l2 - 1 / 3) * (l2 - 2 / 3);
   27 / 2 * l0 * l1 * (l0 - 1 / 3);
   27 / 2 * l0 * l1 * (l1 - 1 / 3);
   27 / 2 * l1 * l2 * (l1 - 1 / 3);
   27 / 2 * l1 * l2 * (l2 - 1 / 3);
   27 / 2 * l2 * l0 * (l2 - 1 / 3);
   27 / 2 * l2 * l0 * (l0 - 1 / 3);
   27 * l0 * l1 * l2].
Definition o3_tria_grad (x y : R) : list (list R) :=
  let l0 := 1 - x - y in let l1 := x in let l2 := y in
  let d l := (l - 1 / 3) * (l - 2 / 3) + l * (l - 2 / 3) + l * (l - 1 / 3) in
  [[- (9 / 2) * d l0; - (9 / 2) * d l0];
   [9 / 2 * d l1; 0];
   [0; 9 / 2 * d l2];
   [27 / 2 * (- l1 * (l0 - 1 / 3) + l0 * (l0 - 1 / 3) - l0 * l1);
    - (27 / 2) * (l1 * (l0 - 1 / 3) + l0 * l1)];
   [27 / 2 * (- l1 * (l1 - 1 / 3) + l0 * (l1 - 1 / 3) + l0 * l1); - (27 / 2) * l1 * (l1 - 1 / 3)];
   [27 / 2 * (l2 * (l1 - 1 / 3) + l1 * l2); 27 / 2 * (l1 * (l1 - 1 / 3))];
   [27 / 2 * (l2 * (l2 - 1 / 3)); 27 / 2 * (l1 * (l2 - 1 / 3) + l1 * l2)];
   [- (27 / 2) * l2 * (l2 - 1 / 3); 27 / 2 * (l0 * (l2 - 1 / 3) - l2 * (l2 - 1 / 3) + l0 * l2)];
   [- (27 / 2) * (l2 * (l0 - 1 / 3) + l2 * l0);
    27 / 2 * (l0 * (l0 - 1 / 3) - l2 * (l0 - 1 / 3) - l2 * l0)];
   [27 * (- l1 * l2 + l0 * l2); 27 * (- l1 * l2 + l0 * l1)]].
Definition o3_tria : srfe := {|
  fe_el := kTria; fe_degree := 3; fe_total := 10;
  fe_num1 := fun c => codim_le 2 c (if c =? 1 then 2 else 1)%nat;
  fe_num2 := fun c i => codim_le 2 c (if c =? 1 then 2 else 1)%nat;
  fe_eval := fun p => point2 p o3_tria_eval;
  fe_grad := fun p => point2 p o3_tria_grad;
  fe_nodes := [[0; 0]; [1; 0]; [0; 1]] ++
    map (map (fun z => z * (1 / 3))) [[1; 0]; [2; 0]; [2; 1]; [1; 2]; [0; 2]; [0; 1]] ++
    [[1 / 3; 1 / 3]];
  fe_num_nodes := 10; fe_n2d := identity_n2d 10
|}.
(** 1154-1252 *)
Definition o3_seg_eval (x : R) : list R :=
  [9 / 2 * (1 - x) * (1 / 3 - x) * (2 / 3 - x);
   9 / 2 * x * (x - 1 / 3) * (x - 2 / 3);
   27 / 2 * x * (1 - x) * (2 / 3 - x);
   27 / 2 * x * (1 - x) * (x - 1 / 3)].
Definition o3_seg_grad (x : R) : list R :=
  [- (27 / 2) * x * x + 18 * x - 11 / 2;
   27 / 2 * x * x - 9 * x + 1;
   81 / 2 * x * x - 45 * x + 9;
   - (81 / 2) * x * x + 36 * x - 9 / 2].
Definition o3_segment : srfe := {|
  fe_el := kSegment; fe_degree := 3; fe_total := 4;
  fe_num1 := fun c => codim_le 1 c (if c =? 0 then 2 else 1)%nat;
  fe_num2 := fun c i => codim_le 1 c (if c =? 0 then 2 else 1)%nat;
  fe_eval := fun p => point1 p o3_seg_eval;
  fe_grad := fun p => point1 p (fun x => map (fun g => [g]) (o3_seg_grad x));
  fe_nodes := [[0]; [1]; [1 / 3]; [2 / 3]]; fe_num_nodes := 4; fe_n2d := identity_n2d 4
|}.
(** 1464-1479 *)
Definition o3_mapping : list (nat * nat) :=
  [(0, 0); (1, 0); (1, 1); (0, 1); (2, 0); (3, 0); (1, 2); (1, 3); (3, 1); (2, 1); (0, 3); (0, 2);
   (2, 2); (3, 2); (3, 3); (2, 3)]%nat.
(** 1278-1454 *)
Definition o3_quad : srfe := {|
  fe_el := kQuad; fe_degree := 3; fe_total := 16;
  fe_num1 := fun c => codim_le 2 c (match c with 0 => 4 | 1 => 2 | _ => 1 end)%nat;
  fe_num2 := fun c i => codim_le 2 c (match c with 0 => 4 | 1 => 2 | _ => 1 end)%nat;
  fe_eval := fun p => point2 p (tensor_eval o3_seg_eval o3_mapping);
  fe_grad := fun p => point2 p (tensor_grad o3_seg_eval o3_seg_grad o3_mapping);
  fe_nodes := [[0; 0]; [1; 0]; [1; 1]; [0; 1]] ++
    map (map (fun z => z * (1 / 3)))
      [[1; 0]; [2; 0]; [3; 1]; [3; 2]; [2; 3]; [1; 3]; [0; 2]; [0; 1]] ++
    map (map (fun z => z * (1 / 3))) [[1; 1]; [2; 1]; [2; 2]; [1; 2]];
  fe_num_nodes := 16; fe_n2d := identity_n2d 16
|}.

(** The elements that FeSpaceLagrangeO1, O2, O3 pass to UniformScalarFESpace:
    fe_space_lagrange_o1.h:40-50, fe_space_lagrange_o2.h, fe_space_lagrange_o3.h. *)
Inductive order := O1 | O2 | O3.
Definition ord (k : order) : nat := match k with O1 => 1 | O2 => 2 | O3 => 3 end.
Definition lagrange (k : order) (t : refel) : srfe :=
  match t, k with
  | kPoint, _ => fe_point (ord k)
  | kSegment, O1 => o1_segment | kSegment, O2 => o2_segment | kSegment, O3 => o3_segment
  | kTria, O1 => o1_tria | kTria, O2 => o2_tria | kTria, O3 => o3_tria
  | kQuad, O1 => o1_quad | kQuad, O2 => o2_quad | kQuad, O3 => o3_quad
  end.
Definition lagrange_space (k : order) (m : mesh) : res fe_space :=
  uniform_space m (Some (lagrange k kTria)) (Some (lagrange k kQuad))
                  (Some (lagrange k kSegment)) (Some (lagrange k kPoint)).
